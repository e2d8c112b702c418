(** * C84: a model trained for fewer iterations is the longer one asked for fewer estimators *)

From Coq Require Import ZArith List Bool String Lia ZifyBool.
From Verif Require Import Go GoFloat GoText UtilText LgTree Transformation Ensembles Leaves LgTextIO LgJsonIO XgBin XgIO Pickle SkClasses SkIO.
From Verif Require Import Spec_Params Spec_LgFile Spec_Predict Spec_XgBin Spec_XgFile Spec_Tree Spec_LgJson Spec_Pickle Spec_SkTree Spec_SkFile Demo DemoText.
From Verif Require Import Pf_Go Pf_Leaves Pf_Words Pf_XgBin Pf_LgFile Prop_Values Prop_LgText Prop_LgJson Prop_Sk Prop_Xg Prop_Spelling Ex_LgText Ex_Xg.
Local Open Scope Z_scope.

(** the parameters of the header, but for the list of trees *)
Definition other_header_keys : list bytes :=
  map bs ["version"; "num_class"; "num_tree_per_iteration"; "max_feature_idx"; "average_output"; "objective"]%string.

(** [e'] answers as the first [k] estimators of [e], whatever is asked of it *)
Definition first_estimators (p : platform) (k : Z) (e e' : Ensemble) : Prop :=
  NEstimators e' = Ok k /\ (forall nEstimators x predictions, 0 < nEstimators <= k -> Predict p e' x nEstimators predictions = Predict p e x nEstimators predictions) /\
  (forall nEstimators x predictions, ~ 0 < nEstimators < k -> Predict p e' x nEstimators predictions = Predict p e x k predictions) /\
  NRawOutputGroups e' = NRawOutputGroups e /\ NFeatures e' = NFeatures e /\ Name e' = Name e /\ Transformation_ e' = Transformation_ e.

Lemma first_from_prefix : forall p k e e' K, well_formed e -> well_formed e' -> same_prefix k e e' -> ~ wants_leaves e ->
  NEstimators e = Ok K -> NEstimators e' = Ok k -> 1 <= k <= K -> Name e' = Name e -> first_estimators p k e e'.
Proof.
  intros p k e e' K W W' S L N N' Hk Hn. assert (S' : forall n, n <= k -> same_prefix n e e').
  { intros n Hle. destruct S as [S1 S2]. split; [exact S1|]. pose proof W as (W1 & _). destruct (core (eBase e)) as [m|m|m|] eqn:C; destruct (core (eBase e')); try contradiction.
    - destruct S2 as (A & B & D & E). repeat (split; [assumption|]). intros i Hi. apply E. assert (1 <= lgNRawOutputGroups m) by (clear - W1 C; unfold NRawOutputGroups in W1; rewrite core_NRaw, C in W1; cbn in W1; lia). nia.
    - destruct S2 as (A & B & D & E). repeat (split; [assumption|]). intros i Hi. apply E. assert (1 <= xgNRawOutputGroups m) by (clear - W1 C; unfold NRawOutputGroups in W1; rewrite core_NRaw, C in W1; cbn in W1; lia). nia. }
  assert (P : forall n x out, 0 < n <= k -> Predict p e' x n out = Predict p e x n out).
  { intros n x out Hn'. symmetry. apply (C10_later_estimators_ignored p e e' x n out K k); auto; try lia. apply S'. lia. }
  split; [exact N'|]. split; [exact P|]. split.
  - intros n x out Hn'. rewrite (proj1 (C10_adjusted_estimators p e' x n out W' k N' Hn')). apply P. lia.
  - destruct S as [S1 S2]. unfold NRawOutputGroups, NFeatures, Transformation_. rewrite S1, !(core_NRaw (eBase _)), !(core_NFeat (eBase _)).
    destruct (core (eBase e)) as [m|m|m|]; destruct (core (eBase e')) as [m'|m'|m'|]; try contradiction; destruct S2 as (A & B & _); cbn; rewrite A, B; auto.
Qed.

Lemma header_other : forall ps ps' m n m' n', (forall key, In key other_header_keys -> UtilText.lookup ps key = UtilText.lookup ps' key) ->
  lg_header ps = Ok (m, n) -> lg_header ps' = Ok (m', n') -> m = m' /\ forall load avg g, lg_transform ps load avg g = lg_transform ps' load avg g.
Proof.
  intros ps ps' m n m' n' H. assert (K : forall s, In s ["version"; "num_class"; "num_tree_per_iteration"; "max_feature_idx"; "average_output"; "objective"]%string -> UtilText.lookup ps (bs s) = UtilText.lookup ps' (bs s)).
  { intros s I. apply H. unfold other_header_keys. apply in_map. exact I. }
  unfold lg_header, lg_transform, Compare, ToInt, ToString, Contains.
  rewrite (K "version"%string), (K "num_class"%string), (K "num_tree_per_iteration"%string), (K "max_feature_idx"%string), (K "average_output"%string), (K "objective"%string) by (cbn; tauto).
  intros H1 H2. split; [|reflexivity].
  apply bind_ok in H1. destruct H1 as (v & E1 & H1). rewrite E1 in H2. cbn [bind] in H2.
  apply bind_ok in H1. destruct H1 as (c & E2 & H1). rewrite E2 in H2. cbn [bind] in H2.
  apply bind_ok in H1. destruct H1 as (i & E3 & H1). rewrite E3 in H2. cbn [bind] in H2.
  destruct (negb _); [discriminate|]. destruct (_ <? 1); [discriminate|]. destruct (_ <? 1); [discriminate|].
  apply bind_ok in H1. destruct H1 as (f & E4 & H1). rewrite E4 in H2. cbn [bind] in H2. cbv zeta in *.
  destruct (UtilText.lookup ps (bs "tree_sizes")); [|discriminate]. destruct (UtilText.lookup ps' (bs "tree_sizes")); [|discriminate].
  destruct (zlen (split _ _) =? 0); [discriminate|]. destruct (negb _); [discriminate|]. injection H1 as <- _.
  destruct (zlen (split _ _) =? 0); [discriminate|]. destruct (negb _); [discriminate|]. injection H2 as <- _. reflexivity.
Qed.

Lemma trees_first : forall p n eof eof' a b kas kbs, blocks eof a kas -> blocks eof' b kbs -> (List.length kbs <= n)%nat -> Forall2 (say_the_same tree_keys) (firstn (List.length kbs) kas) kbs ->
  forall ts r, lg_read_trees p n (mkReader a eof) = Ok (ts, r) -> exists r', lg_read_trees p (List.length kbs) (mkReader b eof') = Ok (firstn (List.length kbs) ts, r').
Proof.
  intros p n. induction n as [|n IH]; intros eof eof' a b kas kbs Ha Hb L F ts r H.
  { destruct kbs; [|cbn in L; lia]. cbn. eauto. }
  destruct kbs as [|kb kbs]; [cbn; eauto|]. cbn [List.length firstn lg_read_trees] in *.
  destruct Ha as [|a ka ra kas Ba Ha]; [inversion F|]. cbn [firstn] in F. inversion F as [|? ? ? ? S0 F']; subst. inversion Hb as [|? ? rb ? Bb Hb']; subst.
  destruct (read_block _ _ _ _ Ba) as (ps & Ea & La). destruct (read_block _ _ _ _ Bb) as (ps' & Eb & Lb). unfold lgTreeFromReader in *. rewrite Ea in H. rewrite Eb. cbn [bind] in *.
  rewrite <- (tree_same p ps ps') by (eapply key_eq; eauto). destruct (lgTreeFromParams p ps) as [t| | |]; try discriminate. cbn [bind] in *.
  destruct (lg_read_trees p n (mkReader ra eof)) as [[us s]| | |] eqn:E; try discriminate. cbn [bind] in H. injection H as <- <-.
  destruct (IH eof eof' ra rb kas kbs Ha Hb' ltac:(lia) F' us s E) as (r' & ->). cbn [bind firstn]. eauto.
Qed.

(** LightGBM text: the header is as before but for [tree_sizes], which lists fewer trees, and the
    blocks of these trees say what the first blocks of the longer text say.  Then the shorter text
    loads, as the first estimators of the longer model. *)
Theorem C84_lightgbm_text :
  forall p text text' eof eof' load e header trees header' trees' groups max_feature_idx average,
  LGEnsembleFromReader p (mkReader text eof) load = Ok e ->
  blocks eof text (header :: trees) -> zlen trees = zlen (model_trees e) ->
  blocks eof' text' (header' :: trees') -> (List.length trees' <= List.length trees)%nat ->
  say_the_same other_header_keys header header' -> header_says header' groups max_feature_idx (zlen trees') average ->
  Forall2 (say_the_same tree_keys) (firstn (List.length trees') trees) trees' ->
  zlen text <= MaxInt -> zlen text' <= MaxInt ->
  exists e', LGEnsembleFromReader p (mkReader text' eof') load = Ok e' /\ first_estimators p (zlen trees' / groups) e e'.
Proof.
  intros p a b eof eof' load e ha tas hb tbs g mf avg H Ba L Bb Lb Sh Hh F Ma Mb. pose proof H as H0.
  inversion Ba as [|? ? ra ? Bha Bta]; subst. inversion Bb as [|? ? rb ? Bhb Btb]; subst.
  destruct (read_block _ _ _ _ Bha) as (ps & Ea & La). destruct (read_block _ _ _ _ Bhb) as (ps' & Eb & Lb'). unfold LGEnsembleFromReader in H. rewrite Ea in H. cbn [bind] in *.
  destruct (lg_header ps) as [[m n]| | |] eqn:Eh; try discriminate. cbn [bind] in *.
  assert (Eh' : lg_header ps' = Ok (mkLgEnsemble [] mf g (model_name avg) avg, zlen tbs)) by (apply (header_ok ps' hb _ _ Lb'); eauto 8).
  destruct (header_other ps ps' _ _ _ _ ltac:(eapply key_eq; eauto) Eh Eh') as (-> & Ht). cbn [lgAverageOutput lgNRawOutputGroups lgMaxFeatureIdx lgName] in H.
  destruct (lg_transform ps load avg g) as [tr| | |] eqn:Et; try discriminate. cbn [bind] in *.
  destruct (lg_read_trees p (Z.to_nat n) (mkReader ra eof)) as [[ts r]| | |] eqn:E; try discriminate. cbn [bind] in H. injection H as <-.
  pose proof (trees_read_length _ _ _ _ _ E) as Len. unfold model_trees in L. cbn [core eBase lgTrees] in L.
  destruct (trees_first p (Z.to_nat n) eof eof' ra rb tas tbs Bta Btb ltac:(unfold zlen in L; lia) F ts r E) as (r' & E').
  set (e' := mkEnsemble (BLg (mkLgEnsemble (firstn (List.length tbs) ts) mf g (model_name avg) avg)) tr).
  assert (H' : LGEnsembleFromReader p (mkReader b eof') load = Ok e').
  { unfold LGEnsembleFromReader. rewrite Eb. cbn [bind]. rewrite Eh'. cbn [bind lgAverageOutput lgNRawOutputGroups lgMaxFeatureIdx lgName]. rewrite <- Ht, Et. cbn [bind].
    replace (Z.to_nat (zlen tbs)) with (List.length tbs) by (unfold zlen; lia). rewrite E'. reflexivity. }
  exists e'. split; [exact H'|].
  destruct (loaded_wf a _ _ _ _ H0 eq_refl Ma) as (W & _ & _ & Wl). destruct (loaded_wf b _ _ _ _ H' eq_refl Mb) as (W' & _).
  pose proof (hs_groups _ _ _ _ _ Hh) as G. destruct (hs_multiple _ _ _ _ _ Hh) as (k & Hk). destruct (hs_tree_sizes _ _ _ _ _ Hh) as (v & sizes & _ & Ps & Hs).
  apply parts_split in Ps. pose proof (split_pos v sp) as Hp. rewrite Ps in Hp.
  assert (Lf : List.length (firstn (List.length tbs) ts) = List.length tbs) by (rewrite firstn_length; unfold zlen in L; lia).
  assert (D : zlen tbs / g = k) by (rewrite Hk; apply Z.div_mul; lia).
  assert (Lz : List.length ts = List.length tas) by (unfold zlen in L; lia).
  rewrite D. eapply (first_from_prefix p k _ e' (zlen ts / g)); auto.
  - split; [reflexivity|]. cbn. split; [reflexivity|]. split; [reflexivity|]. split; [reflexivity|]. intros i Hi.
    rewrite <- (firstn_skipn (List.length tbs) ts) at 1. apply zget_app_l. unfold zlen in *. nia.
  - unfold NEstimators. cbn [eBase b_NEstimators lgTrees lgNRawOutputGroups]. unfold trees_NEstimators, go_div. replace (g =? 0) with false by lia. f_equal. apply Z.quot_div_nonneg; [apply zlen_nonneg|lia].
  - unfold NEstimators, e'. cbn [eBase b_NEstimators lgTrees lgNRawOutputGroups]. unfold trees_NEstimators, go_div. replace (g =? 0) with false by lia. f_equal. rewrite Z.quot_div_nonneg; [|apply zlen_nonneg|lia].
    replace (zlen (firstn (List.length tbs) ts)) with (zlen tbs) by (unfold zlen; lia). exact D.
  - split; [unfold zlen in *; nia|]. apply Z.div_le_lower_bound; unfold zlen in *; nia.
Qed.
Print Assumptions C84_lightgbm_text.

(** ** XGBoost *)

(** [m'] is [m] with its first trees only; [ws'] are the weights of these trees *)
Record shorter_gbtree (dart : bool) (m m' : GBTreeModel) (ws ws' : list Z) : Prop := {
  sg_fewer : gpNumTrees (gmParam m') <= gpNumTrees (gmParam m);
  sg_some : 1 <= gpNumOutputGroup (gmParam m) <= gpNumTrees (gmParam m');
  sg_groups : gpNumOutputGroup (gmParam m') = gpNumOutputGroup (gmParam m);
  sg_roots : gpNumRoots (gmParam m') = gpNumRoots (gmParam m);
  sg_feature : gpNumFeature (gmParam m') <= gpNumFeature (gmParam m);
  sg_trees : gmTrees m' = firstn (List.length (gmTrees m')) (gmTrees m);
  sg_info : gmTreeInfo m' = firstn (List.length (gmTreeInfo m')) (gmTreeInfo m);
  sg_weights : dart = true -> zlen ws' = gpNumTrees (gmParam m') /\ ws' = firstn (List.length ws') ws }.

Lemma info_first : forall groups info n c, check_tree_info groups c info = true -> check_tree_info groups c (firstn n info) = true.
Proof.
  intros groups. induction info as [|i info IH]; intros [|n] c H; cbn [firstn check_tree_info] in *; try reflexivity. apply andb_prop in H. destruct H as [H1 H2]. rewrite H1, IH by exact H2. reflexivity.
Qed.
Lemma mapM_first : forall A B (f : A -> outcome B) n l l', mapM f l = Ok l' -> mapM f (firstn n l) = Ok (firstn n l').
Proof.
  intros A B f. induction n as [|n IH]; intros [|x l] l' H; cbn [mapM firstn] in *; try reflexivity.
  - injection H as <-. reflexivity.
  - apply bind_ok in H. destruct H as (y & E & H). apply bind_ok in H. destruct H as (ys & E' & H). injection H as <-. rewrite E. cbn [bind firstn]. rewrite (IH _ _ E'). reflexivity.
Qed.
Lemma zget_first : forall A (l : list A) n i, i < Z.of_nat n -> zget (firstn n l) i = zget l i.
Proof.
  intros A l n i Hi. destruct (Nat.le_gt_cases n (List.length l)) as [L|L].
  - symmetry. rewrite <- (firstn_skipn n l) at 1. apply zget_app_l. unfold zlen. rewrite firstn_length. lia.
  - rewrite firstn_all2 by lia. reflexivity.
Qed.

(** The file of the first trees loads if the longer file does, as the first estimators of the
    longer model. *)
Theorem C84_xgboost :
  forall p h m leaf_vectors ws m' leaf_vectors' ws' load rest rest' eof eof' e,
  xg_file_ok (pl_maxalloc p) h m leaf_vectors ws -> xg_file_ok (pl_maxalloc p) h m' leaf_vectors' ws' ->
  shorter_gbtree (is_dart h) m m' ws ws' ->
  XGEnsembleFromReader p (mkReader (e_xg_file h m leaf_vectors ws ++ rest) eof) load = Ok e ->
  exists e', XGEnsembleFromReader p (mkReader (e_xg_file h m' leaf_vectors' ws' ++ rest') eof') load = Ok e' /\
    first_estimators p (gpNumTrees (gmParam m') / gpNumOutputGroup (gmParam m)) e e'.
Proof.
  intros p h m lv ws m' lv' ws' load rest rest' eof eof' e (H1 & H2 & H3 & H4) (_ & H2' & H3' & H4') S H. destruct S as [S1 S2 S3 S4 S5 S6 S7 S8].
  pose proof H2 as (Q1 & Q2 & Q3 & Q4 & Q5 & Q6). pose proof H2' as (R1 & R2 & R3 & R4 & R5 & R6).
  unfold XGEnsembleFromReader, xg_ensemble_and_rest, e_xg_file in *. rewrite <- !app_assoc, rt_header in * by auto. cbn [bind] in *.
  apply bind_ok in H. destruct H as ([e0 r0] & H & K). injection K as ->. apply bind_ok in H. destruct H as (name & En & H). rewrite En. cbn [bind]. cbv zeta in *.
  destruct (lmNumFeatures (mhParam h) =? 0); [discriminate|]. rewrite (rt_gbtree _ _ _ H2) in H. rewrite (rt_gbtree _ _ _ H2'). cbn [bind] in *.
  destruct (Z.ltb_spec (s32 (lmNumFeatures (mhParam h))) (gpNumFeature (gmParam m))) as [X|X]; [discriminate|].
  replace (s32 (lmNumFeatures (mhParam h)) <? gpNumFeature (gmParam m')) with false by lia.
  fold (is_dart h) in *. rewrite xg_weights_rest in H by auto. rewrite xg_weights_rest by auto. rewrite make_check_ok in H by lia. rewrite make_check_ok by lia. cbn [bind] in *.
  set (wd := if is_dart h then map f64_of_f32bits ws else repeat fone (Z.to_nat (gpNumTrees (gmParam m)))).
  set (wd' := if is_dart h then map f64_of_f32bits ws' else repeat fone (Z.to_nat (gpNumTrees (gmParam m')))).
  assert (Ew' : (if is_dart h then if negb (zlen ws' =? gpNumTrees (gmParam m')) then Err "unexpected len(weightDrop) for 'dart'" else Ok (map f64_of_f32bits ws') else Ok (repeat fone (Z.to_nat (gpNumTrees (gmParam m'))))) = Ok wd').
  { unfold wd'. destruct (is_dart h); [|reflexivity]. destruct (S8 eq_refl) as (-> & _). rewrite Z.eqb_refl. reflexivity. }
  rewrite Ew'. clear Ew'. cbn [bind].
  assert (Ew : (if is_dart h then if negb (zlen ws =? gpNumTrees (gmParam m)) then Err "unexpected len(weightDrop) for 'dart'" else Ok (map f64_of_f32bits ws) else Ok (repeat fone (Z.to_nat (gpNumTrees (gmParam m))))) = Ok wd).
  { unfold wd. destruct (is_dart h); [|reflexivity]. destruct (negb _); [discriminate|reflexivity]. }
  rewrite Ew in H. clear Ew. cbn [bind] in H.
  rewrite S4, S3. destruct (negb (gpNumRoots (gmParam m) =? 1)); [discriminate|]. rewrite R4, Z.eqb_refl. cbn [negb]. destruct (negb (zlen (gmTreeInfo m) =? _)); [discriminate|].
  destruct (check_tree_info _ _ (gmTreeInfo m)) eqn:Ei; [|discriminate]. cbn [negb] in H. rewrite S7, info_first by exact Ei. cbn [negb].
  destruct (xg_transform (mhNameObj h) load (gpNumOutputGroup (gmParam m))) as [tr| | |] eqn:Et; try discriminate. cbn [bind] in *.
  replace (gpNumTrees (gmParam m') =? 0) with false by lia. replace (gpNumTrees (gmParam m) =? 0) with false in H by lia.
  rewrite <- Q3, mapM_index in H. rewrite <- R3, mapM_index. apply bind_ok in H. destruct H as (ts & Em & H). injection H as <- _.
  rewrite S6, (mapM_first _ _ _ _ _ _ Em). cbn [bind].
  eexists. split; [reflexivity|]. rewrite <- S6, R3.
  pose proof Q1 as ([_ I1] & _ & _ & _ & _ & [_ I2] & _). change (2 ^ 31) with 2147483648 in *.
  assert (Lts : zlen ts = gpNumTrees (gmParam m)) by (unfold zlen in *; rewrite (mapM_ok_length _ _ _ _ _ Em); exact Q3).
  assert (Lt' : zlen (firstn (List.length (gmTrees m')) ts) = gpNumTrees (gmParam m')) by (unfold zlen in *; rewrite firstn_length; lia).
  assert (NL : ~ exists n, tr = TransformLeafIndex n) by (intros (n & ->); unfold xg_transform in Et; destruct load; [destruct (beqb (mhNameObj h) _)|]; discriminate Et).
  assert (TR : match tr with TransformRaw n => n = gpNumOutputGroup (gmParam m) | TransformSoftmax n => 0 <= n | TransformLeafIndex _ => False | _ => True end).
  { unfold xg_transform in Et. destruct load; [destruct (beqb (mhNameObj h) _); [|discriminate Et]|]; injection Et as <-; [exact I|reflexivity]. }
  set (g := gpNumOutputGroup (gmParam m)) in *. set (nf := lmNumFeatures (mhParam h)).
  assert (NE : forall tt w, NEstimators (mkEnsemble (BXg (mkXgEnsemble tt (nf - 1) g (f64_of_f32bits (lmBaseScore (mhParam h))) w name)) tr) = Ok (zlen tt / g)).
  { intros tt w. unfold NEstimators. cbn [eBase b_NEstimators xgTrees xgNRawOutputGroups]. unfold trees_NEstimators, go_div. replace (g =? 0) with false by lia.
    f_equal. apply Z.quot_div_nonneg; [apply zlen_nonneg|lia]. }
  assert (WF : forall tt w, zlen tt < 2147483648 -> well_formed (mkEnsemble (BXg (mkXgEnsemble tt (nf - 1) g (f64_of_f32bits (lmBaseScore (mhParam h))) w name)) tr)).
  { intros tt w Ht. split; [|split].
    - change (1 <= g <= MaxInt). unfold MaxInt, two63. lia.
    - change (zlen tt <= MaxInt). unfold MaxInt, two63. lia.
    - cbn [eTransform]. destruct tr; auto. destruct TR. }
  assert (B : forall i, i < gpNumTrees (gmParam m') / g * g -> i < gpNumTrees (gmParam m')).
  { intros i Hi. pose proof (Z.mul_div_le (gpNumTrees (gmParam m')) g ltac:(lia)). lia. }
  apply (first_from_prefix p _ _ _ (zlen ts / g)).
  - apply WF. lia.
  - apply WF. lia.
  - split; [reflexivity|]. cbn [core eBase xgNRawOutputGroups xgMaxFeatureIdx xgBaseScore xgTrees xgWeightDrop]. split; [reflexivity|]. split; [reflexivity|]. split; [reflexivity|].
    intros i [Hi0 Hi]. specialize (B i Hi). split.
    + symmetry. apply zget_first. unfold zlen in *. lia.
    + unfold wd, wd'. destruct (is_dart h).
      * destruct (S8 eq_refl) as (L8 & E8). rewrite E8, <- firstn_map. symmetry. apply zget_first. unfold zlen in L8. lia.
      * rewrite !zget_repeat by lia. reflexivity.
  - exact NL.
  - apply NE.
  - rewrite NE, Lt'. reflexivity.
  - split.
    + apply Z.div_le_lower_bound; lia.
    + rewrite Lts. apply Z.div_le_mono; lia.
  - reflexivity.
Qed.
Print Assumptions C84_xgboost.

(** ** LightGBM JSON and scikit-learn: files that describe the same first trees *)

(** [e'] has [k] estimators, and the scores are those of the first estimators of [e] *)
Definition first_scores (p : platform) (k groups : Z) (ok : list f64 -> Prop) (e e' : Ensemble) : Prop :=
  NEstimators e' = Ok k /\ NRawOutputGroups e' = groups /\ NRawOutputGroups e = groups /\
  forall x nEstimators nEstimators' predictions predictions', ok x -> NFeatures e <= zlen x -> NFeatures e' <= zlen x -> groups <= zlen predictions -> groups <= zlen predictions' ->
  0 < nEstimators <= k -> nEstimators' = nEstimators \/ nEstimators = k /\ ~ 0 < nEstimators' < k ->
  exists out out', Predict p e x nEstimators predictions = Ok out /\ Predict p e' x nEstimators' predictions' = Ok out' /\
  forall j, 0 <= j < groups -> exists v, zget out' j = Some v /\ zget out j = Some v.

Lemma used_first : forall e e' k K n n' u u', NEstimators e = Ok K -> NEstimators e' = Ok k -> k <= K -> 0 < n <= k -> n' = n \/ n = k /\ ~ 0 < n' < k ->
  used_estimators e n u -> used_estimators e' n' u' -> u = n /\ u' = n.
Proof.
  intros e e' k K n n' u u' N N' Hk Hn Hn' (K0 & E & C) (k0 & E' & C'). rewrite N in E. injection E as <-. rewrite N' in E'. injection E' as <-. lia.
Qed.
Lemma Forall2_same_length : forall A B (R : A -> B -> Prop) a b, Forall2 R a b -> List.length a = List.length b.
Proof. intros A B R a b H. induction H; cbn; congruence. Qed.
Lemma zget_ext : forall A (a b : list A), zlen a = zlen b -> (forall i, 0 <= i < zlen a -> zget a i = zget b i) -> a = b.
Proof.
  intros A a. induction a as [|x a IH]; intros [|y b] L H; [reflexivity|unfold zlen in L; cbn in L; lia|unfold zlen in L; cbn in L; lia|]. rewrite !zlen_cons in L. pose proof (zlen_nonneg _ a).
  f_equal; [|apply IH; [lia|]].
  - pose proof (H 0 ltac:(rewrite zlen_cons; lia)) as E. rewrite !zget_cons_0 in E. injection E as ->. reflexivity.
  - intros i Hi. specialize (H (i + 1) ltac:(rewrite zlen_cons; lia)). rewrite !zget_cons in H by lia. replace (i + 1 - 1) with i in H by lia. exact H.
Qed.

Theorem C84_lightgbm_json :
  forall p v v' groups max_feature_idx max_feature_idx' trees trees' ds ds',
  json_model_says p v groups max_feature_idx trees ds -> json_model_says p v' groups max_feature_idx' trees' ds' ->
  ds' = firstn (List.length ds') ds -> 2 ^ 26 <= pl_maxalloc p -> groups <= pl_maxalloc p -> zlen trees <= MaxInt -> zlen trees' <= MaxInt ->
  exists e e', LGEnsembleFromJSON p (Some v) false = Ok e /\ LGEnsembleFromJSON p (Some v') false = Ok e' /\
  first_scores p (zlen trees' / groups) groups (fun x => Forall (fun d => exists r, walk d x = Some r) ds) e e'.
Proof.
  intros p v v' g mf mf' trees trees' ds ds' H H' Hd A Ag L L'.
  destruct (C34_json_predictions _ _ _ _ _ _ H A L) as (e & E & P). destruct (C34_json_predictions _ _ _ _ _ _ H' A L') as (e' & E' & P').
  destruct (C34_json_file _ _ _ _ _ _ H A) as (e1 & E1 & G & _ & N & _). assert (e1 = e) by congruence. subst e1.
  destruct (C34_json_file _ _ _ _ _ _ H' A) as (e1 & E1' & G' & _ & N' & _). assert (e1 = e') by congruence. subst e1.
  exists e, e'. split; [exact E|]. split; [exact E'|]. split; [exact N'|]. split; [exact G'|]. split; [exact G|].
  intros x n n' out0 out0' Wx F F' Lo Lo' Hn Hn'.
  destruct (P x n out0 Wx F Lo Ag) as (out & u & Eo & U & C). 
  assert (Wx' : Forall (fun d => exists r, walk d x = Some r) ds') by (rewrite Hd; rewrite Forall_forall in *; intros d I; apply Wx; rewrite <- (firstn_skipn (List.length ds') ds); apply in_or_app; left; exact I).
  destruct (P' x n' out0' Wx' F' Lo' Ag) as (out' & u' & Eo' & U' & C').
  assert (LE : zlen trees' / g <= zlen trees / g). {
    assert (1 <= g) by (destruct H as ((? & ? & ? & ? & HH) & _); lia).
    apply Z.div_le_mono; [lia|]. destruct H as (_ & F1). destruct H' as (_ & F2). apply Forall2_same_length in F1. apply Forall2_same_length in F2. unfold zlen. rewrite F1, F2, Hd, firstn_length. lia. }
  destruct (used_first _ _ _ _ _ _ _ _ N N' LE Hn Hn' U U') as (-> & ->).
  exists out, out'. split; [exact Eo|]. split; [exact Eo'|]. intros j Hj. destruct (C j Hj) as (vs & (Lv & Wv) & Ev). destruct (C' j Hj) as (vs' & (Lv' & Wv') & Ev').
  rewrite Ev, Ev'. eexists. split; [|reflexivity]. replace vs' with vs; [reflexivity|]. apply zget_ext; [lia|]. intros i Hi.
  destruct (Wv i ltac:(lia)) as (d & w & leaf & D1 & D2 & D3). destruct (Wv' i ltac:(lia)) as (d' & w' & leaf' & D1' & D2' & D3').
  rewrite D3, D3'. pose proof (zget_range _ _ _ _ D1') as Rg. unfold zlen in Rg. rewrite Hd, zget_first in D1' by lia. rewrite D1 in D1'. injection D1' as <-. congruence.
Qed.
Print Assumptions C84_lightgbm_json.

Theorem C84_sklearn :
  forall p o s mu g sts o' s' mu' g' sts' rest eof rest' eof' load load',
  enc p true [] o s mu -> gb_is g o -> sk_says g sts -> sk_fits (pl_maxalloc p) g ->
  enc p true [] o' s' mu' -> gb_is g' o' -> sk_says g' sts' -> sk_fits (pl_maxalloc p) g' ->
  gbNClasses g' = gbNClasses g -> gbLearningRate g' = gbLearningRate g -> gbInit g' = gbInit g -> sts' = firstn (List.length sts') sts ->
  exists e e', SKEnsembleFromReader p (mkReader (s ++ "."%byte :: rest) eof) load = Ok e /\ SKEnsembleFromReader p (mkReader (s' ++ "."%byte :: rest') eof') load' = Ok e' /\
  first_scores p (gbNEstimators g') (score_groups (gbNClasses g)) (fun x => x <> [] /\ Forall (sk_features_below (zlen x)) sts) e e'.
Proof.
  intros p o s mu g sts o' s' mu' g' sts' rest eof rest' eof' load load' H1 H2 H3 H4 H1' H2' H3' H4' Ec Er Ei Hd.
  destruct (C47_sklearn_file p o s mu g sts rest eof load H1 H2 H3 H4) as (e & E & G & N & _ & _ & _ & P).
  destruct (C47_sklearn_file p o' s' mu' g' sts' rest' eof' load' H1' H2' H3' H4') as (e' & E' & G' & N' & _ & _ & _ & P').
  rewrite Ec in *. rewrite Er, Ei in P'. set (gr := score_groups (gbNClasses g)) in *.
  exists e, e'. split; [exact E|]. split; [exact E'|]. split; [exact N'|]. split; [exact G'|]. split; [exact G|].
  intros x n n' out0 out0' (Nx & Wx) F F' Lo Lo' Hn Hn'.
  destruct (P x n out0 Wx Nx F Lo) as (out & Eo & u & U & C).
  assert (Wx' : Forall (sk_features_below (zlen x)) sts') by (rewrite Hd; rewrite Forall_forall in *; intros d I; apply Wx; rewrite <- (firstn_skipn (List.length sts') sts); apply in_or_app; left; exact I).
  destruct (P' x n' out0' Wx' Nx F' Lo') as (out' & Eo' & u' & U' & C').
  assert (LE : gbNEstimators g' <= gbNEstimators g).
  { assert (1 <= gr) by (unfold gr; pose proof (ks_classes _ _ H3); unfold score_groups; destruct (_ =? _); lia). pose proof (ks_trees _ _ H3) as T. pose proof (ks_trees _ _ H3') as T'. rewrite Ec in T'. fold gr in T, T'.
    pose proof (Forall2_same_length _ _ _ _ _ (ks_each _ _ H3)) as L. pose proof (Forall2_same_length _ _ _ _ _ (ks_each _ _ H3')) as L'. assert (List.length sts' <= List.length sts)%nat by (rewrite Hd, firstn_length; lia).
    unfold zlen in T, T'. apply (Z.mul_le_mono_pos_r _ _ gr); lia. }
  destruct (used_first _ _ _ _ _ _ _ _ N N' LE Hn Hn' U U') as (-> & ->).
  exists out, out'. split; [exact Eo|]. split; [exact Eo'|]. intros j Hj. destruct (C j Hj) as (vs & pr & (Lv & Wv) & Ep & Ev). destruct (C' j Hj) as (vs' & pr' & (Lv' & Wv') & Ep' & Ev').
  rewrite Ep in Ep'. injection Ep' as <-. rewrite Ev, Ev'. eexists. split; [|reflexivity]. replace vs' with vs; [reflexivity|]. apply zget_ext; [lia|]. intros i Hi.
  destruct (Wv i ltac:(lia)) as (d & w & leaf & D1 & D2 & D3). destruct (Wv' i ltac:(lia)) as (d' & w' & leaf' & D1' & D2' & D3').
  rewrite D3, D3'. pose proof (zget_range _ _ _ _ D1') as Rg. unfold zlen in Rg. rewrite Hd, zget_first in D1' by lia. rewrite D1 in D1'. injection D1' as <-. congruence.
Qed.
Print Assumptions C84_sklearn.
