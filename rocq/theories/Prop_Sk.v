(** * Loading scikit-learn models (C46, C47, sklearn part of C29, C30, C41) *)

From Coq Require Import ZArith List Bool String Lia ZifyBool.
From Verif Require Import Go GoFloat GoText LgTree TreeBuild Transformation Ensembles Leaves XgBin Pickle Pf_Fmt SkClasses SkIO.
From Verif Require Import Spec_Predict Spec_Split Spec_Tree Spec_XgBin Spec_Numpy Spec_Pickle Spec_SkTree Spec_SkFile.
From Verif Require Import Pf_Go Pf_Text Pf_Leaves Pf_Bits Pf_Split Pf_Float Pf_Build Pf_Placed Pf_LgFile Pf_Append Pf_XgBin Pf_XgTree Pf_Returns Pf_PickleHist Pf_SkTree Pf_SkFile Pf_SkLoad.
From Verif Require Import Prop_Values Prop_LgText Prop_Xg Prop_Pickle.
Local Open Scope Z_scope.

(** ** C46 *)
Theorem C46_sklearn_tree :
  forall p tree t scale base,
  sktree_says (srTree tree) t -> sk_features_below (2 ^ 32) t -> stNNodes (srTree tree) <= pl_maxalloc p ->
  let d := sk_reference (scaled scale base) t in
  exists T ren, lgTreeFromSklearnDecisionTreeRegressor p tree scale base = Ok T /\
    (* every feature vector; a constant tree still looks at one value (C46_constant_refuted) *)
    (forall x v leaf, x <> [] -> walk d x = Some (v, leaf) -> predict p T x = Ok (v, ren leaf)) /\
    (* the leaves are numbered without gaps *)
    renumbers d ren /\ nLeaves T = Z.max 2 (zlen (leaves_of d)).
Proof.
  intros p tree t scale base H1 H2 H3 d. destruct (sk_tree_loads p tree t scale base H1 H2 H3) as (T & E & ren & L & R & W). exists T, ren. auto.
Qed.
Print Assumptions C46_sklearn_tree.

(** the rule at a node, in terms of real numbers *)
Theorem C46_rule : forall threshold v, valid64 threshold = true -> valid64 v = true ->
  (sk_left threshold v = true <-> le64 (nan_to_zero v) threshold).
Proof. intros threshold v Ht Hv. unfold sk_left. apply fle_le64; auto. apply nan_to_zero_valid. auto. Qed.
Print Assumptions C46_rule.

(** ** C47 *)

(** the term list is what the trees give *)
Lemma terms_eq : forall rate prior vs outs, zlen outs = zlen vs -> valid64 rate = true -> valid64 prior = true -> Forall (fun v => valid64 v = true) vs ->
  (forall i v, zget vs i = Some v -> zget outs i = Some (fadd (fmul v rate) (if i =? 0 then prior else fzero))) ->
  sum_from fzero (map (fun v => fmul v fone) outs) = sum_from fzero (sk_terms rate prior vs).
Proof.
  intros rate prior vs outs L Vr Vp Vv H.
  assert (E : map (fun v => fmul v fone) outs = outs).
  { rewrite <- (map_id outs) at 2. apply map_ext_in. intros v Hv. apply fmul_one. apply in_zget in Hv. destruct Hv as [i Hi].
    destruct (zget_some _ vs i) as [w Hw]. { apply zget_range in Hi. lia. } rewrite (H _ _ Hw) in Hi. injection Hi as <-.
    rewrite Forall_forall in Vv. apply fadd_valid; [apply fmul_valid; auto; apply Vv; eapply zget_in; eauto|]. destruct (i =? 0); auto. }
  rewrite E. clear E. destruct vs as [|v vs].
  - destruct outs as [|o outs]; [reflexivity|]. rewrite zlen_nil, zlen_cons in L. pose proof (zlen_nonneg _ outs). lia.
  - destruct outs as [|o outs]. { rewrite zlen_nil, zlen_cons in L. pose proof (zlen_nonneg _ vs). lia. }
    pose proof (H 0 v ltac:(reflexivity)) as H0. rewrite zget_cons_0 in H0. injection H0 as ->. cbn [sk_terms]. change (0 =? 0) with true. cbv iota.
    inversion Vv as [|? ? V0 V']; subst. unfold sum_from. cbn [fold_left]. fold (sum_from (fadd fzero (fadd (fmul v rate) prior)) outs). fold (sum_from (fadd fzero (fadd (fmul v rate) prior)) (map (fun v => fmul v rate) vs)).
    assert (E : outs = map (fun x => fadd x fzero) (map (fun v => fmul v rate) vs)).
    { rewrite map_map. assert (L' : zlen outs = zlen vs) by (rewrite !zlen_cons in L; lia). apply zget_ext.
      - unfold zlen in *. rewrite map_length. auto.
      - intros i Hi. destruct (zget_some _ vs i ltac:(lia)) as [w Hw]. specialize (H (i + 1) w). rewrite !zget_cons in H by lia. replace (i + 1 - 1) with i in H by lia.
        rewrite (H Hw). replace (i + 1 =? 0) with false by lia. rewrite Pf_Go.zget_map, Hw. reflexivity. }
    rewrite E. apply sum_plain.
    + apply fadd_valid; [reflexivity|]. apply fadd_valid; auto. apply fmul_valid; auto.
    + apply fadd_not_minus_zero; [reflexivity| |discriminate]. apply fadd_valid; auto. apply fmul_valid; auto.
    + apply Forall_forall. intros x Hx. apply in_map_iff in Hx. destruct Hx as (w & <- & Hw). rewrite Forall_forall in V'. apply fmul_valid; auto.
Qed.

Lemma walk_value : forall nodes values c t ids x v leaf, kdescribes nodes values c t ids -> walk (sk_reference (fun v => v) t) x = Some (v, leaf) -> In v values.
Proof.
  intros nodes values c t ids x v leaf H. induction H as [c n w G E V|c n l r il ir G Hl IHl Hr IHr]; cbn [sk_reference walk].
  - intros E'. injection E' as <- <-. eapply zget_in; eauto.
  - destruct (zget x (skFeature n)); [|discriminate]. destruct (sk_left _ _); auto.
Qed.

(** all numbers are float64 values (which the bytes of a file always give) *)
Definition sk_numbers (g : SklearnGradientBoosting) : Prop :=
  Forall (fun b => valid64 b = true) (iePrior (gbInit g)) /\
  Forall (fun r => Forall (fun v => valid64 v = true) (stValues (srTree r))) (gbEstimators g).

Theorem C47_sklearn_class :
  forall p g sts, sk_says g sts -> sk_fits (pl_maxalloc p) g -> sk_numbers g ->
  let groups := score_groups (gbNClasses g) in
  exists e, SKEnsembleFromClass p g = Ok e /\
    NRawOutputGroups e = groups /\ NEstimators e = Ok (gbNEstimators g) /\
    NFeatures e = (if gbMaxFeatures g <=? 1 then 0 else gbMaxFeatures g) /\
    Name e = bs "sklearn.ensemble.GradientBoostingClassifier" /\ Transformation_ e = TransformRaw groups /\
    (* Predict returns whenever the features asked for are there *)
    forall x nEstimators predictions,
      Forall (sk_features_below (zlen x)) sts -> x <> [] -> NFeatures e <= zlen x -> groups <= zlen predictions ->
      exists out, Predict p e x nEstimators predictions = Ok out /\
      (* and score k is the sum over the estimators, the prior counted once *)
      exists n, used_estimators e nEstimators n /\
      forall k, 0 <= k < groups -> exists vs prior,
        sk_outputs sts groups k n x vs /\ prior_of (gbInit g) k = Some prior /\
        zget out k = Some (sum_from fzero (sk_terms (gbLearningRate g) prior vs)).
Proof.
  intros p g sts S F (V1 & V2) groups. destruct (sk_class_loads p g sts S F) as (trees & base & E & Lt & Gb & Gt). fold groups in E, Lt, Gb, Gt.
  pose proof (groups_pos g sts S) as G. fold groups in G. pose proof (ks_estimators _ _ S) as N. pose proof (kf_trees _ _ F) as A1. pose proof (kf_alloc _ _ F) as A2. change (2 ^ 63) with two63 in A2.
  pose proof (kf_classes _ _ F) as A3. assert (A4 : 0 <= gbNEstimators g * groups <= gbNEstimators g * gbNClasses g) by nia.
  pose proof (ks_max_features _ _ S) as Mf. change (2 ^ 63) with two63 in Mf.
  eexists. split; [exact E|]. set (m := mkLgEnsemble trees _ _ _ _) in *. set (e := mkEnsemble (BLg m) (TransformRaw groups)) in *.
  assert (NE : NEstimators e = Ok (gbNEstimators g)).
  { unfold NEstimators, e, m. cbn [eBase b_NEstimators lgTrees lgNRawOutputGroups]. unfold trees_NEstimators, go_div. rewrite Lt. replace (groups =? 0) with false by lia.
    f_equal. rewrite Z.quot_div_nonneg by lia. apply Z.div_mul. lia. }
  assert (NF : NFeatures e = (if gbMaxFeatures g <=? 1 then 0 else gbMaxFeatures g)).
  { unfold NFeatures, e, m. cbn [eBase b_NFeatures lgMaxFeatureIdx]. unfold trees_NFeatures. destruct (Z.leb_spec (gbMaxFeatures g) 1).
    - replace (0 <? gbMaxFeatures g - 1) with false by lia. reflexivity.
    - replace (0 <? gbMaxFeatures g - 1) with true by lia. replace (gbMaxFeatures g - 1 + 1) with (gbMaxFeatures g) by lia. apply s64_id. unfold two63 in *. lia. }
  split; [reflexivity|]. split; [exact NE|]. split; [exact NF|]. split; [reflexivity|]. split; [reflexivity|].
  assert (WF : well_formed e).
  { split; [|split].
    - change (1 <= groups <= MaxInt). unfold MaxInt, two63 in *. lia.
    - change (zlen trees <= MaxInt). unfold MaxInt, two63 in *. lia.
    - reflexivity. }
  intros x nE preds Hfb Hx Hnf Hp.
  assert (PR : forall i k, 0 <= i < gbNEstimators g -> 0 <= k < groups -> exists T t v leaf b leaf',
    zget trees (i * groups + k) = Some T /\ zget sts (i * groups + k) = Some t /\ walk (sk_reference (fun v => v) t) x = Some (v, leaf) /\
    (i = 0 -> zget base k = Some b) /\ (i <> 0 -> b = fzero) /\ predict p T x = Ok (fadd (fmul v (gbLearningRate g)) b, leaf')).
  { intros i k Hi Hk. destruct (Gt i k Hi Hk) as (T & GT & t & b & Gs & B0 & B1 & ren & _ & _ & W). rewrite Forall_forall in Hfb. pose proof (Hfb t (zget_in _ _ _ _ Gs)) as Fb.
    destruct (walk_defined _ (zlen x) x (sk_below (fun v => v) _ _ Fb) eq_refl) as ([v id] & Hw). exists T, t, v, id, b, (ren id).
    split; auto. split; auto. split; auto. split; auto. split; auto. apply W; auto. apply (walk_scaled (scaled (gbLearningRate g) b)) in Hw. exact Hw. }
  assert (EV : evaluable p e x).
  { unfold evaluable. change (core (eBase e)) with (BLg m). cbn [lgTrees m]. apply Forall_forall. intros T HT. apply in_zget in HT. destruct HT as [i Hi].
    pose proof (zget_range _ _ _ _ Hi) as Ri. pose proof (Z.div_mod i groups ltac:(lia)) as DM. pose proof (Z.mod_pos_bound i groups ltac:(lia)).
    assert (Hd : 0 <= i / groups < gbNEstimators g) by (split; [apply Z.div_pos; lia|apply Z.div_lt_upper_bound; lia]).
    destruct (PR (i / groups) (i mod groups) Hd ltac:(lia)) as (T' & t & v & leaf & b & leaf' & GT & _ & _ & _ & _ & P). replace (i / groups * groups + i mod groups) with i in GT by lia.
    assert (T' = T) by congruence. subst T'. eauto. }
  destruct (Predict_returns p e x nE preds WF EV) as [out Ho]; auto.
  { change (groups <= MaxInt). unfold MaxInt, two63 in *. lia. }
  { change (groups <= pl_maxalloc p). lia. }
  { intros [[k K] _]. discriminate. }
  exists out. split; auto.
  destruct (C11_raw_score_is_sum p e m x nE preds out WF ltac:(eexists; reflexivity) eq_refl eq_refl Ho) as (n & Hu & Hv). exists n. split; auto.
  assert (Hn : n <= gbNEstimators g). { destruct Hu as (k0 & Ek & C). rewrite NE in Ek. injection Ek as <-. lia. }
  intros k Hk. destruct (Hv k Hk) as (outs & (Lv & T1) & T4). change (NRawOutputGroups e) with groups in *.
  destruct (Gb k Hk) as (prior & Gp & Pp).
  destruct (mapM_zseq _ (fun i => match zget sts (i * groups + k) with Some t => match walk (sk_reference (fun v => v) t) x with Some (v, _) => Ok v | None => Hang end | None => Hang end)
    (fun i v => exists t leaf, zget sts (i * groups + k) = Some t /\ walk (sk_reference (fun v => v) t) x = Some (v, leaf)) n) as (vs & _ & Lvs & Gvs).
  { rewrite <- Lv. apply zlen_nonneg. }
  { intros i Hi. destruct (PR i k ltac:(lia) Hk) as (T & t & v & leaf & b & leaf' & GT & Gs & Hw & _). exists v. rewrite Gs, Hw. split; eauto. }
  exists vs, prior. split; [|split; auto].
  - split; auto. intros i Hi. destruct (Gvs i Hi) as (v & Gv & t & leaf & Gs & Hw). exists t, v, leaf. auto.
  - rewrite T4. f_equal. apply terms_eq; auto.
    + lia.
    + apply (ks_rate _ _ S).
    + rewrite Forall_forall in V1. apply V1. unfold prior_of in Pp. destruct (beqb _ _); eapply zget_in; eauto.
    + apply Forall_forall. intros v Iv. apply in_zget in Iv. destruct Iv as [i Hi]. pose proof (zget_range _ _ _ _ Hi) as Ri. destruct (Gvs i ltac:(lia)) as (v' & Gv & t & leaf & Gs & Hw).
      assert (v' = v) by congruence. subst v'. destruct (zget_some _ (gbEstimators g) (i * groups + k)) as [r Gr]. { rewrite (ks_trees _ _ S). fold groups. nia. }
      destruct (Forall2_zget _ _ _ _ _ (ks_each _ _ S) _ _ Gr) as (t' & Gt' & _ & _ & ids & D & _). assert (t' = t) by congruence. subst t'.
      rewrite Forall_forall in V2. specialize (V2 r (zget_in _ _ _ _ Gr)). rewrite Forall_forall in V2. apply V2. eapply walk_value; eauto.
    + intros i v Hi. pose proof (zget_range _ _ _ _ Hi) as Ri. destruct (Gvs i ltac:(lia)) as (v' & Gv & t & leaf & Gs & Hw). assert (v' = v) by congruence. subst v'.
      destruct (T1 i ltac:(lia)) as (T & o & lf & GT & PT & Go). cbn [lgTrees m] in GT.
      destruct (PR i k ltac:(lia) Hk) as (T' & t' & v' & leaf' & b & lf' & GT' & Gs' & Hw' & B0 & B1 & P). rewrite GT in GT'. injection GT' as <-. rewrite Gs in Gs'. injection Gs' as <-.
      rewrite Hw in Hw'. injection Hw' as <- <-. rewrite PT in P. injection P as -> _. rewrite Go. destruct (Z.eqb_spec i 0) as [Z0|NZ]; [rewrite B0 in Gp by auto; congruence|rewrite (B1 NZ); reflexivity].
Qed.
Print Assumptions C47_sklearn_class.

(** The whole way from a pickle file: [s] is any protocol 0 text of an object that holds the
    model [g], shared parts fetched from the memo. *)
Theorem C47_sklearn_file :
  forall p o s mu g sts rest eof loadTransformation,
  enc p true [] o s mu -> gb_is g o -> sk_says g sts -> sk_fits (pl_maxalloc p) g ->
  let groups := score_groups (gbNClasses g) in
  exists e, SKEnsembleFromReader p (mkReader (s ++ "."%byte :: rest) eof) loadTransformation = Ok e /\
    NRawOutputGroups e = groups /\ NEstimators e = Ok (gbNEstimators g) /\
    NFeatures e = (if gbMaxFeatures g <=? 1 then 0 else gbMaxFeatures g) /\
    Name e = bs "sklearn.ensemble.GradientBoostingClassifier" /\ Transformation_ e = TransformRaw groups /\
    forall x nEstimators predictions,
      Forall (sk_features_below (zlen x)) sts -> x <> [] -> NFeatures e <= zlen x -> groups <= zlen predictions ->
      exists out, Predict p e x nEstimators predictions = Ok out /\
      exists n, used_estimators e nEstimators n /\
      forall k, 0 <= k < groups -> exists vs prior,
        sk_outputs sts groups k n x vs /\ prior_of (gbInit g) k = Some prior /\
        zget out k = Some (sum_from fzero (sk_terms (gbLearningRate g) prior vs)).
Proof.
  intros p o s mu g sts rest eof load H Hg S F groups. destruct (C42_decode_stateless p o s mu rest eof H) as (v & h & D & Dn).
  pose proof (groups_pos g sts S) as G. fold groups in G. pose proof (ks_estimators _ _ S) as N. pose proof (kf_trees _ _ F) as A1. pose proof (kf_alloc _ _ F) as A2. pose proof (kf_classes _ _ F) as A3.
  assert (PG : ParseGradientBoosting p h v = Ok g).
  { apply (read_gb p h g o v Hg Dn); auto; try lia.
    - apply (kf_outputs _ _ F).
    - apply (ks_trees _ _ S).
    - rewrite (ks_trees _ _ S). fold groups. nia. }
  unfold SKEnsembleFromReader. rewrite D. cbn [bind]. rewrite PG. cbn [bind]. apply C47_sklearn_class; auto.
  destruct Hg as [kv loss init classes ests os o' Hi B1 B2 B3 B4 In B5 Hc Fc B6 B7 B8 Ho Fr]. split.
  - destruct In; cbn [iePrior]; auto.
  - clear - Fr. induction Fr as [|r o rs os Hr Fr IH]; constructor; auto. destruct Hr as [? ? ? ? ? ? ? ? ? ? ? Ht]. destruct Ht; auto.
Qed.
Print Assumptions C47_sklearn_file.

(** ** C29 *)
Lemma foldM_not_hang : forall A B (f : B -> A -> outcome B) l b, (forall b x, f b x <> Hang) -> foldM f l b <> Hang.
Proof. intros A B f l. induction l as [|x l IH]; intros b H; cbn [foldM]; [discriminate|]. apply bind_not_hang; auto. Qed.
Lemma class_not_hang : forall A (reduce : A -> val -> list val -> outcome A) build e obj,
  (forall e c args, reduce e c args <> Hang) -> (forall e args, build e args <> Hang) -> ParseClass reduce build e obj <> Hang.
Proof.
  intros A reduce build e obj H1 H2. unfold ParseClass, toReduce. destruct obj; try discriminate; try (cbn [bind]; auto).
  destruct obj1; try discriminate. cbn [bind]. apply bind_not_hang; auto.
Qed.
Ltac nh_base := first
  [ discriminate | apply at_not_hang | apply make_check_not_hang | apply slice_not_hang | apply toUnicode_not_hang | assumption ].
Ltac nh := repeat first
  [ nh_base
  | apply class_not_hang; intros
  | apply mapM_not_hang; intros
  | apply foldM_not_hang; intros
  | apply bind_not_hang; [|intros ? _]
  | match goal with
    | |- context [if ?b then _ else _] => destruct b
    | |- context [match ?x with _ => _ end] => is_var x; destruct x
    end ].
Lemma toGlobal_not_hang : forall v m n, toGlobal v m n <> Hang.
Proof. intros. unfold toGlobal. nh. Qed.
Lemma Iterate_not_hang : forall A b n (f : A -> bytes -> outcome A) acc, (forall acc c, f acc c <> Hang) -> Iterate b n f acc <> Hang.
Proof. intros A b n f acc H. unfold Iterate. nh. apply H. Qed.
Lemma toTuple_not_hang : forall v n, toTuple v n <> Hang.
Proof. intros. unfold toTuple. nh. Qed.
Lemma toDict_not_hang : forall v, toDict v <> Hang.
Proof. intros. unfold toDict. nh. Qed.
Lemma asInt_not_hang : forall v, asInt v <> Hang.
Proof. intros. unfold asInt. nh. Qed.
Lemma dict_value_not_hang : forall d k, dict_value d k <> Hang.
Proof. intros. unfold dict_value. destruct (lookup d k); nh. Qed.
Ltac nh2 := repeat first
  [ apply Errorf_not_hang | progress nh | apply toGlobal_not_hang | apply toTuple_not_hang | apply toDict_not_hang | apply asInt_not_hang | apply dict_value_not_hang
  | apply Iterate_not_hang; intros ].
Lemma dtype_not_hang : forall h d o, ParseClass (dtype_Reduce h) dtype_Build d o <> Hang.
Proof. intros. nh2; unfold dtype_Reduce, dtype_Build; nh2. Qed.
Lemma raw_not_hang : forall h d o, ParseClass (raw_Reduce h) raw_Build d o <> Hang.
Proof. intros. apply class_not_hang; intros; unfold raw_Reduce, raw_Build; nh2. Qed.
Lemma scalar_not_hang : forall h d o, ParseClass (scalar_Reduce h) scalar_Build d o <> Hang.
Proof. intros. apply class_not_hang; intros; unfold scalar_Reduce, scalar_Build; repeat first [apply dtype_not_hang|apply raw_not_hang|progress nh2]. Qed.
Lemma array_not_hang : forall h d o, ParseClass (array_Reduce h) (array_Build h) d o <> Hang.
Proof.
  intros. apply class_not_hang; intros; unfold array_Reduce, array_Build; [nh2|].
  repeat first [apply Errorf_not_hang|apply dtype_not_hang|apply raw_not_hang|apply asInt_not_hang|apply toTuple_not_hang|nh_base|apply mapM_not_hang; intros|apply bind_not_hang; [|intros ? _]
    |match goal with |- context [if ?b then _ else _] => destruct b | |- context [match ?x with _ => _ end] => is_var x; destruct x end].
Qed.
Lemma u64_not_hang : forall b, le_Uint64 b <> Hang.
Proof. intros. unfold le_Uint64. nh. Qed.
Lemma f64_not_hang : forall b le, Float64FromBytes b le <> Hang.
Proof. intros. unfold Float64FromBytes. destruct (zlen b <? 8); discriminate. Qed.
Lemma dict_toInt_not_hang : forall h d k, dict_toInt h d k <> Hang.
Proof. intros. unfold dict_toInt. nh2. Qed.
Lemma dict_toFloat_not_hang : forall h d k, dict_toFloat h d k <> Hang.
Proof. intros. unfold dict_toFloat. nh2. Qed.
Lemma append_int_not_hang : forall acc b, append_int acc b <> Hang.
Proof. intros. unfold append_int. apply bind_not_hang; [apply u64_not_hang|discriminate]. Qed.
Lemma append_float_not_hang : forall le acc b, append_float le acc b <> Hang.
Proof. intros. unfold append_float. apply bind_not_hang; [apply f64_not_hang|discriminate]. Qed.
Lemma append_node_not_hang : forall acc b, append_node acc b <> Hang.
Proof.
  intros. unfold append_node, SklearnNodeFromBytes. cbv zeta. repeat (apply bind_not_hang; [|intros ? _]); try discriminate; first [apply slice_not_hang|apply u64_not_hang|apply f64_not_hang|idtac].
Qed.
Lemma bad_shape_not_hang : forall s w, bad_shape s w <> Hang.
Proof. intros. unfold bad_shape. destruct (_ =? _); [discriminate|]. apply bind_not_hang; [apply at_not_hang|discriminate]. Qed.
Ltac nh3 := repeat first
  [ nh_base | apply Errorf_not_hang | apply bad_shape_not_hang | apply scalar_not_hang | apply array_not_hang | apply u64_not_hang | apply f64_not_hang | apply toGlobal_not_hang | apply toTuple_not_hang | apply toDict_not_hang
  | apply asInt_not_hang | apply dict_value_not_hang | apply dict_toInt_not_hang | apply dict_toFloat_not_hang
  | apply append_int_not_hang | apply append_float_not_hang | apply append_node_not_hang
  | apply Iterate_not_hang; intros | apply bind_not_hang; [|intros ? _]
  | match goal with |- context [if ?b then _ else _] => destruct b | |- context [match ?x with _ => _ end] => is_var x; destruct x end ].
Lemma int_array_not_hang : forall p h w o, int_array p h w o <> Hang.
Proof. intros. unfold int_array. nh3. Qed.
Lemma tree_not_hang : forall p h t o, ParseClass (tree_Reduce p h) (tree_Build h) t o <> Hang.
Proof. intros. apply class_not_hang; intros; unfold tree_Reduce, tree_Build; repeat first [apply int_array_not_hang|progress nh3]. Qed.
Lemma reconstructor_not_hang : forall h m n c a, reconstructor_class h m n c a <> Hang.
Proof. intros. unfold reconstructor_class. nh3. Qed.
Lemma reg_not_hang : forall p h t o, ParseClass (reg_Reduce h) (reg_Build p h) t o <> Hang.
Proof. intros. apply class_not_hang; intros; unfold reg_Reduce, reg_Build; repeat first [apply reconstructor_not_hang|apply tree_not_hang|progress nh3]. Qed.
Lemma init_not_hang : forall h t o, ParseClass (init_Reduce h) (init_Build h) t o <> Hang.
Proof.
  intros. apply class_not_hang; intros; unfold init_Reduce, init_Build; repeat first [apply reconstructor_not_hang|progress nh3].
  match goal with |- match ?x with _ => _ end <> _ => assert (N : x <> Hang) by nh3; destruct x; congruence end.
Qed.
Lemma gb_not_hang : forall p h v, ParseGradientBoosting p h v <> Hang.
Proof.
  intros. unfold ParseGradientBoosting. apply class_not_hang; intros; unfold gb_Reduce, gb_Build.
  - apply bind_not_hang; [apply reconstructor_not_hang|discriminate].
  - repeat (apply bind_not_hang; [first [apply init_not_hang|apply int_array_not_hang|nh3; fail]|intros ? _]; cbv zeta).
    match goal with |- match ?x with _ => _ end <> _ => destruct x as [|s0 [|s1 [|s2 ss]]] end; try discriminate.
    destruct (negb _); [discriminate|]. destruct (negb _); [discriminate|]. apply bind_not_hang; [nh3|]. intros ? _. apply bind_not_hang; [|discriminate].
    apply mapM_not_hang. intros. apply reg_not_hang.
Qed.

Theorem C29_sklearn_source_returns : forall nodes values scale base, source_returns (sk_source nodes values scale base).
Proof. exact sk_source_returns. Qed.
Theorem C29_sklearn_tree_returns : forall p tree scale base, lgTreeFromSklearnDecisionTreeRegressor p tree scale base <> Hang.
Proof.
  intros. unfold lgTreeFromSklearnDecisionTreeRegressor. cbv zeta. destruct (negb _); [discriminate|]. destruct (_ =? 0).
  - apply bind_not_hang; [apply sk_value_not_hang|discriminate].
  - apply bind_not_hang; [apply make_check_not_hang|]. intros _ _. apply build_returns. apply sk_source_returns.
Qed.
Print Assumptions C29_sklearn_tree_returns.

Theorem C29_sklearn_load_returns : forall p r load, SKEnsembleFromReader p r load <> Hang.
Proof.
  intros p r load. unfold SKEnsembleFromReader. apply bind_not_hang; [apply C42_terminates|]. intros [[v h] r'] _. apply bind_not_hang; [apply gb_not_hang|]. intros gb _.
  unfold SKEnsembleFromClass. cbv zeta. destruct (_ =? 0) eqn:Z0; [discriminate|]. destruct (negb _); [discriminate|]. apply bind_not_hang.
  { unfold sk_base, make_f64. destruct (_ || _); [discriminate|]. cbn [bind]. destruct (beqb _ _); [apply mapM_not_hang; intros; apply at_not_hang|]. destruct (beqb _ _); [|discriminate]. destruct (negb _); discriminate. }
  intros base _. apply bind_not_hang; [apply make_check_not_hang|]. intros _ _. apply bind_not_hang; [|discriminate].
  unfold sk_trees. apply bind_not_hang; [|intros [ts b] _; discriminate]. apply foldM_not_hang. intros [ts b] i. apply bind_not_hang; [|discriminate].
  apply mapM_not_hang. intros j. apply bind_not_hang; [apply at_not_hang|]. intros est _. apply bind_not_hang; [apply at_not_hang|]. intros b' _. apply C29_sklearn_tree_returns.
Qed.
Print Assumptions C29_sklearn_load_returns.
