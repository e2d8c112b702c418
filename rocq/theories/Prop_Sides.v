(** * C74: only the sides of the splits matter *)

From Coq Require Import ZArith List Bool String Lia ZifyBool.
From Verif Require Import Go GoFloat GoText UtilText Cmd LgTree Transformation Ensembles Leaves LgTextIO LgJsonIO XgBin XgIO Pickle SkClasses SkIO
  Spec_Predict Spec_Tree Spec_LgText Spec_Params Spec_LgFile Spec_LgJson Spec_XgBin Spec_XgTree Spec_XgFile Spec_SkTree Spec_SkFile Spec_Pickle Pf_Go Pf_Leaves Pf_Calls Pf_Rows Pf_LgFile Pf_XgBin Pf_SkLoad Pf_SkFile Prop_Pickle
  Prop_LgText Prop_LgJson Prop_Xg Prop_Sk Prop_Alike Demo DemoText Ex_LgText.
Local Open Scope Z_scope.

(** [x] and [y] go the same way down a tree: at every split [x] meets they are on the same side *)
Inductive same_way (x y : list f64) : dtree -> Prop :=
| way_leaf : forall id v, same_way x y (DLeaf id v)
| way_node : forall f (goes_left : f64 -> bool) (l r : dtree) a b, zget x f = Some a -> zget y f = Some b -> goes_left a = goes_left b ->
    same_way x y (if goes_left a then l else r) -> same_way x y (DNode f goes_left l r).

Lemma Forall2_weaken : forall A B (P Q : A -> B -> Prop) xs ys, (forall a b, P a b -> Q a b) -> Forall2 P xs ys -> Forall2 Q xs ys.
Proof. intros A B P Q xs ys H F. induction F; constructor; auto. Qed.
Lemma way_walk : forall x y d, same_way x y d -> exists v leaf, walk d x = Some (v, leaf) /\ walk d y = Some (v, leaf).
Proof.
  intros x y d H. induction H as [id v|f t l r a b Ha Hb E H (v & leaf & Wx & Wy)]; [cbn; eauto|].
  exists v, leaf. cbn [walk]. rewrite Ha, Hb, <- E. destruct (t a); auto.
Qed.
Lemma predict_alike : forall p e x y, well_formed e -> is_tree_model e -> NFeatures e <= zlen x -> NFeatures e <= zlen y ->
  (forall i t, zget (model_trees e) i = Some t -> predict p t x = predict p t y) ->
  forall nE preds, Predict p e x nE preds = Predict p e y nE preds.
Proof.
  intros p e x y W T Fx Fy A nE preds. destruct (wf_NEst e W) as (k & Hk & K0 & K1 & _).
  unfold Predict. destruct (_ <? _); [reflexivity|]. replace (zlen x <? NFeatures e) with false by lia. replace (zlen y <? NFeatures e) with false by lia.
  destruct (wf_adjust e nE W) as (k' & Hk' & ->). assert (k' = k) by congruence. subst k'. cbn [bind].
  set (n := if (0 <? nE) && (nE <? k) then nE else k). assert (Hn : n <= k) by (unfold n; destruct (Z.ltb_spec 0 nE), (Z.ltb_spec nE k); simpl; lia).
  destruct (checkNEstimators e n) as [[]| | |]; cbn [bind]; try reflexivity. f_equal. unfold predictInnerAndTransform.
  destruct (inner_alike p e x y k n 0 W T Hk Hn) as [-> ->]; [|reflexivity]. intros i t _. apply A.
Qed.
Lemma ways_alike : forall (P : list f64 -> Prop) p x y ts ds, P x -> P y ->
  Forall2 (fun T d => exists ren : Z -> Z, forall z v leaf, P z -> walk d z = Some (v, leaf) -> predict p T z = Ok (v, ren leaf)) ts ds -> Forall (same_way x y) ds ->
  forall i t, zget ts i = Some t -> predict p t x = predict p t y.
Proof.
  intros P p x y ts ds Px Py F S i t Ht. destruct (Forall2_zget _ _ _ _ _ F _ _ Ht) as (d & Hd & ren & B).
  rewrite Forall_forall in S. destruct (way_walk x y d (S d (zget_in _ _ _ _ Hd))) as (v & leaf & Wx & Wy). rewrite (B x v leaf Px Wx), (B y v leaf Py Wy). reflexivity.
Qed.

(** A model loaded from a file that describes the trees [ds].  Two feature vectors that go the
    same way down every tree get the same answer from every call, errors included: a prediction
    changes only when a feature crosses a split on the way. *)
Theorem C74_lightgbm_text :
  forall p eof text rest header kvss groups max_feature_idx average load tr ds e x y,
  file_says p eof text rest header kvss groups max_feature_idx average load tr ds -> zlen text <= MaxInt ->
  LGEnsembleFromReader p (mkReader text eof) load = Ok e ->
  NFeatures e <= zlen x -> NFeatures e <= zlen y -> Forall (same_way x y) ds ->
  forall nEstimators predictions, Predict p e x nEstimators predictions = Predict p e y nEstimators predictions.
Proof.
  intros p eof text rest header kvss g mf avg load tr ds e x y H L E Fx Fy S. destruct (loaded_wf text p _ load e E eq_refl L) as (W & _ & (m & Hc & _) & _).
  destruct (C28_text_file _ _ _ _ _ _ _ _ _ _ _ _ H) as (e' & E' & _ & _ & F). assert (e' = e) by congruence. subst e'.
  apply predict_alike; auto; [unfold is_tree_model; rewrite Hc; exact I|].
  eapply (ways_alike (fun _ => True)); eauto. eapply Forall2_weaken; [|exact F]. cbv beta. intros T d [_ B]. exists (fun z => z). auto.
Qed.
Print Assumptions C74_lightgbm_text.

Theorem C74_lightgbm_json :
  forall p v groups max_feature_idx trees ds e x y,
  json_model_says p v groups max_feature_idx trees ds -> 2 ^ 26 <= pl_maxalloc p -> zlen trees <= MaxInt ->
  LGEnsembleFromJSON p (Some v) false = Ok e ->
  NFeatures e <= zlen x -> NFeatures e <= zlen y -> Forall (same_way x y) ds ->
  forall nEstimators predictions, Predict p e x nEstimators predictions = Predict p e y nEstimators predictions.
Proof.
  intros p v g mf trees ds e x y H Ha Ht E Fx Fy S. destruct (json_model_loads _ _ _ _ _ _ H Ha) as (ts & E' & F). rewrite E in E'. injection E' as ->.
  assert (Lt : zlen ts = zlen trees). { destruct H as [_ H]. unfold zlen. f_equal. transitivity (List.length ds); [clear - F; induction F; cbn; congruence|clear - H; induction H; cbn; congruence]. }
  destruct H as [(l & lit1 & lit2 & lit3 & _ & _ & _ & _ & _ & _ & _ & _ & _ & _ & _ & G & N & M) _].
  apply predict_alike; auto; [|exact I|].
  - split; [|split]; [|change (zlen ts <= MaxInt); lia|reflexivity]. change (1 <= g <= MaxInt). destruct (Z_lt_le_dec (zlen trees) g) as [Hl|Hl]; [rewrite Z.mod_small in M by (pose proof (zlen_nonneg _ trees); lia)|]; lia.
  - eapply (ways_alike (fun _ => True)); eauto. eapply Forall2_weaken; [|exact F]. cbv beta. intros T d (_ & ren & _ & B). exists ren. auto.
Qed.
Print Assumptions C74_lightgbm_json.

Theorem C74_xgboost :
  forall p h m leaf_vectors weights load xts rest eof e x y,
  xg_file_ok (pl_maxalloc p) h m leaf_vectors weights -> xg_says h m weights load xts ->
  XGEnsembleFromReader p (mkReader (e_xg_file h m leaf_vectors weights ++ rest) eof) load = Ok e ->
  NFeatures e <= zlen x -> NFeatures e <= zlen y -> Forall (fun t => same_way x y (reference fle t)) xts ->
  forall nEstimators predictions, Predict p e x nEstimators predictions = Predict p e y nEstimators predictions.
Proof.
  intros p h m vs ws load xts rest eof e x y Hok Hs E Fx Fy S. destruct (xg_file_loads p h m vs ws load xts rest eof Hok Hs) as (trees & wd & E' & FB & LT & LW & GW).
  rewrite E in E'. injection E' as ->. destruct Hs as [B F1 F2 NT RT G IN WT OB EA]. destruct Hok as (_ & (Q1 & _) & _). pose proof Q1 as ([_ I1] & _ & _ & _ & _ & [_ I2] & _). change (2 ^ 31) with 2147483648 in *.
  apply predict_alike; auto; [|exact I|].
  - split; [|split].
    + change (1 <= gpNumOutputGroup (gmParam m) <= MaxInt). unfold MaxInt, two63. lia.
    + change (zlen trees <= MaxInt). unfold MaxInt, two63. lia.
    + cbn [eTransform]. destruct load; [exact I|reflexivity].
  - eapply (ways_alike (fun _ => True) p x y trees (map (reference fle) xts)); auto.
    + clear - FB. induction FB as [|T t trees xts (ren & _ & _ & B) FB IH]; constructor; [exists ren; auto|exact IH].
    + apply Forall_map. exact S.
Qed.
Print Assumptions C74_xgboost.

Lemma sk_sides : forall p g sts e x y, sk_says g sts -> sk_fits (pl_maxalloc p) g -> SKEnsembleFromClass p g = Ok e ->
  x <> [] -> y <> [] -> NFeatures e <= zlen x -> NFeatures e <= zlen y -> Forall (fun t => same_way x y (sk_reference (fun v => v) t)) sts ->
  forall nE preds, Predict p e x nE preds = Predict p e y nE preds.
Proof.
  intros p g sts e x y S F E Nx Ny Fx Fy W. set (groups := score_groups (gbNClasses g)). destruct (sk_class_loads p g sts S F) as (trees & base & E' & Lt & _ & Gt). fold groups in E', Lt, Gt. rewrite E in E'. injection E' as ->.
  pose proof (groups_pos g sts S) as G. fold groups in G. pose proof (ks_estimators _ _ S) as N. pose proof (kf_trees _ _ F) as A1. pose proof (kf_alloc _ _ F) as A2. change (2 ^ 63) with two63 in A2.
  pose proof (kf_classes _ _ F) as A3. assert (A4 : 0 <= gbNEstimators g * groups <= gbNEstimators g * gbNClasses g) by nia.
  apply predict_alike; auto; [|exact I|].
  - split; [|split]; [| |reflexivity].
    + change (1 <= groups <= MaxInt). unfold MaxInt, two63 in *. lia.
    + change (zlen trees <= MaxInt). unfold MaxInt, two63 in *. lia.
  - intros i T Hi. change (zget trees i = Some T) in Hi. pose proof (zget_range _ _ _ _ Hi) as Ri. pose proof (Z.div_mod i groups ltac:(lia)) as DM. pose proof (Z.mod_pos_bound i groups ltac:(lia)).
    assert (Hd : 0 <= i / groups < gbNEstimators g) by (split; [apply Z.div_pos; lia|apply Z.div_lt_upper_bound; lia]).
    destruct (Gt (i / groups) (i mod groups) Hd ltac:(lia)) as (T' & GT & t & b & Gs & _ & _ & ren & _ & _ & B). replace (i / groups * groups + i mod groups) with i in * by lia.
    assert (T' = T) by congruence. subst T'. rewrite Forall_forall in W. destruct (way_walk _ _ _ (W t (zget_in _ _ _ _ Gs))) as (v & leaf & Wx & Wy).
    apply (walk_scaled (scaled (gbLearningRate g) b)) in Wx. apply (walk_scaled (scaled (gbLearningRate g) b)) in Wy. rewrite (B _ _ _ Nx Wx), (B _ _ _ Ny Wy). reflexivity.
Qed.
Theorem C74_sklearn :
  forall p o s mu g sts rest eof load e x y,
  enc p true [] o s mu -> gb_is g o -> sk_says g sts -> sk_fits (pl_maxalloc p) g ->
  SKEnsembleFromReader p (mkReader (s ++ "."%byte :: rest) eof) load = Ok e ->
  x <> [] -> y <> [] -> NFeatures e <= zlen x -> NFeatures e <= zlen y -> Forall (fun t => same_way x y (sk_reference (fun v => v) t)) sts ->
  forall nEstimators predictions, Predict p e x nEstimators predictions = Predict p e y nEstimators predictions.
Proof.
  intros p o s mu g sts rest eof load e x y H Hg S F E. destruct (C42_decode_stateless p o s mu rest eof H) as (v & h & D & Dn). set (groups := score_groups (gbNClasses g)).
  pose proof (groups_pos g sts S) as G. fold groups in G. pose proof (ks_estimators _ _ S) as N. pose proof (kf_trees _ _ F) as A1. pose proof (kf_alloc _ _ F) as A2. pose proof (kf_classes _ _ F) as A3.
  assert (PG : ParseGradientBoosting p h v = Ok g).
  { apply (read_gb p h g o v Hg Dn); auto; try lia.
    - apply (kf_outputs _ _ F).
    - apply (ks_trees _ _ S).
    - rewrite (ks_trees _ _ S). fold groups. nia. }
  unfold SKEnsembleFromReader in E. rewrite D in E. cbn [bind] in E. rewrite PG in E. cbn [bind] in E. exact (sk_sides p g sts e x y S F E).
Qed.
Print Assumptions C74_sklearn.

(** two vectors on the same sides of the splits of [Ex_LgText]'s trees: the category 33 or 35 that
    is not listed, then anything; the category 34, then two numbers above 2.5 *)
Example C74_demo :
  (Forall (same_way [fint 33; fint 2] [fint 35; fint 7]) [ex_tree; ex_const] /\ Forall (same_way [fint 34; fint 3] [fint 34; fint 4; fint 9]) [ex_tree; ex_const] /\
   ~ same_way [fint 34; fint 2] [fint 34; fint 3] ex_tree)%type.
Proof.
  split; [|split].
  - constructor; [|constructor; [constructor|constructor]]. eapply way_node; [reflexivity|reflexivity|vm_compute; reflexivity|]. constructor.
  - constructor; [|constructor; [constructor|constructor]]. eapply way_node; [reflexivity|reflexivity|vm_compute; reflexivity|]. eapply way_node; [reflexivity|reflexivity|vm_compute; reflexivity|]. constructor.
  - intros H. apply way_walk in H. destruct H as (v & leaf & Wx & Wy). vm_compute in Wx, Wy. congruence.
Qed.
