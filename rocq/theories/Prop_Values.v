(** * Properties of the predicted values: C10-C16, C18, C21, C22 *)

From Coq Require Import ZArith List Bool String Lia ZifyBool FunctionalExtensionality.
From Verif Require Import Go GoFloat GoText Cmd UtilBits LgTree Transformation Ensembles Leaves Parallel
  Spec_Predict Demo Pf_Go Pf_Cmd Pf_Exec Pf_Leaves Pf_Calls Pf_Rows Pf_Float Pf_Values Pf_Tree.

(** ** C10 *)

Theorem C10_adjusted_estimators :
  forall p e fvals nEstimators predictions, well_formed e ->
  (* asking for none, a negative number or at least as many as there are, uses all *)
  (forall k, NEstimators e = Ok k -> ~ 0 < nEstimators < k ->
     Predict p e fvals nEstimators predictions = Predict p e fvals k predictions /\
     Predict p e fvals nEstimators predictions = Predict p e fvals 0 predictions).
Proof.
  intros p e fv nE preds Hwf k Hk Hn. unfold Predict.
  destruct (wf_adjust e nE Hwf) as (k1 & H1 & ->). destruct (wf_adjust e k Hwf) as (k2 & H2 & ->).
  destruct (wf_adjust e 0 Hwf) as (k3 & H3 & ->).
  rewrite Hk in H1, H2, H3. injection H1 as <-. injection H2 as <-. injection H3 as <-.
  replace ((0 <? nE) && (nE <? k)) with false by lia.
  replace ((0 <? k) && (k <? k)) with false by lia.
  replace ((0 <? 0) && (0 <? k)) with false by lia. auto.
Qed.
Print Assumptions C10_adjusted_estimators.

(** two models that share the trees (and weights) of their first [n] estimators and
    everything besides the trees *)
Definition same_prefix (n : Z) (e e' : Ensemble) : Prop :=
  eTransform e = eTransform e' /\
  match core (eBase e), core (eBase e') with
  | BLg m, BLg m' =>
      lgNRawOutputGroups m = lgNRawOutputGroups m' /\ lgMaxFeatureIdx m = lgMaxFeatureIdx m' /\
      lgAverageOutput m = lgAverageOutput m' /\
      forall i, 0 <= i < n * lgNRawOutputGroups m -> zget (lgTrees m) i = zget (lgTrees m') i
  | BXg m, BXg m' =>
      xgNRawOutputGroups m = xgNRawOutputGroups m' /\ xgMaxFeatureIdx m = xgMaxFeatureIdx m' /\
      xgBaseScore m = xgBaseScore m' /\
      forall i, 0 <= i < n * xgNRawOutputGroups m ->
        zget (xgTrees m) i = zget (xgTrees m') i /\ zget (xgWeightDrop m) i = zget (xgWeightDrop m') i
  | _, _ => False
  end.

Lemma prefix_inner : forall p e e' fv n s, same_prefix n e e' -> 0 <= n ->
  b_predictInner p (eBase e) fv n s = b_predictInner p (eBase e') fv n s.
Proof.
  intros p e e' fv n s [_ H] Hn. rewrite (core_inner p (eBase e)), (core_inner p (eBase e')).
  destruct (core (eBase e)) as [m|m|m|]; destruct (core (eBase e')) as [m'|m'|m'|]; try contradiction; simpl.
  - destruct H as (Hg & _ & Ha & Ht). unfold lg_predictInner. cbv zeta. rewrite Ha, <- Hg. f_equal.
    rewrite !flat_map_concat_map. f_equal. apply map_ext_in. intros i Hi. apply map_ext_in. intros k Hk.
    apply in_zseq in Hi. apply in_zseq in Hk. unfold at_. rewrite (Ht (i * lgNRawOutputGroups m + k)) by nia. reflexivity.
  - destruct H as (Hg & _ & Hb & Ht). unfold xg_predictInner. cbv zeta. rewrite Hb, <- Hg. f_equal.
    rewrite !flat_map_concat_map. f_equal. apply map_ext_in. intros i Hi. apply map_ext_in. intros k Hk.
    apply in_zseq in Hi. apply in_zseq in Hk. unfold at_.
    destruct (Ht (i * xgNRawOutputGroups m + k)) as [-> ->]; [nia|]. reflexivity.
Qed.

Theorem C10_later_estimators_ignored :
  forall p e e' fvals nEstimators predictions k k',
  well_formed e -> well_formed e' -> same_prefix nEstimators e e' ->
  NEstimators e = Ok k -> NEstimators e' = Ok k' -> 0 < nEstimators <= k -> nEstimators <= k' ->
  ~ wants_leaves e ->
  Predict p e fvals nEstimators predictions = Predict p e' fvals nEstimators predictions.
Proof.
  intros p e e' fv nE preds k k' Hwf Hwf' Hs Hk Hk' Hn Hn' Hl.
  pose proof Hs as [Ht Hm]. unfold Predict.
  assert (Ho : NOutputGroups e = NOutputGroups e') by (unfold NOutputGroups; congruence).
  assert (Hf : NFeatures e = NFeatures e').
  { unfold NFeatures. rewrite (core_NFeat (eBase e)), (core_NFeat (eBase e')).
    destruct (core (eBase e)); destruct (core (eBase e')); try contradiction; simpl; f_equal; tauto. }
  assert (Hr : NRawOutputGroups e = NRawOutputGroups e').
  { unfold NRawOutputGroups. rewrite (core_NRaw (eBase e)), (core_NRaw (eBase e')).
    destruct (core (eBase e)); destruct (core (eBase e')); try contradiction; simpl; tauto. }
  rewrite Ho, Hf.
  destruct (wf_adjust e nE Hwf) as (k1 & H1 & ->). destruct (wf_adjust e' nE Hwf') as (k2 & H2 & ->).
  assert (k1 = k) by congruence. assert (k2 = k') by congruence. subst k1 k2.
  replace (if (0 <? nE) && (nE <? k) then nE else k) with nE by (destruct (Z.ltb_spec 0 nE), (Z.ltb_spec nE k); simpl; lia).
  replace (if (0 <? nE) && (nE <? k') then nE else k') with nE by (destruct (Z.ltb_spec 0 nE), (Z.ltb_spec nE k'); simpl; lia).
  cbn [bind]. unfold checkNEstimators. rewrite <- Ht.
  assert (Hty : Type_t (eTransform e) =? TypeLeafIndex = false).
  { destruct (eTransform e) eqn:E; auto. exfalso. apply Hl. exists NumOutputGroups. auto. }
  rewrite Hty. cbn [bind]. unfold predictInnerAndTransform. rewrite <- Ht, Hty, Hr.
  rewrite !(prefix_inner p e e' fv nE) by (auto; lia). reflexivity.
Qed.
Print Assumptions C10_later_estimators_ignored.

Theorem C10_linear_one_estimator :
  forall p e m fvals n n' predictions, core (eBase e) = BLinear m ->
  NEstimators e = Ok 1 /\ Predict p e fvals n predictions = Predict p e fvals n' predictions.
Proof.
  intros p e m fv n n' preds Hc. unfold NEstimators. rewrite core_NEst, Hc. split; auto.
  unfold Predict. rewrite !(core_adjust (eBase e)), Hc. reflexivity.
Qed.
Print Assumptions C10_linear_one_estimator.

(** ** Common part of C11-C14: Predict on a raw view runs the model *)

(** [e] outputs raw scores *)
Definition raw_output (e : Ensemble) : Prop := exists n, eTransform e = TransformRaw n.

Lemma predict_used : forall p e fv nE preds out, well_formed e ->
  Predict p e fv nE preds = Ok out ->
  exists n, used_estimators e nE n /\ 0 <= n /\ exec (predictInnerAndTransform p e fv n 0) preds = Ok out.
Proof.
  intros p e fv nE preds out Hwf H.
  destruct (Predict_inv _ _ _ _ _ _ Hwf H) as (n & Ha & Hc & _ & _ & E).
  destruct (wf_adjust e nE Hwf) as (k & Hk & Ha').
  destruct (wf_NEst e Hwf) as (k1 & Hk1 & Hp & _). assert (k1 = k) by congruence. subst k1.
  rewrite Ha' in Ha. injection Ha as <-.
  exists (if (0 <? nE) && (nE <? k) then nE else k). repeat split; auto.
  - exists k. split; auto. destruct ((0 <? nE) && (nE <? k)) eqn:Eb; [left|right]; split; auto; lia.
  - destruct ((0 <? nE) && (nE <? k)) eqn:Eb; lia.
Qed.

Lemma raw_piat : forall p e fv n s, raw_output e ->
  predictInnerAndTransform p e fv n s = b_predictInner p (core (eBase e)) fv n s.
Proof.
  intros p e fv n s [k Hk]. unfold predictInnerAndTransform. rewrite Hk. simpl. apply core_inner.
Qed.

(** ** C11: LightGBM and scikit-learn models *)
Theorem C11_raw_score_is_sum :
  forall p e m fvals nEstimators predictions out,
  well_formed e -> raw_output e -> core (eBase e) = BLg m -> lgAverageOutput m = false ->
  Predict p e fvals nEstimators predictions = Ok out ->
  exists n, used_estimators e nEstimators n /\
  forall k, 0 <= k < NRawOutputGroups e -> exists vs,
    tree_outputs p (lgTrees m) (NRawOutputGroups e) k n fvals vs /\
    zget out k = Some (sum_from fzero (map (fun v => fmul v fone) vs)).
Proof.
  intros p e m fv nE preds out Hwf Hraw Hc Havg H.
  destruct (predict_used _ _ _ _ _ _ Hwf H) as (n & Hu & Hn & E). exists n. split; auto.
  rewrite raw_piat in E by auto. rewrite Hc in E. simpl in E.
  intros k Hk. assert (Hg : NRawOutputGroups e = lgNRawOutputGroups m).
  { unfold NRawOutputGroups. rewrite core_NRaw, Hc. reflexivity. }
  rewrite Hg in *.
  destruct (lg_inner_values p m fv n preds out ltac:(lia) Hn E k Hk) as (vs & Ht & Hz).
  rewrite Havg in Hz. eauto.
Qed.
Print Assumptions C11_raw_score_is_sum.

(** so the score is the plain in-order sum of the leaf values reached *)
Corollary C11_raw_score_is_plain_sum :
  forall p e m fvals nEstimators predictions out,
  well_formed e -> raw_output e -> core (eBase e) = BLg m -> lgAverageOutput m = false ->
  Forall (fun t => Forall (fun v => valid64 v = true) (tLeafValues t)) (lgTrees m) ->
  Predict p e fvals nEstimators predictions = Ok out ->
  exists n, used_estimators e nEstimators n /\
  forall k, 0 <= k < NRawOutputGroups e -> exists vs,
    tree_outputs p (lgTrees m) (NRawOutputGroups e) k n fvals vs /\
    zget out k = Some (sum_from fzero vs).
Proof.
  intros p e m fv nE preds out Hwf Hraw Hc Havg Hval H.
  destruct (C11_raw_score_is_sum _ _ _ _ _ _ _ Hwf Hraw Hc Havg H) as (n & Hu & Hk).
  exists n. split; auto. intros k Hkb. destruct (Hk k Hkb) as (vs & Ht & Hz). exists vs. split; auto.
  rewrite Hz. do 2 f_equal. rewrite <- (map_id vs) at 2. apply map_ext_in. intros v Hv.
  apply fmul_one. apply in_zget in Hv. destruct Hv as [i Hi]. destruct Ht as [Hl Ht].
  destruct (Ht i) as (t & v' & leaf & Hz' & Hp & Hv'). { apply zget_range in Hi. lia. }
  assert (v' = v) by congruence. subst v'.
  rewrite Forall_forall in Hval. specialize (Hval t (zget_in _ _ _ _ Hz')). rewrite Forall_forall in Hval.
  apply Hval. eapply predict_leaf_in; eauto.
Qed.
Print Assumptions C11_raw_score_is_plain_sum.

(** ** C12: random forests *)
Theorem C12_average_output :
  forall p e m fvals nEstimators predictions out,
  well_formed e -> raw_output e -> core (eBase e) = BLg m -> lgAverageOutput m = true ->
  Predict p e fvals nEstimators predictions = Ok out ->
  exists n, used_estimators e nEstimators n /\
  forall k, 0 <= k < NRawOutputGroups e -> exists vs,
    tree_outputs p (lgTrees m) (NRawOutputGroups e) k n fvals vs /\
    zget out k = Some (sum_from fzero (map (fun v => fmul v (fdiv fone (f64_of_Z n))) vs)).
Proof.
  intros p e m fv nE preds out Hwf Hraw Hc Havg H.
  destruct (predict_used _ _ _ _ _ _ Hwf H) as (n & Hu & Hn & E). exists n. split; auto.
  rewrite raw_piat in E by auto. rewrite Hc in E. simpl in E.
  intros k Hk. assert (Hg : NRawOutputGroups e = lgNRawOutputGroups m).
  { unfold NRawOutputGroups. rewrite core_NRaw, Hc. reflexivity. }
  rewrite Hg in *.
  destruct (lg_inner_values p m fv n preds out ltac:(lia) Hn E k Hk) as (vs & Ht & Hz).
  rewrite Havg in Hz. eauto.
Qed.
Print Assumptions C12_average_output.

(** ** C13: XGBoost trees *)
Theorem C13_xgboost_score :
  forall p e m fvals nEstimators predictions out,
  well_formed e -> raw_output e -> core (eBase e) = BXg m ->
  Predict p e fvals nEstimators predictions = Ok out ->
  exists n, used_estimators e nEstimators n /\
  forall k, 0 <= k < NRawOutputGroups e -> exists vs ws,
    tree_outputs p (xgTrees m) (NRawOutputGroups e) k n fvals vs /\
    zlen ws = n /\
    (forall i, 0 <= i < n -> zget ws i = zget (xgWeightDrop m) (i * NRawOutputGroups e + k)) /\
    zget out k = Some (sum_from (xgBaseScore m) (map (fun vw => fmul (fst vw) (snd vw)) (combine vs ws))).
Proof.
  intros p e m fv nE preds out Hwf Hraw Hc H.
  destruct (predict_used _ _ _ _ _ _ Hwf H) as (n & Hu & Hn & E). exists n. split; auto.
  rewrite raw_piat in E by auto. rewrite Hc in E. simpl in E.
  intros k Hk. assert (Hg : NRawOutputGroups e = xgNRawOutputGroups m).
  { unfold NRawOutputGroups. rewrite core_NRaw, Hc. reflexivity. }
  rewrite Hg in *. apply (xg_inner_values p m fv n preds out); auto. lia.
Qed.
Print Assumptions C13_xgboost_score.

(** ** C14: gblinear *)
Theorem C14_gblinear_score :
  forall p e m fvals nEstimators predictions out,
  well_formed e -> raw_output e -> core (eBase e) = BLinear m ->
  0 <= xlNumFeature m -> xlNRawOutputGroups m * (xlNumFeature m + 1) <= MaxInt ->
  Predict p e fvals nEstimators predictions = Ok out ->
  forall k, 0 <= k < NRawOutputGroups e -> exists bias terms,
    zget (xlWeights m) (xlNumFeature m * NRawOutputGroups e + k) = Some bias /\
    zlen terms = xlNumFeature m /\
    (forall i, 0 <= i < xlNumFeature m -> exists x w,
       zget fvals i = Some x /\ zget (xlWeights m) (i * NRawOutputGroups e + k) = Some w /\
       zget terms i = Some (fmul x (f64_of_f32bits w))) /\
    zget out k = Some (sum_from (fadd (xlBaseScore m) (f64_of_f32bits bias)) terms).
Proof.
  intros p e m fv nE preds out Hwf Hraw Hc Hnf Hmax H k Hk.
  destruct (predict_used _ _ _ _ _ _ Hwf H) as (n & Hu & Hn & E).
  rewrite raw_piat in E by auto. rewrite Hc in E. simpl in E.
  assert (Hg : NRawOutputGroups e = xlNRawOutputGroups m).
  { unfold NRawOutputGroups. rewrite core_NRaw, Hc. reflexivity. }
  rewrite Hg in *.
  destruct (lin_inner_values m fv preds out E ltac:(nia) Hnf k Hk) as (b & ts & Hb & Hl & Ht & Hz).
  exists b, ts. rewrite (Z.mul_comm (xlNumFeature m)). repeat split; auto.
  intros i Hi. rewrite (Z.mul_comm i). auto.
Qed.
Print Assumptions C14_gblinear_score.

(** ** C16 *)
Lemma wf_trees_NEst : forall e k, well_formed e -> is_tree_model e -> NEstimators e = Ok k ->
  0 <= k /\ NRawOutputGroups e * k <= zlen (model_trees e) < NRawOutputGroups e * k + NRawOutputGroups e.
Proof.
  intros e k Hwf Ht Hk. destruct (wf_NEst e Hwf) as (k' & Hk' & Hp & _ & Hb).
  assert (k' = k) by congruence. subst. auto.
Qed.

Lemma NLeaves_eq : forall p e k, well_formed e -> is_tree_model e -> NEstimators e = Ok k ->
  NRawOutputGroups e * k <= pl_maxalloc p ->
  NLeaves p e = foldM (fun nleaves estimatorID =>
           foldM (fun nleaves groupID =>
                    let* t := at_ (model_trees e) (estimatorID * NRawOutputGroups e + groupID) in
                    set_at nleaves (groupID * k + estimatorID) (nLeaves t))
                 (zseq (NRawOutputGroups e)) nleaves)
        (zseq k) (repeat 0 (Z.to_nat (NRawOutputGroups e * k))).
Proof.
  intros p e k Hwf Ht Hk Ha. pose proof (wf_trees_NEst e k Hwf Ht Hk) as [Hk0 Hb].
  pose proof Hwf as ([Hg _] & Hm & _).
  assert (Hs : s64 (k * NRawOutputGroups e) = NRawOutputGroups e * k).
  { rewrite Z.mul_comm. apply s64_id. unfold MaxInt, two63 in *. nia. }
  assert (R : forall trees, NEstimators e = trees_NEstimators trees (NRawOutputGroups e) ->
    trees_NLeaves p trees (NRawOutputGroups e) = foldM (fun nleaves estimatorID =>
           foldM (fun nleaves groupID =>
                    let* t := at_ trees (estimatorID * NRawOutputGroups e + groupID) in
                    set_at nleaves (groupID * k + estimatorID) (nLeaves t))
                 (zseq (NRawOutputGroups e)) nleaves)
        (zseq k) (repeat 0 (Z.to_nat (NRawOutputGroups e * k)))).
  { intros trees He. unfold trees_NLeaves. rewrite <- He, Hk. cbn [bind]. rewrite Hs.
    replace ((NRawOutputGroups e * k <? 0) || (pl_maxalloc p <? NRawOutputGroups e * k)) with false by nia.
    reflexivity. }
  unfold NLeaves, model_trees. rewrite core_NLeaves.
  unfold is_tree_model in Ht.
  assert (Hraw : NRawOutputGroups e = b_NRawOutputGroups (core (eBase e))) by apply core_NRaw.
  assert (Hest : NEstimators e = b_NEstimators (core (eBase e))) by apply core_NEst.
  destruct (core_cases (eBase e)) as [[m Hc]|[[m Hc]|[m Hc]]]; rewrite Hc in *; simpl in Hraw, Hest; try contradiction;
  cbn [b_NLeaves]; rewrite <- Hraw in *; apply R; auto.
Qed.

Theorem C16_nleaves_layout :
  forall p e k, well_formed e -> is_tree_model e -> NEstimators e = Ok k ->
  NRawOutputGroups e * k <= pl_maxalloc p ->
  exists nl, NLeaves p e = Ok nl /\ zlen nl = NRawOutputGroups e * k /\
  forall g i, 0 <= g < NRawOutputGroups e -> 0 <= i < k ->
    exists t, zget (model_trees e) (i * NRawOutputGroups e + g) = Some t /\
              zget nl (g * k + i) = Some (zlen (tNodes t) + 1).
Proof.
  intros p e k Hwf Ht Hk Ha. rewrite (NLeaves_eq p e k) by auto.
  pose proof (wf_trees_NEst e k Hwf Ht Hk) as [Hk0 Hb]. pose proof Hwf as ([Hg _] & _).
  apply nleaves_fold; try lia. rewrite zlen_repeat. nia.
Qed.
Print Assumptions C16_nleaves_layout.

(** ** C15 *)
Theorem C15_leaf_indices :
  forall p e k fvals nEstimators predictions out nl,
  well_formed e -> wants_leaves e -> is_tree_model e -> NEstimators e = Ok k ->
  NRawOutputGroups e * k <= pl_maxalloc p ->
  (* no tree stores more leaf values than it has leaves *)
  Forall (fun t => zlen (tLeafValues t) <= nLeaves t <= 2 ^ 53) (model_trees e) ->
  Predict p e fvals nEstimators predictions = Ok out -> NLeaves p e = Ok nl ->
  forall g i, 0 <= g < NRawOutputGroups e -> 0 <= i < k ->
    exists t v leaf n,
      zget (model_trees e) (i * NRawOutputGroups e + g) = Some t /\
      predict p t fvals = Ok (v, leaf) /\ zget (tLeafValues t) leaf = Some v /\
      zget nl (g * k + i) = Some n /\ 0 <= leaf < n /\
      zget out (g * k + i) = Some (f64_of_Z leaf) /\ trunc (f64_of_Z leaf) = Some leaf.
Proof.
  intros p e k fv nE preds out nl Hwf Hl Ht Hk Ha Hval H Hnl g i Hg Hi.
  pose proof (wf_trees_NEst e k Hwf Ht Hk) as [Hk0 Hb]. pose proof Hwf as ([Hg1 _] & Hm & _).
  destruct (Predict_inv _ _ _ _ _ _ Hwf H) as (n & Had & Hc & _ & _ & E).
  destruct (adjust_usable _ _ _ Hwf Had Hc) as (k' & Hk' & _ & Hn).
  assert (k' = k) by congruence. subst k'. specialize (Hn Hl). subst n.
  assert (El : exec (trees_predictLeafIndicesInner p (model_trees e) (NRawOutputGroups e) fv k 0) preds = Ok out).
  { rewrite <- E. f_equal. unfold predictInnerAndTransform. destruct Hl as [q Hq]. rewrite Hq. cbn [Type_t].
    change (TypeLeafIndex =? TypeRaw) with false. rewrite Z.eqb_refl. cbv iota.
    rewrite core_leafs. unfold model_trees, NRawOutputGroups. rewrite core_NRaw. unfold is_tree_model in Ht.
    destruct (core_cases (eBase e)) as [[m Hcc]|[[m Hcc]|[m Hcc]]]; rewrite Hcc in *; simpl; tauto. }
  destruct (leafs_values p (model_trees e) (NRawOutputGroups e) fv k preds out ltac:(lia) Hk0 ltac:(nia) El g i Hg Hi)
    as (t & v & leaf & Hz & Hp & Ho).
  destruct (C16_nleaves_layout p e k Hwf Ht Hk Ha) as (nl' & Hnl' & _ & Hlay).
  assert (nl' = nl) by congruence. subst nl'.
  destruct (Hlay g i Hg Hi) as (t' & Hz' & Hn'). assert (t' = t) by congruence. subst t'.
  pose proof (predict_leaf _ _ _ _ _ Hp) as Hleaf. pose proof (zget_range _ _ _ _ Hleaf) as Hr.
  rewrite Forall_forall in Hval. specialize (Hval t (zget_in _ _ _ _ Hz)). unfold nLeaves in Hval.
  exists t, v, leaf, (zlen (tNodes t) + 1). repeat split; auto; try lia.
  apply trunc_f64_of_Z. lia.
Qed.
Print Assumptions C15_leaf_indices.

(** ** C18 *)
Inductive view : Type := RawView | LeafView.

Definition apply_view (v : view) (e : Ensemble) : outcome Ensemble :=
  match v with
  | RawView => Ok (EnsembleWithRawPredictions e)
  | LeafView => EnsembleWithLeafPredictions e
  end.

Fixpoint apply_views (vs : list view) (e : Ensemble) : outcome Ensemble :=
  match vs with
  | [] => Ok e
  | v :: vs' => let* e' := apply_view v e in apply_views vs' e'
  end.

(** indistinguishable through the API *)
Definition same_behaviour (e1 e2 : Ensemble) : Prop :=
  (forall p fvals n predictions, Predict p e1 fvals n predictions = Predict p e2 fvals n predictions) /\
  (forall p fvals n, PredictSingle p e1 fvals n = PredictSingle p e2 fvals n) /\
  (forall p vals nrows ncols predictions n t r,
     PredictDense p e1 vals nrows ncols predictions n t r <-> PredictDense p e2 vals nrows ncols predictions n t r) /\
  (forall p indptr cols vals predictions n t r,
     PredictCSR p e1 indptr cols vals predictions n t r <-> PredictCSR p e2 indptr cols vals predictions n t r) /\
  NOutputGroups e1 = NOutputGroups e2 /\ Transformation_ e1 = Transformation_ e2.

Definition same_metadata (e1 e2 : Ensemble) : Prop :=
  NEstimators e1 = NEstimators e2 /\ NFeatures e1 = NFeatures e2 /\
  NRawOutputGroups e1 = NRawOutputGroups e2 /\ (forall p, NLeaves p e1 = NLeaves p e2) /\ Name e1 = Name e2.

Lemma core_metadata : forall e1 e2, core (eBase e1) = core (eBase e2) -> same_metadata e1 e2.
Proof.
  intros [b1 t1] [b2 t2] H. simpl in H.
  unfold same_metadata, NEstimators, NFeatures, NRawOutputGroups, NLeaves, Name; simpl.
  rewrite (core_NEst b1), (core_NEst b2), (core_NFeat b1), (core_NFeat b2), (core_NRaw b1), (core_NRaw b2),
    (core_Name b1), (core_Name b2), H. repeat split; auto.
  intros p. rewrite (core_NLeaves p b1), (core_NLeaves p b2), H. auto.
Qed.

Lemma core_behaviour : forall e1 e2, core (eBase e1) = core (eBase e2) -> eTransform e1 = eTransform e2 ->
  same_behaviour e1 e2.
Proof.
  intros e1 e2 Hc Ht. pose proof (core_metadata e1 e2 Hc) as (M1 & M2 & M3 & M4 & M5).
  assert (Ho : NOutputGroups e1 = NOutputGroups e2) by (unfold NOutputGroups; congruence).
  assert (Hadj : forall n, b_adjustNEstimators (eBase e1) n = b_adjustNEstimators (eBase e2) n).
  { intros n. rewrite (core_adjust (eBase e1)), (core_adjust (eBase e2)), Hc. auto. }
  assert (Hck : forall n, checkNEstimators e1 n = checkNEstimators e2 n).
  { intros n. unfold checkNEstimators. rewrite Ht, M1. auto. }
  assert (Hin : forall p fv n s, b_predictInner p (eBase e1) fv n s = b_predictInner p (eBase e2) fv n s).
  { intros. rewrite (core_inner p (eBase e1)), (core_inner p (eBase e2)), Hc. auto. }
  assert (Hp : forall p fv n s, predictInnerAndTransform p e1 fv n s = predictInnerAndTransform p e2 fv n s).
  { intros. unfold predictInnerAndTransform. rewrite Ht, M3, !Hin.
    rewrite (core_leafs p (eBase e1)), (core_leafs p (eBase e2)), Hc. auto. }
  assert (Hreset : forall fv, b_resetFVals (eBase e1) fv = b_resetFVals (eBase e2) fv).
  { intros. rewrite (core_reset (eBase e1)), (core_reset (eBase e2)), Hc. auto. }
  assert (Hdr : forall p vals nc n, dense_row p e1 vals nc n = dense_row p e2 vals nc n).
  { intros. apply functional_extensionality. intros i. unfold dense_row. rewrite Ho. apply cmds_of_ext.
    intros a. apply Hp. }
  assert (Hcr : forall p indptr cols vals n, csr_row p e1 indptr cols vals n = csr_row p e2 indptr cols vals n).
  { intros. apply functional_extensionality. intros fv. apply functional_extensionality. intros i.
    unfold csr_row. rewrite Ho. destruct (bind _ _); auto. rewrite Hp, Hreset. auto. }
  assert (Hbuf : forall p, csr_buffer p e1 = csr_buffer p e2).
  { intros. unfold csr_buffer. rewrite M2. destruct (make_f64 _ _); auto. simpl. rewrite Hreset. auto. }
  assert (Hd : forall p vals nr nc n, dense_checks e1 nr nc vals n = dense_checks e2 nr nc vals n /\
    (forall v, dense_single p e1 v nr nc vals n = dense_single p e2 v nr nc vals n) /\
    (forall v t, dense_job p e1 v nr nc n t = dense_job p e2 v nr nc n t)).
  { intros. split; [|split].
    - unfold dense_checks. rewrite Ho, M2, Hadj. destruct (_ <? _); auto. destruct (_ || _); auto.
      destruct (b_adjustNEstimators _ _); auto. simpl. rewrite Hck. auto.
    - intros v. unfold dense_single. rewrite Hdr. auto.
    - intros v t. unfold dense_job. rewrite Hdr. auto. }
  assert (Hs : forall p ip preds n, csr_checks e1 ip preds n = csr_checks e2 ip preds n /\
    (forall c v, csr_single p e1 ip c v preds n = csr_single p e2 ip c v preds n) /\
    (forall c v t, csr_job p e1 ip c v n t = csr_job p e2 ip c v n t)).
  { intros. split; [|split].
    - unfold csr_checks. rewrite Ho, Hadj. destruct (_ <? _); auto.
      destruct (b_adjustNEstimators _ _); auto. simpl. rewrite Hck. auto.
    - intros c v. unfold csr_single. rewrite Hbuf, Hcr. auto.
    - intros c v t. unfold csr_job. rewrite Hbuf, Hcr. auto. }
  repeat split; auto.
  - intros. unfold Predict. rewrite Ho, M2, Hadj. destruct (_ <? _); auto. destruct (_ <? _); auto.
    destruct (b_adjustNEstimators _ _); auto. simpl. rewrite Hck. destruct (checkNEstimators _ _); auto.
    simpl. rewrite Hp. auto.
  - intros. unfold PredictSingle. rewrite Ho, M2, Hadj. destruct (negb _); auto. destruct (_ <? _); auto.
    destruct (b_adjustNEstimators _ _); auto. simpl. rewrite Hck. destruct (checkNEstimators _ _); auto.
    rewrite Hp. auto.
  - intros H. destruct (Hd p predictions nrows ncols n) as (D1 & _).
    inversion H; subst;
      match goal with K : dense_checks e1 _ _ _ _ = _ |- _ => rewrite D1 in K end.
    + apply PD_error; auto.
    + apply PD_check_panic; auto.
    + destruct (Hd p predictions nrows ncols n0) as (_ & D2 & _). rewrite D2 in *. eapply PD_single; eauto.
    + destruct (Hd p predictions nrows ncols n0) as (_ & D2 & _). rewrite D2 in *. eapply PD_single_panic; eauto.
    + destruct (Hd p predictions nrows ncols n0) as (_ & _ & D3). rewrite D3 in *. eapply PD_parallel; eauto.
    + destruct (Hd p predictions nrows ncols n0) as (_ & _ & D3). rewrite D3 in *. eapply PD_parallel_panic; eauto.
  - intros H. destruct (Hd p predictions nrows ncols n) as (D1 & _).
    inversion H; subst;
      match goal with K : dense_checks e2 _ _ _ _ = _ |- _ => rewrite <- D1 in K end.
    + apply PD_error; auto.
    + apply PD_check_panic; auto.
    + destruct (Hd p predictions nrows ncols n0) as (_ & D2 & _). rewrite <- D2 in *. eapply PD_single; eauto.
    + destruct (Hd p predictions nrows ncols n0) as (_ & D2 & _). rewrite <- D2 in *. eapply PD_single_panic; eauto.
    + destruct (Hd p predictions nrows ncols n0) as (_ & _ & D3). rewrite <- D3 in *. eapply PD_parallel; eauto.
    + destruct (Hd p predictions nrows ncols n0) as (_ & _ & D3). rewrite <- D3 in *. eapply PD_parallel_panic; eauto.
  - intros H. destruct (Hs p indptr predictions n) as (D1 & _).
    inversion H; subst;
      match goal with K : csr_checks e1 _ _ _ = _ |- _ => rewrite D1 in K end.
    + apply PC_error; auto.
    + apply PC_check_panic; auto.
    + destruct (Hs p indptr predictions n0) as (_ & D2 & _). rewrite D2 in *. eapply PC_single; eauto.
    + destruct (Hs p indptr predictions n0) as (_ & D2 & _). rewrite D2 in *. eapply PC_single_panic; eauto.
    + destruct (Hs p indptr predictions n0) as (_ & _ & D3). rewrite D3 in *. eapply PC_parallel; eauto.
    + destruct (Hs p indptr predictions n0) as (_ & _ & D3). rewrite D3 in *. eapply PC_parallel_panic; eauto.
  - intros H. destruct (Hs p indptr predictions n) as (D1 & _).
    inversion H; subst;
      match goal with K : csr_checks e2 _ _ _ = _ |- _ => rewrite <- D1 in K end.
    + apply PC_error; auto.
    + apply PC_check_panic; auto.
    + destruct (Hs p indptr predictions n0) as (_ & D2 & _). rewrite <- D2 in *. eapply PC_single; eauto.
    + destruct (Hs p indptr predictions n0) as (_ & D2 & _). rewrite <- D2 in *. eapply PC_single_panic; eauto.
    + destruct (Hs p indptr predictions n0) as (_ & _ & D3). rewrite <- D3 in *. eapply PC_parallel; eauto.
    + destruct (Hs p indptr predictions n0) as (_ & _ & D3). rewrite <- D3 in *. eapply PC_parallel_panic; eauto.
Qed.

Lemma apply_view_core : forall v e e', apply_view v e = Ok e' ->
  core (eBase e') = core (eBase e) /\
  forall e2, core (eBase e2) = core (eBase e) -> exists e2', apply_view v e2 = Ok e2' /\ eTransform e2' = eTransform e'.
Proof.
  intros v e e' H.
  destruct v; simpl in H.
  - injection H as <-. split; auto. intros e2 Hc. eexists. split; [reflexivity|]. simpl. f_equal.
    destruct (core_metadata e2 e Hc) as (_ & _ & -> & _). auto.
  - unfold EnsembleWithLeafPredictions in H. apply bind_ok in H. destruct H as (k & Hk & H). injection H as <-.
    split; auto. intros e2 Hc. destruct (core_metadata e2 e Hc) as (M1 & _ & M3 & _).
    simpl. unfold EnsembleWithLeafPredictions. rewrite M1, Hk. cbn [bind]. eexists. split; [reflexivity|].
    simpl. rewrite M3. auto.
Qed.

Lemma apply_views_core : forall vs e e', apply_views vs e = Ok e' -> core (eBase e') = core (eBase e).
Proof.
  induction vs as [|v vs IH]; intros e e' H; simpl in H.
  - congruence.
  - apply bind_ok in H. destruct H as (e1 & H1 & H). rewrite (IH _ _ H). eapply apply_view_core; eauto.
Qed.

Lemma apply_views_snoc : forall vs v e, apply_views (vs ++ [v]) e = (let* e1 := apply_views vs e in apply_view v e1).
Proof.
  induction vs as [|w vs IH]; intros v e; simpl.
  - destruct (apply_view v e); auto.
  - destruct (apply_view w e); simpl; auto.
Qed.

Theorem C18_views_compose :
  forall vs v e e1, apply_views (vs ++ [v]) e = Ok e1 ->
  (* the last view applied directly to the model gives an ensemble with the same behaviour *)
  (exists e2, apply_view v e = Ok e2 /\ same_behaviour e1 e2) /\
  (* and the metadata of the model is unchanged *)
  same_metadata e1 e.
Proof.
  intros vs v e e1 H. pose proof (apply_views_core _ _ _ H) as Hc. split; [|apply core_metadata; auto].
  rewrite apply_views_snoc in H. apply bind_ok in H. destruct H as (em & Hm & H).
  pose proof (apply_views_core _ _ _ Hm) as Hcm.
  destruct (apply_view_core _ _ _ H) as [Hc1 Hv]. destruct (Hv e (eq_sym Hcm)) as (e2 & H2 & Ht).
  exists e2. split; auto. apply core_behaviour; auto.
  destruct (apply_view_core _ _ _ H2) as [Hc2 _]. congruence.
Qed.
Print Assumptions C18_views_compose.

(** creating views never fails on a well-formed ensemble, and keeps it well-formed *)
Theorem C18_views_exist :
  forall vs e, well_formed e -> exists e', apply_views vs e = Ok e' /\ well_formed e'.
Proof.
  induction vs as [|v vs IH]; intros e Hwf; [simpl; eauto|].
  assert (H1 : exists e1, apply_view v e = Ok e1 /\ well_formed e1).
  { destruct (wf_NEst e Hwf) as (k & Hk & Hk0 & Hm & _). pose proof Hwf as (Hg & Hl & _). destruct v; simpl.
    - eexists. split; [reflexivity|]. split; [exact Hg|]. split; [exact Hl|]. reflexivity.
    - unfold EnsembleWithLeafPredictions. rewrite Hk. cbn [bind]. eexists. split; [reflexivity|].
      split; [exact Hg|]. split; [exact Hl|]. exists k. split; [exact Hk|].
      apply s64_id. unfold MaxInt, two63 in *. change (NRawOutputGroups (mkEnsemble _ _)) with (NRawOutputGroups e). nia. }
  destruct H1 as (e1 & E1 & W1). destruct (IH e1 W1) as (e' & E' & W'). exists e'. simpl. rewrite E1. auto.
Qed.
Print Assumptions C18_views_exist.

(** ** C21 *)
Theorem C21_outputs_written :
  forall p e fvals nEstimators predictions out,
  well_formed e -> arity_accepted e ->
  Predict p e fvals nEstimators predictions = Ok out ->
  (* the call succeeds whatever the slice held before and always leaves the same values:
     every output cell is written *)
  forall predictions', zlen predictions' = zlen predictions ->
  exists out', Predict p e fvals nEstimators predictions' = Ok out' /\
  forall k, 0 <= k < NOutputGroups e -> exists v, zget out k = Some v /\ zget out' k = Some v.
Proof.
  intros p e fv nE preds out Hwf Hacc H preds' Hlen.
  destruct (Predict_inv _ _ _ _ _ _ Hwf H) as (n & Ha & Hc & Hl1 & Hl2 & E).
  pose proof (adjust_usable _ _ _ Hwf Ha Hc) as Hu.
  destruct (exec_len_ok _ preds preds' out (eq_sym Hlen) E) as [out' E'].
  assert (H' : Predict p e fv nE preds' = Ok out').
  { unfold Predict in *. rewrite Hlen. destruct (_ <? _); try discriminate. destruct (_ <? _); try discriminate.
    rewrite Ha in *. cbn [bind] in *. rewrite Hc in *. cbn [bind] in *. auto. }
  exists out'. split; auto. intros k Hk.
  destruct (piat_defined _ _ _ _ _ _ Hwf Hu Hacc E) as [Hd Has].
  pose proof (exec_det _ _ _ _ _ _ Hd (fun k (F : False) => match F with end) E' E k (or_intror (Has k Hk))) as Hz.
  destruct (Has k Hk) as [v0 Hin].
  assert (Hr : 0 <= k < zlen out).
  { rewrite (exec_len _ _ _ E). assert (HF : Forall (runs (zlen preds)) (predictInnerAndTransform p e fv n 0)) by (apply exec_runs; eauto).
    rewrite Forall_forall in HF. destruct (HF _ Hin) as (i & f & Hu' & Hi). simpl in Hu'. injection Hu' as <- _. auto. }
  destruct (zget_some _ out k Hr) as [v Hv]. exists v. split; auto. congruence.
Qed.
Print Assumptions C21_outputs_written.

(** The error of the transformation is discarded: with the logistic transformation on two
    raw groups Predict succeeds and leaves the slice as it was. *)
Theorem C21_unwritten_logistic_refuted :
  exists e, well_formed e /\ NOutputGroups e = 1 /\
  forall predictions, 1 <= zlen predictions ->
    Predict amd64 e (map fint [1; 2]) 0 predictions = Ok predictions.
Proof.
  exists (mkEnsemble (BLg demo_lg) TransformLogistic).
  split. { repeat split; vm_compute; discriminate. }
  split; auto. intros preds Hl. unfold Predict. cbv zeta.
  change (s64 (NOutputGroups _ * 1)) with 1. replace (zlen preds <? 1) with false by lia.
  change (zlen (map fint [1; 2]) <? NFeatures _) with false. cbv iota.
  change (b_adjustNEstimators _ 0) with (Ok 2). cbn [bind].
  change (checkNEstimators _ 2) with (Ok tt). cbn [bind].
  assert (E : predictInnerAndTransform amd64 (mkEnsemble (BLg demo_lg) TransformLogistic) (map fint [1; 2]) 2 0 = [])
    by (vm_compute; reflexivity).
  rewrite E. reflexivity.
Qed.
Print Assumptions C21_unwritten_logistic_refuted.

(** Leaf predictions of a gblinear model succeed and leave the slice as it was. *)
Theorem C21_unwritten_gblinear_leaves_refuted :
  exists e, EnsembleWithLeafPredictions demo_lin = Ok e /\ well_formed e /\ NOutputGroups e = 2 /\
  forall predictions, 2 <= zlen predictions ->
    Predict amd64 e (map fint [1; 2]) 0 predictions = Ok predictions.
Proof.
  eexists. split; [vm_compute; reflexivity|].
  split. { repeat split; try (vm_compute; discriminate). vm_compute. exists 1. auto. }
  split; auto. intros preds Hl. unfold Predict. cbv zeta.
  change (s64 (NOutputGroups _ * 1)) with 2. replace (zlen preds <? 2) with false by lia.
  change (zlen (map fint [1; 2]) <? NFeatures _) with false. cbv iota. reflexivity.
Qed.
Print Assumptions C21_unwritten_gblinear_leaves_refuted.

(** ** C22 *)
(** the documented names *)
Definition documented_name (t : Z) : option string :=
  match t with
  | 0 => Some "raw" | 1 => Some "logistic" | 2 => Some "softmax" | 3 => Some "leaf_index" | 4 => Some "exponential"
  | _ => None
  end%string.

(** holds for all but the exponential transformation *)
Theorem C22_names_partial :
  forall t, t <> TransformExponential -> exists s, Name_t t = Ok s /\ documented_name (Type_t t) = Some s.
Proof. intros [n| |n|n|] H; try congruence; eexists; split; reflexivity. Qed.
Print Assumptions C22_names_partial.

Theorem C22_type_names_partial :
  forall t, t <> TypeExponential ->
  (exists s, documented_name t = Some s /\ TransformType_Name t = Ok s) \/
  (documented_name t = None /\ TransformType_Name t = Ok "unknown"%string).
Proof.
  intros t Ht. unfold TransformType_Name, TypeExponential, TypeRaw, TypeLast in *.
  destruct (t <? 0) eqn:E1.
  { right. split; auto. destruct t; auto; lia. }
  destruct (4 <? t) eqn:E2.
  { right. split; auto. unfold documented_name. destruct t as [|q|]; try lia.
    do 3 (destruct q as [q|q|]; try lia; auto). }
  left. assert (H : t = 0 \/ t = 1 \/ t = 2 \/ t = 3) by lia.
  destruct H as [->|[->|[->| ->]]]; eexists; split; reflexivity.
Qed.
Print Assumptions C22_type_names_partial.

(** the exponential transformation calls itself "logistic", and asking its type for a
    name panics *)
Theorem C22_exponential_name_refuted :
  Name_t TransformExponential = Name_t TransformLogistic /\
  documented_name (Type_t TransformExponential) = Some "exponential"%string /\
  exists m, TransformType_Name TypeExponential = Panic m.
Proof. repeat split. eexists. reflexivity. Qed.
Print Assumptions C22_exponential_name_refuted.

(** ** Concrete cases *)
Definition ok_or {A : Type} (d : A) (x : outcome A) : A := match x with Ok a => a | _ => d end.

Example values_case_lg :
  well_formed demo_raw /\ raw_output demo_raw /\ core (eBase demo_raw) = BLg demo_lg /\
  Predict amd64 demo_raw (map fint [1; 2]) 0 (zeros 3) = Ok (map fint [15; 9; 0]) /\
  Predict amd64 demo_raw (map fint [1; 2]) 1 (zeros 3) = Ok (map fint [10; 2; 0]).
Proof. repeat split; try reflexivity; try (vm_compute; discriminate). exists 2. reflexivity. Qed.

(** a forest: the average over the estimators used *)
Example values_case_rf :
  let m := mkLgEnsemble (lgTrees demo_lg) 1 2 [] true in
  let e := mkEnsemble (BLg m) (TransformRaw 2) in
  well_formed e /\ Predict amd64 e (map fint [1; 2]) 0 (zeros 2) = Ok [fdiv (fint 15) (fint 2); fdiv (fint 9) (fint 2)] /\
  Predict amd64 e (map fint [1; 2]) 1 (zeros 2) = Ok (map fint [10; 2]).
Proof. repeat split; try reflexivity; try (vm_compute; discriminate). Qed.

Example values_case_xg :
  let e := EnsembleWithRawPredictions demo_logistic in
  well_formed e /\ Predict amd64 e (map fint [1; 2]) 0 (zeros 1) = Ok (map fint [17]).
Proof. repeat split; try reflexivity; try (vm_compute; discriminate). Qed.

Example values_case_linear :
  Predict amd64 demo_lin (map fint [10; 100]) 0 (zeros 2) = Ok (map fint [316; 427]).
Proof. vm_compute. reflexivity. Qed.

Example prefix_case : same_prefix 1 demo_raw
  (mkEnsemble (BLg (mkLgEnsemble [stump 0 (fint 1) (fint 10) (fint 20); tree3 (fint 1) (fint 2) (fint 3)] 1 2 [] false)) (TransformRaw 2)).
Proof.
  split; auto. simpl. repeat split; auto. intros i Hi. unfold lgNRawOutputGroups, demo_lg in Hi.
  assert (H : i = 0 \/ i = 1) by lia. destruct H as [-> | ->]; reflexivity.
Qed.

Example views_case :
  let e1 := ok_or demo_raw (apply_views [LeafView; RawView; LeafView; LeafView] demo_softmax) in
  Predict amd64 e1 (map fint [1; 2]) 0 (zeros 4) = Ok (map fint [0; 1; 1; 0]) /\
  NLeaves amd64 e1 = Ok [2; 3; 3; 2].
Proof. split; vm_compute; reflexivity. Qed.
