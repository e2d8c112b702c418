(** * C91: renumbered features *)

From Coq Require Import ZArith List Bool Lia String.
From Verif Require Import Go GoFloat GoText Cmd LgTree Transformation Ensembles Leaves Parallel Spec_Predict Spec_Rename Demo
  Pf_Go Prop_Batch Prop_Rows Ex_Batch.
Local Open Scope Z_scope.

Lemma rename_step : forall p r t x y idx, (forall n, In n (tNodes t) -> zget y (r (nFeature n)) = zget x (nFeature n)) ->
  predict_step p (rename_tree r t) y idx = predict_step p t x idx.
Proof.
  intros p r t x y idx M. unfold predict_step, at_, rename_tree. cbn [tNodes tLeafValues]. rewrite zget_map.
  destruct (zget (tNodes t) idx) as [n|] eqn:E; cbn [option_map bind]; [|reflexivity]. apply zget_in in E. cbn [rename_node nFeature nThreshold nLeft nRight nFlags].
  rewrite (M n E). destruct (zget x (nFeature n)); reflexivity.
Qed.
Lemma rename_predict : forall p r t x y, (forall n, In n (tNodes t) -> zget y (r (nFeature n)) = zget x (nFeature n)) ->
  predict p (rename_tree r t) y = predict p t x.
Proof.
  intros p r t x y M.
  assert (L : forall fuel idx, predict_loop p (rename_tree r t) y fuel idx = predict_loop p t x fuel idx).
  { induction fuel as [|fuel IH]; intros idx; [reflexivity|]. cbn [predict_loop]. rewrite (rename_step p r t x y idx M).
    destruct (predict_step p t x idx) as [[v|i]| | |]; cbn [bind]; auto. }
  unfold predict. rewrite L. cbn [rename_tree tNodes]. rewrite map_length. destruct (tNodes t); reflexivity.
Qed.

Lemma rename_at : forall p r trees x y i, (forall t n, In t trees -> In n (tNodes t) -> zget y (r (nFeature n)) = zget x (nFeature n)) ->
  (let* t := at_ (map (rename_tree r) trees) i in predict p t y) = (let* t := at_ trees i in predict p t x).
Proof.
  intros p r trees x y i M. unfold at_. rewrite zget_map. destruct (zget trees i) as [t|] eqn:E; cbn [option_map bind]; [|reflexivity].
  apply rename_predict. intros n. apply M. eapply zget_in; eauto.
Qed.

Lemma rename_inner : forall p r b b' x y n s, renamed_base r b b' ->
  (forall t nd, In t (trees_of (mkEnsemble b (TransformRaw 1))) -> In nd (tNodes t) -> zget y (r (nFeature nd)) = zget x (nFeature nd)) ->
  b_predictInner p b' y n s = b_predictInner p b x n s /\ b_predictLeafIndicesInner p b' y n s = b_predictLeafIndicesInner p b x n s.
Proof.
  intros p r b b' x y n s R. unfold trees_of. cbn [eBase]. induction R as [m m' T G A|m m' T G B W|b b' t R IH]; intros M; [| |exact (IH M)];
    cbn [core] in M; cbn [b_predictInner b_predictLeafIndicesInner].
  - unfold lg_predictInner, trees_predictLeafIndicesInner. rewrite G, A, T. cbv zeta. split; f_equal; rewrite !flat_map_concat_map; f_equal; apply map_ext; intros i; apply map_ext; intros k;
      rewrite (rename_at p r (lgTrees m) x y _ M); reflexivity.
  - unfold xg_predictInner, trees_predictLeafIndicesInner. rewrite G, B, W, T. cbv zeta. split; f_equal; rewrite !flat_map_concat_map; f_equal; apply map_ext; intros i; apply map_ext; intros k.
    + unfold at_ at 1 3. rewrite zget_map. destruct (zget (xgTrees m) _) as [t|] eqn:E; cbn [option_map bind]; [|reflexivity].
      rewrite (rename_predict p r t x y); [reflexivity|]. intros nd. apply M. eapply zget_in; eauto.
    + rewrite (rename_at p r (xgTrees m) x y _ M). reflexivity.
Qed.

Lemma rename_counts : forall r b b', renamed_base r b b' -> b_NEstimators b' = b_NEstimators b /\ b_NRawOutputGroups b' = b_NRawOutputGroups b /\
  forall nE, b_adjustNEstimators b' nE = b_adjustNEstimators b nE.
Proof.
  induction 1 as [m m' T G A|m m' T G B W|b b' t R IH]; [| |exact IH]; cbn [b_NEstimators b_NRawOutputGroups b_adjustNEstimators].
  - unfold trees_adjustNEstimators, trees_NEstimators. rewrite T, G, zlen_map. auto.
  - unfold trees_adjustNEstimators, trees_NEstimators. rewrite T, G, zlen_map. auto.
Qed.

(** Predict and PredictSingle *)
Theorem C91_predict : forall p r e e' x y nEstimators predictions,
  renamed r e e' -> moved r e x y -> NFeatures e <= zlen x -> NFeatures e' <= zlen y ->
  Predict p e' y nEstimators predictions = Predict p e x nEstimators predictions /\
  PredictSingle p e' y nEstimators = PredictSingle p e x nEstimators.
Proof.
  intros p r [b t] [b' t'] x y nE preds [R T] M Fx Fy. unfold moved, trees_of in M. cbn [eBase eTransform] in *. subst t'. destruct (rename_counts r b b' R) as (N1 & N2 & N3).
  assert (Row : forall n, predictInnerAndTransform p (mkEnsemble b' t) y n 0 = predictInnerAndTransform p (mkEnsemble b t) x n 0).
  { intros n. unfold predictInnerAndTransform, NRawOutputGroups. cbn [eBase eTransform]. destruct (rename_inner p r b b' x y n 0 R M) as [-> ->]. rewrite N2. reflexivity. }
  unfold Predict, PredictSingle, checkNEstimators, NOutputGroups, NRawOutputGroups, NEstimators in *. cbn [eBase eTransform].
  rewrite N1, N3. replace (zlen y <? NFeatures (mkEnsemble b' t)) with false by lia. replace (zlen x <? NFeatures (mkEnsemble b t)) with false by lia.
  split.
  - destruct (_ <? _); [reflexivity|]. destruct (b_adjustNEstimators b nE); cbn [bind]; try reflexivity. rewrite ?N1, Row. reflexivity.
  - destruct (negb _); [reflexivity|]. destruct (b_adjustNEstimators b nE); cbn [bind]; try reflexivity. rewrite ?N1, Row. reflexivity.
Qed.
Print Assumptions C91_predict.

(** batch calls, dense or sparse *)
Theorem C91_batch : forall p r e e' nEstimators n rows m n' rows' m' i j x y,
  well_formed e -> arity_accepted e -> well_formed e' -> arity_accepted e' -> NOutputGroups e <= MaxInt -> renamed r e e' -> moved r e x y ->
  NFeatures e <= zlen x -> NFeatures e' <= zlen y ->
  batch_call p e nEstimators n rows m -> batch_call p e' nEstimators n' rows' m' ->
  0 <= i < n -> 0 <= j < n' -> rows i x -> rows' j y ->
  forall k, 0 <= k < NOutputGroups e -> zget m (i * NOutputGroups e + k) = zget m' (j * NOutputGroups e + k).
Proof.
  intros p r e e' nE n rows m n' rows' m' i j x y W A W' A' GM R M Fx Fy B B' Hi Hj Hx Hy k Hk.
  set (out := zeros (NOutputGroups e)). assert (G : NOutputGroups e' = NOutputGroups e) by (unfold NOutputGroups; rewrite (proj2 R); reflexivity).
  assert (Lo : zlen out = NOutputGroups e) by (unfold out, zeros, zlen; rewrite repeat_length; lia).
  destruct (batch_predicts _ _ _ _ _ _ W A B i x Hi Hx out ltac:(rewrite ?G; lia)) as (o1 & P1 & R1).
  destruct (batch_predicts _ _ _ _ _ _ W' A' B' j y Hj Hy out ltac:(rewrite ?G; lia)) as (o2 & P2 & R2).
  rewrite (proj1 (C91_predict p r e e' x y nE out R M Fx Fy)) in P2. assert (o2 = o1) by congruence. subst o2.
  rewrite G in R2. rewrite (R1 k Hk), (R2 k Hk). reflexivity.
Qed.
Print Assumptions C91_batch.

(** exchanging the two features of the demo model *)
Example C91_demo :
  let r f := 1 - f in
  let e' := mkEnsemble (BLg (mkLgEnsemble (map (rename_tree r) (lgTrees demo_lg)) 1 2 (bs "lightgbm.gbdt") false)) (TransformSoftmax 2) in
  renamed r demo_softmax e' /\ moved r demo_softmax (map fint [2; 4]) (map fint [4; 2]) /\ e' <> demo_softmax /\
  NFeatures demo_softmax <= 2 /\ NFeatures e' <= 2.
Proof.
  cbv zeta. split; [split; [constructor; reflexivity|reflexivity]|]. split.
  - intros t n It In_. repeat (destruct It as [<-|It]; [repeat (destruct In_ as [<-|In_]; [reflexivity|]); contradiction|]). contradiction.
  - split; [discriminate|]. split; vm_compute; discriminate.
Qed.
