(** * C88 for batch calls *)

From Coq Require Import ZArith List Bool Lia String.
From Verif Require Import Go GoFloat Cmd LgTree Transformation Ensembles Leaves Parallel Fused FusedBatch Spec_Predict Spec_Split Spec_Fused
  Demo Pf_Go Pf_FusedBatch Prop_Batch Ex_Batch.
Local Open Scope Z_scope.

Lemma valid_mem : forall raw m, Forall (fun v => valid64 v = true) m -> mem_ok raw m.
Proof. intros raw m V _. exact V. Qed.

(** whichever additions are fused, in whichever goroutine: the possible results of a batch call
    (outputs, errors and panics) are exactly those without fusing *)
Theorem C88_dense : forall p e vals nrows ncols predictions nEstimators nThreads r,
  plain_products e vals -> Forall (fun v => valid64 v = true) predictions ->
  (PredictDense_fused p e vals nrows ncols predictions nEstimators nThreads r <->
   PredictDense p e vals nrows ncols predictions nEstimators nThreads r).
Proof.
  intros p e vals nrows ncols preds nE nT r P V. set (raw := Type_t (eTransform e) =? TypeRaw).
  assert (M := valid_mem raw preds V).
  assert (A : forall fuse n, dense_single_fused fuse p e vals nrows ncols preds n = dense_single p e vals nrows ncols preds n).
  { intros fuse n. apply (rows_alone unit raw (fun _ => True)); auto. apply dense_same. exact P. }
  assert (J : forall n, same_jobs raw (fun _ => True) (dense_fjob p e vals nrows ncols n nT) (dense_job p e vals nrows ncols n nT)).
  { intros n. unfold same_jobs. repeat match goal with |- _ /\ _ => split end; try reflexivity. apply (dense_same p e vals ncols n P). }
  assert (K := fun n => machines unit raw _ _ _ preds (J n) M).
  unfold PredictDense_fused. split; intros H; inversion H; subst.
  - apply PD_error; auto.
  - apply PD_check_panic; auto.
  - rewrite A in *. eapply PD_single; eauto.
  - rewrite A in *. eapply PD_single_panic; eauto.
  - destruct (proj1 (proj1 (K n) m)) as (c' & S & R); [eexists; eauto|]. eapply PD_parallel; eauto.
  - eapply PD_parallel_panic; eauto. apply (proj2 (K n)); auto.
  - apply BF_error; auto.
  - apply BF_check_panic; auto.
  - eapply BF_single with (fuse := fun _ _ => false); eauto. rewrite A. eauto.
  - eapply BF_single_panic with (fuse := fun _ _ => false); eauto. rewrite A. eauto.
  - destruct (proj2 (proj1 (K n) m)) as (c' & S & R); [eexists; eauto|]. eapply BF_parallel; eauto.
  - eapply BF_parallel_panic; eauto. apply (proj2 (K n)); auto.
Qed.
Print Assumptions C88_dense.

Theorem C88_csr : forall p e indptr cols vals predictions nEstimators nThreads r,
  plain_products e vals -> Forall (fun v => valid64 v = true) predictions ->
  (PredictCSR_fused p e indptr cols vals predictions nEstimators nThreads r <->
   PredictCSR p e indptr cols vals predictions nEstimators nThreads r).
Proof.
  intros p e indptr cols vals preds nE nT r P V. set (raw := Type_t (eTransform e) =? TypeRaw).
  assert (M := valid_mem raw preds V).
  assert (A : forall fuse n, csr_single_fused fuse p e indptr cols vals preds n = csr_single p e indptr cols vals preds n).
  { intros fuse n. unfold csr_single_fused, csr_single. destruct (csr_buffer p e) as [l|?|?|] eqn:B; cbn [bind]; try reflexivity.
    apply (rows_alone (list f64) raw (plain_products e)); auto; [apply csr_same; exact P|eapply buffer_good; eauto]. }
  assert (J : forall n, same_jobs raw (plain_products e) (csr_fjob p e indptr cols vals n nT) (csr_job p e indptr cols vals n nT)).
  { intros n. unfold same_jobs. repeat match goal with |- _ /\ _ => split end; try reflexivity; [|apply (csr_same p e indptr cols vals n P)].
    intros l B. exact (buffer_good p e vals l P B). }
  assert (K := fun n => machines (list f64) raw _ _ _ preds (J n) M).
  unfold PredictCSR_fused. split; intros H; inversion H; subst.
  - apply PC_error; auto.
  - apply PC_check_panic; auto.
  - rewrite A in *. eapply PC_single; eauto.
  - rewrite A in *. eapply PC_single_panic; eauto.
  - destruct (proj1 (proj1 (K n) m)) as (c' & S & R); [eexists; eauto|]. eapply PC_parallel; eauto.
  - eapply PC_parallel_panic; eauto. apply (proj2 (K n)); auto.
  - apply BF_error; auto.
  - apply BF_check_panic; auto.
  - eapply BF_single with (fuse := fun _ _ => false); eauto. rewrite A. eauto.
  - eapply BF_single_panic with (fuse := fun _ _ => false); eauto. rewrite A. eauto.
  - destruct (proj2 (proj1 (K n) m)) as (c' & S & R); [eexists; eauto|]. eapply BF_parallel; eauto.
  - eapply BF_parallel_panic; eauto. apply (proj2 (K n)); auto.
Qed.
Print Assumptions C88_csr.

(** 20 rows, two classes, two goroutines *)
Example C88_batch_demo : plain_products demo_raw demo_vals /\ Forall (fun v => valid64 v = true) (zeros 50) /\
  exists m, PredictDense_fused amd64 demo_raw demo_vals 20 2 (zeros 50) 0 4 (Returns m).
Proof.
  assert (P : plain_products demo_raw demo_vals) by (split; [reflexivity|]; repeat constructor).
  assert (V : Forall (fun v => valid64 v = true) (zeros 50)) by (apply Forall_forall; intros x Hx; apply repeat_spec in Hx; subst x; reflexivity).
  split; [exact P|split; [exact V|]]. destruct demo_parallel_returns as (m & H & _). exists m. apply C88_dense; auto.
Qed.
