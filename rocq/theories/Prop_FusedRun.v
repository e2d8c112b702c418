(** * C88: executions of batch calls with fused multiply-add *)

From Coq Require Import ZArith List Bool String Lia ZifyBool.
From Verif Require Import Go GoFloat Cmd UtilMath LgTree Transformation Ensembles Leaves Parallel Fused FusedBatch Spec_Predict Spec_Fused Spec_FusedRun
  Demo Pf_Go Pf_Cmd Pf_Exec Pf_Leaves Pf_Parallel Pf_Batch Pf_Calls Pf_Rows Pf_Fused Pf_FusedRows Pf_FusedRun Prop_Batch Prop_Fused Prop_FusedRows.
Local Open Scope Z_scope.

(** ** Rows *)
Lemma predict_ready : forall p e fv nE out out' n, well_formed e -> usable e n ->
  b_adjustNEstimators (eBase e) nE = Ok n -> Predict p e fv nE out = Ok out' ->
  NOutputGroups e <= MaxInt ->
  forall fuse, Forall (ready (NOutputGroups e)) (fused_cmds fuse p e fv n 0).
Proof.
  intros p e fv nE out out' n Hwf Hu Ha H Hm fuse. pose proof (wf_NOG e Hwf) as Hg.
  destruct (proj2 (C88_same_success fuse p e fv nE out Hwf Hm) (ex_intro _ _ H)) as [o Ho].
  apply ready_fin with (N := zlen out); [|apply fused_cmds_in; auto].
  unfold Predict_fused in Ho. destruct (_ <? _); [discriminate|]. destruct (_ <? _); [discriminate|].
  rewrite Ha in Ho. cbn [bind] in Ho. apply bind_ok in Ho. destruct Ho as (_ & _ & Ho).
  unfold predictInnerAndTransform_fused in Ho. unfold fused_cmds.
  assert (X : forall cs, exec cs out = Ok o -> Forall (ready (zlen out)) (map FCmd cs)).
  { intros cs E. assert (R : Forall (runs (zlen out)) cs) by (apply exec_runs; eauto). apply Forall_map. eapply Forall_impl; [|exact R].
    intros c (i & f & U & Hi). exists i, (fun _ => f). cbn [fupd]. rewrite U. auto. }
  destruct (_ =? TypeRaw); [eapply fexec_is_ready; eauto|]. destruct (_ =? TypeLeafIndex); apply X; exact Ho.
Qed.

Lemma rows_ready_run : forall L (row : (nat -> bool) -> L -> Z -> list fcmd * L) (fresh : L -> Prop) N fuse rows l m,
  (forall f l r, fresh l -> In r rows -> Forall (ready N) (fst (row f l r)) /\ fresh (snd (row f l r))) ->
  fresh l -> zlen m = N -> exists m', exec_rows_fused fuse row rows l m = Ok m'.
Proof.
  intros L row fresh N fuse rows. induction rows as [|r rows IH]; intros l m R F Hm; cbn [exec_rows_fused]; [eauto|].
  destruct (R (fuse r) l r F (or_introl eq_refl)) as [A B]. rewrite <- Hm in A. destruct (fexec_ready (fuse r) _ _ A) as (m1 & -> & E). cbn [bind].
  apply IH; auto; [|congruence]. intros f l' r' F' I. apply R; auto. right. exact I.
Qed.

(** ** Dense matrices *)
Section Dense.
Variables (p : platform) (e : Ensemble) (vals : list f64) (nrows ncols : Z) (preds : list f64) (nE t : Z).
Hypothesis Hwf : well_formed e.
Hypothesis Hp : NOutputGroups e * nrows <= MaxInt.
Hypothesis Hv : zlen vals <= MaxInt.
Hypothesis Hnc : 0 < ncols.
Hypothesis Hpl : NOutputGroups e * nrows <= zlen preds.
Hypothesis Hpos : 0 < nrows <= 2 ^ 53.
Hypothesis Hrows : forall i, 0 <= i < nrows -> exists row out out',
  is_dense_row vals ncols i row /\ Predict p e row nE out = Ok out'.

Lemma dense_rows_ready : forall n, usable e n -> b_adjustNEstimators (eBase e) nE = Ok n ->
  forall fuse r, 0 <= r < nrows -> Forall (ready (zlen preds)) (dense_row_fused p e vals ncols n fuse r).
Proof.
  intros n Hu Ha fuse r Hr. pose proof (wf_NOG e Hwf) as Hg. destruct (Hrows r Hr) as (row & out & out' & Row & Ho).
  destruct (dense_slice vals ncols r Hv Hnc ltac:(lia) (dense_row_inside _ _ _ _ Row Hnc)) as (row' & Hs & Row').
  rewrite (dense_row_unique _ _ _ _ _ Row Row') in Ho. unfold dense_row_fused. rewrite Hs, (row_start e nrows Hwf Hp r Hr), fused_cmds_shift.
  apply ready_shift; try lia; [nia|]. eapply predict_ready; eauto. nia.
Qed.

Lemma dense_run : forall n, usable e n -> b_adjustNEstimators (eBase e) nE = Ok n -> 1 <= pl_gomaxprocs p ->
  fused_completes (dense_fjob p e vals nrows ncols n t) (finitial (dense_fjob p e vals nrows ncols n t) preds) /\
  (exists c m, fsteps (dense_fjob p e vals nrows ncols n t) (finitial (dense_fjob p e vals nrows ncols n t) preds) c /\ freturned c m) /\
  forall fuse, exists m, dense_single_fused fuse p e vals nrows ncols preds n = Ok m.
Proof.
  intros n Hu Ha Hg.
  assert (R : forall fuse (l : unit) r, True -> 0 <= r < nrows ->
    Forall (ready (zlen preds)) (fst (dense_row_fused p e vals ncols n fuse r, tt)) /\ True) by (intros; split; auto; apply dense_rows_ready; auto).
  split; [|split].
  - apply run_completes with (fresh := fun _ => True) (N := zlen preds); cbn; eauto using threads_pos; lia.
  - apply run_returns with (fresh := fun _ => True) (N := zlen preds); cbn; eauto using threads_pos; lia.
  - intros fuse. unfold dense_single_fused. apply rows_ready_run with (fresh := fun _ => True) (N := zlen preds); auto.
    intros f l r _ I. apply in_zseq in I. cbn [fst snd]. apply (R f l r Logic.I I).
Qed.
End Dense.

(** If predicting every row on its own succeeds, then the multi-threaded call, fusing or not at every
    sum, cannot run forever, crash or get stuck; it returns *)
Theorem C88_dense_always_completes : forall p e vals nrows ncols predictions nEstimators nThreads,
  well_formed e -> sane_rows e nrows -> zlen vals <= MaxInt -> 1 <= pl_gomaxprocs p ->
  0 < ncols -> NFeatures e <= ncols -> NOutputGroups e * nrows <= zlen predictions ->
  (forall i, 0 <= i < nrows -> exists row out out',
     is_dense_row vals ncols i row /\ Predict p e row nEstimators out = Ok out') ->
  0 < nrows ->
  (exists m, PredictDense_fused p e vals nrows ncols predictions nEstimators nThreads (Returns m)) /\
  (forall r, PredictDense_fused p e vals nrows ncols predictions nEstimators nThreads r -> exists m, r = Returns m) /\
  forall n, dense_checks e nrows ncols predictions nEstimators = Ok n ->
    single_threaded nrows nThreads = false ->
    fused_completes (dense_fjob p e vals nrows ncols n nThreads) (finitial (dense_fjob p e vals nrows ncols n nThreads) predictions).
Proof.
  intros p e vals nrows ncols preds nE t Hwf [Hn Hp] Hv Hg Hnc Hf Hpl Hrows Hpos.
  assert (Hck : exists n, dense_checks e nrows ncols preds nE = Ok n).
  { destruct (Hrows 0 ltac:(lia)) as (row & out & out' & _ & Ho).
    destruct (Predict_inv _ _ _ _ _ _ Hwf Ho) as (n & Ha & Hc & _).
    exists n. unfold dense_checks. pose proof (wf_NOG e Hwf).
    rewrite s64_id by (unfold MaxInt, two63 in *; nia).
    replace (zlen preds <? NOutputGroups e * nrows) with false by lia.
    replace ((ncols =? 0) || (ncols <? NFeatures e)) with false by lia.
    rewrite Ha. simpl. rewrite Hc. reflexivity. }
  destruct Hck as [n Hck]. destruct (dense_checks_ok _ _ _ _ _ _ Hwf Hck) as (Hu & _ & _ & _ & Ha & _).
  destruct (dense_run p e vals nrows ncols preds nE t Hwf Hp Hv Hnc Hpl ltac:(lia) Hrows n Hu Ha Hg) as (C & (c & m & S & R) & A).
  split; [|split].
  - destruct (single_threaded nrows t) eqn:Es.
    + destruct (A (fun _ _ => false)) as [m' E]. exists m'. eapply BF_single; eauto.
    + exists m. eapply BF_parallel; eauto.
  - intros r H. inversion H as [? X|? X| |fuse n' s Ck Sg Al| |n' s Ck Sg St]; subst; eauto; try (rewrite Hck in X; discriminate);
      rewrite Hck in Ck; injection Ck as <-.
    + destruct (A fuse) as [m' E]. rewrite E in Al. discriminate.
    + destruct (proj1 (proj2 C _ St)) as [s0 E]. discriminate.
  - intros n' Hn' _. rewrite Hck in Hn'. injection Hn' as <-. exact C.
Qed.
Print Assumptions C88_dense_always_completes.

(** ** CSR matrices *)
Theorem C88_csr_always_completes : forall p e indptr cols vals predictions nEstimators nThreads,
  well_formed e -> sane_rows e (zlen indptr - 1) -> 1 <= pl_gomaxprocs p ->
  0 <= NFeatures e <= pl_maxalloc p -> NOutputGroups e * (zlen indptr - 1) <= zlen predictions ->
  (forall i, 0 <= i < zlen indptr - 1 ->
     csr_row_readable indptr cols vals i /\ exists row out out',
     is_csr_row indptr cols vals (NFeatures e) (missing_value e) i row /\
     Predict p e row nEstimators out = Ok out') ->
  0 < zlen indptr - 1 ->
  (exists m, PredictCSR_fused p e indptr cols vals predictions nEstimators nThreads (Returns m)) /\
  (forall r, PredictCSR_fused p e indptr cols vals predictions nEstimators nThreads r -> exists m, r = Returns m) /\
  forall n, csr_checks e indptr predictions nEstimators = Ok n ->
    single_threaded (zlen indptr - 1) nThreads = false ->
    fused_completes (csr_fjob p e indptr cols vals n nThreads) (finitial (csr_fjob p e indptr cols vals n nThreads) predictions).
Proof.
  intros p e indptr cols vals preds nE t Hwf [Hn Hp] Hg Hf Hpl Hrows Hpos. pose proof (wf_NOG e Hwf) as Hog.
  assert (Hck : exists n, csr_checks e indptr preds nE = Ok n).
  { destruct (Hrows 0 ltac:(lia)) as (_ & row & out & out' & _ & Ho).
    destruct (Predict_inv _ _ _ _ _ _ Hwf Ho) as (n & Ha & Hc & _).
    exists n. unfold csr_checks.
    rewrite s64_id by (unfold MaxInt, two63 in *; nia).
    replace (zlen preds <? NOutputGroups e * (zlen indptr - 1)) with false by lia.
    rewrite Ha. simpl. rewrite Hc. reflexivity. }
  destruct Hck as [n Hck]. destruct (csr_checks_ok _ _ _ _ _ Hwf Hck) as (Hu & _ & Ha & _).
  assert (Hbuf : exists l, csr_buffer p e = Ok l).
  { unfold csr_buffer, make_f64. replace ((NFeatures e <? 0) || (pl_maxalloc p <? NFeatures e)) with false by lia. simpl. eauto. }
  assert (Row : forall f l r, l = csr_fresh e -> 0 <= r < zlen indptr - 1 ->
    Forall (ready (zlen preds)) (fst (csr_row_fused p e indptr cols vals n f l r)) /\ snd (csr_row_fused p e indptr cols vals n f l r) = csr_fresh e).
  { intros f l r -> Hr. destruct (csr_fjob_ok p e indptr cols vals n t Hwf Hu Hp ltac:(lia)) as (_ & J2 & _).
    destruct (J2 f (csr_fresh e) r (conj eq_refl Hbuf) Hr) as [E [F _]]. cbn [csr_fjob fj_row] in E, F. split; [|exact F]. rewrite E.
    apply ready_shift; try lia; [nia|].
    destruct (Hrows r Hr) as ((start & end_ & Hs & He & Hj) & row & out & out' & Hrow & Ho).
    destruct (csr_fill_succeeds indptr cols vals (zrange start end_) (csr_fresh e)) as [fv Hfv].
    { intros k Hk. apply in_zrange in Hk. auto. }
    pose proof (csr_row_filled e indptr cols vals r start end_ fv ltac:(lia) Hs He Hfv) as Hrow'.
    rewrite (csr_row_unique e indptr cols vals r row fv Hrow Hrow') in Ho.
    fold (csr_fill cols vals start end_ (csr_fresh e)) in Hfv. apply at_ok in Hs, He. unfold csr_cmds, csr_filled. rewrite Hs, He. cbn [bind]. rewrite Hfv. eapply predict_ready; eauto. nia. }
  assert (A : forall fuse, exists m, csr_single_fused fuse p e indptr cols vals preds n = Ok m).
  { intros fuse. unfold csr_single_fused. destruct Hbuf as [l B]. rewrite B. cbn [bind].
    apply rows_ready_run with (fresh := fun l => l = csr_fresh e) (N := zlen preds); auto; [|eapply csr_buffer_fresh; eauto].
    intros f l' r F I. apply in_zseq in I. apply Row; auto. }
  assert (C : fused_completes (csr_fjob p e indptr cols vals n t) (finitial (csr_fjob p e indptr cols vals n t) preds)).
  { apply run_completes with (fresh := fun l => l = csr_fresh e) (N := zlen preds); cbn; auto; try lia; [intros l B; eapply csr_buffer_fresh; eauto|apply threads_pos; auto; lia]. }
  assert (R : exists c m, fsteps (csr_fjob p e indptr cols vals n t) (finitial (csr_fjob p e indptr cols vals n t) preds) c /\ freturned c m).
  { apply run_returns with (fresh := fun l => l = csr_fresh e) (N := zlen preds); cbn; auto; try lia; [intros l B; eapply csr_buffer_fresh; eauto|apply threads_pos; auto; lia]. }
  destruct R as (c & m & S & R). split; [|split].
  - destruct (single_threaded (zlen indptr - 1) t) eqn:Es.
    + destruct (A (fun _ _ => false)) as [m' E]. exists m'. eapply BF_single; eauto.
    + exists m. eapply BF_parallel; eauto.
  - intros r H. inversion H as [? X|? X| |fuse n' s Ck Sg Al| |n' s Ck Sg St]; subst; eauto; try (rewrite Hck in X; discriminate);
      rewrite Hck in Ck; injection Ck as <-.
    + destruct (A fuse) as [m' E]. rewrite E in Al. discriminate.
    + destruct (proj1 (proj2 C _ St)) as [s0 E]. discriminate.
  - intros n' Hn' _. rewrite Hck in Hn'. injection Hn' as <-. exact C.
Qed.
Print Assumptions C88_csr_always_completes.

(** ** Races: two goroutines are never about to access the same cell, and each only accesses the
    cells of the row it is working on *)
Theorem C88_dense_no_data_race : forall p e vals nrows ncols predictions nEstimators nThreads n s,
  well_formed e -> sane_rows e nrows -> 0 < nrows ->
  dense_checks e nrows ncols predictions nEstimators = Ok n ->
  let j := dense_fjob p e vals nrows ncols n nThreads in
  fsteps j (finitial j predictions) (FRunning s) ->
  (forall before wk1 between wk2 after i k,
     fs_workers s = before ++ wk1 :: between ++ wk2 :: after ->
     fused_access wk1 = Some i -> fused_access wk2 = Some k -> i <> k) /\
  (forall wk i, In wk (fs_workers s) -> fused_access wk = Some i ->
     exists l r end_ reg cs, wk = FWrite l r end_ reg cs /\ r * NOutputGroups e <= i < r * NOutputGroups e + NOutputGroups e).
Proof.
  intros p e vals nrows ncols preds nE t n s Hwf [Hn Hp] Hpos Hck j H. destruct (dense_checks_ok _ _ _ _ _ _ Hwf Hck) as (Hu & _).
  pose proof (dense_preds_len e nrows ncols nE n preds Hwf Hp ltac:(lia) Hck) as Hl.
  apply (fused_race_free j (NOutputGroups e) _ _ (dense_fjob_ok p e vals nrows ncols n t Hwf Hu Hp ltac:(lia)) preds s); auto. cbn. lia.
Qed.
Print Assumptions C88_dense_no_data_race.

Theorem C88_csr_no_data_race : forall p e indptr cols vals predictions nEstimators nThreads n s,
  well_formed e -> sane_rows e (zlen indptr - 1) -> 0 < zlen indptr - 1 ->
  csr_checks e indptr predictions nEstimators = Ok n ->
  let j := csr_fjob p e indptr cols vals n nThreads in
  fsteps j (finitial j predictions) (FRunning s) ->
  (forall before wk1 between wk2 after i k,
     fs_workers s = before ++ wk1 :: between ++ wk2 :: after ->
     fused_access wk1 = Some i -> fused_access wk2 = Some k -> i <> k) /\
  (forall wk i, In wk (fs_workers s) -> fused_access wk = Some i ->
     exists l r end_ reg cs, wk = FWrite l r end_ reg cs /\ r * NOutputGroups e <= i < r * NOutputGroups e + NOutputGroups e).
Proof.
  intros p e indptr cols vals preds nE t n s Hwf [Hn Hp] Hpos Hck j H. pose proof (wf_NOG e Hwf) as Hog. destruct (csr_checks_ok _ _ _ _ _ Hwf Hck) as (Hu & Hl & _).
  rewrite s64_id in Hl by (unfold MaxInt, two63 in *; nia).
  apply (fused_race_free j (NOutputGroups e) _ _ (csr_fjob_ok p e indptr cols vals n t Hwf Hu Hp ltac:(lia)) preds s); auto. cbn. lia.
Qed.
Print Assumptions C88_csr_no_data_race.
