(** * C88: rows of batch calls with fused multiply-add *)

From Coq Require Import ZArith List Bool String Lia ZifyBool.
From Verif Require Import Go GoFloat Cmd UtilMath LgTree Transformation Ensembles Leaves Parallel Fused FusedBatch Spec_Predict Spec_Fused
  Demo Pf_Go Pf_Cmd Pf_Exec Pf_Leaves Pf_Parallel Pf_Batch Pf_Calls Pf_Rows Pf_Fused Pf_FusedRows Prop_Batch Prop_Fused.
Local Open Scope Z_scope.

(** ** Dense matrices *)
Lemma slices_inside : forall (vals : list f64) ncols nrows, zlen vals <= MaxInt -> 0 < ncols <= MaxInt ->
  (forall r, 0 <= r < nrows -> exists fv, slice vals (s64 (r * ncols)) (s64 ((r + 1) * ncols)) = Ok fv) ->
  forall r, 0 <= r < nrows -> (r + 1) * ncols <= zlen vals.
Proof.
  intros vals ncols nrows Hv Hc Hrow r Hr. destruct Hr as [Hr0 Hr]. revert Hr. pattern r. apply natlike_ind; auto.
  - intros H0. destruct (Hrow 0) as [fv Hfv]; [lia|]. apply slice_ok in Hfv.
    rewrite !s64_id in Hfv by (unfold MaxInt, two63 in *; lia). lia.
  - clear r Hr0. intros r Hr IH Hs. specialize (IH ltac:(lia)).
    destruct (Hrow (Z.succ r)) as [fv Hfv]; [lia|]. apply slice_ok in Hfv.
    unfold Z.succ in *. rewrite (s64_id ((r + 1) * ncols)) in Hfv by (unfold MaxInt, two63 in *; nia).
    assert (Hq : 0 <= (r + 1) * ncols) by nia.
    replace ((r + 1 + 1) * ncols) with ((r + 1) * ncols + ncols) in * by lia.
    generalize dependent ((r + 1) * ncols). intros q IH Hfv Hq.
    destruct (Z_lt_le_dec (q + ncols) two63) as [Hlt|Hge].
    + rewrite s64_id in Hfv by (unfold two63 in *; lia). lia.
    + rewrite s64_wrap in Hfv by (unfold MaxInt, two63, two64 in *; lia). unfold MaxInt, two63, two64 in *. lia.
Qed.

Definition dense_cmds (p : platform) (e : Ensemble) (vals : list f64) (ncols n : Z) (fuse : nat -> bool) (i : Z) : list fcmd :=
  match slice vals (s64 (i * ncols)) (s64 ((i + 1) * ncols)) with
  | Ok fvals => fused_cmds fuse p e fvals n 0
  | Err m => [FCmd (CPanic m)]
  | Panic m => [FCmd (CPanic m)]
  | Hang => [FCmd CHang]
  end.

Lemma dense_fjob_ok : forall p e vals nrows ncols n t, well_formed e -> usable e n -> NOutputGroups e * nrows <= MaxInt -> 0 < nrows <= 2 ^ 53 ->
  fjob_ok (dense_fjob p e vals nrows ncols n t) (NOutputGroups e) (dense_cmds p e vals ncols n) (fun _ => True).
Proof.
  intros p e vals nrows ncols n t Hwf Hu Hp Hn. pose proof (nBatches_bounds nrows Hn) as HB. pose proof (wf_NOG e Hwf) as Hg.
  unfold fjob_ok, dense_fjob; cbn [fj_init fj_row fj_nRows fj_nBatches fst snd]. repeat match goal with |- _ /\ _ => split end; auto; try lia.
  - intros fuse _ r _ Hr. split; [|auto]. unfold dense_row_fused, dense_cmds. rewrite (row_start e nrows Hwf Hp r Hr).
    destruct (slice _ _ _) as [fv|?|?|]; try reflexivity. apply fused_cmds_shift.
  - intros fuse r Hr. unfold dense_cmds. destruct (slice _ _ _) as [fv|?|?|]; try (repeat constructor). apply fused_cmds_in; auto.
  - unfold BatchSize in *. lia.
Qed.

(** When PredictDense returns, every row of the result is what Predict stores for that row alone
    with some choice of fusing *)
Theorem C88_dense_rows : forall p e vals nrows ncols predictions nEstimators nThreads m,
  well_formed e -> arity_accepted e -> sane_rows e nrows ->
  zlen vals <= MaxInt -> 0 < ncols <= MaxInt ->
  PredictDense_fused p e vals nrows ncols predictions nEstimators nThreads (Returns m) ->
  forall i, 0 <= i < nrows -> exists row, is_dense_row vals ncols i row /\
    forall out, NOutputGroups e <= zlen out <= MaxInt ->
    exists fuse out', Predict_fused fuse p e row nEstimators out = Ok out' /\ holds_row m (NOutputGroups e) i out'.
Proof.
  intros p e vals nrows ncols preds nE t m Hwf Hacc [Hn Hp] Hv Hc H i Hi. pose proof (wf_NOG e Hwf) as Hg.
  assert (X : exists n, dense_checks e nrows ncols preds nE = Ok n /\ zlen m = zlen preds /\
    forall r, 0 <= r < nrows -> row_done (NOutputGroups e) (dense_cmds p e vals ncols n) (fun _ : unit => True) r m).
  { assert (Y : forall n, dense_checks e nrows ncols preds nE = Ok n -> usable e n /\ nrows * NOutputGroups e <= zlen preds).
    { intros n Ck. split; [apply (dense_checks_ok _ _ _ _ _ _ Hwf Ck)|]. pose proof (dense_preds_len e nrows ncols nE n preds Hwf Hp ltac:(lia) Ck). lia. }
    inversion H as [| |fuse n m1 Ck Sg Al| |n m1 c Ck Sg St Rt|]; subst; destruct (Y n Ck) as [Hu Hl]; exists n; (split; [exact Ck|]);
      pose proof (dense_fjob_ok p e vals nrows ncols n t Hwf Hu Hp ltac:(lia)) as J.
    - destruct (fsingle_rows _ _ _ _ J fuse (zseq nrows) tt preds m) as [D _]; auto.
      + apply zseq_NoDup.
      + intros r Hr. apply in_zseq in Hr. exact Hr.
      + split; [|intros r Hr; apply D; apply in_zseq; exact Hr]. clear D. revert Al. unfold dense_single_fused. generalize tt. generalize (zseq nrows). clear.
        intros rows. revert preds. induction rows as [|r rows IH]; intros preds u; cbn [exec_rows_fused]; [intros [= <-]; reflexivity|].
        intros Q. apply bind_ok in Q. destruct Q as (m1 & Q1 & Q). rewrite (IH _ _ Q). apply fexec_may, may_len in Q1. exact Q1.
    - split; [|apply (fengine_rows _ _ _ _ J preds c m); auto]. eapply fsteps_len; eauto. }
  destruct X as (n & Ck & Lm & D). destruct (dense_checks_ok _ _ _ _ _ _ Hwf Ck) as (Hu & Hf & Hc0 & Hl & Ha & Hck).
  pose proof (dense_preds_len e nrows ncols nE n preds Hwf Hp ltac:(lia) Ck) as Hpl.
  assert (S : forall r, 0 <= r < nrows -> exists fv, slice vals (s64 (r * ncols)) (s64 ((r + 1) * ncols)) = Ok fv).
  { intros r Hr. destruct (D r Hr) as (_ & fuse & wb & _ & R). unfold dense_cmds in R. destruct (slice _ _ _) as [fv|?|?|]; [eauto| | |]; inversion R; discriminate. }
  destruct (dense_slice vals ncols i Hv ltac:(lia) ltac:(lia) (slices_inside vals ncols nrows Hv Hc S i Hi)) as (row & Sl & Row).
  exists row. split; [exact Row|]. destruct (D i Hi) as (_ & fuse & wb & Lw & R). unfold dense_cmds in R. rewrite Sl in R. destruct Row as [Rl _].
  apply (row_alone p e row nE n fuse wb m i); auto; try lia. nia.
Qed.
Print Assumptions C88_dense_rows.

(** ** CSR matrices *)
Definition csr_filled (e : Ensemble) (indptr cols : list Z) (vals : list f64) (i : Z) : outcome (list f64) :=
  let* start := at_ indptr i in let* end_ := at_ indptr (i + 1) in csr_fill cols vals start end_ (csr_fresh e).
Definition csr_cmds (p : platform) (e : Ensemble) (indptr cols : list Z) (vals : list f64) (n : Z) (fuse : nat -> bool) (i : Z) : list fcmd :=
  match csr_filled e indptr cols vals i with
  | Ok fvals => fused_cmds fuse p e fvals n 0
  | Err m => [FCmd (CPanic m)]
  | Panic m => [FCmd (CPanic m)]
  | Hang => [FCmd CHang]
  end.
Definition csr_clean (p : platform) (e : Ensemble) (l : list f64) : Prop := l = csr_fresh e /\ exists l0, csr_buffer p e = Ok l0.

Lemma csr_fjob_ok : forall p e indptr cols vals n t, well_formed e -> usable e n -> NOutputGroups e * (zlen indptr - 1) <= MaxInt -> 0 < zlen indptr - 1 <= 2 ^ 53 ->
  fjob_ok (csr_fjob p e indptr cols vals n t) (NOutputGroups e) (csr_cmds p e indptr cols vals n) (csr_clean p e).
Proof.
  intros p e indptr cols vals n t Hwf Hu Hp Hn. pose proof (nBatches_bounds _ Hn) as HB. pose proof (wf_NOG e Hwf) as Hg.
  unfold fjob_ok, csr_fjob; cbn [fj_init fj_row fj_nRows fj_nBatches]. repeat match goal with |- _ /\ _ => split end; auto; try lia.
  - intros l Hl. split; [eapply csr_buffer_fresh; eauto|eauto].
  - intros fuse l r [-> B] Hr. unfold csr_row_fused, csr_cmds, csr_filled. cbv zeta. rewrite (row_start e (zlen indptr - 1) Hwf Hp r Hr).
    pose proof (csr_row_fresh p e indptr cols vals n r) as S. unfold csr_row in S.
    destruct (let* start := at_ indptr r in _) as [fv|?|?|]; cbn [fst snd] in *; (split; [try reflexivity; apply fused_cmds_shift|split; auto]).
  - intros fuse r Hr. unfold csr_cmds. destruct (csr_filled _ _ _ _ _) as [fv|?|?|]; try (repeat constructor). apply fused_cmds_in; auto.
  - unfold BatchSize in *. lia.
Qed.

Lemma rows_len : forall L fuse (row : (nat -> bool) -> L -> Z -> list fcmd * L) rows l m m', exec_rows_fused fuse row rows l m = Ok m' -> zlen m' = zlen m.
Proof.
  intros L fuse row rows. induction rows as [|r rows IH]; intros l m m'; cbn [exec_rows_fused]; [intros [= <-]; reflexivity|].
  intros Q. apply bind_ok in Q. destruct Q as (m1 & Q1 & Q). rewrite (IH _ _ _ Q). apply fexec_may, may_len in Q1. exact Q1.
Qed.

(** When PredictCSR returns, every row of the result is what Predict stores for the densified row
    alone with some choice of fusing *)
Theorem C88_csr_rows : forall p e indptr cols vals predictions nEstimators nThreads m,
  well_formed e -> arity_accepted e -> sane_rows e (zlen indptr - 1) ->
  PredictCSR_fused p e indptr cols vals predictions nEstimators nThreads (Returns m) ->
  forall i, 0 <= i < zlen indptr - 1 ->
  exists row, is_csr_row indptr cols vals (NFeatures e) (missing_value e) i row /\
    forall out, NOutputGroups e <= zlen out <= MaxInt ->
    exists fuse out', Predict_fused fuse p e row nEstimators out = Ok out' /\ holds_row m (NOutputGroups e) i out'.
Proof.
  intros p e indptr cols vals preds nE t m Hwf Hacc [Hn Hp] H i Hi. pose proof (wf_NOG e Hwf) as Hg.
  assert (X : exists n, csr_checks e indptr preds nE = Ok n /\ zlen m = zlen preds /\ (zlen indptr - 1) * NOutputGroups e <= zlen preds /\
    forall r, 0 <= r < zlen indptr - 1 -> row_done (NOutputGroups e) (csr_cmds p e indptr cols vals n) (csr_clean p e) r m).
  { assert (Y : forall n, csr_checks e indptr preds nE = Ok n -> usable e n /\ (zlen indptr - 1) * NOutputGroups e <= zlen preds).
    { intros n Ck. destruct (csr_checks_ok _ _ _ _ _ Hwf Ck) as (Hu & Hl & _). split; [exact Hu|]. rewrite s64_id in Hl by (unfold MaxInt, two63 in *; nia). lia. }
    inversion H as [| |fuse n m1 Ck Sg Al| |n m1 c Ck Sg St Rt|]; subst; destruct (Y n Ck) as [Hu Hl]; exists n; (split; [exact Ck|]);
      pose proof (csr_fjob_ok p e indptr cols vals n t Hwf Hu Hp ltac:(lia)) as J.
    - unfold csr_single_fused in Al. apply bind_ok in Al. destruct Al as (l & B & Al). split; [eapply rows_len; eauto|]. split; [exact Hl|].
      destruct (fsingle_rows _ _ _ _ J fuse (zseq (zlen indptr - 1)) l preds m) as [D _]; auto.
      + apply zseq_NoDup.
      + intros r Hr. apply in_zseq in Hr. exact Hr.
      + split; [eapply csr_buffer_fresh; eauto|eauto].
      + intros r Hr. apply D. apply in_zseq. exact Hr.
    - split; [eapply fsteps_len; eauto|]. split; [exact Hl|]. apply (fengine_rows _ _ _ _ J preds c m); auto. }
  destruct X as (n & Ck & Lm & Hpl & D). destruct (csr_checks_ok _ _ _ _ _ Hwf Ck) as (Hu & _ & Ha & Hck).
  destruct (D i Hi) as ([l [_ [l0 B]]] & fuse & wb & Lw & R).
  assert (Hf : 0 <= NFeatures e) by (unfold csr_buffer in B; apply bind_ok in B; destruct B as (f0 & Hf0 & _); apply make_ok in Hf0; tauto).
  unfold csr_cmds in R. destruct (csr_filled e indptr cols vals i) as [row|?|?|] eqn:F; [|inversion R; discriminate..].
  unfold csr_filled in F. apply bind_ok in F. destruct F as (start & Hs & F). apply bind_ok in F. destruct F as (end_ & He & F). apply at_ok in Hs, He.
  pose proof (csr_row_filled e indptr cols vals i start end_ row Hf Hs He F) as Row. exists row. split; [exact Row|].
  destruct Row as (? & ? & _ & _ & Rl & _). apply (row_alone p e row nE n fuse wb m i); auto; try lia. nia.
Qed.
Print Assumptions C88_csr_rows.

(** ** Fusing never makes a prediction fail or succeed *)
Lemma fexec_runs : forall fuse cs m, Forall (runs (zlen m)) (map plain cs) -> exists m', fexec fuse cs m = Ok m'.
Proof.
  intros fuse cs. induction cs as [|c cs IH]; intros m H; [exists m; reflexivity|]. cbn [map] in H. inversion H as [|? ? H1 H2]; subst.
  destruct c as [c|i x y]; cbn [plain fexec] in *.
  - apply exec1_runs in H1. destruct H1 as [m1 E]. rewrite E. cbn [bind]. apply IH. rewrite (exec1_len _ _ _ E). exact H2.
  - destruct H1 as (i0 & f & [= <- <-] & Hi). destruct (zget_some _ m i Hi) as [a A]. apply at_ok in A. rewrite A. cbn [bind].
    destruct (zset_some _ m i (if fuse (List.length cs) then ffma x y a else fadd a (fmul x y)) Hi) as [m1 E]. pose proof E as E0. apply set_at_ok in E. rewrite E. cbn [bind].
    apply IH. rewrite (zset_len _ _ _ _ _ E0). exact H2.
Qed.

Lemma fexec_exec : forall fuse p b fv n m, (exists m', fexec fuse (b_fused p b fv n 0) m = Ok m') <-> (exists m', exec (b_predictInner p b fv n 0) m = Ok m').
Proof.
  intros fuse p b fv n m. rewrite <- plain_fused. split.
  - intros [m' H]. eapply fexec_plain_runs; eauto.
  - intros H. apply fexec_runs. apply exec_runs. exact H.
Qed.

Lemma transform_runs : forall p t raw n, (forall q, t <> TransformRaw q) -> (forall q, t <> TransformLeafIndex q) -> NOutputGroups_t t <= n ->
  Forall (runs n) (match Transform_t p t raw 0 with Ok cs => cs | Err _ => [] | Panic m => [CPanic m] | Hang => [CHang] end).
Proof.
  intros p t raw n N1 N2 Hn. destruct t as [q| |q|q|]; try (destruct (N1 q eq_refl)); try (destruct (N2 q eq_refl)); cbn [Transform_t NOutputGroups_t] in *.
  - destruct (negb (zlen raw =? 1)) eqn:El; [constructor|]. destruct (zget_some _ raw 0) as [x X]; [lia|]. apply at_ok in X. rewrite X. cbn [bind].
    repeat constructor. exists 0, (fun _ => Sigmoid p x). split; [reflexivity|lia].
  - destruct (negb (zlen raw =? q)) eqn:El; [constructor|]. unfold SoftmaxFloat64Slice. apply Forall_app. split.
    + apply Forall_map. apply Forall_forall. intros iv Hiv. apply in_combine_zseq in Hiv. eexists _, _. split; [reflexivity|]. lia.
    + destruct (negb (feq _ _)); [|constructor]. apply Forall_map. apply Forall_forall. intros i Hi. apply in_zrange in Hi. eexists _, _. split; [reflexivity|]. lia.
  - destruct (negb (zlen raw =? 1)) eqn:El; [constructor|]. destruct (zget_some _ raw 0) as [x X]; [lia|]. apply at_ok in X. rewrite X. cbn [bind].
    repeat constructor. exists 0, (fun _ => pl_exp p x). split; [reflexivity|lia].
Qed.

Theorem C88_same_success : forall fuse p e fvals nEstimators predictions, well_formed e -> NOutputGroups e <= MaxInt ->
  ((exists out, Predict_fused fuse p e fvals nEstimators predictions = Ok out) <->
   (exists out, Predict p e fvals nEstimators predictions = Ok out)).
Proof.
  intros fuse p e fv nE preds Hwf Hm. pose proof (wf_NOG e Hwf) as Hg.  unfold Predict_fused, Predict. cbv zeta.
  rewrite Z.mul_1_r, s64_id by (unfold MaxInt, two63 in *; lia).
  destruct (Z.ltb_spec (zlen preds) (NOutputGroups e)); [reflexivity|]. destruct (zlen fv <? _); [reflexivity|].
  destruct (b_adjustNEstimators (eBase e) nE) as [n|?|?|]; cbn [bind]; try reflexivity. destruct (checkNEstimators e n); cbn [bind]; try reflexivity.
  unfold predictInnerAndTransform_fused, predictInnerAndTransform.
  destruct (Type_t (eTransform e) =? TypeRaw) eqn:ER; [apply fexec_exec|]. destruct (Type_t (eTransform e) =? TypeLeafIndex) eqn:EL; [reflexivity|].
  assert (T : forall raw, exists out, exec (match Transform_t p (eTransform e) raw 0 with Ok cs => cs | Err _ => [] | Panic m => [CPanic m] | Hang => [CHang] end) preds = Ok out).
  { intros raw. apply exec_runs. apply transform_runs; [intros q Q; rewrite Q in ER; discriminate|intros q Q; rewrite Q in EL; discriminate|exact H]. }
  destruct (make_f64 p (NRawOutputGroups e)) as [raw|?|?|]; cbn [bind cmds_of]; try reflexivity.
  pose proof (fexec_exec fuse p (eBase e) fv n raw) as X.
  destruct (fexec fuse _ raw) as [r1|?|?|] eqn:E1, (exec (b_predictInner p (eBase e) fv n 0) raw) as [r2|?|?|] eqn:E2; cbn [cmds_of];
    try (split; intros _; apply T); try (split; intros [? Q]; discriminate);
    try (destruct (proj1 X (ex_intro _ _ eq_refl)); discriminate); try (destruct (proj2 X (ex_intro _ _ eq_refl)); discriminate).
Qed.
Print Assumptions C88_same_success.

(** a random forest on two equal rows, fusing in the second row only: the scores differ, and each is
    that of a single prediction *)
Example C88_rows_demo : let vals := [fint (-1); fzero; fint (-1); fzero] in
  well_formed thirds_forest /\ arity_accepted thirds_forest /\ sane_rows thirds_forest 2 /\ zlen vals <= MaxInt /\ NOutputGroups thirds_forest <= MaxInt /\
  exists a b, PredictDense_fused amd64 thirds_forest vals 2 2 (zeros 2) 0 1 (Returns [a; b]) /\ a <> b /\
    PredictCSR_fused amd64 thirds_forest [0; 1; 2] [0; 0] [fint (-1); fint (-1)] (zeros 2) 0 1 (Returns [a; b]) /\
    sane_rows thirds_forest (zlen [0; 1; 2] - 1).
Proof.
  cbv zeta. split; [repeat split; try reflexivity; vm_compute; discriminate|]. split; [exact I|].
  split; [split; [lia|vm_compute; discriminate]|]. split; [vm_compute; discriminate|]. split; [vm_compute; discriminate|]. do 2 eexists. split; [|split; [|split]].
  - apply (BF_single _ _ _ _ _ (fun i _ => i =? 1) 3); vm_compute; reflexivity.
  - discriminate.
  - apply (BF_single _ _ _ _ _ (fun i _ => i =? 1) 3); vm_compute; reflexivity.
  - split; [vm_compute; split; discriminate|vm_compute; discriminate].
Qed.
