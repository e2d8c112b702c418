(** * C88: never fusing is one of the choices *)

From Coq Require Import ZArith List Bool Lia String.
From Verif Require Import Go GoFloat Cmd LgTree Transformation Ensembles Leaves Parallel Fused FusedBatch Spec_Predict Spec_Fused Spec_FusedRun
  Demo Pf_Go Pf_Cmd Pf_Exec Pf_Leaves Pf_Parallel Pf_Batch Pf_Calls Pf_Rows Pf_Fused Pf_FusedBatch Pf_FusedRows Pf_FusedRun
  Prop_Fused Prop_FusedRows Prop_FusedRun Ex_Batch.
Local Open Scope Z_scope.

Definition never : nat -> bool := fun _ => false.

Lemma never_step : forall reg cs m,
  match fcmd_step false reg cs m with
  | Ok (reg', cs', m') => cmd_step reg (map plain cs) m = Ok (reg', map plain cs', m')
  | Err s => cmd_step reg (map plain cs) m = Err s
  | Panic s => cmd_step reg (map plain cs) m = Panic s
  | Hang => cmd_step reg (map plain cs) m = Hang
  end.
Proof.
  intros reg cs m. destruct cs as [|[[i v|i v|i v|s|]|i x y] cs]; cbn [fcmd_step cmd_step map plain bind fst snd]; auto;
    try (destruct reg as [a|]);
    try (destruct (set_at m i _) eqn:Es; cbn [bind fst snd]; auto; fail); destruct (at_ m i) eqn:Ea; cbn [bind fst snd]; auto.
Qed.

Lemma never_exec : forall cs m, fexec never cs m = exec (map plain cs) m.
Proof.
  induction cs as [|[c|i x y] cs IH]; intros m; cbn [fexec map plain exec]; auto.
  - destruct (exec1 c m); cbn [bind]; auto.
  - unfold exec1. destruct (at_ m i) as [a|?|?|]; cbn [bind]; auto. unfold never at 1. destruct (set_at m i _); cbn [bind]; auto.
Qed.

Lemma never_cmds : forall p e fv n s, map plain (fused_cmds never p e fv n s) = predictInnerAndTransform p e fv n s.
Proof.
  intros p e fv n s. unfold fused_cmds, predictInnerAndTransform. destruct (_ =? TypeRaw); [apply plain_fused|].
  destruct (_ =? TypeLeafIndex); [apply plain_FCmd|]. rewrite plain_FCmd.
  destruct (make_f64 p (NRawOutputGroups e)) as [raw|?|?|]; cbn [bind cmds_of]; auto. rewrite never_exec, plain_fused. reflexivity.
Qed.

Definition never_row {L : Type} (frow : (nat -> bool) -> L -> Z -> list fcmd * L) (row : L -> Z -> list cmd * L) : Prop :=
  forall l i, map plain (fst (frow never l i)) = fst (row l i) /\ snd (frow never l i) = snd (row l i).

Lemma never_rows : forall L frow row, @never_row L frow row -> forall rows l m, exec_rows_fused (fun _ => never) frow rows l m = exec_rows row rows l m.
Proof.
  intros L frow row R rows. induction rows as [|i rows IH]; intros l m; cbn [exec_rows_fused exec_rows]; auto.
  destruct (R l i) as [A B]. rewrite never_exec, A, B. destruct (exec _ m); cbn [bind]; auto.
Qed.

Lemma dense_never : forall p e vals ncols n,
  never_row (fun f (_ : unit) i => (dense_row_fused p e vals ncols n f i, tt)) (fun (_ : unit) i => (dense_row p e vals ncols n i, tt)).
Proof.
  intros p e vals ncols n l i. cbn [fst snd]. split; auto. unfold dense_row_fused, dense_row, cmds_of. destruct (slice _ _ _); auto. apply never_cmds.
Qed.
Lemma csr_never : forall p e indptr cols vals n, never_row (csr_row_fused p e indptr cols vals n) (csr_row p e indptr cols vals n).
Proof.
  intros p e indptr cols vals n l i. unfold csr_row_fused, csr_row. cbv zeta. destruct (let* start := at_ indptr i in _) as [fv|?|?|]; cbn [fst snd]; auto.
  split; auto. apply never_cmds.
Qed.

Definition never_job {L : Type} (fj : fjob L) (j : job L) : Prop :=
  fj_init fj = jb_init j /\ never_row (fj_row fj) (jb_row j) /\ fj_nRows fj = jb_nRows j /\ fj_nBatches fj = jb_nBatches j /\ fj_threads fj = jb_threads j.

Lemma never_back : forall L (fj : fjob L) j c d, never_job fj j -> step j (abs_config c) d -> exists c', fstep fj c c' /\ abs_config c' = d.
Proof.
  intros L fj j c d (I & R & NR & NB & NT) H. destruct c as [[pc cl wg ws m]|s]; [|inversion H].
  unfold abs_config, abs_state in H. cbn [fs_main fs_closed fs_wg fs_workers fs_mem] in H.
  inversion H; subst; clear H;
    repeat match goal with
    | E : _ ++ _ :: _ = map abs_worker _ |- _ => symmetry in E
    | E : map abs_worker _ = _ ++ _ :: _ |- _ => apply map_eq_app in E; destruct E as (w1 & w2 & -> & <- & E)
    | E : map abs_worker _ = _ :: _ |- _ => apply map_eq_cons in E; destruct E as (w & w3 & -> & E & <-)
    | E : abs_worker ?w = _ |- _ => destruct w; cbn [abs_worker] in E; try discriminate; injection E; clear E; intros; subst
    | E : abs_worker ?w = _ |- _ => destruct w; cbn [abs_worker] in E; try discriminate; clear E
    end.
  Ltac fin_ := unfold abs_config, abs_state; cbn [fs_main fs_closed fs_wg fs_workers fs_mem]; rewrite ?map_app; cbn [map abs_worker]; try reflexivity; try congruence.
  - eexists. split; [constructor|]. fin_.
  - eexists. split; [constructor|]. fin_.
  - eexists. split; [constructor; congruence|]. fin_.
  - eexists. split; [constructor; congruence|]. fin_.
  - eexists. split; [constructor|]. fin_.
  - eexists. split; [constructor; rewrite I; eassumption|]. fin_.
  - eexists. split; [apply fstep_init_panic; rewrite I; eassumption|]. fin_.
  - eexists. split; [constructor|]. fin_.
  - destruct (R l r) as (A & B). eexists. split; [apply (fstep_row fj never); assumption|]. fin_.
  - eexists. split; [constructor; assumption|]. fin_.
  - match goal with E : map plain ?cs0 = _ |- _ => destruct cs0 as [|c1 cs1]; [discriminate|]; rewrite <- E in * end.
    pose proof (never_step reg (c1 :: cs1) m) as P.
    destruct (fcmd_step false reg (c1 :: cs1) m) as [[[reg1 cs2] m1]|?|?|] eqn:E1; try congruence.
    eexists. split; [apply (fstep_cmd fj false) with (1 := E1)|]. fin_.
  - match goal with E : map plain ?cs0 = _ |- _ => destruct cs0 as [|c1 cs1]; [discriminate|]; rewrite <- E in * end.
    pose proof (never_step reg (c1 :: cs1) m) as P.
    destruct (fcmd_step false reg (c1 :: cs1) m) as [[[reg1 cs2] m1]|?|?|] eqn:E1; try congruence.
    eexists. split; [apply (fstep_cmd_panic fj false) with (1 := E1)|]. fin_.
  - match goal with E : map plain ?cs = [] |- _ => apply map_eq_nil in E; subst cs end. eexists. split; [constructor|]. fin_.
Qed.

Lemma never_backs : forall L (fj : fjob L) j d d', never_job fj j -> steps j d d' -> forall c, d = abs_config c -> exists c', fsteps fj c c' /\ abs_config c' = d'.
Proof.
  intros L fj j d d' J H. induction H as [d|d1 d2 d3 H1 H2 IH]; intros c E; [exists c; split; [constructor|auto]|]. subst d1.
  destruct (never_back L fj j c d2 J H1) as (c2 & S & E2). destruct (IH c2 (eq_sym E2)) as (c3 & S3 & E3).
  exists c3. split; auto. econstructor; eauto.
Qed.

Lemma never_machine : forall L (fj : fjob L) j m, never_job fj j ->
  (forall c m', steps j (initial j m) c -> returned c m' -> exists c', fsteps fj (finitial fj m) c' /\ freturned c' m') /\
  (forall s, steps j (initial j m) (Crashed s) -> fsteps fj (finitial fj m) (FCrashed s)).
Proof.
  intros L fj j m J. assert (E : initial j m = abs_config (finitial fj m)).
  { unfold initial, finitial, abs_config, abs_state. cbn. destruct J as (_ & _ & _ & _ & ->). reflexivity. }
  split.
  - intros c m' H (cl & wg & ws & ->). destruct (never_backs L fj j _ _ J H _ E) as (c' & H' & E'). exists c'. split; auto.
    destruct c' as [[pc cl' wg' ws' m1]|s]; [|discriminate]. cbn in E'. injection E' as -> -> -> _ ->. exists cl, wg, ws'. reflexivity.
  - intros s H. destruct (never_backs L fj j _ _ J H _ E) as (c' & H' & E'). destruct c' as [?|s']; [discriminate|]. cbn in E'. injection E' as ->. exact H'.
Qed.

(** Whatever a batch call can do when products are never fused, it can do when they may be *)
Theorem C88_dense_includes : forall p e vals nrows ncols predictions nEstimators nThreads r,
  PredictDense p e vals nrows ncols predictions nEstimators nThreads r ->
  PredictDense_fused p e vals nrows ncols predictions nEstimators nThreads r.
Proof.
  intros p e vals nrows ncols preds nE t r H. unfold PredictDense_fused.
  assert (S : forall n, dense_single_fused (fun _ => never) p e vals nrows ncols preds n = dense_single p e vals nrows ncols preds n)
    by (intros n; apply never_rows; apply dense_never).
  assert (J : forall n, never_job (dense_fjob p e vals nrows ncols n t) (dense_job p e vals nrows ncols n t))
    by (intros n; split; [reflexivity|split; [apply dense_never|auto]]).
  inversion H; subst.
  - apply BF_error. assumption.
  - apply BF_check_panic. assumption.
  - eapply BF_single with (fuse := fun _ => never); eauto. rewrite S. assumption.
  - eapply BF_single_panic with (fuse := fun _ => never); eauto. rewrite S. assumption.
  - destruct (never_machine _ _ _ preds (J n)) as [A _]. edestruct A as (c' & X & Y); eauto. eapply BF_parallel; eauto.
  - destruct (never_machine _ _ _ preds (J n)) as [_ A]. eapply BF_parallel_panic; eauto.
Qed.
Print Assumptions C88_dense_includes.

Theorem C88_csr_includes : forall p e indptr cols vals predictions nEstimators nThreads r,
  PredictCSR p e indptr cols vals predictions nEstimators nThreads r ->
  PredictCSR_fused p e indptr cols vals predictions nEstimators nThreads r.
Proof.
  intros p e indptr cols vals preds nE t r H. unfold PredictCSR_fused.
  assert (S : forall n, csr_single_fused (fun _ => never) p e indptr cols vals preds n = csr_single p e indptr cols vals preds n).
  { intros n. unfold csr_single_fused, csr_single. destruct (csr_buffer p e); cbn [bind]; auto. apply never_rows. apply csr_never. }
  assert (J : forall n, never_job (csr_fjob p e indptr cols vals n t) (csr_job p e indptr cols vals n t))
    by (intros n; split; [reflexivity|split; [apply csr_never|auto]]).
  inversion H; subst.
  - apply BF_error. assumption.
  - apply BF_check_panic. assumption.
  - eapply BF_single with (fuse := fun _ => never); eauto. rewrite S. assumption.
  - eapply BF_single_panic with (fuse := fun _ => never); eauto. rewrite S. assumption.
  - destruct (never_machine _ _ _ preds (J n)) as [A _]. edestruct A as (c' & X & Y); eauto. eapply BF_parallel; eauto.
  - destruct (never_machine _ _ _ preds (J n)) as [_ A]. eapply BF_parallel_panic; eauto.
Qed.
Print Assumptions C88_csr_includes.

(** ** Concrete cases *)

(** a random forest whose products are inexact, 20 rows, two goroutines *)
Example fused_forest_completes :
  (exists m, PredictDense_fused amd64 thirds_forest demo_vals 20 2 (zeros 20) 0 4 (Returns m)) /\ single_threaded 20 4 = false /\
  exists n, dense_checks thirds_forest 20 2 (zeros 20) 0 = Ok n /\
    fused_completes (dense_fjob amd64 thirds_forest demo_vals 20 2 n 4) (finitial (dense_fjob amd64 thirds_forest demo_vals 20 2 n 4) (zeros 20)).
Proof.
  destruct (C88_dense_always_completes amd64 thirds_forest demo_vals 20 2 (zeros 20) 0 4) as (A & _ & C).
  - repeat split; try reflexivity; vm_compute; discriminate.
  - split; vm_compute; [split|]; discriminate.
  - vm_compute; discriminate.
  - vm_compute; discriminate.
  - lia.
  - vm_compute; discriminate.
  - vm_compute; discriminate.
  - apply rows_by_computation; [lia|vm_compute; congruence|vm_compute; congruence|vm_compute; reflexivity].
  - lia.
  - split; [exact A|]. split; [reflexivity|]. eexists. split; [vm_compute; reflexivity|]. apply C; reflexivity.
Qed.

(** two goroutines that are both about to add a product, with cells of different rows *)
Example fused_two_writing : exists s l1 r1 e1 g1 c1 l2 r2 e2 g2 c2,
  fsteps (dense_fjob amd64 thirds_forest demo_vals 20 2 3 4) (finitial (dense_fjob amd64 thirds_forest demo_vals 20 2 3 4) (zeros 20)) (FRunning s) /\
  fs_workers s = [FWrite l1 r1 e1 g1 c1; FWrite l2 r2 e2 g2 c2] /\
  fused_access (FWrite l1 r1 e1 g1 c1) = Some 0 /\ fused_access (FWrite l2 r2 e2 g2 c2) = Some 16 /\
  dense_checks thirds_forest 20 2 (zeros 20) 0 = Ok 3.
Proof.
  do 11 eexists. split; [|split; [|split; [|split; [|vm_compute; reflexivity]]]].
  - unfold finitial. replace (fj_threads (dense_fjob amd64 thirds_forest demo_vals 20 2 3 4)) with 2%nat by (vm_compute; reflexivity).
    eapply fsteps_cons; [apply fstep_spawn|]. eapply fsteps_cons; [apply fstep_spawn|]. eapply fsteps_cons; [apply fstep_spawned|]. cbn [app].
    eapply fsteps_cons; [apply (fstep_init _ _ _ _ [] tt); reflexivity|]. cbn [app].
    eapply fsteps_cons; [apply (fstep_init _ _ _ _ [_] tt []); reflexivity|]. cbn [app].
    eapply fsteps_cons; [apply (fstep_feed _ _ _ _ [] tt); reflexivity|]. cbn [app].
    eapply fsteps_cons; [apply (fstep_feed _ _ _ _ [_] tt []); reflexivity|]. cbn [app].
    eapply fsteps_cons; [apply (fstep_row _ (fun _ => true) _ _ _ []); reflexivity|]. cbn [app].
    eapply fsteps_cons; [apply (fstep_row _ (fun _ => false) _ _ _ [_] _ _ _ []); reflexivity|]. cbn [app].
    apply fsteps_refl.
  - reflexivity.
  - vm_compute. reflexivity.
  - vm_compute. reflexivity.
Qed.

(** a sparse matrix of 20 empty rows *)
Example fused_csr_completes : exists m, PredictCSR_fused amd64 thirds_forest (repeat 0 21) [] [] (zeros 20) 0 4 (Returns m).
Proof.
  destruct (C88_csr_always_completes amd64 thirds_forest (repeat 0 21) [] [] (zeros 20) 0 4) as (A & _).
  - repeat split; try reflexivity; vm_compute; discriminate.
  - split; vm_compute; [split|]; discriminate.
  - vm_compute; discriminate.
  - split; vm_compute; discriminate.
  - vm_compute; discriminate.
  - intros i Hi. change (zlen (repeat 0 21) - 1) with 20 in Hi.
    assert (G : forall k, 0 <= k < 21 -> zget (repeat 0 21) k = Some 0).
    { intros k Hk. assert (X : forall k, In k (zseq 21) -> zget (repeat 0 21) k = Some 0).
      { apply Forall_forall. vm_compute. repeat constructor. } apply X. apply in_zseq. exact Hk. }
    split; [exists 0, 0; split; [apply G; lia|]; split; [apply G; lia|intros k Hk; lia]|].
    exists (csr_fresh thirds_forest), (zeros 1). eexists. split; [|vm_compute; reflexivity].
    apply (csr_row_filled thirds_forest (repeat 0 21) [] [] i 0 0); [vm_compute; discriminate|apply G; lia|apply G; lia|reflexivity].
  - reflexivity.
  - exact A.
Qed.
