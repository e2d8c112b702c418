(** * Properties of single and batch prediction: C01-C09, C17, C53 *)

From Coq Require Import ZArith List Bool String Lia ZifyBool.
From Verif Require Import Go GoFloat GoText Cmd LgTree Transformation Ensembles Leaves Parallel
  Spec_Predict Demo Pf_Go Pf_Cmd Pf_Exec Pf_Leaves Pf_Parallel Pf_Batch Pf_Calls Pf_Rows.

(** the batch sizes considered: what fits in a Go slice and in float64 exactly *)
Definition sane_rows (e : Ensemble) (nrows : Z) : Prop :=
  0 <= nrows <= 2 ^ 53 /\ NOutputGroups e * nrows <= MaxInt.

(** ** C01 *)
Theorem C01_dense_schedule_independent :
  forall p e vals nrows ncols predictions nEstimators nThreads m,
  well_formed e -> sane_rows e nrows ->
  PredictDense p e vals nrows ncols predictions nEstimators nThreads (Returns m) ->
  (* the single-threaded call leaves the same slice behind *)
  PredictDense p e vals nrows ncols predictions nEstimators 1 (Returns m) /\
  (* and so does every execution with any other GOMAXPROCS and number of threads *)
  forall g nThreads' m',
    PredictDense (with_gomaxprocs p g) e vals nrows ncols predictions nEstimators nThreads' (Returns m') ->
    m' = m.
Proof.
  intros p e vals nrows ncols preds nE t m Hwf [Hn Hp] H.
  destruct (dense_seq p e vals nrows ncols preds nE t m Hwf ltac:(lia) Hp H) as (n & Hc & Hs).
  split.
  - eapply PD_single; eauto. unfold single_threaded. rewrite Z.eqb_refl. rewrite !orb_true_r. auto.
  - intros g t' m' H'.
    destruct (dense_seq _ e vals nrows ncols preds nE t' m' Hwf ltac:(lia) Hp H') as (n' & Hc' & Hs').
    rewrite gom_dense in Hs'. congruence.
Qed.
Print Assumptions C01_dense_schedule_independent.

(** ** C02 *)
Theorem C02_csr_schedule_independent :
  forall p e indptr cols vals predictions nEstimators nThreads m,
  well_formed e -> sane_rows e (zlen indptr - 1) ->
  PredictCSR p e indptr cols vals predictions nEstimators nThreads (Returns m) ->
  PredictCSR p e indptr cols vals predictions nEstimators 1 (Returns m) /\
  forall g nThreads' m',
    PredictCSR (with_gomaxprocs p g) e indptr cols vals predictions nEstimators nThreads' (Returns m') ->
    m' = m.
Proof.
  intros p e indptr cols vals preds nE t m Hwf [Hn Hp] H.
  destruct (csr_seq p e indptr cols vals preds nE t m Hwf ltac:(lia) Hp H) as (n & Hc & Hs).
  split.
  - eapply PC_single; eauto. unfold single_threaded. rewrite Z.eqb_refl. rewrite !orb_true_r. auto.
  - intros g t' m' H'.
    destruct (csr_seq _ e indptr cols vals preds nE t' m' Hwf ltac:(lia) Hp H') as (n' & Hc' & Hs').
    rewrite gom_csr in Hs'. congruence.
Qed.
Print Assumptions C02_csr_schedule_independent.

(** ** C03 *)
Lemma threads_pos : forall p nrows t, 1 <= pl_gomaxprocs p -> 0 < nrows <= 2 ^ 53 ->
  (0 < Z.to_nat (nThreads_of p nrows t))%nat.
Proof.
  intros p nrows t Hg Hn. pose proof (nBatches_bounds nrows Hn) as Hb. unfold BatchSize in Hb.
  unfold nThreads_of.
  destruct ((pl_gomaxprocs p <? t) || (t <? 1)) eqn:E1;
  destruct (nBatches_of nrows <? _) eqn:E2; lia.
Qed.

Theorem C03_dense_always_completes :
  forall p e vals nrows ncols predictions nEstimators nThreads,
  well_formed e -> sane_rows e nrows -> zlen vals <= MaxInt -> 1 <= pl_gomaxprocs p ->
  0 < ncols -> NFeatures e <= ncols -> NOutputGroups e * nrows <= zlen predictions ->
  (* predicting every row on its own succeeds *)
  (forall i, 0 <= i < nrows -> exists row out out',
     is_dense_row vals ncols i row /\ Predict p e row nEstimators out = Ok out') ->
  (* then some result is reached, it can only be a return, *)
  0 < nrows ->
  (exists m, PredictDense p e vals nrows ncols predictions nEstimators nThreads (Returns m)) /\
  (forall r, PredictDense p e vals nrows ncols predictions nEstimators nThreads r -> exists m, r = Returns m) /\
  (* and no execution of the goroutines runs forever or gets stuck *)
  forall n, dense_checks e nrows ncols predictions nEstimators = Ok n ->
    single_threaded nrows nThreads = false ->
    always_completes (dense_job p e vals nrows ncols n nThreads)
                     (initial (dense_job p e vals nrows ncols n nThreads) predictions).
Proof.
  intros p e vals nrows ncols preds nE t Hwf [Hn Hp] Hv Hg Hnc Hf Hpl Hrows Hpos.
  assert (Hck : exists n, dense_checks e nrows ncols preds nE = Ok n).
  { destruct (Hrows 0 ltac:(lia)) as (row & out & out' & _ & Ho).
    destruct (Predict_inv _ _ _ _ _ _ Hwf Ho) as (n & Ha & Hc & _).
    exists n. unfold dense_checks. pose proof (wf_NOG e Hwf).
    rewrite s64_id by (unfold MaxInt, two63 in *; nia).
    replace (zlen preds <? NOutputGroups e * nrows) with false by lia.
    replace ((ncols =? 0) || (ncols <? NFeatures e)) with false by lia.
    rewrite Ha. simpl. rewrite Hc. reflexivity. }
  destruct Hck as [n Hck].
  destruct (dense_single_succeeds p e vals nrows ncols nE n preds Hwf Hv Hp ltac:(lia) Hck Hnc Hrows) as [m Hm].
  destruct (dense_checks_ok _ _ _ _ _ _ Hwf Hck) as (Hu & _).
  assert (Hr : 0 < nrows <= 2 ^ 53) by lia.
  pose proof (dense_job_ok p e vals nrows ncols n Hwf Hu Hp t Hr) as HJ.
  set (j := dense_job p e vals nrows ncols n t) in *.
  assert (Hall : exec (all_rows j (dense_row p e vals ncols n)) preds = Ok m).
  { rewrite all_rows_flat. unfold j; cbn [jb_nRows dense_job]. rewrite <- (dense_single_flat p e vals nrows ncols n). exact Hm. }
  assert (Hi : exists l, jb_init j = Ok l) by (exists tt; reflexivity).
  assert (Ht : (0 < jb_threads j)%nat) by (apply threads_pos; auto).
  assert (Hcomp : always_completes j (initial j preds)).
  { split.
    - eapply engine_terminates; eauto.
    - intros c Hst. split.
      + eapply engine_never_crashes; eauto.
      + eapply engine_progress; eauto. }
  split; [|split].
  - exists m. destruct (single_threaded nrows t) eqn:Es.
    + eapply PD_single; eauto.
    + destruct (engine_returns _ _ _ _ HJ _ _ _ Hall Hi Ht (steps_refl _ _)) as (c & Hst & Hret).
      eapply PD_parallel; eauto.
  - intros r Hres. inversion Hres; subst; try congruence; eauto.
    replace n0 with n in * by congruence.
    destruct (engine_never_crashes _ _ _ _ HJ _ _ _ Hall Hi H1) as [s Hs]. discriminate.
  - intros n' Hn' _. replace n' with n by congruence. exact Hcomp.
Qed.
Print Assumptions C03_dense_always_completes.

Theorem C03_csr_always_completes :
  forall p e indptr cols vals predictions nEstimators nThreads,
  well_formed e -> sane_rows e (zlen indptr - 1) -> 1 <= pl_gomaxprocs p ->
  0 <= NFeatures e <= pl_maxalloc p -> NOutputGroups e * (zlen indptr - 1) <= zlen predictions ->
  (forall i, 0 <= i < zlen indptr - 1 ->
     csr_row_readable indptr cols vals i /\ exists row out out',
     is_csr_row indptr cols vals (NFeatures e) (missing_value e) i row /\
     Predict p e row nEstimators out = Ok out') ->
  0 < zlen indptr - 1 ->
  (exists m, PredictCSR p e indptr cols vals predictions nEstimators nThreads (Returns m)) /\
  (forall r, PredictCSR p e indptr cols vals predictions nEstimators nThreads r -> exists m, r = Returns m) /\
  forall n, csr_checks e indptr predictions nEstimators = Ok n ->
    single_threaded (zlen indptr - 1) nThreads = false ->
    always_completes (csr_job p e indptr cols vals n nThreads)
                     (initial (csr_job p e indptr cols vals n nThreads) predictions).
Proof.
  intros p e indptr cols vals preds nE t Hwf [Hn Hp] Hg Hf Hpl Hrows Hpos.
  assert (Hck : exists n, csr_checks e indptr preds nE = Ok n).
  { destruct (Hrows 0 ltac:(lia)) as (_ & row & out & out' & _ & Ho).
    destruct (Predict_inv _ _ _ _ _ _ Hwf Ho) as (n & Ha & Hc & _).
    exists n. unfold csr_checks. pose proof (wf_NOG e Hwf).
    rewrite s64_id by (unfold MaxInt, two63 in *; nia).
    replace (zlen preds <? NOutputGroups e * (zlen indptr - 1)) with false by lia.
    rewrite Ha. simpl. rewrite Hc. reflexivity. }
  destruct Hck as [n Hck].
  destruct (csr_single_succeeds p e indptr cols vals nE n preds Hwf Hp ltac:(lia) Hck Hf Hrows) as [Hbuf [m Hm]].
  destruct (csr_checks_ok _ _ _ _ _ Hwf Hck) as (Hu & _).
  assert (Hr : 0 < zlen indptr - 1 <= 2 ^ 53) by lia.
  pose proof (csr_job_ok p e indptr cols vals n Hwf Hu Hp t Hr) as HJ.
  set (j := csr_job p e indptr cols vals n t) in *.
  assert (Hall : exec (all_rows j (fun r => fst (csr_row p e indptr cols vals n (csr_fresh e) r))) preds = Ok m).
  { rewrite all_rows_flat. unfold j; cbn [jb_nRows csr_job]. rewrite csr_single_flat in Hm.
    apply bind_ok in Hm. destruct Hm as (? & _ & Hm). exact Hm. }
  assert (Hi : exists l, jb_init j = Ok l) by exact Hbuf.
  assert (Ht : (0 < jb_threads j)%nat) by (apply threads_pos; auto).
  assert (Hcomp : always_completes j (initial j preds)).
  { split.
    - eapply engine_terminates; eauto.
    - intros c Hst. split.
      + eapply engine_never_crashes; eauto.
      + eapply engine_progress; eauto. }
  split; [|split].
  - exists m. destruct (single_threaded (zlen indptr - 1) t) eqn:Es.
    + eapply PC_single; eauto.
    + destruct (engine_returns _ _ _ _ HJ _ _ _ Hall Hi Ht (steps_refl _ _)) as (c & Hst & Hret).
      eapply PC_parallel; eauto.
  - intros r Hres. inversion Hres; subst; try congruence; eauto.
    replace n0 with n in * by congruence.
    destruct (engine_never_crashes _ _ _ _ HJ _ _ _ Hall Hi H1) as [s Hs]. discriminate.
  - intros n' Hn' _. replace n' with n by congruence. exact Hcomp.
Qed.
Print Assumptions C03_csr_always_completes.

(** ** C04 *)
Lemma about_next : forall L (wk : worker L), about_to_access wk = next_cell wk.
Proof. intros L [|l|l r e|l r e reg [|[i v|i v|i v|s|] cs]|]; reflexivity. Qed.

Theorem C04_dense_no_data_race :
  forall p e vals nrows ncols predictions nEstimators nThreads n s,
  well_formed e -> sane_rows e nrows -> 0 < nrows ->
  dense_checks e nrows ncols predictions nEstimators = Ok n ->
  let j := dense_job p e vals nrows ncols n nThreads in
  steps j (initial j predictions) (Running s) ->
  (* two goroutines are never about to access the same cell *)
  (forall before wk1 between wk2 after i k,
     st_workers s = before ++ wk1 :: between ++ wk2 :: after ->
     about_to_access wk1 = Some i -> about_to_access wk2 = Some k -> i <> k) /\
  (* a goroutine only accesses the cells of the row it is working on *)
  (forall wk i, In wk (st_workers s) -> about_to_access wk = Some i ->
     exists l r end_ reg cs, wk = WCmd l r end_ reg cs /\
       r * NOutputGroups e <= i < r * NOutputGroups e + NOutputGroups e).
Proof.
  intros p e vals nrows ncols preds nE t n s Hwf [Hn Hp] Hpos Hck j Hst.
  destruct (dense_checks_ok _ _ _ _ _ _ Hwf Hck) as (Hu & _).
  pose proof (dense_job_ok p e vals nrows ncols n Hwf Hu Hp t ltac:(lia)) as HJ. fold j in HJ.
  split.
  - intros a x b y d i k Hws Hx Hy. rewrite about_next in *.
    eapply engine_race_free; eauto.
  - intros wk i Hin Hc. rewrite about_next in *. eapply engine_own_window; eauto.
Qed.
Print Assumptions C04_dense_no_data_race.

Theorem C04_csr_no_data_race :
  forall p e indptr cols vals predictions nEstimators nThreads n s,
  well_formed e -> sane_rows e (zlen indptr - 1) -> 0 < zlen indptr - 1 ->
  csr_checks e indptr predictions nEstimators = Ok n ->
  let j := csr_job p e indptr cols vals n nThreads in
  steps j (initial j predictions) (Running s) ->
  (forall before wk1 between wk2 after i k,
     st_workers s = before ++ wk1 :: between ++ wk2 :: after ->
     about_to_access wk1 = Some i -> about_to_access wk2 = Some k -> i <> k) /\
  (forall wk i, In wk (st_workers s) -> about_to_access wk = Some i ->
     exists l r end_ reg cs, wk = WCmd l r end_ reg cs /\
       r * NOutputGroups e <= i < r * NOutputGroups e + NOutputGroups e).
Proof.
  intros p e indptr cols vals preds nE t n s Hwf [Hn Hp] Hpos Hck j Hst.
  destruct (csr_checks_ok _ _ _ _ _ Hwf Hck) as (Hu & _).
  pose proof (csr_job_ok p e indptr cols vals n Hwf Hu Hp t ltac:(lia)) as HJ. fold j in HJ.
  split.
  - intros a x b y d i k Hws Hx Hy. rewrite about_next in *.
    eapply engine_race_free; eauto.
  - intros wk i Hin Hc. rewrite about_next in *. eapply engine_own_window; eauto.
Qed.
Print Assumptions C04_csr_no_data_race.

(** ** C05 *)
Theorem C05_dense_rows_equal_predict :
  forall p e vals nrows ncols predictions nEstimators nThreads m,
  well_formed e -> arity_accepted e -> sane_rows e nrows ->
  zlen vals <= MaxInt -> 0 < ncols <= MaxInt ->
  PredictDense p e vals nrows ncols predictions nEstimators nThreads (Returns m) ->
  forall i, 0 <= i < nrows -> exists row, is_dense_row vals ncols i row /\
    forall out, NOutputGroups e <= zlen out <= MaxInt ->
    exists out', Predict p e row nEstimators out = Ok out' /\ holds_row m (NOutputGroups e) i out'.
Proof.
  intros p e vals nrows ncols preds nE t m Hwf Hacc [Hn Hp] Hv Hnc H i Hi.
  destruct (dense_seq p e vals nrows ncols preds nE t m Hwf ltac:(lia) Hp H) as (n & Hc & Hs).
  destruct (dense_row_result p e vals nrows ncols nE n preds Hwf Hv Hp ltac:(lia) Hc m i Hnc Hs Hi) as (row & Hrow & Ho).
  exists row. split; auto. intros out Hout. destruct (Ho out Hout) as (out' & E & Hh). eauto.
Qed.
Print Assumptions C05_dense_rows_equal_predict.

(** ** C06 *)
Theorem C06_csr_rows_equal_predict :
  forall p e indptr cols vals predictions nEstimators nThreads m,
  well_formed e -> arity_accepted e -> sane_rows e (zlen indptr - 1) ->
  PredictCSR p e indptr cols vals predictions nEstimators nThreads (Returns m) ->
  forall i, 0 <= i < zlen indptr - 1 ->
  exists row, is_csr_row indptr cols vals (NFeatures e) (missing_value e) i row /\
    forall out, NOutputGroups e <= zlen out <= MaxInt ->
    exists out', Predict p e row nEstimators out = Ok out' /\ holds_row m (NOutputGroups e) i out'.
Proof.
  intros p e indptr cols vals preds nE t m Hwf Hacc [Hn Hp] H i Hi.
  destruct (csr_seq p e indptr cols vals preds nE t m Hwf ltac:(lia) Hp H) as (n & Hc & Hs).
  destruct (csr_row_result p e indptr cols vals nE n preds Hwf Hp ltac:(lia) Hc m i Hs Hi) as (row & Hrow & Ho).
  exists row. split; auto. intros out Hout. destruct (Ho out Hout) as (out' & E & Hh). eauto.
Qed.
Print Assumptions C06_csr_rows_equal_predict.

(** ** C07 *)
Theorem C07_predict_window :
  forall p e fvals nEstimators predictions m,
  well_formed e -> zlen predictions <= MaxInt -> NOutputGroups e <= MaxInt ->
  Predict p e fvals nEstimators predictions = Ok m ->
  zlen m = zlen predictions /\
  (forall k, NOutputGroups e <= k -> zget m k = zget predictions k) /\
  (arity_accepted e -> forall predictions' m',
     Predict p e fvals nEstimators predictions' = Ok m' ->
     forall k, 0 <= k < NOutputGroups e -> zget m' k = zget m k).
Proof.
  intros p e fv nE preds m Hwf Hl Hg H.
  destruct (Predict_inv _ _ _ _ _ _ Hwf H) as (n & Ha & Hc & _ & _ & E).
  pose proof (adjust_usable _ _ _ Hwf Ha Hc) as Hu.
  pose proof (piat_within p e fv n Hwf Hu) as Hw.
  split; [eapply exec_len; eauto|]. split.
  - intros k Hk. eapply exec_frame; eauto. lia.
  - intros Hacc preds' m' H' k Hk.
    destruct (Predict_inv _ _ _ _ _ _ Hwf H') as (n' & Ha' & Hc' & _ & _ & E').
    assert (n' = n) by congruence. subst n'.
    destruct (piat_defined _ _ _ _ _ _ Hwf Hu Hacc E) as [Hd Has].
    apply (exec_det _ _ _ _ _ _ Hd) with (1 := fun k (F : False) => match F with end) (2 := E') (3 := E).
    auto.
Qed.
Print Assumptions C07_predict_window.

(** two slices agree on the first [n] cells *)
Definition agree (n : Z) (a b : list f64) : Prop := forall k, 0 <= k < n -> zget a k = zget b k.

Lemma holds_agree : forall n rows m1 m2, 0 <= n -> 0 <= rows ->
  (forall i, 0 <= i < rows -> exists out, holds_row m1 n i out /\ holds_row m2 n i out) ->
  agree (rows * n) m1 m2.
Proof.
  intros n rows m1 m2 Hn Hr H k Hk.
  assert (Hn0 : 0 < n) by nia.
  pose proof (Z_div_mod_eq_full k n) as Hd. pose proof (Z.mod_pos_bound k n Hn0) as Hm.
  assert (Hi : 0 <= k / n < rows).
  { split; [apply Z.div_pos; lia|]. apply Z.div_lt_upper_bound; lia. }
  destruct (H _ Hi) as (out & H1 & H2).
  replace k with (k / n * n + k mod n) by lia.
  rewrite H1, H2 by lia. auto.
Qed.

Theorem C07_dense_window :
  forall p e vals nrows ncols predictions nEstimators nThreads m,
  well_formed e -> sane_rows e nrows ->
  PredictDense p e vals nrows ncols predictions nEstimators nThreads (Returns m) ->
  zlen m = zlen predictions /\
  (forall k, nrows * NOutputGroups e <= k -> zget m k = zget predictions k) /\
  (arity_accepted e -> zlen vals <= MaxInt -> 0 < ncols <= MaxInt -> forall predictions' nThreads' m',
     PredictDense p e vals nrows ncols predictions' nEstimators nThreads' (Returns m') ->
     agree (nrows * NOutputGroups e) m' m).
Proof.
  intros p e vals nrows ncols preds nE t m Hwf [Hn Hp] H.
  destruct (dense_seq p e vals nrows ncols preds nE t m Hwf ltac:(lia) Hp H) as (n & Hc & Hs).
  destruct (dense_checks_ok _ _ _ _ _ _ Hwf Hc) as (Hu & _). pose proof (wf_NOG e Hwf) as Hg.
  pose proof Hs as Hf. rewrite dense_single_flat in Hf.
  split; [eapply exec_len; eauto|]. split.
  - intros k Hk. eapply exec_rows_frame with (w := NOutputGroups e); eauto; [|lia].
    apply dense_row_within; auto.
  - intros Hacc Hv Hnc preds' t' m' H'.
    destruct (dense_seq p e vals nrows ncols preds' nE t' m' Hwf ltac:(lia) Hp H') as (n' & Hc' & Hs').
    apply holds_agree; auto; [lia|]. intros i Hi.
    destruct (dense_row_result p e vals nrows ncols nE n preds Hwf Hv Hp ltac:(lia) Hc m i Hnc Hs Hi) as (row & Hrow & Ho).
    destruct (dense_row_result p e vals nrows ncols nE n' preds' Hwf Hv Hp ltac:(lia) Hc' m' i Hnc Hs' Hi) as (row' & Hrow' & Ho').
    rewrite (dense_row_unique _ _ _ _ _ Hrow' Hrow) in *.
    destruct (Ho (repeat fzero (Z.to_nat (NOutputGroups e)))) as (out & E & Hh).
    { rewrite zlen_repeat. destruct (Z.eq_dec nrows 0); [lia|nia]. }
    destruct (Ho' (repeat fzero (Z.to_nat (NOutputGroups e)))) as (out' & E' & Hh').
    { rewrite zlen_repeat. destruct (Z.eq_dec nrows 0); [lia|nia]. }
    assert (out' = out) by congruence. subst. exists out. auto.
Qed.
Print Assumptions C07_dense_window.

Theorem C07_csr_window :
  forall p e indptr cols vals predictions nEstimators nThreads m,
  well_formed e -> sane_rows e (zlen indptr - 1) ->
  PredictCSR p e indptr cols vals predictions nEstimators nThreads (Returns m) ->
  zlen m = zlen predictions /\
  (forall k, (zlen indptr - 1) * NOutputGroups e <= k -> zget m k = zget predictions k) /\
  (arity_accepted e -> forall predictions' nThreads' m',
     PredictCSR p e indptr cols vals predictions' nEstimators nThreads' (Returns m') ->
     agree ((zlen indptr - 1) * NOutputGroups e) m' m).
Proof.
  intros p e indptr cols vals preds nE t m Hwf [Hn Hp] H.
  destruct (csr_seq p e indptr cols vals preds nE t m Hwf ltac:(lia) Hp H) as (n & Hc & Hs).
  destruct (csr_checks_ok _ _ _ _ _ Hwf Hc) as (Hu & _). pose proof (wf_NOG e Hwf) as Hg.
  pose proof Hs as Hf. rewrite csr_single_flat in Hf. apply bind_ok in Hf. destruct Hf as (? & _ & Hf).
  split; [eapply exec_len; eauto|]. split.
  - intros k Hk. eapply exec_rows_frame with (w := NOutputGroups e); eauto; [|lia].
    apply csr_row_within; auto.
  - intros Hacc preds' t' m' H'.
    destruct (csr_seq p e indptr cols vals preds' nE t' m' Hwf ltac:(lia) Hp H') as (n' & Hc' & Hs').
    apply holds_agree; auto; [lia|]. intros i Hi.
    destruct (csr_row_result p e indptr cols vals nE n preds Hwf Hp ltac:(lia) Hc m i Hs Hi) as (row & Hrow & Ho).
    destruct (csr_row_result p e indptr cols vals nE n' preds' Hwf Hp ltac:(lia) Hc' m' i Hs' Hi) as (row' & Hrow' & Ho').
    rewrite (csr_row_unique e indptr cols vals i _ _ Hrow' Hrow) in *.
    destruct (Ho (repeat fzero (Z.to_nat (NOutputGroups e)))) as (out & E & Hh).
    { rewrite zlen_repeat. nia. }
    destruct (Ho' (repeat fzero (Z.to_nat (NOutputGroups e)))) as (out' & E' & Hh').
    { rewrite zlen_repeat. nia. }
    assert (out' = out) by congruence. subst. exists out. auto.
Qed.
Print Assumptions C07_csr_window.

(** ** C08 *)
Lemma check_spec : forall e nE, well_formed e ->
  (partial_leaves e nE /\ exists s, (let* n := b_adjustNEstimators (eBase e) nE in
      let* _ := checkNEstimators e n in Ok n) = Err s) \/
  (~ partial_leaves e nE /\ exists n, b_adjustNEstimators (eBase e) nE = Ok n /\ checkNEstimators e n = Ok tt).
Proof.
  intros e nE Hwf. destruct (wf_adjust e nE Hwf) as (k & Hk & Ha).
  unfold checkNEstimators, partial_leaves, wants_leaves. rewrite Ha. cbn [bind].
  destruct (Type_t (eTransform e) =? TypeLeafIndex) eqn:Et.
  - rewrite Hk. cbn [bind].
    assert (Hl : exists n, eTransform e = TransformLeafIndex n).
    { destruct (eTransform e); try discriminate; eauto. }
    destruct ((0 <? nE) && (nE <? k)) eqn:E.
    + left. split; [split; auto; exists k; split; auto; lia|].
      replace (nE =? k) with false by lia. simpl. eauto.
    + right. split.
      * intros (_ & k' & Hk' & Hb). injection Hk' as <-. lia.
      * eexists. split; eauto. rewrite Z.eqb_refl. auto.
  - right. split.
    + intros ((n & Hn) & _). rewrite Hn in Et. discriminate.
    + eauto.
Qed.

Theorem C08_predict_errors :
  forall p e fvals nEstimators predictions,
  well_formed e -> NOutputGroups e <= MaxInt ->
  ((exists msg, Predict p e fvals nEstimators predictions = Err msg) <->
   (zlen predictions < NOutputGroups e \/ zlen fvals < NFeatures e \/ partial_leaves e nEstimators)).
Proof.
  intros p e fv nE preds Hwf Hg. pose proof (wf_NOG e Hwf) as Hg0. unfold Predict. cbv zeta.
  rewrite s64_id by (unfold MaxInt, two63 in *; lia). rewrite Z.mul_1_r.
  destruct (zlen preds <? NOutputGroups e) eqn:E1.
  { split; [left; lia|eauto]. }
  destruct (zlen fv <? NFeatures e) eqn:E2.
  { split; [right; left; lia|eauto]. }
  destruct (check_spec e nE Hwf) as [[Hpl [s Hs]]|[Hpl (n & Ha & Hc)]].
  - split; [auto|]. intros _.
    destruct (b_adjustNEstimators (eBase e) nE); try discriminate; simpl in *; eauto.
    destruct (checkNEstimators e a); try discriminate; simpl in *; eauto.
  - rewrite Ha. cbn [bind]. rewrite Hc. cbn [bind]. split.
    + intros [s Hs]. exfalso. eapply exec_not_err; eauto.
    + intros [H|[H|H]]; [lia|lia|tauto].
Qed.
Print Assumptions C08_predict_errors.

(** ** C09 *)
Definition dense_rejected (e : Ensemble) (nrows ncols : Z) (predictions : list f64) (nE : Z) : Prop :=
  zlen predictions < NOutputGroups e * nrows \/ ncols = 0 \/ ncols < NFeatures e \/ partial_leaves e nE.

Theorem C09_dense_errors :
  forall p e vals nrows ncols predictions nEstimators nThreads,
  well_formed e -> sane_rows e nrows ->
  (dense_rejected e nrows ncols predictions nEstimators ->
     (exists msg, PredictDense p e vals nrows ncols predictions nEstimators nThreads (Fails msg predictions)) /\
     forall r, PredictDense p e vals nrows ncols predictions nEstimators nThreads r ->
       exists msg, r = Fails msg predictions) /\
  (forall msg predictions',
     PredictDense p e vals nrows ncols predictions nEstimators nThreads (Fails msg predictions') ->
     predictions' = predictions /\ dense_rejected e nrows ncols predictions nEstimators).
Proof.
  intros p e vals nrows ncols preds nE t Hwf [Hn Hp]. pose proof (wf_NOG e Hwf) as Hg0.
  assert (Hd : (dense_rejected e nrows ncols preds nE /\ exists s, dense_checks e nrows ncols preds nE = Err s) \/
               (~ dense_rejected e nrows ncols preds nE /\ exists n, dense_checks e nrows ncols preds nE = Ok n)).
  { unfold dense_checks, dense_rejected. rewrite s64_id by (unfold MaxInt, two63 in *; nia).
    destruct (zlen preds <? NOutputGroups e * nrows) eqn:E1; [left; split; [left; lia|eauto]|].
    destruct (ncols =? 0) eqn:E2; [left; split; [right; left; lia|simpl; eauto]|].
    destruct (ncols <? NFeatures e) eqn:E3; [left; split; [right; right; left; lia|simpl; eauto]|].
    cbn [orb]. destruct (check_spec e nE Hwf) as [[Hpl [s Hs]]|[Hpl (n & Ha & Hc)]].
    - left. split; auto. rewrite Hs. eauto.
    - right. split; [intros [H|[H|[H|H]]]; (lia || tauto)|]. rewrite Ha. cbn [bind]. rewrite Hc. simpl. eauto. }
  split.
  - intros Hr. destruct Hd as [[_ [s Hs]]|[Hd _]]; [|tauto]. split.
    + exists s. apply PD_error; auto.
    + intros r H. inversion H; subst; try congruence. eauto.
  - intros s pr H. inversion H; subst. split; auto. destruct Hd as [[Hd _]|[_ [n Hd]]]; auto. congruence.
Qed.
Print Assumptions C09_dense_errors.

Definition csr_rejected (e : Ensemble) (indptr : list Z) (predictions : list f64) (nE : Z) : Prop :=
  zlen predictions < NOutputGroups e * (zlen indptr - 1) \/ partial_leaves e nE.

Theorem C09_csr_errors :
  forall p e indptr cols vals predictions nEstimators nThreads,
  well_formed e -> sane_rows e (zlen indptr - 1) ->
  (csr_rejected e indptr predictions nEstimators ->
     (exists msg, PredictCSR p e indptr cols vals predictions nEstimators nThreads (Fails msg predictions)) /\
     forall r, PredictCSR p e indptr cols vals predictions nEstimators nThreads r ->
       exists msg, r = Fails msg predictions) /\
  (forall msg predictions',
     PredictCSR p e indptr cols vals predictions nEstimators nThreads (Fails msg predictions') ->
     predictions' = predictions /\ csr_rejected e indptr predictions nEstimators).
Proof.
  intros p e indptr cols vals preds nE t Hwf [Hn Hp]. pose proof (wf_NOG e Hwf) as Hg0.
  assert (Hd : (csr_rejected e indptr preds nE /\ exists s, csr_checks e indptr preds nE = Err s) \/
               (~ csr_rejected e indptr preds nE /\ exists n, csr_checks e indptr preds nE = Ok n)).
  { unfold csr_checks, csr_rejected. cbv zeta. rewrite s64_id by (unfold MaxInt, two63 in *; nia).
    destruct (zlen preds <? NOutputGroups e * (zlen indptr - 1)) eqn:E1; [left; split; [left; lia|eauto]|].
    destruct (check_spec e nE Hwf) as [[Hpl [s Hs]]|[Hpl (n & Ha & Hc)]].
    - left. split; auto. rewrite Hs. eauto.
    - right. split; [intros [H|H]; (lia || tauto)|]. rewrite Ha. cbn [bind]. rewrite Hc. simpl. eauto. }
  split.
  - intros Hr. destruct Hd as [[_ [s Hs]]|[Hd _]]; [|tauto]. split.
    + exists s. apply PC_error; auto.
    + intros r H. inversion H; subst; try congruence. eauto.
  - intros s pr H. inversion H; subst. split; auto. destruct Hd as [[Hd _]|[_ [n Hd]]]; auto. congruence.
Qed.
Print Assumptions C09_csr_errors.

(** ** C17 *)
Theorem C17_predict_single :
  forall p e fvals nEstimators, well_formed e ->
  (NOutputGroups e <> 1 -> PredictSingle p e fvals nEstimators = Ok fzero) /\
  (NOutputGroups e = 1 -> forall x,
     (* Predict rejects the call: 0.0 *)
     (forall msg, Predict p e fvals nEstimators [x] = Err msg -> PredictSingle p e fvals nEstimators = Ok fzero) /\
     (* Predict succeeds: the value it stores *)
     (arity_accepted e -> forall v, Predict p e fvals nEstimators [x] = Ok [v] -> PredictSingle p e fvals nEstimators = Ok v) /\
     (* Predict panics or hangs: so does PredictSingle *)
     (forall msg, Predict p e fvals nEstimators [fzero] = Panic msg -> PredictSingle p e fvals nEstimators = Panic msg) /\
     (Predict p e fvals nEstimators [fzero] = Hang -> PredictSingle p e fvals nEstimators = Hang)).
Proof.
  intros p e fv nE Hwf. unfold PredictSingle. split.
  { intros H. replace (NOutputGroups e =? 1) with false by lia. reflexivity. }
  intros H1 x. rewrite H1. change (negb (1 =? 1)) with false. cbv iota. unfold Predict. cbv zeta. rewrite H1.
  change (s64 (1 * 1)) with 1. change (zlen [x] <? 1) with false. change (zlen [fzero] <? 1) with false. cbv iota.
  destruct (zlen fv <? NFeatures e) eqn:E2.
  { repeat split; intros; auto; discriminate. }
  destruct (wf_adjust e nE Hwf) as (k & Hk & Ha).
  destruct (check_spec e nE Hwf) as [[Hpl [s Hs]]|[Hpl (n & Ha' & Hc)]].
  - destruct (b_adjustNEstimators (eBase e) nE) as [n| | |]; cbn [bind] in *; try discriminate.
    destruct (checkNEstimators e n) as [| | |] eqn:Ec; cbn [bind] in *; try discriminate.
    repeat split; intros; auto; discriminate.
  - pose proof (adjust_usable _ _ _ Hwf Ha' Hc) as Hu.
    rewrite Ha'. cbn [bind]. rewrite Hc. cbn [bind]. repeat split.
    + intros msg Hm. exfalso. eapply exec_not_err; eauto.
    + intros Hacc v Hv. destruct (exec_len_ok _ [x] [fzero] _ eq_refl Hv) as [m Hm].
      rewrite Hm. cbn [bind].
      pose proof (exec_len _ _ _ Hm) as Hlen.
      destruct m as [|y [|? ?]]; unfold zlen in Hlen; simpl in Hlen; try lia.
      destruct (piat_defined _ _ _ _ _ _ Hwf Hu Hacc Hv) as [Hd Has].
      pose proof (exec_det _ _ _ _ _ _ Hd (fun k (F : False) => match F with end) Hm Hv 0
        (or_intror (Has 0 ltac:(lia)))) as Hz.
      unfold zget in Hz. simpl in Hz. injection Hz as ->. reflexivity.
    + intros msg Hm. rewrite Hm. reflexivity.
    + intros Hm. rewrite Hm. reflexivity.
Qed.
Print Assumptions C17_predict_single.

(** ** C53: the batches partition the rows.  Batch [i] is the range of rows that the
    main goroutine sends as task [i]. *)
Theorem C53_batches_partition_rows :
  forall nRows, 0 < nRows <= 2 ^ 53 ->
  let n := nBatches_of nRows in
  0 < n /\
  (* every batch is non-empty and has at most BatchSize rows *)
  (forall i, 0 <= i < n -> i * BatchSize < batch_end nRows i <= i * BatchSize + BatchSize) /\
  (* concatenated in order, the batches are exactly the rows 0..nRows-1 *)
  flat_map (fun i => zrange (i * BatchSize) (batch_end nRows i)) (zseq n) = zseq nRows.
Proof.
  intros nRows Hn n. destruct (nBatches_bounds nRows Hn) as [Hlo Hhi]. fold n in Hlo, Hhi.
  unfold BatchSize in *.
  assert (Hpos : 0 < n) by lia.
  split; [lia|]. split.
  { intros i Hi. unfold batch_end, BatchSize. destruct (nRows <? i * 16 + 16) eqn:E; lia. }
  assert (Hgen : forall k, 0 <= k <= n ->
    flat_map (fun i => zrange (i * 16) (batch_end nRows i)) (zseq k) =
    zseq (if nRows <? k * 16 then nRows else k * 16)).
  { intros k Hk. replace k with (Z.of_nat (Z.to_nat k)) in * by lia. generalize dependent (Z.to_nat k).
    intros q. induction q as [|q IH]; intros Hq.
    - replace (nRows <? Z.of_nat 0 * 16) with false by lia. reflexivity.
    - replace (Z.of_nat (S q)) with (Z.of_nat q + 1) by lia.
      rewrite zseq_succ by lia. rewrite flat_map_app, IH by lia. cbn [flat_map]. rewrite app_nil_r.
      replace (nRows <? Z.of_nat q * 16) with false by lia.
      rewrite <- !zrange_zseq. unfold batch_end, BatchSize.
      replace ((Z.of_nat q + 1) * 16) with (Z.of_nat q * 16 + 16) by lia.
      rewrite <- zrange_app; auto. destruct (nRows <? Z.of_nat q * 16 + 16) eqn:E; lia. }
  rewrite Hgen by lia. f_equal. destruct (nRows <? n * 16) eqn:E; lia.
Qed.
Print Assumptions C53_batches_partition_rows.
