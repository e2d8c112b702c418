(** * Batch calls: sequential meaning, rows, and the goroutine jobs *)

From Coq Require Import ZArith List Bool String Lia ZifyBool.
From Verif Require Import Go GoFloat GoText Cmd UtilBits UtilMath LgTree Transformation Ensembles Leaves
  Parallel Spec_Predict Pf_Go Pf_Cmd Pf_Exec Pf_Leaves Pf_Parallel Pf_Batch.

(** ** Loops over rows *)
Lemma exec_rows_flat : forall L (row : L -> Z -> list cmd * L) (rowc : Z -> list cmd)
  (fresh : L -> Prop) rows,
  (forall l r, fresh l -> In r rows -> fst (row l r) = rowc r /\ fresh (snd (row l r))) ->
  forall l m, fresh l -> exec_rows row rows l m = exec (flat_map rowc rows) m.
Proof.
  intros L row rowc fresh rows. induction rows as [|r rows IH]; intros H l m Hl; simpl; auto.
  destruct (H l r Hl (or_introl eq_refl)) as [E F]. rewrite E, exec_app.
  destruct (exec (rowc r) m); simpl; auto. apply IH; auto.
  intros l' r' Hl' Hr'. apply H; auto. right; auto.
Qed.

Lemma all_rows_flat : forall L (j : job L) rowc,
  all_rows j rowc = flat_map rowc (zseq (jb_nRows j)).
Proof.
  intros L j rowc. unfold all_rows, flat. rewrite flat_map_concat_map, map_map.
  rewrite flat_map_concat_map. reflexivity.
Qed.

Lemma within_rows : forall w (rowc : Z -> list cmd) a b, 0 <= w ->
  (forall r, a <= r < b -> within (r * w) (r * w + w) (rowc r)) ->
  within (a * w) (b * w) (flat_map rowc (zrange a b)).
Proof.
  intros w rowc a b Hw H. apply within_flat_map. intros r Hr. apply in_zrange in Hr.
  eapply within_weaken; [apply (H r); auto| |]; nia.
Qed.

(** what a loop over rows with disjoint windows leaves behind *)
Lemma exec_rows_frame : forall w (rowc : Z -> list cmd) n m m', 0 <= w ->
  (forall r, 0 <= r < n -> within (r * w) (r * w + w) (rowc r)) ->
  exec (flat_map rowc (zseq n)) m = Ok m' ->
  forall k, (k < 0 \/ n * w <= k) -> 0 <= n -> zget m' k = zget m k.
Proof.
  intros w rowc n m m' Hw H E k Hk Hn. rewrite <- zrange_zseq in E.
  eapply exec_frame; [eapply within_rows with (w := w); eauto|exact E|]. lia.
Qed.

Lemma exec_rows_at : forall w (rowc : Z -> list cmd) n m m' r, 0 <= w ->
  (forall r, 0 <= r < n -> within (r * w) (r * w + w) (rowc r)) ->
  exec (flat_map rowc (zseq n)) m = Ok m' -> 0 <= r < n ->
  exists m1 m2, exec (rowc r) m1 = Ok m2 /\ zlen m1 = zlen m /\
    (forall k, r * w <= k < r * w + w -> zget m1 k = zget m k) /\
    (forall k, r * w <= k < r * w + w -> zget m' k = zget m2 k).
Proof.
  intros w rowc n m m' r Hw H E Hr. rewrite <- zrange_zseq in E.
  rewrite (zrange_app 0 r n) in E by lia. rewrite (zrange_cons r n) in E by lia.
  rewrite flat_map_app in E. cbn [flat_map] in E.
  apply exec_app_ok in E. destruct E as (m1 & E1 & E).
  apply exec_app_ok in E. destruct E as (m2 & E2 & E3).
  exists m1, m2. repeat split; auto.
  - eapply exec_len; eauto.
  - intros k Hk.
    assert (W : within (0 * w) (r * w) (flat_map rowc (zrange 0 r))).
    { apply within_rows; auto. intros; apply H; lia. }
    eapply exec_frame; [exact W|exact E1|lia].
  - intros k Hk.
    assert (W : within ((r + 1) * w) (n * w) (flat_map rowc (zrange (r + 1) n))).
    { apply within_rows; auto. intros; apply H; lia. }
    eapply exec_frame; [exact W|exact E3|nia].
Qed.

(** ** Argument checks *)
Lemma checkN_spec : forall e n, well_formed e ->
  exists k, NEstimators e = Ok k /\
  forall n', b_adjustNEstimators (eBase e) n = Ok n' ->
    n' = (if (0 <? n) && (n <? k) then n else k) /\
    (checkNEstimators e n' = Ok tt \/ exists s, checkNEstimators e n' = Err s) /\
    (checkNEstimators e n' = Ok tt <-> (wants_leaves e -> n' = k)).
Proof.
  intros e n H. destruct (wf_adjust e n H) as (k & Hk & Ha). exists k. split; auto.
  intros n' Hn'. rewrite Ha in Hn'. injection Hn' as <-. split; auto.
  unfold checkNEstimators, wants_leaves.
  destruct (eTransform e); cbn [Type_t].
  - split; auto. split; auto. intros _ [? ?]; discriminate.
  - split; auto. split; auto. intros _ [? ?]; discriminate.
  - split; auto. split; auto. intros _ [? ?]; discriminate.
  - simpl. rewrite Hk. simpl. destruct (Z.eqb_spec (if (0 <? n) && (n <? k) then n else k) k) as [E|E].
    + split; [auto|]. split; auto.
    + split; [right; eauto|]. split; [discriminate|]. intros F. exfalso. apply E, F. eauto.
  - split; auto. split; auto. intros _ [? ?]; discriminate.
Qed.

Lemma wf_NOG : forall e, well_formed e -> 0 <= NOutputGroups e.
Proof.
  intros e H. pose proof (wf_NEst e H) as (k & Hk & Hk0 & _). destruct H as (Hg & Ht & Hx).
  unfold NOutputGroups. destruct (eTransform e); cbn [NOutputGroups_t]; try lia.
  destruct Hx as (k' & Hk' & ->). rewrite Hk in Hk'. injection Hk' as <-. nia.
Qed.

Lemma adjust_usable : forall e nE n, well_formed e -> b_adjustNEstimators (eBase e) nE = Ok n ->
  checkNEstimators e n = Ok tt -> usable e n.
Proof.
  intros e nE n H Ha Hc. pose proof (wf_NEst e H) as (k0 & Hk0 & Hk00 & _).
  destruct (checkN_spec e nE H) as (k & Hk & Hs). destruct (Hs n Ha) as (En & _ & Hiff).
  assert (k0 = k) by congruence. subst k0.
  exists k. split; auto. split.
  - rewrite En. destruct (Z.ltb_spec 0 nE), (Z.ltb_spec nE k); simpl; lia.
  - apply Hiff. auto.
Qed.

Lemma unit_eq : forall u : unit, u = tt. Proof. intros []; auto. Qed.

Lemma dense_checks_ok : forall e nrows ncols preds nE n, well_formed e ->
  dense_checks e nrows ncols preds nE = Ok n ->
  usable e n /\ NFeatures e <= ncols /\ ncols <> 0 /\ s64 (NOutputGroups e * nrows) <= zlen preds /\
  b_adjustNEstimators (eBase e) nE = Ok n /\ checkNEstimators e n = Ok tt.
Proof.
  intros e nrows ncols preds nE n Hwf H. unfold dense_checks in H.
  destruct (Z.ltb_spec (zlen preds) (s64 (NOutputGroups e * nrows))); [discriminate|].
  destruct (Z.eqb_spec ncols 0); [discriminate|].
  destruct (Z.ltb_spec ncols (NFeatures e)); [discriminate|]. simpl in H. bind_inv.
  rewrite (unit_eq a0) in *.
  repeat split; auto. eapply adjust_usable; eauto.
Qed.

Lemma csr_checks_ok : forall e indptr preds nE n, well_formed e ->
  csr_checks e indptr preds nE = Ok n ->
  usable e n /\ s64 (NOutputGroups e * (zlen indptr - 1)) <= zlen preds /\
  b_adjustNEstimators (eBase e) nE = Ok n /\ checkNEstimators e n = Ok tt.
Proof.
  intros e indptr preds nE n Hwf H. unfold csr_checks in H.
  destruct (Z.ltb_spec (zlen preds) (s64 (NOutputGroups e * (zlen indptr - 1)))); [discriminate|].
  bind_inv. rewrite (unit_eq a0) in *.
  repeat split; auto. eapply adjust_usable; eauto.
Qed.

(** ** Dense rows *)
Section Dense.
Variables (p : platform) (e : Ensemble) (vals : list f64) (nrows ncols n : Z).
Hypothesis Hwf : well_formed e.
Hypothesis Hu : usable e n.
Hypothesis Hprod : NOutputGroups e * nrows <= MaxInt.

Let rowc := dense_row p e vals ncols n.

Lemma row_start : forall r, 0 <= r < nrows -> s64 (r * NOutputGroups e) = r * NOutputGroups e.
Proof.
  intros r Hr. pose proof (wf_NOG e Hwf). apply s64_id. unfold MaxInt, two63 in *. nia.
Qed.

Lemma dense_row_within : forall r, 0 <= r < nrows ->
  within (r * NOutputGroups e) (r * NOutputGroups e + NOutputGroups e) (rowc r).
Proof.
  intros r Hr. unfold rowc, dense_row. apply within_cmds_of. intros fv _.
  rewrite row_start by auto. rewrite piat_shift.
  replace (r * NOutputGroups e) with (r * NOutputGroups e + 0) at 1 by lia.
  apply within_shift. apply piat_within; auto.
Qed.

Lemma dense_job_ok : forall nThreads, 0 < nrows <= 2 ^ 53 ->
  job_ok (dense_job p e vals nrows ncols n nThreads) (NOutputGroups e) rowc (fun _ => True).
Proof.
  intros nThreads Hn. unfold job_ok, dense_job; cbn [jb_init jb_row jb_nRows jb_nBatches fst snd].
  split; [auto|]. split; [auto|]. split; [apply dense_row_within|]. split; [lia|].
  apply nBatches_bounds. auto.
Qed.

Lemma dense_single_flat : forall m,
  dense_single p e vals nrows ncols m n = exec (flat_map rowc (zseq nrows)) m.
Proof.
  intros m. unfold dense_single. apply exec_rows_flat with (fresh := fun _ => True); auto.
Qed.
End Dense.

Lemma dense_seq : forall p e vals nrows ncols preds nE t m, well_formed e ->
  nrows <= 2 ^ 53 -> NOutputGroups e * nrows <= MaxInt ->
  PredictDense p e vals nrows ncols preds nE t (Returns m) ->
  exists n, dense_checks e nrows ncols preds nE = Ok n /\
    dense_single p e vals nrows ncols preds n = Ok m.
Proof.
  intros p e vals nrows ncols preds nE t m Hwf Hn Hp H.
  inversion H as [| |n ? H0 H1 H2| |n ? c H0 H1 H2 H3|]; subst.
  - exists n. auto.
  - exists n. split; auto.
    destruct (dense_checks_ok _ _ _ _ _ _ Hwf H0) as (Hu & _).
    assert (Hr : 0 < nrows <= 2 ^ 53).
    { unfold single_threaded, BatchSize in H1. lia. }
    rewrite dense_single_flat.
    pose proof (engine_sound _ _ _ _ (dense_job_ok p e vals nrows ncols n Hwf Hu Hp t Hr) _ _ _ H2 H3) as Hs.
    rewrite all_rows_flat in Hs. exact Hs.
Qed.

(** ** CSR rows *)
Lemma reset_repeat : forall b fv, b_resetFVals b fv =
  repeat (match core b with BXg _ => fnan | _ => fzero end) (List.length fv).
Proof.
  intros b fv. rewrite core_reset.
  assert (Hm : forall v : f64, map (fun _ => v) fv = repeat v (List.length fv)).
  { intros v. induction fv; simpl; auto. f_equal. auto. }
  destruct (core_cases b) as [[q E]|[[q E]|[q E]]]; rewrite E; simpl; apply Hm.
Qed.

Definition csr_fresh (e : Ensemble) : list f64 :=
  repeat (missing_value e) (Z.to_nat (NFeatures e)).

Lemma csr_buffer_fresh : forall p e l, csr_buffer p e = Ok l -> l = csr_fresh e.
Proof.
  intros p e l H. unfold csr_buffer in H. bind_inv. apply make_ok in Hb. destruct Hb as (H0 & -> & _).
  rewrite reset_repeat, repeat_length. reflexivity.
Qed.

Lemma set_at_zlen : forall A (l : list A) i v l', set_at l i v = Ok l' -> zlen l' = zlen l.
Proof. intros A l i v l' H. apply set_at_ok in H. eapply zset_len; eauto. Qed.

Lemma csr_fill_len : forall cols vals js fv fv',
  foldM (fun (fvals : list f64) j => let* c := at_ cols j in
           if c <? zlen fvals then let* v := at_ vals j in set_at fvals c v else Ok fvals) js fv = Ok fv' ->
  zlen fv' = zlen fv.
Proof.
  intros cols vals js. induction js as [|j js IH]; intros fv fv' H; simpl in H.
  - inversion H; auto.
  - bind_inv. rewrite (IH _ _ H).
    destruct (a0 <? zlen fv).
    + bind_inv. eapply set_at_zlen; eauto.
    + inversion Hb; auto.
Qed.

Lemma csr_fill_absent : forall cols vals js fv fv' c,
  foldM (fun (fvals : list f64) j => let* c := at_ cols j in
           if c <? zlen fvals then let* v := at_ vals j in set_at fvals c v else Ok fvals) js fv = Ok fv' ->
  (forall j, In j js -> zget cols j <> Some c) -> zget fv' c = zget fv c.
Proof.
  intros cols vals js. induction js as [|j js IH]; intros fv fv' c H Hc; simpl in H.
  - inversion H; auto.
  - bind_inv. rewrite (IH _ _ c H) by (intros; apply Hc; right; auto).
    assert (Hj := Hc j (or_introl eq_refl)). apply at_ok in Hb0.
    destruct (a0 <? zlen fv).
    + bind_inv. apply set_at_ok in Hb. eapply zset_get_other; eauto. congruence.
    + inversion Hb; auto.
Qed.

Lemma csr_fill_row : forall cols vals start end_ fv fv' c,
  csr_fill cols vals start end_ fv = Ok fv' -> 0 <= c < zlen fv ->
  (forall j, start <= j < end_ -> zget cols j = Some c ->
     (forall j', j < j' < end_ -> zget cols j' <> Some c) -> zget fv' c = zget vals j) /\
  ((forall j, start <= j < end_ -> zget cols j <> Some c) -> zget fv' c = zget fv c).
Proof.
  intros cols vals start end_ fv fv' c H Hc. unfold csr_fill in H. split.
  - intros j Hj Hcol Hlast.
    rewrite (zrange_app start j end_) in H by lia. rewrite (zrange_cons j end_) in H by lia.
    rewrite foldM_app in H. apply bind_ok in H. destruct H as (f1 & H1 & H). cbn [foldM] in H.
    apply bind_ok in H. destruct H as (f2 & H2 & H).
    apply csr_fill_len in H1. apply bind_ok in H2. destruct H2 as (c' & Hc' & H2).
    apply at_ok in Hc'. assert (c' = c) by congruence. subst c'. rewrite H1 in *.
    destruct (Z.ltb_spec c (zlen fv)); [|lia]. apply bind_ok in H2. destruct H2 as (v & Hv & H2).
    rewrite (csr_fill_absent _ _ _ _ _ c H).
    + apply set_at_ok in H2. rewrite (zset_get_same _ _ _ _ _ H2). apply at_ok in Hv. auto.
    + intros j' Hj'. apply in_zrange in Hj'. apply Hlast. lia.
  - intros Hno. apply (csr_fill_absent _ _ _ _ _ c H).
    intros j Hj. apply in_zrange in Hj. apply Hno. auto.
Qed.

Section Csr.
Variables (p : platform) (e : Ensemble) (indptr cols : list Z) (vals : list f64) (n : Z).
Let nrows := zlen indptr - 1.
Hypothesis Hwf : well_formed e.
Hypothesis Hu : usable e n.
Hypothesis Hprod : NOutputGroups e * nrows <= MaxInt.

Let row := csr_row p e indptr cols vals n.
Let rowc := fun r => fst (row (csr_fresh e) r).

Lemma csr_row_fresh : forall r, snd (row (csr_fresh e) r) = csr_fresh e.
Proof.
  intros r. unfold row, csr_row.
  destruct (let* start := at_ indptr r in _) as [fv|s|s|] eqn:E; simpl; auto.
  rewrite reset_repeat.
  assert (Hl : zlen fv = zlen (csr_fresh e)).
  { bind_inv. eapply csr_fill_len; eauto. }
  unfold csr_fresh in *. rewrite zlen_repeat in Hl. unfold zlen in Hl.
  replace (List.length fv) with (Z.to_nat (NFeatures e)) by lia. reflexivity.
Qed.

Lemma csr_row_within : forall r, 0 <= r < nrows ->
  within (r * NOutputGroups e) (r * NOutputGroups e + NOutputGroups e) (rowc r).
Proof.
  intros r Hr. unfold rowc, row, csr_row.
  destruct (let* start := at_ indptr r in _) as [fv|s|s|] eqn:E; simpl; try (repeat constructor).
  rewrite (row_start e nrows Hwf Hprod) by auto. rewrite piat_shift.
  replace (r * NOutputGroups e) with (r * NOutputGroups e + 0) at 1 by lia.
  apply within_shift. apply piat_within; auto.
Qed.

Lemma csr_job_ok : forall nThreads, 0 < nrows <= 2 ^ 53 ->
  job_ok (csr_job p e indptr cols vals n nThreads) (NOutputGroups e) rowc (fun l => l = csr_fresh e).
Proof.
  intros nThreads Hn. unfold job_ok, csr_job; cbn [jb_init jb_row jb_nRows jb_nBatches].
  split; [apply csr_buffer_fresh|]. split; [intros l r -> _; split; [reflexivity|apply csr_row_fresh]|].
  split; [apply csr_row_within|]. split; [unfold nrows in *; lia|].
  apply nBatches_bounds. auto.
Qed.

Lemma csr_single_flat : forall m,
  csr_single p e indptr cols vals m n =
  let* _ := csr_buffer p e in exec (flat_map rowc (zseq nrows)) m.
Proof.
  intros m. unfold csr_single. destruct (csr_buffer p e) as [l|s|s|] eqn:E; simpl; auto.
  apply exec_rows_flat with (fresh := fun l => l = csr_fresh e).
  - intros l' r -> _. split; [reflexivity|apply csr_row_fresh].
  - eapply csr_buffer_fresh; eauto.
Qed.
End Csr.

(** a call that returned did create a buffer *)
Definition untouched {L} (c : config L) : Prop :=
  match c with
  | Running s => Forall (fun wk => wk = WStart) (st_workers s) /\
      ((exists k, st_main s = MSpawn k) \/ st_main s = MFeed 0)
  | Crashed _ => False
  end.

Lemma step_untouched : forall L (j : job L) c c', 0 < jb_nBatches j -> step j c c' -> untouched c ->
  (exists l, jb_init j = Ok l) \/ untouched c' \/ exists m, c' = Crashed m.
Proof.
  intros L j c c' Hb H U. 
  assert (Hmid : forall ws1 (wk : worker L) ws2, Forall (fun wk => wk = WStart) (ws1 ++ wk :: ws2) -> wk = WStart).
  { intros ws1 wk ws2 Hf. apply Forall_app in Hf. destruct Hf as [_ Hf]. inversion Hf; auto. }
  inversion H; subst; simpl in U; destruct U as [Uw Um];
    try (apply Hmid in Uw; discriminate); try (left; eauto; fail); try (right; right; eauto; fail).
  - right. left. simpl. split; [apply Forall_app; auto|left; eauto].
  - right. left. simpl. split; auto.
  - destruct Um as [[k Hk]|Hk]; inversion Hk; subst. lia.
  - destruct Um as [[k Hk]|Hk]; inversion Hk.
Qed.

Lemma steps_untouched : forall L (j : job L) c c', 0 < jb_nBatches j -> steps j c c' ->
  ((exists l, jb_init j = Ok l) \/ untouched c \/ exists m, c = Crashed m) ->
  (exists l, jb_init j = Ok l) \/ untouched c' \/ exists m, c' = Crashed m.
Proof.
  intros L j c c' Hb H. induction H as [|c1 c2 c3 Hs H IH]; auto.
  intros [U|[U|[m U]]]; auto.
  - apply IH. eapply step_untouched; eauto.
  - subst. inversion Hs.
Qed.

Lemma returned_init : forall L (j : job L) m0 c m, 0 < jb_nBatches j ->
  steps j (initial j m0) c -> returned c m -> exists l, jb_init j = Ok l.
Proof.
  intros L j m0 c m Hb H (cl & wg & ws & ->).
  destruct (steps_untouched _ _ _ _ Hb H) as [U|[U|[s U]]]; auto.
  - right. left. simpl. split; eauto.
  - simpl in U. destruct U as [_ [[k Hk]|Hk]]; discriminate.
  - discriminate.
Qed.

Lemma csr_seq : forall p e indptr cols vals preds nE t m, well_formed e ->
  zlen indptr - 1 <= 2 ^ 53 -> NOutputGroups e * (zlen indptr - 1) <= MaxInt ->
  PredictCSR p e indptr cols vals preds nE t (Returns m) ->
  exists n, csr_checks e indptr preds nE = Ok n /\
    csr_single p e indptr cols vals preds n = Ok m.
Proof.
  intros p e indptr cols vals preds nE t m Hwf Hn Hp H.
  inversion H as [| |n ? H0 H1 H2| |n ? c H0 H1 H2 H3|]; subst.
  - exists n. auto.
  - exists n. split; auto.
    destruct (csr_checks_ok _ _ _ _ _ Hwf H0) as (Hu & _).
    assert (Hr : 0 < zlen indptr - 1 <= 2 ^ 53).
    { unfold single_threaded, BatchSize in H1. lia. }
    rewrite csr_single_flat.
    pose proof (csr_job_ok p e indptr cols vals n Hwf Hu Hp t Hr) as HJ.
    assert (Hi : exists l, csr_buffer p e = Ok l).
    { refine (returned_init _ (csr_job p e indptr cols vals n t) _ _ _ _ H2 H3).
      unfold csr_job; cbn [jb_nBatches]. pose proof (nBatches_bounds _ Hr). unfold BatchSize in *. lia. }
    destruct Hi as [l ->]. simpl.
    pose proof (engine_sound _ _ _ _ HJ _ _ _ H2 H3) as Hs.
    rewrite all_rows_flat in Hs. exact Hs.
Qed.
