(** * C85: what a call that did not succeed leaves in the predictions; the second half of C08 *)

From Coq Require Import ZArith List Bool String Lia ZifyBool.
From Verif Require Import Go GoFloat GoText Cmd UtilMath LgTree Transformation Ensembles Leaves Parallel Unwind
  Spec_Predict Spec_Shared Demo Pf_Go Pf_Cmd Pf_Exec Pf_Leaves Pf_Parallel Pf_Batch Pf_Calls Pf_Rows Prop_Batch.
Local Open Scope Z_scope.

(** ** Running up to the first access that panics *)
Lemma run_split : forall cs m m' r, run cs m = (m', r) ->
  (r = Ok tt /\ exec cs m = Ok m') \/
  (exists cs1 cs2, cs = cs1 ++ cs2 /\ exec cs1 m = Ok m' /\
     ((exists s, r = Panic s /\ exec cs m = Panic s) \/ (r = Hang /\ exec cs m = Hang))).
Proof.
  induction cs as [|c cs IH]; intros m m' r H; cbn [run exec] in *.
  - injection H as <- <-. auto.
  - destruct (exec1 c m) as [m1|s|s|] eqn:E; cbn [or_stop bind] in *.
    + destruct (IH _ _ _ H) as [[-> ?]|(a & b & -> & Ea & Hr)]; [auto|]. right. exists (c :: a), b.
      split; [reflexivity|]. cbn [exec]. rewrite E. cbn [bind]. auto.
    + exfalso. eapply (exec_not_err [c] m s). cbn [exec]. rewrite E. reflexivity.
    + injection H as <- <-. right. exists [], (c :: cs). cbn. eauto 6.
    + injection H as <- <-. right. exists [], (c :: cs). cbn. eauto 6.
Qed.

Lemma run_app : forall a b m, run (a ++ b) m = let (m', r) := run a m in or_stop r m' (fun _ => run b m').
Proof.
  induction a as [|c a IH]; intros b m; cbn [app run]; [reflexivity|].
  destruct (exec1 c m); cbn [or_stop]; auto.
Qed.

Lemma run_rows_flat : forall L (row : L -> Z -> list cmd * L) (rowc : Z -> list cmd) (fresh : L -> Prop) rows,
  (forall l r, fresh l -> In r rows -> fst (row l r) = rowc r /\ fresh (snd (row l r))) ->
  forall l m, fresh l -> run_rows row rows l m = run (flat_map rowc rows) m.
Proof.
  intros L row rowc fresh rows. induction rows as [|r rows IH]; intros H l m Hl; cbn [run_rows flat_map]; [reflexivity|].
  destruct (H l r Hl (or_introl eq_refl)) as [E F]. rewrite E, run_app.
  destruct (run (rowc r) m) as [m' [u|s|s|]]; cbn [or_stop]; auto. apply IH; auto.
  intros l' r' Hl' Hr'. apply H; auto. right; auto.
Qed.

Lemma run_frame : forall lo hi cs m m' r, within lo hi cs -> run cs m = (m', r) ->
  zlen m' = zlen m /\ forall k, k < lo \/ hi <= k -> zget m' k = zget m k.
Proof.
  intros lo hi cs m m' r W H. destruct (run_split _ _ _ _ H) as [[_ E]|(a & b & -> & E & _)].
  - split; [eapply exec_len; eauto|]. intros k Hk. apply (exec_frame cs m m' lo hi k W E); lia.
  - apply within_app in W. split; [eapply exec_len; eauto|]. intros k Hk. apply (exec_frame a m m' lo hi k (proj1 W) E); lia.
Qed.

Lemma run_rows_split : forall (rowc : Z -> list cmd) n m m' r, run (flat_map rowc (zseq n)) m = (m', r) ->
  (r = Ok tt /\ exec (flat_map rowc (zseq n)) m = Ok m') \/
  (exists i m1, 0 <= i < n /\ exec (flat_map rowc (zseq i)) m = Ok m1 /\ run (rowc i) m1 = (m', r) /\ r <> Ok tt).
Proof.
  intros rowc n m m' r H. assert (G : forall k : nat, forall a m, Z.of_nat k = n - a -> 0 <= a -> run (flat_map rowc (zrange a n)) m = (m', r) ->
    (r = Ok tt /\ exec (flat_map rowc (zrange a n)) m = Ok m') \/
    (exists i m1, a <= i < n /\ exec (flat_map rowc (zrange a i)) m = Ok m1 /\ run (rowc i) m1 = (m', r) /\ r <> Ok tt)).
  { clear m H. induction k as [|k IH]; intros a m Hk Ha H.
    - replace (zrange a n) with (@nil Z) in * by (symmetry; apply zrange_nil; lia). cbn in H. injection H as <- <-. left. auto.
    - rewrite (zrange_cons a n) in * by lia. cbn [flat_map] in *. rewrite run_app in H. destruct (run (rowc a) m) as [m1 r1] eqn:R.
      destruct (run_split _ _ _ _ R) as [[-> E]|(c1 & c2 & _ & _ & Hr)].
      + cbn [or_stop] in H. destruct (IH (a + 1) m1 ltac:(lia) ltac:(lia) H) as [[-> E']|(i & m2 & Hi & E2 & R2 & N)].
        * left. split; [reflexivity|]. rewrite exec_app, E. exact E'.
        * right. exists i, m2. split; [lia|]. split; [|auto]. rewrite (zrange_cons a i) by lia. cbn [flat_map]. rewrite exec_app, E. exact E2.
      + right. exists a, m. split; [lia|]. rewrite zrange_nil by lia. cbn [flat_map exec]. split; [reflexivity|].
        destruct Hr as [(s & -> & _)|[-> _]]; cbn [or_stop] in H; injection H as <- <-; split; auto; discriminate. }
  destruct (Z_le_gt_dec 0 n) as [Hn|Hn].
  - rewrite <- zrange_zseq in H. specialize (G (Z.to_nat n) 0 m ltac:(lia) ltac:(lia) H). rewrite zrange_zseq in G.
    destruct G as [G|(i & m1 & Hi & E & G)]; [auto|]. right. exists i, m1. rewrite zrange_zseq in E. auto.
  - rewrite zseq_nonpos in * by lia. cbn in H. injection H as <- <-. left. auto.
Qed.

(** transformed scores are written after all of them are known *)
Lemma transformed_all_or_nothing : forall p e fv n s m m' r, well_formed e -> ~ builds_in_output e ->
  0 <= s -> s + NOutputGroups e <= zlen m -> run (predictInnerAndTransform p e fv n s) m = (m', r) -> r <> Ok tt -> m' = m.
Proof.
  intros p e fv n s m m' r (_ & _ & Hx) Hb Hs Hl H N. unfold predictInnerAndTransform in H. unfold builds_in_output, NOutputGroups in *.
  assert (K : forall cs, Forall (runs (zlen m)) cs -> run cs m = (m', r) -> m' = m).
  { intros cs F R. destruct (proj2 (exec_runs cs m) F) as (m1 & E). destruct (run_split _ _ _ _ R) as [[-> _]|(a & b & _ & _ & [(x & _ & X)|[_ X]])]; congruence. }
  assert (P : forall s, run [CPanic s] m = (m', r) -> m' = m). { intros x X. cbn in X. congruence. }
  assert (Hg : run [CHang] m = (m', r) -> m' = m). { intros X. cbn in X. congruence. }
  destruct (eTransform e) as [g| |g|g|]; cbn [Type_t NOutputGroups_t] in *; try tauto;
    change (?a =? TypeRaw) with false in H; change (?a =? TypeLeafIndex) with false in H; cbn [Z.eqb] in H;
    (destruct (let* raw := make_f64 p (NRawOutputGroups e) in _) as [raw|x|x|]; cbn [cmds_of] in H; [|eauto..]); cbn [Transform_t] in H.
  - destruct (negb _); [cbn in H; congruence|]. destruct (at_ raw 0) as [v|x|x|]; cbn [bind] in H; [|cbn in H; congruence|eauto..].
    apply K in H; auto. constructor; [|constructor]. eexists _, _. cbn. split; [reflexivity|]. lia.
  - destruct (negb _) eqn:El; [cbn in H; congruence|]. apply K in H; auto. unfold SoftmaxFloat64Slice. apply Forall_app. split.
    + apply Forall_forall. intros c Hc. apply in_map_iff in Hc. destruct Hc as (iv & <- & Hi). apply in_combine_zseq in Hi.
      eexists _, _. cbn. split; [reflexivity|]. lia.
    + destruct (negb (feq _ _)); [|constructor]. apply Forall_forall. intros c Hc. apply in_map_iff in Hc. destruct Hc as (i & <- & Hi). apply in_zrange in Hi.
      eexists _, _. cbn. split; [reflexivity|]. lia.
  - destruct (negb _); [cbn in H; congruence|]. destruct (at_ raw 0) as [v|x|x|]; cbn [bind] in H; [|cbn in H; congruence|eauto..].
    apply K in H; auto. constructor; [|constructor]. eexists _, _. cbn. split; [reflexivity|]. lia.
Qed.

(** ** Predict *)
Theorem C85_predict :
  forall p e fvals nEstimators predictions m r,
  well_formed e -> NOutputGroups e <= MaxInt ->
  Predict_left p e fvals nEstimators predictions = (m, r) ->
  (* it ends as Predict does *)
  Predict p e fvals nEstimators predictions =
    match r with Ok _ => Ok m | Err s => Err s | Panic s => Panic s | Hang => Hang end /\
  (* after an error nothing was written *)
  (forall s, r = Err s -> m = predictions) /\
  (* after a panic, at most the output cells were; none if the model transforms its scores *)
  zlen m = zlen predictions /\ (forall k, NOutputGroups e <= k -> zget m k = zget predictions k) /\
  (~ builds_in_output e -> r <> Ok tt -> m = predictions).
Proof.
  intros p e fv nE preds m r Hwf Hg H. pose proof (wf_NOG e Hwf) as Hg0. unfold Predict_left, Predict in *. cbv zeta in *.
  rewrite s64_id in * by (unfold MaxInt, two63 in *; lia). rewrite Z.mul_1_r in *.
  destruct (zlen preds <? NOutputGroups e) eqn:E1. { injection H as <- <-. repeat split; auto. }
  destruct (zlen fv <? NFeatures e) eqn:E2. { injection H as <- <-. repeat split; auto. }
  destruct (b_adjustNEstimators (eBase e) nE) as [n|s|s|] eqn:Ea; cbn [or_stop bind] in *; try (injection H as <- <-; repeat split; auto; fail).
  destruct (checkNEstimators e n) as [u|s|s|] eqn:Ec; cbn [or_stop bind] in *; try (injection H as <- <-; repeat split; auto; fail).
  rewrite (unit_eq u) in Ec. pose proof (adjust_usable _ _ _ Hwf Ea Ec) as Hu. pose proof (piat_within p e fv n Hwf Hu) as W.
  destruct (run_frame _ _ _ _ _ _ W H) as [L F]. split; [|split; [|split; [exact L|split]]].
  - destruct (run_split _ _ _ _ H) as [[-> E]|(a & b & _ & _ & [(s & -> & E)|[-> E]])]; exact E.
  - intros s ->. destruct (run_split _ _ _ _ H) as [[X _]|(a & b & _ & _ & [(x & X & _)|[X _]])]; discriminate X.
  - intros k Hk. apply F. lia.
  - intros Hb N. apply (transformed_all_or_nothing p e fv n 0 preds m r Hwf Hb ltac:(lia)); auto; lia.
Qed.
Print Assumptions C85_predict.

(** with the conditions of C08 *)
Theorem C08_errors_write_nothing :
  forall p e fvals nEstimators predictions,
  well_formed e -> NOutputGroups e <= MaxInt ->
  zlen predictions < NOutputGroups e \/ zlen fvals < NFeatures e \/ partial_leaves e nEstimators ->
  exists msg, Predict_left p e fvals nEstimators predictions = (predictions, Err msg).
Proof.
  intros p e fv nE preds Hwf Hg H. destruct (proj2 (C08_predict_errors p e fv nE preds Hwf Hg) H) as (s & E).
  destruct (Predict_left p e fv nE preds) as [m r] eqn:R. destruct (C85_predict _ _ _ _ _ _ _ Hwf Hg R) as (P & U & _).
  rewrite E in P. destruct r; try discriminate P. injection P as <-. rewrite (U s eq_refl). eauto.
Qed.
Print Assumptions C08_errors_write_nothing.

(** ** Batches *)

(** the first row of a batch of which a call that stopped at row [i] may have written
    something that is not a prediction *)
Definition written_up_to (e : Ensemble) (i : Z) (k : Z) : Prop :=
  (builds_in_output e -> (i + 1) * NOutputGroups e <= k) /\ (~ builds_in_output e -> i * NOutputGroups e <= k).

Lemma row_stops : forall p e fv n i nrows (preds m1 m : list f64) r out out', well_formed e -> usable e n ->
  0 <= i < nrows -> nrows * NOutputGroups e <= zlen preds -> zlen m1 = zlen preds ->
  run (shift (i * NOutputGroups e) (predictInnerAndTransform p e fv n 0)) m1 = (m, r) -> r <> Ok tt ->
  exec (predictInnerAndTransform p e fv n 0) out <> Ok out'.
Proof.
  intros p e fv n i nrows preds m1 m r out out' Hwf Hu Hi Hl L1 R N E. pose proof (wf_NOG e Hwf) as Hg.
  pose proof (piat_within p e fv n Hwf Hu) as W.
  assert (F : Forall (runs (zlen m1)) (shift (i * NOutputGroups e) (predictInnerAndTransform p e fv n 0))).
  { apply Forall_forall. intros c Hc. unfold shift in Hc. apply in_map_iff in Hc. destruct Hc as (c0 & <- & Hc0).
    destruct (exec_ok_no_panic _ _ _ _ E Hc0) as (j & f & Hj). pose proof (proj1 (Forall_forall _ _) W c0 Hc0) as Hcell.
    unfold cell_in in Hcell. rewrite Hj in Hcell. exists (i * NOutputGroups e + j), f. split; [|nia].
    destruct c0; cbn in *; inversion Hj; subst; auto. }
  destruct (proj2 (exec_runs _ m1) F) as (m2 & E2).
  destruct (run_split _ _ _ _ R) as [[X _]|(a & b & _ & _ & [(s & _ & X)|[_ X]])]; [contradiction|congruence|congruence].
Qed.

Lemma dense_prefix_checks : forall e nrows ncols preds nE n i, well_formed e -> NOutputGroups e * nrows <= MaxInt -> 0 <= i <= nrows ->
  dense_checks e nrows ncols preds nE = Ok n -> dense_checks e i ncols preds nE = Ok n.
Proof.
  intros e nrows ncols preds nE n i Hwf Hp Hi H. pose proof (wf_NOG e Hwf). unfold dense_checks in *.
  rewrite s64_id in * by (unfold MaxInt, two63 in *; nia). destruct (zlen preds <? NOutputGroups e * nrows) eqn:E; [discriminate|].
  replace (zlen preds <? NOutputGroups e * i) with false by nia. exact H.
Qed.

Theorem C85_dense :
  forall p e vals nrows ncols predictions nEstimators m r,
  well_formed e -> arity_accepted e -> sane_rows e nrows -> zlen vals <= MaxInt -> 0 < ncols <= MaxInt ->
  PredictDense_left p e vals nrows ncols predictions nEstimators = (m, r) ->
  match r with
  | Ok _ => PredictDense p e vals nrows ncols predictions nEstimators 1 (Returns m)
  | Err s => m = predictions /\ PredictDense p e vals nrows ncols predictions nEstimators 1 (Fails s predictions)
  | _ =>
      (forall s, r = Panic s -> PredictDense p e vals nrows ncols predictions nEstimators 1 (Panics s)) /\
      (* it stopped at a row on which Predict does not succeed either *)
      exists i, 0 <= i < nrows /\
        (forall row out out', is_dense_row vals ncols i row -> zlen out <= MaxInt -> Predict p e row nEstimators out <> Ok out') /\
        (* the rows before it hold their predictions *)
        (forall j, 0 <= j < i -> exists row, is_dense_row vals ncols j row /\
           forall out, NOutputGroups e <= zlen out <= MaxInt ->
           exists out', Predict p e row nEstimators out = Ok out' /\ holds_row m (NOutputGroups e) j out') /\
        (* nothing behind it was written *)
        zlen m = zlen predictions /\ forall k, written_up_to e i k -> zget m k = zget predictions k
  end.
Proof.
  intros p e vals nrows ncols preds nE m r Hwf Ha [Hn Hp] Hv Hnc H. unfold PredictDense_left in H. pose proof (wf_NOG e Hwf) as Hg.
  destruct (dense_checks e nrows ncols preds nE) as [n|s|s|] eqn:Hc; cbn [or_stop] in H.
  2: { injection H as <- <-. split; [reflexivity|]. apply PD_error. exact Hc. }
  2,3: exfalso; unfold dense_checks in Hc; destruct (_ <? _); [discriminate Hc|]; destruct (_ || _); [discriminate Hc|];
       destruct (check_spec e nE Hwf) as [[_ [x Hs]]|[_ (n & Hn1 & Hn2)]]; [|rewrite Hn1 in Hc; cbn [bind] in Hc; rewrite Hn2 in Hc; discriminate Hc];
       destruct (b_adjustNEstimators (eBase e) nE) as [n|?|?|]; cbn [bind] in *; try discriminate; destruct (checkNEstimators e n); cbn [bind] in *; discriminate.
  destruct (dense_checks_ok _ _ _ _ _ _ Hwf Hc) as (Hu & Hf & _ & Hl & Had & Hck). rewrite s64_id in Hl by (unfold MaxInt, two63 in *; nia).
  rewrite (run_rows_flat unit _ (dense_row p e vals ncols n) (fun _ => True)) in H by auto.
  assert (S1 : single_threaded nrows 1 = true). { unfold single_threaded. rewrite Z.eqb_refl, !orb_true_r. reflexivity. }
  pose proof (dense_row_within p e vals nrows ncols n Hwf Hu Hp) as W.
  destruct (run_rows_split _ _ _ _ _ H) as [[-> E]|(i & m1 & Hi & E & R & N)].
  { eapply PD_single; eauto. rewrite dense_single_flat. exact E. }
  assert (B : exists i : Z, 0 <= i < nrows /\
        (forall row out out', is_dense_row vals ncols i row -> zlen out <= MaxInt -> Predict p e row nE out <> Ok out') /\
        (forall j, 0 <= j < i -> exists row, is_dense_row vals ncols j row /\
           forall out, NOutputGroups e <= zlen out <= MaxInt ->
           exists out', Predict p e row nE out = Ok out' /\ holds_row m (NOutputGroups e) j out') /\
        zlen m = zlen preds /\ forall k, written_up_to e i k -> zget m k = zget preds k).
  { exists i. split; [exact Hi|]. pose proof (exec_len _ _ _ E) as L1. destruct (run_frame _ _ _ _ _ _ (W i Hi) R) as [L F]. split; [|split; [|split]].
    - intros row out out' Hrow Ho Hpr. destruct (Predict_inv _ _ _ _ _ _ Hwf Hpr) as (n' & Hn' & _ & _ & _ & Eo). assert (n' = n) by congruence. subst n'.
      destruct (dense_slice vals ncols i Hv ltac:(lia) ltac:(lia) (dense_row_inside _ _ _ _ Hrow ltac:(lia))) as (row' & Es & Hrow').
      rewrite (dense_row_unique _ _ _ _ _ Hrow' Hrow) in Es. unfold dense_row in R. rewrite Es in R. cbn [cmds_of] in R.
      rewrite (row_start e nrows Hwf Hp i Hi), piat_shift in R.
      refine (row_stops p e row n i nrows preds m1 m r out out' Hwf Hu Hi _ L1 R N Eo). lia.
    - intros j Hj. assert (Hs : dense_single p e vals i ncols preds n = Ok m1) by (rewrite dense_single_flat; exact E).
      destruct (dense_row_result p e vals i ncols nE n preds Hwf Hv ltac:(nia) ltac:(lia) (dense_prefix_checks _ _ _ _ _ _ i Hwf Hp ltac:(lia) Hc) m1 j Hnc Hs Hj) as (row & Hrow & Ho).
      exists row. split; [exact Hrow|]. intros out Hout. destruct (Ho out Hout) as (out' & Eo & Hh). exists out'. split; [exact Eo|].
      intros k Hk. rewrite F by nia. apply (Hh Ha k Hk).
    - congruence.
    - intros k [K1 K2]. assert (Fr : i * NOutputGroups e <= k -> zget m1 k = zget preds k).
      { intros Hk. apply (exec_rows_frame (NOutputGroups e) (dense_row p e vals ncols n) i preds m1 Hg); auto; [|lia]. intros q Hq. apply W. lia. }
      assert (D : builds_in_output e \/ ~ builds_in_output e) by (unfold builds_in_output; destruct (eTransform e); tauto).
      destruct D as [D|D].
      + specialize (K1 D). rewrite F by lia. apply Fr. lia.
      + specialize (K2 D). rewrite <- Fr by lia. f_equal. unfold dense_row in R.
        destruct (slice vals (s64 (i * ncols)) (s64 ((i + 1) * ncols))) as [fv|s|s|]; cbn [cmds_of] in R; try (cbn in R; congruence).
        rewrite (row_start e nrows Hwf Hp i Hi) in R.
        apply (transformed_all_or_nothing p e fv n (i * NOutputGroups e) m1 m r Hwf D); auto; nia. }
  assert (Q : forall s, r = Panic s -> PredictDense p e vals nrows ncols preds nE 1 (Panics s)).
  { intros s ->. eapply PD_single_panic; eauto. rewrite dense_single_flat. destruct (run_split _ _ _ _ H) as [[X _]|(a & b & _ & _ & [(x & X & Y)|[X _]])]; try discriminate X. congruence. }
  destruct r as [u|s|s|]; [exfalso; apply N; rewrite (unit_eq u); reflexivity| |auto|auto].
  exfalso. destruct (run_split _ _ _ _ R) as [[X _]|(a & b & _ & _ & [(x & X & _)|[X _]])]; discriminate X.
Qed.
Print Assumptions C85_dense.

Lemma zget_firstn : forall A (l : list A) n k, 0 <= k < n -> zget (firstn (Z.to_nat n) l) k = zget l k.
Proof. intros A l n k H. rewrite !zget_nth by lia. apply nth_error_firstn_lt. lia. Qed.

Lemma csr_prefix_checks : forall e indptr indptr' preds nE n, well_formed e -> NOutputGroups e * (zlen indptr - 1) <= MaxInt ->
  0 <= zlen indptr' - 1 <= zlen indptr - 1 -> csr_checks e indptr preds nE = Ok n -> csr_checks e indptr' preds nE = Ok n.
Proof.
  intros e indptr indptr' preds nE n Hwf Hp Hi H. pose proof (wf_NOG e Hwf). unfold csr_checks in *. cbv zeta in *.
  rewrite s64_id in * by (unfold MaxInt, two63 in *; nia). destruct (zlen preds <? NOutputGroups e * (zlen indptr - 1)) eqn:E; [discriminate|].
  replace (zlen preds <? NOutputGroups e * (zlen indptr' - 1)) with false by nia. exact H.
Qed.

Theorem C85_csr :
  forall p e indptr cols vals predictions nEstimators m r,
  well_formed e -> arity_accepted e -> sane_rows e (zlen indptr - 1) ->
  PredictCSR_left p e indptr cols vals predictions nEstimators = (m, r) ->
  match r with
  | Ok _ => PredictCSR p e indptr cols vals predictions nEstimators 1 (Returns m)
  | Err s => m = predictions /\ PredictCSR p e indptr cols vals predictions nEstimators 1 (Fails s predictions)
  | _ =>
      (forall s, r = Panic s -> PredictCSR p e indptr cols vals predictions nEstimators 1 (Panics s)) /\
      (* it stopped before the first row, for want of memory for one row, *)
      ((m = predictions /\ ~ 0 <= NFeatures e <= pl_maxalloc p) \/
      (* or at a row that cannot be read or on which Predict does not succeed either *)
      exists i, 0 <= i < zlen indptr - 1 /\
        (forall row out out', csr_row_readable indptr cols vals i -> is_csr_row indptr cols vals (NFeatures e) (missing_value e) i row ->
           zlen out <= MaxInt -> Predict p e row nEstimators out <> Ok out') /\
        (* the rows before it hold their predictions *)
        (forall j, 0 <= j < i -> exists row, is_csr_row indptr cols vals (NFeatures e) (missing_value e) j row /\
           forall out, NOutputGroups e <= zlen out <= MaxInt ->
           exists out', Predict p e row nEstimators out = Ok out' /\ holds_row m (NOutputGroups e) j out') /\
        (* nothing behind it was written *)
        zlen m = zlen predictions /\ forall k, written_up_to e i k -> zget m k = zget predictions k)
  end.
Proof.
  intros p e indptr cols vals preds nE m r Hwf Ha [Hn Hp] H. unfold PredictCSR_left in H. pose proof (wf_NOG e Hwf) as Hg.
  destruct (csr_checks e indptr preds nE) as [n|s|s|] eqn:Hc; cbn [or_stop] in H.
  2: { injection H as <- <-. split; [reflexivity|]. apply PC_error. exact Hc. }
  2,3: exfalso; unfold csr_checks in Hc; cbv zeta in Hc; destruct (_ <? _); [discriminate Hc|];
       destruct (check_spec e nE Hwf) as [[_ [x Hs]]|[_ (n & Hn1 & Hn2)]]; [|rewrite Hn1 in Hc; cbn [bind] in Hc; rewrite Hn2 in Hc; discriminate Hc];
       destruct (b_adjustNEstimators (eBase e) nE) as [n|?|?|]; cbn [bind] in *; try discriminate; destruct (checkNEstimators e n); cbn [bind] in *; discriminate.
  destruct (csr_checks_ok _ _ _ _ _ Hwf Hc) as (Hu & Hl & Had & Hck). rewrite s64_id in Hl by (unfold MaxInt, two63 in *; nia).
  assert (S1 : single_threaded (zlen indptr - 1) 1 = true). { unfold single_threaded. rewrite Z.eqb_refl, !orb_true_r. reflexivity. }
  destruct (csr_buffer p e) as [buf|s|s|] eqn:Hb; cbn [or_stop] in H.
  2,4: exfalso; unfold csr_buffer, make_f64 in Hb; destruct (_ || _); cbn [bind] in Hb; discriminate Hb.
  2: { injection H as <- <-. split.
       - intros x Hx. eapply PC_single_panic; eauto. rewrite csr_single_flat, Hb. cbn [bind]. congruence.
       - left. split; [reflexivity|]. intros Hf. unfold csr_buffer, make_f64 in Hb.
         replace ((NFeatures e <? 0) || (pl_maxalloc p <? NFeatures e)) with false in Hb by lia. discriminate Hb. }
  assert (Hf : 0 <= NFeatures e).
  { pose proof Hb as Hb'. unfold csr_buffer in Hb'. apply bind_ok in Hb'. destruct Hb' as (f0 & Hf0 & _). apply make_ok in Hf0. tauto. }
  set (rowc := fun q => fst (csr_row p e indptr cols vals n (csr_fresh e) q)) in *.
  rewrite (run_rows_flat _ _ rowc (fun l => l = csr_fresh e)) in H.
  2: { intros l q -> _. split; [reflexivity|apply csr_row_fresh]. } 2: { eapply csr_buffer_fresh; eauto. }
  pose proof (csr_row_within p e indptr cols vals n Hwf Hu Hp) as W. fold rowc in W. cbv beta in W.
  destruct (run_rows_split _ _ _ _ _ H) as [[-> E]|(i & m1 & Hi & E & R & N)].
  { eapply PC_single; eauto. rewrite csr_single_flat, Hb. exact E. }
  assert (B : exists i : Z, 0 <= i < zlen indptr - 1 /\
        (forall row out out', csr_row_readable indptr cols vals i -> is_csr_row indptr cols vals (NFeatures e) (missing_value e) i row ->
           zlen out <= MaxInt -> Predict p e row nE out <> Ok out') /\
        (forall j, 0 <= j < i -> exists row, is_csr_row indptr cols vals (NFeatures e) (missing_value e) j row /\
           forall out, NOutputGroups e <= zlen out <= MaxInt ->
           exists out', Predict p e row nE out = Ok out' /\ holds_row m (NOutputGroups e) j out') /\
        zlen m = zlen preds /\ forall k, written_up_to e i k -> zget m k = zget preds k).
  { exists i. split; [exact Hi|]. pose proof (exec_len _ _ _ E) as L1. destruct (run_frame _ _ _ _ _ _ (W i Hi) R) as [L F]. split; [|split; [|split]].
    - intros row out out' (start & end_ & Hs & He & Hj) Hrow Ho Hpr. destruct (Predict_inv _ _ _ _ _ _ Hwf Hpr) as (n' & Hn' & _ & _ & _ & Eo). assert (n' = n) by congruence. subst n'.
      destruct (csr_fill_succeeds indptr cols vals (zrange start end_) (csr_fresh e)) as [fv Hfv]. { intros j Hjj. apply in_zrange in Hjj. auto. }
      pose proof (csr_row_filled e indptr cols vals i start end_ fv Hf Hs He Hfv) as Hrow'. rewrite (csr_row_unique _ _ _ _ _ _ _ Hrow' Hrow) in Hfv.
      change (csr_fill cols vals start end_ (csr_fresh e) = Ok row) in Hfv.
      unfold rowc, csr_row in R. unfold at_ in R. rewrite Hs, He in R. cbn [bind] in R. rewrite Hfv in R. cbn [fst] in R.
      rewrite (row_start e (zlen indptr - 1) Hwf Hp i Hi), piat_shift in R.
      refine (row_stops p e row n i (zlen indptr - 1) preds m1 m r out out' Hwf Hu Hi _ L1 R N Eo). lia.
    - intros j Hj. set (indptr' := firstn (Z.to_nat (i + 1)) indptr).
      assert (Lp : zlen indptr' = i + 1) by (unfold indptr', zlen in *; rewrite firstn_length; lia).
      assert (Gp : forall k, 0 <= k < i + 1 -> zget indptr' k = zget indptr k) by (intros; apply zget_firstn; lia).
      assert (Hs : csr_single p e indptr' cols vals preds n = Ok m1).
      { rewrite csr_single_flat, Hb. cbn [bind]. rewrite Lp. replace (i + 1 - 1) with i by lia. rewrite <- E. f_equal. apply flat_map_ext_in.
        intros q Hq. apply in_zseq in Hq. unfold rowc, csr_row, at_. rewrite !Gp by lia. reflexivity. }
      destruct (csr_row_result p e indptr' cols vals nE n preds Hwf ltac:(rewrite Lp; nia) ltac:(lia) (csr_prefix_checks _ indptr indptr' _ _ _ Hwf Hp ltac:(lia) Hc) m1 j Hs ltac:(lia)) as (row & Hrow & Ho).
      exists row. split.
      + destruct Hrow as (start & end_ & A1 & A2 & A3). exists start, end_. rewrite Gp in A1, A2 by lia. auto.
      + intros out Hout. destruct (Ho out Hout) as (out' & Eo & Hh). exists out'. split; [exact Eo|].
        intros k Hk. rewrite F by nia. apply (Hh Ha k Hk).
    - congruence.
    - intros k [K1 K2]. assert (Fr : i * NOutputGroups e <= k -> zget m1 k = zget preds k).
      { intros Hk. apply (exec_rows_frame (NOutputGroups e) rowc i preds m1 Hg); auto; [|lia]. intros q Hq. apply W. lia. }
      assert (D : builds_in_output e \/ ~ builds_in_output e) by (unfold builds_in_output; destruct (eTransform e); tauto).
      destruct D as [D|D].
      + specialize (K1 D). rewrite F by lia. apply Fr. lia.
      + specialize (K2 D). rewrite <- Fr by lia. f_equal. unfold rowc, csr_row in R.
        destruct (let* start := at_ indptr i in _) as [fv|s|s|]; cbn [fst] in R; try (cbn in R; congruence).
        rewrite (row_start e (zlen indptr - 1) Hwf Hp i Hi) in R.
        apply (transformed_all_or_nothing p e fv n (i * NOutputGroups e) m1 m r Hwf D); auto; nia. }
  assert (Q : forall s, r = Panic s -> PredictCSR p e indptr cols vals preds nE 1 (Panics s)).
  { intros s ->. eapply PC_single_panic; eauto. rewrite csr_single_flat, Hb. cbn [bind]. destruct (run_split _ _ _ _ H) as [[X _]|(a & b & _ & _ & [(x & X & Y)|[X _]])]; try discriminate X.
    injection X as <-. exact Y. }
  destruct r as [u|s|s|]; [exfalso; apply N; rewrite (unit_eq u); reflexivity| |auto|auto].
  exfalso. destruct (run_split _ _ _ _ R) as [[X _]|(a & b & _ & _ & [(x & X & _)|[X _]])]; discriminate X.
Qed.
Print Assumptions C85_csr.

(** ** Concrete cases *)

(** a model whose second tree asks for a feature it does not announce *)
Definition half_known : Ensemble :=
  mkEnsemble (BLg (mkLgEnsemble [stump 0 (fint 1) (fint 10) (fint 20); stump 5 (fint 1) (fint 10) (fint 20)] 1 1 (bs "lightgbm.gbdt") false)) (TransformRaw 1).

(** the first tree's score is left behind when the second tree panics *)
Example C85_predict_demo :
  well_formed half_known /\ builds_in_output half_known /\
  exists s, Predict_left amd64 half_known [fint 0; fint 0] 0 [fint 7; fint 8] = ([fint 10; fint 8], Panic s).
Proof. repeat split; try (vm_compute; discriminate). eexists. vm_compute. reflexivity. Qed.

(** the same model with a transformation leaves nothing behind *)
Example C85_transformed_demo :
  let e := mkEnsemble (eBase half_known) TransformLogistic in
  well_formed e /\ ~ builds_in_output e /\
  exists s, Predict_left amd64 e [fint 0; fint 0] 0 [fint 7; fint 8] = ([fint 7; fint 8], Panic s).
Proof. repeat split; try (vm_compute; discriminate). { cbn. tauto. } eexists. vm_compute. reflexivity. Qed.

(** three rows announced, two and a half given: two rows are predicted *)
Example C85_dense_demo :
  well_formed demo_raw /\ arity_accepted demo_raw /\ sane_rows demo_raw 3 /\
  exists s, PredictDense_left amd64 demo_raw (map fint [0; 0; 2; 2; 9]) 3 2 (map fint [7; 7; 7; 7; 7; 7; 7]) 0 =
    (map fint [14; 8; 25; 9; 7; 7; 7], Panic s).
Proof.
  split; [repeat split; try reflexivity; vm_compute; discriminate|]. split; [exact I|]. split; [repeat split; vm_compute; discriminate|].
  eexists. vm_compute. reflexivity.
Qed.

(** the second row has a column number below 0: the first row is predicted *)
Example C85_csr_demo :
  well_formed demo_raw /\ arity_accepted demo_raw /\ sane_rows demo_raw 2 /\
  exists s, PredictCSR_left amd64 demo_raw [0; 1; 2] [1; -1] (map fint [4; 4]) (map fint [7; 7; 7; 7; 7]) 0 =
    (map fint [14; 9; 7; 7; 7], Panic s).
Proof.
  split; [repeat split; try reflexivity; vm_compute; discriminate|]. split; [exact I|]. split; [repeat split; vm_compute; discriminate|].
  eexists. vm_compute. reflexivity.
Qed.
