(** * C69: what is predicted for a row depends on nothing but the row *)

From Coq Require Import ZArith List Bool String Lia.
From Verif Require Import Go GoFloat GoText Cmd LgTree Transformation Ensembles Leaves Parallel
  Spec_Predict Demo Pf_Go Pf_Cmd Pf_Rows Prop_Batch Prop_Mat Ex_Batch.
Local Open Scope Z_scope.

(** a batch call that returned, leaving [m] behind: how many rows it had, and which row has
    which feature values *)
Inductive batch_call (p : platform) (e : Ensemble) (nEstimators : Z) : Z -> (Z -> list f64 -> Prop) -> list f64 -> Prop :=
| dense_batch : forall vals nrows ncols predictions nThreads m,
    sane_rows e nrows -> zlen vals <= MaxInt -> 0 < ncols <= MaxInt ->
    PredictDense p e vals nrows ncols predictions nEstimators nThreads (Returns m) ->
    batch_call p e nEstimators nrows (is_dense_row vals ncols) m
| csr_batch : forall indptr cols vals predictions nThreads m,
    sane_rows e (zlen indptr - 1) ->
    PredictCSR p e indptr cols vals predictions nEstimators nThreads (Returns m) ->
    batch_call p e nEstimators (zlen indptr - 1) (is_csr_row indptr cols vals (NFeatures e) (missing_value e)) m.

Lemma dense_row_unique : forall vals ncols i a b, is_dense_row vals ncols i a -> is_dense_row vals ncols i b -> a = b.
Proof.
  intros vals ncols i a b (La & Ha) (Lb & Hb). apply zget_ext; [congruence|]. intros k Hk. rewrite La in Hk. rewrite Ha, Hb by lia. reflexivity.
Qed.
Lemma last_entry : forall (cols : list Z) c start n,
  (exists j, start <= j < start + Z.of_nat n /\ zget cols j = Some c /\ forall j', j < j' < start + Z.of_nat n -> zget cols j' <> Some c) \/
  (forall j, start <= j < start + Z.of_nat n -> zget cols j <> Some c).
Proof.
  intros cols c start n. induction n as [|n IH].
  - right. intros j Hj. lia.
  - assert (D : zget cols (start + Z.of_nat n) = Some c \/ zget cols (start + Z.of_nat n) <> Some c).
    { destruct (zget cols (start + Z.of_nat n)) as [z|]; [|right; discriminate]. destruct (Z.eq_dec z c); [left|right]; congruence. }
    destruct D as [D|D].
    + left. exists (start + Z.of_nat n). split; [lia|]. split; [exact D|]. intros j' Hj. lia.
    + destruct IH as [(j & Hj & E & L)|N].
      * left. exists j. split; [lia|]. split; [exact E|]. intros j' Hj'. destruct (Z.eq_dec j' (start + Z.of_nat n)) as [->|Hn]; [exact D|]. apply L. lia.
      * right. intros j Hj. destruct (Z.eq_dec j (start + Z.of_nat n)) as [->|Hn]; [exact D|]. apply N. lia.
Qed.
Lemma csr_row_unique : forall indptr cols vals n missing i a b,
  is_csr_row indptr cols vals n missing i a -> is_csr_row indptr cols vals n missing i b -> a = b.
Proof.
  intros indptr cols vals n missing i a b (s & t & Es & Et & La & Ha) (s' & t' & Es' & Et' & Lb & Hb).
  assert (s' = s) by congruence. assert (t' = t) by congruence. subst s' t'.
  apply zget_ext; [congruence|]. intros c Hc. rewrite La in Hc. destruct (Ha c Hc) as (A1 & A2). destruct (Hb c Hc) as (B1 & B2).
  destruct (last_entry cols c s (Z.to_nat (t - s))) as [(j & Hj & E & L)|N].
  - rewrite (A1 j), (B1 j); auto; try lia; intros j' Hj'; apply L; lia.
  - rewrite A2, B2; auto; intros j Hj; apply N; lia.
Qed.

Lemma batch_predicts : forall p e nE n rows m, well_formed e -> arity_accepted e -> batch_call p e nE n rows m ->
  forall i x, 0 <= i < n -> rows i x ->
  forall out, NOutputGroups e <= zlen out <= MaxInt -> exists out', Predict p e x nE out = Ok out' /\ holds_row m (NOutputGroups e) i out'.
Proof.
  intros p e nE n rows m W A B i x Hi Hx out Ho. destruct B as [vals nrows ncols preds t m S V C H|indptr cols vals preds t m S H].
  - destruct (C05_dense_rows_equal_predict p e vals nrows ncols preds nE t m W A S V C H i Hi) as (row & Hr & K).
    rewrite (dense_row_unique _ _ _ _ _ Hx Hr). apply K. exact Ho.
  - destruct (C06_csr_rows_equal_predict p e indptr cols vals preds nE t m W A S H i Hi) as (row & Hr & K).
    rewrite (csr_row_unique _ _ _ _ _ _ _ _ Hx Hr). apply K. exact Ho.
Qed.

(** the same features at row [i] of one call and at row [j] of another one, or of the same one,
    dense or sparse, among whatever other rows, on any number of threads, into whatever slice:
    the outputs are the same.  One of the rows may have more columns than the other. *)
Theorem C69_rows_independent :
  forall p e nEstimators n1 rows1 m1 n2 rows2 m2 i j x more,
  well_formed e -> arity_accepted e -> NOutputGroups e <= MaxInt ->
  batch_call p e nEstimators n1 rows1 m1 -> batch_call p e nEstimators n2 rows2 m2 ->
  0 <= i < n1 -> 0 <= j < n2 -> rows1 i x -> rows2 j (x ++ more) ->
  forall k, 0 <= k < NOutputGroups e -> zget m1 (i * NOutputGroups e + k) = zget m2 (j * NOutputGroups e + k).
Proof.
  intros p e nE n1 r1 m1 n2 r2 m2 i j x more W A G B1 B2 Hi Hj H1 H2 k Hk.
  set (out := zeros (NOutputGroups e)).
  assert (Lo : zlen out = NOutputGroups e) by (unfold out, zeros, zlen; rewrite repeat_length; lia).
  destruct (batch_predicts _ _ _ _ _ _ W A B1 i x Hi H1 out ltac:(lia)) as (o1 & P1 & R1).
  destruct (batch_predicts _ _ _ _ _ _ W A B2 j _ Hj H2 out ltac:(lia)) as (o2 & P2 & R2).
  apply (C55_extra_features_ignored p e x more) in P1. assert (o2 = o1) by congruence. subst o2.
  rewrite (R1 k Hk), (R2 k Hk). reflexivity.
Qed.
Print Assumptions C69_rows_independent.

(** so a batch may be split anywhere: the outputs for two matrices one above the other are the
    outputs for each of them *)
Theorem C69_dense_split :
  forall p e nEstimators ncols above below na nb preds t m predsa ta ma predsb tb mb,
  well_formed e -> arity_accepted e -> NOutputGroups e <= MaxInt -> sane_rows e (na + nb) -> 0 <= na -> 0 <= nb ->
  zlen (above ++ below) <= MaxInt -> 0 < ncols <= MaxInt -> zlen above = na * ncols -> zlen below = nb * ncols ->
  PredictDense p e (above ++ below) (na + nb) ncols preds nEstimators t (Returns m) ->
  PredictDense p e above na ncols predsa nEstimators ta (Returns ma) ->
  PredictDense p e below nb ncols predsb nEstimators tb (Returns mb) ->
  forall i k, 0 <= k < NOutputGroups e ->
    (0 <= i < na -> zget m (i * NOutputGroups e + k) = zget ma (i * NOutputGroups e + k)) /\
    (0 <= i < nb -> zget m ((na + i) * NOutputGroups e + k) = zget mb (i * NOutputGroups e + k)).
Proof.
  intros p e nE ncols a b na nb preds t m pa ta ma pb tb mb W A G S Na Nb V C La Lb H Ha Hb i k Hk.
  pose proof (zlen_nonneg _ a) as Za. pose proof (zlen_nonneg _ b) as Zb. rewrite zlen_app in V.
  assert (G0 : 0 <= NOutputGroups e) by lia. destruct S as [S1 S2].
  assert (Sa : sane_rows e na) by (split; [lia|nia]). assert (Sb : sane_rows e nb) by (split; [lia|nia]).
  assert (B : batch_call p e nE (na + nb) (is_dense_row (a ++ b) ncols) m) by (eapply dense_batch; eauto; [split; lia | rewrite zlen_app; lia]).
  assert (Ba : batch_call p e nE na (is_dense_row a ncols) ma) by (eapply dense_batch; eauto; lia).
  assert (Bb : batch_call p e nE nb (is_dense_row b ncols) mb) by (eapply dense_batch; eauto; lia).
  split; intros Hi.
  - destruct (C05_dense_rows_equal_predict p e a na ncols pa nE ta ma W A Sa ltac:(lia) C Ha i Hi) as (row & Hr & _).
    symmetry. eapply (C69_rows_independent p e nE na _ ma (na + nb) _ m i i row []); eauto; try lia.
    rewrite app_nil_r. destruct Hr as [L R]. split; [exact L|]. intros c Hc. rewrite R by lia. symmetry. apply zget_app_l. nia.
  - destruct (C05_dense_rows_equal_predict p e b nb ncols pb nE tb mb W A Sb ltac:(lia) C Hb i Hi) as (row & Hr & _).
    symmetry. eapply (C69_rows_independent p e nE nb _ mb (na + nb) _ m i (na + i) row []); eauto; try lia.
    rewrite app_nil_r. destruct Hr as [L R]. split; [exact L|]. intros c Hc. rewrite R by lia. symmetry.
    replace ((na + i) * ncols + c) with (zlen a + (i * ncols + c)) by lia. rewrite zget_app_r by nia. f_equal. lia.
Qed.
Print Assumptions C69_dense_split.

(** row 0 of a sparse matrix and row 1 of a dense one with a further column *)
Example C69_demo_hypotheses : exists rows1 m1 rows2 m2,
  batch_call amd64 demo_raw 0 3 rows1 m1 /\ batch_call amd64 demo_raw 0 2 rows2 m2 /\
  rows1 0 (map fint [5; 6]) /\ rows2 1 (map fint [5; 6] ++ [fint 3]) /\
  well_formed demo_raw /\ arity_accepted demo_raw /\ NOutputGroups demo_raw = 2 /\
  zget m1 0 = Some (fint 26) /\ zget m2 2 = Some (fint 26) /\ zget m1 1 = Some (fint 11) /\ zget m2 3 = Some (fint 11).
Proof.
  assert (D : exists m, PredictDense amd64 demo_raw (map fint [1; 1; 7; 5; 6; 3]) 2 3 (zeros 7) 0 1 (Returns m) /\ zget m 2 = Some (fint 26) /\ zget m 3 = Some (fint 11)).
  { eexists. split; [eapply PD_single with (n := 2); vm_compute; reflexivity|]. vm_compute. auto. }
  destruct D as (m & D & D2 & D3).
  assert (S3 : sane_rows demo_raw 3) by (split; vm_compute; intuition congruence).
  assert (S2 : sane_rows demo_raw 2) by (split; vm_compute; intuition congruence).
  pose proof (csr_batch amd64 demo_raw 0 [0; 2; 2; 5] [0; 1; 1; 1; 7] (map fint [5; 6; 1; 9; 3]) (zeros 6) 8 (map fint [26; 11; 14; 8; 14; 9]) S3 demo_csr_returns') as B.
  eexists _, _, _, m. split; [exact B|].
  split; [eapply (dense_batch amd64 demo_raw 0 _ 2 3); [exact S2 | | | exact D]; vm_compute; intuition congruence|].
  split.
  { exists 0, 2. split; [reflexivity|]. split; [reflexivity|]. split; [reflexivity|]. intros c Hc. change (NFeatures demo_raw) with 2 in Hc.
    assert (c = 0 \/ c = 1) as [-> | ->] by lia; split.
    - intros j Hj E L. assert (j = 0 \/ j = 1) as [-> | ->] by lia; [reflexivity | discriminate E].
    - intros N. exfalso. apply (N 0); [lia | reflexivity].
    - intros j Hj E L. assert (j = 0 \/ j = 1) as [-> | ->] by lia; [discriminate E | reflexivity].
    - intros N. exfalso. apply (N 1); [lia | reflexivity]. }
  split.
  { split; [reflexivity|]. intros k Hk. assert (k = 0 \/ k = 1 \/ k = 2) as [-> | [-> | ->]] by lia; reflexivity. }
  split; [exact demo_raw_wf|]. split; [exact (proj1 demo_arities)|]. split; [reflexivity|]. split; [reflexivity|]. split; [exact D2|]. split; [reflexivity | exact D3].
Qed.
