(** * From a file to the scores of a matrix: what a batch call must give (C63) *)

From Coq Require Import ZArith List.
From Verif Require Import Go GoFloat Ensembles Leaves Parallel Spec_Predict Prop_Batch.
Local Open Scope Z_scope.

(** Under every schedule of the goroutines the call returns nil, and after it the cell of row
    [i] and group [k] holds a value that [score] gives for row [i] of the matrix. *)
Definition dense_scores (p : platform) (e : Ensemble) (vals : list f64) (nrows ncols : Z) (predictions : list f64)
  (nEstimators nThreads : Z) (score : list f64 -> Z -> f64 -> Prop) : Prop :=
  (exists m, PredictDense p e vals nrows ncols predictions nEstimators nThreads (Returns m)) /\
  forall r, PredictDense p e vals nrows ncols predictions nEstimators nThreads r -> exists m, r = Returns m /\ zlen m = zlen predictions /\
  forall i, 0 <= i < nrows -> exists row, is_dense_row vals ncols i row /\
  forall k, 0 <= k < NOutputGroups e -> exists v, score row k v /\ zget m (i * NOutputGroups e + k) = Some v.

(** the same for a CSR matrix *)
Definition csr_scores (p : platform) (e : Ensemble) (indptr cols : list Z) (vals : list f64) (predictions : list f64)
  (nEstimators nThreads : Z) (score : list f64 -> Z -> f64 -> Prop) : Prop :=
  (exists m, PredictCSR p e indptr cols vals predictions nEstimators nThreads (Returns m)) /\
  forall r, PredictCSR p e indptr cols vals predictions nEstimators nThreads r -> exists m, r = Returns m /\ zlen m = zlen predictions /\
  forall i, 0 <= i < zlen indptr - 1 -> exists row, is_csr_row indptr cols vals (NFeatures e) (missing_value e) i row /\
  forall k, 0 <= k < NOutputGroups e -> exists v, score row k v /\ zget m (i * NOutputGroups e + k) = Some v.

(** a dense matrix and an output slice that fit the model *)
Record dense_input (p : platform) (e : Ensemble) (vals : list f64) (nrows ncols : Z) (predictions : list f64) : Prop := {
  di_rows : 0 < nrows;
  di_cols : 0 < ncols <= MaxInt;
  di_vals : nrows * ncols <= zlen vals <= MaxInt;
  di_features : NFeatures e <= ncols;
  di_out : NOutputGroups e * nrows <= zlen predictions <= MaxInt;
  di_procs : 1 <= pl_gomaxprocs p;
  di_mem : NRawOutputGroups e <= pl_maxalloc p;
  di_sane : sane_rows e nrows }.

Record csr_input (p : platform) (e : Ensemble) (indptr cols : list Z) (vals : list f64) (predictions : list f64) : Prop := {
  ci_rows : 0 < zlen indptr - 1;
  ci_readable : forall i, 0 <= i < zlen indptr - 1 -> csr_row_readable indptr cols vals i;
  ci_features : 0 <= NFeatures e <= pl_maxalloc p;
  ci_out : NOutputGroups e * (zlen indptr - 1) <= zlen predictions <= MaxInt;
  ci_procs : 1 <= pl_gomaxprocs p;
  ci_mem : NRawOutputGroups e <= pl_maxalloc p;
  ci_sane : sane_rows e (zlen indptr - 1) }.
