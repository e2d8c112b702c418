(** * Input and output slices that share memory: specification *)

From Coq Require Import ZArith List Bool.
From Verif Require Import Go GoFloat Cmd LgTree Transformation Ensembles Leaves.
Local Open Scope Z_scope.

(** the cells [off .. off+len-1] exist *)
Definition in_memory (mem : list f64) (off len : Z) : Prop := 0 <= off /\ 0 <= len /\ off + len <= zlen mem.

(** cells [a .. b-1] and [c .. d-1] are different *)
Definition apart_cells (a b c d : Z) : Prop := b <= c \/ d <= a.

(** raw scores and leaf indices are accumulated in the output itself; the other
    transformations write the output once, at the end *)
Definition builds_in_output (e : Ensemble) : Prop :=
  match eTransform e with TransformRaw _ | TransformLeafIndex _ => True | _ => False end.

(** Predict: no feature lies in a cell that is written *)
Definition predict_apart (e : Ensemble) (foff flen poff : Z) : Prop :=
  builds_in_output e -> apart_cells foff (foff + flen) poff (poff + NOutputGroups e).

(** rows of a dense matrix: no value of row i lies in a cell written for an earlier row (nor
    for row i itself, if scores are built in the output) *)
Definition dense_apart (e : Ensemble) (voff ncols nrows poff : Z) : Prop :=
  forall i, 0 <= i < nrows ->
    apart_cells (voff + i * ncols) (voff + (i + 1) * ncols) poff (poff + i * NOutputGroups e) /\
    (builds_in_output e ->
     apart_cells (voff + i * ncols) (voff + (i + 1) * ncols) poff (poff + (i + 1) * NOutputGroups e)).

(** rows of a sparse matrix: no stored value of row i lies in a cell written for an earlier row *)
Definition csr_apart (e : Ensemble) (indptr : list Z) (voff poff : Z) : Prop :=
  forall i start end_, zget indptr i = Some start -> zget indptr (i + 1) = Some end_ ->
    apart_cells (voff + start) (voff + end_) poff (poff + i * NOutputGroups e).
