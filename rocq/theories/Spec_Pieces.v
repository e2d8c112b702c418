(** * What it means to read a matrix in pieces *)

From Coq Require Import ZArith List Bool.
From Verif Require Import Go GoFloat GoText Mat.
Local Open Scope Z_scope.

Section Pieces.
(** [read] reads one piece from a stream, [rows] is the number of rows of a piece, [k] the
    number of rows asked for *)
Context {M : Type}.
Variables (read : reader -> outcome (M * reader)) (rows : M -> Z) (k : Z).

(** Calling [read] again and again on the same stream, until a piece has fewer than [k] rows:
    the pieces, in order, and the stream as it is left *)
Inductive in_pieces : reader -> list M -> reader -> Prop :=
| ip_last : forall r m r', read r = Ok (m, r') -> rows m < k -> in_pieces r [m] r'
| ip_more : forall r m r' ms r'', read r = Ok (m, r') -> rows m = k -> in_pieces r' ms r'' -> in_pieces r (m :: ms) r''.
End Pieces.

Fixpoint sum_of {M : Type} (f : M -> Z) (ms : list M) : Z := match ms with [] => 0 | m :: ms => f m + sum_of f ms end.

(** [m] is the pieces one under the other *)
Definition dense_stacked (ms : list DenseMat) (m : DenseMat) : Prop :=
  dmValues m = List.concat (map dmValues ms) /\ dmRows m = sum_of dmRows ms /\
  Forall (fun piece => dmCols piece = dmCols m \/ dmCols piece = 0) ms /\ (dmCols m = 0 \/ Exists (fun piece => dmCols piece = dmCols m) ms).

(** the headers of the rows of all the pieces, when [start] values come before *)
Fixpoint headers_from (start : Z) (ms : list CSRMat) : list Z :=
  match ms with
  | [] => []
  | m :: ms => map (Z.add start) (tl (cmRowHeaders m)) ++ headers_from (start + zlen (cmValues m)) ms
  end.
Definition csr_stacked (ms : list CSRMat) (m : CSRMat) : Prop :=
  cmValues m = List.concat (map cmValues ms) /\ cmColIndexes m = List.concat (map cmColIndexes ms) /\
  cmRowHeaders m = 0 :: headers_from 0 ms.
