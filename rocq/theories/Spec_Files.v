(** * Specification: the text of a matrix as CSV *)

From Coq Require Import ZArith List.
From Verif Require Import Go GoFloat GoText Mat.
Local Open Scope Z_scope.

(** [m] has the given rows, all of the same positive length, at least one *)
Definition has_rows (m : DenseMat) (rows : list (list f64)) : Prop :=
  rows <> [] /\ dmRows m = zlen rows /\ 0 < dmCols m /\ Forall (fun r => zlen r = dmCols m) rows /\
  dmValues m = List.concat rows /\ zlen (dmValues m) <= MaxInt.

(** the texts one after the other with the delimiter between them *)
Fixpoint separated (delimiter : bytes) (texts : list bytes) : bytes :=
  match texts with
  | [] => []
  | [t] => t
  | t :: texts => t ++ delimiter ++ separated delimiter texts
  end.
(** one line per row *)
Definition csv_text (p : platform) (delimiter : bytes) (rows : list (list f64)) : bytes :=
  List.concat (map (fun r => separated delimiter (map (pl_print_float p) r) ++ [nl]) rows).

(** the text of a matrix: of one with cells the rows, of one without cells an empty line *)
Inductive matrix_text (p : platform) (delimiter : bytes) (m : DenseMat) : bytes -> Prop :=
| mt_rows : forall rows, has_rows m rows -> matrix_text p delimiter m (csv_text p delimiter rows)
| mt_empty : dmValues m = [] -> dmCols m = 0 \/ dmRows m = 0 -> matrix_text p delimiter m [nl].
