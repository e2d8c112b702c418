(** * The size of a model *)

From Coq Require Import ZArith List.
From Verif Require Import Go GoFloat LgTree Transformation Ensembles Leaves.
Local Open Scope Z_scope.

(** inner nodes and leaf values of a tree *)
Definition tree_size (t : lgTree) : Z := zlen (tNodes t) + zlen (tLeafValues t).
Definition trees_size (ts : list lgTree) : Z := fold_right (fun t n => tree_size t + n) 0 ts.

(** nodes and leaf values of all trees; weights of a linear model *)
Fixpoint base_size (b : base) : Z :=
  match b with
  | BLg e => trees_size (lgTrees e)
  | BXg e => trees_size (xgTrees e)
  | BLinear e => zlen (xlWeights e)
  | BEnsemble b _ => base_size b
  end.
Definition model_size (e : Ensemble) : Z := base_size (eBase e).
