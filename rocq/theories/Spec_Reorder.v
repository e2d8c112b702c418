(** * Vocabulary for models with the same estimators in another order *)

From Coq Require Import ZArith List Permutation.
From Verif Require Import Go.
Import ListNotations.
Local Open Scope Z_scope.

(** [order] lists the numbers 0 .. n-1 in some order; estimator [i] of the second model, [g] trees
    (or weights) of it, is estimator [order[i]] of the first *)
Definition reordered {A : Type} (n g : Z) (order : list Z) (first second : list A) : Prop :=
  Permutation (zseq n) order /\
  forall i j k, zget order i = Some j -> 0 <= k < g -> zget second (i * g + k) = zget first (j * g + k).
