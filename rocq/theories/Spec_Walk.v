(** * The traversal loop of a tree, iteration by iteration (for C52) *)

From Coq Require Import ZArith List Bool.
From Verif Require Import Go GoFloat LgTree.

(** [visits p t fvals n i]: after [n] iterations of the loop, all of which went on to
    another node, the traversal is at node index [i] *)
Inductive visits (p : platform) (t : lgTree) (fvals : list f64) : nat -> Z -> Prop :=
| visits_O : visits p t fvals O 0
| visits_S : forall n i i', visits p t fvals n i -> predict_step p t fvals i = Ok (inr i') ->
    visits p t fvals (S n) i'.

(** the traversal ends in iteration number [n] (counting from 1) with result [r] *)
Definition stops (p : platform) (t : lgTree) (fvals : list f64) (n : nat) (r : outcome (f64 * Z)) : Prop :=
  exists k i, n = S k /\ visits p t fvals k i /\
    match predict_step p t fvals i with
    | Ok (inl x) => r = Ok x
    | Ok (inr _) => False
    | Err m => r = Err m
    | Panic m => r = Panic m
    | Hang => r = Hang
    end.

(** the traversal never ends *)
Definition diverges (p : platform) (t : lgTree) (fvals : list f64) : Prop :=
  forall n, exists i, visits p t fvals n i.
