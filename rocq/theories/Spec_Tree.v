(** * Reference decision trees

    A decision tree as mathematics: leaves with a value and an identifying number, inner
    nodes with a feature number and a test.  No arrays, flags or indices. *)

From Coq Require Import ZArith List Bool.
Local Open Scope Z_scope.
From Verif Require Import Go GoFloat.

Inductive dtree : Type :=
| DLeaf (id : Z) (value : f64)
| DNode (feature : Z) (goes_left : f64 -> bool) (l r : dtree).

(** the value and number of the leaf a feature vector reaches; None if it lacks a feature
    that is asked for on the way *)
Fixpoint walk (d : dtree) (x : list f64) : option (f64 * Z) :=
  match d with
  | DLeaf id v => Some (v, id)
  | DNode f test l r =>
      match zget x f with
      | Some v => if test v then walk l x else walk r x
      | None => None
      end
  end.

(** all features asked for anywhere in the tree are below [n] *)
Fixpoint features_below (n : Z) (d : dtree) : Prop :=
  match d with
  | DLeaf _ _ => True
  | DNode f _ l r => 0 <= f < n /\ features_below n l /\ features_below n r
  end.

(** the leaves, from left to right *)
Fixpoint leaves_of (d : dtree) : list (Z * f64) :=
  match d with
  | DLeaf id v => [(id, v)]
  | DNode _ _ l r => leaves_of l ++ leaves_of r
  end.

(** [ren] numbers the leaves of [d] from 0 on without gaps or repetition *)
Definition renumbers (d : dtree) (ren : Z -> Z) : Prop :=
  (forall id v, In (id, v) (leaves_of d) -> 0 <= ren id < zlen (leaves_of d)) /\
  (forall id v id' v', In (id, v) (leaves_of d) -> In (id', v') (leaves_of d) -> ren id = ren id' -> id = id').
