(** * Monotone constraints *)

From Coq Require Import ZArith List Bool Reals.
From Verif Require Import Go GoFloat Spec_Split Spec_Tree.
Local Open Scope Z_scope.

(** [y] is [x] with feature [f] raised from [a] to [b] *)
Definition raised (f : Z) (a b : f64) (x y : list f64) : Prop :=
  zlen x = zlen y /\ zget x f = Some a /\ zget y f = Some b /\ le64 a b /\ forall i, i <> f -> zget x i = zget y i.

(** what training with a monotone constraint on feature [f] ensures: at every split on [f] no leaf of the left branch is above
    ([increasing]) or below (not [increasing]) a leaf of the right branch *)
Fixpoint constrained (increasing : bool) (f : Z) (d : dtree) : Prop :=
  match d with
  | DLeaf _ _ => True
  | DNode g _ l r =>
      (g = f -> forall i u j v, In (i, u) (leaves_of l) -> In (j, v) (leaves_of r) -> if increasing then le64 u v else le64 v u) /\
      constrained increasing f l /\ constrained increasing f r
  end.

(** at every split on [f], if the larger value goes left then so does the smaller one *)
Fixpoint splits_apart (f : Z) (a b : f64) (d : dtree) : Prop :=
  match d with
  | DLeaf _ _ => True
  | DNode g goes_left l r => (g = f -> goes_left b = true -> goes_left a = true) /\ splits_apart f a b l /\ splits_apart f a b r
  end.

(** every leaf value is a number, not NaN or infinite *)
Definition number (v : f64) : Prop := valid64 v = true /\ finite64 v = true.
Definition number_leaves (d : dtree) : Prop := forall id v, In (id, v) (leaves_of d) -> number v.

(** the prediction for the raised vector is not smaller, or not larger *)
Definition moved (increasing : bool) (before after : f64) : Prop := if increasing then le64 before after else le64 after before.
