(** * What a sklearn regression tree means *)

From Coq Require Import ZArith List Bool.
From Verif Require Import Go GoFloat SkClasses Spec_Tree.
Local Open Scope Z_scope.

(** a regression tree as sklearn draws it; a leaf carries its node number *)
Inductive sktree : Type :=
| KLeaf (id : Z) (value : f64)
| KNode (feature : Z) (threshold : f64) (l r : sktree).

(** the node array and the array of node values describe, from node [c] on, the tree [t]
    built of the nodes [ids]; children_left = -1 (TREE_LEAF) marks a leaf *)
Inductive kdescribes (nodes : list SklearnNode) (values : list f64) : Z -> sktree -> list Z -> Prop :=
| kd_leaf : forall c n v, zget nodes c = Some n -> skLeftChild n = -1 -> zget values c = Some v ->
    kdescribes nodes values c (KLeaf c v) [c]
| kd_node : forall c n l r il ir, zget nodes c = Some n ->
    kdescribes nodes values (skLeftChild n) l il -> kdescribes nodes values (skRightChild n) r ir ->
    kdescribes nodes values c (KNode (skFeature n) (skThreshold n) l r) (c :: il ++ ir).

(** go left if the value is at most the threshold; NaN counts as 0 *)
Definition sk_left (threshold v : f64) : bool := fle (if is_nan v then fzero else v) threshold.

(** the decision tree whose leaves yield [out value] *)
Fixpoint sk_reference (out : f64 -> f64) (t : sktree) : dtree :=
  match t with
  | KLeaf id v => DLeaf id (out v)
  | KNode f thr l r => DNode f (sk_left thr) (sk_reference out l) (sk_reference out r)
  end.
(** value*scale + base *)
Definition scaled (scale base v : f64) : f64 := fadd (fmul v scale) base.

(** the arrays hold the tree [t] and nothing else *)
Definition sktree_says (tree : SklearnTree) (t : sktree) : Prop :=
  stNNodes tree = zlen (stNodes tree) /\ zlen (stNodes tree) < 2 ^ 32 /\
  exists ids, kdescribes (stNodes tree) (stValues tree) 0 t ids /\ NoDup ids /\ zlen ids = zlen (stNodes tree).

(** the features are columns of a table with [n] columns *)
Fixpoint sk_features_below (n : Z) (t : sktree) : Prop :=
  match t with
  | KLeaf _ _ => True
  | KNode f _ l r => 0 <= f < n /\ sk_features_below n l /\ sk_features_below n r
  end.
