(** * What an XGBoost tree means *)

From Coq Require Import ZArith List Bool.
From Verif Require Import Go GoFloat GoText XgBin Spec_Tree.
Local Open Scope Z_scope.

(** a tree as XGBoost draws it; a leaf carries its node number *)
Inductive xtree : Type :=
| XLeaf (id : Z) (value : f64)
| XNode (feature : Z) (threshold : f64) (default_left : bool) (l r : xtree).

(** the node array describes, from node [c] on, the tree [t] built of the nodes [ids]:
    the low 31 bits of the split index are the feature, the top bit the default direction,
    the same field holds leaf value or split condition, cleft = -1 marks a leaf *)
Inductive xdescribes (nodes : list xNode) : Z -> xtree -> list Z -> Prop :=
| xd_leaf : forall c n, zget nodes c = Some n -> xCLeft n = -1 ->
    xdescribes nodes c (XLeaf c (f64_of_f32bits (xInfo n))) [c]
| xd_node : forall c n l r il ir, zget nodes c = Some n ->
    xdescribes nodes (xCLeft n) l il -> xdescribes nodes (xCRight n) r ir ->
    xdescribes nodes c
      (XNode (xSIndex n mod 2 ^ 31) (f64_of_f32bits (xInfo n)) (2 ^ 31 <=? xSIndex n) l r) (c :: il ++ ir).

(** NaN takes the default direction, other values are compared with the split condition *)
Definition xg_left (cmp : f64 -> f64 -> bool) (threshold : f64) (default_left : bool) (v : f64) : bool :=
  if is_nan v then default_left else cmp v threshold.

(** the decision tree; XGBoost itself compares with [flt] *)
Fixpoint reference (cmp : f64 -> f64 -> bool) (t : xtree) : dtree :=
  match t with
  | XLeaf id v => DLeaf id v
  | XNode f thr dl l r => DNode f (xg_left cmp thr dl) (reference cmp l) (reference cmp r)
  end.

(** on the way of [x] through the tree no feature value equals the split condition *)
Fixpoint no_ties (t : xtree) (x : list f64) : Prop :=
  match t with
  | XLeaf _ _ => True
  | XNode f thr dl l r =>
      match zget x f with
      | None => True
      | Some v => feq v thr = false /\ (if xg_left flt thr dl v then no_ties l x else no_ties r x)
      end
  end.

Definition is_xleaf (t : xtree) : bool := match t with XLeaf _ _ => true | _ => false end.

(** one tree of a model with [numFeatures] features: a single leaf, or a proper tree that
    starts at node 0 (deleted nodes may lie around) *)
Definition xtree_says (numFeatures : Z) (m : TreeModel) (t : xtree) : Prop :=
  tpNumRoots (tmParam m) = 1 /\ tpNumFeature (tmParam m) <= numFeatures /\
  tpNumNodes (tmParam m) = zlen (tmNodes m) /\
  exists ids, xdescribes (tmNodes m) 0 t ids /\ NoDup ids /\
  (is_xleaf t = true -> zlen (tmNodes m) = 1).
