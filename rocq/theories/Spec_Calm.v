(** * Model files without references to anything they do not contain *)

From Coq Require Import ZArith List Bool String.
From Verif Require Import Go GoFloat GoText XgBin LgJsonIO SkClasses Spec_LgText Spec_Words.
Local Open Scope Z_scope.

(** an XGBoost tree: child numbers are below the number of nodes *)
Definition children_exist (t : TreeModel) : Prop :=
  Forall (fun n => xCLeft n < tpNumNodes (tmParam t) /\ xCRight n < tpNumNodes (tmParam t)) (tmNodes t).

(** a LightGBM tree: every node has an entry in every array, child numbers are below the
    number of nodes, and the threshold of a categorical node numbers two boundaries that
    delimit a part of cat_threshold *)
Record text_fits (alloc num_leaves : Z) (a : text_tree) : Prop := {
  tf_alloc : num_leaves - 1 <= alloc;
  tf_nodes : num_leaves < 2 ^ 32;
  tf_left : num_leaves - 1 <= zlen (tt_left a);
  tf_right : num_leaves - 1 <= zlen (tt_right a);
  tf_decision : num_leaves - 1 <= zlen (tt_decision a);
  tf_feature : num_leaves - 1 <= zlen (tt_feature a);
  tf_threshold : num_leaves - 1 <= zlen (tt_threshold a);
  tf_children : forall i c, 0 <= i < num_leaves - 1 ->
    zget (tt_left a) i = Some c \/ zget (tt_right a) i = Some c -> c < num_leaves - 1;
  tf_boundaries : zlen (tt_cat_boundaries a) <= 2 ^ 32;
  tf_categories : forall i d thr, 0 <= i < num_leaves - 1 ->
    zget (tt_decision a) i = Some d -> is_categorical d = true -> zget (tt_threshold a) i = Some thr ->
    exists k lo hi, trunc thr = Some k /\ zget (tt_cat_boundaries a) k = Some lo /\ zget (tt_cat_boundaries a) (k + 1) = Some hi /\
      lo <= hi <= zlen (tt_cat_threshold a) }.

(** [v] is stored under the key [k] in an object somewhere in a JSON value *)
Inductive member (k : bytes) (v : json) : json -> Prop :=
| mb_here : forall l, In (k, v) l -> member k v (JObj l)
| mb_array : forall l w, In w l -> member k v w -> member k v (JArr l)
| mb_object : forall l k' w, In (k', w) l -> member k v w -> member k v (JObj l).

(** [k] is the name in small letters [name], up to capitals and the two letters that Unicode
    counts as variants of s and k *)
Inductive spells : bytes -> bytes -> Prop :=
| sl_nil : spells [] []
| sl_same : forall c k name, spells k name -> spells (c :: k) (c :: name)
| sl_capital : forall c d k name, 65 <= byteZ c <= 90 -> byteZ d = byteZ c + 32 -> spells k name -> spells (c :: k) (d :: name)
| sl_long_s : forall k name, spells k name -> spells ("197" :: "191" :: k)%byte ("s"%byte :: name)
| sl_kelvin : forall k name, spells k name -> spells ("226" :: "132" :: "170" :: k)%byte ("k"%byte :: name).

(** a LightGBM JSON model: no num_leaves and no category is out of proportion *)
Definition json_fits (alloc : Z) (doc : json) : Prop :=
  (forall k lit z, member k (JNum lit) doc -> spells k (bs "num_leaves") -> int64_text lit z -> z - 1 <= alloc) /\
  (forall k s tokens token c, member k (JStr s) doc -> spells k (bs "threshold") -> pieces (bs "||") s tokens -> In token tokens -> int64_text token c ->
     0 <= c < 2 ^ 63 - 1 /\ c / 32 < alloc).

(** a scikit-learn tree: every node has a value, the children of an inner node exist, and the
    root of a tree with more than one node is an inner node *)
Record sk_tree_fits (alloc : Z) (t : SklearnTree) : Prop := {
  kt_alloc : zlen (stNodes t) <= stNNodes t <= alloc;
  kt_nodes : stNNodes t < 2 ^ 32 - 1;
  kt_values : zlen (stNodes t) <= zlen (stValues t);
  kt_children : Forall (fun n => 0 <= skLeftChild n ->
    skLeftChild n < zlen (stNodes t) /\ 0 <= skRightChild n < zlen (stNodes t)) (stNodes t);
  kt_root : 1 < zlen (stNodes t) -> forall root, zget (stNodes t) 0 = Some root -> 0 <= skLeftChild root }.
