(** * What a LightGBM JSON model says

    Reference reading of the JSON value of a tree and of a model, independent of the loader. *)

From Coq Require Import ZArith List Bool String.
From Verif Require Import Go GoFloat GoText LgJsonIO Spec_Split Spec_Tree.
From Verif Require Export Spec_Words.
Local Open Scope Z_scope.

(** objects as LightGBM writes them: no key twice; keys of small letters, digits and _ *)
Definition plain_char (b : byte) : bool :=
  let z := byteZ b in ((97 <=? z) && (z <=? 122)) || ((48 <=? z) && (z <=? 57)) || (z =? 95).
Definition plain {A : Type} (members : list (bytes * A)) : Prop :=
  NoDup (map fst members) /\ forall k v, In (k, v) members -> forallb plain_char k = true.

(** a number literal occurs somewhere in the value *)
Inductive occurs (lit : bytes) : json -> Prop :=
| oc_num : occurs lit (JNum lit)
| oc_arr : forall l v, In v l -> occurs lit v -> occurs lit (JArr l)
| oc_obj : forall l k v, In (k, v) l -> occurs lit v -> occurs lit (JObj l).
(** all numbers in the value are float64 numbers *)
Definition numeric (parse_float : bytes -> option f64) (v : json) : Prop :=
  forall lit, occurs lit v -> exists f, parse_float lit = Some f.

Definition missing_name (m : missing) : bytes :=
  match m with MNone => bs "None" | MZero => bs "Zero" | MNan => bs "NaN" end.

(** words of a bitset that holds the categories *)
Definition set_words (cats : list Z) : Z := 1 + fold_right Z.max 0 cats / 32.

(** a split that names no feature (or names null) is on feature 0 *)
Definition feature_is (l : list (bytes * json)) (feature : Z) : Prop :=
  (exists lit, In (bs "split_feature", JNum lit) l /\ uint32_text lit feature) \/
  feature = 0 /\ forall v, In (bs "split_feature", v) l -> v = JNull.

(** the members every split has; LightGBM also numbers them *)
Definition split_members (l : list (bytes * json)) (operator : bytes) (feature : Z) (m : missing) (lc rc : json) : Prop :=
  plain l /\
  (forall v, In (bs "split_index", v) l -> exists lit z, v = JNum lit /\ uint32_text lit z) /\
  feature_is l feature /\
  In (bs "decision_type", JStr operator) l /\
  In (bs "missing_type", JStr (missing_name m)) l /\
  In (bs "left_child", lc) l /\ In (bs "right_child", rc) l.

(** a flag that is absent or null is off *)
Definition flag_is (l : list (bytes * json)) (name : bytes) (b : bool) : Prop :=
  In (name, JBool b) l \/ b = false /\ forall v, In (name, v) l -> v = JNull.

(** [jdescribes parse_float to_int32 v first d w]: the value [v] stands for the tree [d], whose
    leaves are numbered from left to right starting with [first]; [w] bounds the number of words
    of all its category sets *)
Inductive jdescribes (parse_float : bytes -> option f64) (to_int32 : f64 -> Z) : json -> Z -> dtree -> Z -> Prop :=
| jd_leaf : forall l first lit v,
    plain l -> In (bs "leaf_value", JNum lit) l -> parse_float lit = Some v ->
    (forall k x, In (k, x) l -> ~ In k [bs "split_index"; bs "split_feature"; bs "threshold"; bs "decision_type";
                                       bs "default_left"; bs "missing_type"]) ->
    jdescribes parse_float to_int32 (JObj l) first (DLeaf first v) 0
| jd_numerical : forall l first f m dl lit thr lc rc dl' dr wl wr,
    split_members l (bs "<=") f m lc rc ->
    flag_is l (bs "default_left") dl ->
    In (bs "threshold", JNum lit) l -> parse_float lit = Some thr ->
    jdescribes parse_float to_int32 lc first dl' wl ->
    jdescribes parse_float to_int32 rc (first + zlen (leaves_of dl')) dr wr ->
    jdescribes parse_float to_int32 (JObj l) first (DNode f (numeric_left m dl thr) dl' dr) (wl + wr)
| jd_categorical : forall l first f m dl s tokens cats lc rc dl' dr wl wr,
    split_members l (bs "==") f m lc rc ->
    flag_is l (bs "default_left") dl ->
    (* the categories, separated by || *)
    In (bs "threshold", JStr s) l -> pieces (bs "||") s tokens -> Forall2 int64_text tokens cats ->
    Forall (fun c => 0 <= c < 2 ^ 31) cats ->
    jdescribes parse_float to_int32 lc first dl' wl ->
    jdescribes parse_float to_int32 rc (first + zlen (leaves_of dl')) dr wr ->
    jdescribes parse_float to_int32 (JObj l) first
      (DNode f (category_left to_int32 m (fun k => existsb (Z.eqb k) cats)) dl' dr) (set_words cats + wl + wr).

(** one element of tree_info: the tree has at most num_leaves leaves, and num_cat is positive if
    there are categorical splits *)
Definition json_tree_says (parse_float : bytes -> option f64) (to_int32 : f64 -> Z) (v : json) (num_leaves : Z) (d : dtree) : Prop :=
  exists l lit1 lit2 num_cat root w,
    v = JObj l /\ plain l /\ numeric parse_float v /\
    In (bs "num_leaves", JNum lit1) l /\ int64_text lit1 num_leaves /\
    In (bs "num_cat", JNum lit2) l /\ uint32_text lit2 num_cat /\
    In (bs "tree_structure", root) l /\ jdescribes parse_float to_int32 root 0 d w /\
    zlen (leaves_of d) <= num_leaves /\ zlen (leaves_of d) < 2 ^ 32 /\ w < 2 ^ 32 /\ (0 < w -> 0 < num_cat).

(** the whole model *)
Definition json_header_says (v : json) (groups max_feature_idx : Z) (trees : list json) : Prop :=
  exists l lit1 lit2 lit3,
    v = JObj l /\ plain l /\
    In (bs "name", JStr (bs "tree")) l /\ In (bs "version", JStr (bs "v2")) l /\
    In (bs "num_class", JNum lit1) l /\ int64_text lit1 groups /\
    In (bs "num_tree_per_iteration", JNum lit2) l /\ int64_text lit2 groups /\
    In (bs "max_feature_idx", JNum lit3) l /\ int64_text lit3 max_feature_idx /\
    In (bs "tree_info", JArr trees) l /\
    1 <= groups /\ 1 <= zlen trees /\ zlen trees mod groups = 0.

(** what a header must say to be accepted *)
Definition json_header_ok (l : list (bytes * json)) (groups : Z) (trees : list json) : Prop :=
  In (bs "name", JStr (bs "tree")) l /\ In (bs "version", JStr (bs "v2")) l /\
  (exists lit, In (bs "num_class", JNum lit) l /\ int64_text lit groups) /\
  (exists lit, In (bs "num_tree_per_iteration", JNum lit) l /\ int64_text lit groups) /\
  In (bs "tree_info", JArr trees) l /\
  1 <= groups /\ 1 <= zlen trees /\ zlen trees mod groups = 0.

(** trees that differ in the numbering of the leaves at most *)
Inductive alike : dtree -> dtree -> Prop :=
| al_leaf : forall id id' v, alike (DLeaf id v) (DLeaf id' v)
| al_node : forall f test test' l r l' r', (forall x, test x = test' x) -> alike l l' -> alike r r' ->
    alike (DNode f test l r) (DNode f test' l' r').
