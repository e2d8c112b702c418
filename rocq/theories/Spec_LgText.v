(** * What a LightGBM text model says

    Reference reading of the arrays of a LightGBM text tree, independent of the loader. *)

From Coq Require Import ZArith List Bool.
From Verif Require Import Go GoFloat GoText Spec_Bits Spec_Split Spec_Tree.
From Verif Require Export Spec_Words.
Local Open Scope Z_scope.

(** the arrays of one tree of the file *)
Record text_tree : Type := mkText {
  tt_left : list Z; tt_right : list Z; tt_decision : list Z; tt_feature : list Z;
  tt_threshold : list f64; tt_cat_threshold : list Z; tt_cat_boundaries : list Z;
  tt_leaf_value : list f64 }.

(** LightGBM's decision_type: bit 0 categorical, bit 1 default left, bits 2-3 missing type *)
Definition is_categorical (d : Z) : bool := Z.odd d.
Definition is_default_left (d : Z) : bool := Z.odd (d / 2).
Definition missing_type (d : Z) : option missing :=
  match (d / 4) mod 4 with 0 => Some MNone | 1 => Some MZero | 2 => Some MNan | _ => None end.

(** [describes to_int32 a c d ids w]: child number [c] of the arrays stands for the tree [d];
    [ids] are the numbers of the inner nodes met, [w] the number of category bitset words.
    A negative child number is the bitwise complement of a leaf number. *)
Inductive describes (to_int32 : f64 -> Z) (a : text_tree) : Z -> dtree -> list Z -> Z -> Prop :=
| desc_leaf : forall leaf v,
    zget (tt_leaf_value a) leaf = Some v ->
    describes to_int32 a (- leaf - 1) (DLeaf leaf v) [] 0
| desc_numerical : forall c d m f thr cl cr l r il ir wl wr,
    zget (tt_decision a) c = Some d -> is_categorical d = false -> missing_type d = Some m ->
    zget (tt_feature a) c = Some f -> zget (tt_threshold a) c = Some thr ->
    zget (tt_left a) c = Some cl -> zget (tt_right a) c = Some cr ->
    describes to_int32 a cl l il wl -> describes to_int32 a cr r ir wr ->
    describes to_int32 a c (DNode f (numeric_left m (is_default_left d) thr) l r) (c :: il ++ ir) (wl + wr)
| desc_categorical : forall c d m f thr k lo hi before words after cl cr l r il ir wl wr,
    zget (tt_decision a) c = Some d -> is_categorical d = true -> missing_type d = Some m ->
    zget (tt_feature a) c = Some f -> zget (tt_threshold a) c = Some thr ->
    (* the threshold numbers a bitset delimited by two boundaries *)
    trunc thr = Some k -> zget (tt_cat_boundaries a) k = Some lo -> zget (tt_cat_boundaries a) (k + 1) = Some hi ->
    tt_cat_threshold a = before ++ words ++ after -> zlen before = lo -> zlen words = hi - lo ->
    (* with at least one member, all members in the int32 range *)
    (exists j, 0 <= j /\ bit words j = true) -> zlen words <= 2 ^ 26 ->
    zget (tt_left a) c = Some cl -> zget (tt_right a) c = Some cr ->
    describes to_int32 a cl l il wl -> describes to_int32 a cr r ir wr ->
    describes to_int32 a c (DNode f (category_left to_int32 m (bit words)) l r) (c :: il ++ ir) (zlen words + wl + wr).

(** ** The block of key=value lines a tree is written as *)

(** value of the last line with the given key *)
Fixpoint last_value (lines : list (bytes * bytes)) (key : bytes) : option bytes :=
  match lines with
  | [] => None
  | (k, v) :: rest =>
      match last_value rest key with
      | Some v' => Some v'
      | None => if beqb k key then Some v else None
      end
  end.

(** the value of [key] is a blank-separated list of numbers *)
Definition lists {A : Type} (lines : list (bytes * bytes)) (key : bytes) (reads : bytes -> A -> Prop) (l : list A) : Prop :=
  exists v ts, last_value lines key = Some v /\ parts sp v ts /\ Forall2 reads ts l.
(** the value of [key] is one integer *)
Definition says (lines : list (bytes * bytes)) (key : bytes) (z : Z) : Prop :=
  exists v, last_value lines key = Some v /\ int64_text v z.

(** the block holds the arrays [a] *)
Definition text_block (parse_float : bytes -> option f64) (lines : list (bytes * bytes)) (num_leaves num_cat : Z) (a : text_tree) : Prop :=
  says lines (bs "num_leaves") num_leaves /\ says lines (bs "num_cat") num_cat /\
  let float_text := fun s x => parse_float s = Some x in
  lists lines (bs "leaf_value") float_text (tt_leaf_value a) /\
  (2 <= num_leaves ->
   lists lines (bs "left_child") int32_text (tt_left a) /\
   lists lines (bs "right_child") int32_text (tt_right a) /\
   lists lines (bs "decision_type") uint32_text (tt_decision a) /\
   lists lines (bs "split_feature") uint32_text (tt_feature a) /\
   lists lines (bs "threshold") float_text (tt_threshold a) /\
   if 0 <? num_cat
   then lists lines (bs "cat_threshold") uint32_text (tt_cat_threshold a) /\
        lists lines (bs "cat_boundaries") uint32_text (tt_cat_boundaries a)
   else tt_cat_threshold a = [] /\ tt_cat_boundaries a = []).

(** the arrays describe a proper tree with [num_leaves] leaves at most: starting from node 0
    no inner node is met twice and all are among the first num_leaves - 1 *)
Definition proper (to_int32 : f64 -> Z) (num_leaves : Z) (a : text_tree) (d : dtree) : Prop :=
  exists ids w, describes to_int32 a 0 d ids w /\ NoDup ids /\ (forall i, In i ids -> i < num_leaves - 1) /\
                w < 2 ^ 32 /\ num_leaves <= 2 ^ 31 /\ zlen (tt_cat_boundaries a) <= 2 ^ 32.
