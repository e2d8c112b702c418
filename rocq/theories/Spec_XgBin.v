(** * The XGBoost binary model format

    Encoders written from the format (dmlc serializer, little endian, packed records),
    independent of the readers. *)

From Coq Require Import ZArith List Bool.
From Verif Require Import Go GoFloat GoText XgBin.
Local Open Scope Z_scope.

(** [n] bytes of [z], least significant first (two's complement when [z] is negative) *)
Fixpoint le (n : nat) (z : Z) : bytes :=
  match n with
  | O => []
  | S n' => byte_of_Z z :: le n' (z / 256)
  end.
Definition e4 (z : Z) : bytes := le 4 z.
Definition e8 (z : Z) : bytes := le 8 z.
Definition e4s (l : list Z) : bytes := flat_map e4 l.

(** a string or vector is preceded by its element count *)
Definition e_string (s : bytes) : bytes := e8 (zlen s) ++ s.
Definition e_vector (l : list Z) : bytes := e8 (zlen l) ++ e4s l.

Definition e_learner (m : LearnerModelParam) : bytes :=
  e4 (lmBaseScore m) ++ e4 (lmNumFeatures m) ++ e4 (lmNumClass m) ++ e4 (lmContainExtraAttrs m) ++
  e4 (lmContainEvalMetrics m) ++ e4s (lmReserved m).
Definition e_header (h : ModelHeader) : bytes :=
  e_learner (mhParam h) ++ e_string (mhNameObj h) ++ e_string (mhNameGbm h).

Definition e_node (n : xNode) : bytes :=
  e4 (xParent n) ++ e4 (xCLeft n) ++ e4 (xCRight n) ++ e4 (xSIndex n) ++ e4 (xInfo n).
Definition e_stat (s : xStat) : bytes :=
  e4 (xsLossChg s) ++ e4 (xsSumHess s) ++ e4 (xsBaseWeight s) ++ e4 (xsLeafChildCnt s).
Definition e_tree_param (q : TreeParam) : bytes :=
  e4 (tpNumRoots q) ++ e4 (tpNumNodes q) ++ e4 (tpNumDeleted q) ++ e4 (tpMaxDepth q) ++
  e4 (tpNumFeature q) ++ e4 (tpSizeLeafVector q) ++ e4s (tpReserved q).
(** [leaf_vector] is only present when size_leaf_vector is positive *)
Definition e_tree (t : TreeModel) (leaf_vector : list Z) : bytes :=
  e_tree_param (tmParam t) ++ flat_map e_node (tmNodes t) ++ flat_map e_stat (tmStats t) ++
  (if 0 <? tpSizeLeafVector (tmParam t) then e_vector leaf_vector else []).

Definition e_gbtree_param (q : GBTreeModelParam) : bytes :=
  e4 (gpNumTrees q) ++ e4 (gpNumRoots q) ++ e4 (gpNumFeature q) ++ e4 (gpPad32bit q) ++
  e8 (gpNumPbufferDeprecated q) ++ e4 (gpNumOutputGroup q) ++ e4 (gpSizeLeafVector q) ++ e4s (gpReserved q).
Definition e_gbtree (m : GBTreeModel) (leaf_vectors : list (list Z)) : bytes :=
  e_gbtree_param (gmParam m) ++
  flat_map (fun tv => e_tree (fst tv) (snd tv)) (combine (gmTrees m) leaf_vectors) ++
  e4s (gmTreeInfo m).

Definition e_gblinear_param (q : GBLinearModelParam) : bytes :=
  e4 (glNumFeature q) ++ e4 (glNumOutputGroup q) ++ e4s (glReserved q).
Definition e_gblinear (m : GBLinearModel) : bytes := e_gblinear_param (blParam m) ++ e_vector (blWeights m).

(** ** Values of the field types; [alloc] is the largest vector that can be allocated *)
Definition int32 (z : Z) : Prop := - 2 ^ 31 <= z < 2 ^ 31.
Definition uint32 (z : Z) : Prop := 0 <= z < 2 ^ 32.
Definition int64 (z : Z) : Prop := - 2 ^ 63 <= z < 2 ^ 63.
(** a vector of [n] elements can be written and allocated *)
Definition vector_ok (alloc : Z) (n : Z) : Prop := n < 2 ^ 64 /\ n <= alloc.

Definition learner_ok (m : LearnerModelParam) : Prop :=
  uint32 (lmBaseScore m) /\ uint32 (lmNumFeatures m) /\ int32 (lmNumClass m) /\ int32 (lmContainExtraAttrs m) /\
  int32 (lmContainEvalMetrics m) /\ Forall int32 (lmReserved m) /\ List.length (lmReserved m) = 29%nat.
Definition header_ok_x (alloc : Z) (h : ModelHeader) : Prop :=
  learner_ok (mhParam h) /\ vector_ok alloc (zlen (mhNameObj h)) /\ vector_ok alloc (zlen (mhNameGbm h)).
Definition node_ok (n : xNode) : Prop :=
  int32 (xParent n) /\ int32 (xCLeft n) /\ int32 (xCRight n) /\ uint32 (xSIndex n) /\ uint32 (xInfo n).
Definition stat_ok (s : xStat) : Prop :=
  uint32 (xsLossChg s) /\ uint32 (xsSumHess s) /\ uint32 (xsBaseWeight s) /\ int32 (xsLeafChildCnt s).
Definition tree_param_ok (q : TreeParam) : Prop :=
  int32 (tpNumRoots q) /\ int32 (tpNumNodes q) /\ int32 (tpNumDeleted q) /\ int32 (tpMaxDepth q) /\
  int32 (tpNumFeature q) /\ int32 (tpSizeLeafVector q) /\ Forall int32 (tpReserved q) /\ List.length (tpReserved q) = 31%nat.
Definition tree_ok_x (alloc : Z) (t : TreeModel) (leaf_vector : list Z) : Prop :=
  tree_param_ok (tmParam t) /\ Forall node_ok (tmNodes t) /\ Forall stat_ok (tmStats t) /\
  zlen (tmNodes t) = tpNumNodes (tmParam t) /\ zlen (tmStats t) = tpNumNodes (tmParam t) /\
  tpNumNodes (tmParam t) <= alloc /\ Forall uint32 leaf_vector /\ vector_ok alloc (zlen leaf_vector).
Definition gbtree_param_ok (q : GBTreeModelParam) : Prop :=
  int32 (gpNumTrees q) /\ int32 (gpNumRoots q) /\ int32 (gpNumFeature q) /\ int32 (gpPad32bit q) /\
  int64 (gpNumPbufferDeprecated q) /\ int32 (gpNumOutputGroup q) /\ int32 (gpSizeLeafVector q) /\
  Forall int32 (gpReserved q) /\ List.length (gpReserved q) = 32%nat.
Definition gbtree_ok (alloc : Z) (m : GBTreeModel) (leaf_vectors : list (list Z)) : Prop :=
  gbtree_param_ok (gmParam m) /\ Forall2 (tree_ok_x alloc) (gmTrees m) leaf_vectors /\
  zlen (gmTrees m) = gpNumTrees (gmParam m) /\ zlen (gmTreeInfo m) = gpNumTrees (gmParam m) /\
  Forall int32 (gmTreeInfo m) /\ gpNumTrees (gmParam m) <= alloc.
Definition gblinear_ok (alloc : Z) (m : GBLinearModel) : Prop :=
  uint32 (glNumFeature (blParam m)) /\ int32 (glNumOutputGroup (blParam m)) /\ Forall int32 (glReserved (blParam m)) /\
  List.length (glReserved (blParam m)) = 32%nat /\ Forall uint32 (blWeights m) /\ vector_ok alloc (zlen (blWeights m)).
