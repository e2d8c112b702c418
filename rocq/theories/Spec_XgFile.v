(** * XGBoost model files *)

From Coq Require Import ZArith List Bool String.
From Verif Require Import Go GoFloat GoText Transformation XgBin Spec_Tree Spec_XgBin Spec_XgTree.
Local Open Scope Z_scope.

(** a tree model file: header, trees, and the tree weights if the booster is dart *)
Definition is_dart (h : ModelHeader) : bool := beqb (mhNameGbm h) (bs "dart").
Definition e_xg_file (h : ModelHeader) (m : GBTreeModel) (leaf_vectors : list (list Z)) (weights : list Z) : bytes :=
  e_header h ++ e_gbtree m leaf_vectors ++ (if is_dart h then e_vector weights else []).
(** every field of it can be written *)
Definition xg_file_ok (alloc : Z) (h : ModelHeader) (m : GBTreeModel) (leaf_vectors : list (list Z)) (weights : list Z) : Prop :=
  header_ok_x alloc h /\ gbtree_ok alloc m leaf_vectors /\ Forall uint32 weights /\ vector_ok alloc (zlen weights).

(** a linear model file *)
Definition e_xgl_file (h : ModelHeader) (m : GBLinearModel) : bytes := e_header h ++ e_gblinear m.
Definition xgl_file_ok (alloc : Z) (h : ModelHeader) (m : GBLinearModel) : Prop := header_ok_x alloc h /\ gblinear_ok alloc m.

Section Says.
Variables (h : ModelHeader) (m : GBTreeModel) (weights : list Z).
Let q := gmParam m.

(** what a model has to satisfy: a supported booster, at least one feature and one tree, the
    trees going round the output groups, and one weight per tree for dart *)
Record xg_says (load : bool) (xts : list xtree) : Prop := {
  xs_booster : mhNameGbm h = bs "gbtree" \/ mhNameGbm h = bs "dart";
  xs_features : 1 <= lmNumFeatures (mhParam h) < 2 ^ 31;
  xs_features' : gpNumFeature q <= lmNumFeatures (mhParam h);
  xs_trees : 1 <= gpNumTrees q;
  xs_roots : gpNumRoots q = 1;
  xs_groups : 1 <= gpNumOutputGroup q;
  xs_info : forall i, 0 <= i < gpNumTrees q -> zget (gmTreeInfo m) i = Some (i mod gpNumOutputGroup q);
  xs_weights : is_dart h = true -> zlen weights = gpNumTrees q;
  xs_objective : load = true -> mhNameObj h = bs "binary:logistic";
  xs_each : Forall2 (xtree_says (lmNumFeatures (mhParam h))) (gmTrees m) xts }.
End Says.

(** weight of tree [i] *)
Definition weight (h : ModelHeader) (weights : list Z) (i : Z) : option f64 :=
  if is_dart h then option_map f64_of_f32bits (zget weights i) else Some fone.

Definition xg_model_name (h : ModelHeader) : bytes := if is_dart h then bs "xgboost.dart" else bs "xgboost.gbtree".

(** the outputs of the first [n] reference trees of group [k] of [g] *)
Definition reference_outputs (ds : list dtree) (g k n : Z) (x vs : list f64) : Prop :=
  zlen vs = n /\ forall i, 0 <= i < n -> exists d v leaf,
    zget ds (i * g + k) = Some d /\ walk d x = Some (v, leaf) /\ zget vs i = Some v.
