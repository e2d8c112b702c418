(** * What a LightGBM text file says *)

From Coq Require Import ZArith List Bool.
From Verif Require Import Go GoFloat GoText Transformation Spec_LgText Spec_Tree.
Local Open Scope Z_scope.

(** the fields of the header that matter *)
Record header_says (kvs : list (bytes * bytes)) (groups max_feature_idx trees : Z) (average : bool) : Prop := {
  hs_version : last_value kvs (bs "version") = Some (bs "v2") \/ last_value kvs (bs "version") = Some (bs "v3");
  hs_num_class : says kvs (bs "num_class") groups;
  hs_per_iteration : says kvs (bs "num_tree_per_iteration") groups;
  hs_groups : 1 <= groups;
  hs_max_feature : says kvs (bs "max_feature_idx") max_feature_idx;
  hs_tree_sizes : exists v sizes, last_value kvs (bs "tree_sizes") = Some v /\ parts sp v sizes /\ trees = zlen sizes;
  hs_multiple : exists k, trees = k * groups;
  hs_average : average = true <-> exists v, last_value kvs (bs "average_output") = Some v }.

(** the output transformation an objective string stands for *)
Inductive objective_means (groups : Z) : bytes -> transform -> Prop :=
| om_exponential : forall o, In o [bs "poisson"; bs "gamma"; bs "tweedie"] -> objective_means groups o TransformExponential
| om_regression : forall s, objective_means groups (bs "regression" ++ s) (TransformRaw groups)
| om_binary : forall v, int64_text v 1 -> objective_means groups (bs "binary sigmoid:" ++ v) TransformLogistic
| om_multiclass : forall v, int64_text v groups -> objective_means groups (bs "multiclass num_class:" ++ v) (TransformSoftmax groups).

(** the transformation of the loaded model: the objective counts only on request and never
    for models that average *)
Definition transform_says (kvs : list (bytes * bytes)) (load average : bool) (groups : Z) (t : transform) : Prop :=
  if load && negb average
  then exists o, last_value kvs (bs "objective") = Some o /\ objective_means groups o t
  else t = TransformRaw groups.

(** the block of one tree means the tree [d] *)
Definition tree_says (parse_float : bytes -> option f64) (to_int32 : f64 -> Z) (kvs : list (bytes * bytes))
  (num_leaves : Z) (d : dtree) : Prop :=
  exists num_cat a, text_block parse_float kvs num_leaves num_cat a /\
    ((num_leaves = 1 /\ exists v rest, tt_leaf_value a = v :: rest /\ d = DLeaf 0 v) \/
     (2 <= num_leaves /\ proper to_int32 num_leaves a d)).
