(** * Vocabulary for models whose features have other numbers *)

From Coq Require Import ZArith List.
From Verif Require Import Go GoFloat LgTree Ensembles Leaves Spec_Predict.
Local Open Scope Z_scope.

(** the same tree, but what was feature [f] is feature [r f] *)
Definition rename_node (r : Z -> Z) (n : lgNode) : lgNode :=
  mkNode (nThreshold n) (nLeft n) (nRight n) (r (nFeature n)) (nFlags n).
Definition rename_tree (r : Z -> Z) (t : lgTree) : lgTree :=
  mkTree (map (rename_node r) (tNodes t)) (tLeafValues t) (tCatBoundaries t) (tCatThresholds t) (tNCategorical t).

(** the second model is the first with renumbered features; transformation, weights and everything
    else but the number of features are the same *)
Inductive renamed_base (r : Z -> Z) : base -> base -> Prop :=
| rn_lg : forall m m', lgTrees m' = map (rename_tree r) (lgTrees m) -> lgNRawOutputGroups m' = lgNRawOutputGroups m ->
    lgAverageOutput m' = lgAverageOutput m -> renamed_base r (BLg m) (BLg m')
| rn_xg : forall m m', xgTrees m' = map (rename_tree r) (xgTrees m) -> xgNRawOutputGroups m' = xgNRawOutputGroups m ->
    xgBaseScore m' = xgBaseScore m -> xgWeightDrop m' = xgWeightDrop m -> renamed_base r (BXg m) (BXg m')
| rn_view : forall b b' t, renamed_base r b b' -> renamed_base r (BEnsemble b t) (BEnsemble b' t).
Definition renamed (r : Z -> Z) (e e' : Ensemble) : Prop := renamed_base r (eBase e) (eBase e') /\ eTransform e' = eTransform e.

(** the trees of a model *)
Definition trees_of (e : Ensemble) : list lgTree :=
  match core (eBase e) with BLg m => lgTrees m | BXg m => xgTrees m | _ => nil end.
(** [y] has at [r f] what [x] has at [f], for all features the model asks for *)
Definition moved (r : Z -> Z) (e : Ensemble) (x y : list f64) : Prop :=
  forall t n, In t (trees_of e) -> In n (tNodes t) -> zget y (r (nFeature n)) = zget x (nFeature n).
