(** * Specification: one class of a model, taken out as a model of its own *)

From Coq Require Import ZArith List.
From Verif Require Import Go GoFloat LgTree Transformation Ensembles Leaves Spec_Predict.

(** [e1] is the one-output raw model made of what [e] holds for its class [k]: as many
    estimators; estimator [i] is the tree of class [k] in estimator [i] of [e] (with its
    weight, for XGBoost); for a linear model, column [k] of the weights. Everything else
    (features, averaging, base score) is the same. *)
Definition one_class (e : Ensemble) (k : Z) (e1 : Ensemble) : Prop :=
  0 <= k < NRawOutputGroups e /\
  NRawOutputGroups e1 = 1 /\ eTransform e1 = TransformRaw 1 /\
  NEstimators e1 = NEstimators e /\ NFeatures e1 = NFeatures e /\
  match core (eBase e), core (eBase e1) with
  | BLg m, BLg m1 =>
      lgAverageOutput m1 = lgAverageOutput m /\
      forall n i, NEstimators e = Ok n -> 0 <= i < n ->
        zget (lgTrees m1) i = zget (lgTrees m) (i * NRawOutputGroups e + k)
  | BXg m, BXg m1 =>
      xgBaseScore m1 = xgBaseScore m /\
      forall n i, NEstimators e = Ok n -> 0 <= i < n ->
        zget (xgTrees m1) i = zget (xgTrees m) (i * NRawOutputGroups e + k) /\
        zget (xgWeightDrop m1) i = zget (xgWeightDrop m) (i * NRawOutputGroups e + k)
  | BLinear m, BLinear m1 =>
      xlBaseScore m1 = xlBaseScore m /\
      forall i, 0 <= i <= xlNumFeature m ->
        zget (xlWeights m1) i = zget (xlWeights m) (i * NRawOutputGroups e + k)
  | _, _ => False
  end.

(** the weight table of a linear model is one a program can hold *)
Definition table_fits (e : Ensemble) : Prop :=
  match core (eBase e) with
  | BLinear m => 0 <= xlNumFeature m /\ NRawOutputGroups e * (xlNumFeature m + 1) <= MaxInt
  | _ => True
  end.
