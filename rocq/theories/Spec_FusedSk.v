(** * Vocabulary for scikit-learn models loaded with fused multiply-add *)

From Coq Require Import ZArith List Bool SpecFloat Reals.
From Verif Require Import Go GoFloat LgTree Transformation Ensembles Leaves Spec_Predict Spec_Split Fused.
Import ListNotations.

(** both succeed, with results related by [R], or both end in the same way *)
Inductive same_end {A : Type} (R : A -> A -> Prop) : outcome A -> outcome A -> Prop :=
| se_ok : forall a b, R a b -> same_end R (Ok a) (Ok b)
| se_err : forall m, same_end R (Err m) (Err m)
| se_panic : forall m, same_end R (Panic m) (Panic m)
| se_hang : same_end R Hang Hang.

(** leaf values [x] and [y] are both v*scale + base for the same v of [values], [x] with two
    roundings, [y] with two or with one *)
Definition leaf_choice (values : list f64) (scale base x y : f64) : Prop :=
  exists v, In v values /\ x = fadd (fmul v scale) base /\ (y = x \/ y = ffma v scale base).

(** the same tree but for its leaf values, which are related by [R] *)
Definition same_but_leaves (R : f64 -> f64 -> Prop) (t t' : lgTree) : Prop :=
  tNodes t' = tNodes t /\ tCatBoundaries t' = tCatBoundaries t /\ tCatThresholds t' = tCatThresholds t /\
  tNCategorical t' = tNCategorical t /\ Forall2 R (tLeafValues t) (tLeafValues t').

(** equal numbers; zeros may differ in their signs *)
Definition same_number (x y : f64) : Prop :=
  x = y \/ exists s s', x = S754_zero s /\ y = S754_zero s'.

(** the same model but for its trees, which are related by [R] (given their position) *)
Definition same_but_trees (R : Z -> lgTree -> lgTree -> Prop) (e e' : Ensemble) : Prop :=
  exists m m', e = mkEnsemble (BLg m) (eTransform e') /\ eBase e' = BLg m' /\
    lgMaxFeatureIdx m' = lgMaxFeatureIdx m /\ lgNRawOutputGroups m' = lgNRawOutputGroups m /\ lgName m' = lgName m /\
    lgAverageOutput m' = lgAverageOutput m /\
    zlen (lgTrees m') = zlen (lgTrees m) /\
    forall k t t', zget (lgTrees m) k = Some t -> zget (lgTrees m') k = Some t' -> R k t t'.
