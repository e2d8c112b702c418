(** * Vocabulary for fused multiply-add *)

From Coq Require Import ZArith List Bool Reals.
From Verif Require Import Go GoFloat LgTree Transformation Ensembles Leaves Spec_Predict Spec_Split Fused.
Import ListNotations.

(** the product of two float64 numbers is a float64 number *)
Definition exact_product (x y : f64) : Prop :=
  finite64 x = true -> finite64 y = true -> finite64 (fmul x y) = true /\ real (fmul x y) = (real x * real y)%R.

(** x is an integer of at most 29 bits: a count, an index, an indicator 0 or 1 *)
Definition small_integer (x : f64) : Prop := exists z, Z.abs z <= 2 ^ 29 /\ x = f64_of_Z z.

(** the float64 values stored in trees are float64 values *)
Definition valid_trees (trees : list lgTree) : Prop :=
  Forall (fun t => Forall (fun v => valid64 v = true) (tLeafValues t)) trees.

(** all products of a prediction are exact: the trees have coefficient one, or the linear model is
    applied to small integers *)
Definition plain_products (e : Ensemble) (fvals : list f64) : Prop :=
  match core (eBase e) with
  | BLg m => lgAverageOutput m = false /\ valid_trees (lgTrees m)
  | BXg m => Forall (fun w => w = fone) (xgWeightDrop m) /\ valid64 (xgBaseScore m) = true /\ valid_trees (xgTrees m)
  | BLinear m => valid64 (xlBaseScore m) = true /\ Forall small_integer fvals
  | BEnsemble _ _ => False
  end.

(** [r] is a possible result of adding the products to [a] one after the other, where each
    addition is done with one rounding or with two *)
Inductive accumulated : f64 -> list (f64 * f64) -> f64 -> Prop :=
| acc_none : forall a, accumulated a [] a
| acc_two : forall a x y l r, accumulated (fadd a (fmul x y)) l r -> accumulated a ((x, y) :: l) r
| acc_one : forall a x y l r, accumulated (ffma x y a) l r -> accumulated a ((x, y) :: l) r.
