(** * Concrete platforms and small models

    Used only to show that the hypotheses of theorems can be met and as refutation
    witnesses; no theorem quantified over platforms depends on this file. *)

From Coq Require Import ZArith List Bool String.
From Verif Require Import Go GoFloat GoText Cmd LgTree Transformation Ensembles Leaves.

(** amd64: CVTTSD2SL yields 0x80000000 for NaN and out of range values; uint32 goes
    through the 64-bit conversion *)
Definition amd64_f2i32 (_ : f64) : Z := - two31.
Definition amd64_f2u32 (x : f64) : Z :=
  match trunc x with
  | Some z => if (- two63 <=? z) && (z <? two63) then z else 0
  | None => 0
  end.
(** arm64: FCVTZS/FCVTZU saturate, NaN gives 0 *)
Definition arm64_f2i32 (x : f64) : Z :=
  match x with
  | SpecFloat.S754_nan => 0
  | SpecFloat.S754_zero _ => 0
  | SpecFloat.S754_infinity s => if s then - two31 else two31 - 1
  | SpecFloat.S754_finite s _ _ => if s then - two31 else two31 - 1
  end.
Definition arm64_f2u32 (x : f64) : Z :=
  match x with
  | SpecFloat.S754_nan => 0
  | SpecFloat.S754_zero _ => 0
  | SpecFloat.S754_infinity s => if s then 0 else two32 - 1
  | SpecFloat.S754_finite s _ _ => if s then 0 else two32 - 1
  end.

(** a stand-in for math.Exp: 1 for every finite argument, the limits at infinity *)
Definition toy_exp (x : f64) : f64 :=
  match x with
  | SpecFloat.S754_nan => fnan
  | SpecFloat.S754_infinity s => if s then fzero else finf
  | _ => fone
  end.

Definition amd64 : platform :=
  mkPlatform amd64_f2i32 amd64_f2u32 toy_exp 4 (2 ^ 40) (fun _ => None) (fun _ => []) (fun c _ => 2 * c + 1).
Definition arm64 : platform :=
  mkPlatform arm64_f2i32 arm64_f2u32 toy_exp 8 (2 ^ 40) (fun _ => None) (fun _ => []) (fun c _ => 2 * c + 1).

Definition fint (z : Z) : f64 := f64_of_Z z.

(** one split on feature [f] at [thr], two leaves *)
Definition stump (f : Z) (thr l r : f64) : lgTree :=
  mkTree [mkNode thr 0 1 f (Z.lor leftLeaf rightLeaf)] [l; r] [] [] 0.

(** two splits: feature 0 at 0, then feature 1 at 5 on the right *)
Definition tree3 (a b c : f64) : lgTree :=
  mkTree [mkNode fzero 0 1 0 leftLeaf; mkNode (fint 5) 1 2 1 (Z.lor leftLeaf rightLeaf)]
         [a; b; c] [] [] 0.

(** LightGBM-like, two classes, two estimators, two features *)
Definition demo_lg : lgEnsemble :=
  mkLgEnsemble [stump 0 (fint 1) (fint 10) (fint 20); tree3 (fint 1) (fint 2) (fint 3);
                tree3 (fint 4) (fint 5) (fint 6); stump 1 (fint 3) (fint 7) (fint 8)]
               1 2 (bs "lightgbm.gbdt") false.
Definition demo_raw : Ensemble := mkEnsemble (BLg demo_lg) (TransformRaw 2).
Definition demo_softmax : Ensemble := mkEnsemble (BLg demo_lg) (TransformSoftmax 2).

(** XGBoost-like, one class, two weighted estimators *)
Definition demo_xg : xgEnsemble :=
  mkXgEnsemble [stump 0 (fint 1) (fint 10) (fint 20); tree3 (fint 1) (fint 2) (fint 3)]
               1 1 (fint 3) [fint 1; fint 2] (bs "xgboost.dart").
Definition demo_logistic : Ensemble := mkEnsemble (BXg demo_xg) TransformLogistic.

(** gblinear, two features, two groups; the weights are the float32 patterns of
    1 2 3 4 and biases 5 6 *)
Definition demo_linear : xgLinear :=
  mkXgLinear 2 2 (fint 1) [1065353216; 1073741824; 1077936128; 1082130432; 1084227584; 1086324736].
Definition demo_lin : Ensemble := mkEnsemble (BLinear demo_linear) (TransformRaw 2).

(** 20 rows, two columns *)
Definition demo_vals : list f64 := map (fun k => fint (k mod 7 - 1)) (zseq 40).
Definition zeros (n : Z) : list f64 := repeat fzero (Z.to_nat n).
