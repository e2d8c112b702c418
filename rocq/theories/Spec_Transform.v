(** * Reference formulas of the output transformations *)

From Coq Require Import ZArith List Bool.
From Verif Require Import Go GoFloat Spec_Predict.

(** logistic function, in float64 arithmetic *)
Definition logistic_of (p : platform) (r : f64) : f64 :=
  fdiv fone (fadd fone (pl_exp p (fneg r))).

(** the sum of the exponentials, left to right *)
Definition exp_sum (p : platform) (raws : list f64) : f64 := sum_from fzero (map (pl_exp p) raws).

(** softmax output of a raw score [r] among [raws]: its exponential times the inverse of
    the sum (left unscaled when the sum is zero) *)
Definition softmax_of (p : platform) (raws : list f64) (r : f64) : f64 :=
  if feq (exp_sum p raws) fzero then pl_exp p r else fmul (pl_exp p r) (fdiv fone (exp_sum p raws)).
