(** * Reference meaning of split rules

    What a split node of a decision tree is supposed to do, in terms of real numbers
    and sets of categories; no reference to the implementation's flags or encodings. *)

From Coq Require Import ZArith List Bool Reals.
From Coq Require Import Floats.SpecFloat.
From Flocq Require Import Core.Core IEEE754.BinarySingleNaN.
From Verif Require Import Go GoFloat.

(** how a node treats missing values: not at all, zero means missing, NaN means missing *)
Inductive missing : Type := MNone | MZero | MNan.

(** a float64 is finite *)
Definition finite64 (v : f64) : bool := match v with S754_zero _ | S754_finite _ _ _ => true | _ => false end.
(** real value of a finite float64 *)
Definition real (v : f64) : R := SF2R radix2 v.

(** the order of float64 values: NaN is unordered, infinities are the extremes *)
Definition le64 (a b : f64) : Prop :=
  match a, b with
  | S754_nan, _ | _, S754_nan => False
  | S754_infinity true, _ => True
  | _, S754_infinity false => True
  | S754_infinity false, _ => False
  | _, S754_infinity true => False
  | _, _ => (real a <= real b)%R
  end.

(** LightGBM's zero threshold 1e-35 (the float64 nearest to it) *)
Definition tiny : R := (IZR 7482888383134223 * bpow radix2 (-169))%R.

Definition nan_to_zero (v : f64) : f64 := if is_nan v then fzero else v.

Definition is_missing (m : missing) (v : f64) : Prop :=
  match m with
  | MNone => False
  | MZero => finite64 (nan_to_zero v) = true /\ (- tiny < real (nan_to_zero v) <= tiny)%R
  | MNan => is_nan v = true
  end.

(** the numerical rule: missing values take the default direction, everything else is
    compared with the threshold, NaN counting as zero *)
Definition numeric_rule (m : missing) (default_left : bool) (threshold v : f64) (goes_left : bool) : Prop :=
  (is_missing m v -> goes_left = default_left) /\
  (~ is_missing m v -> (goes_left = true <-> le64 (nan_to_zero v) threshold)).

(** the same rule as a function *)
Definition numeric_left (m : missing) (default_left : bool) (threshold v : f64) : bool :=
  match m with
  | MNone => fle (nan_to_zero v) threshold
  | MZero =>
      let w := nan_to_zero v in
      let t := S754_finite false 7482888383134223 (-169) in
      if flt (fneg t) w && fle w t then default_left else fle w threshold
  | MNan => if is_nan v then default_left else fle v threshold
  end.

(** the categorical rule: left iff the integer part is in the set; negative integer parts
    go right; NaN goes right if it means missing, and else counts as category 0 unless
    the platform's conversion of NaN is negative.  [to_int32] is the platform's conversion. *)
Definition category_left (to_int32 : f64 -> Z) (m : missing) (cats : Z -> bool) (v : f64) : bool :=
  if to_int32 v <? 0 then false
  else if is_nan v then match m with MNan => false | _ => cats 0 end
  else cats (to_int32 v).
