(** * Vocabulary for how close predicted probabilities are to the mathematical ones *)

From Coq Require Import ZArith List Bool Reals.
From Coq Require Import Floats.SpecFloat.
From Flocq Require Import Core.Core.
From Verif Require Import Go GoFloat Spec_Split Spec_Round.
Local Open Scope R_scope.

(** [y] is [exp x] up to a relative error [eps]; results below the normal range may lose
    everything and results of at least 2^1023 may be infinite *)
Definition exp_near (eps x : R) (y : f64) : Prop :=
  match y with
  | S754_infinity false => bpow radix2 1023 <= exp x
  | S754_infinity true | S754_nan => False
  | _ => Rabs (real y - exp x) <= eps * exp x + bpow radix2 (-1022)
  end.

(** the platform's [math.Exp] has relative error [eps] *)
Definition accurate_exp (p : platform) (eps : R) : Prop :=
  forall x, valid64 x = true -> finite64 x = true -> exp_near eps (real x) (pl_exp p x).

(** the mathematical functions *)
Definition sigmoid (x : R) : R := / (1 + exp (- x)).
Definition softmax (xs : list R) (x : R) : R := exp x / Rsum (map exp xs).
