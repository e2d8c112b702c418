(** * Vocabulary for rounding errors *)

From Coq Require Import ZArith List Reals.
From Flocq Require Import Core.Core.
Import ListNotations.
Local Open Scope R_scope.

(** half the distance from 1 to the next float64 *)
Definition unit_roundoff : R := bpow radix2 (-53).
(** half the smallest positive float64 *)
Definition half_tiny : R := bpow radix2 (-1075).
(** the relative error after [n] roundings *)
Definition growth (n : nat) : R := (1 + unit_roundoff) ^ n - 1.
(** sums of real numbers *)
Fixpoint Rsum (l : list R) : R := match l with [] => 0 | x :: l' => x + Rsum l' end.
