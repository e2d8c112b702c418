(** * Raw numpy data

    Encoders written from the formats: IEEE 754 double precision and the record of sklearn's
    tree nodes. *)

From Coq Require Import ZArith List Bool Floats.SpecFloat.
From Verif Require Import Go GoFloat GoText SkClasses Spec_XgBin.
Local Open Scope Z_scope.

(** the bit pattern of a double; NaN as the canonical quiet NaN *)
Definition sign_bit (s : bool) : Z := if s then 2 ^ 63 else 0.
Definition f64_bits (x : f64) : Z :=
  match x with
  | S754_zero s => sign_bit s
  | S754_infinity s => sign_bit s + 2047 * 2 ^ 52
  | S754_nan => 2047 * 2 ^ 52 + 2 ^ 51
  | S754_finite s m e =>
      if Z.pos m <? 2 ^ 52 then sign_bit s + Z.pos m                     (* subnormal *)
      else sign_bit s + (e + 1075) * 2 ^ 52 + (Z.pos m - 2 ^ 52)
  end.

(** 8 bytes in the given byte order *)
Definition ordered (little : bool) (b : bytes) : bytes := if little then b else rev b.
Definition e_f64 (little : bool) (x : f64) : bytes := ordered little (e8 (f64_bits x)).

(** a node of sklearn's tree: a packed record of seven 8-byte fields (numpy type V56) *)
Definition e_sknode (n : SklearnNode) : bytes :=
  e8 (skLeftChild n) ++ e8 (skRightChild n) ++ e8 (skFeature n) ++ e_f64 true (skThreshold n) ++
  e_f64 true (skImpurity n) ++ e8 (skNNodeSamples n) ++ e_f64 true (skWeightedNNodeSamples n).
Definition sknode_ok (n : SklearnNode) : Prop :=
  int64 (skLeftChild n) /\ int64 (skRightChild n) /\ int64 (skFeature n) /\ int64 (skNNodeSamples n) /\
  valid64 (skThreshold n) = true /\ valid64 (skImpurity n) = true /\ valid64 (skWeightedNNodeSamples n) = true.
