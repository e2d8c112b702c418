(** * Bitsets as sets of numbers

    A bitset is a list of 32-bit words; bit k lives in word k/32 at position k mod 32. *)

From Coq Require Import ZArith List Bool.
From Verif Require Import Go.

Definition word (w : Z) : Prop := 0 <= w < 2 ^ 32.

(** bit [k] of the bitset *)
Definition bit (bitset : list Z) (k : Z) : bool :=
  match zget bitset (k / 32) with
  | Some w => Z.testbit w (k mod 32)
  | None => false
  end.

(** number of set bits *)
Definition count_bits (bitset : list Z) : Z :=
  zlen (filter (bit bitset) (zseq (32 * zlen bitset))).
