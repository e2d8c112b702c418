(** * Decimal numerals

    A printer of integers, as Python's str() and Go's strconv write them. *)

From Coq Require Import ZArith List Bool.
From Verif Require Import Go GoText.
Local Open Scope Z_scope.

Definition numeral_digit (d : Z) : byte := byte_of_Z (48 + d).

(** the digits of [n], at most [fuel] of them, before [acc] *)
Fixpoint digits_of (fuel : nat) (n : Z) (acc : bytes) : bytes :=
  match fuel with
  | O => acc
  | S fuel' => if n <? 10 then numeral_digit n :: acc else digits_of fuel' (n / 10) (numeral_digit (n mod 10) :: acc)
  end.

(** a number has at most as many decimal digits as binary digits *)
Definition decimal_nat (n : Z) : bytes := digits_of (S (Z.to_nat (Z.log2 n))) n [].
Definition decimal (z : Z) : bytes := if z <? 0 then "-"%byte :: decimal_nat (- z) else decimal_nat z.
