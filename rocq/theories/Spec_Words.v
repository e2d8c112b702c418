(** * Integers and separated words in a text *)

From Coq Require Import ZArith List Bool.
From Verif Require Import Go GoText.
Local Open Scope Z_scope.

(** ** Decimal integers *)
Definition digit_says (c : byte) (d : Z) : Prop := 0 <= d <= 9 /\ byteZ c = byteZ "0"%byte + d.
(** digits, the most significant one first *)
Inductive natural : bytes -> Z -> Prop :=
| nat_one : forall c d, digit_says c d -> natural [c] d
| nat_more : forall s n c d, natural s n -> digit_says c d -> natural (s ++ [c]) (10 * n + d).
Inductive integer : bytes -> Z -> Prop :=
| int_plain : forall s n, natural s n -> integer s n
| int_plus : forall s n, natural s n -> integer ("+"%byte :: s) n
| int_minus : forall s n, natural s n -> integer ("-"%byte :: s) (- n).

(** integers that fit in a type *)
Definition int64_text (s : bytes) (z : Z) : Prop := integer s z /\ - 2 ^ 63 <= z < 2 ^ 63.
Definition int32_text (s : bytes) (z : Z) : Prop := integer s z /\ - 2 ^ 31 <= z < 2 ^ 31.
Definition uint32_text (s : bytes) (z : Z) : Prop := natural s z /\ z < 2 ^ 32.

(** ** Words *)

(** [ts] are the parts of [s] between the separators [c] *)
Definition parts (c : byte) (s : bytes) (ts : list bytes) : Prop :=
  ts <> [] /\ Forall (fun t => ~ In c t) ts /\
  s = match ts with [] => [] | t :: ts => t ++ flat_map (fun t => c :: t) ts end.

(** the same for a separator of several bytes: every word ends where the separator occurs first *)
Inductive pieces (sep : bytes) : bytes -> list bytes -> Prop :=
| pc_last : forall s, (forall a b, s <> a ++ sep ++ b) -> pieces sep s [s]
| pc_more : forall t rest ts,
    (forall a b, t ++ sep ++ rest = a ++ sep ++ b -> (List.length t <= List.length a)%nat) ->
    pieces sep rest ts -> pieces sep (t ++ sep ++ rest) (t :: ts).
