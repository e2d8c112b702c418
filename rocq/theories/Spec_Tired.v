(** * Streams that stall for so long that bufio.Reader gives up: what the theorems in Prop_Tired.v talk about *)

From Coq Require Import List Bool.
From Verif Require Import Go GoText Stream Spec_Stream.

(** the pieces [before] come, and then, for the first time, 100 calls in a row return neither
    bytes nor an error *)
Definition gives_up (s : source) (before : list bytes) : Prop :=
  exists after, src_pieces s = before ++ repeat [] 100 ++ after /\
  patient 100 (mkSource (before ++ repeat [] 99) (src_with_data s) (src_eof s)) /\
  (src_with_data s = true -> after <> []).

(** the same result; if there is one, it does not matter what is left to read *)
Definition same_value {A B C : Type} (x : outcome (A * B)) (y : outcome (A * C)) : Prop :=
  (let* (a, _) := x in Ok a) = (let* (a, _) := y in Ok a).
