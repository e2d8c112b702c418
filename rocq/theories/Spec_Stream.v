(** * Streams that arrive in pieces: what the theorems in Prop_Stream.v talk about *)

From Coq Require Import List.
From Verif Require Import Go GoText Stream.

(** the bytes that a stream delivers in all *)
Definition delivers (s : source) : bytes := List.concat (src_pieces s).

(** the stream never returns nothing, without an error, [n] times in a row *)
Definition patient (n : nat) (s : source) : Prop :=
  forall before after, src_pieces s <> before ++ repeat [] n ++ after.

(** the same, except that the last of the [n] calls may come with the final error *)
Definition lasting (n : nat) (s : source) : Prop :=
  forall before after, src_pieces s = before ++ repeat [] n ++ after -> src_with_data s = true /\ after = [].

(** the same value, and the same bytes left to read *)
Definition same_result {A : Type} (x : outcome (A * bufr)) (y : outcome (A * reader)) : Prop :=
  match x, y with
  | Ok (a, b), Ok (a', r) => a = a' /\ contents b = rd_bytes r
  | Err m, Err m' => m = m'
  | Panic m, Panic m' => m = m'
  | Hang, Hang => True
  | _, _ => False
  end.

(** [n] calls one after the other, each where the last one stopped *)
Fixpoint batches {A R : Type} (read : R -> outcome (A * R)) (n : nat) (r : R) : outcome (list A * R) :=
  match n with
  | O => Ok ([], r)
  | S n' => let* (x, r) := read r in let* (xs, r) := batches read n' r in Ok (x :: xs, r)
  end.

(** the pieces before the first empty one *)
Fixpoint until_stall (pieces : list bytes) : list bytes :=
  match pieces with
  | [] => []
  | [] :: _ => []
  | c :: rest => c :: until_stall rest
  end.
(** the same result, but for the text of an error *)
Definition same_verdict {A : Type} (x y : outcome A) : Prop :=
  match x, y with Err _, Err _ => True | _, _ => x = y end.
