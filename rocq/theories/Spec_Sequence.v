(** * Models one after another in a stream *)

From Coq Require Import ZArith List.
From Verif Require Import Go GoFloat GoText Ensembles Leaves.

(** [text] is a model by itself: whatever comes behind it, and however the stream ends, the model
    is the same and exactly the text is gone *)
Definition self_ended {A : Type} (load : reader -> outcome (A * reader)) (text : bytes) (e : A) : Prop :=
  forall rest eof, load (mkReader (text ++ rest) eof) = Ok (e, mkReader rest eof).

(** the loaders called in turn on one stream: the models, and the stream as it is left *)
Inductive in_turn {A : Type} : list (reader -> outcome (A * reader)) -> reader -> list A -> reader -> Prop :=
| it_none : forall r, in_turn [] r [] r
| it_next : forall load loads r e r' es r'', load r = Ok (e, r') -> in_turn loads r' es r'' -> in_turn (load :: loads) r (e :: es) r''.
