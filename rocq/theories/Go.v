(** * Go primitives used by every model file.

    This file models the Go language itself (run-time panics, fixed width
    integers, bounds-checked slices), not code of the repository. *)

From Coq Require Export ZArith List Bool String.
From Coq Require Import Lia.
Export ListNotations.

Open Scope Z_scope.

(** ** Outcomes

    [Ok a]    normal return of the value;
    [Err m]   normal return with a non-nil Go [error] (the formatted text is not
              modelled, [m] is a tag naming the error);
    [Panic m] run-time panic (index out of range, division by zero, ...);
    [Hang]    the call never returns. *)
Inductive outcome (A : Type) : Type :=
| Ok (a : A)
| Err (msg : string)
| Panic (msg : string)
| Hang.
Arguments Ok {A} a.
Arguments Err {A} msg.
Arguments Panic {A} msg.
Arguments Hang {A}.

Definition bind {A B : Type} (x : outcome A) (f : A -> outcome B) : outcome B :=
  match x with
  | Ok a => f a
  | Err m => Err m
  | Panic m => Panic m
  | Hang => Hang
  end.

Notation "'let*' x ':=' a 'in' b" := (bind a (fun x => b))
  (at level 61, x pattern, a at next level, right associativity).

Definition is_ok {A : Type} (x : outcome A) : bool :=
  match x with Ok _ => true | _ => false end.
Definition is_err {A : Type} (x : outcome A) : bool :=
  match x with Err _ => true | _ => false end.

(** ** Fixed width integers *)

Definition two32 : Z := 4294967296.
Definition two31 : Z := 2147483648.
Definition two63 : Z := 9223372036854775808.
Definition two64 : Z := 18446744073709551616.

(** conversion to uint32 / wrap-around of uint32 arithmetic *)
Definition u32 (z : Z) : Z := z mod two32.
(** conversion to uint8 *)
Definition u8 (z : Z) : Z := z mod 256.
(** conversion to int32 (two's complement) *)
Definition s32 (z : Z) : Z :=
  let m := z mod two32 in if m <? two31 then m else m - two32.
(** conversion to int / int64 (two's complement); also the wrap of [int]
    arithmetic on the 64-bit platforms modelled *)
Definition s64 (z : Z) : Z :=
  let m := z mod two64 in if m <? two63 then m else m - two64.

Definition MaxInt : Z := two63 - 1.

(** ** Slices

    A slice is the list of its elements; indices are Go ints.  [zget] is the
    bounds-checked read, [zset] the bounds-checked write. *)

Definition zlen {A : Type} (l : list A) : Z := Z.of_nat (List.length l).

Definition zget {A : Type} (l : list A) (i : Z) : option A :=
  if (i <? 0) || (zlen l <=? i) then None else nth_error l (Z.to_nat i).

Fixpoint set_nth {A : Type} (l : list A) (n : nat) (v : A) : list A :=
  match l, n with
  | [], _ => []
  | _ :: t, O => v :: t
  | h :: t, S n' => h :: set_nth t n' v
  end.

Definition zset {A : Type} (l : list A) (i : Z) (v : A) : option (list A) :=
  if (i <? 0) || (zlen l <=? i) then None else Some (set_nth l (Z.to_nat i) v).

(** read or panic *)
Definition at_ {A : Type} (l : list A) (i : Z) : outcome A :=
  match zget l i with
  | Some a => Ok a
  | None => Panic "index out of range"
  end.

Definition set_at {A : Type} (l : list A) (i : Z) (v : A) : outcome (list A) :=
  match zset l i v with
  | Some l' => Ok l'
  | None => Panic "index out of range"
  end.

(** [l[lo:hi]] of a slice whose capacity equals its length *)
Definition slice {A : Type} (l : list A) (lo hi : Z) : outcome (list A) :=
  if (lo <? 0) || (hi <? lo) || (zlen l <? hi) then Panic "slice bounds out of range"
  else Ok (firstn (Z.to_nat (hi - lo)) (skipn (Z.to_nat lo) l)).

(** [for i := 0; i < n; i++] as the list of the values of [i] *)
Definition zseq (n : Z) : list Z := map Z.of_nat (seq 0 (Z.to_nat n)).

(** [for i := a; i < b; i++] *)
Definition zrange (a b : Z) : list Z := map (fun k => a + k) (zseq (b - a)).

(** monadic map over a list, stopping at the first non-[Ok] result *)
Fixpoint mapM {A B : Type} (f : A -> outcome B) (l : list A) : outcome (list B) :=
  match l with
  | [] => Ok []
  | x :: xs =>
      let* y := f x in
      let* ys := mapM f xs in
      Ok (y :: ys)
  end.

(** monadic left fold (a [for range] loop with an accumulator) *)
Fixpoint foldM {A B : Type} (f : B -> A -> outcome B) (l : list A) (b : B) : outcome B :=
  match l with
  | [] => Ok b
  | x :: xs => let* b' := f b x in foldM f xs b'
  end.

(** flag tests: [x & mask > 0] and [x & mask == 0] *)
Definition has (flags mask : Z) : bool := 0 <? Z.land flags mask.
