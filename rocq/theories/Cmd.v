(** * Writes through the [predictions] slice

    Go code that fills a caller-supplied slice is modelled as the list of the
    elementary accesses it performs, in program order.  This is a modelling
    device, not code of the repository; the functions that produce such lists
    (Transformation.v, Ensembles.v, Leaves.v) cite the Go code. *)

From Coq Require Import ZArith List Bool String.
From Verif Require Import Go GoFloat.

Inductive cmd : Type :=
| CSet (i : Z) (v : f64)      (* p[i] = v *)
| CAdd (i : Z) (v : f64)      (* p[i] += v: a load followed by a store *)
| CMul (i : Z) (v : f64)      (* p[i] *= v: a load followed by a store *)
| CPanic (m : string)         (* run-time panic while computing an operand *)
| CHang.                      (* an operand is never computed *)

(** sequential effect of one command *)
Definition exec1 (c : cmd) (m : list f64) : outcome (list f64) :=
  match c with
  | CSet i v => set_at m i v
  | CAdd i v => let* x := at_ m i in set_at m i (fadd x v)
  | CMul i v => let* x := at_ m i in set_at m i (fmul x v)
  | CPanic s => Panic s
  | CHang => Hang
  end.

(** sequential effect of a command list *)
Fixpoint exec (cs : list cmd) (m : list f64) : outcome (list f64) :=
  match cs with
  | [] => Ok m
  | c :: cs' => let* m' := exec1 c m in exec cs' m'
  end.

(** a command whose operand is the result of a computation that may panic or
    hang ([Err] does not occur: the computations used return no error) *)
Definition cmd_of {A : Type} (x : outcome A) (k : A -> cmd) : cmd :=
  match x with
  | Ok a => k a
  | Err m => CPanic m
  | Panic m => CPanic m
  | Hang => CHang
  end.

Definition cmds_of {A : Type} (x : outcome A) (k : A -> list cmd) : list cmd :=
  match x with
  | Ok a => k a
  | Err m => [CPanic m]
  | Panic m => [CPanic m]
  | Hang => [CHang]
  end.
