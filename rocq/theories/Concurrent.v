(** * Model of several calls running at the same time (/repo/leaves.go:104-249)

    Goroutines of the program using the library call PredictDense and PredictCSR, possibly on
    the same model.  There is one memory; the [predictions] argument of a call is a slice of it.
    The model, [vals], [indptr] and [cols] are only read (see Parallel.v) and are therefore
    values.  A step is one step of one goroutine of one call (machine of Parallel.v).
    Accesses are checked against the bounds of the slice of the call, so calls with disjoint slices
    never access the same cell, and with C04 the whole program has no data race. *)

From Coq Require Import ZArith List Bool String.
From Verif Require Import Go GoFloat Cmd LgTree Transformation Ensembles Leaves Parallel.
Local Open Scope Z_scope.

(** a call, without its [predictions] *)
Inductive call : Type :=
| DenseCall (e : Ensemble) (vals : list f64) (nrows ncols nEstimators nThreads : Z)
| CSRCall (e : Ensemble) (indptr cols : list Z) (vals : list f64) (nEstimators nThreads : Z).

(** type of the private values of its goroutines *)
Definition local (c : call) : Type := match c with DenseCall _ _ _ _ _ _ => unit | CSRCall _ _ _ _ _ _ => list f64 end.

(** leaves.go:195-206 and 105-113 *)
Definition checks (c : call) (predictions : list f64) : outcome Z :=
  match c with
  | DenseCall e vals nrows ncols nE nT => dense_checks e nrows ncols predictions nE
  | CSRCall e indptr cols vals nE nT => csr_checks e indptr predictions nE
  end.
(** what the call does after the checks; [n]: adjusted number of estimators *)
Definition job_of (p : platform) (c : call) (n : Z) : job (local c) :=
  match c with
  | DenseCall e vals nrows ncols nE nT => dense_job p e vals nrows ncols n nT
  | CSRCall e indptr cols vals nE nT => csr_job p e indptr cols vals n nT
  end.
(** leaves.go:115 and 208 *)
Definition is_single (c : call) : bool :=
  match c with
  | DenseCall e vals nrows ncols nE nT => single_threaded nrows nT
  | CSRCall e indptr cols vals nE nT => single_threaded (zlen indptr - 1) nT
  end.
(** the possible results of the call when it runs alone *)
Definition alone (p : platform) (c : call) (predictions : list f64) (r : call_result) : Prop :=
  match c with
  | DenseCall e vals nrows ncols nE nT => PredictDense p e vals nrows ncols predictions nE nT r
  | CSRCall e indptr cols vals nE nT => PredictCSR p e indptr cols vals predictions nE nT r
  end.

(** leaves.go:116-120, 209-214: the single-threaded body is one goroutine, the calling one, that
    does all rows; leaves.go:122-155, 216-248: otherwise the calling goroutine starts workers.
    The memory component of the state is not used. *)
Inductive begins {L : Type} (j : job L) (single : bool) : state L -> Prop :=
| begins_single : forall l, single = true -> jb_init j = Ok l ->
    begins j single (mkState MWait true 1 [WRow l 0 (jb_nRows j)] [])
| begins_parallel : single = false -> begins j single (mkState (MSpawn (jb_threads j)) false 0 [] []).

(** the cells [off .. off+len-1] of the memory, and the memory with them replaced *)
Definition window (mem : list f64) (off len : Z) : list f64 := firstn (Z.to_nat len) (skipn (Z.to_nat off) mem).
Definition splice (mem : list f64) (off len : Z) (w : list f64) : list f64 :=
  firstn (Z.to_nat off) mem ++ w ++ skipn (Z.to_nat (off + len)) mem.

Definition with_mem {L : Type} (s : state L) (m : list f64) : state L :=
  mkState (st_main s) (st_closed s) (st_wg s) (st_workers s) m.

Section Machine.
Context {I : Type} (L : I -> Type) (jobs : forall i, job (L i)) (off len : I -> Z).

(** the program: the state of every call and the memory, or dead after a panic *)
Inductive program : Type :=
| Live (calls : forall i, state (L i)) (mem : list f64)
| Dead (m : string).

Inductive pstep : program -> program -> Prop :=
| pstep_call : forall calls calls' mem i s,
    step (jobs i) (Running (with_mem (calls i) (window mem (off i) (len i)))) (Running s) ->
    calls' i = s -> (forall k, k <> i -> calls' k = calls k) ->
    pstep (Live calls mem) (Live calls' (splice mem (off i) (len i) (st_mem s)))
| pstep_panic : forall calls mem i m,
    step (jobs i) (Running (with_mem (calls i) (window mem (off i) (len i)))) (Crashed m) ->
    pstep (Live calls mem) (Dead m).

Inductive psteps : program -> program -> Prop :=
| psteps_refl : forall c, psteps c c
| psteps_cons : forall c1 c2 c3, pstep c1 c2 -> psteps c2 c3 -> psteps c1 c3.
(** counting the steps *)
Inductive pnsteps : nat -> program -> program -> Prop :=
| pnsteps_O : forall c, pnsteps O c c
| pnsteps_S : forall n c1 c2 c3, pstep c1 c2 -> pnsteps n c2 c3 -> pnsteps (S n) c1 c3.
End Machine.
Arguments Live {I L}. Arguments Dead {I L}.
