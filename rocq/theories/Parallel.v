(** * Model of the goroutines of PredictDense and PredictCSR (/repo/leaves.go)

    A small-step machine.  Every step is one action of one goroutine; any enabled
    goroutine may move.  Loads and stores of [predictions] cells are separate steps.
    Memory is sequentially consistent: the Go memory model guarantees this for
    programs without data races, and theorems [C04_dense_no_data_race] and
    [C04_csr_no_data_race] show there are none.
    [vals], [indptr], [cols] and the model are only read; [predictions] is assumed not
    to overlap [vals] (single-threaded calls where it does: Shared.v). *)

From Coq Require Import ZArith List Bool String.
From Verif Require Import Go GoFloat Cmd LgTree Transformation Ensembles Leaves.

(** What a call parametrises the machine with: how a goroutine creates its private
    value (leaves.go:136-137 for CSR, nothing for dense), the effect of one row
    (leaves.go:168-179, 235-237), row and batch counts, number of goroutines. *)
Record job (L : Type) : Type := mkJob {
  jb_init : outcome L;
  jb_row : L -> Z -> list cmd * L;
  jb_nRows : Z;
  jb_nBatches : Z;
  jb_threads : nat }.
Arguments jb_init {L}. Arguments jb_row {L}. Arguments jb_nRows {L}.
Arguments jb_nBatches {L}. Arguments jb_threads {L}. Arguments mkJob {L}.

(** program counter of the calling goroutine *)
Inductive mainpc : Type :=
| MSpawn (left : nat)        (* leaves.go:132-147 / 226-240: goroutines still to start *)
| MFeed (i : Z)              (* 150-152 / 243-245: at [tasks <- i*BatchSize] *)
| MWait                      (* 154 / 247: after close, in wg.Wait() *)
| MReturned.                 (* 155 / 248: return nil *)

(** state of a worker goroutine *)
Inductive worker (L : Type) : Type :=
| WStart                                  (* started, private value not created yet *)
| WIdle (l : L)                           (* at [range tasks] *)
| WRow (l : L) (r end_ : Z)               (* at the head of the row loop *)
| WCmd (l : L) (r end_ : Z) (reg : option f64) (cs : list cmd)
                                          (* writing row r; [reg]: value loaded by the
                                             pending [+=]/[*=], if already loaded *)
| WExited.                                (* returned, wg.Done() executed *)
Arguments WStart {L}. Arguments WIdle {L}. Arguments WRow {L}.
Arguments WCmd {L}. Arguments WExited {L}.

Record state (L : Type) : Type := mkState {
  st_main : mainpc;
  st_closed : bool;            (* tasks has been closed *)
  st_wg : Z;                   (* WaitGroup counter *)
  st_workers : list (worker L);
  st_mem : list f64 }.         (* the predictions slice *)
Arguments st_main {L}. Arguments st_closed {L}. Arguments st_wg {L}.
Arguments st_workers {L}. Arguments st_mem {L}. Arguments mkState {L}.

(** A configuration is a running state or a crashed process (an unrecovered panic in
    any goroutine ends the program). *)
Inductive config (L : Type) : Type :=
| Running (s : state L)
| Crashed (m : string).
Arguments Running {L}. Arguments Crashed {L}.

(** One memory access of a worker: the next [reg], remaining commands and memory *)
Definition cmd_step (reg : option f64) (cs : list cmd) (m : list f64)
  : outcome (option f64 * list cmd * list f64) :=
  match cs with
  | [] => Ok (reg, cs, m)
  | CSet i v :: cs' => let* m' := set_at m i v in Ok (None, cs', m')
  | CAdd i v :: cs' =>
      match reg with
      | None => let* x := at_ m i in Ok (Some x, cs, m)
      | Some x => let* m' := set_at m i (fadd x v) in Ok (None, cs', m')
      end
  | CMul i v :: cs' =>
      match reg with
      | None => let* x := at_ m i in Ok (Some x, cs, m)
      | Some x => let* m' := set_at m i (fmul x v) in Ok (None, cs', m')
      end
  | CPanic s :: _ => Panic s
  | CHang :: _ => Ok (reg, cs, m)
  end.

(** leaves.go:139-142 and 229-232: the row at which the batch of task [i] ends *)
Definition batch_end (nRows i : Z) : Z :=
  if nRows <? i * BatchSize + BatchSize then nRows else i * BatchSize + BatchSize.

Inductive step {L : Type} (j : job L) : config L -> config L -> Prop :=
(** wg.Add(1); go func() {...}() *)
| step_spawn : forall n cl wg ws m,
    step j (Running (mkState (MSpawn (S n)) cl wg ws m))
           (Running (mkState (MSpawn n) cl (wg + 1) (ws ++ [WStart]) m))
| step_spawned : forall cl wg ws m,
    step j (Running (mkState (MSpawn O) cl wg ws m))
           (Running (mkState (MFeed 0) cl wg ws m))
(** rendezvous on the unbuffered channel: [tasks <- i*BatchSize] with
    [startIndex := range tasks], then the computation of endIndex *)
| step_feed : forall i cl wg ws1 l ws2 m,
    i < jb_nBatches j ->
    step j (Running (mkState (MFeed i) cl wg (ws1 ++ WIdle l :: ws2) m))
           (Running (mkState (MFeed (i + 1)) cl wg
              (ws1 ++ WRow l (i * BatchSize) (batch_end (jb_nRows j) i) :: ws2) m))
(** close(tasks) *)
| step_close : forall i cl wg ws m,
    jb_nBatches j <= i ->
    step j (Running (mkState (MFeed i) cl wg ws m))
           (Running (mkState MWait true wg ws m))
(** wg.Wait() returns *)
| step_return : forall cl ws m,
    step j (Running (mkState MWait cl 0 ws m))
           (Running (mkState MReturned cl 0 ws m))
(** worker: creation of the private value *)
| step_init : forall pc cl wg ws1 l ws2 m,
    jb_init j = Ok l ->
    step j (Running (mkState pc cl wg (ws1 ++ WStart :: ws2) m))
           (Running (mkState pc cl wg (ws1 ++ WIdle l :: ws2) m))
| step_init_panic : forall pc cl wg ws1 ws2 m s,
    jb_init j = Panic s ->
    step j (Running (mkState pc cl wg (ws1 ++ WStart :: ws2) m)) (Crashed s)
(** worker: range over the closed channel ends, deferred wg.Done() *)
| step_exit : forall pc wg ws1 l ws2 m,
    step j (Running (mkState pc true wg (ws1 ++ WIdle l :: ws2) m))
           (Running (mkState pc true (wg - 1) (ws1 ++ WExited :: ws2) m))
(** worker: next row of the batch *)
| step_row : forall pc cl wg ws1 l r e ws2 m,
    r < e ->
    step j (Running (mkState pc cl wg (ws1 ++ WRow l r e :: ws2) m))
           (Running (mkState pc cl wg
              (ws1 ++ WCmd (snd (jb_row j l r)) r e None (fst (jb_row j l r)) :: ws2) m))
| step_batch_done : forall pc cl wg ws1 l r e ws2 m,
    e <= r ->
    step j (Running (mkState pc cl wg (ws1 ++ WRow l r e :: ws2) m))
           (Running (mkState pc cl wg (ws1 ++ WIdle l :: ws2) m))
(** worker: one access to predictions *)
| step_cmd : forall pc cl wg ws1 l r e reg c cs reg' cs' ws2 m m',
    cmd_step reg (c :: cs) m = Ok (reg', cs', m') ->
    step j (Running (mkState pc cl wg (ws1 ++ WCmd l r e reg (c :: cs) :: ws2) m))
           (Running (mkState pc cl wg (ws1 ++ WCmd l r e reg' cs' :: ws2) m'))
| step_cmd_panic : forall pc cl wg ws1 l r e reg c cs s ws2 m,
    cmd_step reg (c :: cs) m = Panic s ->
    step j (Running (mkState pc cl wg (ws1 ++ WCmd l r e reg (c :: cs) :: ws2) m))
           (Crashed s)
| step_row_done : forall pc cl wg ws1 l r e reg ws2 m,
    step j (Running (mkState pc cl wg (ws1 ++ WCmd l r e reg [] :: ws2) m))
           (Running (mkState pc cl wg (ws1 ++ WRow l (r + 1) e :: ws2) m)).

Inductive steps {L : Type} (j : job L) : config L -> config L -> Prop :=
| steps_refl : forall c, steps j c c
| steps_cons : forall c1 c2 c3, step j c1 c2 -> steps j c2 c3 -> steps j c1 c3.

Definition initial {L : Type} (j : job L) (m : list f64) : config L :=
  Running (mkState (MSpawn (jb_threads j)) false 0 [] m).

(** the call has returned, leaving [m] in predictions *)
Definition returned {L : Type} (c : config L) (m : list f64) : Prop :=
  exists cl wg ws, c = Running (mkState MReturned cl wg ws m).

(** leaves.go:216-248: PredictDense's job *)
Definition dense_job (p : platform) (e : Ensemble) (vals : list f64)
  (nrows ncols nEstimators nThreads : Z) : job unit :=
  mkJob (Ok tt)
        (fun (_ : unit) i => (dense_row p e vals ncols nEstimators i, tt))
        nrows (nBatches_of nrows) (Z.to_nat (nThreads_of p nrows nThreads)).

(** leaves.go:122-155: PredictCSR's job *)
Definition csr_job (p : platform) (e : Ensemble) (indptr cols : list Z) (vals : list f64)
  (nEstimators nThreads : Z) : job (list f64) :=
  let nRows := zlen indptr - 1 in
  mkJob (csr_buffer p e)
        (csr_row p e indptr cols vals nEstimators)
        nRows (nBatches_of nRows) (Z.to_nat (nThreads_of p nRows nThreads)).

(** Possible results of a call: the error or the slice left behind *)
Inductive call_result : Type :=
| Returns (predictions : list f64)          (* nil error *)
| Fails (m : string) (predictions : list f64)  (* non-nil error *)
| Panics (m : string).                      (* the process dies *)

(** leaves.go:187-249 PredictDense as the set of its possible results *)
Inductive PredictDense (p : platform) (e : Ensemble) (vals : list f64) (nrows ncols : Z)
  (predictions : list f64) (nEstimators nThreads : Z) : call_result -> Prop :=
| PD_error : forall m,
    dense_checks e nrows ncols predictions nEstimators = Err m ->
    PredictDense p e vals nrows ncols predictions nEstimators nThreads (Fails m predictions)
| PD_check_panic : forall m,
    dense_checks e nrows ncols predictions nEstimators = Panic m ->
    PredictDense p e vals nrows ncols predictions nEstimators nThreads (Panics m)
| PD_single : forall n m,
    dense_checks e nrows ncols predictions nEstimators = Ok n ->
    single_threaded nrows nThreads = true ->
    dense_single p e vals nrows ncols predictions n = Ok m ->
    PredictDense p e vals nrows ncols predictions nEstimators nThreads (Returns m)
| PD_single_panic : forall n m,
    dense_checks e nrows ncols predictions nEstimators = Ok n ->
    single_threaded nrows nThreads = true ->
    dense_single p e vals nrows ncols predictions n = Panic m ->
    PredictDense p e vals nrows ncols predictions nEstimators nThreads (Panics m)
| PD_parallel : forall n m c,
    dense_checks e nrows ncols predictions nEstimators = Ok n ->
    single_threaded nrows nThreads = false ->
    steps (dense_job p e vals nrows ncols n nThreads)
          (initial (dense_job p e vals nrows ncols n nThreads) predictions) c ->
    returned c m ->
    PredictDense p e vals nrows ncols predictions nEstimators nThreads (Returns m)
| PD_parallel_panic : forall n m,
    dense_checks e nrows ncols predictions nEstimators = Ok n ->
    single_threaded nrows nThreads = false ->
    steps (dense_job p e vals nrows ncols n nThreads)
          (initial (dense_job p e vals nrows ncols n nThreads) predictions) (Crashed m) ->
    PredictDense p e vals nrows ncols predictions nEstimators nThreads (Panics m).

(** leaves.go:104-156 PredictCSR as the set of its possible results *)
Inductive PredictCSR (p : platform) (e : Ensemble) (indptr cols : list Z) (vals : list f64)
  (predictions : list f64) (nEstimators nThreads : Z) : call_result -> Prop :=
| PC_error : forall m,
    csr_checks e indptr predictions nEstimators = Err m ->
    PredictCSR p e indptr cols vals predictions nEstimators nThreads (Fails m predictions)
| PC_check_panic : forall m,
    csr_checks e indptr predictions nEstimators = Panic m ->
    PredictCSR p e indptr cols vals predictions nEstimators nThreads (Panics m)
| PC_single : forall n m,
    csr_checks e indptr predictions nEstimators = Ok n ->
    single_threaded (zlen indptr - 1) nThreads = true ->
    csr_single p e indptr cols vals predictions n = Ok m ->
    PredictCSR p e indptr cols vals predictions nEstimators nThreads (Returns m)
| PC_single_panic : forall n m,
    csr_checks e indptr predictions nEstimators = Ok n ->
    single_threaded (zlen indptr - 1) nThreads = true ->
    csr_single p e indptr cols vals predictions n = Panic m ->
    PredictCSR p e indptr cols vals predictions nEstimators nThreads (Panics m)
| PC_parallel : forall n m c,
    csr_checks e indptr predictions nEstimators = Ok n ->
    single_threaded (zlen indptr - 1) nThreads = false ->
    steps (csr_job p e indptr cols vals n nThreads)
          (initial (csr_job p e indptr cols vals n nThreads) predictions) c ->
    returned c m ->
    PredictCSR p e indptr cols vals predictions nEstimators nThreads (Returns m)
| PC_parallel_panic : forall n m,
    csr_checks e indptr predictions nEstimators = Ok n ->
    single_threaded (zlen indptr - 1) nThreads = false ->
    steps (csr_job p e indptr cols vals n nThreads)
          (initial (csr_job p e indptr cols vals n nThreads) predictions) (Crashed m) ->
    PredictCSR p e indptr cols vals predictions nEstimators nThreads (Panics m).
