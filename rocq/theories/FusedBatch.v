(** * Model of batch predictions with fused multiply-add

    PredictDense and PredictCSR (leaves.go:104-249) as in Leaves.v and Parallel.v, where each
    addition of a product may be done with one rounding or with two.  The choice is free at every
    single addition of every execution. *)

From Coq Require Import ZArith List Bool String.
From Verif Require Import Go GoFloat Cmd LgTree Transformation Ensembles Leaves Parallel Fused.

(** leaves.go:33-44 predictInnerAndTransform: the writes to [predictions]; [fuse] is the choice for
    the private slice of raw scores *)
Definition fused_cmds (fuse : nat -> bool) (p : platform) (e : Ensemble) (fvals : list f64) (nEstimators startIndex : Z) : list fcmd :=
  if Type_t (eTransform e) =? TypeRaw then b_fused p (eBase e) fvals nEstimators startIndex
  else if Type_t (eTransform e) =? TypeLeafIndex then
    map FCmd (b_predictLeafIndicesInner p (eBase e) fvals nEstimators startIndex)
  else
    map FCmd (cmds_of (let* raw := make_f64 p (NRawOutputGroups e) in
                       fexec fuse (b_fused p (eBase e) fvals nEstimators 0) raw)
            (fun raw =>
               match Transform_t p (eTransform e) raw startIndex with
               | Ok cs => cs
               | Err _ => []
               | Panic m => [CPanic m]
               | Hang => [CHang]
               end)).

(** leaves.go:211-212 and 236: one row of PredictDense *)
Definition dense_row_fused (p : platform) (e : Ensemble) (vals : list f64) (ncols nEstimators : Z)
  (fuse : nat -> bool) (i : Z) : list fcmd :=
  match slice vals (s64 (i * ncols)) (s64 ((i + 1) * ncols)) with
  | Ok fvals => fused_cmds fuse p e fvals nEstimators (s64 (i * NOutputGroups e))
  | Err m => [FCmd (CPanic m)]
  | Panic m => [FCmd (CPanic m)]
  | Hang => [FCmd CHang]
  end.

(** leaves.go:169-178: one row of predictCSRInner *)
Definition csr_row_fused (p : platform) (e : Ensemble) (indptr cols : list Z) (vals : list f64)
  (nEstimators : Z) (fuse : nat -> bool) (fvals : list f64) (i : Z) : list fcmd * list f64 :=
  let filled :=
    let* start := at_ indptr i in
    let* end_ := at_ indptr (i + 1) in
    csr_fill cols vals start end_ fvals in
  match filled with
  | Ok fvals' =>
      (fused_cmds fuse p e fvals' nEstimators (s64 (i * NOutputGroups e)), b_resetFVals (eBase e) fvals')
  | Err m => ([FCmd (CPanic m)], fvals)
  | Panic m => ([FCmd (CPanic m)], fvals)
  | Hang => ([FCmd CHang], fvals)
  end.

(** leaves.go:168-179, 210-213: the loop over rows of a single-threaded call; [fuse i] is the choice
    for row i *)
Fixpoint exec_rows_fused {L : Type} (fuse : Z -> nat -> bool) (row : (nat -> bool) -> L -> Z -> list fcmd * L)
  (rows : list Z) (l : L) (m : list f64) : outcome (list f64) :=
  match rows with
  | [] => Ok m
  | i :: rows' =>
      let* m' := fexec (fuse i) (fst (row (fuse i) l i)) m in
      exec_rows_fused fuse row rows' (snd (row (fuse i) l i)) m'
  end.

(** leaves.go:209-214 *)
Definition dense_single_fused (fuse : Z -> nat -> bool) (p : platform) (e : Ensemble) (vals : list f64) (nrows ncols : Z)
  (predictions : list f64) (nEstimators : Z) : outcome (list f64) :=
  exec_rows_fused fuse (fun f (_ : unit) i => (dense_row_fused p e vals ncols nEstimators f i, tt)) (zseq nrows) tt predictions.

(** leaves.go:116-120 *)
Definition csr_single_fused (fuse : Z -> nat -> bool) (p : platform) (e : Ensemble) (indptr cols : list Z) (vals : list f64)
  (predictions : list f64) (nEstimators : Z) : outcome (list f64) :=
  let* fvals := csr_buffer p e in
  exec_rows_fused fuse (csr_row_fused p e indptr cols vals nEstimators) (zseq (zlen indptr - 1)) fvals predictions.

(** ** Goroutines: as Parallel.v, whose comments apply *)
Record fjob (L : Type) : Type := mkFJob {
  fj_init : outcome L;
  fj_row : (nat -> bool) -> L -> Z -> list fcmd * L;
  fj_nRows : Z;
  fj_nBatches : Z;
  fj_threads : nat }.
Arguments fj_init {L}. Arguments fj_row {L}. Arguments fj_nRows {L}.
Arguments fj_nBatches {L}. Arguments fj_threads {L}. Arguments mkFJob {L}.

Inductive fworker (L : Type) : Type :=
| FStart
| FIdle (l : L)
| FRow (l : L) (r end_ : Z)
| FWrite (l : L) (r end_ : Z) (reg : option f64) (cs : list fcmd)
| FExited.
Arguments FStart {L}. Arguments FIdle {L}. Arguments FRow {L}. Arguments FWrite {L}. Arguments FExited {L}.

Record fstate (L : Type) : Type := mkFState {
  fs_main : mainpc;
  fs_closed : bool;
  fs_wg : Z;
  fs_workers : list (fworker L);
  fs_mem : list f64 }.
Arguments fs_main {L}. Arguments fs_closed {L}. Arguments fs_wg {L}.
Arguments fs_workers {L}. Arguments fs_mem {L}. Arguments mkFState {L}.

Inductive fconfig (L : Type) : Type :=
| FRunning (s : fstate L)
| FCrashed (m : string).
Arguments FRunning {L}. Arguments FCrashed {L}.

(** one memory access of a worker; [one]: the product is added with one rounding *)
Definition fcmd_step (one : bool) (reg : option f64) (cs : list fcmd) (m : list f64)
  : outcome (option f64 * list fcmd * list f64) :=
  match cs with
  | [] => Ok (reg, cs, m)
  | FCmd c :: cs' =>
      let* r := cmd_step reg [c] m in
      Ok (fst (fst r), match snd (fst r) with [] => cs' | _ => cs end, snd r)
  | FMulAdd i x y :: cs' =>
      match reg with
      | None => let* a := at_ m i in Ok (Some a, cs, m)
      | Some a => let* m' := set_at m i (if one then ffma x y a else fadd a (fmul x y)) in Ok (None, cs', m')
      end
  end.

Inductive fstep {L : Type} (j : fjob L) : fconfig L -> fconfig L -> Prop :=
| fstep_spawn : forall n cl wg ws m,
    fstep j (FRunning (mkFState (MSpawn (S n)) cl wg ws m))
            (FRunning (mkFState (MSpawn n) cl (wg + 1) (ws ++ [FStart]) m))
| fstep_spawned : forall cl wg ws m,
    fstep j (FRunning (mkFState (MSpawn O) cl wg ws m))
            (FRunning (mkFState (MFeed 0) cl wg ws m))
| fstep_feed : forall i cl wg ws1 l ws2 m,
    i < fj_nBatches j ->
    fstep j (FRunning (mkFState (MFeed i) cl wg (ws1 ++ FIdle l :: ws2) m))
            (FRunning (mkFState (MFeed (i + 1)) cl wg
               (ws1 ++ FRow l (i * BatchSize) (batch_end (fj_nRows j) i) :: ws2) m))
| fstep_close : forall i cl wg ws m,
    fj_nBatches j <= i ->
    fstep j (FRunning (mkFState (MFeed i) cl wg ws m))
            (FRunning (mkFState MWait true wg ws m))
| fstep_return : forall cl ws m,
    fstep j (FRunning (mkFState MWait cl 0 ws m))
            (FRunning (mkFState MReturned cl 0 ws m))
| fstep_init : forall pc cl wg ws1 l ws2 m,
    fj_init j = Ok l ->
    fstep j (FRunning (mkFState pc cl wg (ws1 ++ FStart :: ws2) m))
            (FRunning (mkFState pc cl wg (ws1 ++ FIdle l :: ws2) m))
| fstep_init_panic : forall pc cl wg ws1 ws2 m s,
    fj_init j = Panic s ->
    fstep j (FRunning (mkFState pc cl wg (ws1 ++ FStart :: ws2) m)) (FCrashed s)
| fstep_exit : forall pc wg ws1 l ws2 m,
    fstep j (FRunning (mkFState pc true wg (ws1 ++ FIdle l :: ws2) m))
            (FRunning (mkFState pc true (wg - 1) (ws1 ++ FExited :: ws2) m))
| fstep_row : forall fuse pc cl wg ws1 l r e ws2 m,
    r < e ->
    fstep j (FRunning (mkFState pc cl wg (ws1 ++ FRow l r e :: ws2) m))
            (FRunning (mkFState pc cl wg
               (ws1 ++ FWrite (snd (fj_row j fuse l r)) r e None (fst (fj_row j fuse l r)) :: ws2) m))
| fstep_batch_done : forall pc cl wg ws1 l r e ws2 m,
    e <= r ->
    fstep j (FRunning (mkFState pc cl wg (ws1 ++ FRow l r e :: ws2) m))
            (FRunning (mkFState pc cl wg (ws1 ++ FIdle l :: ws2) m))
| fstep_cmd : forall one pc cl wg ws1 l r e reg c cs reg' cs' ws2 m m',
    fcmd_step one reg (c :: cs) m = Ok (reg', cs', m') ->
    fstep j (FRunning (mkFState pc cl wg (ws1 ++ FWrite l r e reg (c :: cs) :: ws2) m))
            (FRunning (mkFState pc cl wg (ws1 ++ FWrite l r e reg' cs' :: ws2) m'))
| fstep_cmd_panic : forall one pc cl wg ws1 l r e reg c cs s ws2 m,
    fcmd_step one reg (c :: cs) m = Panic s ->
    fstep j (FRunning (mkFState pc cl wg (ws1 ++ FWrite l r e reg (c :: cs) :: ws2) m))
            (FCrashed s)
| fstep_row_done : forall pc cl wg ws1 l r e reg ws2 m,
    fstep j (FRunning (mkFState pc cl wg (ws1 ++ FWrite l r e reg [] :: ws2) m))
            (FRunning (mkFState pc cl wg (ws1 ++ FRow l (r + 1) e :: ws2) m)).

Inductive fsteps {L : Type} (j : fjob L) : fconfig L -> fconfig L -> Prop :=
| fsteps_refl : forall c, fsteps j c c
| fsteps_cons : forall c1 c2 c3, fstep j c1 c2 -> fsteps j c2 c3 -> fsteps j c1 c3.

Definition finitial {L : Type} (j : fjob L) (m : list f64) : fconfig L :=
  FRunning (mkFState (MSpawn (fj_threads j)) false 0 [] m).
Definition freturned {L : Type} (c : fconfig L) (m : list f64) : Prop :=
  exists cl wg ws, c = FRunning (mkFState MReturned cl wg ws m).

(** leaves.go:216-248 *)
Definition dense_fjob (p : platform) (e : Ensemble) (vals : list f64) (nrows ncols nEstimators nThreads : Z) : fjob unit :=
  mkFJob (Ok tt)
         (fun f (_ : unit) i => (dense_row_fused p e vals ncols nEstimators f i, tt))
         nrows (nBatches_of nrows) (Z.to_nat (nThreads_of p nrows nThreads)).

(** leaves.go:122-155 *)
Definition csr_fjob (p : platform) (e : Ensemble) (indptr cols : list Z) (vals : list f64) (nEstimators nThreads : Z) : fjob (list f64) :=
  let nRows := zlen indptr - 1 in
  mkFJob (csr_buffer p e)
         (csr_row_fused p e indptr cols vals nEstimators)
         nRows (nBatches_of nRows) (Z.to_nat (nThreads_of p nRows nThreads)).

(** the results of a batch call after its checks: single-threaded or with goroutines *)
Inductive batch_fused {L : Type} (checks : outcome Z) (single : bool) (alone : (Z -> nat -> bool) -> Z -> outcome (list f64))
  (j : Z -> fjob L) (predictions : list f64) : call_result -> Prop :=
| BF_error : forall m, checks = Err m -> batch_fused checks single alone j predictions (Fails m predictions)
| BF_check_panic : forall m, checks = Panic m -> batch_fused checks single alone j predictions (Panics m)
| BF_single : forall fuse n m, checks = Ok n -> single = true -> alone fuse n = Ok m ->
    batch_fused checks single alone j predictions (Returns m)
| BF_single_panic : forall fuse n m, checks = Ok n -> single = true -> alone fuse n = Panic m ->
    batch_fused checks single alone j predictions (Panics m)
| BF_parallel : forall n m c, checks = Ok n -> single = false -> fsteps (j n) (finitial (j n) predictions) c -> freturned c m ->
    batch_fused checks single alone j predictions (Returns m)
| BF_parallel_panic : forall n m, checks = Ok n -> single = false -> fsteps (j n) (finitial (j n) predictions) (FCrashed m) ->
    batch_fused checks single alone j predictions (Panics m).

(** leaves.go:187-249 PredictDense as the set of its possible results *)
Definition PredictDense_fused (p : platform) (e : Ensemble) (vals : list f64) (nrows ncols : Z)
  (predictions : list f64) (nEstimators nThreads : Z) : call_result -> Prop :=
  batch_fused (dense_checks e nrows ncols predictions nEstimators) (single_threaded nrows nThreads)
    (fun fuse n => dense_single_fused fuse p e vals nrows ncols predictions n)
    (fun n => dense_fjob p e vals nrows ncols n nThreads) predictions.

(** leaves.go:104-156 PredictCSR as the set of its possible results *)
Definition PredictCSR_fused (p : platform) (e : Ensemble) (indptr cols : list Z) (vals : list f64)
  (predictions : list f64) (nEstimators nThreads : Z) : call_result -> Prop :=
  batch_fused (csr_checks e indptr predictions nEstimators) (single_threaded (zlen indptr - 1) nThreads)
    (fun fuse n => csr_single_fused fuse p e indptr cols vals predictions n)
    (fun n => csr_fjob p e indptr cols vals n nThreads) predictions.
