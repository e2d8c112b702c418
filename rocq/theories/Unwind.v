(** * Model of what a call leaves in [predictions], however it ends (/repo/leaves.go)

    Leaves.v gives the contents of [predictions] after a nil error.  Here the contents are
    kept when the call stops early too: after an error, and after a run-time panic, which the
    caller of a single-threaded call may recover from.  (A panic in a goroutine started by the
    call cannot be recovered from: Parallel.v.)  The functions are those of Leaves.v; an
    access that panics has no effect (Go checks an index before the store). *)

From Coq Require Import ZArith List Bool String.
From Verif Require Import Go GoFloat GoText Cmd LgTree Transformation Ensembles Leaves.
Local Open Scope Z_scope.

(** the contents of [predictions] when the call ended, and how it ended: [Ok tt] is a nil
    error, [Err] an error, [Panic] a run-time panic *)
Definition ending : Type := (list f64 * outcome unit)%type.

(** continue if the computation gave a value; otherwise stop with the contents as they are *)
Definition or_stop {A : Type} (x : outcome A) (m : list f64) (k : A -> ending) : ending :=
  match x with
  | Ok a => k a
  | Err s => (m, Err s)
  | Panic s => (m, Panic s)
  | Hang => (m, Hang)
  end.

(** the accesses of a command list, up to the first that panics *)
Fixpoint run (cs : list cmd) (m : list f64) : ending :=
  match cs with
  | [] => (m, Ok tt)
  | c :: cs' => or_stop (exec1 c m) m (fun m' => run cs' m')
  end.

(** the loops over rows (leaves.go:168-179, 210-213), up to the first row that panics *)
Fixpoint run_rows {L : Type} (row : L -> Z -> list cmd * L) (rows : list Z) (l : L) (m : list f64) : ending :=
  match rows with
  | [] => (m, Ok tt)
  | i :: rows' =>
      let (m', r) := run (fst (row l i)) m in
      or_stop r m' (fun _ => run_rows row rows' (snd (row l i)) m')
  end.

(** leaves.go:80-96 Predict *)
Definition Predict_left (p : platform) (e : Ensemble) (fvals : list f64) (nEstimators : Z)
  (predictions : list f64) : ending :=
  let nRows := 1 in
  if zlen predictions <? s64 (NOutputGroups e * nRows) then (predictions, Err "predictions slice too short")
  else if zlen fvals <? NFeatures e then (predictions, Err "incorrect number of features")
  else
    or_stop (b_adjustNEstimators (eBase e) nEstimators) predictions (fun nEstimators =>
    or_stop (checkNEstimators e nEstimators) predictions (fun _ =>
    run (predictInnerAndTransform p e fvals nEstimators 0) predictions)).

(** leaves.go:187-214 PredictDense, single-threaded *)
Definition PredictDense_left (p : platform) (e : Ensemble) (vals : list f64) (nrows ncols : Z)
  (predictions : list f64) (nEstimators : Z) : ending :=
  or_stop (dense_checks e nrows ncols predictions nEstimators) predictions (fun nEstimators =>
  run_rows (fun (_ : unit) i => (dense_row p e vals ncols nEstimators i, tt)) (zseq nrows) tt predictions).

(** leaves.go:104-120 PredictCSR, single-threaded *)
Definition PredictCSR_left (p : platform) (e : Ensemble) (indptr cols : list Z) (vals : list f64)
  (predictions : list f64) (nEstimators : Z) : ending :=
  or_stop (csr_checks e indptr predictions nEstimators) predictions (fun nEstimators =>
  or_stop (csr_buffer p e) predictions (fun fvals =>
  run_rows (csr_row p e indptr cols vals nEstimators) (zseq (zlen indptr - 1)) fvals predictions)).
