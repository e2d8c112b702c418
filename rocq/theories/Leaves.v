(** * Model of /repo/leaves.go (sequential part; the goroutines are in Parallel.v) *)

From Coq Require Import ZArith List Bool String.
From Verif Require Import Go GoFloat GoText Cmd UtilBits UtilMath LgTree Transformation Ensembles.

(** leaves.go:13 BatchSize *)
Definition BatchSize : Z := 16.

(** leaves.go:15-25 the implementations of ensembleBaseInterface.  An *Ensemble is
    itself one (the views wrap the ensemble they are called on): all its interface
    methods are promoted from, or delegate to, the wrapped base. *)
Inductive base : Type :=
| BLg (e : lgEnsemble)
| BXg (e : xgEnsemble)
| BLinear (e : xgLinear)
| BEnsemble (b : base) (t : transform).

(** leaves.go:28-31 Ensemble *)
Record Ensemble : Type := mkEnsemble { eBase : base; eTransform : transform }.

(** lgensemble.go:25-27, xgensemble.go:24-26, xgblinear.go:15-17, leaves.go:259-261 *)
Fixpoint b_NRawOutputGroups (b : base) : Z :=
  match b with
  | BLg e => lgNRawOutputGroups e
  | BXg e => xgNRawOutputGroups e
  | BLinear e => xlNRawOutputGroups e
  | BEnsemble b _ => b_NRawOutputGroups b
  end.

(** lgensemble.go:21-23, xgensemble.go:20-22, xgblinear.go:11-13, leaves.go:252-254 *)
Fixpoint b_NEstimators (b : base) : outcome Z :=
  match b with
  | BLg e => trees_NEstimators (lgTrees e) (lgNRawOutputGroups e)
  | BXg e => trees_NEstimators (xgTrees e) (xgNRawOutputGroups e)
  | BLinear _ => Ok 1
  | BEnsemble b _ => b_NEstimators b
  end.

(** lgensemble.go:29-34, xgensemble.go:28-33, xgblinear.go:24-26, leaves.go:272-274 *)
Fixpoint b_NFeatures (b : base) : Z :=
  match b with
  | BLg e => trees_NFeatures (lgMaxFeatureIdx e)
  | BXg e => trees_NFeatures (xgMaxFeatureIdx e)
  | BLinear e => xlNumFeature e
  | BEnsemble b _ => b_NFeatures b
  end.

(** lgensemble.go:36-44, xgensemble.go:35-43, xgblinear.go:32-34, leaves.go:282-284 *)
Fixpoint b_NLeaves (p : platform) (b : base) : outcome (list Z) :=
  match b with
  | BLg e => trees_NLeaves p (lgTrees e) (lgNRawOutputGroups e)
  | BXg e => trees_NLeaves p (xgTrees e) (xgNRawOutputGroups e)
  | BLinear _ => Ok []
  | BEnsemble b _ => b_NLeaves p b
  end.

(** lgensemble.go:46-48, xgensemble.go:45-47, xgblinear.go:28-30, leaves.go:287-289 *)
Fixpoint b_Name (b : base) : bytes :=
  match b with
  | BLg e => lgName e
  | BXg e => xgName e
  | BLinear _ => bs "xgboost.gblinear"
  | BEnsemble b _ => b_Name b
  end.

(** lgensemble.go:83-90, xgensemble.go:49-56, xgblinear.go:19-22 *)
Fixpoint b_adjustNEstimators (b : base) (nEstimators : Z) : outcome Z :=
  match b with
  | BLg e => trees_adjustNEstimators (lgTrees e) (lgNRawOutputGroups e) nEstimators
  | BXg e => trees_adjustNEstimators (xgTrees e) (xgNRawOutputGroups e) nEstimators
  | BLinear _ => Ok 1
  | BEnsemble b _ => b_adjustNEstimators b nEstimators
  end.

(** lgensemble.go:50-66, xgensemble.go:58-70, xgblinear.go:36-43 *)
Fixpoint b_predictInner (p : platform) (b : base) (fvals : list f64)
  (nEstimators startIndex : Z) : list cmd :=
  match b with
  | BLg e => lg_predictInner p e fvals nEstimators startIndex
  | BXg e => xg_predictInner p e fvals nEstimators startIndex
  | BLinear e => xl_predictInner e fvals startIndex
  | BEnsemble b _ => b_predictInner p b fvals nEstimators startIndex
  end.

(** lgensemble.go:68-81, xgensemble.go:72-85, xgblinear.go:45-47 (empty body) *)
Fixpoint b_predictLeafIndicesInner (p : platform) (b : base) (fvals : list f64)
  (nEstimators startIndex : Z) : list cmd :=
  match b with
  | BLg e => trees_predictLeafIndicesInner p (lgTrees e) (lgNRawOutputGroups e)
               fvals nEstimators startIndex
  | BXg e => trees_predictLeafIndicesInner p (xgTrees e) (xgNRawOutputGroups e)
               fvals nEstimators startIndex
  | BLinear _ => []
  | BEnsemble b _ => b_predictLeafIndicesInner p b fvals nEstimators startIndex
  end.

(** lgensemble.go:92-96, xgensemble.go:87-91, xgblinear.go:49-53 *)
Fixpoint b_resetFVals (b : base) (fvals : list f64) : list f64 :=
  match b with
  | BLg _ => lg_resetFVals fvals
  | BXg _ => xg_resetFVals fvals
  | BLinear _ => xl_resetFVals fvals
  | BEnsemble b _ => b_resetFVals b fvals
  end.

(** leaves.go:252-294 accessors *)
Definition NEstimators (e : Ensemble) : outcome Z := b_NEstimators (eBase e).
Definition NRawOutputGroups (e : Ensemble) : Z := b_NRawOutputGroups (eBase e).
Definition NOutputGroups (e : Ensemble) : Z := NOutputGroups_t (eTransform e).
Definition NFeatures (e : Ensemble) : Z := b_NFeatures (eBase e).
Definition NLeaves (p : platform) (e : Ensemble) : outcome (list Z) := b_NLeaves p (eBase e).
Definition Name (e : Ensemble) : bytes := b_Name (eBase e).
Definition Transformation_ (e : Ensemble) : transform := eTransform e.

(** leaves.go:298-300 EnsembleWithRawPredictions *)
Definition EnsembleWithRawPredictions (e : Ensemble) : Ensemble :=
  mkEnsemble (BEnsemble (eBase e) (eTransform e)) (TransformRaw (NRawOutputGroups e)).

(** leaves.go:304-307 EnsembleWithLeafPredictions *)
Definition EnsembleWithLeafPredictions (e : Ensemble) : outcome Ensemble :=
  let* n := NEstimators e in
  Ok (mkEnsemble (BEnsemble (eBase e) (eTransform e))
                 (TransformLeafIndex (s64 (NRawOutputGroups e * n)))).

(** leaves.go:33-44 predictInnerAndTransform.  The error result of Transform is
    discarded (line 42). *)
Definition predictInnerAndTransform (p : platform) (e : Ensemble) (fvals : list f64)
  (nEstimators startIndex : Z) : list cmd :=
  if Type_t (eTransform e) =? TypeRaw then
    b_predictInner p (eBase e) fvals nEstimators startIndex
  else if Type_t (eTransform e) =? TypeLeafIndex then
    b_predictLeafIndicesInner p (eBase e) fvals nEstimators startIndex
  else
    cmds_of (let* raw := make_f64 p (NRawOutputGroups e) in
             exec (b_predictInner p (eBase e) fvals nEstimators 0) raw)
      (fun raw =>
         match Transform_t p (eTransform e) raw startIndex with
         | Ok cs => cs
         | Err _ => []
         | Panic m => [CPanic m]
         | Hang => [CHang]
         end).

(** leaves.go:46-52 checkNEstimators *)
Definition checkNEstimators (e : Ensemble) (nEstimators : Z) : outcome unit :=
  if Type_t (eTransform e) =? TypeLeafIndex then
    let* n := NEstimators e in
    if nEstimators =? n then Ok tt
    else Err "while predicting leaf indices all estimators should be used"
  else Ok tt.

(** leaves.go:59-75 PredictSingle *)
Definition PredictSingle (p : platform) (e : Ensemble) (fvals : list f64) (nEstimators : Z)
  : outcome f64 :=
  if negb (NOutputGroups e =? 1) then Ok fzero
  else if zlen fvals <? NFeatures e then Ok fzero
  else
    let* nEstimators := b_adjustNEstimators (eBase e) nEstimators in
    match checkNEstimators e nEstimators with
    | Err _ => Ok fzero
    | Panic m => Panic m
    | Hang => Hang
    | Ok _ =>
        let* ret := exec (predictInnerAndTransform p e fvals nEstimators 0) [fzero] in
        at_ ret 0
    end.

(** leaves.go:80-96 Predict: the contents of [predictions] after a nil error *)
Definition Predict (p : platform) (e : Ensemble) (fvals : list f64) (nEstimators : Z)
  (predictions : list f64) : outcome (list f64) :=
  let nRows := 1 in
  if zlen predictions <? s64 (NOutputGroups e * nRows) then Err "predictions slice too short"
  else if zlen fvals <? NFeatures e then Err "incorrect number of features"
  else
    let* nEstimators := b_adjustNEstimators (eBase e) nEstimators in
    let* _ := checkNEstimators e nEstimators in
    exec (predictInnerAndTransform p e fvals nEstimators 0) predictions.

(** leaves.go:171-175: copying the stored entries [j, end) of a row into the buffer *)
Definition csr_fill (cols : list Z) (vals : list f64) (start end_ : Z) (fvals : list f64)
  : outcome (list f64) :=
  foldM (fun fvals j =>
           let* c := at_ cols j in
           if c <? zlen fvals then
             let* v := at_ vals j in set_at fvals c v
           else Ok fvals)
        (zrange start end_) fvals.

(** leaves.go:169-178: one iteration of the row loop of predictCSRInner: the writes to
    [predictions] and the buffer left for the next row *)
Definition csr_row (p : platform) (e : Ensemble) (indptr cols : list Z) (vals : list f64)
  (nEstimators : Z) (fvals : list f64) (i : Z) : list cmd * list f64 :=
  let filled :=
    let* start := at_ indptr i in
    let* end_ := at_ indptr (i + 1) in
    csr_fill cols vals start end_ fvals in
  match filled with
  | Ok fvals' =>
      (predictInnerAndTransform p e fvals' nEstimators (s64 (i * NOutputGroups e)),
       b_resetFVals (eBase e) fvals')
  | Err m => ([CPanic m], fvals)
  | Panic m => ([CPanic m], fvals)
  | Hang => ([CHang], fvals)
  end.

(** leaves.go:211-212 and 236: one row of PredictDense.  [vals] lists the contents up
    to the capacity of the Go slice (a slice expression is checked against it). *)
Definition dense_row (p : platform) (e : Ensemble) (vals : list f64) (ncols nEstimators : Z)
  (i : Z) : list cmd :=
  cmds_of (slice vals (s64 (i * ncols)) (s64 ((i + 1) * ncols)))
          (fun fvals => predictInnerAndTransform p e fvals nEstimators
                          (s64 (i * NOutputGroups e))).

(** A loop over rows with a worker-local value threaded through: [row l i] gives the
    writes for row i and the local value for the next row (leaves.go:168-179, 210-213,
    235-237). *)
Fixpoint exec_rows {L : Type} (row : L -> Z -> list cmd * L) (rows : list Z) (l : L)
  (m : list f64) : outcome (list f64) :=
  match rows with
  | [] => Ok m
  | i :: rows' =>
      let* m' := exec (fst (row l i)) m in
      exec_rows row rows' (snd (row l i)) m'
  end.

(** leaves.go:125 and 219: int(math.Ceil(float64(nRows) / BatchSize)).  The quotient is
    finite and non-negative for nRows > 0 ([trunc] then applies). *)
Definition fceil_int (x : f64) : Z :=
  match trunc x with
  | Some z => if flt (f64_of_Z z) x then z + 1 else z
  | None => 0
  end.
Definition nBatches_of (nRows : Z) : Z := fceil_int (fdiv (f64_of_Z nRows) (f64_of_Z BatchSize)).

(** leaves.go:122-128 and 216-222: the number of goroutines started *)
Definition nThreads_of (p : platform) (nRows nThreads : Z) : Z :=
  let n := if (pl_gomaxprocs p <? nThreads) || (nThreads <? 1) then pl_gomaxprocs p
           else nThreads in
  if nBatches_of nRows <? n then nBatches_of nRows else n.

(** leaves.go:115 and 208: the condition for single-threaded calculation *)
Definition single_threaded (nRows nThreads : Z) : bool :=
  (nRows <=? BatchSize) || (nThreads =? 0) || (nThreads =? 1).

(** leaves.go:195-206: argument checks of PredictDense; the adjusted number of
    estimators *)
Definition dense_checks (e : Ensemble) (nrows ncols : Z) (predictions : list f64)
  (nEstimators : Z) : outcome Z :=
  if zlen predictions <? s64 (NOutputGroups e * nrows) then Err "predictions slice too short"
  else if (ncols =? 0) || (ncols <? NFeatures e) then Err "incorrect number of columns"
  else
    let* nEstimators := b_adjustNEstimators (eBase e) nEstimators in
    let* _ := checkNEstimators e nEstimators in
    Ok nEstimators.

(** leaves.go:105-113: argument checks of PredictCSR *)
Definition csr_checks (e : Ensemble) (indptr : list Z) (predictions : list f64)
  (nEstimators : Z) : outcome Z :=
  let nRows := zlen indptr - 1 in
  if zlen predictions <? s64 (NOutputGroups e * nRows) then Err "predictions slice too short"
  else
    let* nEstimators := b_adjustNEstimators (eBase e) nEstimators in
    let* _ := checkNEstimators e nEstimators in
    Ok nEstimators.

(** leaves.go:209-214: the single-threaded body of PredictDense *)
Definition dense_single (p : platform) (e : Ensemble) (vals : list f64) (nrows ncols : Z)
  (predictions : list f64) (nEstimators : Z) : outcome (list f64) :=
  exec_rows (fun (_ : unit) i => (dense_row p e vals ncols nEstimators i, tt))
            (zseq nrows) tt predictions.

(** leaves.go:117-118 and 136-137: the feature buffer *)
Definition csr_buffer (p : platform) (e : Ensemble) : outcome (list f64) :=
  let* fvals := make_f64 p (NFeatures e) in
  Ok (b_resetFVals (eBase e) fvals).

(** leaves.go:116-120: the single-threaded body of PredictCSR *)
Definition csr_single (p : platform) (e : Ensemble) (indptr cols : list Z) (vals : list f64)
  (predictions : list f64) (nEstimators : Z) : outcome (list f64) :=
  let* fvals := csr_buffer p e in
  exec_rows (csr_row p e indptr cols vals nEstimators) (zseq (zlen indptr - 1)) fvals
            predictions.
