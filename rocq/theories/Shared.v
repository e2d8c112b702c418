(** * Model of calls whose input and output slices share memory (/repo/leaves.go)

    In Leaves.v the features and [predictions] are separate values.  In Go both are slices of
    float64 and may be windows of the same memory, for example when a caller overwrites a row
    by its prediction.  Here there is one memory; the features are its cells
    [foff .. foff+flen-1], [predictions] its cells [poff .. poff+plen-1].  Each function below
    is the one of Ensembles.v and Leaves.v with every read of a feature made at the moment of
    the read.  Calls that start goroutines are not covered. *)

From Coq Require Import ZArith List Bool String.
From Verif Require Import Go GoFloat GoText Cmd UtilBits UtilMath LgTree Transformation Ensembles Leaves Concurrent.
Local Open Scope Z_scope.

(** an access to [predictions] whose operand is computed from what the features contain just
    before the access *)
Definition scmd : Type := list f64 -> cmd.

(** the accesses in program order *)
Fixpoint exec_s (foff flen poff plen : Z) (cs : list scmd) (mem : list f64) : outcome (list f64) :=
  match cs with
  | [] => Ok mem
  | c :: cs' =>
      let* w := exec1 (c (window mem foff flen)) (window mem poff plen) in
      exec_s foff flen poff plen cs' (splice mem poff plen w)
  end.

(** lgensemble.go:50-66 predictInner *)
Definition lg_predictInner_s (p : platform) (e : lgEnsemble) (nEstimators startIndex : Z) : list scmd :=
  let g := lgNRawOutputGroups e in
  let coef := if lgAverageOutput e then fdiv fone (f64_of_Z nEstimators) else fone in
  map (fun k _ => CSet (startIndex + k) fzero) (zseq g)
  ++ flat_map (fun i =>
       map (fun k fvals =>
              cmd_of (let* t := at_ (lgTrees e) (i * g + k) in predict p t fvals)
                     (fun r => CAdd (startIndex + k) (fmul (fst r) coef)))
           (zseq g)) (zseq nEstimators).

(** xgensemble.go:58-70 predictInner *)
Definition xg_predictInner_s (p : platform) (e : xgEnsemble) (nEstimators startIndex : Z) : list scmd :=
  let g := xgNRawOutputGroups e in
  map (fun k _ => CSet (startIndex + k) (xgBaseScore e)) (zseq g)
  ++ flat_map (fun i =>
       map (fun k fvals =>
              let ID := i * g + k in
              cmd_of (let* t := at_ (xgTrees e) ID in
                      let* r := predict p t fvals in
                      let* w := at_ (xgWeightDrop e) ID in
                      Ok (fmul (fst r) w))
                     (fun v => CAdd (startIndex + k) v))
           (zseq g)) (zseq nEstimators).

(** xgblinear.go:36-43 predictInner *)
Definition xl_predictInner_s (e : xgLinear) (startIndex : Z) : list scmd :=
  let g := xlNRawOutputGroups e in
  flat_map (fun k =>
    (fun _ => cmd_of (at_ (xlWeights e) (s64 (g * xlNumFeature e + k)))
           (fun w => CSet (startIndex + k) (fadd (xlBaseScore e) (f64_of_f32bits w))))
    :: map (fun i fvals =>
              cmd_of (let* x := at_ fvals i in
                      let* w := at_ (xlWeights e) (s64 (g * i + k)) in
                      Ok (fmul x (f64_of_f32bits w)))
                     (fun v => CAdd (startIndex + k) v))
           (zseq (xlNumFeature e)))
    (zseq g).

(** lgensemble.go:68-81 and xgensemble.go:72-85 predictLeafIndicesInner *)
Definition trees_predictLeafIndicesInner_s (p : platform) (trees : list lgTree) (g : Z)
  (nEstimators startIndex : Z) : list scmd :=
  let nResults := s64 (g * nEstimators) in
  map (fun k _ => CSet (startIndex + k) fzero) (zseq nResults)
  ++ flat_map (fun i =>
       map (fun k fvals =>
              cmd_of (let* t := at_ trees (i * g + k) in predict p t fvals)
                     (fun r => CSet (startIndex + k * nEstimators + i) (f64_of_Z (snd r))))
           (zseq g)) (zseq nEstimators).

(** the interface methods, as in Leaves.v *)
Fixpoint b_predictInner_s (p : platform) (b : base) (nEstimators startIndex : Z) : list scmd :=
  match b with
  | BLg e => lg_predictInner_s p e nEstimators startIndex
  | BXg e => xg_predictInner_s p e nEstimators startIndex
  | BLinear e => xl_predictInner_s e startIndex
  | BEnsemble b _ => b_predictInner_s p b nEstimators startIndex
  end.
Fixpoint b_predictLeafIndicesInner_s (p : platform) (b : base) (nEstimators startIndex : Z) : list scmd :=
  match b with
  | BLg e => trees_predictLeafIndicesInner_s p (lgTrees e) (lgNRawOutputGroups e) nEstimators startIndex
  | BXg e => trees_predictLeafIndicesInner_s p (xgTrees e) (xgNRawOutputGroups e) nEstimators startIndex
  | BLinear _ => []
  | BEnsemble b _ => b_predictLeafIndicesInner_s p b nEstimators startIndex
  end.

(** leaves.go:33-44 predictInnerAndTransform.  In the last branch the features are only read
    while [rawPredictions], a fresh slice, is filled; [predictions] is written afterwards. *)
Definition predictInnerAndTransform_s (p : platform) (e : Ensemble) (foff flen nEstimators : Z)
  (poff plen startIndex : Z) (mem : list f64) : outcome (list f64) :=
  if Type_t (eTransform e) =? TypeRaw then
    exec_s foff flen poff plen (b_predictInner_s p (eBase e) nEstimators startIndex) mem
  else if Type_t (eTransform e) =? TypeLeafIndex then
    exec_s foff flen poff plen (b_predictLeafIndicesInner_s p (eBase e) nEstimators startIndex) mem
  else
    let* raw := make_f64 p (NRawOutputGroups e) in
    let* raw := exec (b_predictInner p (eBase e) (window mem foff flen) nEstimators 0) raw in
    match Transform_t p (eTransform e) raw startIndex with
    | Ok cs => let* w := exec cs (window mem poff plen) in Ok (splice mem poff plen w)
    | Err _ => Ok mem
    | Panic m => Panic m
    | Hang => Hang
    end.

(** leaves.go:80-96 Predict: the memory after a nil error *)
Definition Predict_s (p : platform) (e : Ensemble) (foff flen nEstimators poff plen : Z)
  (mem : list f64) : outcome (list f64) :=
  let nRows := 1 in
  if plen <? s64 (NOutputGroups e * nRows) then Err "predictions slice too short"
  else if flen <? NFeatures e then Err "incorrect number of features"
  else
    let* nEstimators := b_adjustNEstimators (eBase e) nEstimators in
    let* _ := checkNEstimators e nEstimators in
    predictInnerAndTransform_s p e foff flen nEstimators poff plen 0 mem.

(** leaves.go:211-212: one row of PredictDense; [vals] is [voff .. voff+vcap-1] *)
Definition dense_row_s (p : platform) (e : Ensemble) (voff vcap ncols nEstimators poff plen : Z)
  (mem : list f64) (i : Z) : outcome (list f64) :=
  let lo := s64 (i * ncols) in
  let hi := s64 ((i + 1) * ncols) in
  if (lo <? 0) || (hi <? lo) || (vcap <? hi) then Panic "slice bounds out of range"
  else predictInnerAndTransform_s p e (voff + lo) (hi - lo) nEstimators poff plen
         (s64 (i * NOutputGroups e)) mem.

(** leaves.go:209-214: the single-threaded body of PredictDense *)
Definition dense_single_s (p : platform) (e : Ensemble) (voff vcap nrows ncols nEstimators poff plen : Z)
  (mem : list f64) : outcome (list f64) :=
  foldM (dense_row_s p e voff vcap ncols nEstimators poff plen) (zseq nrows) mem.

(** leaves.go:168-179: one iteration of the row loop of predictCSRInner; the buffer is private *)
Definition csr_row_s (p : platform) (e : Ensemble) (indptr cols : list Z) (voff vlen nEstimators poff plen : Z)
  (st : list f64 * list f64) (i : Z) : outcome (list f64 * list f64) :=
  let (fvals, mem) := st in
  let* start := at_ indptr i in
  let* end_ := at_ indptr (i + 1) in
  let* fvals := csr_fill cols (window mem voff vlen) start end_ fvals in
  let* w := exec (predictInnerAndTransform p e fvals nEstimators (s64 (i * NOutputGroups e))) (window mem poff plen) in
  Ok (b_resetFVals (eBase e) fvals, splice mem poff plen w).

(** leaves.go:116-120: the single-threaded body of PredictCSR *)
Definition csr_single_s (p : platform) (e : Ensemble) (indptr cols : list Z) (voff vlen nEstimators poff plen : Z)
  (mem : list f64) : outcome (list f64) :=
  let* fvals := csr_buffer p e in
  let* st := foldM (csr_row_s p e indptr cols voff vlen nEstimators poff plen)
                   (zseq (zlen indptr - 1)) (fvals, mem) in
  Ok (snd st).

(** leaves.go:187-214 PredictDense with nThreads = 1 *)
Definition PredictDense_s (p : platform) (e : Ensemble) (voff vcap nrows ncols poff plen nEstimators : Z)
  (mem : list f64) : outcome (list f64) :=
  let* n := dense_checks e nrows ncols (window mem poff plen) nEstimators in
  dense_single_s p e voff vcap nrows ncols n poff plen mem.

(** leaves.go:104-120 PredictCSR with nThreads = 1 *)
Definition PredictCSR_s (p : platform) (e : Ensemble) (indptr cols : list Z) (voff vlen poff plen nEstimators : Z)
  (mem : list f64) : outcome (list f64) :=
  let* n := csr_checks e indptr (window mem poff plen) nEstimators in
  csr_single_s p e indptr cols voff vlen n poff plen mem.
