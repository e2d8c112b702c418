(** * Model of /repo/lgensemble.go, /repo/xgensemble.go and /repo/xgblinear.go *)

From Coq Require Import ZArith List Bool String.
From Verif Require Import Go GoFloat GoText Cmd UtilBits LgTree.

(** Go integer division: truncation, panic on a zero divisor *)
Definition go_div (a b : Z) : outcome Z :=
  if b =? 0 then Panic "integer divide by zero" else Ok (Z.quot a b).

(** make([]float64, n): panics when n is negative or cannot be allocated *)
Definition make_f64 (p : platform) (n : Z) : outcome (list f64) :=
  if (n <? 0) || (pl_maxalloc p <? n) then Panic "makeslice: len out of range"
  else Ok (repeat fzero (Z.to_nat n)).

(** lgensemble.go:8-19 lgEnsemble *)
Record lgEnsemble : Type := mkLgEnsemble {
  lgTrees : list lgTree;
  lgMaxFeatureIdx : Z;
  lgNRawOutputGroups : Z;
  lgName : bytes;
  lgAverageOutput : bool }.

(** xgensemble.go:10-18 xgEnsemble *)
Record xgEnsemble : Type := mkXgEnsemble {
  xgTrees : list lgTree;
  xgMaxFeatureIdx : Z;
  xgNRawOutputGroups : Z;
  xgBaseScore : f64;
  xgWeightDrop : list f64;
  xgName : bytes }.

(** xgblinear.go:4-9 xgLinear; float32 weights are kept as bit patterns *)
Record xgLinear : Type := mkXgLinear {
  xlNumFeature : Z;
  xlNRawOutputGroups : Z;
  xlBaseScore : f64;
  xlWeights : list Z }.

(** lgensemble.go:21-23 and xgensemble.go:20-22 NEstimators *)
Definition trees_NEstimators (trees : list lgTree) (groups : Z) : outcome Z :=
  go_div (zlen trees) groups.

(** lgensemble.go:29-34 and xgensemble.go:28-33 NFeatures; [MaxFeatureIdx + 1]
    wraps for the largest int *)
Definition trees_NFeatures (maxFeatureIdx : Z) : Z :=
  if 0 <? maxFeatureIdx then s64 (maxFeatureIdx + 1) else 0.

(** lgensemble.go:36-44 and xgensemble.go:35-43 NLeaves *)
Definition trees_NLeaves (p : platform) (trees : list lgTree) (groups : Z) : outcome (list Z) :=
  let* n := trees_NEstimators trees groups in
  if (s64 (n * groups) <? 0) || (pl_maxalloc p <? s64 (n * groups))
  then Panic "makeslice: len out of range" else
  foldM (fun nleaves estimatorID =>
           foldM (fun nleaves groupID =>
                    let* t := at_ trees (estimatorID * groups + groupID) in
                    set_at nleaves (groupID * n + estimatorID) (nLeaves t))
                 (zseq groups) nleaves)
        (zseq n) (repeat 0 (Z.to_nat (s64 (n * groups)))).

(** lgensemble.go:83-90 and xgensemble.go:49-56 adjustNEstimators *)
Definition trees_adjustNEstimators (trees : list lgTree) (groups nEstimators : Z) : outcome Z :=
  let* n := trees_NEstimators trees groups in
  Ok (if 0 <? nEstimators then MinInt nEstimators n else n).

(** lgensemble.go:50-66 predictInner.  Index sums are not wrapped: an index
    beyond the int range panics either way. *)
Definition lg_predictInner (p : platform) (e : lgEnsemble) (fvals : list f64)
  (nEstimators startIndex : Z) : list cmd :=
  let g := lgNRawOutputGroups e in
  let coef := if lgAverageOutput e then fdiv fone (f64_of_Z nEstimators) else fone in
  map (fun k => CSet (startIndex + k) fzero) (zseq g)
  ++ flat_map (fun i =>
       map (fun k =>
              cmd_of (let* t := at_ (lgTrees e) (i * g + k) in predict p t fvals)
                     (fun r => CAdd (startIndex + k) (fmul (fst r) coef)))
           (zseq g)) (zseq nEstimators).

(** xgensemble.go:58-70 predictInner *)
Definition xg_predictInner (p : platform) (e : xgEnsemble) (fvals : list f64)
  (nEstimators startIndex : Z) : list cmd :=
  let g := xgNRawOutputGroups e in
  map (fun k => CSet (startIndex + k) (xgBaseScore e)) (zseq g)
  ++ flat_map (fun i =>
       map (fun k =>
              let ID := i * g + k in
              cmd_of (let* t := at_ (xgTrees e) ID in
                      let* r := predict p t fvals in
                      let* w := at_ (xgWeightDrop e) ID in
                      Ok (fmul (fst r) w))
                     (fun v => CAdd (startIndex + k) v))
           (zseq g)) (zseq nEstimators).

(** lgensemble.go:68-81 and xgensemble.go:72-85 predictLeafIndicesInner *)
Definition trees_predictLeafIndicesInner (p : platform) (trees : list lgTree) (g : Z)
  (fvals : list f64) (nEstimators startIndex : Z) : list cmd :=
  let nResults := s64 (g * nEstimators) in
  map (fun k => CSet (startIndex + k) fzero) (zseq nResults)
  ++ flat_map (fun i =>
       map (fun k =>
              cmd_of (let* t := at_ trees (i * g + k) in predict p t fvals)
                     (fun r => CSet (startIndex + k * nEstimators + i) (f64_of_Z (snd r))))
           (zseq g)) (zseq nEstimators).

(** lgensemble.go:92-96 resetFVals *)
Definition lg_resetFVals (fvals : list f64) : list f64 := map (fun _ => fzero) fvals.
(** xgensemble.go:87-91 resetFVals *)
Definition xg_resetFVals (fvals : list f64) : list f64 := map (fun _ => fnan) fvals.
(** xgblinear.go:49-53 resetFVals *)
Definition xl_resetFVals (fvals : list f64) : list f64 := map (fun _ => fzero) fvals.

(** xgblinear.go:36-43 predictInner *)
Definition xl_predictInner (e : xgLinear) (fvals : list f64) (startIndex : Z) : list cmd :=
  let g := xlNRawOutputGroups e in
  flat_map (fun k =>
    cmd_of (at_ (xlWeights e) (s64 (g * xlNumFeature e + k)))
           (fun w => CSet (startIndex + k) (fadd (xlBaseScore e) (f64_of_f32bits w)))
    :: map (fun i =>
              cmd_of (let* x := at_ fvals i in
                      let* w := at_ (xlWeights e) (s64 (g * i + k)) in
                      Ok (fmul x (f64_of_f32bits w)))
                     (fun v => CAdd (startIndex + k) v))
           (zseq (xlNumFeature e)))
    (zseq g).
