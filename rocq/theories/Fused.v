(** * Model of predictions with fused multiply-add

    The Go specification lets a compiler compute x*y + z with one rounding instead of two; it does
    so on arm64, ppc64le, s390x and riscv64, not on amd64.  In the prediction code there are three
    places: lgensemble.go:63, xgensemble.go:67 and xgblinear.go:40.  This file has these functions
    with either choice at every single addition; the rest of the model is for the choice "not
    fused". *)

From Coq Require Import ZArith List Bool String SpecFloat.
From Verif Require Import Go GoFloat Cmd UtilMath LgTree Transformation Ensembles Leaves.

(** x*y + z with one rounding (IEEE 754 fusedMultiplyAdd) *)
Definition ffma (x y z : f64) : f64 :=
  match x, y with
  | S754_finite sx mx ex, S754_finite sy my ey =>
      let mxy := cond_Zopp (xorb sx sy) (Zpos (mx * my)) in
      match z with
      | S754_zero _ => binary_normalize 53 1024 mxy (ex + ey) false
      | S754_finite sz mz ez =>
          let e := Z.min (ex + ey) ez in
          binary_normalize 53 1024 (mxy * 2 ^ (ex + ey - e) + cond_Zopp sz (Zpos mz) * 2 ^ (ez - e)) e false
      | _ => z
      end
  | _, _ => fadd (fmul x y) z
  end.

(** as [cmd] (Cmd.v), with the accumulation p[i] += x*y *)
Inductive fcmd : Type :=
| FCmd (c : cmd)
| FMulAdd (i : Z) (x y : f64).

(** the compiler's choice for an addition is taken from [fuse] at the number of commands left *)
Fixpoint fexec (fuse : nat -> bool) (cs : list fcmd) (m : list f64) : outcome (list f64) :=
  match cs with
  | [] => Ok m
  | FCmd c :: cs' => let* m' := exec1 c m in fexec fuse cs' m'
  | FMulAdd i x y :: cs' =>
      let* a := at_ m i in
      let* m' := set_at m i (if fuse (List.length cs') then ffma x y a else fadd a (fmul x y)) in
      fexec fuse cs' m'
  end.

(** as [cmd_of] *)
Definition fcmd_of {A : Type} (x : outcome A) (k : A -> fcmd) : fcmd :=
  match x with
  | Ok a => k a
  | Err m => FCmd (CPanic m)
  | Panic m => FCmd (CPanic m)
  | Hang => FCmd CHang
  end.

(** lgensemble.go:50-66 predictInner *)
Definition lg_fused (p : platform) (e : lgEnsemble) (fvals : list f64) (nEstimators startIndex : Z) : list fcmd :=
  let g := lgNRawOutputGroups e in
  let coef := if lgAverageOutput e then fdiv fone (f64_of_Z nEstimators) else fone in
  map (fun k => FCmd (CSet (startIndex + k) fzero)) (zseq g)
  ++ flat_map (fun i =>
       map (fun k =>
              fcmd_of (let* t := at_ (lgTrees e) (i * g + k) in predict p t fvals)
                      (fun r => FMulAdd (startIndex + k) (fst r) coef))
           (zseq g)) (zseq nEstimators).

(** xgensemble.go:58-70 predictInner *)
Definition xg_fused (p : platform) (e : xgEnsemble) (fvals : list f64) (nEstimators startIndex : Z) : list fcmd :=
  let g := xgNRawOutputGroups e in
  map (fun k => FCmd (CSet (startIndex + k) (xgBaseScore e))) (zseq g)
  ++ flat_map (fun i =>
       map (fun k =>
              let ID := i * g + k in
              fcmd_of (let* t := at_ (xgTrees e) ID in
                       let* r := predict p t fvals in
                       let* w := at_ (xgWeightDrop e) ID in
                       Ok (fst r, w))
                      (fun vw => FMulAdd (startIndex + k) (fst vw) (snd vw)))
           (zseq g)) (zseq nEstimators).

(** xgblinear.go:36-43 predictInner *)
Definition xl_fused (e : xgLinear) (fvals : list f64) (startIndex : Z) : list fcmd :=
  let g := xlNRawOutputGroups e in
  flat_map (fun k =>
    fcmd_of (at_ (xlWeights e) (s64 (g * xlNumFeature e + k)))
            (fun w => FCmd (CSet (startIndex + k) (fadd (xlBaseScore e) (f64_of_f32bits w))))
    :: map (fun i =>
              fcmd_of (let* x := at_ fvals i in
                       let* w := at_ (xlWeights e) (s64 (g * i + k)) in
                       Ok (x, f64_of_f32bits w))
                      (fun xw => FMulAdd (startIndex + k) (fst xw) (snd xw)))
           (zseq (xlNumFeature e)))
    (zseq g).

(** lgensemble.go:50-66, xgensemble.go:58-70, xgblinear.go:36-43 *)
Fixpoint b_fused (p : platform) (b : base) (fvals : list f64) (nEstimators startIndex : Z) : list fcmd :=
  match b with
  | BLg e => lg_fused p e fvals nEstimators startIndex
  | BXg e => xg_fused p e fvals nEstimators startIndex
  | BLinear e => xl_fused e fvals startIndex
  | BEnsemble b _ => b_fused p b fvals nEstimators startIndex
  end.

(** leaves.go:33-44 predictInnerAndTransform, writing to [predictions] from index 0.  The
    transformations have no product followed by an addition. *)
Definition predictInnerAndTransform_fused (fuse : nat -> bool) (p : platform) (e : Ensemble) (fvals : list f64)
  (nEstimators : Z) (predictions : list f64) : outcome (list f64) :=
  if Type_t (eTransform e) =? TypeRaw then
    fexec fuse (b_fused p (eBase e) fvals nEstimators 0) predictions
  else if Type_t (eTransform e) =? TypeLeafIndex then
    exec (b_predictLeafIndicesInner p (eBase e) fvals nEstimators 0) predictions
  else
    exec (cmds_of (let* raw := make_f64 p (NRawOutputGroups e) in
                   fexec fuse (b_fused p (eBase e) fvals nEstimators 0) raw)
            (fun raw =>
               match Transform_t p (eTransform e) raw 0 with
               | Ok cs => cs
               | Err _ => []
               | Panic m => [CPanic m]
               | Hang => [CHang]
               end)) predictions.

(** leaves.go:80-96 Predict *)
Definition Predict_fused (fuse : nat -> bool) (p : platform) (e : Ensemble) (fvals : list f64) (nEstimators : Z)
  (predictions : list f64) : outcome (list f64) :=
  if zlen predictions <? s64 (NOutputGroups e * 1) then Err "predictions slice too short"
  else if zlen fvals <? NFeatures e then Err "incorrect number of features"
  else
    let* nEstimators := b_adjustNEstimators (eBase e) nEstimators in
    let* _ := checkNEstimators e nEstimators in
    predictInnerAndTransform_fused fuse p e fvals nEstimators predictions.
