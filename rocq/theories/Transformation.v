(** * Model of /repo/transformation *)

From Coq Require Import ZArith List Bool String.
From Verif Require Import Go GoFloat Cmd UtilMath.

(** transformation/transformation.go:12-29 TransformType constants *)
Definition TypeRaw : Z := 0.
Definition TypeLogistic : Z := 1.
Definition TypeSoftmax : Z := 2.
Definition TypeLeafIndex : Z := 3.
Definition TypeExponential : Z := 4.
Definition TypeLast : Z := 4.

(** transformation/transformation.go:32-37 transformNames *)
Definition transformNames : list string :=
  ["raw"; "logistic"; "softmax"; "leaf_index"]%string.

(** transformation/transformation.go:31-43 TransformType.Name *)
Definition TransformType_Name (t : Z) : outcome string :=
  if (t <? TypeRaw) || (TypeLast <? t) then Ok "unknown"%string
  else at_ transformNames t.

(** The implementations of the interface transformation/transformation.go:3-8:
    raw.go:3-5, logistic.go:9, softmax.go:9-11, leaf_index.go:3-5,
    exponential.go:8 *)
Inductive transform : Type :=
| TransformRaw (NumOutputGroups : Z)
| TransformLogistic
| TransformSoftmax (NClasses : Z)
| TransformLeafIndex (NumOutputGroups : Z)
| TransformExponential.

(** raw.go:14-16, logistic.go:20-22, softmax.go:22-24, leaf_index.go:16-18,
    exponential.go:19-21 NOutputGroups *)
Definition NOutputGroups_t (t : transform) : Z :=
  match t with
  | TransformRaw n => n
  | TransformLogistic => 1
  | TransformSoftmax n => n
  | TransformLeafIndex n => n
  | TransformExponential => 1
  end.

(** raw.go:18-20, logistic.go:24-26, softmax.go:26-28, leaf_index.go:20-22,
    exponential.go:23-25 Type *)
Definition Type_t (t : transform) : Z :=
  match t with
  | TransformRaw _ => TypeRaw
  | TransformLogistic => TypeLogistic
  | TransformSoftmax _ => TypeSoftmax
  | TransformLeafIndex _ => TypeLeafIndex
  | TransformExponential => TypeExponential
  end.

(** raw.go:22-24, logistic.go:28-30, softmax.go:30-32, leaf_index.go:24-26,
    exponential.go:27-29 (which asks for the name of Logistic) Name *)
Definition Name_t (t : transform) : outcome string :=
  match t with
  | TransformRaw _ => TransformType_Name TypeRaw
  | TransformLogistic => TransformType_Name TypeLogistic
  | TransformSoftmax _ => TransformType_Name TypeSoftmax
  | TransformLeafIndex _ => TransformType_Name TypeLeafIndex
  | TransformExponential => TransformType_Name TypeLogistic
  end.

(** raw.go:7-12, logistic.go:11-18, softmax.go:13-20, leaf_index.go:7-14,
    exponential.go:10-17 Transform: the writes performed, or the error *)
Definition Transform_t (p : platform) (t : transform) (rawPredictions : list f64)
  (startIndex : Z) : outcome (list cmd) :=
  let copy := map (fun iv => CSet (startIndex + fst iv) (snd iv))
                  (combine (zseq (zlen rawPredictions)) rawPredictions) in
  match t with
  | TransformRaw _ => Ok copy
  | TransformLeafIndex _ => Ok copy
  | TransformLogistic =>
      if negb (zlen rawPredictions =? 1) then Err "expected len(rawPredictions) = 1"
      else let* r := at_ rawPredictions 0 in Ok [CSet startIndex (Sigmoid p r)]
  | TransformExponential =>
      if negb (zlen rawPredictions =? 1) then Err "expected len(rawPredictions) = 1"
      else let* r := at_ rawPredictions 0 in Ok [CSet startIndex (pl_exp p r)]
  | TransformSoftmax n =>
      if negb (zlen rawPredictions =? n) then Err "expected len(rawPredictions) = NClasses"
      else Ok (SoftmaxFloat64Slice p rawPredictions startIndex)
  end.
