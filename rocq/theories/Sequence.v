(** * Model of the loaders with the reader as they leave it

    The loaders of /repo take a *bufio.Reader and return the model only; the caller still has the
    reader and can go on with it.  XgIO.v has the two loaders of XGBoost in this form.  JSON is
    left out: encoding/json reads ahead of what it decodes (lgensemble_io.go:615). *)

From Coq Require Import ZArith List Bool.
From Verif Require Import Go GoFloat GoText UtilText LgTree Transformation Ensembles Leaves LgTextIO XgIO Pickle SkClasses SkIO.
Local Open Scope Z_scope.

(** lgensemble_io.go:293-391; the reader is left where lgTreeFromReader (line 384) left it *)
Definition lg_ensemble_and_rest (p : platform) (r : reader) (loadTransformation : bool) : outcome (Ensemble * reader) :=
  let* (params, r) := ReadParamsUntilBlank r in
  let* (e, nTrees) := lg_header params in
  let* transform := lg_transform params loadTransformation (lgAverageOutput e) (lgNRawOutputGroups e) in
  let* (trees, r) := lg_read_trees p (Z.to_nat nTrees) r in
  Ok (mkEnsemble (BLg (mkLgEnsemble trees (lgMaxFeatureIdx e) (lgNRawOutputGroups e) (lgName e)
                         (lgAverageOutput e))) transform, r).

(** skensemble_io.go:117-176; the reader is left behind STOP (line 120) *)
Definition sk_ensemble_and_rest (p : platform) (r : reader) (loadTransformation : bool) : outcome (Ensemble * reader) :=
  let* (vh, r) := Decode p r in
  let (v, h) := vh : val * heap in
  let* gb := ParseGradientBoosting p h v in
  let* e := SKEnsembleFromClass p gb in
  Ok (e, r).

(** the formats of which a model can be read from a stream with more behind it *)
Inductive format : Type := LightGBM | XGBoost | GBLinear | Sklearn.

(** lgensemble_io.go:293, xgensemble_io.go:136, xgblinear_io.go:13, skensemble_io.go:117 *)
Definition load_next (p : platform) (f : format) (loadTransformation : bool) (r : reader) : outcome (Ensemble * reader) :=
  match f with
  | LightGBM => lg_ensemble_and_rest p r loadTransformation
  | XGBoost => xg_ensemble_and_rest p r loadTransformation
  | GBLinear => xgblinear_and_rest p r loadTransformation
  | Sklearn => sk_ensemble_and_rest p r loadTransformation
  end.
(** the same functions as in LgTextIO.v, XgIO.v and SkIO.v *)
Definition load_one (p : platform) (f : format) (loadTransformation : bool) (r : reader) : outcome Ensemble :=
  match f with
  | LightGBM => LGEnsembleFromReader p r loadTransformation
  | XGBoost => XGEnsembleFromReader p r loadTransformation
  | GBLinear => XGBLinearFromReader p r loadTransformation
  | Sklearn => SKEnsembleFromReader p r loadTransformation
  end.
