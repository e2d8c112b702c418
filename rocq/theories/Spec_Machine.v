(** * Vocabulary for predictions on different machines *)

From Coq Require Import ZArith List Bool.
From Verif Require Import Go GoFloat LgTree Transformation Ensembles Leaves Spec_Predict.

(** the integer part of a float64 is an int32, or a uint32: Go defines the conversion *)
Definition fits_int32 (v : f64) : Prop := exists z, trunc v = Some z /\ - two31 <= z < two31.
Definition fits_uint32 (v : f64) : Prop := exists z, trunc v = Some z /\ 0 <= z < two32.

(** Go defines what a split does with [v]: always for a numerical split; for a categorical one
    if [v] has an int32 as integer part, or is NaN and the split treats NaN as missing *)
Definition defined_split (n : lgNode) (v : f64) : Prop :=
  has (nFlags n) categorical = true ->
  (fits_int32 v \/ (is_nan v = true /\ has (nFlags n) missingNan = true)) /\
  (if has (nFlags n) catOneHot then fits_int32 (nThreshold n) else fits_uint32 (nThreshold n)).

(** ... for all splits of the model *)
Definition defined_splits (e : Ensemble) (fvals : list f64) : Prop :=
  Forall (fun t => Forall (fun n => forall v, zget fvals (nFeature n) = Some v -> defined_split n v) (tNodes t)) (model_trees e).

(** a model without categorical splits *)
Definition numerical_model (e : Ensemble) : Prop :=
  Forall (fun t => Forall (fun n => has (nFlags n) categorical = false) (tNodes t)) (model_trees e).

(** the transformation calls [math.Exp] *)
Definition uses_exp (e : Ensemble) : Prop :=
  match eTransform e with TransformLogistic | TransformSoftmax _ | TransformExponential => True | _ => False end.

(** the two machines compute [math.Exp] alike, if the model needs it, and can both hold the raw
    scores of one row *)
Definition machines_alike (p q : platform) (e : Ensemble) : Prop :=
  (uses_exp e -> forall x, pl_exp p x = pl_exp q x) /\
  (uses_exp e -> NRawOutputGroups e <= pl_maxalloc p /\ NRawOutputGroups e <= pl_maxalloc q).

(** the same Go release: the same text is the same number, and slices grow alike *)
Definition same_release (p q : platform) : Prop :=
  (forall s, pl_parse_float p s = pl_parse_float q s) /\ (forall c n, pl_grow p c n = pl_grow q c n).
(** the same conversions of numbers out of range *)
Definition same_conversions (p q : platform) : Prop :=
  forall x, pl_f2u32 p x = pl_f2u32 q x.

(** the second machine does what the first one does, unless the first one crashes *)
Definition unless_crash {A : Type} (a b : outcome A) : Prop := (exists msg, a = Panic msg) \/ b = a.
