(** * Which pickled objects the scikit-learn loader may take for a model (C65)

    Weaker than [gb_is] of Spec_SkFile.v, which describes fitted models: this is what an object
    has to look like for loading to succeed at all. *)

From Coq Require Import ZArith List Bool String.
From Verif Require Import Go GoFloat GoText Pickle.
From Verif Require Import Spec_Pickle Spec_SkFile.
Local Open Scope Z_scope.

(** a byte string; pickled state on top of it is ignored *)
Inductive bytes_value (data : bytes) : pyobj -> Prop :=
| bv_plain : forall o, raw_is data o -> bytes_value data o
| bv_state : forall o st, raw_is data o -> bytes_value data (PBuild o st).

(** a numpy array in row-major order with elements of one type and byte order *)
Definition row_major (type : bytes) (little : bool) (shape : list Z) (payload o : pyobj) : Prop :=
  exists dt, dtype_is type dt little /\ array_is shape dt payload o.
(** the elements: a whole number of records of [width] bytes.  A list is taken for no elements. *)
Definition numbers (width : Z) (payload : pyobj) : Prop :=
  (exists data, bytes_value data payload /\ zlen data mod width = 0) \/ (exists os, payload = PList os).
Definition number_array (type : bytes) (little : bool) (width : Z) (o : pyobj) : Prop :=
  exists shape payload, row_major type little shape payload o /\ numbers width payload.
(** a numpy scalar of 8 bytes *)
Definition number_scalar (type : bytes) (little : bool) (o : pyobj) : Prop :=
  exists dt raw data, dtype_is type dt little /\ bytes_value data raw /\ 8 <= zlen data /\
  let core := PReduce (PGlobal (bs "numpy.core.multiarray") (bs "scalar")) [dt; raw] in
  o = core \/ exists st, o = PBuild core st.

(** an instance of the class; without state the attributes are not asked for *)
Definition of_class (module class : bytes) (attributes : list (bytes * pyobj) -> Prop) (o : pyobj) : Prop :=
  (exists kv, instance_is module class kv o /\ attributes kv) \/
  (exists a b, o = PReduce (PGlobal (bs "copy_reg") (bs "_reconstructor")) [PGlobal module class; a; b]).
Definition has (kv : list (bytes * pyobj)) (key : string) (P : pyobj -> Prop) : Prop := exists o, attr kv key o /\ P o.
Definition an_int (o : pyobj) : Prop := exists z, o = PInt z.

Definition tree_like (o : pyobj) : Prop :=
  exists nf classes n, number_array (bs "i8") true 8 classes /\
  let core := PReduce (PGlobal (bs "sklearn.tree._tree") (bs "Tree")) [nf; classes; PInt n] in
  o = core \/
  exists kv, o = PBuild core (PDict kv) /\ has kv "node_count" an_int /\
    has kv "nodes" (fun a => exists little, number_array (bs "V56") little 56 a) /\
    has kv "values" (fun a => exists little, number_array (bs "f8") little 8 a).
Definition regressor_like : pyobj -> Prop :=
  of_class (bs "sklearn.tree.tree") (bs "DecisionTreeRegressor")
    (fun kv => has kv "n_classes_" (number_scalar (bs "i8") true) /\ has kv "max_features_" an_int /\ has kv "n_outputs_" an_int /\ has kv "tree_" tree_like).
Definition init_like (o : pyobj) : Prop :=
  of_class (bs "sklearn.ensemble.gradient_boosting") (bs "LogOddsEstimator")
    (fun kv => has kv "prior" (fun s => exists little, number_scalar (bs "f8") little s)) o \/
  of_class (bs "sklearn.ensemble.gradient_boosting") (bs "PriorProbabilityEstimator")
    (fun kv => has kv "priors" (fun a => exists little shape payload, row_major (bs "f8") little shape payload a)) o.

(** the model as a whole; [groups] is the number of scores *)
Definition model_like (groups : Z) (o : pyobj) : Prop :=
  exists kv classes estimators,
  instance_is (bs "sklearn.ensemble.gradient_boosting") (bs "GradientBoostingClassifier") kv o /\
  attr kv "n_classes_" (PInt classes) /\ 0 <= classes /\ groups = score_groups classes /\
  has kv "learning_rate" (fun r => exists f, r = PFloat f) /\ has kv "loss" (fun l => exists s, l = PStr s) /\
  has kv "init_" init_like /\
  has kv "classes_" (number_array (bs "i8") true 8) /\ has kv "max_features_" an_int /\
  attr kv "n_estimators" (PInt estimators) /\ estimators <> 0 /\
  (* the trees, one row per estimator *)
  has kv "estimators_" (fun a => exists type little payload, row_major type little [estimators; groups] payload a /\
    ((exists data, bytes_value data payload /\ s64 (estimators * groups) = 0) \/
     exists os, payload = PList os /\ zlen os = s64 (estimators * groups) /\ Forall regressor_like os)).

(** a numpy array stored column by column: its state has a flag that is not 0 *)
Inductive column_major : pyobj -> Prop :=
| column_major_intro : forall a b version shape dt flag payload, flag <> 0 ->
    column_major (PBuild (PReduce (PGlobal (bs "numpy.core.multiarray") (bs "_reconstruct")) [PGlobal (bs "numpy") (bs "ndarray"); a; b])
                         (PTuple [PInt version; PTuple shape; dt; PInt flag; payload])).
