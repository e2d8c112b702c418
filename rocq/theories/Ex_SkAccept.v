(** * Objects that meet the hypotheses of C65 *)

From Coq Require Import ZArith List Bool String Lia.
From Verif Require Import Go GoFloat GoText LgTree Transformation Ensembles Leaves XgBin Pickle SkClasses SkIO.
From Verif Require Import Spec_Numpy Spec_Pickle Spec_Dump Spec_SkFile Spec_SkAccept.
From Verif Require Import Pf_Go Pf_Dump Prop_Pickle Prop_Sk Prop_SkAccept Demo DemoText Ex_Sk.
Local Open Scope Z_scope.

(** The two-class model of Ex_Sk.v is accepted, so it has the form C65 asks for. *)
Example C65_demo : model_like 1 (py_gb k_model).
Proof.
  destruct C47_demo_hypotheses as (s & mu & En & G & Sa & Fi & _).
  destruct (C47_sklearn_file _ _ _ _ _ _ [] true true En G Sa Fi) as (e & L & N & _).
  change 1 with (score_groups (gbNClasses k_model)). rewrite <- N. exact (C65_sklearn_accepts_only_models _ _ _ _ _ _ _ _ En L).
Qed.

(** A regressor with the same attributes is of another class. *)
Definition py_with (class : bytes) (classes : pyobj) (g : SklearnGradientBoosting) : pyobj :=
  py_instance (bs "sklearn.ensemble.gradient_boosting") class
    [(bs "n_classes_", PInt (gbNClasses g)); (bs "learning_rate", PFloat (gbLearningRate g)); (bs "loss", PStr (bs "deviance"));
     (bs "init_", py_init (gbInit g)); (bs "classes_", classes);
     (bs "max_features_", PInt (gbMaxFeatures g)); (bs "n_estimators", PInt (gbNEstimators g));
     (bs "estimators_", py_array [gbNEstimators g; score_groups (gbNClasses g)] (bs "O8") (PList (map py_reg (gbEstimators g))))].
Definition row_classes : pyobj := py_array [2] (bs "i8") (py_raw (flat_map (e_i64 true) [0; 1])).
Definition column_classes : pyobj :=
  PBuild (PReduce (PGlobal (bs "numpy.core.multiarray") (bs "_reconstruct")) [PGlobal (bs "numpy") (bs "ndarray"); PTuple [PInt 0]; PStr (bs "b")])
         (PTuple [PInt 1; PTuple [PInt 2]; py_dtype (bs "i8"); PInt 1; py_raw (flat_map (e_i64 true) [0; 1])]).
Definition py_regressor : pyobj := py_with (bs "GradientBoostingRegressor") row_classes k_model.
Definition py_columns : pyobj := py_with (bs "GradientBoostingClassifier") column_classes k_model.

Ltac with_dumpable := unfold py_with, py_instance, py_init, row_classes, column_classes, k_model;
  cbn [gbInit k_gb ieName gbNClasses gbLearningRate gbClasses gbMaxFeatures gbNEstimators gbEstimators map score_groups];
  replace (beqb _ _) with true by (vm_compute; reflexivity);
  unfold py_scalar, py_array, py_dtype, py_raw, py_reg, py_instance, py_tree, py_array, py_scalar, py_dtype, py_raw, k_tree;
  cbn [srTree stNOutputs stNNodes srMaxFeatures srNOutputs srNClasses map]; dumpable_tac.
Lemma regressor_dumpable : dumpable k_repr amd64_text py_regressor.
Proof. unfold py_regressor. with_dumpable. Qed.
Lemma columns_dumpable : dumpable k_repr amd64_text py_columns.
Proof. unfold py_columns. with_dumpable. Qed.
Lemma dumped : forall o, dumpable k_repr amd64_text o -> exists mu, enc amd64_text true [] o (fst (dump k_repr o 0)) mu.
Proof. intros o D. destruct (works_all k_repr amd64_text true o [] 0 D) as (mu & E & _). { split; [lia|intros k []]. } exists mu. exact E. Qed.

Example C65_other_class_hypotheses : exists kv s mu,
  instance_is (bs "sklearn.ensemble.gradient_boosting") (bs "GradientBoostingRegressor") kv py_regressor /\
  (bs "sklearn.ensemble.gradient_boosting", bs "GradientBoostingRegressor") <> (bs "sklearn.ensemble.gradient_boosting", bs "GradientBoostingClassifier") /\
  enc amd64_text true [] py_regressor s mu.
Proof. destruct (dumped _ regressor_dumpable) as (mu & E). do 3 eexists. split; [constructor|]. split; [discriminate|exact E]. Qed.
Example C65_column_major_hypotheses : exists kv a s mu,
  instance_is (bs "sklearn.ensemble.gradient_boosting") (bs "GradientBoostingClassifier") kv py_columns /\
  attr kv "classes_" a /\ column_major a /\ enc amd64_text true [] py_columns s mu.
Proof.
  destruct (dumped _ columns_dumpable) as (mu & E). do 4 eexists. split; [constructor|]. split; [reflexivity|]. split; [|exact E].
  apply (column_major_intro _ _ 1 [PInt 2] _ 1). discriminate.
Qed.
(** what the loader says about them; with the class and the array order put right the file loads *)
Example C65_refused :
  SKEnsembleFromReader amd64_text (mkReader (dumps k_repr py_regressor) true) true = Err "not expected Global Name" /\
  SKEnsembleFromReader amd64_text (mkReader (dumps k_repr py_columns) true) true = Err "expected isFortran = 0" /\
  exists e, SKEnsembleFromReader amd64_text (mkReader (dumps k_repr (py_with (bs "GradientBoostingClassifier") row_classes k_model)) true) true = Ok e.
Proof. split; [vm_compute; reflexivity|]. split; [vm_compute; reflexivity|]. eexists. vm_compute. reflexivity. Qed.
