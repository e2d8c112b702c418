(** * A fitted GradientBoostingClassifier as a Python object

    Which Python object (as pickled by sklearn 0.19-0.20) holds which model.  The records of the
    model are used as plain data only. *)

From Coq Require Import ZArith List Bool String.
From Verif Require Import Go GoFloat GoText Pickle SkClasses.
From Verif Require Import Spec_Tree Spec_XgBin Spec_Numpy Spec_Pickle Spec_SkTree.
Local Open Scope Z_scope.

(** numpy.dtype(type, ...) with its state (version, byte order, ...).  A dtype without state is
    what the decoder makes of a dtype that occurs twice (C43_instance_refuted); it counts as
    little endian. *)
Inductive dtype_is (type : bytes) : pyobj -> bool -> Prop :=
| dt_state : forall a b v order fs, zlen fs = 6 ->
    dtype_is type (PBuild (PReduce (PGlobal (bs "numpy") (bs "dtype")) [PStr type; a; b]) (PTuple (v :: PStr [order] :: fs)))
             (Byte.eqb order "<"%byte)
| dt_fetched : forall a b, dtype_is type (PReduce (PGlobal (bs "numpy") (bs "dtype")) [PStr type; a; b]) true.

(** _codecs.encode(data, 'latin1'): a byte string *)
Inductive raw_is (data : bytes) : pyobj -> Prop :=
| raw_intro : forall coding, raw_is data (PReduce (PGlobal (bs "_codecs") (bs "encode")) [PStr data; coding]).

(** a numpy array; [payload] holds its elements *)
Inductive array_is (shape : list Z) (dt payload : pyobj) : pyobj -> Prop :=
| array_intro : forall a b version,
    array_is shape dt payload
      (PBuild (PReduce (PGlobal (bs "numpy.core.multiarray") (bs "_reconstruct")) [PGlobal (bs "numpy") (bs "ndarray"); a; b])
              (PTuple [PInt version; PTuple (map PInt shape); dt; PInt 0; payload])).
(** a numpy array of the elements [xs], each encoded by [e] in the byte order of its type *)
Inductive raw_array_is {A : Type} (type : bytes) (shape : list Z) (e : bool -> A -> bytes) (xs : list A) : bool -> pyobj -> Prop :=
| raw_array_intro : forall dt raw little o, dtype_is type dt little -> raw_is (flat_map (e little) xs) raw ->
    array_is shape dt raw o -> raw_array_is type shape e xs little o.
(** a numpy array of Python objects *)
Inductive object_array_is (shape : list Z) (os : list pyobj) : pyobj -> Prop :=
| object_array_intro : forall type dt little o, dtype_is type dt little -> array_is shape dt (PList os) o -> object_array_is shape os o.
(** a numpy scalar *)
Inductive scalar_is {A : Type} (type : bytes) (e : bool -> A -> bytes) (x : A) : bool -> pyobj -> Prop :=
| scalar_intro : forall dt raw little, dtype_is type dt little -> raw_is (e little x) raw ->
    scalar_is type e x little (PReduce (PGlobal (bs "numpy.core.multiarray") (bs "scalar")) [dt; raw]).
Definition e_i64 (little : bool) (z : Z) : bytes := ordered little (e8 z).

(** an instance of a Python class with attributes [kv] *)
Inductive instance_is (module class : bytes) (kv : list (bytes * pyobj)) : pyobj -> Prop :=
| instance_intro : forall a b,
    instance_is module class kv
      (PBuild (PReduce (PGlobal (bs "copy_reg") (bs "_reconstructor")) [PGlobal module class; a; b]) (PDict kv)).
Definition attr (kv : list (bytes * pyobj)) (key : string) (o : pyobj) : Prop := lookup kv (bs key) = Some o.

(** sklearn.tree._tree.Tree(n_features, n_classes, n_outputs) with its state *)
Inductive tree_is (t : SklearnTree) : pyobj -> Prop :=
| tree_intro : forall nf classes kv nodes values shape1 shape2 l1 l2,
    raw_array_is (bs "i8") [stNOutputs t] e_i64 (stClasses t) true classes -> Forall int64 (stClasses t) ->
    attr kv "node_count" (PInt (stNNodes t)) ->
    attr kv "nodes" nodes -> raw_array_is (bs "V56") shape1 (fun _ => e_sknode) (stNodes t) l1 nodes -> Forall sknode_ok (stNodes t) ->
    attr kv "values" values -> raw_array_is (bs "f8") shape2 e_f64 (stValues t) l2 values -> Forall (fun x => valid64 x = true) (stValues t) ->
    tree_is t (PBuild (PReduce (PGlobal (bs "sklearn.tree._tree") (bs "Tree")) [nf; classes; PInt (stNOutputs t)]) (PDict kv)).

Inductive reg_is (r : SklearnDecisionTreeRegressor) : pyobj -> Prop :=
| reg_intro : forall kv classes tree o,
    instance_is (bs "sklearn.tree.tree") (bs "DecisionTreeRegressor") kv o ->
    attr kv "n_classes_" classes -> scalar_is (bs "i8") e_i64 (srNClasses r) true classes -> int64 (srNClasses r) ->
    attr kv "max_features_" (PInt (srMaxFeatures r)) -> attr kv "n_outputs_" (PInt (srNOutputs r)) ->
    attr kv "tree_" tree -> tree_is (srTree r) tree -> reg_is r o.

(** the initial estimator: log odds of the positive class, or one probability per class *)
Inductive init_is : SKlearnInitEstimator -> pyobj -> Prop :=
| init_odds : forall kv prior b little o,
    instance_is (bs "sklearn.ensemble.gradient_boosting") (bs "LogOddsEstimator") kv o ->
    attr kv "prior" prior -> scalar_is (bs "f8") e_f64 b little prior -> valid64 b = true ->
    init_is (mkInit (bs "LogOddsEstimator") [b]) o
| init_priors : forall kv priors bs' shape little o,
    instance_is (bs "sklearn.ensemble.gradient_boosting") (bs "PriorProbabilityEstimator") kv o ->
    attr kv "priors" priors -> raw_array_is (bs "f8") shape e_f64 bs' little priors -> Forall (fun x => valid64 x = true) bs' ->
    init_is (mkInit (bs "PriorProbabilityEstimator") bs') o.

(** two classes share one score *)
Definition score_groups (classes : Z) : Z := if classes =? 2 then 1 else classes.

Inductive gb_is (g : SklearnGradientBoosting) : pyobj -> Prop :=
| gb_intro : forall kv loss init classes ests os o,
    instance_is (bs "sklearn.ensemble.gradient_boosting") (bs "GradientBoostingClassifier") kv o ->
    attr kv "n_classes_" (PInt (gbNClasses g)) -> attr kv "learning_rate" (PFloat (gbLearningRate g)) ->
    attr kv "loss" (PStr loss) ->
    attr kv "init_" init -> init_is (gbInit g) init ->
    attr kv "classes_" classes -> raw_array_is (bs "i8") [gbNClasses g] e_i64 (gbClasses g) true classes -> Forall int64 (gbClasses g) ->
    attr kv "max_features_" (PInt (gbMaxFeatures g)) -> attr kv "n_estimators" (PInt (gbNEstimators g)) ->
    attr kv "estimators_" ests -> object_array_is [gbNEstimators g; score_groups (gbNClasses g)] os ests ->
    Forall2 reg_is (gbEstimators g) os -> gb_is g o.

(** the model makes sense: at least one estimator per score, proper trees, and a prior *)
Record sk_says (g : SklearnGradientBoosting) (sts : list sktree) : Prop := {
  ks_classes : 1 <= gbNClasses g;
  ks_estimators : 1 <= gbNEstimators g;
  ks_trees : zlen (gbEstimators g) = gbNEstimators g * score_groups (gbNClasses g);
  ks_each : Forall2 (fun r t => sktree_says (srTree r) t) (gbEstimators g) sts;
  ks_features : Forall (sk_features_below (2 ^ 32)) sts;
  ks_max_features : 0 <= gbMaxFeatures g < 2 ^ 63;
  ks_rate : valid64 (gbLearningRate g) = true;
  ks_prior : ieName (gbInit g) = bs "LogOddsEstimator" /\ zlen (iePrior (gbInit g)) = 1 \/
             ieName (gbInit g) = bs "PriorProbabilityEstimator" /\ zlen (iePrior (gbInit g)) = score_groups (gbNClasses g) }.
(** the model fits in memory *)
Record sk_fits (alloc : Z) (g : SklearnGradientBoosting) : Prop := {
  kf_classes : gbNClasses g <= alloc;
  kf_trees : gbNEstimators g * gbNClasses g <= alloc;
  kf_alloc : alloc < 2 ^ 63;
  kf_outputs : Forall (fun r => 0 <= stNOutputs (srTree r) <= alloc) (gbEstimators g);
  kf_nodes : Forall (fun r => stNNodes (srTree r) <= alloc) (gbEstimators g) }.

(** what the initial estimator contributes to score [k] *)
Definition prior_of (i : SKlearnInitEstimator) (k : Z) : option f64 :=
  if beqb (ieName i) (bs "LogOddsEstimator") then zget (iePrior i) 0 else zget (iePrior i) k.

(** the leaf values that the first [n] estimators give for score [k] of [g] *)
Definition sk_outputs (sts : list sktree) (g k n : Z) (x vs : list f64) : Prop :=
  zlen vs = n /\ forall i, 0 <= i < n -> exists t v leaf,
    zget sts (i * g + k) = Some t /\ walk (sk_reference (fun v => v) t) x = Some (v, leaf) /\ zget vs i = Some v.

(** what is summed: the first value scaled, with the prior, then the other values scaled *)
Definition sk_terms (rate prior : f64) (vs : list f64) : list f64 :=
  match vs with
  | [] => []
  | v :: vs => fadd (fmul v rate) prior :: map (fun v => fmul v rate) vs
  end.
