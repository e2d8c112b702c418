(** * sklearn models that meet the hypotheses of C46 and C47, and models that refute C30 and C41 *)

From Coq Require Import ZArith List Bool String Lia ZifyBool.
From Verif Require Import Go GoFloat GoText LgTree TreeBuild Transformation Ensembles Leaves XgBin Pickle SkClasses SkIO.
From Verif Require Import Spec_Predict Spec_Split Spec_Tree Spec_XgBin Spec_Numpy Spec_Pickle Spec_Dump Spec_SkTree Spec_SkFile.
From Verif Require Import Pf_Go Pf_Dump Pf_SkTree Prop_Pickle Prop_Sk Demo DemoText.
Local Open Scope Z_scope.

(** ** Every model is held by some object *)
Definition py_dtype (type : bytes) : pyobj :=
  PBuild (PReduce (PGlobal (bs "numpy") (bs "dtype")) [PStr type; PInt 0; PInt 1])
         (PTuple [PInt 3; PStr (bs "<"); PNone; PNone; PNone; PInt (-1); PInt (-1); PInt 0]).
Definition py_raw (data : bytes) : pyobj := PReduce (PGlobal (bs "_codecs") (bs "encode")) [PStr data; PStr (bs "latin1")].
Definition py_array (shape : list Z) (type : bytes) (payload : pyobj) : pyobj :=
  PBuild (PReduce (PGlobal (bs "numpy.core.multiarray") (bs "_reconstruct")) [PGlobal (bs "numpy") (bs "ndarray"); PTuple [PInt 0]; PStr (bs "b")])
         (PTuple [PInt 1; PTuple (map PInt shape); py_dtype type; PInt 0; payload]).
Definition py_scalar (type data : bytes) : pyobj :=
  PReduce (PGlobal (bs "numpy.core.multiarray") (bs "scalar")) [py_dtype type; py_raw data].
Definition py_instance (module class : bytes) (kv : list (bytes * pyobj)) : pyobj :=
  PBuild (PReduce (PGlobal (bs "copy_reg") (bs "_reconstructor")) [PGlobal module class; PGlobal (bs "__builtin__") (bs "object"); PNone]) (PDict kv).
Definition py_tree (t : SklearnTree) : pyobj :=
  PBuild (PReduce (PGlobal (bs "sklearn.tree._tree") (bs "Tree"))
            [PInt 2; py_array [stNOutputs t] (bs "i8") (py_raw (flat_map (e_i64 true) (stClasses t))); PInt (stNOutputs t)])
         (PDict [(bs "max_depth", PInt 3); (bs "node_count", PInt (stNNodes t));
                 (bs "nodes", py_array [stNNodes t] (bs "V56") (py_raw (flat_map e_sknode (stNodes t))));
                 (bs "values", py_array [stNNodes t; 1; 1] (bs "f8") (py_raw (flat_map (e_f64 true) (stValues t))))]).
Definition py_reg (r : SklearnDecisionTreeRegressor) : pyobj :=
  py_instance (bs "sklearn.tree.tree") (bs "DecisionTreeRegressor")
    [(bs "n_classes_", py_scalar (bs "i8") (e_i64 true (srNClasses r))); (bs "max_features_", PInt (srMaxFeatures r));
     (bs "n_outputs_", PInt (srNOutputs r)); (bs "tree_", py_tree (srTree r))].
Definition py_init (i : SKlearnInitEstimator) : pyobj :=
  if beqb (ieName i) (bs "LogOddsEstimator") then
    py_instance (bs "sklearn.ensemble.gradient_boosting") (bs "LogOddsEstimator") [(bs "prior", py_scalar (bs "f8") (flat_map (e_f64 true) (iePrior i)))]
  else
    py_instance (bs "sklearn.ensemble.gradient_boosting") (bs "PriorProbabilityEstimator")
      [(bs "priors", py_array [zlen (iePrior i)] (bs "f8") (py_raw (flat_map (e_f64 true) (iePrior i))))].
Definition py_gb (g : SklearnGradientBoosting) : pyobj :=
  py_instance (bs "sklearn.ensemble.gradient_boosting") (bs "GradientBoostingClassifier")
    [(bs "n_classes_", PInt (gbNClasses g)); (bs "learning_rate", PFloat (gbLearningRate g)); (bs "loss", PStr (bs "deviance"));
     (bs "init_", py_init (gbInit g)); (bs "classes_", py_array [gbNClasses g] (bs "i8") (py_raw (flat_map (e_i64 true) (gbClasses g))));
     (bs "max_features_", PInt (gbMaxFeatures g)); (bs "n_estimators", PInt (gbNEstimators g));
     (bs "estimators_", py_array [gbNEstimators g; score_groups (gbNClasses g)] (bs "O8") (PList (map py_reg (gbEstimators g))))].

Lemma py_dtype_is : forall type, dtype_is type (py_dtype type) true.
Proof. intros type. unfold py_dtype. apply (dt_state type (PInt 0) (PInt 1) (PInt 3) "<"%byte [PNone; PNone; PNone; PInt (-1); PInt (-1); PInt 0]). reflexivity. Qed.
Lemma py_raw_array_is : forall A type shape (e : bool -> A -> bytes) xs, raw_array_is type shape e xs true (py_array shape type (py_raw (flat_map (e true) xs))).
Proof. intros. econstructor; [apply py_dtype_is|constructor|constructor]. Qed.
Lemma py_scalar_is : forall A type (e : bool -> A -> bytes) x, scalar_is type e x true (py_scalar type (e true x)).
Proof. intros. constructor; [apply py_dtype_is|constructor]. Qed.

Definition py_reg_ok (r : SklearnDecisionTreeRegressor) : Prop :=
  int64 (srNClasses r) /\ Forall int64 (stClasses (srTree r)) /\ Forall sknode_ok (stNodes (srTree r)) /\ Forall (fun x => valid64 x = true) (stValues (srTree r)).
Lemma py_reg_is : forall r, py_reg_ok r -> reg_is r (py_reg r).
Proof.
  intros r (H1 & H2 & H3 & H4). econstructor; [constructor|reflexivity|apply (py_scalar_is _ _ e_i64)|auto|reflexivity|reflexivity|reflexivity|].
  econstructor; [apply py_raw_array_is|auto|reflexivity|reflexivity|apply (py_raw_array_is _ _ _ (fun _ => e_sknode))|auto|reflexivity|apply py_raw_array_is|auto].
Qed.
Theorem py_gb_is : forall g, Forall py_reg_ok (gbEstimators g) -> Forall int64 (gbClasses g) -> Forall (fun x => valid64 x = true) (iePrior (gbInit g)) ->
  ieName (gbInit g) = bs "LogOddsEstimator" /\ zlen (iePrior (gbInit g)) = 1 \/ ieName (gbInit g) = bs "PriorProbabilityEstimator" ->
  gb_is g (py_gb g).
Proof.
  intros g H1 H2 H3 H4. econstructor; [constructor|reflexivity|reflexivity|reflexivity|reflexivity| |reflexivity|apply py_raw_array_is|auto|reflexivity|reflexivity|reflexivity| |].
  - destruct (gbInit g) as [name prior]. cbn [ieName iePrior] in *. destruct H4 as [[-> L]| ->]; unfold py_init; cbn [ieName iePrior].
    + replace (beqb _ _) with true by (vm_compute; reflexivity). destruct prior as [|b [|b' prior]]; [discriminate| |rewrite !zlen_cons in L; pose proof (zlen_nonneg _ prior); lia].
      inversion H3; subst. econstructor; [constructor|reflexivity| |auto]. cbn [flat_map]. rewrite app_nil_r. apply (py_scalar_is _ _ e_f64).
    + replace (beqb _ _) with false by (vm_compute; reflexivity). econstructor; [constructor|reflexivity|apply py_raw_array_is|auto].
  - econstructor; [apply (py_dtype_is (bs "O8"))|constructor].
  - clear - H1. induction H1; cbn [map]; constructor; auto. apply py_reg_is. auto.
Qed.

(** ** A model of two classes with two trees, the second constant *)
Definition k_leaf : SklearnNode := mkSkNode (-1) (-1) (-2) (fneg (fint 2)) fzero 5 (fint 5).
Definition k_split (f l r : Z) (thr : f64) : SklearnNode := mkSkNode l r f thr fzero 10 (fint 10).
Definition k_tree (nodes : list SklearnNode) (values : list f64) : SklearnDecisionTreeRegressor :=
  mkSkReg (mkSkTree 1 [1] (zlen nodes) nodes values) 1 2 1.
Definition k_nodes : list SklearnNode := [k_split 1 1 4 (fint 5); k_split 0 2 3 (fint 1); k_leaf; k_leaf; k_leaf].
Definition k_values : list f64 := [fint 0; fint 0; fint 3; fneg (fint 4); fint 7].
Definition k_gb (nEst maxf : Z) (trees : list SklearnDecisionTreeRegressor) : SklearnGradientBoosting :=
  mkSkGB 2 [0; 1] nEst maxf trees (fint 2) (mkInit (bs "LogOddsEstimator") [fint 10]).
Definition k_model : SklearnGradientBoosting := k_gb 2 2 [k_tree k_nodes k_values; k_tree [k_leaf] [fint 6]].
Definition k_trees : list sktree :=
  [KNode 1 (fint 5) (KNode 0 (fint 1) (KLeaf 2 (fint 3)) (KLeaf 3 (fneg (fint 4)))) (KLeaf 4 (fint 7)); KLeaf 0 (fint 6)].
Definition k_repr (f : f64) : bytes := bs "2.0".
Definition k_file (g : SklearnGradientBoosting) : reader := mkReader (dumps k_repr (py_gb g)) true.

Example k_says : sk_says k_model k_trees.
Proof.
  split; try reflexivity; try (cbn; lia); try (left; split; reflexivity).
  - constructor; [|constructor; [|constructor]].
    + split; [reflexivity|]. split; [reflexivity|]. exists [0; 1; 2; 3; 4]. split; [|split; [|reflexivity]].
      * apply (kd_node _ _ 0 (k_split 1 1 4 (fint 5)) _ _ [1; 2; 3] [4]); [reflexivity| |apply (kd_leaf _ _ 4 k_leaf); reflexivity].
        apply (kd_node _ _ 1 (k_split 0 2 3 (fint 1)) _ _ [2] [3]); [reflexivity| |]; (apply (kd_leaf _ _ _ k_leaf); reflexivity).
      * repeat constructor; cbn; intuition discriminate.
    + split; [reflexivity|]. split; [reflexivity|]. exists [0]. split; [|split; [|reflexivity]].
      * apply (kd_leaf _ _ 0 k_leaf); reflexivity.
      * repeat constructor; cbn; intuition discriminate.
  - repeat constructor; cbn; lia.
Qed.
Example k_fits : sk_fits (pl_maxalloc amd64_text) k_model.
Proof.
  change (pl_maxalloc amd64_text) with (2 ^ 40). constructor; unfold k_model, k_gb; cbn [gbNClasses gbNEstimators gbEstimators]; try lia.
  - apply Forall_cons; [cbn [k_tree srTree stNOutputs]; lia|]. apply Forall_cons; [cbn [k_tree srTree stNOutputs]; lia|]. apply Forall_nil.
  - apply Forall_cons; [unfold k_tree; cbn [srTree stNNodes]; unfold k_nodes; rewrite !zlen_cons, zlen_nil; lia|]. apply Forall_cons; [unfold k_tree; cbn [srTree stNNodes]; rewrite !zlen_cons, zlen_nil; lia|]. apply Forall_nil.
Qed.
Ltac reg_ok_tac := cbn [k_gb gbEstimators gbClasses]; repeat first
  [ apply Forall_nil | apply Forall_cons | match goal with |- py_reg_ok _ => unfold py_reg_ok, k_tree; cbn [srTree srNClasses stClasses stNodes stValues] | |- sknode_ok _ => unfold sknode_ok | |- _ /\ _ => split end
  | match goal with |- valid64 _ = true => vm_compute; reflexivity | |- int64 _ => vm_compute; intuition discriminate end
  | progress unfold k_model, k_gb, k_nodes, k_values ].
Example k_is : gb_is k_model (py_gb k_model).
Proof.
  apply py_gb_is.
  - reg_ok_tac.
  - reg_ok_tac.
  - repeat constructor.
  - left. split; reflexivity.
Qed.
Lemma dumpable_kv : forall repr p l, NoDup (map fst l) -> Forall (dumpable repr p) (map snd l) -> dumpable repr p (PDict l).
Proof. intros. constructor; auto. Qed.
Fixpoint nodup_keys (l : list bytes) : bool := match l with [] => true | k :: l => negb (existsb (beqb k) l) && nodup_keys l end.
Lemma nodup_keys_ok : forall l, nodup_keys l = true -> NoDup l.
Proof.
  induction l as [|k l IH]; intros H; constructor; cbn [nodup_keys] in H; apply andb_prop in H; destruct H as [H1 H2]; auto.
  intros I. assert (X : existsb (beqb k) l = true) by (apply existsb_exists; exists k; split; [auto|apply Pf_Text.beqb_refl]). rewrite X in H1. discriminate.
Qed.
Ltac dumpable_tac := repeat first
  [ apply dumpable_kv; [apply nodup_keys_ok; vm_compute; reflexivity|cbn [map snd]]
  | apply du_build | apply du_reduce | apply du_tuple | apply du_list
  | apply du_global; apply one_line_check; reflexivity | apply du_float; [apply one_line_check; reflexivity|vm_compute; reflexivity]
  | apply du_str | apply du_none | apply du_int; vm_compute; intuition discriminate
  | apply Forall_cons | apply Forall_nil ].
Example k_dumpable : dumpable k_repr amd64_text (py_gb k_model).
Proof.
  unfold k_model, py_gb, py_instance, py_init. cbn [gbInit k_gb ieName gbNClasses gbLearningRate gbClasses gbMaxFeatures gbNEstimators gbEstimators map score_groups].
  replace (beqb _ _) with true by (vm_compute; reflexivity).
  unfold py_scalar, py_array, py_dtype, py_raw, py_reg, py_instance, py_tree, py_array, py_scalar, py_dtype, py_raw, k_tree.
  cbn [srTree stNOutputs stNNodes srMaxFeatures srNOutputs srNClasses map].
  dumpable_tac.
Qed.

(** All hypotheses of C47_sklearn_file together. *)
Example C47_demo_hypotheses : exists s mu,
  enc amd64_text true [] (py_gb k_model) s mu /\ gb_is k_model (py_gb k_model) /\ sk_says k_model k_trees /\ sk_fits (pl_maxalloc amd64_text) k_model /\
  k_file k_model = mkReader (s ++ "."%byte :: []) true.
Proof.
  destruct (works_all k_repr amd64_text true (py_gb k_model) [] 0 k_dumpable) as (mu & E & _). { split; [lia|intros k []]. }
  exists (fst (dump k_repr (py_gb k_model) 0)), mu. split; [exact E|]. split; [exact k_is|]. split; [exact k_says|]. split; [exact k_fits|]. reflexivity.
Qed.
(** its prediction for (0.., 3): (3*2+10) + 6*2 = 28; with one estimator 16 *)
Example C47_demo : exists e, SKEnsembleFromReader amd64_text (k_file k_model) true = Ok e /\
  Predict amd64_text e [fint 1; fint 3] 0 [fzero] = Ok [fint 28] /\ Predict amd64_text e [fint 1; fint 3] 1 [fzero] = Ok [fint 16] /\
  Predict amd64_text e [fint 1; fint 6] 0 [fzero] = Ok [fint 36].
Proof. eexists. split; [vm_compute; reflexivity|]. split; [vm_compute; reflexivity|]. split; vm_compute; reflexivity. Qed.

Example C46_demo : sktree_says (srTree (k_tree k_nodes k_values)) (nth 0 k_trees (KLeaf 0 fzero)) /\ sk_features_below (2 ^ 32) (nth 0 k_trees (KLeaf 0 fzero)) /\
  stNNodes (srTree (k_tree k_nodes k_values)) <= pl_maxalloc amd64.
Proof. pose proof (ks_each _ _ k_says) as H. inversion H; subst. split; [assumption|]. split; [cbn; lia|]. vm_compute. discriminate. Qed.

(** ** Refutations *)

(** A constant tree of sklearn is a single leaf: it needs no feature and has one leaf.  Loaded, it
    asks for feature 0 and reports two leaves. *)
Theorem C46_constant_refuted : exists T,
  sktree_says (srTree (k_tree [k_leaf] [fint 6])) (KLeaf 0 (fint 6)) /\
  lgTreeFromSklearnDecisionTreeRegressor amd64 (k_tree [k_leaf] [fint 6]) fone fzero = Ok T /\
  walk (sk_reference (scaled fone fzero) (KLeaf 0 (fint 6))) [] = Some (fint 6, 0) /\
  (exists m, predict amd64 T [] = Panic m) /\ nLeaves T = 2.
Proof.
  eexists. split; [|split; [vm_compute; reflexivity|split; [vm_compute; reflexivity|split; [eexists; vm_compute; reflexivity|vm_compute; reflexivity]]]].
  split; [reflexivity|]. split; [reflexivity|]. exists [0]. split; [apply (kd_leaf _ _ 0 k_leaf); reflexivity|]. split; [repeat constructor; cbn; intuition discriminate|reflexivity].
Qed.
Print Assumptions C46_constant_refuted.

(** A leaf with children_left < 0 whose siblings do not fit together: a node that is its own child. *)
Theorem C30_sklearn_cyclic_refuted : exists e,
  SKEnsembleFromReader amd64_text (k_file (k_gb 1 2 [k_tree [k_split 0 0 1 (fint 1); k_leaf; k_leaf] [fint 0; fint 1; fint 2]])) true = Ok e /\
  NFeatures e = 2 /\ Predict amd64_text e [fint 0; fint 0] 0 [fzero] = Hang.
Proof. eexists. split; [vm_compute; reflexivity|]. split; vm_compute; reflexivity. Qed.
Print Assumptions C30_sklearn_cyclic_refuted.

(** max_features_ is the number of features looked at for one split, for example 2 of 4 with
    max_features='sqrt'.  NFeatures() reports 2, accepts two values and panics. *)
Theorem C41_sklearn_refuted :
  let g := k_gb 1 2 [k_tree [k_split 3 1 2 (fint 1); k_leaf; k_leaf] [fint 0; fint 1; fint 2]] in
  sk_says g [KNode 3 (fint 1) (KLeaf 1 (fint 1)) (KLeaf 2 (fint 2))] /\ gb_is g (py_gb g) /\
  exists e, SKEnsembleFromReader amd64_text (k_file g) true = Ok e /\ NFeatures e = 2 /\
    exists m, Predict amd64_text e [fint 0; fint 0] 0 [fzero] = Panic m.
Proof.
  cbv zeta. split; [|split].
  - split; try reflexivity; try (cbn; lia); try (left; split; reflexivity); [|repeat constructor; cbn; lia].
    constructor; [|constructor]. split; [reflexivity|]. split; [reflexivity|]. exists [0; 1; 2]. split; [|split; [|reflexivity]].
    + apply (kd_node _ _ 0 (k_split 3 1 2 (fint 1)) _ _ [1] [2]); [reflexivity| |]; (apply (kd_leaf _ _ _ k_leaf); reflexivity).
    + repeat constructor; cbn; intuition discriminate.
  - apply py_gb_is; [| |repeat constructor|left; split; reflexivity]; reg_ok_tac.
  - eexists. split; [vm_compute; reflexivity|]. split; [vm_compute; reflexivity|]. eexists. vm_compute. reflexivity.
Qed.
Print Assumptions C41_sklearn_refuted.
