(** * Models that meet the hypotheses of C84 *)

From Coq Require Import ZArith List Bool String Lia.
From Verif Require Import Go GoFloat GoText UtilText LgTree Transformation Ensembles Leaves LgTextIO LgJsonIO XgBin XgIO Pickle SkClasses SkIO.
From Verif Require Import Spec_Params Spec_Words Spec_LgText Spec_LgFile Spec_Predict Spec_Split Spec_Tree Spec_XgBin Spec_XgFile Spec_LgJson Spec_Pickle Spec_Dump Spec_SkTree Spec_SkFile.
From Verif Require Import Pf_Go Pf_Words Pf_Dump Pf_LgFile Prop_Values Prop_LgText Prop_LgJson Prop_Sk Prop_Xg Prop_Spelling Prop_Shorter Ex_LgText Ex_LgJson Ex_Xg Ex_Sk Demo DemoText.
Local Open Scope Z_scope.

(** the first tree of [ex_file], with other things in its header *)
Definition ex_short : bytes := file
  (["tree"; "version=v2"; "num_class=1"; "num_tree_per_iteration=1"; "max_feature_idx=1"; "objective=binary sigmoid:1"; "feature_names=a b"; "tree_sizes=101"; "";
    "Tree=0"; "num_leaves=3"; "num_cat=1"; "split_feature=0 1"; "threshold=0 2.5"; "decision_type=1 10";
    "left_child=1 -1"; "right_child=-3 -2"; "leaf_value=0.5 -1.25 3"; "cat_boundaries=0 2"; "cat_threshold=1 4"; ""; "end of trees"])%string.
Example C84_text_demo : exists e header trees header' trees',
  LGEnsembleFromReader amd64_text (mkReader ex_file true) true = Ok e /\
  blocks true ex_file (header :: trees) /\ zlen trees = zlen (model_trees e) /\ blocks true ex_short (header' :: trees') /\
  say_the_same other_header_keys header header' /\ header_says header' 1 1 (zlen trees') false /\
  Forall2 (say_the_same tree_keys) (firstn (List.length trees') trees) trees' /\ zlen trees = 2 /\ zlen trees' = 1.
Proof.
  destruct (block_of ex_file eq_refl) as (k0 & B0 & L0). destruct (block_of (rest_of ex_file) eq_refl) as (k1 & B1 & L1). destruct (block_of (rest_of (rest_of ex_file)) eq_refl) as (k2 & B2 & L2).
  destruct (block_of ex_short eq_refl) as (h0 & C0 & M0). destruct (block_of (rest_of ex_short) eq_refl) as (h1 & C1 & M1).
  assert (K : forall keys t t' k k', (forall key, UtilText.lookup (params_of t) key = last_value k key) -> (forall key, UtilText.lookup (params_of t') key = last_value k' key) ->
    map (UtilText.lookup (params_of t)) keys = map (UtilText.lookup (params_of t')) keys -> say_the_same keys k k').
  { intros keys t t' k k' L L' E key I. rewrite <- L, <- L'. clear - E I. induction keys as [|a keys IH]; [destruct I|]. cbn in E. injection E as E1 E2. destruct I as [->|I]; auto. }
  eexists _, k0, [k1; k2], h0, [h1]. split; [vm_compute; reflexivity|].
  split; [econstructor; [exact B0|]; econstructor; [exact B1|]; econstructor; [exact B2|constructor]|]. split; [reflexivity|].
  split; [econstructor; [exact C0|]; econstructor; [exact C1|constructor]|].
  split; [apply (K _ _ _ _ _ L0 M0); vm_compute; reflexivity|]. split; [|split; [constructor; [apply (K _ _ _ _ _ L1 M1); vm_compute; reflexivity|constructor]|split; reflexivity]].
  split.
  - left. rewrite <- M0. reflexivity.
  - value M0.
  - value M0.
  - lia.
  - value M0.
  - eexists. eexists. split; [rewrite <- M0; vm_compute; reflexivity|]. split; [apply parts_split; reflexivity|]. reflexivity.
  - exists 1. reflexivity.
  - split; [discriminate|]. intros [v Hv]. rewrite <- M0 in Hv. discriminate.
Qed.
(** the tree that is missing does count *)
Example C84_text_values : exists e e' v w,
  LGEnsembleFromReader amd64_text (mkReader ex_file true) false = Ok e /\ LGEnsembleFromReader amd64_text (mkReader ex_short true) false = Ok e' /\
  Predict amd64_text e [fint 34; fint 2] 1 [fzero] = Ok [v] /\ Predict amd64_text e' [fint 34; fint 2] 0 [fzero] = Ok [v] /\
  Predict amd64_text e [fint 34; fint 2] 0 [fzero] = Ok [w] /\ v <> w.
Proof.
  eexists _, _, _, _. split; [vm_compute; reflexivity|]. split; [vm_compute; reflexivity|]. split; [vm_compute; reflexivity|]. split; [vm_compute; reflexivity|]. split; [vm_compute; reflexivity|]. vm_compute. discriminate.
Qed.

(** the first two of four dart trees *)
Definition ex_model2 : GBTreeModel := x_model 2 2 (firstn 2 ex_models).
Example C84_xgboost_demo : xg_file_ok 1000 ex_header ex_model2 [[]; []] (firstn 2 ex_weights) /\ shorter_gbtree (is_dart ex_header) ex_model ex_model2 ex_weights (firstn 2 ex_weights) /\
  gpNumTrees (gmParam ex_model2) / gpNumOutputGroup (gmParam ex_model) = 1.
Proof.
  split; [|split; [|reflexivity]].
  - unfold xg_file_ok. parts.
    + apply ex_header_ok; vm_compute; congruence.
    + unfold gbtree_ok, gbtree_param_ok, ex_model2, x_model, ex_models.
      cbn [gmParam gmTrees gmTreeInfo gpNumTrees gpNumRoots gpNumFeature gpPad32bit gpNumPbufferDeprecated gpNumOutputGroup gpSizeLeafVector gpReserved firstn].
      parts; try between; try reflexivity.
      * cbn [repeat]. each ltac:(idtac; between).
      * repeat (apply Forall2_cons; [apply ex_tree_ok; [|vm_compute; congruence]|]); try apply Forall2_nil;
          unfold ex_deep, x_stump; each ltac:(unfold node_ok; parts; between).
      * match goal with |- Forall _ ?l => change l with [0; 1] end. each ltac:(idtac; between).
      * vm_compute. congruence.
    + unfold ex_weights. cbn [firstn]. each ltac:(idtac; between).
    + vm_compute. split; congruence.
  - constructor; try (vm_compute; congruence); try reflexivity.
    + vm_compute. split; congruence.
    + intros _. split; reflexivity.
Qed.

(** the first of two JSON trees *)
Example C84_json_demo : json_model_says amd64_text (j_model "1" "1" [ex_json_tree]) 1 1 [ex_json_tree] [ex_tree'] /\ [ex_tree'] = firstn 1 [ex_tree'; ex_const].
Proof.
  split; [|reflexivity]. split.
  - eexists _, (bs "1"), (bs "1"), (bs "1"). split; [reflexivity|]. split; [apply plain_check; vm_compute; reflexivity|].
    split; [member|]. split; [member|]. split; [member|]. split; [apply int64_iff; reflexivity|]. split; [member|]. split; [apply int64_iff; reflexivity|]. split; [member|]. split; [apply int64_iff; reflexivity|]. split; [member|].
    repeat match goal with |- _ /\ _ => split end; vm_compute; try reflexivity; discriminate.
  - constructor; [|constructor]. exists 3. split; [apply ex_json_tree_says|vm_compute; discriminate].
Qed.

(** the first of two scikit-learn estimators *)
Definition k_short : SklearnGradientBoosting := k_gb 1 2 [k_tree k_nodes k_values].
Example C84_sklearn_demo : exists s mu,
  enc amd64_text true [] (py_gb k_short) s mu /\ gb_is k_short (py_gb k_short) /\ sk_says k_short (firstn 1 k_trees) /\ sk_fits (pl_maxalloc amd64_text) k_short /\
  gbNClasses k_short = gbNClasses k_model /\ gbLearningRate k_short = gbLearningRate k_model /\ gbInit k_short = gbInit k_model.
Proof.
  assert (D : dumpable k_repr amd64_text (py_gb k_short)).
  { unfold k_short, py_gb, py_instance, py_init. cbn [gbInit k_gb ieName gbNClasses gbLearningRate gbClasses gbMaxFeatures gbNEstimators gbEstimators map score_groups].
    replace (beqb _ _) with true by (vm_compute; reflexivity).
    unfold py_scalar, py_array, py_dtype, py_raw, py_reg, py_instance, py_tree, py_array, py_scalar, py_dtype, py_raw, k_tree.
    cbn [srTree stNOutputs stNNodes srMaxFeatures srNOutputs srNClasses map]. dumpable_tac. }
  destruct (works_all k_repr amd64_text true (py_gb k_short) [] 0 D) as (mu & E & _). { split; [lia|intros k []]. }
  exists (fst (dump k_repr (py_gb k_short) 0)), mu. split; [exact E|]. split; [|split; [|split; [|repeat split]]].
  - apply py_gb_is; unfold k_short; [reg_ok_tac|reg_ok_tac|repeat constructor|left; split; reflexivity].
  - pose proof k_says as K. split; try reflexivity; try (cbn; lia); try (left; split; reflexivity).
    + pose proof (ks_each _ _ K) as F. inversion F; subst. constructor; [assumption|constructor].
    + pose proof (ks_features _ _ K) as F. inversion F; subst. constructor; [assumption|constructor].
  - change (pl_maxalloc amd64_text) with (2 ^ 40). constructor; unfold k_short, k_gb; cbn [gbNClasses gbNEstimators gbEstimators]; try lia.
    + apply Forall_cons; [cbn [k_tree srTree stNOutputs]; lia|]. apply Forall_nil.
    + apply Forall_cons; [unfold k_tree; cbn [srTree stNNodes]; unfold k_nodes; rewrite !zlen_cons, zlen_nil; lia|]. apply Forall_nil.
Qed.
