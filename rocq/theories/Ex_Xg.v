(** * XGBoost files that meet the hypotheses of C36-C40 *)

From Coq Require Import ZArith List Bool String Lia.
From Verif Require Import Go GoFloat GoText LgTree Transformation Ensembles Leaves XgBin XgIO
  Spec_Predict Spec_Tree Spec_XgBin Spec_XgTree Spec_XgFile Prop_Xg Demo.

(** two output groups; a tree with two levels, a stump, a single leaf, the stump again; dart *)
Definition ex_deep : list xNode :=
  [x_split 1 true f32_two 1 2; x_leaf f32_one; x_split 0 false f32_one 3 4; x_leaf f32_two; x_leaf f32_three].
Definition ex_models : list TreeModel := [x_tree 2 ex_deep; x_tree 2 x_stump; x_tree 2 [x_leaf f32_half]; x_tree 2 x_stump].
Definition ex_header : ModelHeader := x_header 2 (bs "binary:logistic") (bs "dart").
Definition ex_model : GBTreeModel := x_model 2 2 ex_models.
Definition ex_weights : list Z := [f32_one; f32_half; f32_two; f32_one].
Definition ex_stump : xtree := XNode 0 (fint 1) false (XLeaf 1 (fint 2)) (XLeaf 2 (fint 3)).
Definition half : f64 := fdiv (fint 1) (fint 2).
Definition ex_xtrees : list xtree :=
  [XNode 1 (fint 2) true (XLeaf 1 (fint 1)) (XNode 0 (fint 1) false (XLeaf 3 (fint 2)) (XLeaf 4 (fint 3)));
   ex_stump; XLeaf 0 half; ex_stump].

Ltac each tac := repeat (apply Forall_cons; [tac|]); apply Forall_nil.
Ltac parts := repeat match goal with |- _ /\ _ => split end.
Ltac between := unfold int32, uint32, int64; match goal with |- _ <= _ < _ => vm_compute; split; congruence end.

Lemma ex_tree_ok : forall ns, Forall node_ok ns -> zlen ns <= 100 -> tree_ok_x 1000 (x_tree 2 ns) [].
Proof.
  intros ns H L. pose proof (Pf_Go.zlen_nonneg _ ns) as Z0. unfold tree_ok_x, tree_param_ok, vector_ok, x_tree.
  cbn [tmParam tmNodes tmStats tpNumNodes tpNumRoots tpNumDeleted tpMaxDepth tpNumFeature tpSizeLeafVector tpReserved]. parts.
  - between.
  - unfold int32. change (2 ^ 31) with 2147483648. lia.
  - between.
  - between.
  - between.
  - between.
  - cbn [repeat]. each ltac:(idtac; between).
  - reflexivity.
  - exact H.
  - clear. induction ns; constructor; auto. unfold stat_ok. parts; between.
  - reflexivity.
  - unfold zlen. rewrite map_length. reflexivity.
  - lia.
  - constructor.
  - vm_compute. reflexivity.
  - vm_compute. congruence.
Qed.

Lemma ex_header_ok : forall o g, zlen o <= 100 -> zlen g <= 100 -> header_ok_x 1000 (x_header 2 o g).
Proof.
  intros o g Ho Hg. unfold header_ok_x, learner_ok, vector_ok, x_header. change (2 ^ 64) with 18446744073709551616.
  cbn [mhParam mhNameObj mhNameGbm lmBaseScore lmNumFeatures lmNumClass lmContainExtraAttrs lmContainEvalMetrics lmReserved].
  parts; try between; try lia; try reflexivity. cbn [repeat]. each ltac:(idtac; between).
Qed.

Example ex_file_ok : xg_file_ok 1000 ex_header ex_model [[]; []; []; []] ex_weights.
Proof.
  unfold xg_file_ok. parts.
  - apply ex_header_ok; vm_compute; congruence.
  - unfold gbtree_ok, gbtree_param_ok, ex_model, x_model, ex_models.
    cbn [gmParam gmTrees gmTreeInfo gpNumTrees gpNumRoots gpNumFeature gpPad32bit gpNumPbufferDeprecated gpNumOutputGroup gpSizeLeafVector gpReserved].
    parts; try between; try reflexivity.
    + cbn [repeat]. each ltac:(idtac; between).
    + repeat (apply Forall2_cons; [apply ex_tree_ok; [|vm_compute; congruence]|]); try apply Forall2_nil;
        unfold ex_deep, x_stump; each ltac:(unfold node_ok; parts; between).
    + match goal with |- Forall _ ?l => change l with [0; 1; 0; 1] end. each ltac:(idtac; between).
    + vm_compute. congruence.
  - unfold ex_weights. each ltac:(idtac; between).
  - vm_compute. split; congruence.
Qed.

Lemma stump_says : xtree_says 2 (x_tree 2 x_stump) ex_stump.
Proof.
  split; [reflexivity|]. split; [cbn; lia|]. split; [reflexivity|]. exists [0; 1; 2]. split; [|split].
  - apply (xd_node x_stump 0 (x_split 0 false f32_one 1 2) _ _ [1] [2]); [reflexivity| |].
    + apply (xd_leaf x_stump 1 (x_leaf f32_two)); reflexivity.
    + apply (xd_leaf x_stump 2 (x_leaf f32_three)); reflexivity.
  - repeat constructor; cbn; intuition; discriminate.
  - discriminate.
Qed.

Example ex_says : xg_says ex_header ex_model ex_weights true ex_xtrees /\ xg_says ex_header ex_model ex_weights false ex_xtrees.
Proof.
  assert (H : forall load, xg_says ex_header ex_model ex_weights load ex_xtrees); [|split; apply H].
  intros load. split.
  - right. reflexivity.
  - vm_compute. split; congruence.
  - vm_compute. congruence.
  - vm_compute. congruence.
  - reflexivity.
  - vm_compute. congruence.
  - intros i Hi. change (0 <= i < 4) in Hi. assert (C : i = 0 \/ i = 1 \/ i = 2 \/ i = 3) by lia. destruct C as [-> | [-> | [-> | ->]]]; reflexivity.
  - reflexivity.
  - reflexivity.
  - change (lmNumFeatures (mhParam ex_header)) with 2. unfold ex_model, x_model, ex_models, ex_xtrees. cbn [gmTrees]. constructor; [|constructor; [exact stump_says|constructor; [|constructor; [exact stump_says|constructor]]]].
    + split; [reflexivity|]. split; [cbn; lia|]. split; [reflexivity|]. exists [0; 1; 2; 3; 4]. split; [|split].
      * apply (xd_node ex_deep 0 (x_split 1 true f32_two 1 2) _ _ [1] [2; 3; 4]); [reflexivity| |].
        -- apply (xd_leaf ex_deep 1 (x_leaf f32_one)); reflexivity.
        -- apply (xd_node ex_deep 2 (x_split 0 false f32_one 3 4) _ _ [3] [4]); [reflexivity| |].
           ++ apply (xd_leaf ex_deep 3 (x_leaf f32_two)); reflexivity.
           ++ apply (xd_leaf ex_deep 4 (x_leaf f32_three)); reflexivity.
      * repeat constructor; cbn; intuition; discriminate.
      * discriminate.
    + split; [reflexivity|]. split; [cbn; lia|]. split; [reflexivity|]. exists [0]. split; [|split; [repeat constructor; cbn; tauto|reflexivity]].
      apply (xd_leaf [x_leaf f32_half] 0 (x_leaf f32_half)); reflexivity.
Qed.

(** the platform of Demo.v can allocate what the file needs *)
Example ex_alloc : 1000 <= pl_maxalloc amd64.
Proof. vm_compute. congruence. Qed.

(** features 0 and 1 are enough, and the prediction for (0.5, NaN) is
    0.5 + 1*1 + 0.5*2 and 0.5 + 2*0.5 + 2*1 *)
Example ex_features : Forall (fun t => features_below 2 (reference fle t)) ex_xtrees.
Proof. each ltac:(cbn; lia). Qed.
Example ex_predicts :
  match XGEnsembleFromReader amd64 (mkReader (e_xg_file ex_header ex_model [[]; []; []; []] ex_weights ++ bs "attributes") true) false with
  | Ok e => Predict amd64 e [half; fnan] 0 [fzero; fzero] = Ok [fdiv (fint 5) (fint 2); fdiv (fint 7) (fint 2)]
  | _ => False
  end.
Proof. vm_compute. reflexivity. Qed.
(** a feature vector without ties on which C38 speaks about XGBoost itself, and the tie it excludes *)
Example ex_no_ties : Forall (fun t => no_ties t [half; fnan]) ex_xtrees /\ ~ no_ties ex_stump [fint 1].
Proof. split; [each ltac:(vm_compute; tauto)|]. vm_compute. intros [H _]. discriminate. Qed.

(** a truncated file *)
Example ex_truncated :
  is_ok (XGEnsembleFromReader amd64 (mkReader (e_xg_file ex_header ex_model [[]; []; []; []] ex_weights) true) false) = true /\
  is_ok (XGEnsembleFromReader amd64 (mkReader (removelast (e_xg_file ex_header ex_model [[]; []; []; []] ex_weights)) true) false) = false.
Proof. split; vm_compute; reflexivity. Qed.

(** a linear model with two groups and two features *)
Definition ex_linear : GBLinearModel := mkGBLinear (mkGBLinearParam 2 2 (repeat 0 32)) [f32_one; f32_two; f32_half; f32_three; f32_one; f32_half].
Example ex_linear_ok : xgl_file_ok 1000 (x_header 2 [] (bs "gblinear")) ex_linear /\ zlen (blWeights ex_linear) = (2 + 1) * 2.
Proof.
  split; [|reflexivity]. split.
  - apply ex_header_ok; vm_compute; congruence.
  - unfold gblinear_ok, vector_ok, ex_linear. cbn [blParam blWeights glNumFeature glNumOutputGroup glReserved].
    parts; try between; try reflexivity.
    + cbn [repeat]. each ltac:(idtac; between).
    + each ltac:(idtac; between).
    + vm_compute. congruence.
Qed.
(** for (2, 1): 0.5 + 1 + 2*1 + 1*0.5 and 0.5 + 0.5 + 2*2 + 1*3 *)
Example ex_linear_predicts :
  match XGBLinearFromReader amd64 (mkReader (e_xgl_file (x_header 2 [] (bs "gblinear")) ex_linear) true) false with
  | Ok e => Predict amd64 e [fint 2; fint 1] 0 [fzero; fzero] = Ok [fint 4; fint 8]
  | _ => False
  end.
Proof. vm_compute. reflexivity. Qed.
