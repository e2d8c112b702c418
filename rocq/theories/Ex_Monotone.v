(** * Models that meet the hypotheses of C79, and the values it leaves out *)

From Coq Require Import ZArith List Bool String Lia.
From Verif Require Import Go GoFloat GoText UtilText LgTree Transformation Ensembles Leaves LgTextIO XgBin XgIO
  Spec_Predict Spec_Bits Spec_Split Spec_Tree Spec_LgText Spec_Params Spec_LgFile Spec_XgBin Spec_XgTree Spec_XgFile Spec_Monotone
  Pf_Go Pf_Words Pf_Split Pf_LgFile Prop_LgText Prop_Xg Prop_Monotone Demo DemoText Ex_Batch Ex_LgText Ex_Xg Prop_Values SkClasses Spec_SkTree Spec_SkFile Ex_Sk.
Local Open Scope Z_scope.

Lemma le_check : forall a b, valid64 a && valid64 b && fle a b = true -> le64 a b.
Proof. intros a b H. apply andb_prop in H as [H F]. apply andb_prop in H as [A B]. apply fle_le64; auto. Qed.
Fixpoint constrained_check (up : bool) (f : Z) (d : dtree) : bool :=
  match d with
  | DLeaf _ _ => true
  | DNode g _ l r =>
      (negb (g =? f) || forallb (fun u => forallb (fun v => valid64 (snd u) && valid64 (snd v) && (if up then fle (snd u) (snd v) else fle (snd v) (snd u))) (leaves_of r)) (leaves_of l)) &&
      constrained_check up f l && constrained_check up f r
  end.
Lemma check_constrained : forall up f d, constrained_check up f d = true -> constrained up f d.
Proof.
  induction d as [|g t l IHl r IHr]; cbn [constrained constrained_check]; intros H; [exact I|]. apply andb_prop in H as [H Hr]. apply andb_prop in H as [H Hl]. split; [|auto].
  intros -> i u j v Iu Iv. rewrite Z.eqb_refl in H. cbn [negb orb] in H. rewrite forallb_forall in H. specialize (H _ Iu). rewrite forallb_forall in H. specialize (H _ Iv). cbn [snd] in H.
  apply andb_prop in H as [H F]. apply andb_prop in H as [A B]. destruct up; apply fle_le64; auto.
Qed.
Definition number_check (d : dtree) : bool := forallb (fun u => valid64 (snd u) && finite64 (snd u)) (leaves_of d).
Lemma check_number : forall d, number_check d = true -> number_leaves d.
Proof. intros d H id v I. unfold number_check in H. rewrite forallb_forall in H. specialize (H _ I). cbn [snd] in H. apply andb_prop in H. exact H. Qed.

(** ** A text model whose prediction decreases in feature 1 *)
Example C79_text_hypotheses_met :
  (exists rest header kvss, file_says amd64_text true ex_file rest header kvss 1 1 false true TransformLogistic [ex_tree; ex_const]) /\
  raised 1 (fint 2) (fint 3) [fint 34; fint 2] [fint 34; fint 3] /\ Forall (features_below 2) [ex_tree; ex_const] /\
  Forall (constrained false 1) [ex_tree; ex_const] /\ Forall (splits_apart 1 (fint 2) (fint 3)) [ex_tree; ex_const] /\ Forall number_leaves [ex_tree; ex_const] /\
  match LGEnsembleFromReader amd64_text (mkReader ex_file true) true with
  | Ok e => map (fun x => Predict amd64_text (EnsembleWithRawPredictions e) x 0 [fzero]) [[fint 34; fint 2]; [fint 34; fint 3]] = [Ok [fdiv (fint 5) (fint 4)]; Ok [fdiv (fint (-1)) (fint 2)]]
  | _ => False
  end.
Proof.
  split; [exact ex_file_says|]. split.
  { split; [reflexivity|]. split; [reflexivity|]. split; [reflexivity|]. split; [apply le_check; vm_compute; reflexivity|].
    intros i Hi. destruct (Z.eq_dec i 0) as [->|H0]; [reflexivity|].
    assert (C : i < 0 \/ 2 <= i) by lia. rewrite !(zget_none _ _ _) by exact C. reflexivity. }
  split; [repeat constructor; cbn; lia|]. split; [repeat (apply Forall_cons; [apply check_constrained; vm_compute; reflexivity|]); apply Forall_nil|]. split.
  { repeat (apply Forall_cons; [|]); try apply Forall_nil; cbn [splits_apart ex_tree ex_const ex_inner]; repeat split; auto; try lia; intros _ _; vm_compute; reflexivity. }
  split; [repeat (apply Forall_cons; [apply check_number; vm_compute; reflexivity|]); apply Forall_nil|]. vm_compute. reflexivity.
Qed.

(** ** An XGBoost model whose predictions increase in feature 0 *)
Example C79_xgboost_hypotheses_met :
  xg_file_ok 1000 ex_header ex_model [[]; []; []; []] ex_weights /\ xg_says ex_header ex_model ex_weights true ex_xtrees /\
  number (f64_of_f32bits (lmBaseScore (mhParam ex_header))) /\ (forall i w, weight ex_header ex_weights i = Some w -> number w /\ le64 fzero w) /\
  Forall (fun t => features_below 2 (reference fle t)) ex_xtrees /\ Forall (fun t => constrained true 0 (reference fle t)) ex_xtrees /\
  Forall (fun t => number_leaves (reference fle t)) ex_xtrees /\
  map (fun t => walk (reference fle t) [fint 0; fint 7]) ex_xtrees <> map (fun t => walk (reference fle t) [fint 5; fint 7]) ex_xtrees.
Proof.
  split; [exact ex_file_ok|]. split; [apply ex_says|]. split; [split; vm_compute; reflexivity|]. split.
  { intros i w H. unfold weight in H.
    assert (C : i = 0 \/ i = 1 \/ i = 2 \/ i = 3 \/ i < 0 \/ 4 <= i) by lia.
    destruct C as [-> | [-> | [-> | [-> | C]]]].
    5: { exfalso. vm_compute (bs _) in H. cbn in H. rewrite zget_none in H by exact C. discriminate. }
    all: vm_compute in H; injection H as <-; split; [split; vm_compute; reflexivity|apply le_check; vm_compute; reflexivity]. }
  split; [repeat constructor; cbn; lia|]. split; [repeat (apply Forall_cons; [apply check_constrained; vm_compute; reflexivity|]); apply Forall_nil|].
  split; [repeat (apply Forall_cons; [apply check_number; vm_compute; reflexivity|]); apply Forall_nil|]. vm_compute. discriminate.
Qed.

(** ** The value zero, when zeros count as missing

    The split sends 1 to the left (1 <= 1.5) and 0, which is missing, to the default side, the right.  The constraint holds for the
    leaves, and still raising the feature from 0 to 1 lowers the prediction. *)
Definition zero_file : bytes := file
  (["tree"; "version=v2"; "num_class=1"; "num_tree_per_iteration=1"; "max_feature_idx=0"; "objective=binary sigmoid:1"; "tree_sizes=100"; "";
    "Tree=0"; "num_leaves=2"; "num_cat=0"; "split_feature=0"; "threshold=1.5"; "decision_type=4";
    "left_child=-1"; "right_child=-2"; "leaf_value=1 2"; "shrinkage=1"; ""; "feature importances:"])%string.
Definition zero_arrays : text_tree := mkText [-1] [-2] [4] [0] [fdiv (fint 3) (fint 2)] [] [] [fint 1; fint 2].
Definition zero_tree : dtree := DNode 0 (numeric_left MZero false (fdiv (fint 3) (fint 2))) (DLeaf 0 (fint 1)) (DLeaf 1 (fint 2)).
Lemma zero_file_says : exists rest header kvss, file_says amd64_text true zero_file rest header kvss 1 0 false true TransformLogistic [zero_tree].
Proof.
  destruct (block_of zero_file eq_refl) as (kvs & B & L).
  destruct (block_of (rest_of zero_file) eq_refl) as (kvs1 & B1 & L1).
  eexists _, kvs, [kvs1]. split; [exact B|]. split; [|split; [|split]].
  - split.
    + left. rewrite <- L. reflexivity.
    + value L.
    + value L.
    + lia.
    + value L.
    + eexists. eexists. split; [rewrite <- L; vm_compute; reflexivity|]. split; [apply parts_split; reflexivity|]. reflexivity.
    + exists 1. reflexivity.
    + split; [discriminate|]. intros [v Hv]. rewrite <- L in Hv. discriminate.
  - exists (bs "binary sigmoid:1"). split; [rewrite <- L; reflexivity|]. apply (om_binary 1 (bs "1")). apply int64_iff. reflexivity.
  - econstructor; [exact B1|]. constructor.
  - constructor; [|constructor].
    exists 2. split; [|vm_compute; discriminate]. exists 0, zero_arrays. split.
    + split; [value L1|]. split; [value L1|]. split; [value L1|]. intros _. do 5 (split; [value L1|]). change (0 <? 0) with false. cbv iota. split; reflexivity.
    + right. split; [lia|]. exists [0], 0. split; [|split; [|split; [|split; [|split]]]].
      * apply (desc_numerical _ zero_arrays 0 4 MZero 0 (fdiv (fint 3) (fint 2)) (-1) (-2) (DLeaf 0 _) (DLeaf 1 _) [] [] 0 0); try reflexivity.
        -- apply (desc_leaf _ zero_arrays 0). reflexivity.
        -- apply (desc_leaf _ zero_arrays 1). reflexivity.
      * constructor; [intros []|constructor].
      * intros i [<-|[]]; lia.
      * vm_compute; reflexivity.
      * vm_compute; discriminate.
      * vm_compute; discriminate.
Qed.
Theorem C79_zero_missing_refuted :
  (exists rest header kvss, file_says amd64_text true zero_file rest header kvss 1 0 false true TransformLogistic [zero_tree]) /\
  constrained true 0 zero_tree /\ number_leaves zero_tree /\ features_below 1 zero_tree /\ raised 0 (fint 0) (fint 1) [fint 0] [fint 1] /\
  exists e out1 out2, LGEnsembleFromReader amd64_text (mkReader zero_file true) true = Ok e /\
    Predict amd64_text (EnsembleWithRawPredictions e) [fint 0] 0 [fzero] = Ok [out1] /\ Predict amd64_text (EnsembleWithRawPredictions e) [fint 1] 0 [fzero] = Ok [out2] /\ ~ moved true out1 out2.
Proof.
  split; [exact zero_file_says|]. split; [apply check_constrained; vm_compute; reflexivity|]. split; [apply check_number; vm_compute; reflexivity|]. split; [repeat split; cbn; lia|]. split.
  { split; [reflexivity|]. split; [reflexivity|]. split; [reflexivity|]. split; [apply le_check; vm_compute; reflexivity|].
    intros i Hi. assert (C : i < 0 \/ 1 <= i) by lia. rewrite !(zget_none _ _ _) by exact C. reflexivity. }
  assert (K : match LGEnsembleFromReader amd64_text (mkReader zero_file true) true with
    | Ok e => Predict amd64_text (EnsembleWithRawPredictions e) [fint 0] 0 [fzero] = Ok [fint 2] /\ Predict amd64_text (EnsembleWithRawPredictions e) [fint 1] 0 [fzero] = Ok [fint 1]
    | _ => False end) by (split; vm_compute; reflexivity).
  destruct (LGEnsembleFromReader amd64_text (mkReader zero_file true) true) as [e|?|?|]; try contradiction. destruct K as [K1 K2].
  exists e, (fint 2), (fint 1). split; [reflexivity|]. split; [exact K1|]. split; [exact K2|].
  intros M. unfold moved in M. assert (F : fle (fint 2) (fint 1) = true) by (apply fle_le64; [vm_compute; reflexivity|vm_compute; reflexivity|exact M]). vm_compute in F. discriminate.
Qed.
Print Assumptions C79_zero_missing_refuted.

(** ** A linear model: [demo_lin] has non-negative weights for feature 0 *)
Example C79_gblinear_hypotheses_met :
  well_formed demo_lin /\ raw_output demo_lin /\ core (eBase demo_lin) = BLinear demo_linear /\
  terms_fit demo_linear 2 0 [fint 1; fint 5] /\ terms_fit demo_linear 2 0 [fint 3; fint 5] /\
  (forall bias, zget (xlWeights demo_linear) (2 * 2 + 0) = Some bias -> number (fadd (xlBaseScore demo_linear) (f64_of_f32bits bias))) /\
  (forall w, zget (xlWeights demo_linear) (0 * 2 + 0) = Some w -> le64 fzero (f64_of_f32bits w)) /\
  Predict amd64 demo_lin [fint 1; fint 5] 0 [fzero; fzero] <> Predict amd64 demo_lin [fint 3; fint 5] 0 [fzero; fzero].
Proof.
  assert (T : forall u, valid64 u && finite64 u && finite64 (fmul u (f64_of_f32bits (nth 0 (xlWeights demo_linear) 0))) = true -> terms_fit demo_linear 2 0 [u; fint 5]).
  { intros u H i v w Hi Hv Hw. apply andb_prop in H as [H F]. apply andb_prop in H as [V G]. change (0 <= i < 2) in Hi. assert (C : i = 0 \/ i = 1) by lia. destruct C as [-> | ->].
    - injection Hv as <-. vm_compute in Hw. injection Hw as <-. split; [split; assumption|]. split; [split; vm_compute; reflexivity|exact F].
    - injection Hv as <-. vm_compute in Hw. injection Hw as <-. split; [split; vm_compute; reflexivity|]. split; [split; vm_compute; reflexivity|vm_compute; reflexivity]. }
  split; [exact demo_lin_wf|]. split; [eexists; reflexivity|]. split; [reflexivity|]. split; [apply T; vm_compute; reflexivity|]. split; [apply T; vm_compute; reflexivity|].
  split; [intros bias H; vm_compute in H; injection H as <-; split; vm_compute; reflexivity|]. split; [intros w H; vm_compute in H; injection H as <-; apply le_check; vm_compute; reflexivity|].
  vm_compute. discriminate.
Qed.

(** ** A scikit-learn model whose prediction increases in feature 1 (its predictions for 3 and 6 are in [C47_demo]) *)
Example C79_sklearn_hypotheses_met :
  raised 1 (fint 3) (fint 6) [fint 1; fint 3] [fint 1; fint 6] /\ Forall (sk_features_below 2) k_trees /\
  Forall (fun t => constrained true 1 (sk_reference (fun v => v) t)) k_trees /\
  Forall (fun t => splits_apart 1 (fint 3) (fint 6) (sk_reference (fun v => v) t)) k_trees /\ sk_rate_fits k_model k_trees.
Proof.
  split.
  { split; [reflexivity|]. split; [reflexivity|]. split; [reflexivity|]. split; [apply le_check; vm_compute; reflexivity|].
    intros i Hi. destruct (Z.eq_dec i 0) as [->|H0]; [reflexivity|]. assert (C : i < 0 \/ 2 <= i) by lia. rewrite !(zget_none _ _ _) by exact C. reflexivity. }
  split; [repeat constructor; cbn; lia|]. split; [repeat (apply Forall_cons; [apply check_constrained; vm_compute; reflexivity|]); apply Forall_nil|].
  split; [repeat (apply Forall_cons; [|]); try apply Forall_nil; cbn [splits_apart sk_reference]; repeat split; auto; try lia; intros _; vm_compute; discriminate|].
  split; [split; vm_compute; reflexivity|]. split; [apply le_check; vm_compute; reflexivity|]. intros t id v Ht Hv.
  assert (P : forall k prior, prior_of (gbInit k_model) k = Some prior -> prior = fint 10) by (intros k prior H; vm_compute in H; injection H as <-; reflexivity).
  assert (C : v = fint 3 \/ v = fneg (fint 4) \/ v = fint 7 \/ v = fint 6).
  { destruct Ht as [<-|[<-|[]]]; cbn [sk_reference leaves_of app In] in Hv; intuition congruence. }
  destruct C as [-> | [-> | [-> | ->]]]; (split; [split; vm_compute; reflexivity|split; [vm_compute; reflexivity|intros k prior H; rewrite (P _ _ H); split; [split; vm_compute; reflexivity|vm_compute; reflexivity]]]).
Qed.
