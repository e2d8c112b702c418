(** * Concrete cases of C63 *)

From Coq Require Import ZArith List Bool String Lia ZifyBool.
From Verif Require Import Go GoFloat GoText UtilText LgTree TreeBuild Transformation Ensembles Leaves LgTextIO SkClasses SkIO Parallel
  Spec_Predict Spec_Transform Spec_Tree Spec_LgFile Spec_SkTree Spec_SkFile Spec_EndToEnd Prop_Batch Prop_Values Prop_LgText Prop_Sk Prop_Loaded Prop_EndToEnd Demo DemoText Ex_LgText Ex_Sk.
Local Open Scope Z_scope.

Ltac closed := repeat match goal with |- _ /\ _ => split end;
  match goal with |- (_ <= _)%Z => vm_compute; discriminate | |- (_ < _)%Z => vm_compute; reflexivity end.

(** three rows of two columns *)
Definition em_vals : list f64 := [fint 34; fint 2; fint 34; fint 3; fnan; fint 9].
(** the same in CSR form *)
Definition em_indptr : list Z := [0; 2; 4; 6].
Definition em_cols : list Z := [0; 1; 0; 1; 0; 1].

(** the binary LightGBM model of Ex_LgText.v, loaded with its transformation *)
Example text_end_to_end : exists e, LGEnsembleFromReader amd64_text (mkReader ex_file true) true = Ok e /\ Transformation_ e = TransformLogistic /\
  Forall (features_below 2) [ex_tree; ex_const] /\
  dense_input amd64_text e em_vals 3 2 (blank 3) /\ csr_input amd64_text e em_indptr em_cols em_vals (blank 3) /\
  (forall threads, dense_scores amd64_text e em_vals 3 2 (blank 3) 0 threads (output_score amd64_text TransformLogistic 1 (lgb_score e [ex_tree; ex_const] false 0))) /\
  (forall threads, csr_scores amd64_text e em_indptr em_cols em_vals (blank 3) 0 threads (output_score amd64_text TransformLogistic 1 (lgb_score e [ex_tree; ex_const] false 0))).
Proof.
  destruct ex_file_says as (rest & header & kvss & S).
  destruct (C63_lightgbm_text _ _ _ _ _ _ _ _ _ _ _ _ S ltac:(vm_compute; discriminate) (fun _ => eq_refl)) as (e & E & G & T & D & C).
  exists e. split; [exact E|]. split; [exact T|].
  assert (F : Forall (features_below 2) [ex_tree; ex_const]) by (repeat constructor; cbn; lia). split; [exact F|].
  assert (NF : NFeatures e = 2).
  { clear - E. vm_compute in E. injection E as <-. vm_compute. reflexivity. }
  assert (NO : NOutputGroups e = 1) by (unfold NOutputGroups; unfold Transformation_ in T; rewrite T; reflexivity).
  assert (Di : dense_input amd64_text e em_vals 3 2 (blank 3)).
  { split; rewrite ?NF, ?NO, ?G; unfold sane_rows; rewrite ?NO; closed. }
  assert (Ci : csr_input amd64_text e em_indptr em_cols em_vals (blank 3)).
  { split; rewrite ?NF, ?NO, ?G; unfold sane_rows; rewrite ?NO; try closed.
    intros i Hi. change (zlen em_indptr - 1) with 3 in Hi.
      assert (K : i = 0 \/ i = 1 \/ i = 2) by lia. destruct K as [->|[->| ->]]; eexists _, _; (split; [reflexivity|]); (split; [reflexivity|]);
      intros j Hj; (split; [cbn; lia|]).
      - assert (K : j = 0 \/ j = 1) by lia. destruct K as [->| ->]; eexists; (split; [reflexivity|lia]).
      - assert (K : j = 2 \/ j = 3) by lia. destruct K as [->| ->]; eexists; (split; [reflexivity|lia]).
      - assert (K : j = 4 \/ j = 5) by lia. destruct K as [->| ->]; eexists; (split; [reflexivity|lia]). }
  split; [exact Di|]. split; [exact Ci|]. split; intros t.
  - apply D; auto.
  - apply C; auto. rewrite NF. exact F.
Qed.

(** the scikit-learn model of Ex_Sk.v, two rows, every number of threads *)
Example sklearn_end_to_end : exists e, SKEnsembleFromReader amd64_text (k_file k_model) true = Ok e /\
  dense_input amd64_text e [fint 1; fint 3; fint 0; fint 9] 2 2 (blank 2) /\
  forall threads, dense_scores amd64_text e [fint 1; fint 3; fint 0; fint 9] 2 2 (blank 2) 0 threads (sk_score e k_model k_trees 0).
Proof.
  destruct C47_demo_hypotheses as (s & mu & H1 & H2 & H3 & H4 & Ef).
  destruct (C63_sklearn amd64_text _ s mu _ _ [] true true H1 H2 H3 H4 ltac:(vm_compute; discriminate)) as (e & E & G & D & _).
  rewrite <- Ef in E. exists e. split; [exact E|].
  assert (NF : NFeatures e = 2 /\ NOutputGroups e = 1).
  { clear - E. vm_compute in E. injection E as <-. split; vm_compute; reflexivity. }
  destruct NF as (NF & NO). change (score_groups (gbNClasses k_model)) with 1 in G.
  assert (Di : dense_input amd64_text e [fint 1; fint 3; fint 0; fint 9] 2 2 (blank 2)).
  { split; rewrite ?NF, ?NO, ?G; unfold sane_rows; rewrite ?NO; closed. }
  split; [exact Di|]. intros t. apply D; [|exact Di]. unfold k_trees. repeat constructor; cbn; lia.
Qed.
