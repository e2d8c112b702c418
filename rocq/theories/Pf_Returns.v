(** * When Predict returns a result *)

From Coq Require Import ZArith List Bool String Lia ZifyBool.
From Verif Require Import Go GoFloat Cmd UtilMath LgTree Transformation Ensembles Leaves Parallel Spec_Predict Pf_Go Pf_Cmd Pf_Exec Pf_Leaves Pf_Calls Pf_Rows Prop_Batch.

Definition fine (c : cmd) : Prop := match c with CPanic _ | CHang => False | _ => True end.

Lemma fine_runs : forall n cs, within 0 n cs -> Forall fine cs -> Forall (runs n) cs.
Proof.
  intros n cs H F. induction H as [|c cs Hc H IH]; [constructor|]. inversion F; subst. constructor; auto.
  unfold cell_in in Hc. unfold runs. destruct c; simpl in *; try contradiction; eauto.
Qed.

Lemma fine_flat_map : forall A (f : A -> list cmd) l, (forall x, In x l -> Forall fine (f x)) -> Forall fine (flat_map f l).
Proof. intros A f l H. apply Forall_flat_map. apply Forall_forall. auto. Qed.
Lemma fine_map : forall A (f : A -> cmd) l, (forall x, In x l -> fine (f x)) -> Forall fine (map f l).
Proof. intros A f l H. apply Forall_map. apply Forall_forall. auto. Qed.

(** every tree gives a result for the feature vector and every weight needed is there *)
Definition evaluable (p : platform) (e : Ensemble) (x : list f64) : Prop :=
  match core (eBase e) with
  | BLg m => Forall (fun t => exists r, predict p t x = Ok r) (lgTrees m)
  | BXg m => Forall (fun t => exists r, predict p t x = Ok r) (xgTrees m) /\ zlen (xgTrees m) <= zlen (xgWeightDrop m)
  | BLinear m => 0 <= xlNumFeature m <= zlen x /\ xlNRawOutputGroups m * (xlNumFeature m + 1) <= MaxInt /\
                 xlNRawOutputGroups m * (xlNumFeature m + 1) <= zlen (xlWeights m)
  | BEnsemble _ _ => False
  end.

Lemma tree_ok : forall p trees i x, Forall (fun t => exists r, predict p t x = Ok r) trees -> 0 <= i < zlen trees ->
  exists t r, at_ trees i = Ok t /\ predict p t x = Ok r.
Proof.
  intros p trees i x H Hi. destruct (zget_some _ trees i Hi) as [t Ht]. rewrite Forall_forall in H.
  destruct (H t (zget_in _ _ _ _ Ht)) as [r Hr]. exists t, r. split; auto. apply at_ok. auto.
Qed.

Lemma inner_fine : forall p e x n k, well_formed e -> evaluable p e x -> NEstimators e = Ok k -> 0 <= n <= k ->
  Forall fine (b_predictInner p (eBase e) x n 0).
Proof.
  intros p e x n k Hwf He Hk Hn. rewrite core_inner.
  destruct (wf_NEst e Hwf) as (k' & Hk' & _ & _ & Hb). assert (k' = k) by congruence. subst k'.
  pose proof Hwf as ([Hg _] & _). unfold NRawOutputGroups in Hg, Hb. rewrite core_NRaw in Hg, Hb.
  unfold evaluable, is_tree_model, model_trees in *.
  destruct (core_cases (eBase e)) as [[q Eq]|[[q Eq]|[q Eq]]]; rewrite Eq in *; cbn [b_predictInner b_NRawOutputGroups] in *.
  - specialize (Hb I). unfold lg_predictInner. apply Forall_app. split; [apply fine_map; simpl; auto|].
    apply fine_flat_map. intros i Hi. apply in_zseq in Hi. apply fine_map. intros j Hj. apply in_zseq in Hj.
    destruct (tree_ok p (lgTrees q) (i * lgNRawOutputGroups q + j) x He ltac:(nia)) as (t & r & Ht & Hr). rewrite Ht. cbn [bind]. rewrite Hr. simpl. auto.
  - specialize (Hb I). destruct He as [He Hw]. unfold xg_predictInner. apply Forall_app. split; [apply fine_map; simpl; auto|].
    apply fine_flat_map. intros i Hi. apply in_zseq in Hi. apply fine_map. intros j Hj. apply in_zseq in Hj. cbv zeta.
    destruct (tree_ok p (xgTrees q) (i * xgNRawOutputGroups q + j) x He ltac:(nia)) as (t & r & Ht & Hr). rewrite Ht. cbn [bind]. rewrite Hr. cbn [bind].
    destruct (zget_some _ (xgWeightDrop q) (i * xgNRawOutputGroups q + j) ltac:(nia)) as [w Hw']. apply at_ok in Hw'. rewrite Hw'. simpl. auto.
  - destruct He as (Hf & Hm & Hw). unfold xl_predictInner. apply fine_flat_map. intros j Hj. apply in_zseq in Hj. constructor.
    + rewrite s64_id by (unfold MaxInt, two63 in *; nia).
      destruct (zget_some _ (xlWeights q) (xlNRawOutputGroups q * xlNumFeature q + j) ltac:(nia)) as [w Hw']. apply at_ok in Hw'. rewrite Hw'. simpl. auto.
    + apply fine_map. intros i Hi. apply in_zseq in Hi. destruct (zget_some _ x i ltac:(lia)) as [v Hv]. apply at_ok in Hv. rewrite Hv. cbn [bind].
      rewrite s64_id by (unfold MaxInt, two63 in *; nia).
      destruct (zget_some _ (xlWeights q) (xlNRawOutputGroups q * i + j) ltac:(nia)) as [w Hw']. apply at_ok in Hw'. rewrite Hw'. simpl. auto.
Qed.

Lemma leafs_fine : forall p e x k, well_formed e -> evaluable p e x -> NEstimators e = Ok k ->
  Forall fine (b_predictLeafIndicesInner p (eBase e) x k 0).
Proof.
  intros p e x k Hwf He Hk. rewrite core_leafs.
  destruct (wf_NEst e Hwf) as (k' & Hk' & Hk0 & _ & Hb). assert (k' = k) by congruence. subst k'.
  pose proof Hwf as ([Hg _] & _). unfold NRawOutputGroups in Hg, Hb. rewrite core_NRaw in Hg, Hb.
  unfold evaluable, is_tree_model, model_trees in *.
  assert (G : forall trees g, Forall (fun t => exists r, predict p t x = Ok r) trees -> 1 <= g -> g * k <= zlen trees ->
     Forall fine (trees_predictLeafIndicesInner p trees g x k 0)).
  { intros trees g Ht Hg1 Hl. unfold trees_predictLeafIndicesInner. apply Forall_app. split; [apply fine_map; simpl; auto|].
    apply fine_flat_map. intros i Hi. apply in_zseq in Hi. apply fine_map. intros j Hj. apply in_zseq in Hj.
    destruct (tree_ok p trees (i * g + j) x Ht ltac:(nia)) as (t & r & Ht1 & Hr). rewrite Ht1. cbn [bind]. rewrite Hr. simpl. auto. }
  destruct (core_cases (eBase e)) as [[q Eq]|[[q Eq]|[q Eq]]]; rewrite Eq in *; cbn [b_predictLeafIndicesInner b_NRawOutputGroups] in *.
  - specialize (Hb I). apply G; auto; lia.
  - specialize (Hb I). destruct He. apply G; auto; lia.
  - constructor.
Qed.

Lemma softmax_fine : forall p raw s, Forall fine (SoftmaxFloat64Slice p raw s).
Proof.
  intros p raw s. unfold SoftmaxFloat64Slice. apply Forall_app. split; [apply fine_map; simpl; auto|].
  destruct (negb _); [apply fine_map; simpl; auto|constructor].
Qed.

Lemma piat_fine : forall p e x n, well_formed e -> evaluable p e x -> usable e n -> NRawOutputGroups e <= pl_maxalloc p ->
  Forall fine (predictInnerAndTransform p e x n 0).
Proof.
  intros p e x n Hwf He (k & Hk & Hn & Hall) Ha. unfold predictInnerAndTransform.
  pose proof (inner_fine p e x n k Hwf He Hk Hn) as Hf. pose proof (inner_within p (eBase e) x n) as Hw.
  pose proof Hwf as ([Hg _] & _).
  assert (R : exists raw, (let* raw := make_f64 p (NRawOutputGroups e) in exec (b_predictInner p (eBase e) x n 0) raw) = Ok raw).
  { unfold make_f64. replace (_ || _) with false by lia. cbn [bind]. apply exec_runs. rewrite zlen_repeat, Z2Nat.id by lia. apply fine_runs; auto. }
  destruct (eTransform e) as [m| |m|m|] eqn:E; cbn [Type_t] in *.
  - exact Hf.
  - change (TypeLogistic =? TypeRaw) with false. change (TypeLogistic =? TypeLeafIndex) with false. cbv iota.
    destruct R as [raw ->]. cbn [cmds_of Transform_t]. destruct (negb (zlen raw =? 1)) eqn:El; [constructor|].
    destruct (zget_some _ raw 0 ltac:(lia)) as [v Hv]. apply at_ok in Hv. rewrite Hv. simpl. repeat constructor.
  - change (TypeSoftmax =? TypeRaw) with false. change (TypeSoftmax =? TypeLeafIndex) with false. cbv iota.
    destruct R as [raw ->]. cbn [cmds_of Transform_t]. destruct (negb (zlen raw =? m)) eqn:El; [constructor|]. apply softmax_fine.
  - change (TypeLeafIndex =? TypeRaw) with false. change (TypeLeafIndex =? TypeLeafIndex) with true. cbv iota.
    rewrite (Hall (ex_intro _ m E)). apply leafs_fine; auto.
  - change (TypeExponential =? TypeRaw) with false. change (TypeExponential =? TypeLeafIndex) with false. cbv iota.
    destruct R as [raw ->]. cbn [cmds_of Transform_t]. destruct (negb (zlen raw =? 1)) eqn:El; [constructor|].
    destruct (zget_some _ raw 0 ltac:(lia)) as [v Hv]. apply at_ok in Hv. rewrite Hv. simpl. repeat constructor.
Qed.

Lemma Predict_returns : forall p e x nE preds, well_formed e -> evaluable p e x ->
  NOutputGroups e <= MaxInt -> NOutputGroups e <= zlen preds -> NFeatures e <= zlen x -> NRawOutputGroups e <= pl_maxalloc p ->
  ~ partial_leaves e nE -> exists out, Predict p e x nE preds = Ok out.
Proof.
  intros p e x nE preds Hwf He Hm Hp Hx Ha Hpl. pose proof (wf_NOG e Hwf) as Hg0. unfold Predict. cbv zeta.
  rewrite s64_id by (unfold MaxInt, two63 in *; lia). rewrite Z.mul_1_r.
  replace (zlen preds <? NOutputGroups e) with false by lia. replace (zlen x <? NFeatures e) with false by lia.
  destruct (check_spec e nE Hwf) as [[Hpl' _]|[_ (n & Ha' & Hc)]]; [contradiction|].
  rewrite Ha'. cbn [bind]. rewrite Hc. cbn [bind]. pose proof (adjust_usable _ _ _ Hwf Ha' Hc) as Hu.
  apply exec_runs. apply fine_runs.
  - eapply Forall_impl; [|apply (piat_within p e x n Hwf Hu)]. intros c. unfold cell_in. destruct (cmd_upd c) as [[i f]|]; auto. lia.
  - apply piat_fine; auto.
Qed.
