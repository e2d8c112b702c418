(** * C90, second part: a model predicts exactly when its reordered copies do *)

From Coq Require Import ZArith List Bool String Lia ZifyBool Permutation.
From Verif Require Import Go GoFloat GoText Cmd LgTree Transformation Ensembles Leaves Spec_Predict Spec_Reorder
  Demo Pf_Go Pf_Cmd Pf_Exec Pf_Leaves Pf_Values Prop_Values Pf_OneClass Prop_Reorder.

(** [e'] has the estimators of [e] (with their weights) in another order *)
Definition same_estimators (e e' : Ensemble) : Prop :=
  NEstimators e' = NEstimators e /\ NRawOutputGroups e' = NRawOutputGroups e /\ NFeatures e' = NFeatures e /\
  exists n order, NEstimators e = Ok n /\
  match core (eBase e), core (eBase e') with
  | BLg m, BLg m' => reordered n (NRawOutputGroups e) order (lgTrees m) (lgTrees m')
  | BXg m, BXg m' => reordered n (NRawOutputGroups e) order (xgTrees m) (xgTrees m') /\
                     reordered n (NRawOutputGroups e) order (xgWeightDrop m) (xgWeightDrop m')
  | _, _ => False
  end.

Definition is_ok {A : Type} (o : outcome A) : Prop := exists v, o = Ok v.

(** estimator [i] of the copy yields a term exactly when estimator [order[i]] does *)
Lemma term_moved : forall p e e' fv n order i j k, NRawOutputGroups e' = NRawOutputGroups e ->
  match core (eBase e), core (eBase e') with
  | BLg m, BLg m' => reordered n (NRawOutputGroups e) order (lgTrees m) (lgTrees m')
  | BXg m, BXg m' => reordered n (NRawOutputGroups e) order (xgTrees m) (xgTrees m') /\
                     reordered n (NRawOutputGroups e) order (xgWeightDrop m) (xgWeightDrop m')
  | _, _ => False
  end -> zget order i = Some j -> 0 <= k < NRawOutputGroups e ->
  (is_ok (term_of p (core (eBase e')) fv n i k) <-> is_ok (term_of p (core (eBase e)) fv n j k)).
Proof.
  intros p e e' fv n order i j k G M Ho Hk. unfold NRawOutputGroups in *. rewrite (core_NRaw (eBase e)) in *. rewrite (core_NRaw (eBase e')) in *.
  destruct (core (eBase e)) as [m|m|m|]; destruct (core (eBase e')) as [m'|m'|m'|]; try contradiction; cbn [b_NRawOutputGroups term_of] in *.
  - rewrite G. rewrite (at_same _ _ _ _ _ (proj2 M i j k Ho Hk)).
    destruct (let* t := at_ (lgTrees m) (j * lgNRawOutputGroups m + k) in predict p t fv) as [r|?|?|]; cbn [bind].
    2-4: split; intros [v E]; discriminate E.
    split; intros _; eexists; reflexivity.
  - destruct M as [M1 M2]. rewrite G. rewrite (at_same _ _ _ _ _ (proj2 M1 i j k Ho Hk)), (at_same _ _ _ _ _ (proj2 M2 i j k Ho Hk)). reflexivity.
Qed.

Theorem C90_same_success :
  forall p e e' fvals predictions predictions',
  well_formed e -> raw_output e -> well_formed e' -> raw_output e' -> same_estimators e e' ->
  NRawOutputGroups e <= zlen predictions -> NRawOutputGroups e <= zlen predictions' ->
  ((exists out, Predict p e fvals 0 predictions = Ok out) <-> (exists out, Predict p e' fvals 0 predictions' = Ok out)).
Proof.
  intros p e e' fv ps ps' W R W' R' (EN & EG & EF & n & order & Hn & M) L L'.
  destruct (Predict_raw p e fv 0 ps W R) as (n0 & N & HN & En & _ & EP). destruct (Predict_raw p e' fv 0 ps' W' R') as (n1 & N' & HN' & En' & _ & EP').
  cbn [Z.ltb Z.compare andb] in En, En'. assert (N = n) by congruence. assert (N' = n) by congruence. subst N N' n0 n1.
  rewrite EP, EP', EF, EG. clear EP EP'.
  destruct (Z.ltb_spec (zlen ps) (NRawOutputGroups e)); [lia|]. destruct (Z.ltb_spec (zlen ps') (NRawOutputGroups e)); [lia|].
  destruct (zlen fv <? NFeatures e); [split; intros [o E]; discriminate E|].
  assert (P : Permutation (zseq n) order).
  { destruct (core (eBase e)); destruct (core (eBase e')); try contradiction; [exact (proj1 M)|exact (proj1 (proj1 M))]. }
  assert (N0 : 0 <= n) by (destruct (wf_NEst e W) as (k & Hk & ? & _); congruence).
  assert (F : forall k, 0 <= k < NRawOutputGroups e -> (cell_fine p (core (eBase e)) fv n k <-> cell_fine p (core (eBase e')) fv n k)).
  { intros k Hk. pose proof (fun i j Ho => term_moved p e e' fv n order i j k EG M Ho Hk) as T.
    assert (C : count_of (core (eBase e)) n = n /\ count_of (core (eBase e')) n = n /\ is_ok (first_of (core (eBase e)) k) /\ is_ok (first_of (core (eBase e')) k)).
    { clear T. destruct (core (eBase e)); destruct (core (eBase e')); try contradiction; repeat split; eexists; reflexivity. }
    destruct C as (C1 & C2 & C3 & C4). unfold cell_fine. rewrite C1, C2. split; intros [_ Y]; (split; [assumption|]); intros i Hi.
    - destruct (zget_some _ order i) as [j Ho].
      { apply Permutation_length in P. unfold zlen. rewrite <- P. fold (zlen (zseq n)). rewrite zseq_zlen; lia. }
      apply (T i j Ho). apply Y. eapply in_order; eauto.
    - assert (I : In i order) by (eapply Permutation_in; [exact P|apply in_zseq; exact Hi]).
      apply in_zget in I. destruct I as [a Ho]. apply (T a i Ho). apply Y. eapply order_range; eauto. }
  unfold NRawOutputGroups in *. rewrite (core_NRaw (eBase e)) in *. rewrite (core_NRaw (eBase e')) in EG. destruct W as (W1 & _).
  unfold NRawOutputGroups in W1. rewrite (core_NRaw (eBase e)) in W1.
  split; intros [o E].
  - apply inner_runs; [apply flat_core|lia|]. intros k Hk. rewrite EG in Hk. apply (F k Hk).
    exact (proj1 (inner_score p (core (eBase e)) fv n ps o (flat_core _) (Z.le_trans _ _ _ Z.le_0_1 (proj1 W1)) E k Hk)).
  - apply inner_runs; [apply flat_core|lia|]. intros k Hk. apply (F k Hk).
    assert (G0 : 0 <= b_NRawOutputGroups (core (eBase e'))) by lia. rewrite <- EG in Hk.
    exact (proj1 (inner_score p (core (eBase e')) fv n ps' o (flat_core _) G0 E k Hk)).
Qed.
Print Assumptions C90_same_success.

Example C90_success_hypotheses : same_estimators (three_trees 1 2 3) (three_trees 2 3 1) /\ NRawOutputGroups (three_trees 1 2 3) = 1.
Proof.
  split; [|reflexivity]. do 3 (split; [reflexivity|]). exists 3, [1; 2; 0]. split; [reflexivity|]. cbn [core eBase three_trees]. split.
  - change (zseq 3) with [0; 1; 2]. apply Permutation_trans with [1; 0; 2]; constructor; constructor.
  - intros i j k Ho Hk. change (NRawOutputGroups (three_trees 1 2 3)) with 1 in *. assert (k = 0) by lia. subst k. pose proof (zget_range _ _ _ _ Ho) as Hr. replace (zlen [1; 2; 0]) with 3 in Hr by reflexivity.
    assert (i = 0 \/ i = 1 \/ i = 2) as [->|[->| ->]] by lia; vm_compute in Ho; injection Ho as <-; reflexivity.
Qed.
