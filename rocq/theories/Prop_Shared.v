(** * C77: predictions written over the input *)

From Coq Require Import ZArith List Bool String Lia ZifyBool.
From Verif Require Import Go GoFloat GoText Cmd UtilBits UtilMath LgTree Transformation Ensembles Leaves Parallel Concurrent Shared
  Spec_Predict Spec_Shared Pf_Go Pf_Cmd Pf_Leaves Pf_Parallel Pf_Calls Pf_Rows Pf_Concurrent Pf_Shared Prop_Batch Demo Ex_Batch.
Local Open Scope Z_scope.

(** Predict on slices of one memory, however they overlap, has the effect it has on separate slices with the same contents, unless
    scores are built in the output and a feature lies in a cell that is written *)
Theorem C77_predict :
  forall p e mem foff flen poff plen nEstimators,
  well_formed e -> in_memory mem foff flen -> in_memory mem poff plen -> predict_apart e foff flen poff ->
  Predict_s p e foff flen nEstimators poff plen mem =
  match Predict p e (window mem foff flen) nEstimators (window mem poff plen) with
  | Ok out => Ok (splice mem poff plen out)
  | Err m => Err m
  | Panic m => Panic m
  | Hang => Hang
  end.
Proof.
  intros p e mem foff flen poff plen nE Hwf Ff Fp D. unfold Predict_s, Predict. cbv zeta.
  rewrite !window_zlen by auto.
  destruct (plen <? s64 (NOutputGroups e * 1)); auto. destruct (flen <? NFeatures e); auto.
  destruct (b_adjustNEstimators (eBase e) nE) as [n|s|s|] eqn:Ha; cbn [bind]; auto.
  destruct (checkNEstimators e n) as [[]|s|s|] eqn:Hc; cbn [bind]; auto.
  rewrite piat_s_spec; auto.
  - eapply adjust_usable; eauto.
  - intros B. rewrite Z.add_0_r. auto.
Qed.
Print Assumptions C77_predict.

(** overlapping slices never matter when the model transforms its scores *)
Theorem C77_predict_in_place :
  forall p e mem foff flen poff plen nEstimators,
  well_formed e -> in_memory mem foff flen -> in_memory mem poff plen -> ~ builds_in_output e ->
  Predict_s p e foff flen nEstimators poff plen mem =
  match Predict p e (window mem foff flen) nEstimators (window mem poff plen) with
  | Ok out => Ok (splice mem poff plen out)
  | Err m => Err m
  | Panic m => Panic m
  | Hang => Hang
  end.
Proof. intros p e mem foff flen poff plen nE Hwf Ff Fp D. apply C77_predict; auto. intros B. contradiction. Qed.
Print Assumptions C77_predict_in_place.

(** PredictDense with one thread: the result is that of a call on separate slices with any number of threads *)
Theorem C77_dense :
  forall p e mem voff vcap nrows ncols poff plen nEstimators,
  well_formed e -> sane_rows e nrows -> zlen mem <= MaxInt ->
  in_memory mem voff vcap -> in_memory mem poff plen -> 0 < ncols -> nrows * ncols <= vcap ->
  dense_apart e voff ncols nrows poff ->
  (forall nThreads out,
     PredictDense p e (window mem voff vcap) nrows ncols (window mem poff plen) nEstimators nThreads (Returns out) ->
     PredictDense_s p e voff vcap nrows ncols poff plen nEstimators mem = Ok (splice mem poff plen out)) /\
  (forall mem', PredictDense_s p e voff vcap nrows ncols poff plen nEstimators mem = Ok mem' ->
     exists out, PredictDense p e (window mem voff vcap) nrows ncols (window mem poff plen) nEstimators 1 (Returns out) /\
       mem' = splice mem poff plen out).
Proof.
  intros p e mem voff vcap nrows ncols poff plen nE Hwf [[Hn0 Hn] Hp] Hm Fv Fp Hc Hv D. unfold PredictDense_s. split.
  - intros t out H. destruct (dense_seq _ _ _ _ _ _ _ _ _ Hwf Hn Hp H) as (n & E & Es).
    destruct (dense_checks_ok _ _ _ _ _ _ Hwf E) as (Hu & _).
    rewrite E. cbn [bind]. rewrite dense_single_s_spec by auto. rewrite Es. reflexivity.
  - intros mem' H. apply bind_ok in H. destruct H as (n & E & H).
    destruct (dense_checks_ok _ _ _ _ _ _ Hwf E) as (Hu & _).
    rewrite dense_single_s_spec in H by auto. apply bind_ok in H. destruct H as (w & Ew & H).
    exists w. split; [|congruence]. eapply PD_single; eauto. unfold single_threaded. rewrite orb_true_r. reflexivity.
Qed.
Print Assumptions C77_dense.

(** in particular a table of features may be overwritten from its beginning by the predictions of a model that transforms its
    scores, if a prediction is not wider than a row *)
Theorem C77_dense_in_place :
  forall p e mem voff vcap nrows ncols poff plen nEstimators nThreads out,
  well_formed e -> sane_rows e nrows -> zlen mem <= MaxInt ->
  in_memory mem voff vcap -> in_memory mem poff plen -> nrows * ncols <= vcap ->
  ~ builds_in_output e -> poff <= voff -> 0 < ncols -> NOutputGroups e <= ncols ->
  PredictDense p e (window mem voff vcap) nrows ncols (window mem poff plen) nEstimators nThreads (Returns out) ->
  PredictDense_s p e voff vcap nrows ncols poff plen nEstimators mem = Ok (splice mem poff plen out).
Proof.
  intros p e mem voff vcap nrows ncols poff plen nE t out Hwf Hs Hm Fv Fp Hv B Hpo Hc Hg H.
  eapply C77_dense; eauto. intros i Hi. split; [right; nia|contradiction].
Qed.
Print Assumptions C77_dense_in_place.

(** raw scores and leaf indices: the predictions must begin one row of output before the features *)
Theorem C77_dense_raw_in_place :
  forall p e mem voff vcap nrows ncols poff plen nEstimators nThreads out,
  well_formed e -> sane_rows e nrows -> zlen mem <= MaxInt ->
  in_memory mem voff vcap -> in_memory mem poff plen -> nrows * ncols <= vcap ->
  poff + NOutputGroups e <= voff -> 0 < ncols -> NOutputGroups e <= ncols ->
  PredictDense p e (window mem voff vcap) nrows ncols (window mem poff plen) nEstimators nThreads (Returns out) ->
  PredictDense_s p e voff vcap nrows ncols poff plen nEstimators mem = Ok (splice mem poff plen out).
Proof.
  intros p e mem voff vcap nrows ncols poff plen nE t out Hwf Hs Hm Fv Fp Hv Hpo Hc Hg H.
  pose proof (wf_NOG e Hwf). eapply C77_dense; eauto. intros i Hi. split; [|intros _]; right; nia.
Qed.
Print Assumptions C77_dense_raw_in_place.

(** PredictCSR with one thread; every row is copied before its prediction is written, whatever the transformation *)
Theorem C77_csr :
  forall p e mem indptr cols voff vlen poff plen nEstimators,
  well_formed e -> sane_rows e (zlen indptr - 1) ->
  in_memory mem voff vlen -> in_memory mem poff plen ->
  csr_apart e indptr voff poff ->
  (forall nThreads out,
     PredictCSR p e indptr cols (window mem voff vlen) (window mem poff plen) nEstimators nThreads (Returns out) ->
     PredictCSR_s p e indptr cols voff vlen poff plen nEstimators mem = Ok (splice mem poff plen out)) /\
  (forall mem', PredictCSR_s p e indptr cols voff vlen poff plen nEstimators mem = Ok mem' ->
     exists out, PredictCSR p e indptr cols (window mem voff vlen) (window mem poff plen) nEstimators 1 (Returns out) /\
       mem' = splice mem poff plen out).
Proof.
  intros p e mem indptr cols voff vlen poff plen nE Hwf [[Hn0 Hn] Hp] Fv Fp D. unfold PredictCSR_s. split.
  - intros t out H. destruct (csr_seq _ _ _ _ _ _ _ _ _ Hwf Hn Hp H) as (n & E & Es).
    destruct (csr_checks_ok _ _ _ _ _ Hwf E) as (Hu & _).
    rewrite E. cbn [bind]. rewrite csr_single_s_spec by auto. rewrite Es. reflexivity.
  - intros mem' H. apply bind_ok in H. destruct H as (n & E & H).
    destruct (csr_checks_ok _ _ _ _ _ Hwf E) as (Hu & _).
    rewrite csr_single_s_spec in H by auto. apply bind_ok in H. destruct H as (w & Ew & H).
    exists w. split; [|congruence]. eapply PC_single; eauto. unfold single_threaded. rewrite orb_true_r. reflexivity.
Qed.
Print Assumptions C77_csr.

(** Raw scores written over the features are wrong, and so are transformed ones that run ahead of the rows still to be read. *)
Theorem C77_raw_in_place_refuted :
  exists e mem out mem', well_formed e /\ in_memory mem 0 2 /\
    Predict amd64 e (window mem 0 2) 0 (window mem 0 2) = Ok out /\
    Predict_s amd64 e 0 2 0 0 2 mem = Ok mem' /\ window mem' 0 2 <> out.
Proof.
  exists demo_raw, [fint 3; fint 9], (map fint [26; 11]), (map fint [15; 9]).
  split; [apply demo_raw_wf|]. split; [unfold in_memory; vm_compute; intuition discriminate|].
  split; [vm_compute; reflexivity|]. split; [vm_compute; reflexivity|]. vm_compute. discriminate.
Qed.
Print Assumptions C77_raw_in_place_refuted.

(** a model that tells rows by their second feature: 1/2 up to 1, 1 above *)
Definition half_or_one : Ensemble :=
  mkEnsemble (BXg (mkXgEnsemble [stump 1 (fint 1) (fint 0) finf] 1 1 (fint 0) [fint 1] (bs "xgboost.gbtree"))) TransformLogistic.
Example half_or_one_wf : well_formed half_or_one.
Proof. vm_compute. repeat split; discriminate. Qed.

(** the second prediction belongs to another row: the first one was written over its second feature *)
Theorem C77_ahead_refuted :
  exists e mem out mem', well_formed e /\ ~ builds_in_output e /\ in_memory mem 0 4 /\ in_memory mem 3 2 /\
    PredictDense amd64 e (window mem 0 4) 2 2 (window mem 3 2) 0 1 (Returns out) /\
    PredictDense_s amd64 e 0 4 2 2 3 2 0 mem = Ok mem' /\ window mem' 3 2 <> out.
Proof.
  exists half_or_one, (map fint [1; 2; 9; 9; 0]), [fint 1; fint 1], (map fint [1; 2; 9; 1] ++ [fdiv (fint 1) (fint 2)]).
  split; [apply half_or_one_wf|]. split; [intros []|].
  split; [unfold in_memory; vm_compute; intuition discriminate|]. split; [unfold in_memory; vm_compute; intuition discriminate|].
  split; [apply PD_single with (n := 1); vm_compute; reflexivity|]. split; [vm_compute; reflexivity|]. vm_compute. discriminate.
Qed.
Print Assumptions C77_ahead_refuted.

(** a table of two rows overwritten by its predictions, with the hypotheses of C77_dense_in_place *)
Example C77_demo :
  let mem := map fint [1; 2; 9; 0; 7] in
  well_formed half_or_one /\ sane_rows half_or_one 2 /\ in_memory mem 0 4 /\ in_memory mem 0 2 /\
  ~ builds_in_output half_or_one /\ NOutputGroups half_or_one <= 2 /\
  PredictDense_s amd64 half_or_one 0 4 2 2 0 2 0 mem = Ok (fint 1 :: fdiv (fint 1) (fint 2) :: map fint [9; 0; 7]).
Proof.
  split; [apply half_or_one_wf|]. split; [vm_compute; intuition discriminate|].
  split; [unfold in_memory; vm_compute; intuition discriminate|]. split; [unfold in_memory; vm_compute; intuition discriminate|].
  split; [intros []|]. split; [vm_compute; discriminate|]. vm_compute. reflexivity.
Qed.

(** raw scores one row ahead of the features, sparse rows written over their own values *)
Example C77_demo_raw :
  let mem := map fint [0; 0; 3; 9; 1; 1] in
  in_memory mem 2 4 /\ in_memory mem 0 4 /\ 0 + NOutputGroups demo_raw <= 2 /\
  PredictDense_s amd64 demo_raw 2 4 2 2 0 4 0 mem = Ok (map fint [26; 11; 15; 9; 1; 1]) /\
  csr_apart demo_raw [0; 2; 4] 0 0 /\
  PredictCSR_s amd64 demo_raw [0; 2; 4] [0; 1; 0; 1] 0 4 0 4 0 (map fint [3; 9; 1; 1]) = Ok (map fint [26; 11; 15; 9]).
Proof.
  split; [unfold in_memory; vm_compute; intuition discriminate|]. split; [unfold in_memory; vm_compute; intuition discriminate|].
  split; [vm_compute; discriminate|]. split; [vm_compute; reflexivity|]. split; [|vm_compute; reflexivity].
  intros i s t H1 H2. assert (R : 0 <= i < 3) by (apply zget_range in H1; exact H1).
  assert (i = 0 \/ i = 1 \/ i = 2) as [E|[E|E]] by lia; subst i; vm_compute in H1, H2; inversion H1; inversion H2; subst; right; vm_compute; discriminate.
Qed.
