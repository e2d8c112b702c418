(** * Concrete cases meeting the hypotheses of Prop_Batch.v *)

From Coq Require Import ZArith List Bool String Lia ZifyBool.
From Verif Require Import Go GoFloat GoText Cmd LgTree Transformation Ensembles Leaves Parallel
  Spec_Predict Demo Pf_Go Pf_Cmd Pf_Rows Prop_Batch.

Ltac dec := vm_compute; (reflexivity || congruence || discriminate || intuition congruence).

Example demo_raw_wf : well_formed demo_raw.
Proof. repeat split; try reflexivity; vm_compute; discriminate. Qed.
Example demo_softmax_wf : well_formed demo_softmax.
Proof. repeat split; try reflexivity; vm_compute; discriminate. Qed.
Example demo_logistic_wf : well_formed demo_logistic.
Proof. repeat split; try reflexivity; vm_compute; discriminate. Qed.
Example demo_lin_wf : well_formed demo_lin.
Proof. repeat split; try reflexivity; vm_compute; discriminate. Qed.
Example demo_arities : arity_accepted demo_raw /\ arity_accepted demo_softmax /\ arity_accepted demo_logistic
  /\ arity_accepted demo_lin.
Proof. repeat split. Qed.
Example demo_rows : sane_rows demo_raw 20.
Proof. repeat split; vm_compute; discriminate. Qed.

Lemma rows_by_computation : forall p e vals ncols nE nrows, 0 < ncols -> zlen vals <= MaxInt ->
  nrows * ncols <= zlen vals ->
  forallb (fun i => match slice vals (i * ncols) ((i + 1) * ncols) with
                    | Ok row => is_ok (Predict p e row nE (zeros (NOutputGroups e)))
                    | _ => false end) (zseq nrows) = true ->
  forall i, 0 <= i < nrows -> exists row out out',
     is_dense_row vals ncols i row /\ Predict p e row nE out = Ok out'.
Proof.
  intros p e vals ncols nE nrows Hc Hv Hl H i Hi. rewrite forallb_forall in H.
  specialize (H i (proj2 (in_zseq _ _) Hi)).
  destruct (slice vals (i * ncols) ((i + 1) * ncols)) as [row| | |] eqn:E; try discriminate.
  destruct (dense_slice vals ncols i Hv Hc ltac:(lia) ltac:(nia)) as (row' & Hs & Hrow).
  rewrite !s64_id in Hs by (unfold MaxInt, two63 in *; nia).
  assert (row' = row) by congruence. subst row'. exists row, (zeros (NOutputGroups e)).
  destruct (Predict p e row nE (zeros (NOutputGroups e))) eqn:E2; try discriminate. eauto.
Qed.

(** two classes, 20 rows: two batches, four goroutines requested, two started *)
Example demo_parallel_returns : exists m,
  PredictDense amd64 demo_raw demo_vals 20 2 (zeros 50) 0 4 (Returns m) /\
  single_threaded 20 4 = false.
Proof.
  destruct (C03_dense_always_completes amd64 demo_raw demo_vals 20 2 (zeros 50) 0 4
    demo_raw_wf demo_rows ltac:(vm_compute; congruence) ltac:(vm_compute; congruence)
    ltac:(lia) ltac:(vm_compute; congruence) ltac:(vm_compute; congruence)) as [[m H] _].
  - apply rows_by_computation; [lia|vm_compute; congruence|vm_compute; congruence|vm_compute; reflexivity].
  - lia.
  - exists m. split; [exact H|reflexivity].
Qed.

(** the values themselves, by running the single-threaded path (C01: any schedule) *)
Example demo_values :
  match dense_single amd64 demo_raw demo_vals 20 2 (zeros 50) 2 with
  | Ok m => firstn 4 m = [fint 14; fint 8; fint 15; fint 9] /\ zlen m = 50 /\ zget m 45 = Some fzero
  | _ => False
  end.
Proof. vm_compute. auto. Qed.

(** a CSR matrix with 3 rows: two entries, none, a duplicate and a too large column *)
Example demo_csr_returns :
  match csr_single amd64 demo_raw [0; 2; 2; 5] [0; 1; 1; 1; 7] (map fint [5; 6; 1; 9; 3]) (zeros 6) 2 with
  | Ok m => Some m = Some (map fint [26; 11; 14; 8; 14; 9])
  | _ => False
  end.
Proof. vm_compute. reflexivity. Qed.

Example demo_csr_returns' :
  PredictCSR amd64 demo_raw [0; 2; 2; 5] [0; 1; 1; 1; 7] (map fint [5; 6; 1; 9; 3]) (zeros 6) 0 8
    (Returns (map fint [26; 11; 14; 8; 14; 9])).
Proof. eapply PC_single with (n := 2); vm_compute; reflexivity. Qed.

(** rejected calls exist, and accepted ones *)
Example demo_rejected : dense_rejected demo_raw 20 2 (zeros 39) 0 /\ dense_rejected demo_raw 20 1 (zeros 50) 0
  /\ ~ dense_rejected demo_raw 20 2 (zeros 50) 0.
Proof.
  repeat split.
  - left. reflexivity.
  - right. right. left. reflexivity.
  - intros [H|[H|[H|[[n H] _]]]]; vm_compute in H; congruence.
Qed.

Definition demo_leafview : Ensemble :=
  match EnsembleWithLeafPredictions demo_raw with Ok e => e | _ => demo_raw end.
Example demo_leafview_wf : well_formed demo_leafview /\ arity_accepted demo_leafview.
Proof.
  repeat split; try reflexivity; try (vm_compute; discriminate). vm_compute. exists 2. auto.
Qed.
Example demo_partial_leaves : partial_leaves demo_leafview 1 /\
  Predict amd64 demo_leafview (map fint [1; 2]) 1 (zeros 4) =
  Err "while predicting leaf indices all estimators should be used" /\
  Predict amd64 demo_leafview (map fint [1; 2]) 7 (zeros 4) = Ok (map fint [0; 1; 1; 0]).
Proof.
  repeat split; try reflexivity.
  - exists 4. reflexivity.
  - exists 2. split; [reflexivity|]. lia.
Qed.

(** a reachable state in which two goroutines are about to write *)
Example demo_two_writers :
  let j := dense_job amd64 demo_raw demo_vals 20 2 2 4 in
  exists s w1 w2, steps j (initial j (zeros 50)) (Running s) /\ st_workers s = [w1; w2] /\
    about_to_access w1 = Some 0 /\ about_to_access w2 = Some 32.
Proof.
  intros j. do 3 eexists. split.
  - eapply steps_cons; [apply step_spawn|].
    eapply steps_cons; [apply step_spawn|].
    eapply steps_cons; [apply step_spawned|].
    eapply steps_cons; [apply (step_init j _ _ _ [] tt); reflexivity|].
    eapply steps_cons; [apply (step_init j _ _ _ [WIdle tt] tt); reflexivity|].
    eapply steps_cons; [apply (step_feed j _ _ _ [] tt); reflexivity|].
    eapply steps_cons; [apply (step_feed j _ _ _ [WRow tt 0 16] tt); reflexivity|].
    eapply steps_cons; [apply (step_row j _ _ _ [] tt); reflexivity|].
    eapply steps_cons; [eapply (step_row j _ _ _ [_] tt); reflexivity|].
    apply steps_refl.
  - split; [reflexivity|]. split; reflexivity.
Qed.

Example demo_single : PredictSingle amd64 demo_logistic (map fint [1; 2]) 0 = Ok (fdiv fone (fint 2)) /\
  Predict amd64 demo_logistic (map fint [1; 2]) 0 [fnan] = Ok [fdiv fone (fint 2)] /\
  PredictSingle amd64 demo_raw (map fint [1; 2]) 0 = Ok fzero.
Proof. repeat split; vm_compute; reflexivity. Qed.

Example demo_batches : nBatches_of 37 = 3 /\ batch_end 37 2 = 37.
Proof. split; vm_compute; reflexivity. Qed.
