(** * Two calls at the same time *)

From Coq Require Import ZArith List Bool String Lia ZifyBool.
From Verif Require Import Go GoFloat Cmd LgTree Transformation Ensembles Leaves Parallel Concurrent Spec_Predict
  Pf_Go Pf_Cmd Pf_Parallel Pf_Rows Pf_Calls Pf_Concurrent Prop_Batch Demo Ex_Batch Prop_Concurrent.
Local Open Scope Z_scope.

(** PredictDense with several goroutines into cells 0-49, single-threaded PredictDense of the same
    model into cells 50-59 of a memory of 70 cells *)
Definition two (b : bool) : call := if b then DenseCall demo_raw demo_vals 20 2 0 4 else DenseCall demo_raw demo_vals 3 2 0 1.
Definition two_n (b : bool) : Z := 2.
Definition two_off (b : bool) : Z := if b then 0 else 50.
Definition two_len (b : bool) : Z := if b then 50 else 10.
Definition two_start (b : bool) : state (local (two b)) :=
  match b with
  | true => mkState (MSpawn (jb_threads (job_of amd64 (two true) 2))) false 0 [] []
  | false => mkState MWait true 1 [WRow tt 0 3] []
  end.

Example two_about_to_run : about_to_run amd64 two two_n two_off two_len (zeros 70) two_start.
Proof.
  split; [|split; [|split]].
  - intros [|]; vm_compute; repeat split; discriminate.
  - intros [|] [|] H; try congruence; unfold two_off, two_len; lia.
  - intros [|]; vm_compute; reflexivity.
  - intros [|].
    + apply (begins_parallel (job_of amd64 (two true) 2) (is_single (two true))). reflexivity.
    + apply (begins_single (job_of amd64 (two false) 2) (is_single (two false)) tt); reflexivity.
Qed.

Example two_complete : forall b, always_completes (job_of amd64 (two b) (two_n b))
  (Running (with_mem (two_start b) (window (zeros 70) (two_off b) (two_len b)))).
Proof.
  intros [|].
  - destruct (C03_dense_always_completes amd64 demo_raw demo_vals 20 2 (window (zeros 70) 0 50) 0 4
      demo_raw_wf demo_rows ltac:(vm_compute; congruence) ltac:(vm_compute; congruence)
      ltac:(lia) ltac:(vm_compute; congruence) ltac:(vm_compute; congruence)) as (_ & _ & H).
    + apply rows_by_computation; [lia|vm_compute; congruence|vm_compute; congruence|vm_compute; reflexivity].
    + lia.
    + apply (H 2); vm_compute; reflexivity.
  - destruct (dense_single amd64 demo_raw demo_vals 3 2 (window (zeros 70) 50 10) 2) as [m| | |] eqn:E; try (vm_compute in E; discriminate).
    apply (C61_single_threaded_completes amd64 (two false) 2 _ _ m); try reflexivity.
    + apply (begins_single (job_of amd64 (two false) 2) true tt); reflexivity.
    + eapply PD_single; [| |exact E]; vm_compute; reflexivity.
Qed.

(** so some execution ends with both returned, with the values of the calls alone *)
Example two_results : forall now mem,
  psteps _ (fun b => job_of amd64 (two b) (two_n b)) two_off two_len (Live two_start (zeros 70)) (Live now mem) ->
  st_main (now false) = MReturned -> firstn 4 (skipn 50 mem) = [fint 14; fint 8; fint 15; fint 9].
Proof.
  intros now mem H M.
  destruct (C61_concurrent_results bool amd64 two two_n two_off two_len (zeros 70) two_start Bool.bool_dec two_about_to_run false
    demo_raw_wf ltac:(repeat split; vm_compute; discriminate) now mem H M) as (_ & U & _).
  destruct (dense_single amd64 demo_raw demo_vals 3 2 (window (zeros 70) 50 10) 2) as [m| | |] eqn:E; try (vm_compute in E; discriminate).
  assert (W : m = window mem 50 10). { apply (U m). eapply PD_single; [| |exact E]; vm_compute; reflexivity. }
  assert (F : firstn 4 m = [fint 14; fint 8; fint 15; fint 9]) by (vm_compute in E; inversion E; vm_compute; reflexivity).
  rewrite W in F. unfold window in F. rewrite firstn_firstn in F. exact F.
Qed.

(** Without the separation of the slices the claim is false: two single-threaded calls into the
    same cells; after the first has returned the second clears its result. *)
Definition same (b : bool) : call := DenseCall demo_raw demo_vals 1 2 0 1.
Definition same_start (b : bool) : state (local (same b)) := mkState MWait true 1 [WRow tt 0 1] [].
Theorem C61_overlapping_slices_refuted : exists now mem,
  psteps _ (fun b => job_of amd64 (same b) 2) (fun _ => 0) (fun _ => 2) (Live same_start (zeros 2)) (Live now mem) /\
  st_main (now true) = MReturned /\
  ~ alone amd64 (same true) (window (zeros 2) 0 2) (Returns (window mem 0 2)).
Proof.
  set (jb := fun b : bool => job_of amd64 (same b) 2).
  assert (C : always_completes (jb true) (Running (with_mem (same_start true) (window (zeros 2) 0 2)))).
  { destruct (dense_single amd64 demo_raw demo_vals 1 2 (window (zeros 2) 0 2) 2) as [m| | |] eqn:E; try (vm_compute in E; discriminate).
    apply (C61_single_threaded_completes amd64 (same true) 2 _ _ m); try reflexivity.
    - apply (begins_single (job_of amd64 (same true) 2) true tt); reflexivity.
    - eapply PD_single; [| |exact E]; vm_compute; reflexivity. }
  destruct (completes_returns _ _ _ C) as (c & m & S & (cl & wg & ws & ->)).
  destruct (lift_steps (fun b => local (same b)) jb (fun _ => 0) (fun _ => 2) Bool.bool_dec true _ _ S same_start (zeros 2) _
    ltac:(vm_compute; repeat split; discriminate) eq_refl eq_refl) as (q & mem & P & Q & O & Z).
  assert (M1 : st_main (q true) = MReturned) by (apply (f_equal st_main) in Q; exact Q).
  assert (F0 : fits mem 0 2) by (unfold fits; rewrite Z; vm_compute; repeat split; discriminate).
  assert (Of : q false = same_start false) by (apply O; discriminate).
  (* the second call: first row, first store *)
  set (r := jb_row (jb false) tt 0).
  assert (Er : exists v cs, fst r = CSet 0 v :: cs /\ v = fzero).
  { vm_compute. eexists. eexists. split; reflexivity. }
  destruct Er as (v & cs & Er & Ev).
  set (s1 := mkState MWait true 1 [WCmd (snd r) 0 1 None (fst r)] (window mem 0 2) : state (local (same false))).
  assert (St1 : step (jb false) (Running (with_mem (q false) (window mem 0 2))) (Running s1)).
  { rewrite Of. apply (step_row (jb false) MWait true 1 [] tt 0 1 [] (window mem 0 2)). lia. }
  destruct (zset_some _ (window mem 0 2) 0 v) as (w & Ew); [rewrite window_zlen by auto; lia|].
  set (s2 := mkState MWait true 1 [WCmd (snd r) 0 1 None cs] w : state (local (same false))).
  assert (St2 : step (jb false) (Running s1) (Running s2)).
  { unfold s1, s2. rewrite Er. eapply (step_cmd (jb false) MWait true 1 [] (snd r) 0 1 None (CSet 0 v) cs None cs [] (window mem 0 2) w).
    cbn [cmd_step]. unfold set_at. rewrite Ew. reflexivity. }
  destruct (lift_steps (fun b => local (same b)) jb (fun _ => 0) (fun _ => 2) Bool.bool_dec false _ (Running s2)
    (steps_cons _ _ _ _ St1 (steps_cons _ _ _ _ St2 (steps_refl _ _))) q mem s2 F0 eq_refl eq_refl) as (q2 & mem2 & P2 & Q2 & O2 & Z2).
  exists q2, mem2. split; [|split].
  - clear - P P2. induction P as [c|c1 c2 c3 Hs H IH]; auto. econstructor; eauto.
  - rewrite O2 by discriminate. exact M1.
  - assert (W2 : window mem2 0 2 = w) by (apply (f_equal st_mem) in Q2; exact Q2). rewrite W2.
    assert (G : zget w 0 = Some fzero) by (rewrite (zset_get_same _ _ _ _ _ Ew), Ev; reflexivity).
    intros A. inversion A as [| |n ? H0 H1 H2| |n ? c H0 H1 H2 H3|]; subst; [|discriminate H1].
    assert (n = 2) by (vm_compute in H0; congruence). subst n. clear - H2 G.
    assert (V : exists x, dense_single amd64 demo_raw demo_vals 1 2 (window (zeros 2) 0 2) 2 = Ok x /\ zget x 0 = Some (fint 14)).
    { vm_compute. eexists. split; reflexivity. }
    destruct V as (x & V1 & V2). cbn [local same] in *. rewrite V1 in H2. inversion H2; subst. rewrite V2 in G. discriminate G.
Qed.
Print Assumptions C61_overlapping_slices_refuted.
