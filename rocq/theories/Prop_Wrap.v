(** * C09: the length check wraps around *)

From Coq Require Import ZArith List Bool Lia String.
From Verif Require Import Go GoFloat Cmd LgTree Transformation Ensembles Leaves Parallel Spec_Predict Demo Pf_Go Pf_Cmd Pf_Rows Prop_Batch Ex_Batch.
Local Open Scope Z_scope.

Lemma zseq_pos : forall n, 0 < n -> exists l, zseq n = 0 :: l.
Proof.
  intros n H. unfold zseq. replace (Z.to_nat n) with (S (Z.to_nat (n - 1))) by lia. cbn [seq map]. eauto.
Qed.

(** without the bound on the number of rows the claim fails: two outputs for each of 2^63 - 1 rows
    make a needed length of -2, and an empty predictions slice passes the check.  The call does
    not return an error but panics. *)
Theorem C09_overflow_refuted : exists p e vals nrows ncols predictions,
  well_formed e /\ 0 <= nrows <= MaxInt /\ zlen predictions < NOutputGroups e * nrows /\
  (exists m, PredictDense p e vals nrows ncols predictions 0 1 (Panics m)) /\
  forall r, PredictDense p e vals nrows ncols predictions 0 1 r -> exists m, r = Panics m.
Proof.
  exists amd64, demo_raw, [], MaxInt, 2, []. split; [exact demo_raw_wf|]. split; [unfold MaxInt, two63; lia|]. split; [vm_compute; reflexivity|].
  destruct (zseq_pos MaxInt ltac:(unfold MaxInt, two63; lia)) as [l Z].
  assert (C : dense_checks demo_raw MaxInt 2 [] 0 = Ok 2) by (vm_compute; reflexivity).
  assert (D : dense_single amd64 demo_raw [] MaxInt 2 [] 2 = Panic "slice bounds out of range") by (unfold dense_single; rewrite Z; vm_compute; reflexivity).
  assert (T : single_threaded MaxInt 1 = true) by reflexivity.
  split.
  - eexists. eapply PD_single_panic; [exact C|exact T|exact D].
  - intros r H. inversion H; subst; try congruence; eauto.
Qed.
Print Assumptions C09_overflow_refuted.
