(** * C20, continued: how far softmax outputs are from the exact softmax, and their sum from one *)

From Coq Require Import ZArith List Bool Lia Reals Lra.
From Coq Require Import Floats.SpecFloat.
From Flocq Require Import Core.Core IEEE754.BinarySingleNaN Relative.
From Verif Require Import Go GoFloat GoText Cmd UtilMath LgTree Transformation Ensembles Leaves
  Spec_Predict Spec_Split Spec_Transform Spec_Round Demo Pf_Go Pf_Float Pf_Range Pf_Round Pf_Transform Prop_Transform Prop_Round.
Import ListNotations.
Local Open Scope R_scope.

(** the accuracy of a softmax over [n] classes *)
Definition softmax_error (n : nat) : R := (INR n + 2) * bpow radix2 (-52).

Lemma two_u : bpow radix2 (-52) = 2 * unit_roundoff.
Proof. unfold unit_roundoff. change 2 with (bpow radix2 1). rewrite <- bpow_plus. reflexivity. Qed.
Lemma u_small : unit_roundoff <= / 1024.
Proof. unfold unit_roundoff. change (/ 1024) with (bpow radix2 (-10)). apply bpow_le. lia. Qed.

Lemma factor_error : forall S T g t d1 d2 : R, 0 < S -> 0 < T -> Rabs (S - T) <= g * T -> g * (1 - t) <= t -> 0 <= g -> 0 <= t <= / 4 ->
  Rabs d1 <= unit_roundoff -> Rabs d2 <= unit_roundoff ->
  Rabs (T / S * (1 + d1) * (1 + d2) - 1) <= 2 * t + 7 / 2 * unit_roundoff.
Proof.
  intros S T g t d1 d2 HS HT HD Hg Hg0 Ht H1 H2. pose proof u_pos as U. pose proof u_small as U2. set (v := unit_roundoff) in *.
  apply Rabs_le_inv in HD. apply Rabs_le_inv in H1. apply Rabs_le_inv in H2.
  assert (Q1 : T / S <= 1 + 2 * t).
  { apply Rmult_le_reg_r with S; [exact HS|]. unfold Rdiv. rewrite Rmult_assoc, Rinv_l, Rmult_1_r by lra.
    assert ((1 + 2 * t) * (1 - g) >= 1) by nra. nra. }
  assert (Q2 : 1 - 4 / 3 * t <= T / S).
  { apply Rmult_le_reg_r with S; [exact HS|]. unfold Rdiv at 2. rewrite Rmult_assoc, Rinv_l, Rmult_1_r by lra.
    assert (g <= 4 / 3 * t) by nra. assert ((1 - 4 / 3 * t) * (1 + g) <= 1) by nra. assert (0 <= 1 - 4 / 3 * t) by lra. nra. }
  set (q := T / S) in *. assert (W1 : (1 + d1) * (1 + d2) <= 1 + 2 * v + v * v) by nra. assert (W2 : 1 - 2 * v <= (1 + d1) * (1 + d2)) by nra.
  rewrite Rmult_assoc. set (w := (1 + d1) * (1 + d2)) in *. apply Rabs_le. assert (v * v <= / 1024 * v) by nra. split; nra.
Qed.

(** the inverse of a sum in the normal range *)
Lemma inverse_normal : forall s, valid64 s = true -> finite64 s = true -> bpow radix2 (-1022) <= real s <= bpow radix2 1022 ->
  valid64 (fdiv fone s) = true /\ exists eps, Rabs eps <= unit_roundoff /\ real (fdiv fone s) = / real s * (1 + eps).
Proof.
  intros s V F H. split; [apply fdiv_valid; [reflexivity|exact V]|]. destruct (valid_B s V) as [b <-]. rewrite finite_B in F. rewrite real_B in *.
  destruct one_B as (o & Eo & Ro & Fo & So). rewrite <- Eo, fdiv_B, real_B. pose proof (bpow_gt_0 radix2 (-1022)) as P.
  pose proof (Bdiv_correct prec emax Hprec Hmax mode_NE o b ltac:(lra)) as HB. rewrite Ro in HB.
  assert (Q : bpow radix2 (-1022) <= 1 / B2R b <= bpow radix2 1022).
  { unfold Rdiv. rewrite Rmult_1_l. split.
    - replace (bpow radix2 (-1022)) with (/ bpow radix2 1022) by (rewrite <- bpow_opp; reflexivity). apply Rinv_le; lra.
    - replace (bpow radix2 1022) with (/ bpow radix2 (-1022)) by (rewrite <- bpow_opp; reflexivity). apply Rinv_le; lra. }
  rewrite Rlt_bool_true in HB.
  2: { apply Rle_lt_trans with (bpow radix2 1022); [|apply bpow_lt; reflexivity]. rewrite Rabs_pos_eq.
       - rewrite <- (round_generic radix2 (fexp prec emax) (round_mode mode_NE) (bpow radix2 1022)).
         + apply rnd64_mono. apply Q.
         + apply generic_format_bpow. unfold fexp, emin, prec, emax. lia.
       - rewrite <- (round_0 radix2 (fexp prec emax) (round_mode mode_NE)). apply rnd64_mono. lra. }
  destruct HB as (HR & _ & _). rewrite HR.
  destruct (relative_error_N_FLT_ex radix2 (3 - emax - prec) prec Hprec (fun x => negb (Z.even x)) (1 / B2R b)) as (eps & Be & E).
  - rewrite Rabs_pos_eq by lra. exact (proj1 Q).
  - exists eps. split.
    + eapply Rle_trans; [exact Be|]. unfold unit_roundoff. change (/ 2) with (bpow radix2 (-1)). rewrite <- bpow_plus. apply Rle_refl.
    + etransitivity; [exact E|]. unfold Rdiv. rewrite Rmult_1_l. reflexivity.
Qed.

Lemma nonneg_real : forall x, nonneg x -> finite64 x = true -> 0 <= real x.
Proof. intros x [_ L] F. destruct x as [s|s| |s m ex]; try discriminate F; cbn in *; lra. Qed.

Lemma Rsum_ge0 : forall l, Forall (fun x => 0 <= x) l -> 0 <= Rsum l /\ Rsum (map Rabs l) = Rsum l.
Proof. induction 1 as [|x l H F [IH1 IH2]]; cbn; [lra|]. rewrite IH2, Rabs_pos_eq by exact H. lra. Qed.

(** what is common to both theorems *)
Lemma softmax_core : forall p raws, good_exp p -> Forall (fun r => valid64 r = true /\ is_nan r = false) raws ->
  finite64 (exp_sum p raws) = true -> bpow radix2 (-1022) <= real (exp_sum p raws) <= bpow radix2 1022 ->
  INR (List.length raws) * unit_roundoff <= / 4 ->
  let T := Rsum (map (fun r => real (pl_exp p r)) raws) in
  0 < T /\ forall r, In r raws -> 0 <= real (pl_exp p r) /\
    Rabs (real (softmax_of p raws r) - real (pl_exp p r) / T) <=
      (2 * (INR (List.length raws) * unit_roundoff) + 7 / 2 * unit_roundoff) * (real (pl_exp p r) / T) + half_tiny.
Proof.
  intros p raws He Hr Fs Hs Hn T. pose proof (exps_nonneg p raws He Hr) as Nn. set (S := real (exp_sum p raws)) in *.
  assert (Ve : Forall (fun t => valid64 t = true) (map (pl_exp p) raws)) by (eapply Forall_impl; [|exact Nn]; intros x [V _]; exact V).
  destruct (sum_error (map (pl_exp p) raws) fzero eq_refl Ve Fs) as (_ & Fe & B). fold (exp_sum p raws) S in B.
  rewrite map_length in B. replace (real fzero) with 0 in B by reflexivity. rewrite Rabs_R0, !Rplus_0_l, map_map in B. fold T in B.
  assert (Ge : Forall (fun x => 0 <= x) (map (fun r => real (pl_exp p r)) raws)).
  { rewrite Forall_forall in *. intros x Hx. apply in_map_iff in Hx. destruct Hx as (r & <- & Hi). apply nonneg_real; [apply Nn|apply Fe]; apply in_map; exact Hi. }
  destruct (Rsum_ge0 _ Ge) as [T0 TA]. rewrite TA in B. fold T in T0, B.
  assert (S0 : 0 < S) by (pose proof (bpow_gt_0 radix2 (-1022)); lra). set (t := INR (List.length raws) * unit_roundoff) in *.
  assert (t0 : 0 <= t) by (apply Rmult_le_pos; [apply pos_INR|pose proof u_pos; lra]). pose proof (growth_nonneg (List.length raws)) as G0.
  assert (G : growth (List.length raws) * (1 - t) <= t).
  { pose proof (growth_bound (List.length raws) ltac:(fold t; lra)) as G. fold t in G. apply Rmult_le_compat_r with (r := 1 - t) in G; [|lra].
    unfold Rdiv in G. rewrite Rmult_assoc, Rinv_l in G by lra. lra. }
  assert (T1 : 0 < T). { destruct T0 as [T0|T0]; [exact T0|]. rewrite <- T0 in B. rewrite Rmult_0_r, Rminus_0_r, Rabs_pos_eq in B by lra. lra. }
  split; [exact T1|]. intros r Hi.
  assert (Nr : nonneg (pl_exp p r)) by (rewrite Forall_forall in Nn; apply Nn, in_map; exact Hi).
  assert (Fr : finite64 (pl_exp p r) = true) by (rewrite Forall_forall in Fe; apply Fe, in_map; exact Hi).
  pose proof (nonneg_real _ Nr Fr) as R0. split; [exact R0|].
  destruct (C20_softmax_distribution p raws He Hr Fs Hs) as [D _]. destruct (D r Hi) as [D0 D1].
  assert (Vs : valid64 (exp_sum p raws) = true). { destruct (sum_bounds (map (pl_exp p) raws) fzero nonneg_zero Nn) as ([V _] & _). exact V. }
  destruct (inverse_normal _ Vs Fs Hs) as (Vi & e1 & He1 & Ei). fold S in Ei.
  assert (Nz : feq (exp_sum p raws) fzero = false).
  { destruct (exp_sum p raws) as [s|s| |s m ex] eqn:Es; try discriminate Fs; [|destruct s; reflexivity]. exfalso. unfold S in S0. cbn in S0. lra. }
  unfold softmax_of in *. rewrite Nz in *.
  assert (Fm : finite64 (fmul (pl_exp p r) (fdiv fone (exp_sum p raws))) = true).
  { destruct (fmul _ _) as [s|[|]| |s m ex]; try reflexivity; cbn in D0, D1; contradiction. }
  destruct (fmul_finite _ _ (proj1 Nr) Vi Fm) as (_ & _ & e2 & eta & He2 & Heta & Em). rewrite Em, Ei.
  pose proof (factor_error S T _ t e1 e2 S0 T1 B G G0 ltac:(lra) He1 He2) as Q. set (x := real (pl_exp p r)) in *.
  replace (x * (/ S * (1 + e1)) * (1 + e2) + eta - x / T) with ((T / S * (1 + e1) * (1 + e2) - 1) * (x / T) + eta) by (field; lra).
  eapply Rle_trans; [apply Rabs_triang|]. apply Rplus_le_compat; [|exact Heta]. rewrite Rabs_mult.
  assert (X : 0 <= x / T) by (apply Rmult_le_pos; [lra|apply Rlt_le, Rinv_0_lt_compat; lra]). rewrite (Rabs_pos_eq (x / T)) by exact X.
  apply Rmult_le_compat_r; assumption.
Qed.

(** each output is close to the exact quotient of exponentials *)
Theorem C20_softmax_accuracy :
  forall p raws, good_exp p -> Forall (fun r => valid64 r = true /\ is_nan r = false) raws ->
  finite64 (exp_sum p raws) = true -> bpow radix2 (-1022) <= real (exp_sum p raws) <= bpow radix2 1022 ->
  (zlen raws <= 2 ^ 51)%Z ->
  forall r, In r raws ->
    let exact := real (pl_exp p r) / Rsum (map (fun r => real (pl_exp p r)) raws) in
    Rabs (real (softmax_of p raws r) - exact) <= softmax_error (List.length raws) * exact + half_tiny.
Proof.
  intros p raws He Hr Fs Hs Hn r Hi. assert (Hn' : INR (List.length raws) * unit_roundoff <= / 4).
  { replace (/ 4) with (bpow radix2 51 * unit_roundoff) by (unfold unit_roundoff; rewrite <- bpow_plus; reflexivity).
    apply Rmult_le_compat_r; [pose proof u_pos; lra|]. rewrite INR_IZR_INZ. change (bpow radix2 51) with (IZR (2 ^ 51)). apply IZR_le. exact Hn. }
  destruct (softmax_core p raws He Hr Fs Hs Hn') as (T1 & K). destruct (K r Hi) as [R0 B]. intros exact. eapply Rle_trans; [exact B|].
  apply Rplus_le_compat_r. apply Rmult_le_compat_r.
  - apply Rmult_le_pos; [exact R0|apply Rlt_le, Rinv_0_lt_compat; exact T1].
  - unfold softmax_error. rewrite two_u. pose proof u_pos. lra.
Qed.
Print Assumptions C20_softmax_accuracy.

(** the outputs add up to one, nearly *)
Theorem C20_softmax_sums_to_one :
  forall p raws, good_exp p -> Forall (fun r => valid64 r = true /\ is_nan r = false) raws ->
  finite64 (exp_sum p raws) = true -> bpow radix2 (-1022) <= real (exp_sum p raws) <= bpow radix2 1022 ->
  (zlen raws <= 2 ^ 51)%Z ->
  Rabs (Rsum (map (fun r => real (softmax_of p raws r)) raws) - 1) <= softmax_error (List.length raws).
Proof.
  intros p raws He Hr Fs Hs Hn. assert (Hn' : INR (List.length raws) * unit_roundoff <= / 4).
  { replace (/ 4) with (bpow radix2 51 * unit_roundoff) by (unfold unit_roundoff; rewrite <- bpow_plus; reflexivity).
    apply Rmult_le_compat_r; [pose proof u_pos; lra|]. rewrite INR_IZR_INZ. change (bpow radix2 51) with (IZR (2 ^ 51)). apply IZR_le. exact Hn. }
  destruct (softmax_core p raws He Hr Fs Hs Hn') as (T1 & K). set (T := Rsum (map (fun r => real (pl_exp p r)) raws)) in *.
  set (c := 2 * (INR (List.length raws) * unit_roundoff) + 7 / 2 * unit_roundoff) in *.
  assert (Q : forall l, (forall r, In r l -> In r raws) ->
    Rabs (Rsum (map (fun r => real (softmax_of p raws r)) l) - Rsum (map (fun r => real (pl_exp p r)) l) / T) <=
      c * (Rsum (map (fun r => real (pl_exp p r)) l) / T) + INR (List.length l) * half_tiny).
  { induction l as [|r l IH]; intros Hl.
    - cbn. unfold Rdiv. rewrite !Rmult_0_l, Rminus_0_r, Rabs_R0. lra.
    - cbn [map Rsum List.length]. rewrite S_INR. destruct (K r (Hl r (or_introl eq_refl))) as [_ B]. specialize (IH (fun q Hq => Hl q (or_intror Hq))).
      unfold Rdiv in *. rewrite Rmult_plus_distr_r.
      set (a := real (softmax_of p raws r)) in *. set (x := real (pl_exp p r) * / T) in *. set (A := Rsum (map (fun r => real (softmax_of p raws r)) l)) in *.
      set (X := Rsum (map (fun r => real (pl_exp p r)) l) * / T) in *.
      replace (a + A - (x + X)) with ((a - x) + (A - X)) by ring. eapply Rle_trans; [apply Rabs_triang|]. lra. }
  specialize (Q raws (fun r H => H)). fold T in Q. replace (T / T) with 1 in Q by (field; lra). rewrite Rmult_1_r in Q.
  eapply Rle_trans; [exact Q|]. unfold softmax_error. rewrite two_u. unfold c.
  assert (Y : INR (List.length raws) * half_tiny <= / 2 * unit_roundoff).
  { assert (half_tiny <= unit_roundoff * unit_roundoff).
    { unfold half_tiny, unit_roundoff. rewrite <- bpow_plus. apply bpow_le. lia. }
    pose proof u_pos. pose proof (pos_INR (List.length raws)). apply Rle_trans with (INR (List.length raws) * (unit_roundoff * unit_roundoff)); [apply Rmult_le_compat_l; lra|].
    rewrite <- Rmult_assoc. apply Rmult_le_compat_r; lra. }
  lra.
Qed.
Print Assumptions C20_softmax_sums_to_one.

(** the same for the predictions of a model *)
Theorem C20_predictions_sum_to_one :
  forall p e fvals nEstimators predictions out rawbuf raw,
  good_exp p -> well_formed e -> eTransform e = TransformSoftmax (NRawOutputGroups e) -> (NRawOutputGroups e <= 2 ^ 51)%Z ->
  Predict p e fvals nEstimators predictions = Ok out ->
  Predict p (EnsembleWithRawPredictions e) fvals nEstimators rawbuf = Ok raw ->
  let n := Z.to_nat (NRawOutputGroups e) in
  let raws := firstn n raw in
  Forall (fun r => valid64 r = true /\ is_nan r = false) raws ->
  finite64 (exp_sum p raws) = true -> bpow radix2 (-1022) <= real (exp_sum p raws) <= bpow radix2 1022 ->
  Rabs (Rsum (map real (firstn n out)) - 1) <= softmax_error n /\
  forall k, (0 <= k < NRawOutputGroups e)%Z -> exists r y, zget raw k = Some r /\ zget out k = Some y /\
    let exact := real (pl_exp p r) / Rsum (map (fun r => real (pl_exp p r)) raws) in
    Rabs (real y - exact) <= softmax_error n * exact + half_tiny.
Proof.
  intros p e fv nE preds out rawbuf raw He Hwf Ht Hg H Hr n raws Hv Hf Hs.
  pose proof (C54_softmax _ _ _ _ _ _ _ _ Hwf Ht H Hr) as W. fold n raws in W.
  assert (G1 : (1 <= NRawOutputGroups e)%Z) by (destruct Hwf as ([G1 _] & _); exact G1).
  destruct (W (NRawOutputGroups e - 1)%Z ltac:(lia)) as (r0 & Z1 & Z2). apply zget_range in Z1. apply zget_range in Z2.
  assert (Ln : List.length raws = n). { unfold raws. rewrite firstn_length. unfold n, zlen in *. lia. }
  assert (Lz : zlen raws = NRawOutputGroups e) by (unfold zlen; rewrite Ln; unfold n; lia).
  assert (E : firstn n out = map (softmax_of p raws) raws).
  { apply zget_ext.
    - unfold zlen. rewrite map_length, Ln, firstn_length. unfold n, zlen in *. lia.
    - intros i Hi. assert (Hi' : (0 <= i < NRawOutputGroups e)%Z). { unfold zlen in Hi. rewrite firstn_length in Hi. unfold n in Hi. lia. }
      destruct (W i Hi') as (r & Y1 & Y2). pose proof (zget_sub _ out 0 (NRawOutputGroups e) i) as Go. simpl skipn in Go. fold n in Go. rewrite Go by lia.
      pose proof (zget_sub _ raw 0 (NRawOutputGroups e) i) as Gr. simpl skipn in Gr. fold n raws in Gr.
      rewrite zget_map. rewrite Gr by lia. rewrite Z.add_0_l, Y1. rewrite ?Z.add_0_l. exact Y2. }
  split.
  - rewrite E, map_map. replace (softmax_error n) with (softmax_error (List.length raws)) by (rewrite Ln; reflexivity). apply C20_softmax_sums_to_one; try assumption. lia.
  - intros k Hk. destruct (W k Hk) as (r & Y1 & Y2). exists r, (softmax_of p raws r). split; [exact Y1|split; [exact Y2|]].
    replace (softmax_error n) with (softmax_error (List.length raws)) by (rewrite Ln; reflexivity). apply C20_softmax_accuracy; try assumption; [lia|].
    pose proof (zget_sub _ raw 0 (NRawOutputGroups e) k) as Gr. simpl skipn in Gr. fold n raws in Gr.
    apply (zget_in _ _ k). rewrite Gr by lia. exact Y1.
Qed.
Print Assumptions C20_predictions_sum_to_one.

(** ** A concrete case *)
Example softmax_sum_case :
  exists out raw, Predict amd64 demo_softmax (map fint [1; 2]%Z) 0 (zeros 2) = Ok out /\
    Predict amd64 (EnsembleWithRawPredictions demo_softmax) (map fint [1; 2]%Z) 0 (zeros 2) = Ok raw /\
    Rabs (Rsum (map real (firstn 2 out)) - 1) <= softmax_error 2.
Proof.
  destruct transform_case as (Hwf & Ht & Hp & Hr & Hs & _). eexists; eexists. split; [exact Hp|split; [exact Hr|]].
  refine (proj1 (C20_predictions_sum_to_one amd64 demo_softmax _ _ _ _ _ _ amd64_good_exp Hwf Ht _ Hp Hr _ _ _)).
  - vm_compute. discriminate.
  - repeat constructor.
  - vm_compute. reflexivity.
  - change (firstn (Z.to_nat (NRawOutputGroups demo_softmax)) (map fint [15; 9]%Z)) with (map fint [15; 9]%Z). rewrite Hs.
    replace (real (fint 2)) with (bpow radix2 1) by (vm_compute; lra). split; apply bpow_le; lia.
Qed.
