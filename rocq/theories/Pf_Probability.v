(** * Proofs about the accuracy of probabilities *)

From Coq Require Import ZArith List Bool Lia Reals Lra.
From Coq Require Import Floats.SpecFloat.
From Flocq Require Import Core.Core IEEE754.BinarySingleNaN Relative.
From Verif Require Import Go GoFloat Spec_Predict Spec_Split Spec_Transform Spec_Round Spec_Probability
  Pf_Go Pf_Float Pf_Range Pf_Round Pf_Transform Prop_Transform Prop_Round Prop_Order Prop_Softmax Demo.
Import ListNotations.
Local Open Scope R_scope.

(** the float64 nearest to a real number *)
Definition nearest64 (r : R) : f64 :=
  SpecFloat.binary_normalize prec emax (ZnearestE (scaled_mantissa radix2 (fexp prec emax) r)) (cexp radix2 (fexp prec emax) r) false.

Lemma nearest64_spec : forall r, 0 < r -> valid64 (nearest64 r) = true /\ le64 fzero (nearest64 r) /\
  (nearest64 r = S754_infinity false /\ bpow radix2 emax <= rnd64 r /\ bpow radix2 1023 <= r \/ finite64 (nearest64 r) = true /\ real (nearest64 r) = rnd64 r).
Proof.
  intros r Hr. unfold nearest64. rewrite binary_normalize_equiv. split; [apply B_valid|].
  pose proof (binary_normalize_correct prec emax Hprec Hmax mode_NE (ZnearestE (scaled_mantissa radix2 (fexp prec emax) r)) (cexp radix2 (fexp prec emax) r) false) as C.
  cbv zeta in C. change (F2R _) with (rnd64 r) in C. 
  set (z := BinarySingleNaN.binary_normalize _ _ _ _ _ _ _ _) in *.
  assert (G : rnd64 (rnd64 r) = rnd64 r) by (apply round_generic; [apply valid_rnd64|apply generic_format_round; [apply valid_exp64|apply valid_rnd64]]).
  rewrite G in C. assert (P : 0 <= rnd64 r) by (rewrite <- rnd64_0; apply rnd64_mono; lra).
  destruct (Rlt_bool_spec (Rabs (rnd64 r)) (bpow radix2 emax)) as [L|L].
  - destruct C as (CR & CF & _). split; [|right; rewrite finite_B, real_B; tauto].
    change fzero with (B2SF (B754_zero false : B64)). apply le64_B; [reflexivity|exact CF|]. rewrite CR. exact P.
  - rewrite Rlt_bool_false in C by exact P. rewrite C. rewrite Rabs_pos_eq in L by exact P. split; [exact I|left; split; [reflexivity|split; [exact L|]]].
    destruct (Rle_lt_dec (bpow radix2 1023) r) as [Q|Q]; [exact Q|exfalso].
    assert (rnd64 r <= bpow radix2 1023).
    { rewrite <- (round_generic radix2 (fexp prec emax) (round_mode mode_NE) (bpow radix2 1023)).
      - apply rnd64_mono. lra.
      - apply generic_format_bpow. unfold fexp, emin, prec, emax. lia. }
    pose proof (bpow_lt radix2 1023 emax eq_refl). lra.
Qed.

(** a correctly rounded exponential *)
Definition rounded_exp (x : f64) : f64 :=
  match x with
  | S754_nan => S754_nan
  | S754_infinity false => S754_infinity false
  | S754_infinity true => fzero
  | _ => nearest64 (exp (real x))
  end.

Lemma real_fneg : forall x, real (fneg x) = - real x.
Proof. intros [s|s| |s m ex]; cbn; try (rewrite Ropp_0; reflexivity). destruct s; cbn; unfold real; cbn; unfold F2R; cbn; change (IZR (Z.neg m)) with (- IZR (Z.pos m)); ring. Qed.

Lemma fadd_small : forall x y, valid64 x = true -> valid64 y = true -> finite64 x = true -> finite64 y = true ->
  Rabs (real x + real y) <= bpow radix2 1023 -> finite64 (fadd x y) = true.
Proof.
  intros x y Vx Vy Fx Fy H. destruct (valid_B x Vx) as [a <-]. destruct (valid_B y Vy) as [b <-]. rewrite fadd_B, finite_B. rewrite finite_B in Fx, Fy. rewrite !real_B in H.
  pose proof (Bplus_correct prec emax Hprec Hmax mode_NE a b Fx Fy) as C. rewrite Rlt_bool_true in C; [apply C|].
  apply Rle_lt_trans with (bpow radix2 1023); [|apply bpow_lt; reflexivity]. apply abs_round_le_generic.
  - apply valid_exp64.
  - apply valid_rnd64.
  - apply generic_format_bpow. unfold fexp, emin, prec, emax. lia.
  - exact H.
Qed.

Lemma finv_finite : forall s, valid64 s = true -> finite64 s = true -> 1 <= real s ->
  finite64 (fdiv fone s) = true /\ exists eps eta, Rabs eps <= unit_roundoff /\ Rabs eta <= half_tiny /\ real (fdiv fone s) = / real s * (1 + eps) + eta.
Proof.
  intros s V F H. destruct (valid_B s V) as [b <-]. rewrite finite_B in F. rewrite real_B in *.
  destruct one_B as (o & Eo & Ro & Fo & So). rewrite <- Eo, fdiv_B, real_B, finite_B.
  pose proof (Bdiv_correct prec emax Hprec Hmax mode_NE o b ltac:(lra)) as HB. rewrite Ro in HB. unfold Rdiv in HB. rewrite Rmult_1_l in HB.
  assert (Q : 0 < / B2R b <= 1) by (split; [apply Rinv_0_lt_compat; lra|rewrite <- Rinv_1; apply Rinv_le; lra]).
  assert (Q' : 0 <= rnd64 (/ B2R b) <= 1) by (split; [rewrite <- rnd64_0|rewrite <- rnd64_1]; apply rnd64_mono; lra).
  rewrite Rlt_bool_true in HB.
  2: { rewrite Rabs_pos_eq by lra. apply Rle_lt_trans with 1; [lra|]. change 1 with (bpow radix2 0). apply bpow_lt. reflexivity. }
  destruct HB as (HR & HF & _). rewrite HF, HR. split; [exact Fo|apply rnd_error].
Qed.

Lemma tiny_le : bpow radix2 (-1022) <= unit_roundoff * / 1024.
Proof. unfold unit_roundoff. change (/ 1024) with (bpow radix2 (-10)). rewrite <- bpow_plus. apply bpow_le. lia. Qed.

Lemma sigmoid_error : forall E e eps d1 d2, 0 < E -> 0 <= e -> 0 <= eps <= / 8 -> Rabs (e - E) <= eps * E + bpow radix2 (-1022) ->
  Rabs d1 <= unit_roundoff -> Rabs d2 <= unit_roundoff ->
  Rabs (/ ((1 + e) * (1 + d1)) * (1 + d2) - / (1 + E)) <= (2 * eps + 4 * unit_roundoff) * / (1 + E).
Proof.
  intros E e eps d1 d2 HE He Heps H H1 H2. pose proof u_pos as U. pose proof u_small as U2. pose proof tiny_le as T. pose proof (bpow_gt_0 radix2 (-1022)) as T0.
  set (t := bpow radix2 (-1022)) in *. set (v := unit_roundoff) in *. apply Rabs_le_inv in H. apply Rabs_le_inv in H1. apply Rabs_le_inv in H2.
  set (A := 1 + E). set (B := 1 + e). set (g := eps + t). assert (HA : 1 < A) by (unfold A; lra). assert (HB : 1 <= B) by (unfold B; lra).
  assert (G : (1 - g) * A <= B <= (1 + g) * A) by (unfold A, B, g; split; nra). assert (Gs : 0 <= g <= / 7) by (unfold g; lra).
  assert (Q : 1 - g <= A / B <= 1 + 7 / 6 * g).
  { split.
    - apply Rmult_le_reg_r with B; [lra|]. unfold Rdiv. rewrite Rmult_assoc, Rinv_l, Rmult_1_r by lra.
      apply Rle_trans with ((1 - g) * ((1 + g) * A)); [apply Rmult_le_compat_l; lra|]. nra.
    - apply Rmult_le_reg_r with B; [lra|]. unfold Rdiv at 1. rewrite Rmult_assoc, Rinv_l, Rmult_1_r by lra.
      apply Rle_trans with ((1 + 7 / 6 * g) * ((1 - g) * A)); [|apply Rmult_le_compat_l; lra].
      assert (1 <= (1 + 7 / 6 * g) * (1 - g)) by nra. nra. }
  assert (W : 1 - 2 * v <= (1 + d2) / (1 + d1) <= 1 + 21 / 10 * v).
  { split.
    - apply Rmult_le_reg_r with (1 + d1); [lra|]. unfold Rdiv. rewrite Rmult_assoc, Rinv_l, Rmult_1_r by lra. nra.
    - apply Rmult_le_reg_r with (1 + d1); [lra|]. unfold Rdiv at 1. rewrite Rmult_assoc, Rinv_l, Rmult_1_r by lra. nra. }
  replace (/ (B * (1 + d1)) * (1 + d2) - / A) with ((A / B * ((1 + d2) / (1 + d1)) - 1) * / A) by (field; lra).
  rewrite Rabs_mult. rewrite (Rabs_pos_eq (/ A)) by (apply Rlt_le, Rinv_0_lt_compat; lra). apply Rmult_le_compat_r; [apply Rlt_le, Rinv_0_lt_compat; lra|].
  set (q := A / B) in *. set (w := (1 + d2) / (1 + d1)) in *. unfold g in *. apply Rabs_le. split.
  - assert ((1 - (eps + t)) * (1 - 2 * v) <= q * w) by (apply Rmult_le_compat; lra). nra.
  - assert (q * w <= (1 + 7 / 6 * (eps + t)) * (1 + 21 / 10 * v)) by (apply Rmult_le_compat; lra). nra.
Qed.

Lemma logistic_near : forall p eps r, good_exp p -> accurate_exp p eps -> 0 <= eps <= / 8 -> valid64 r = true -> finite64 r = true ->
  finite64 (logistic_of p r) = true /\
  Rabs (real (logistic_of p r) - sigmoid (real r)) <= (2 * eps + bpow radix2 (-51)) * sigmoid (real r) + bpow radix2 (-1021).
Proof.
  intros p eps r Hg Ha Heps V F. assert (V' : valid64 (fneg r) = true) by (apply fneg_valid; exact V).
  assert (F' : finite64 (fneg r) = true) by (destruct r; exact F). specialize (Ha _ V' F'). rewrite real_fneg in Ha.
  assert (Nr : is_nan (fneg r) = false) by (destruct r; try reflexivity; discriminate F).
  pose proof (exp_nonneg p _ Hg V' Nr) as Ne. unfold logistic_of, sigmoid. set (e := pl_exp p (fneg r)) in *. pose proof (exp_pos (- real r)) as E0. set (E := exp (- real r)) in *.
  replace (bpow radix2 (-51)) with (4 * unit_roundoff) by (unfold unit_roundoff; change 4 with (bpow radix2 2); rewrite <- bpow_plus; reflexivity).
  assert (S0 : 0 < / (1 + E)) by (apply Rinv_0_lt_compat; lra). pose proof u_pos as U.
  assert (Big : bpow radix2 1021 <= E -> finite64 fzero = true /\ Rabs (real fzero - / (1 + E)) <= (2 * eps + 4 * unit_roundoff) * / (1 + E) + bpow radix2 (-1021)).
  { intros HE. split; [reflexivity|]. replace (real fzero) with 0 by reflexivity. rewrite Rminus_0_l, Rabs_Ropp, Rabs_pos_eq by lra.
    assert (/ (1 + E) <= bpow radix2 (-1021)).
    { replace (bpow radix2 (-1021)) with (/ bpow radix2 1021) by (rewrite <- bpow_opp; reflexivity). pose proof (bpow_gt_0 radix2 1021). apply Rinv_le; lra. }
    assert (0 <= (2 * eps + 4 * unit_roundoff) * / (1 + E)) by (apply Rmult_le_pos; lra). lra. }
  destruct (finite64 e) eqn:Fe.
  2: { destruct e as [s|[|]| |s m ex] eqn:Ee; try discriminate Fe; try contradiction Ha. change (fdiv fone (fadd fone (S754_infinity false))) with fzero.
       apply Big. change (bpow radix2 1023 <= E) in Ha. eapply Rle_trans; [|exact Ha]. apply bpow_le. lia. }
  assert (Hn : Rabs (real e - E) <= eps * E + bpow radix2 (-1022)) by (destruct e as [s|s| |s m ex]; try discriminate Fe; exact Ha).
  pose proof (nonneg_real _ Ne Fe) as e0. assert (N1 : nonneg fone) by (split; [reflexivity|]; simpl; unfold real; simpl; unfold F2R; simpl; lra).
  assert (R1 : real fone = 1) by (unfold real; cbn; unfold F2R; cbn; lra).
  destruct (fadd_nonneg fone e N1 Ne) as ([Vs Ls] & L1 & _). destruct (finite64 (fadd fone e)) eqn:Fs.
  - destruct (fadd_finite fone e eq_refl (proj1 Ne) Fs) as (_ & _ & d1 & Hd1 & Es). rewrite R1 in Es.
    assert (S1 : 1 <= real (fadd fone e)). { rewrite <- R1. clear Es. destruct (fadd fone e) as [s|s| |s m ex]; try discriminate Fs; exact L1. }
    destruct (finv_finite _ Vs Fs S1) as (Fi & d2 & eta & Hd2 & Heta & Ei). split; [exact Fi|]. rewrite Ei, Es.
    pose proof (sigmoid_error E (real e) eps d1 d2 E0 e0 Heps Hn Hd1 Hd2) as K.
    replace (/ ((1 + real e) * (1 + d1)) * (1 + d2) + eta - / (1 + E)) with ((/ ((1 + real e) * (1 + d1)) * (1 + d2) - / (1 + E)) + eta) by ring.
    eapply Rle_trans; [apply Rabs_triang|]. assert (half_tiny <= bpow radix2 (-1021)) by (apply bpow_le; lia). lra.
  - assert (Ef : fadd fone e = S754_infinity false). { destruct (fadd fone e) as [s|[|]| |s m ex]; try discriminate Fs; try reflexivity; contradiction. }
    rewrite Ef. change (fdiv fone (S754_infinity false)) with fzero. apply Big.
    assert (Hb : bpow radix2 1022 <= real e).
    { destruct (Rle_lt_dec (bpow radix2 1022) (real e)) as [Q|Q]; [exact Q|exfalso]. rewrite (fadd_small fone e eq_refl (proj1 Ne) eq_refl Fe) in Fs; [discriminate Fs|].
      rewrite R1, Rabs_pos_eq by lra. change (bpow radix2 1023) with (bpow radix2 (1 + 1022)). rewrite bpow_plus. change (bpow radix2 1) with 2.
      assert (1 <= bpow radix2 1022) by (change 1 with (bpow radix2 0); apply bpow_le; lia). lra. }
    apply Rabs_le_inv in Hn. pose proof tiny_le. pose proof u_small. change (bpow radix2 1022) with (bpow radix2 (1 + 1021)) in Hb. rewrite bpow_plus in Hb. change (bpow radix2 1) with 2 in Hb.
    assert (1 <= bpow radix2 1021) by (change 1 with (bpow radix2 0); apply bpow_le; lia). nra.
Qed.

(** ** softmax *)
Lemma exp_nat : forall n, exp (INR n) = exp 1 ^ n.
Proof. induction n as [|n IH]; [apply exp_0|]. rewrite S_INR, exp_plus, IH. simpl. ring. Qed.
Lemma exp_300 : exp 300 <= bpow radix2 480.
Proof.
  replace 300 with (INR 300) by (rewrite INR_IZR_INZ; reflexivity). rewrite exp_nat. apply Rle_trans with (3 ^ 300).
  - apply pow_incr. split; [apply Rlt_le, exp_pos|apply exp_le_3].
  - rewrite pow_IZR. change (bpow radix2 480) with (IZR (2 ^ 480)). apply IZR_le. vm_compute. discriminate.
Qed.
Lemma exp_m300 : bpow radix2 (-480) <= exp (-300).
Proof.
  replace (-300) with (- (300)) by lra. rewrite exp_Ropp. change (-480)%Z with (- (480))%Z. rewrite bpow_opp. apply Rinv_le; [apply exp_pos|apply exp_300].
Qed.
Lemma exp_le : forall x y, x <= y -> exp x <= exp y.
Proof. intros x y [H| ->]; [apply Rlt_le, exp_increasing; exact H|apply Rle_refl]. Qed.

Lemma sum_small : forall l x k, nonneg x -> finite64 x = true -> real x <= INR k * bpow radix2 482 ->
  Forall (fun e => nonneg e /\ finite64 e = true /\ real e <= bpow radix2 481) l -> (Z.of_nat (k + List.length l) <= 2 ^ 50)%Z ->
  finite64 (sum_from x l) = true /\ real (sum_from x l) <= INR (k + List.length l) * bpow radix2 482.
Proof.
  induction l as [|e l IH]; intros x k Nx Fx Hx Hl Hk; [cbn; rewrite Nat.add_0_r; tauto|]. inversion Hl as [|e' l' (Ne & Fe & He) Hl']; subst. cbn [List.length] in *.
  pose proof (nonneg_real _ Nx Fx) as x0. pose proof (nonneg_real _ Ne Fe) as e0. destruct (fadd_nonneg x e Nx Ne) as (Ns & _ & _).
  assert (Kb : INR k + 1 <= bpow radix2 50).
  { rewrite <- S_INR, INR_IZR_INZ. change (bpow radix2 50) with (IZR (2 ^ 50)). apply IZR_le. lia. }
  change (bpow radix2 482) with (bpow radix2 (1 + 481)) in *. rewrite bpow_plus in *. change (bpow radix2 1) with 2 in *. set (M := bpow radix2 481) in *.
  assert (M0 : 0 < M) by apply bpow_gt_0. pose proof (pos_INR k) as k0.
  assert (Fs : finite64 (fadd x e) = true).
  { apply fadd_small; [apply Nx|apply Ne|exact Fx|exact Fe|]. rewrite Rabs_pos_eq by lra.
    apply Rle_trans with (bpow radix2 50 * (2 * M)); [nra|]. unfold M. change 2 with (bpow radix2 1). rewrite <- !bpow_plus. apply bpow_le. lia. }
  destruct (fadd_finite x e (proj1 Nx) (proj1 Ne) Fs) as (_ & _ & d & Hd & Es). apply Rabs_le_inv in Hd.
  assert (U : bpow radix2 50 * unit_roundoff <= / 8). { unfold unit_roundoff. rewrite <- bpow_plus. change (/ 8) with (bpow radix2 (-3)). apply bpow_le. lia. }
  pose proof u_pos as U0.
  assert (Hs : real (fadd x e) <= INR (S k) * (2 * M)).
  { rewrite Es, S_INR. assert (real x + real e <= INR k * (2 * M) + M) by lra.
    assert ((real x + real e) * d <= (INR k * (2 * M) + M) * unit_roundoff) by (apply Rle_trans with ((real x + real e) * unit_roundoff); [apply Rmult_le_compat_l; lra|apply Rmult_le_compat_r; lra]).
    assert ((INR k * (2 * M) + M) * unit_roundoff <= / 4 * M).
    { apply Rle_trans with (2 * M * (bpow radix2 50 * unit_roundoff)); [|nra]. replace (2 * M * (bpow radix2 50 * unit_roundoff)) with (2 * M * bpow radix2 50 * unit_roundoff) by ring.
      apply Rmult_le_compat_r; [lra|nra]. }
    lra. }
  destruct (IH (fadd x e) (S k) Ns Fs Hs Hl' ltac:(lia)) as [A B]. replace (k + S (List.length l))%nat with (S k + List.length l)%nat by lia. split; [exact A|exact B].
Qed.

Lemma exps_error : forall (eps t : R) (l : list f64) (f : f64 -> f64), (forall r, In r l -> Rabs (real (f r) - exp (real r)) <= eps * exp (real r) + t) ->
  Rabs (Rsum (map (fun r => real (f r)) l) - Rsum (map exp (map real l))) <= eps * Rsum (map exp (map real l)) + INR (List.length l) * t.
Proof.
  induction l as [|r l IH]; intros f H; [cbn; rewrite Rminus_0_r, Rabs_R0; lra|]. cbn [map Rsum List.length]. rewrite S_INR.
  pose proof (H r (or_introl eq_refl)) as B. specialize (IH f (fun q Hq => H q (or_intror Hq))). apply Rabs_le_inv in B. apply Rabs_le_inv in IH. apply Rabs_le. lra.
Qed.
Lemma Rsum_exp_ge : forall l x, In x l -> exp x <= Rsum (map exp l).
Proof.
  assert (P : forall l, 0 <= Rsum (map exp l)) by (induction l as [|y l IH]; cbn; [lra|pose proof (exp_pos y); lra]).
  induction l as [|y l IH]; intros x []; cbn.
  - subst y. pose proof (P l). lra.
  - pose proof (IH x H). pose proof (exp_pos y). lra.
Qed.

(** the quotient of approximations *)
Lemma quotient_error : forall e E T A eps t n, 0 < E <= A -> 0 <= e -> 0 <= eps <= / 8 -> 0 <= t -> 1 <= n -> n * t <= A * bpow radix2 (-400) ->
  Rabs (e - E) <= eps * E + t -> Rabs (T - A) <= eps * A + n * t ->
  0 < T /\ Rabs (e / T - E / A) <= 12 / 5 * eps * (E / A) + bpow radix2 (-398).
Proof.
  intros e E T A eps t n HE He Heps Ht Hn Hnt H1 H2. set (z := bpow radix2 (-400)) in *. assert (Hz : 0 < z <= / 1024) by (split; [apply bpow_gt_0|change (/ 1024) with (bpow radix2 (-10)); apply bpow_le; lia]).
  replace (bpow radix2 (-398)) with (4 * z) by (unfold z; change 4 with (bpow radix2 2); rewrite <- bpow_plus; reflexivity).
  apply Rabs_le_inv in H1. apply Rabs_le_inv in H2. assert (HA : 0 < A) by lra. assert (Ht' : t <= A * z) by nra.
  assert (HT : 5 / 6 * A <= T) by nra. assert (T0 : 0 < T) by lra. split; [exact T0|]. set (q := E / A).
  assert (Q : 0 < q <= 1). { unfold q. split; [apply Rdiv_lt_0_compat; lra|]. apply Rmult_le_reg_r with A; [lra|]. unfold Rdiv. rewrite Rmult_assoc, Rinv_l; lra. }
  assert (EE : E = q * A) by (unfold q; field; lra). rewrite EE in H1.
  assert (D : Rabs (e - q * T) <= (2 * eps * q + 2 * z) * A).
  { apply Rabs_le. assert (q * (T - A) <= q * ((eps + z) * A)) by (apply Rmult_le_compat_l; nra). assert (q * (- ((eps + z) * A)) <= q * (T - A)) by (apply Rmult_le_compat_l; nra).
    assert (q * (z * A) <= z * A) by nra. split; nra. }
  replace (e / T - q) with ((e - q * T) / T) by (field; lra). unfold Rdiv at 1. rewrite Rabs_mult, (Rabs_pos_eq (/ T)) by (apply Rlt_le, Rinv_0_lt_compat; lra).
  apply Rmult_le_reg_r with T; [lra|]. rewrite Rmult_assoc, Rinv_l, Rmult_1_r by lra. eapply Rle_trans; [exact D|].
  assert (0 <= 2 * eps * q + 2 * z) by (assert (0 <= eps * q) by nra; lra).
  apply Rle_trans with ((2 * eps * q + 2 * z) * (6 / 5 * T)); [apply Rmult_le_compat_l; lra|]. 
  assert (0 <= eps * q) by nra. nra.
Qed.

Lemma softmax_near : forall p eps raws, good_exp p -> accurate_exp p eps -> 0 <= eps <= / 8 ->
  Forall (fun r => valid64 r = true /\ finite64 r = true /\ real r <= 300) raws -> (exists r, In r raws /\ -300 <= real r) -> (zlen raws <= 2 ^ 50)%Z ->
  finite64 (exp_sum p raws) = true /\ bpow radix2 (-1022) <= real (exp_sum p raws) <= bpow radix2 1022 /\
  forall r, In r raws ->
    Rabs (real (softmax_of p raws r) - softmax (map real raws) (real r)) <=
    (4 * eps + softmax_error (List.length raws)) * softmax (map real raws) (real r) + bpow radix2 (-390).
Proof.
  intros p eps raws Hg Ha Heps Hr (r0 & Hi0 & Hr0) Hn. rewrite Forall_forall in Hr. pose proof tiny_le as T1. pose proof u_small as U2. pose proof u_pos as U0. pose proof (bpow_gt_0 radix2 (-1022)) as T0.
  set (t := bpow radix2 (-1022)) in *.
  assert (Hnan : forall r, In r raws -> is_nan r = false) by (intros r Hi; destruct (Hr r Hi) as (_ & F & _); destruct r; try reflexivity; discriminate F).
  assert (Near : forall r, In r raws -> nonneg (pl_exp p r) /\ finite64 (pl_exp p r) = true /\ Rabs (real (pl_exp p r) - exp (real r)) <= eps * exp (real r) + t).
  { intros r Hi. destruct (Hr r Hi) as (V & F & L). pose proof (exp_nonneg p r Hg V (Hnan r Hi)) as N. split; [exact N|]. specialize (Ha r V F).
    pose proof (exp_le _ _ L) as Le. pose proof exp_300 as E3.
    destruct (pl_exp p r) as [s|[|]| |s m ex]; try contradiction Ha; [split; [reflexivity|exact Ha]| |split; [reflexivity|exact Ha]].
    exfalso. change (bpow radix2 1023 <= exp (real r)) in Ha. pose proof (bpow_lt radix2 480 1023 eq_refl). lra. }
  assert (Up : forall r, In r raws -> real (pl_exp p r) <= bpow radix2 481).
  { intros r Hi. destruct (Near r Hi) as (_ & _ & B). apply Rabs_le_inv in B. destruct (Hr r Hi) as (_ & _ & L). pose proof (exp_le _ _ L) as Le. pose proof exp_300 as E3. pose proof (exp_pos (real r)).
    change (bpow radix2 481) with (bpow radix2 (1 + 480)). rewrite bpow_plus. change (bpow radix2 1) with 2.
    assert (1 <= bpow radix2 480) by (change 1 with (bpow radix2 0); apply bpow_le; lia). nra. }
  assert (All : Forall (fun e => nonneg e /\ finite64 e = true /\ real e <= bpow radix2 481) (map (pl_exp p) raws)).
  { rewrite Forall_forall. intros e He. apply in_map_iff in He. destruct He as (r & <- & Hi). destruct (Near r Hi) as (N & F & _). split; [exact N|split; [exact F|apply Up; exact Hi]]. }
  destruct (sum_small (map (pl_exp p) raws) fzero 0 nonneg_zero eq_refl) as [Fs Bs].
  { cbn. lra. } { exact All. } { rewrite map_length. exact Hn. }
  fold (exp_sum p raws) in Fs, Bs. rewrite map_length in Bs. cbn [Nat.add] in Bs.
  assert (Hs : t <= real (exp_sum p raws) <= bpow radix2 1022).
  { split.
    - assert (Nn : Forall nonneg (map (pl_exp p) raws)) by (eapply Forall_impl; [|exact All]; intros x [N _]; exact N).
      destruct (sum_bounds (map (pl_exp p) raws) fzero nonneg_zero Nn) as (_ & _ & L). specialize (L _ (in_map (pl_exp p) _ _ Hi0)). fold (exp_sum p raws) in L.
      destruct (Near r0 Hi0) as (_ & F0 & B). apply Rabs_le_inv in B. pose proof (exp_le _ _ Hr0) as Le. pose proof exp_m300 as E3.
      assert (L' : real (pl_exp p r0) <= real (exp_sum p raws)).
      { destruct (pl_exp p r0) as [s|s| |s m ex]; try discriminate F0; destruct (exp_sum p raws) as [s'|s'| |s' m' ex']; try discriminate Fs; exact L. }
      assert (4 * t <= bpow radix2 (-480)) by (unfold t; change 4 with (bpow radix2 2); rewrite <- bpow_plus; apply bpow_le; lia). nra.
    - eapply Rle_trans; [exact Bs|]. apply Rle_trans with (bpow radix2 50 * bpow radix2 482).
      + apply Rmult_le_compat_r; [apply bpow_ge_0|]. rewrite INR_IZR_INZ. change (bpow radix2 50) with (IZR (2 ^ 50)). apply IZR_le. exact Hn.
      + rewrite <- bpow_plus. apply bpow_le. lia. }
  split; [exact Fs|split; [exact Hs|]]. intros r Hi.
  pose proof (C20_softmax_accuracy p raws Hg) as K. specialize (K ltac:(rewrite Forall_forall; intros q Hq; split; [apply (Hr q Hq)|exact (Hnan q Hq)]) Fs Hs ltac:(lia) r Hi). cbv zeta in K.
  pose proof (exps_error eps t raws (pl_exp p) (fun q Hq => proj2 (proj2 (Near q Hq)))) as D.
  set (A := Rsum (map exp (map real raws))) in *. set (T := Rsum (map (fun r => real (pl_exp p r)) raws)) in *.
  destruct (Near r Hi) as (Nr & Fr & Br). pose proof (nonneg_real _ Nr Fr) as e0.
  assert (EA : exp (real r) <= A) by (apply Rsum_exp_ge, in_map; exact Hi).
  assert (LA : bpow radix2 (-480) <= A).
  { eapply Rle_trans; [exact exp_m300|]. eapply Rle_trans; [apply exp_le; exact Hr0|]. apply Rsum_exp_ge, in_map. exact Hi0. }
  assert (N50 : INR (List.length raws) <= bpow radix2 50) by (rewrite INR_IZR_INZ; change (bpow radix2 50) with (IZR (2 ^ 50)); apply IZR_le; exact Hn).
  assert (N1 : 1 <= INR (List.length raws)). { change 1 with (INR 1). apply le_INR. destruct raws; [contradiction|cbn; lia]. }
  destruct (quotient_error (real (pl_exp p r)) (exp (real r)) T A eps t (INR (List.length raws))) as [T2 Q]; try assumption.
  { split; [apply exp_pos|exact EA]. } { lra. }
  { apply Rle_trans with (bpow radix2 50 * t); [apply Rmult_le_compat_r; lra|]. apply Rle_trans with (bpow radix2 (-480) * bpow radix2 (-400)); [|apply Rmult_le_compat_r; [apply bpow_ge_0|exact LA]].
    unfold t. rewrite <- !bpow_plus. apply bpow_le. lia. }
  unfold softmax. fold A. set (q := exp (real r) / A) in *. set (s := softmax_error (List.length raws)) in *. set (y := real (pl_exp p r) / T) in *.
  assert (Hs2 : 0 <= s <= / 2).
  { unfold s, softmax_error. split; [apply Rmult_le_pos; [lra|apply bpow_ge_0]|]. apply Rle_trans with (bpow radix2 51 * bpow radix2 (-52)).
    - apply Rmult_le_compat_r; [apply bpow_ge_0|]. change (bpow radix2 51) with (bpow radix2 (50 + 1)). rewrite bpow_plus. change (bpow radix2 1) with 2.
      assert (2 <= bpow radix2 50) by (change 2 with (bpow radix2 1); apply bpow_le; lia). lra.
    - rewrite <- bpow_plus. change (/ 2) with (bpow radix2 (-1)). apply bpow_le. lia. }
  assert (Hq : 0 <= q) by (unfold q; apply Rmult_le_pos; [apply Rlt_le, exp_pos|apply Rlt_le, Rinv_0_lt_compat; pose proof (bpow_gt_0 radix2 (-480)); lra]).
  assert (Z : half_tiny + 2 * bpow radix2 (-398) <= bpow radix2 (-390)).
  { assert (half_tiny <= bpow radix2 (-398)) by (apply bpow_le; lia). change (bpow radix2 (-390)) with (bpow radix2 (8 + -398)). rewrite bpow_plus. change (bpow radix2 8) with 256. pose proof (bpow_gt_0 radix2 (-398)). lra. }
  pose proof (bpow_gt_0 radix2 (-398)) as Z0. set (z := bpow radix2 (-398)) in *. apply Rabs_le_inv in K. apply Rabs_le_inv in Q. apply Rabs_le.
  assert (Eq : 0 <= eps * q) by (apply Rmult_le_pos; lra). assert (s * y <= s * (q + (12 / 5 * eps * q + z))) by (apply Rmult_le_compat_l; lra).
  assert (s * (12 / 5 * eps * q + z) <= / 2 * (12 / 5 * eps * q + z)) by (apply Rmult_le_compat_r; lra). split; nra.
Qed.

(** ** a platform with a correctly rounded exponential *)
Definition rounded : platform :=
  mkPlatform (pl_f2i32 Demo.amd64) (pl_f2u32 Demo.amd64) rounded_exp 4 (2 ^ 40)%Z (fun _ => None) (fun _ => []) (fun c _ => 2 * c + 1)%Z.

Lemma rounded_accurate : accurate_exp rounded unit_roundoff.
Proof.
  intros x V F. change (pl_exp rounded x) with (rounded_exp x). assert (E : rounded_exp x = nearest64 (exp (real x))) by (destruct x; try reflexivity; discriminate F). rewrite E.
  destruct (nearest64_spec (exp (real x)) (exp_pos _)) as (_ & _ & [(H & _ & B)|[H R]]); [rewrite H; exact B|].
  assert (K : Rabs (real (nearest64 (exp (real x))) - exp (real x)) <= unit_roundoff * exp (real x) + bpow radix2 (-1022)).
  { rewrite R. destruct (rnd_error (exp (real x))) as (eps & eta & A & B & ->). pose proof (exp_pos (real x)). assert (half_tiny <= bpow radix2 (-1022)) by (apply bpow_le; lia).
    apply Rabs_le_inv in A. apply Rabs_le_inv in B. apply Rabs_le. split; nra. }
  destruct (nearest64 (exp (real x))) as [s|s| |s m ex]; try discriminate H; exact K.
Qed.
Lemma rounded_good : good_exp rounded.
Proof.
  intros x V N. change (pl_exp rounded x) with (rounded_exp x).
  assert (Z0 : le64 fzero fzero) by apply Rle_refl.
  assert (P : forall r, 0 < r -> valid64 (nearest64 r) = true /\ le64 fzero (nearest64 r)) by (intros r Hr; destruct (nearest64_spec r Hr) as (A & B & _); split; assumption).
  destruct x as [s|[|]| |s m ex]; try discriminate N; cbn [rounded_exp]; try (apply P, exp_pos); split; try reflexivity; try exact Z0; exact I.
Qed.
Lemma nearest64_mono : forall r r', 0 < r -> r <= r' -> le64 (nearest64 r) (nearest64 r').
Proof.
  intros r r' H L. destruct (nearest64_spec r H) as (V & _ & A). destruct (nearest64_spec r' ltac:(lra)) as (V' & _ & A'). pose proof (rnd64_mono _ _ L) as M.
  destruct (valid_B _ V) as [b Eb]. destruct (valid_B _ V') as [b' Eb']. rewrite <- Eb, <- Eb' in *. rewrite finite_B, real_B in *.
  destruct A' as [(A' & _)|[F' R']]; [rewrite A'; destruct A as [(A & _)|[F _]]; [rewrite A; exact I|destruct b as [s|[|]| |s m ex Hb]; try discriminate F; exact I]|].
  rewrite ?finite_B in F'. destruct A as [(_ & A & _)|[F R]].
  - exfalso. rewrite ?real_B in R'. pose proof (abs_B2R_lt_emax prec emax b') as Q. rewrite R' in Q. apply Rabs_def2 in Q. lra.
  - rewrite ?real_B in R'. apply le64_B; [exact F|exact F'|]. lra.
Qed.
Lemma rounded_monotone : monotone_exp rounded.
Proof.
  intros x y Vx Vy L. change (pl_exp rounded x) with (rounded_exp x). change (pl_exp rounded y) with (rounded_exp y).
  assert (P : forall r, 0 < r -> le64 fzero (nearest64 r) /\ le64 (nearest64 r) (S754_infinity false)).
  { intros r Hr. destruct (nearest64_spec r Hr) as (V & B & _). split; [exact B|]. destruct (nearest64 r) as [s|[|]| |s m ex]; try exact I; contradiction. }
  destruct x as [sx|[|]| |sx mx ex]; destruct y as [sy|[|]| |sy my ey]; try contradiction L; cbn [rounded_exp];
    try apply P; try apply exp_pos; try exact I; try apply Rle_refl; apply nearest64_mono; try apply exp_pos; apply exp_le; exact L.
Qed.

(** the slope of the logistic function is at most one quarter *)
Lemma sigmoid_slope : forall a b, Rabs (sigmoid a - sigmoid b) <= / 4 * Rabs (a - b).
Proof.
  assert (D : forall x, derivable_pt_lim sigmoid x (exp (- x) * / (1 + exp (- x)) * / (1 + exp (- x)))).
  { intros x. pose proof (exp_pos (- x)) as P.
    assert (D1 : derivable_pt_lim (comp exp (opp_fct id)) x (exp (- x) * - 1)).
    { apply derivable_pt_lim_comp; [apply derivable_pt_lim_opp, derivable_pt_lim_id|]. apply derivable_pt_lim_exp. }
    assert (D2 : derivable_pt_lim (plus_fct (fct_cte 1) (comp exp (opp_fct id))) x (0 + exp (- x) * - 1)) by (apply derivable_pt_lim_plus; [apply derivable_pt_lim_const|exact D1]).
    assert (D3 := derivable_pt_lim_div (fct_cte 1) (plus_fct (fct_cte 1) (comp exp (opp_fct id))) x 0 _ (derivable_pt_lim_const 1 x) D2).
    assert (D4 : derivable_pt_lim (div_fct (fct_cte 1) (plus_fct (fct_cte 1) (comp exp (opp_fct id)))) x (exp (- x) * / (1 + exp (- x)) * / (1 + exp (- x)))).
    { replace (exp (- x) * / (1 + exp (- x)) * / (1 + exp (- x))) with ((0 * plus_fct (fct_cte 1) (comp exp (opp_fct id)) x - (0 + exp (- x) * - 1) * fct_cte 1 x) / (plus_fct (fct_cte 1) (comp exp (opp_fct id)) x)²).
      - apply D3. unfold plus_fct, fct_cte, comp, opp_fct, id. lra.
      - unfold plus_fct, fct_cte, comp, opp_fct, id, Rsqr. field. lra. }
    intros e He. destruct (D4 e He) as [d Hd]. exists d. intros h H1 H2. specialize (Hd h H1 H2). unfold div_fct, plus_fct, fct_cte, comp, opp_fct, id in Hd. unfold Rdiv in Hd at 2 3. rewrite !Rmult_1_l in Hd. exact Hd. }
  assert (Q : forall x, 0 <= exp (- x) * / (1 + exp (- x)) * / (1 + exp (- x)) <= / 4).
  { intros x. pose proof (exp_pos (- x)) as P. set (w := exp (- x)) in *. split.
    - apply Rmult_le_pos; [apply Rmult_le_pos; [lra|apply Rlt_le, Rinv_0_lt_compat; lra]|apply Rlt_le, Rinv_0_lt_compat; lra].
    - apply Rmult_le_reg_r with ((1 + w) * (1 + w)); [nra|]. replace (w * / (1 + w) * / (1 + w) * ((1 + w) * (1 + w))) with w by (field; lra). pose proof (Rle_0_sqr (1 - w)) as X. unfold Rsqr in X. lra. }
  assert (K : forall a b, a < b -> Rabs (sigmoid b - sigmoid a) <= / 4 * (b - a)).
  { intros a b H. destruct (MVT_cor2 sigmoid _ a b H (fun c _ => D c)) as (c & E & _). rewrite E. rewrite Rabs_pos_eq by (apply Rmult_le_pos; [apply Q|lra]). apply Rmult_le_compat_r; [lra|apply Q]. }
  intros a b. destruct (Rtotal_order a b) as [H|[->|H]].
  - rewrite Rabs_minus_sym, (Rabs_minus_sym a b). rewrite (Rabs_pos_eq (b - a)) by lra. apply K. exact H.
  - rewrite !Rminus_diag_eq, Rabs_R0 by reflexivity. lra.
  - rewrite (Rabs_pos_eq (a - b)) by lra. apply K. exact H.
Qed.
