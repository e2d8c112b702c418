(** * Rounding errors of sums and of sums of products *)

From Coq Require Import ZArith List Bool Lia Reals Lra.
From Coq Require Import Floats.SpecFloat.
From Flocq Require Import Core.Core IEEE754.BinarySingleNaN Relative Plus_error.
From Verif Require Import Go GoFloat Spec_Predict Spec_Split Spec_Round Pf_Float Pf_Range.
Local Open Scope R_scope.

Notation u := unit_roundoff.
Lemma u_pos : 0 < u. Proof. apply bpow_gt_0. Qed.
Lemma tiny_pos : 0 < half_tiny. Proof. apply bpow_gt_0. Qed.
Lemma u_ro_u : u_ro radix2 prec = u.
Proof. unfold u_ro, u. change (/ 2) with (bpow radix2 (-1)). rewrite <- bpow_plus. reflexivity. Qed.
Lemma u_ro_le : u_ro radix2 prec / (1 + u_ro radix2 prec) <= u.
Proof.
  rewrite u_ro_u. pose proof u_pos. unfold Rdiv. rewrite <- (Rmult_1_r u) at 3. apply Rmult_le_compat_l; [lra|].
  rewrite <- Rinv_1. apply Rinv_le; lra.
Qed.

(** a product is rounded with a relative and, near zero, an absolute error *)
Lemma rnd_error : forall x, exists eps eta, Rabs eps <= u /\ Rabs eta <= half_tiny /\ rnd64 x = x * (1 + eps) + eta.
Proof.
  intros x. destruct (relative_error_N_FLT'_ex radix2 (3 - emax - prec) prec Hprec (fun x => negb (Z.even x)) x) as (eps & eta & A & B & _ & E).
  exists eps, eta. split; [eapply Rle_trans; [exact A|exact u_ro_le]|]. split; [|exact E].
  eapply Rle_trans; [exact B|]. unfold half_tiny. change (/ 2) with (bpow radix2 (-1)). rewrite <- bpow_plus. apply Rle_refl.
Qed.
(** a sum with a relative error only *)
Lemma rnd_sum_error : forall x y : B64, exists eps, Rabs eps <= u /\ rnd64 (B2R x + B2R y) = (B2R x + B2R y) * (1 + eps).
Proof.
  intros x y. destruct (FLT_plus_error_N_ex radix2 (3 - emax - prec) prec (fun x => negb (Z.even x)) (B2R x) (B2R y)) as (eps & A & E);
    try apply generic_format_B2R. exists eps. split; [eapply Rle_trans; [exact A|exact u_ro_le]|exact E].
Qed.

(** ** finite results come from finite operands *)
Lemma fadd_finite : forall x y, valid64 x = true -> valid64 y = true -> finite64 (fadd x y) = true ->
  finite64 x = true /\ finite64 y = true /\ exists eps, Rabs eps <= u /\ real (fadd x y) = (real x + real y) * (1 + eps).
Proof.
  intros x y Vx Vy H. destruct (valid_B x Vx) as [a Ea]. destruct (valid_B y Vy) as [b Eb]. subst x y. rewrite fadd_B in *.
  rewrite !finite_B in *. rewrite !real_B.
  assert (F : is_finite a = true /\ is_finite b = true).
  { destruct a as [sa|[|]| |sa ma ea Ha]; destruct b as [sb|[|]| |sb mb eb Hb]; auto; discriminate. }
  destruct F as [Fa Fb]. split; [auto|]. split; [auto|].
  pose proof (Bplus_correct prec emax Hprec Hmax mode_NE a b Fa Fb) as C.
  destruct (Rlt_bool (Rabs (rnd64 (B2R a + B2R b))) (bpow radix2 emax)).
  - destruct C as (C & _). rewrite C. apply rnd_sum_error.
  - destruct C as (C & _). destruct (Bplus mode_NE a b); discriminate.
Qed.
Lemma fmul_finite : forall x y, valid64 x = true -> valid64 y = true -> finite64 (fmul x y) = true ->
  finite64 x = true /\ finite64 y = true /\ exists eps eta, Rabs eps <= u /\ Rabs eta <= half_tiny /\ real (fmul x y) = real x * real y * (1 + eps) + eta.
Proof.
  intros x y Vx Vy H. destruct (valid_B x Vx) as [a Ea]. destruct (valid_B y Vy) as [b Eb]. subst x y. rewrite fmul_B in *.
  rewrite !finite_B in *. rewrite !real_B.
  assert (F : is_finite a = true /\ is_finite b = true).
  { destruct a as [sa|[|]| |sa ma ea Ha]; destruct b as [sb|[|]| |sb mb eb Hb]; auto; discriminate. }
  destruct F as [Fa Fb]. split; [auto|]. split; [auto|].
  pose proof (Bmult_correct prec emax Hprec Hmax mode_NE a b) as C.
  destruct (Rlt_bool (Rabs (rnd64 (B2R a * B2R b))) (bpow radix2 emax)).
  - destruct C as (C & _). rewrite C. apply rnd_error.
  - destruct (Bmult mode_NE a b); discriminate.
Qed.

(** ** sums *)
Lemma growth_S : forall n, growth (S n) = growth n * (1 + u) + u.
Proof. intros. unfold growth. cbn [pow]. ring. Qed.
Lemma growth_nonneg : forall n, 0 <= growth n.
Proof. intros n. pose proof u_pos. induction n as [|n IH]; [unfold growth; simpl; lra|]. rewrite growth_S. nra. Qed.
Lemma growth_le : forall n, growth n <= growth (S n).
Proof. intros n. rewrite growth_S. pose proof u_pos. pose proof (growth_nonneg n). nra. Qed.
Lemma Rsum_abs_nonneg : forall l, 0 <= Rsum (map Rabs l).
Proof. induction l as [|x l IH]; simpl; [lra|]. pose proof (Rabs_pos x). lra. Qed.

Lemma sum_error : forall terms x, valid64 x = true -> Forall (fun t => valid64 t = true) terms ->
  finite64 (sum_from x terms) = true ->
  finite64 x = true /\ Forall (fun t => finite64 t = true) terms /\
  Rabs (real (sum_from x terms) - (real x + Rsum (map real terms))) <=
    growth (List.length terms) * (Rabs (real x) + Rsum (map Rabs (map real terms))).
Proof.
  induction terms as [|t terms IH]; intros x Vx Vt F.
  - cbn [sum_from fold_left] in *. split; [exact F|]. split; [constructor|]. unfold sum_from. simpl.
    replace (real x - (real x + 0)) with 0 by ring. rewrite Rabs_R0. unfold growth. simpl. lra.
  - inversion Vt as [|? ? V1 V2]; subst. change (sum_from x (t :: terms)) with (sum_from (fadd x t) terms) in *.
    destruct (IH (fadd x t) (fadd_valid _ _ Vx V1) V2 F) as (F1 & F2 & B).
    destruct (fadd_finite x t Vx V1 F1) as (Fx & Ft & eps & He & E). split; [exact Fx|]. split; [constructor; auto|].
    cbn [map Rsum List.length]. rewrite growth_S. set (g := growth (List.length terms)) in *. assert (0 <= g) by apply growth_nonneg.
    set (S := real (sum_from (fadd x t) terms)) in *. set (T := Rsum (map real terms)) in *. set (A := Rsum (map Rabs (map real terms))) in *.
    assert (0 <= A) by apply Rsum_abs_nonneg. pose proof u_pos.
    assert (X : Rabs (real x + real t) <= Rabs (real x) + Rabs (real t)) by apply Rabs_triang.
    assert (D : Rabs (real (fadd x t) - (real x + real t)) <= u * (Rabs (real x) + Rabs (real t))).
    { rewrite E. replace ((real x + real t) * (1 + eps) - (real x + real t)) with (eps * (real x + real t)) by ring. rewrite Rabs_mult.
      apply Rmult_le_compat; auto using Rabs_pos. }
    assert (M : Rabs (real (fadd x t)) <= (1 + u) * (Rabs (real x) + Rabs (real t))).
    { replace (real (fadd x t)) with ((real (fadd x t) - (real x + real t)) + (real x + real t)) by ring.
      eapply Rle_trans; [apply Rabs_triang|]. lra. }
    replace (S - (real x + (real t + T))) with ((S - (real (fadd x t) + T)) + (real (fadd x t) - (real x + real t))) by ring.
    eapply Rle_trans; [apply Rabs_triang|].
    assert (B' : g * (Rabs (real (fadd x t)) + A) <= g * ((1 + u) * (Rabs (real x) + Rabs (real t)) + A)) by (apply Rmult_le_compat_l; lra).
    set (X0 := Rabs (real x)) in *. set (T0 := Rabs (real t)) in *. assert (0 <= g * u * A) by (apply Rmult_le_pos; [apply Rmult_le_pos|]; lra).
    assert (0 <= u * A) by (apply Rmult_le_pos; lra).
    replace ((g * (1 + u) + u) * (X0 + (T0 + A))) with (g * ((1 + u) * (X0 + T0) + A) + u * (X0 + T0) + (g * u * A + u * A)) by ring. lra.
Qed.

(** ** sums of products *)
Definition products (ab : list (f64 * f64)) : list f64 := map (fun p => fmul (fst p) (snd p)) ab.
Definition exact_products (ab : list (f64 * f64)) : list R := map (fun p => real (fst p) * real (snd p)) ab.

Lemma products_error : forall ab, Forall (fun p => valid64 (fst p) = true /\ valid64 (snd p) = true) ab ->
  Forall (fun t => finite64 t = true) (products ab) ->
  let P := Rsum (map Rabs (exact_products ab)) in
  Rabs (Rsum (map real (products ab)) - Rsum (exact_products ab)) <= u * P + INR (List.length ab) * half_tiny /\
  Rsum (map Rabs (map real (products ab))) <= (1 + u) * P + INR (List.length ab) * half_tiny.
Proof.
  induction ab as [|[a b] ab IH]; intros V F; cbn [products exact_products map Rsum List.length fst snd].
  - rewrite Rminus_0_r, Rabs_R0. simpl. lra.
  - inversion V as [|? ? [Va Vb] V2]; subst. cbn [products map fst snd] in F. inversion F as [|? ? F1 F2]; subst. cbn [fst snd] in Va, Vb.
    destruct (IH V2 F2) as [IH1 IH2]. fold (products ab) (exact_products ab).
    destruct (fmul_finite a b Va Vb F1) as (_ & _ & eps & eta & He & Ht & E). rewrite S_INR. rewrite E.
    set (q := real a * real b) in *. pose proof u_pos. pose proof tiny_pos.
    assert (D : Rabs (eps * q + eta) <= u * Rabs q + half_tiny).
    { eapply Rle_trans; [apply Rabs_triang|]. apply Rplus_le_compat; auto. rewrite Rabs_mult. apply Rmult_le_compat_r; auto using Rabs_pos. }
    split.
    + replace (q * (1 + eps) + eta + Rsum (map real (products ab)) - (q + Rsum (exact_products ab)))
        with ((eps * q + eta) + (Rsum (map real (products ab)) - Rsum (exact_products ab))) by ring.
      eapply Rle_trans; [apply Rabs_triang|]. lra.
    + assert (Rabs (q * (1 + eps) + eta) <= (1 + u) * Rabs q + half_tiny).
      { replace (q * (1 + eps) + eta) with (q + (eps * q + eta)) by ring. eapply Rle_trans; [apply Rabs_triang|]. lra. }
      lra.
Qed.

Lemma products_valid : forall ab, Forall (fun p => valid64 (fst p) = true /\ valid64 (snd p) = true) ab -> Forall (fun t => valid64 t = true) (products ab).
Proof. intros ab V. unfold products. rewrite Forall_map. eapply Forall_impl; [|exact V]. intros p [A B]. apply fmul_valid; auto. Qed.

Lemma sum_products_error : forall ab x, valid64 x = true -> Forall (fun p => valid64 (fst p) = true /\ valid64 (snd p) = true) ab ->
  finite64 (sum_from x (products ab)) = true ->
  let n := List.length ab in
  Rabs (real (sum_from x (products ab)) - (real x + Rsum (exact_products ab))) <=
    growth (S n) * (Rabs (real x) + Rsum (map Rabs (exact_products ab))) + (1 + growth n) * (INR n * half_tiny).
Proof.
  intros ab x Vx V F n. destruct (sum_error (products ab) x Vx (products_valid ab V) F) as (_ & Ft & B).
  replace (List.length (products ab)) with n in B by (unfold products; rewrite map_length; reflexivity).
  destruct (products_error ab V Ft) as [D M]. fold n in D, M. rewrite growth_S.
  set (P := Rsum (map Rabs (exact_products ab))) in *. set (q := INR n * half_tiny) in *. assert (0 <= P) by apply Rsum_abs_nonneg.
  assert (0 <= q) by (apply Rmult_le_pos; [apply pos_INR|pose proof tiny_pos; lra]). pose proof (growth_nonneg n). pose proof u_pos.
  set (Sm := real (sum_from x (products ab))) in *. set (T := Rsum (map real (products ab))) in *. set (E := Rsum (exact_products ab)) in *.
  replace (Sm - (real x + E)) with ((Sm - (real x + T)) + (T - E)) by ring. eapply Rle_trans; [apply Rabs_triang|].
  pose proof (Rabs_pos (real x)). set (g := growth n) in *. set (A := Rsum (map Rabs (map real (products ab)))) in *.
  assert (g * (Rabs (real x) + A) <= g * (Rabs (real x) + ((1 + u) * P + q))) by (apply Rmult_le_compat_l; lra).
  set (X0 := Rabs (real x)) in *. assert (0 <= g * u * X0) by (apply Rmult_le_pos; [apply Rmult_le_pos|]; lra).
  assert (0 <= u * X0) by (apply Rmult_le_pos; lra).
  replace ((g * (1 + u) + u) * (X0 + P) + (1 + g) * q) with (g * (X0 + ((1 + u) * P + q)) + (u * P + q) + (g * u * X0 + u * X0)) by ring. lra.
Qed.

(** growth is about n * 2^-53 *)
Lemma growth_bound : forall n, INR n * u < 1 -> growth n <= INR n * u / (1 - INR n * u).
Proof.
  intros n H. pose proof u_pos.
  assert (X : forall n, INR n * u < 1 -> (1 + u) ^ n * (1 - INR n * u) <= 1).
  { induction n0 as [|k IH]; intros Hk; [simpl; lra|]. rewrite S_INR in *. assert (INR k * u < 1) by nra. specialize (IH H1). cbn [pow].
    assert (P : 0 < (1 + u) ^ k) by (apply pow_lt; lra). pose proof (pos_INR k).
    assert ((1 + u) * (1 - (INR k + 1) * u) <= 1 - INR k * u) by nra. nra. }
  specialize (X n H). unfold growth. apply Rmult_le_reg_r with (1 - INR n * u); [lra|]. unfold Rdiv. rewrite Rmult_assoc, Rinv_l, Rmult_1_r by lra. lra.
Qed.
