(** * Ranges and monotonicity of float64 operations *)

From Coq Require Import ZArith List Bool Reals Lia Lra.
From Coq Require Import Floats.SpecFloat.
From Flocq Require Import Core.Core IEEE754.BinarySingleNaN.
From Flocq Require Relative.
From Verif Require Import Go GoFloat Spec_Split Pf_Float Pf_Split.
Local Open Scope Z_scope.

(** extended-real view of a valid value *)
Definition nonneg (x : f64) : Prop := valid64 x = true /\ le64 fzero x.

Lemma real_B : forall b : B64, real (B2SF b) = B2R b.
Proof. intros [| | |]; reflexivity. Qed.
Lemma finite_B : forall b : B64, finite64 (B2SF b) = is_finite b.
Proof. intros [| | |]; reflexivity. Qed.

Lemma le64_B : forall a b : B64, is_finite a = true -> is_finite b = true ->
  (le64 (B2SF a) (B2SF b) <-> (B2R a <= B2R b)%R).
Proof. intros a b Ha Hb. rewrite <- fle_le64 by apply B_valid. rewrite fle_B by auto. destruct (Rle_bool_spec (B2R a) (B2R b)); split; auto; try lra; discriminate. Qed.

Lemma le64_trans : forall a b c, valid64 a = true -> valid64 b = true -> valid64 c = true ->
  le64 a b -> le64 b c -> le64 a c.
Proof.
  intros a b c Va Vb Vc H1 H2.
  destruct a as [sa|[|]| |sa ma ea]; destruct b as [sb|[|]| |sb mb eb]; destruct c as [sc|[|]| |sc mc ec];
    simpl in *; auto; try contradiction; lra.
Qed.

Lemma le64_refl : forall a, is_nan a = false -> le64 a a.
Proof. intros [s|[|]| |s m e] H; simpl; auto; try discriminate; apply Rle_refl. Qed.

Lemma nonneg_cases : forall x, nonneg x -> x = S754_infinity false \/
  exists b : B64, B2SF b = x /\ is_finite b = true /\ (0 <= B2R b)%R.
Proof.
  intros x [V H]. destruct (valid_B x V) as [b Eb].
  destruct x as [s|[|]| |s m e]; simpl in H; try contradiction; auto.
  - right. exists b. split; auto. destruct b; simpl in Eb; try discriminate. split; [auto|apply Rle_refl].
  - right. exists b. split; auto. assert (F : is_finite b = true) by (destruct b; simpl in Eb; try discriminate; auto).
    split; auto. rewrite <- real_B, Eb. exact H.
Qed.

Lemma nonneg_B : forall b : B64, is_finite b = true -> (0 <= B2R b)%R -> nonneg (B2SF b).
Proof.
  intros b F H. split; [apply B_valid|]. change fzero with (B2SF (B754_zero false : B64)). apply le64_B; auto.
Qed.

Lemma valid_rnd64 : Valid_rnd (round_mode mode_NE).
Proof. apply valid_rnd_N. Qed.
Lemma valid_exp64 : Valid_exp (fexp prec emax).
Proof. apply fexp_correct, Hprec. Qed.

Lemma rnd64_mono : forall x y, (x <= y)%R -> (rnd64 x <= rnd64 y)%R.
Proof. intros. apply round_le; auto. apply valid_exp64. apply valid_rnd64. Qed.
Lemma rnd64_B : forall b : B64, rnd64 (B2R b) = B2R b.
Proof. intros. apply round_generic; [apply valid_rnd64|apply generic_format_B2R]. Qed.
Lemma rnd64_0 : rnd64 0 = 0%R.
Proof. apply round_0. apply valid_rnd64. Qed.

Lemma one_B : exists o : B64, B2SF o = fone /\ B2R o = 1%R /\ is_finite o = true /\ Bsign o = false.
Proof.
  destruct (of_Z_exact 1) as (o & Eo & Ho & Hf); [vm_compute; discriminate|]. exists o.
  assert (E : B2SF o = fone) by (rewrite <- Eo; reflexivity). repeat split; auto.
  destruct o; simpl in *; try discriminate; unfold fone in E; congruence.
Qed.
Lemma rnd64_1 : rnd64 1 = 1%R.
Proof. destruct one_B as (o & _ & <- & _). apply rnd64_B. Qed.

(** sums of non-negative values *)
Lemma fadd_nonneg : forall a b, nonneg a -> nonneg b ->
  nonneg (fadd a b) /\ le64 a (fadd a b) /\ le64 b (fadd a b).
Proof.
  intros a b Ha Hb.
  assert (V : valid64 (fadd a b) = true) by (apply fadd_valid; [apply Ha|apply Hb]).
  assert (Inf : forall x, is_nan x = false -> le64 x (S754_infinity false)).
  { intros [s|[|]| |s m e] H; simpl; auto. discriminate. }
  assert (NN : forall x, nonneg x -> is_nan x = false).
  { intros x [_ H]. destruct x as [s|[|]| |s m e]; auto; contradiction. }
  destruct (nonneg_cases a Ha) as [-> | (x & Ex & Fx & Rx)].
  { assert (E : fadd (S754_infinity false) b = S754_infinity false).
    { destruct b as [s|[|]| |s m e]; try reflexivity; destruct Hb as [_ Hb]; simpl in Hb; contradiction. }
    rewrite E. repeat split; auto; apply Inf; auto. }
  destruct (nonneg_cases b Hb) as [-> | (y & Ey & Fy & Ry)].
  { assert (E : fadd a (S754_infinity false) = S754_infinity false).
    { destruct a as [s|[|]| |s m e]; try reflexivity; destruct Ha as [_ Ha]; simpl in Ha; contradiction. }
    rewrite E. repeat split; auto; apply Inf; auto. }
  subst a b. rewrite fadd_B in *.
  pose proof (Bplus_correct prec emax Hprec Hmax mode_NE x y Fx Fy) as HB.
  destruct (Rlt_bool_spec (Rabs (rnd64 (B2R x + B2R y))) (bpow radix2 emax)) as [L|L].
  - destruct HB as (HR & HF & _).
    assert (B2R x <= B2R (Bplus mode_NE x y))%R.
    { rewrite HR. rewrite <- (rnd64_B x) at 1. apply rnd64_mono. lra. }
    assert (B2R y <= B2R (Bplus mode_NE x y))%R.
    { rewrite HR. rewrite <- (rnd64_B y) at 1. apply rnd64_mono. lra. }
    split; [apply nonneg_B; auto; lra|]. split; apply le64_B; auto.
  - destruct HB as (HO & HS).
    assert (Sx : Bsign x = false).
    { destruct (Bsign x) eqn:Sx; auto. exfalso.
      assert (X0 : B2R x = 0%R).
      { destruct x; simpl in *; try discriminate; auto. subst. 
        assert (F2R (Float radix2 (cond_Zopp true (Z.pos m)) e) < 0)%R by (apply F2R_lt_0; simpl; lia).
        simpl in *. lra. }
      rewrite X0, Rplus_0_l, rnd64_B in L. pose proof (abs_B2R_lt_emax prec emax y). lra. }
    assert (E : B2SF (Bplus mode_NE x y) = S754_infinity false).
    { rewrite HO, Sx. reflexivity. }
    rewrite E. repeat split; auto; apply Inf; auto.
Qed.

(** quotient 1/d of d >= 1 *)
Lemma finv_ge1 : forall d, valid64 d = true -> le64 fone d ->
  valid64 (fdiv fone d) = true /\ le64 fzero (fdiv fone d) /\ le64 (fdiv fone d) fone.
Proof.
  intros d V H. destruct one_B as (o & Eo & Ro & Fo & So). 
  split; [apply fdiv_valid; auto|].
  destruct d as [s|[|]| |s m e]; try contradiction.
  - simpl in H. unfold real in H. simpl in H. unfold F2R in H. simpl in H. lra.
  - change (fdiv fone (S754_infinity false)) with fzero. simpl. unfold real. simpl. unfold F2R. simpl. lra.
  - destruct (valid_B _ V) as [b Eb]. rewrite <- Eb, <- Eo in *.
    assert (Fb : is_finite b = true) by (destruct b; simpl in Eb; try discriminate; auto).
    apply le64_B in H; auto. rewrite Ro in H.
    rewrite fdiv_B.
    pose proof (Bdiv_correct prec emax Hprec Hmax mode_NE o b ltac:(lra)) as HB. rewrite Ro in HB.
    assert (Q : (0 <= 1 / B2R b <= 1)%R).
    { split; [apply Rmult_le_pos; [lra|apply Rlt_le, Rinv_0_lt_compat; lra]|].
      unfold Rdiv. rewrite Rmult_1_l. rewrite <- Rinv_1. apply Rinv_le; lra. }
    assert (Q' : (0 <= rnd64 (1 / B2R b) <= 1)%R).
    { split; [rewrite <- rnd64_0|rewrite <- rnd64_1 at 2]; apply rnd64_mono; lra. }
    rewrite Rlt_bool_true in HB.
    2: { rewrite Rabs_pos_eq by lra. apply Rle_lt_trans with 1%R; [lra|]. change 1%R with (bpow radix2 0). apply bpow_lt. reflexivity. }
    destruct HB as (HR & HF & _). rewrite Fo in HF.
    change fzero with (B2SF (B754_zero false : B64)).
    rewrite !le64_B by auto. rewrite HR, Ro. simpl (B2R (B754_zero false)). lra.
Qed.

(** product of non-negative finite values stays ordered *)
Lemma fmul_mono : forall a b c, nonneg a -> nonneg b -> nonneg c -> finite64 a = true -> finite64 b = true -> finite64 c = true ->
  le64 a b -> nonneg (fmul a c) /\ le64 (fmul a c) (fmul b c).
Proof.
  intros a b c Ha Hb Hc Fa Fb Fc H.
  destruct (nonneg_cases a Ha) as [-> | (x & Ex & Fx & Rx)]; [discriminate|].
  destruct (nonneg_cases b Hb) as [-> | (y & Ey & Fy & Ry)]; [discriminate|].
  destruct (nonneg_cases c Hc) as [-> | (z & Ez & Fz & Rz)]; [discriminate|].
  subst a b c. rewrite !fmul_B. apply le64_B in H; auto.
  assert (P : forall w : B64, is_finite w = true -> (0 <= B2R w)%R ->
     nonneg (B2SF (Bmult mode_NE w z)) /\
     ((is_finite (Bmult mode_NE w z) = true /\ B2R (Bmult mode_NE w z) = rnd64 (B2R w * B2R z) /\ (rnd64 (B2R w * B2R z) < bpow radix2 emax)%R)
       \/ (B2SF (Bmult mode_NE w z) = S754_infinity false /\ (bpow radix2 emax <= rnd64 (B2R w * B2R z))%R))).
  { intros w Fw Rw. pose proof (Bmult_correct prec emax Hprec Hmax mode_NE w z) as HB.
    assert (Pos : (0 <= rnd64 (B2R w * B2R z))%R).
    { rewrite <- rnd64_0. apply rnd64_mono. apply Rmult_le_pos; auto. }
    rewrite Rabs_pos_eq in HB by auto.
    destruct (Rlt_bool_spec (rnd64 (B2R w * B2R z)) (bpow radix2 emax)) as [L|L].
    - destruct HB as (HR & HF & _). rewrite Fw, Fz in HF. split; [apply nonneg_B; auto; rewrite HR; auto|]. left. auto.
    - assert (Sgn : xorb (Bsign w) (Bsign z) = false).
      { assert (Nz : B2R w <> 0%R /\ B2R z <> 0%R).
        { split; intros Z0; rewrite Z0, ?Rmult_0_l, ?Rmult_0_r, rnd64_0 in L; pose proof (bpow_gt_0 radix2 emax); lra. }
        destruct Nz as [Nw Nz].
        assert (SS : forall q : B64, is_finite q = true -> (0 <= B2R q)%R -> B2R q <> 0%R -> Bsign q = false).
        { intros q Fq Rq Nq. destruct q as [s|s| |s m e Be]; simpl in *; try discriminate; try lra.
          destruct s; auto. exfalso. assert (F2R (Float radix2 (cond_Zopp true (Z.pos m)) e) < 0)%R by (apply F2R_lt_0; simpl; lia). simpl in *. lra. }
        rewrite (SS w), (SS z); auto. }
      rewrite Sgn in HB. change (binary_overflow prec emax mode_NE false) with (S754_infinity false) in HB.
      split; [|right; auto]. rewrite HB. split; [reflexivity|]. simpl. auto. }
  destruct (P x Fx Rx) as [Nx Dx]. destruct (P y Fy Ry) as [Ny Dy]. split; auto.
  assert (M : (rnd64 (B2R x * B2R z) <= rnd64 (B2R y * B2R z))%R) by (apply rnd64_mono, Rmult_le_compat_r; auto).
  destruct Dx as [(F1 & R1 & L1)|(I1 & L1)]; destruct Dy as [(F2 & R2 & L2)|(I2 & L2)].
  - apply le64_B; auto. rewrite R1, R2. auto.
  - rewrite I2. destruct Nx as [_ Nx]. destruct (B2SF (Bmult mode_NE x z)) as [s|[|]| |s m e]; simpl in *; auto.
  - lra.
  - rewrite I1, I2. simpl. auto.
Qed.

Lemma rnd64_tie : rnd64 (1 + bpow radix2 (-53)) = 1%R.
Proof.
  destruct one_B as (o & Eo & Ro & Fo & So).
  destruct (valid_B (S754_finite false 4503599627370496 (-105)) eq_refl) as [c Ec].
  assert (Rc : B2R c = bpow radix2 (-53)).
  { rewrite <- real_B, Ec. transitivity (bpow radix2 52 * bpow radix2 (-105))%R; [reflexivity|].
    rewrite <- bpow_plus. reflexivity. }
  assert (Fc : is_finite c = true) by (rewrite <- finite_B, Ec; reflexivity).
  pose proof (Bplus_correct prec emax Hprec Hmax mode_NE o c Fo Fc) as HB.
  rewrite Ro, Rc in HB.
  assert (E : B2SF (Bplus mode_NE o c) = B2SF o).
  { rewrite <- fadd_B, Eo, Ec. vm_compute. reflexivity. }
  destruct (Rlt_bool_spec (Rabs (rnd64 (1 + bpow radix2 (-53)))) (bpow radix2 emax)).
  - destruct HB as (HR & _). rewrite <- HR, <- real_B, E, real_B. auto.
  - destruct HB as (HO & _). rewrite E, Eo in HO. discriminate.
Qed.

(** inverse of a sum in the normal range, and the product with something not larger *)
Lemma finv_normal : forall s, valid64 s = true -> finite64 s = true ->
  (bpow radix2 (-1022) <= real s <= bpow radix2 1022)%R ->
  nonneg (fdiv fone s) /\ finite64 (fdiv fone s) = true /\
  forall e, nonneg e -> finite64 e = true -> le64 e s -> le64 (fmul e (fdiv fone s)) fone.
Proof.
  intros s V F (L & U). destruct one_B as (o & Eo & Ro & Fo & So).
  destruct (valid_B s V) as [b Eb]. subst s. rewrite real_B in *. rewrite finite_B in F.
  rewrite <- Eo at 1 2. rewrite fdiv_B.
  assert (Pb : (0 < B2R b)%R) by (pose proof (bpow_gt_0 radix2 (-1022)); lra).
  pose proof (Bdiv_correct prec emax Hprec Hmax mode_NE o b ltac:(lra)) as HB. rewrite Ro in HB.
  set (q := (1 / B2R b)%R) in *.
  assert (Q1 : (bpow radix2 (-1022) <= q)%R).
  { unfold q. replace (bpow radix2 (-1022)) with (/ bpow radix2 1022)%R by (rewrite <- bpow_opp; reflexivity).
    unfold Rdiv. rewrite Rmult_1_l. apply Rinv_le; auto. }
  assert (Q2 : (q <= bpow radix2 1022)%R).
  { unfold q. replace (bpow radix2 1022) with (/ bpow radix2 (-1022))%R by (rewrite <- bpow_opp; reflexivity).
    unfold Rdiv. rewrite Rmult_1_l. apply Rinv_le; auto. apply bpow_gt_0. }
  assert (Gb : forall ex, -1074 <= ex < 1024 -> generic_format radix2 (fexp prec emax) (bpow radix2 ex)).
  { intros ex Hex. apply generic_format_bpow. unfold fexp, emin, prec, emax. lia. }
  assert (Rq : (bpow radix2 (-1022) <= rnd64 q <= bpow radix2 1022)%R).
  { split.
    - rewrite <- (round_generic radix2 (fexp prec emax) (round_mode mode_NE) (bpow radix2 (-1022))).
      + apply rnd64_mono. auto.
      + apply Gb. lia.
    - rewrite <- (round_generic radix2 (fexp prec emax) (round_mode mode_NE) (bpow radix2 1022)).
      + apply rnd64_mono. auto.
      + apply Gb. lia. }
  pose proof (bpow_gt_0 radix2 (-1022)) as Tiny.
  rewrite Rlt_bool_true in HB.
  2: { rewrite Rabs_pos_eq by lra. apply Rle_lt_trans with (bpow radix2 1022); [lra|]. apply bpow_lt. reflexivity. }
  destruct HB as (HR & HF & _). rewrite Fo in HF.
  assert (NN : nonneg (B2SF (Bdiv mode_NE o b))) by (apply nonneg_B; auto; rewrite HR; lra).
  split; auto. split; [rewrite finite_B; auto|].
  intros e He Fe Hle.
  destruct (nonneg_cases e He) as [-> | (x & Ex & Fx & Rx)]; [discriminate|]. subst e.
  apply le64_B in Hle; auto. rewrite <- Eo. rewrite fdiv_B, fmul_B.
  set (i := Bdiv mode_NE o b) in *.
  (* relative error of the inverse *)
  assert (Err : (Rabs (rnd64 q - q) <= bpow radix2 (-53) * q)%R).
  { pose proof (Relative.relative_error_N_FLT radix2 (-1074) prec Hprec (fun x => negb (Z.even x)) q) as E.
    assert (Hq : (bpow radix2 (-1074 + prec - 1) <= Rabs q)%R) by (rewrite Rabs_pos_eq by lra; exact Q1).
    specialize (E Hq). rewrite (Rabs_pos_eq q) in E by lra.
    change (rnd64 q) with (round radix2 (FLT_exp (-1074) prec) (Znearest (fun x => negb (Z.even x))) q).
    replace (/ 2 * bpow radix2 (- prec + 1))%R with (bpow radix2 (-53)) in E; auto.
    change (- prec + 1) with (-52). change (-53) with (-1 + -52). rewrite bpow_plus. reflexivity. }
  assert (Prod : (0 <= B2R x * B2R i <= 1 + bpow radix2 (-53))%R).
  { rewrite HR. split; [apply Rmult_le_pos; lra|].
    apply Rle_trans with (B2R b * rnd64 q)%R; [apply Rmult_le_compat_r; lra|].
    assert (rnd64 q <= q + bpow radix2 (-53) * q)%R by (apply Rabs_le_inv in Err; lra).
    apply Rle_trans with (B2R b * (q + bpow radix2 (-53) * q))%R; [apply Rmult_le_compat_l; lra|].
    right. unfold q. field. lra. }
  assert (R1 : (0 <= rnd64 (B2R x * B2R i) <= 1)%R).
  { split; [rewrite <- rnd64_0; apply rnd64_mono; lra|].
    assert (T : rnd64 (1 + bpow radix2 (-53)) = 1%R).
    { apply rnd64_tie. }
    rewrite <- T. apply rnd64_mono. lra. }
  pose proof (Bmult_correct prec emax Hprec Hmax mode_NE x i) as HM.
  rewrite Rlt_bool_true in HM.
  2: { rewrite Rabs_pos_eq by lra. apply Rle_lt_trans with 1%R; [lra|]. change 1%R with (bpow radix2 0). apply bpow_lt. reflexivity. }
  destruct HM as (MR & MF & _). rewrite Fx, HF in MF.
  apply le64_B; auto. rewrite MR, Ro. lra.
Qed.
