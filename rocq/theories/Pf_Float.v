(** * Bridge between the executable floats of GoFloat.v and Flocq

    Lemmas only; uses Flocq (and hence the standard library's real numbers). *)

From Coq Require Import ZArith Bool Reals Lia Lra.
From Coq Require Import Floats.SpecFloat.
From Flocq Require Import Core.Core IEEE754.BinarySingleNaN.
From Verif Require Import Go GoFloat.

Local Open Scope Z_scope.

Definition prec : Z := 53.
Definition emax : Z := 1024.
#[global] Instance Hprec : FLX.Prec_gt_0 prec := eq_refl _.
#[global] Instance Hmax : Prec_lt_emax prec emax := eq_refl _.

Notation B64 := (binary_float prec emax).
Notation rnd64 := (round radix2 (fexp prec emax) (round_mode mode_NE)).

Lemma valid_B : forall x, valid64 x = true -> exists b : B64, B2SF b = x.
Proof. intros x H. exists (SF2B x H). apply B2SF_SF2B. Qed.

Lemma B_valid : forall b : B64, valid64 (B2SF b) = true.
Proof. intros b. apply valid_binary_B2SF. Qed.

Lemma round_nearest_even_equiv s m l :
  round_nearest_even m l = choice_mode mode_NE s m l.
Proof.
  destruct l as [|[| |]]; try reflexivity.
  simpl. unfold Round.cond_incr. now destruct (Z.even m).
Qed.

Lemma binary_round_aux_equiv sx mx ex lx :
  SpecFloat.binary_round_aux prec emax sx mx ex lx
  = BinarySingleNaN.binary_round_aux prec emax mode_NE sx mx ex lx.
Proof.
  unfold SpecFloat.binary_round_aux, BinarySingleNaN.binary_round_aux.
  set (mrse' := shr_fexp _ _ _). destruct mrse' as [mrs' e']. simpl.
  now rewrite (round_nearest_even_equiv sx).
Qed.

Lemma binary_round_equiv s m e :
  SpecFloat.binary_round prec emax s m e =
  BinarySingleNaN.binary_round prec emax mode_NE s m e.
Proof.
  unfold SpecFloat.binary_round, BinarySingleNaN.binary_round, shl_align_fexp.
  set (mez := shl_align _ _ _). destruct mez as [mz ez]. apply binary_round_aux_equiv.
Qed.

Lemma binary_normalize_equiv m e szero :
  SpecFloat.binary_normalize prec emax m e szero
  = B2SF (BinarySingleNaN.binary_normalize prec emax Hprec Hmax mode_NE m e szero).
Proof.
  destruct m as [|p|p]; simpl; auto.
  - rewrite B2SF_SF2B. apply binary_round_equiv.
  - rewrite B2SF_SF2B. apply binary_round_equiv.
Qed.

Lemma fmul_B : forall x y : B64, fmul (B2SF x) (B2SF y) = B2SF (Bmult mode_NE x y).
Proof.
  intros [sx|sx| |sx mx ex Bx] [sy|sy| |sy my ey By]; try reflexivity.
  unfold fmul. simpl. rewrite B2SF_SF2B. apply binary_round_aux_equiv.
Qed.

Lemma fadd_B : forall x y : B64, fadd (B2SF x) (B2SF y) = B2SF (Bplus mode_NE x y).
Proof.
  intros [sx|sx| |sx mx ex Bx] [sy|sy| |sy my ey By];
    try reflexivity; try (unfold fadd; simpl; destruct (Bool.eqb sx sy); reflexivity).
  apply binary_normalize_equiv.
Qed.

Lemma fsub_B : forall x y : B64, fsub (B2SF x) (B2SF y) = B2SF (Bminus mode_NE x y).
Proof.
  intros [sx|sx| |sx mx ex Bx] [sy|sy| |sy my ey By];
    try reflexivity; try (unfold fsub; simpl; destruct sx, sy; reflexivity).
  unfold fsub. simpl. unfold Z.sub. rewrite <- cond_Zopp_negb. apply binary_normalize_equiv.
Qed.

Lemma fdiv_B : forall x y : B64, fdiv (B2SF x) (B2SF y) = B2SF (Bdiv mode_NE x y).
Proof.
  intros [sx|sx| |sx mx ex Bx] [sy|sy| |sy my ey By]; try reflexivity.
  unfold fdiv. simpl. rewrite B2SF_SF2B.
  change (SFdiv_core_binary 53 1024) with (SFdiv_core_binary prec emax).
  set (melz := SFdiv_core_binary _ _ _ _ _ _). destruct melz as [[mz ez] lz].
  apply binary_round_aux_equiv.
Qed.

Lemma fneg_B : forall x : B64, fneg (B2SF x) = B2SF (Bopp x).
Proof. intros [sx|sx| |sx mx ex Bx]; reflexivity. Qed.

Lemma fabs_B : forall x : B64, fabs (B2SF x) = B2SF (Babs x).
Proof. intros [sx|sx| |sx mx ex Bx]; reflexivity. Qed.

Lemma f64_of_Z_B : forall z, f64_of_Z z =
  B2SF (BinarySingleNaN.binary_normalize prec emax Hprec Hmax mode_NE z 0 false).
Proof. intros z. apply binary_normalize_equiv. Qed.

Lemma fadd_valid : forall x y, valid64 x = true -> valid64 y = true -> valid64 (fadd x y) = true.
Proof.
  intros x y Hx Hy. destruct (valid_B x Hx) as [a <-]. destruct (valid_B y Hy) as [b <-].
  rewrite fadd_B. apply B_valid.
Qed.
Lemma fmul_valid : forall x y, valid64 x = true -> valid64 y = true -> valid64 (fmul x y) = true.
Proof.
  intros x y Hx Hy. destruct (valid_B x Hx) as [a <-]. destruct (valid_B y Hy) as [b <-].
  rewrite fmul_B. apply B_valid.
Qed.
Lemma fdiv_valid : forall x y, valid64 x = true -> valid64 y = true -> valid64 (fdiv x y) = true.
Proof.
  intros x y Hx Hy. destruct (valid_B x Hx) as [a <-]. destruct (valid_B y Hy) as [b <-].
  rewrite fdiv_B. apply B_valid.
Qed.
Lemma fneg_valid : forall x, valid64 x = true -> valid64 (fneg x) = true.
Proof. intros x Hx. destruct (valid_B x Hx) as [a <-]. rewrite fneg_B. apply B_valid. Qed.
Lemma f64_of_Z_valid : forall z, valid64 (f64_of_Z z) = true.
Proof. intros z. rewrite f64_of_Z_B. apply B_valid. Qed.
Lemma fone_valid : valid64 fone = true. Proof. reflexivity. Qed.
Lemma fzero_valid : valid64 fzero = true. Proof. reflexivity. Qed.

(** integers of at most 53 bits, times a power of two, are representable *)
Lemma format_small : forall m e, Z.abs m <= 2 ^ 53 -> -1074 <= e -> e <= 900 ->
  generic_format radix2 (fexp prec emax) (F2R (Float radix2 m e)).
Proof.
  intros m e Hm He He2.
  assert (P : Valid_exp (fexp prec emax)) by apply fexp_correct, Hprec.
  destruct (Z.eq_dec (Z.abs m) (2 ^ 53)) as [E|E].
  - assert (Hb : F2R (Float radix2 m e) = F2R (Float radix2 (Z.sgn m) (e + 53))).
    { rewrite (F2R_change_exp radix2 e (Z.sgn m) (e + 53)) by lia. f_equal. f_equal.
      replace (e + 53 - e) with 53 by lia. change (radix2 : Z) with 2.
      rewrite <- E. rewrite Z.mul_comm. symmetry. apply Z.abs_sgn. }
    rewrite Hb. apply generic_format_F2R. intros _. unfold cexp.
    assert (Hs : Z.abs (Z.sgn m) = 1).
    { destruct m; simpl in *; auto. discriminate. }
    unfold fexp, emin. 
    assert (Hmag : mag radix2 (F2R (Float radix2 (Z.sgn m) (e + 53))) = (1 + (e + 53)) :> Z).
    { rewrite mag_F2R. 2: { intros H0. rewrite H0 in Hs. discriminate. }
      f_equal. rewrite <- (mag_abs). rewrite <- abs_IZR, Hs.
      change 1%R with (bpow radix2 0). rewrite mag_bpow. reflexivity. }
    rewrite Hmag. unfold prec, emax. lia.
  - apply generic_format_F2R. intros H0. unfold cexp. rewrite mag_F2R by auto.
    unfold fexp, emin.
    assert (Hmag : mag radix2 (IZR m) <= 53).
    { apply mag_le_bpow.
      - apply IZR_neq. auto.
      - rewrite <- abs_IZR. change (bpow radix2 53) with (IZR (2 ^ 53)). apply IZR_lt. lia. }
    unfold prec, emax. lia.
Qed.

Lemma F2R_lt_emax : forall m e, Z.abs m <= 2 ^ 53 -> e <= 900 ->
  (Rabs (F2R (Float radix2 m e)) < bpow radix2 emax)%R.
Proof.
  intros m e Hm He. rewrite <- F2R_Zabs. unfold F2R. cbn [Fnum Fexp].
  apply Rle_lt_trans with (bpow radix2 53 * bpow radix2 e)%R.
  - apply Rmult_le_compat_r; [apply bpow_ge_0|].
    change (bpow radix2 53) with (IZR (2 ^ 53)). apply IZR_le. auto.
  - rewrite <- bpow_plus. apply bpow_lt. unfold emax. lia.
Qed.

Lemma normalize_exact : forall m e, Z.abs m <= 2 ^ 53 -> -1074 <= e <= 900 ->
  B2R (BinarySingleNaN.binary_normalize prec emax Hprec Hmax mode_NE m e false) =
    F2R (Float radix2 m e) /\
  is_finite (BinarySingleNaN.binary_normalize prec emax Hprec Hmax mode_NE m e false) = true.
Proof.
  intros m e Hm He.
  pose proof (binary_normalize_correct prec emax Hprec Hmax mode_NE m e false) as H.
  cbv zeta in H. rewrite round_generic in H; [|apply valid_rnd_N| apply format_small; lia].
  rewrite Rlt_bool_true in H by (apply F2R_lt_emax; lia). tauto.
Qed.

Lemma of_Z_exact : forall z, Z.abs z <= 2 ^ 53 ->
  exists b : B64, f64_of_Z z = B2SF b /\ B2R b = IZR z /\ is_finite b = true.
Proof.
  intros z Hz. eexists. split; [apply f64_of_Z_B|].
  destruct (normalize_exact z 0 Hz ltac:(lia)) as [H1 H2]. split; auto.
  rewrite H1. unfold F2R. simpl. lra.
Qed.

Lemma trunc_B : forall b : B64, is_finite b = true -> trunc (B2SF b) = Some (Ztrunc (B2R b)).
Proof.
  intros [s|s| |s m e Hb] Hf; try discriminate; simpl.
  - rewrite Ztrunc_IZR. reflexivity.
  - f_equal. unfold F2R. simpl.
    assert (Hp : forall p, Ztrunc (IZR (Z.pos p) * bpow radix2 e) =
              if 0 <=? e then Z.pos p * 2 ^ e else Z.pos p / 2 ^ (- e)).
    { intros p. destruct (Z.leb_spec 0 e) as [He|He].
      - rewrite <- IZR_Zpower by lia. rewrite <- mult_IZR. rewrite Ztrunc_IZR. reflexivity.
      - replace (bpow radix2 e) with (/ bpow radix2 (- e))%R.
        2: { rewrite <- bpow_opp. f_equal. lia. }
        rewrite <- IZR_Zpower by lia. change (IZR (Z.pos p) * / IZR (radix2 ^ - e))%R
          with (IZR (Z.pos p) / IZR (radix2 ^ - e))%R.
        rewrite Ztrunc_floor.
        + apply Zfloor_div. change (radix2 : Z) with 2. pose proof (Z.pow_pos_nonneg 2 (- e)). lia.
        + apply Rmult_le_pos; [apply IZR_le; lia|]. apply Rlt_le, Rinv_0_lt_compat.
          apply IZR_lt. change (radix2 : Z) with 2. apply Z.pow_pos_nonneg; lia. }
    specialize (Hp m).
    destruct s; cbn [cond_Zopp].
    + etransitivity; [|etransitivity; [apply (f_equal Z.opp), (eq_sym Hp)|]]; [reflexivity|].
      rewrite <- Ztrunc_opp. f_equal. rewrite opp_IZR. lra.
    + symmetry. exact Hp.
Qed.

(** comparisons of finite values are comparisons of reals *)
Lemma flt_B : forall a b : B64, is_finite a = true -> is_finite b = true ->
  flt (B2SF a) (B2SF b) = Rlt_bool (B2R a) (B2R b).
Proof. intros a b Ha Hb. exact (Bltb_correct prec emax a b Ha Hb). Qed.
Lemma fle_B : forall a b : B64, is_finite a = true -> is_finite b = true ->
  fle (B2SF a) (B2SF b) = Rle_bool (B2R a) (B2R b).
Proof. intros a b Ha Hb. exact (Bleb_correct prec emax a b Ha Hb). Qed.

(** exact quotient by a power of two *)
Lemma div_exact : forall a c : B64, forall m e,
  is_finite a = true -> B2R c <> 0%R ->
  (B2R a / B2R c)%R = F2R (Float radix2 m e) ->
  Z.abs m <= 2 ^ 53 -> -1074 <= e <= 900 ->
  exists b : B64, fdiv (B2SF a) (B2SF c) = B2SF b /\
    B2R b = (B2R a / B2R c)%R /\ is_finite b = true.
Proof.
  intros a c m e Ha Hc Heq Hm He. exists (Bdiv mode_NE a c). split; [apply fdiv_B|].
  pose proof (Bdiv_correct prec emax Hprec Hmax mode_NE a c Hc) as H.
  rewrite Heq in H |- *.
  rewrite round_generic in H; [|apply valid_rnd_N| apply format_small; lia].
  rewrite Rlt_bool_true in H by (apply F2R_lt_emax; lia).
  destruct H as (H1 & H2 & _). rewrite Ha in H2. auto.
Qed.

(** multiplying by 1.0 changes no float64 (the single NaN of the model included) *)
Lemma fmul_one : forall v, valid64 v = true -> fmul v fone = v.
Proof.
  intros v Hv. destruct (valid_B v Hv) as [b Eb].
  assert (E1 : exists o : B64, B2SF o = fone /\ B2R o = 1%R /\ is_finite o = true).
  { destruct (of_Z_exact 1) as (o & Eo & Ho & Hf); [vm_compute; discriminate|]. exists o. repeat split; auto. }
  destruct E1 as (o & Eo & Ho & Hf).
  destruct v as [s|s| |s mt ex]; try (destruct s; reflexivity); try reflexivity.
  rewrite <- Eb, <- Eo. rewrite fmul_B. f_equal.
  assert (Hfb : is_finite b = true) by (destruct b; simpl in *; congruence).
  pose proof (Bmult_correct prec emax Hprec Hmax mode_NE b o) as HB.
  rewrite Ho, Rmult_1_r in HB.
  rewrite round_generic in HB; [|apply valid_rnd_round_mode|apply generic_format_B2R].
  rewrite Rlt_bool_true in HB by apply abs_B2R_lt_emax.
  destruct HB as (HR & HF & HS).
  rewrite Hfb, Hf in HF. cbn [andb] in HF.
  apply B2R_Bsign_inj; auto.
  rewrite HS by (revert HF; destruct (Bmult mode_NE b o); simpl; congruence).
  assert (Hso : Bsign o = false).
  { destruct o; simpl in *; try discriminate; unfold fone in Eo; congruence. }
  rewrite Hso. apply xorb_false_r.
Qed.

Lemma trunc_f64_of_Z : forall z, Z.abs z <= 2 ^ 53 -> trunc (f64_of_Z z) = Some z.
Proof.
  intros z Hz. destruct (of_Z_exact z Hz) as (b & Eb & Hb' & Hf).
  rewrite Eb, trunc_B by auto. rewrite Hb'. f_equal. apply Raux.Ztrunc_IZR.
Qed.
