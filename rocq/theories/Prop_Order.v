(** * C59: transformations keep the order of the raw scores *)

From Coq Require Import ZArith List Bool String Lia ZifyBool Reals Lra.
From Coq Require Import Floats.SpecFloat.
From Flocq Require Import Core.Core IEEE754.BinarySingleNaN.
From Verif Require Import Go GoFloat Cmd UtilMath LgTree Transformation Ensembles Leaves Parallel Spec_Predict Spec_Split
  Spec_Transform Pf_Go Pf_Cmd Pf_Exec Pf_Leaves Pf_Calls Pf_Rows Pf_Float Pf_Split Pf_Range Pf_Transform Demo Prop_Transform.
Local Open Scope Z_scope.

(** ** Monotonicity of the operations *)
Lemma nonneg_nan : forall x, nonneg x -> is_nan x = false.
Proof. intros x [_ H]. destruct x as [s|[|]| |s m e]; auto; contradiction. Qed.
Lemma le64_inf : forall x, is_nan x = false -> le64 x (S754_infinity false).
Proof. intros [s|[|]| |s m e] H; simpl; auto. discriminate. Qed.
Lemma inf_le64 : forall x, le64 (S754_infinity false) x -> x = S754_infinity false.
Proof. intros [s|[|]| |s m e] H; simpl in *; try contradiction; reflexivity. Qed.

Lemma le64_fneg : forall a b, le64 a b -> le64 (fneg b) (fneg a).
Proof.
  assert (R : forall s m e, real (fneg (S754_finite s m e)) = (- real (S754_finite s m e))%R).
  { intros s m e. unfold real, fneg. cbn [SFopp SF2R]. rewrite <- F2R_Zopp. destruct s; reflexivity. }
  assert (Z0 : forall s, real (fneg (S754_zero s)) = (- real (S754_zero s))%R) by (intros; unfold real; simpl; lra).
  intros a b H. destruct a as [sa|[|]| |sa ma ea]; destruct b as [sb|[|]| |sb mb eb]; try exact I; try contradiction; unfold le64 in H.
  - change (real (fneg (S754_zero sb)) <= real (fneg (S754_zero sa)))%R. rewrite !Z0. lra.
  - change (real (fneg (S754_finite sb mb eb)) <= real (fneg (S754_zero sa)))%R. rewrite R, Z0. lra.
  - change (real (fneg (S754_zero sb)) <= real (fneg (S754_finite sa ma ea)))%R. rewrite R, Z0. lra.
  - change (real (fneg (S754_finite sb mb eb)) <= real (fneg (S754_finite sa ma ea)))%R. rewrite !R. lra.
Qed.

Lemma fadd_inf_r : forall a, nonneg a -> fadd a (S754_infinity false) = S754_infinity false.
Proof. intros a Ha. destruct a as [s|[|]| |s m e]; try reflexivity; destruct Ha as [_ Ha]; simpl in Ha; contradiction. Qed.
Lemma fadd_inf_l : forall a, nonneg a -> fadd (S754_infinity false) a = S754_infinity false.
Proof. intros a Ha. destruct a as [s|[|]| |s m e]; try reflexivity; destruct Ha as [_ Ha]; simpl in Ha; contradiction. Qed.

(** a sum of finite non-negative values: rounded or overflowed *)
Lemma fadd_cases : forall x y : B64, is_finite x = true -> is_finite y = true -> (0 <= B2R x)%R -> (0 <= B2R y)%R ->
  (is_finite (Bplus mode_NE x y) = true /\ B2R (Bplus mode_NE x y) = rnd64 (B2R x + B2R y) /\ (rnd64 (B2R x + B2R y) < bpow radix2 emax)%R) \/
  (B2SF (Bplus mode_NE x y) = S754_infinity false /\ (bpow radix2 emax <= rnd64 (B2R x + B2R y))%R).
Proof.
  intros x y Fx Fy Rx Ry. pose proof (Bplus_correct prec emax Hprec Hmax mode_NE x y Fx Fy) as HB.
  assert (Pos : (0 <= rnd64 (B2R x + B2R y))%R) by (rewrite <- rnd64_0; apply rnd64_mono; lra).
  rewrite Rabs_pos_eq in HB by auto. destruct (Rlt_bool_spec (rnd64 (B2R x + B2R y)) (bpow radix2 emax)) as [L|L].
  - destruct HB as (HR & HF & _). left. auto.
  - right. split; auto. destruct HB as (HO & HS). destruct (Bsign x) eqn:Sx.
    + exfalso. assert (X0 : B2R x = 0%R).
      { destruct x; simpl in *; try discriminate; auto. subst.
        assert (F2R (Float radix2 (cond_Zopp true (Z.pos m)) e) < 0)%R by (apply F2R_lt_0; simpl; lia). simpl in *. lra. }
      rewrite X0, Rplus_0_l, rnd64_B in L. pose proof (abs_B2R_lt_emax prec emax y). rewrite Rabs_pos_eq in H by auto. lra.
    + rewrite HO. reflexivity.
Qed.

Lemma fadd_mono : forall a b c, nonneg a -> nonneg b -> nonneg c -> le64 b c -> le64 (fadd a b) (fadd a c).
Proof.
  intros a b c Ha Hb Hc H.
  destruct (nonneg_cases a Ha) as [-> | (x & Ex & Fx & Rx)]; [rewrite !fadd_inf_l by auto; simpl; auto|].
  destruct (nonneg_cases c Hc) as [-> | (z & Ez & Fz & Rz)].
  { rewrite (fadd_inf_r a) by auto. apply le64_inf, nonneg_nan. apply fadd_nonneg; auto. }
  destruct (nonneg_cases b Hb) as [-> | (y & Ey & Fy & Ry)].
  { apply inf_le64 in H. subst c. destruct z; discriminate. }
  subst a b c. apply le64_B in H; auto. rewrite !fadd_B.
  assert (M : (rnd64 (B2R x + B2R y) <= rnd64 (B2R x + B2R z))%R) by (apply rnd64_mono; lra).
  destruct (fadd_cases x y Fx Fy Rx Ry) as [(F1 & R1 & L1)|(I1 & L1)]; destruct (fadd_cases x z Fx Fz Rx Rz) as [(F2 & R2 & L2)|(I2 & L2)].
  - apply le64_B; auto. rewrite R1, R2. auto.
  - rewrite I2. apply le64_inf. destruct (Bplus mode_NE x y) as [| | |]; try discriminate; reflexivity.
  - lra.
  - rewrite I1, I2. simpl. auto.
Qed.

Lemma finv_anti : forall c d, valid64 c = true -> valid64 d = true -> le64 fone c -> le64 c d -> le64 (fdiv fone d) (fdiv fone c).
Proof.
  intros c d Vc Vd H1 H. assert (H1d : le64 fone d) by (eapply le64_trans; [| |exact Vd|exact H1|exact H]; auto).
  destruct (finv_ge1 c Vc H1) as (_ & P & _).
  destruct d as [s|[|]| |s m e]; try contradiction.
  - simpl in H1d. unfold real in H1d. simpl in H1d. unfold F2R in H1d. simpl in H1d. lra.
  - exact P.
  - destruct c as [sc|[|]| |sc mc ec]; try contradiction.
    { simpl in H1. unfold real in H1. simpl in H1. unfold F2R in H1. simpl in H1. lra. }
    destruct one_B as (o & Eo & Ro & Fo & So). destruct (valid_B _ Vc) as [x Ex]. destruct (valid_B _ Vd) as [y Ey]. rewrite <- Ex, <- Ey, <- Eo in *.
    assert (Fx : is_finite x = true) by (destruct x; simpl in Ex; try discriminate; auto).
    assert (Fy : is_finite y = true) by (destruct y; simpl in Ey; try discriminate; auto).
    apply le64_B in H; auto. apply le64_B in H1; auto. rewrite Ro in H1. rewrite !fdiv_B.
    assert (Q : forall b : B64, (1 <= B2R b)%R -> is_finite (Bdiv mode_NE o b) = true /\ B2R (Bdiv mode_NE o b) = rnd64 (1 / B2R b)).
    { intros b Hb. pose proof (Bdiv_correct prec emax Hprec Hmax mode_NE o b ltac:(lra)) as HB. rewrite Ro in HB.
      assert (Q : (0 <= 1 / B2R b <= 1)%R).
      { split; [apply Rmult_le_pos; [lra|apply Rlt_le, Rinv_0_lt_compat; lra]|]. unfold Rdiv. rewrite Rmult_1_l. rewrite <- Rinv_1. apply Rinv_le; lra. }
      assert (Q' : (0 <= rnd64 (1 / B2R b) <= 1)%R) by (split; [rewrite <- rnd64_0|rewrite <- rnd64_1 at 2]; apply rnd64_mono; lra).
      rewrite Rlt_bool_true in HB.
      2: { rewrite Rabs_pos_eq by lra. apply Rle_lt_trans with 1%R; [lra|]. change 1%R with (bpow radix2 0). apply bpow_lt. reflexivity. }
      destruct HB as (HR & HF & _). rewrite Fo in HF. split; auto. }
    destruct (Q x H1) as [F1 R1]. destruct (Q y ltac:(lra)) as [F2 R2]. apply le64_B; auto. rewrite R1, R2. apply rnd64_mono.
    unfold Rdiv. rewrite !Rmult_1_l. apply Rinv_le; lra.
Qed.

(** what is assumed of math.Exp, beside [good_exp] *)
Definition monotone_exp (p : platform) : Prop :=
  forall x y, valid64 x = true -> valid64 y = true -> le64 x y -> le64 (pl_exp p x) (pl_exp p y).

Lemma le64_not_nan : forall a b, le64 a b -> is_nan a = false /\ is_nan b = false.
Proof. intros a b H. destruct a as [sa|[|]| |sa ma ea]; destruct b as [sb|[|]| |sb mb eb]; simpl in *; auto; contradiction. Qed.

Lemma logistic_mono : forall p r1 r2, good_exp p -> monotone_exp p -> valid64 r1 = true -> valid64 r2 = true -> le64 r1 r2 ->
  le64 (logistic_of p r1) (logistic_of p r2).
Proof.
  intros p r1 r2 G M V1 V2 H. destruct (le64_not_nan _ _ H) as [N1 N2].
  assert (X : forall r, valid64 r = true -> is_nan r = false -> nonneg (pl_exp p (fneg r))).
  { intros r V N. apply exp_nonneg; auto; [apply fneg_valid; auto|]. destruct r; auto. }
  assert (N0 : nonneg fone) by (split; [reflexivity|]; simpl; unfold real; simpl; unfold F2R; simpl; lra).
  pose proof (X r1 V1 N1) as E1. pose proof (X r2 V2 N2) as E2.
  destruct (fadd_nonneg fone _ N0 E1) as ([A1 _] & _). destruct (fadd_nonneg fone _ N0 E2) as ([A2 _] & L2 & _).
  unfold logistic_of. apply finv_anti; auto. apply fadd_mono; auto. apply M; try (apply fneg_valid; auto). apply le64_fneg. exact H.
Qed.

(** ** C59 *)

(** One model, two inputs: the larger raw score does not get the smaller probability. *)
Theorem C59_logistic_order :
  forall p e nEstimators fv1 fv2 buf1 buf2 out1 out2 rbuf1 rbuf2 raw1 raw2 r1 r2,
  good_exp p -> monotone_exp p -> well_formed e -> eTransform e = TransformLogistic -> NRawOutputGroups e = 1 ->
  Predict p e fv1 nEstimators buf1 = Ok out1 -> Predict p e fv2 nEstimators buf2 = Ok out2 ->
  Predict p (EnsembleWithRawPredictions e) fv1 nEstimators rbuf1 = Ok raw1 ->
  Predict p (EnsembleWithRawPredictions e) fv2 nEstimators rbuf2 = Ok raw2 ->
  zget raw1 0 = Some r1 -> zget raw2 0 = Some r2 -> valid64 r1 = true -> valid64 r2 = true -> le64 r1 r2 ->
  exists y1 y2, zget out1 0 = Some y1 /\ zget out2 0 = Some y2 /\ le64 y1 y2.
Proof.
  intros p e nE fv1 fv2 b1 b2 o1 o2 rb1 rb2 raw1 raw2 r1 r2 G M W T N P1 P2 Q1 Q2 Z1 Z2 V1 V2 H.
  destruct (C54_logistic _ _ _ _ _ _ _ _ W T N P1 Q1) as (x1 & X1 & Y1). destruct (C54_logistic _ _ _ _ _ _ _ _ W T N P2 Q2) as (x2 & X2 & Y2).
  assert (x1 = r1) by congruence. assert (x2 = r2) by congruence. subst. do 2 eexists. split; [exact Y1|]. split; [exact Y2|]. apply logistic_mono; auto.
Qed.
Print Assumptions C59_logistic_order.

Theorem C59_exponential_order :
  forall p e nEstimators fv1 fv2 buf1 buf2 out1 out2 rbuf1 rbuf2 raw1 raw2 r1 r2,
  monotone_exp p -> well_formed e -> eTransform e = TransformExponential -> NRawOutputGroups e = 1 ->
  Predict p e fv1 nEstimators buf1 = Ok out1 -> Predict p e fv2 nEstimators buf2 = Ok out2 ->
  Predict p (EnsembleWithRawPredictions e) fv1 nEstimators rbuf1 = Ok raw1 ->
  Predict p (EnsembleWithRawPredictions e) fv2 nEstimators rbuf2 = Ok raw2 ->
  zget raw1 0 = Some r1 -> zget raw2 0 = Some r2 -> valid64 r1 = true -> valid64 r2 = true -> le64 r1 r2 ->
  exists y1 y2, zget out1 0 = Some y1 /\ zget out2 0 = Some y2 /\ le64 y1 y2.
Proof.
  intros p e nE fv1 fv2 b1 b2 o1 o2 rb1 rb2 raw1 raw2 r1 r2 M W T N P1 P2 Q1 Q2 Z1 Z2 V1 V2 H.
  destruct (C54_exponential _ _ _ _ _ _ _ _ W T N P1 Q1) as (x1 & X1 & Y1). destruct (C54_exponential _ _ _ _ _ _ _ _ W T N P2 Q2) as (x2 & X2 & Y2).
  assert (x1 = r1) by congruence. assert (x2 = r2) by congruence. subst. do 2 eexists. split; [exact Y1|]. split; [exact Y2|]. apply M; auto.
Qed.
Print Assumptions C59_exponential_order.

(** One prediction, two classes: the class with the larger raw score does not get the smaller
    probability; so the class with the largest raw score is also the most probable one. *)
Theorem C59_softmax_order :
  forall p e fvals nEstimators predictions out rawbuf raw,
  good_exp p -> monotone_exp p -> well_formed e -> eTransform e = TransformSoftmax (NRawOutputGroups e) ->
  Predict p e fvals nEstimators predictions = Ok out ->
  Predict p (EnsembleWithRawPredictions e) fvals nEstimators rawbuf = Ok raw ->
  let raws := firstn (Z.to_nat (NRawOutputGroups e)) raw in
  Forall (fun r => valid64 r = true /\ is_nan r = false) raws ->
  finite64 (exp_sum p raws) = true ->
  (bpow radix2 (-1022) <= real (exp_sum p raws) <= bpow radix2 1022)%R ->
  forall j k rj rk, 0 <= j < NRawOutputGroups e -> 0 <= k < NRawOutputGroups e ->
  zget raw j = Some rj -> zget raw k = Some rk -> le64 rj rk ->
  exists yj yk, zget out j = Some yj /\ zget out k = Some yk /\ le64 yj yk.
Proof.
  intros p e fv nE preds out rawbuf raw G M W T H Hr raws Hv Hf Hs j k rj rk Hj Hk Zj Zk L.
  destruct (C54_softmax _ _ _ _ _ _ _ _ W T H Hr j Hj) as (xj & Xj & Yj). destruct (C54_softmax _ _ _ _ _ _ _ _ W T H Hr k Hk) as (xk & Xk & Yk).
  assert (xj = rj) by congruence. assert (xk = rk) by congruence. subst xj xk.
  assert (In_raws : forall i r, 0 <= i < NRawOutputGroups e -> zget raw i = Some r -> In r raws).
  { intros i r Hi E. unfold raws. pose proof (zget_sub _ raw 0 (NRawOutputGroups e) i) as Gs. simpl skipn in Gs. apply (zget_in _ _ i). rewrite Gs by lia. exact E. }
  destruct (C20_softmax_distribution p raws G Hv Hf Hs) as [_ R]. do 2 eexists. split; [exact Yj|]. split; [exact Yk|].
  rewrite Forall_forall in Hv. apply R; eauto. apply M; auto; apply Hv; eauto.
Qed.
Print Assumptions C59_softmax_order.


(** ** Concrete cases *)

(** an increasing stand-in for math.Exp: 1/2, 1, 2 for negative, zero, positive arguments *)
Definition step_exp (x : f64) : f64 :=
  match x with
  | S754_nan => fnan
  | S754_infinity s => if s then fzero else finf
  | S754_zero _ => fone
  | S754_finite s _ _ => if s then fdiv fone (fint 2) else fint 2
  end.
Definition step_platform : platform :=
  mkPlatform amd64_f2i32 amd64_f2u32 step_exp 4 (2 ^ 40) (fun _ => None) (fun _ => []) (fun c _ => 2 * c + 1).

Lemma fpos : forall m e, le64 fzero (S754_finite false m e).
Proof. intros m e. simpl. unfold real. simpl. apply F2R_ge_0. simpl. lia. Qed.
Lemma step_good : good_exp step_platform.
Proof.
  intros x V N. destruct x as [s|[|]| |[|] m e]; try discriminate; simpl pl_exp; split; try reflexivity; try exact I; try apply fpos.
  simpl. apply Rle_refl.
Qed.
Lemma le64_dec : forall a b, valid64 a = true -> valid64 b = true -> fle a b = true -> le64 a b.
Proof.
  intros a b Va Vb H. destruct (valid_B a Va) as [x Ex]. destruct (valid_B b Vb) as [y Ey]. subst.
  destruct x as [sx|[|]| |sx mx ex Hx]; destruct y as [sy|[|]| |sy my ey Hy]; try exact I; try discriminate.
  all: match goal with |- le64 (B2SF ?u) (B2SF ?v) => apply (le64_B u v eq_refl eq_refl);
    assert (C : Bleb u v = true) by exact H; rewrite (Bleb_correct prec emax u v eq_refl eq_refl) in C;
    destruct (Rle_bool_spec (B2R u) (B2R v)); [auto|discriminate] end.
Qed.
Lemma step_monotone : monotone_exp step_platform.
Proof.
  assert (S : forall s m e s' m' e', le64 (S754_finite s m e) (S754_finite s' m' e') -> s = false -> s' = true -> False).
  { intros s m e s' m' e' H -> ->. simpl in H. unfold real in H. simpl in H.
    assert (0 < F2R (Float radix2 (Z.pos m) e))%R by (apply F2R_gt_0; simpl; lia).
    assert (F2R (Float radix2 (Z.neg m') e') < 0)%R by (apply F2R_lt_0; simpl; lia). lra. }
  assert (S0 : forall s s' m' e', le64 (S754_zero s) (S754_finite s' m' e') -> s' = true -> False).
  { intros s s' m' e' H ->. simpl in H. unfold real in H. simpl in H.
    assert (F2R (Float radix2 (Z.neg m') e') < 0)%R by (apply F2R_lt_0; simpl; lia). lra. }
  assert (S1 : forall s m e s', le64 (S754_finite s m e) (S754_zero s') -> s = false -> False).
  { intros s m e s' H ->. simpl in H. unfold real in H. simpl in H.
    assert (0 < F2R (Float radix2 (Z.pos m) e))%R by (apply F2R_gt_0; simpl; lia). lra. }
  intros x y Vx Vy H.
  destruct x as [sx|[|]| |[|] mx ex]; destruct y as [sy|[|]| |[|] my ey]; try contradiction; simpl pl_exp;
    try exact I; try (apply le64_dec; reflexivity); exfalso; eauto.
Qed.

Example order_case :
  good_exp step_platform /\ monotone_exp step_platform /\
  Predict step_platform demo_logistic (map fint [-1; 2]) 0 (zeros 1) = Ok [fdiv fone (fadd fone (fdiv fone (fint 2)))] /\
  logistic_of step_platform (fint (-3)) = fdiv fone (fint 3) /\
  flt (logistic_of step_platform (fint (-3))) (logistic_of step_platform (fint 3)) = true.
Proof. split; [exact step_good|]. split; [exact step_monotone|]. split; [vm_compute; reflexivity|]. split; vm_compute; reflexivity. Qed.

(** the softmax model of Demo.v: unequal raw scores, outputs in the same order *)
Example softmax_order_case :
  Predict step_platform (EnsembleWithRawPredictions demo_softmax) (map fint [1; 2]) 0 (zeros 2) = Ok (map fint [15; 9]) /\
  exp_sum step_platform (map fint [15; 9]) = fint 4.
Proof. split; vm_compute; reflexivity. Qed.

(** Strict order need not survive: different raw scores may get the same probability. *)
Theorem C59_strict_order_refuted : exists p r1 r2, good_exp p /\ monotone_exp p /\ valid64 r1 = true /\ valid64 r2 = true /\
  flt r1 r2 = true /\ logistic_of p r1 = logistic_of p r2.
Proof.
  exists step_platform, (fint 1), (fint 2). split; [exact step_good|]. split; [exact step_monotone|].
  split; [reflexivity|]. split; [reflexivity|]. split; vm_compute; reflexivity.
Qed.
