(** * Tolerance comparison (C51) *)

From Coq Require Import ZArith List Bool Lia ZifyBool Reals Lra.
From Coq Require Import Floats.SpecFloat.
From Flocq Require Import Core.Core IEEE754.BinarySingleNaN.
From Verif Require Import Go GoFloat Cmd UtilMath Spec_Split Pf_Go Pf_Float Pf_Split Pf_Range Demo.
Local Open Scope Z_scope.

(** the float64 nearest to a real number (ties to even), with unbounded exponent *)
Definition nearest64 (r : R) : R := round radix2 (FLT_exp (-1074) 53) ZnearestE r.

(** two finite numbers are within the threshold: their float64 difference is *)
Definition close (t x y : f64) : Prop := (nearest64 (Rabs (real x - real y)) <= real t)%R.
Definition number (x : f64) : Prop := valid64 x = true /\ finite64 x = true.

Lemma gt_close : forall t x y, number t -> number x -> number y ->
  (fgt (fabs (fsub x y)) t = false <-> close t x y).
Proof.
  intros t x y [Vt Ft] [Vx Fx] [Vy Fy]. unfold close, nearest64.
  change (FLT_exp (-1074) 53) with (fexp prec emax). change ZnearestE with (round_mode mode_NE).
  destruct (valid_B t Vt) as [bt <-]. destruct (valid_B x Vx) as [bx <-]. destruct (valid_B y Vy) as [by_ <-].
  rewrite fsub_B, fabs_B, !real_B. rewrite finite_B in *.
  pose proof (Bminus_correct prec emax Hprec Hmax mode_NE bx by_ Fx Fy) as H.
  rewrite round_NE_abs by apply valid_exp64.
  match type of H with if Rlt_bool ?a ?b then _ else _ => destruct (Rlt_bool_spec a b) as [Hlt|Hge] end.
  - destruct H as (Hr & Hf & _).
    unfold fgt. change (SFltb (B2SF bt) (B2SF (Babs (Bminus mode_NE bx by_)))) with (flt (B2SF bt) (B2SF (Babs (Bminus mode_NE bx by_)))).
    rewrite flt_B by (auto; rewrite is_finite_Babs; auto). rewrite B2R_Babs.
    rewrite Hr.
    destruct (Rlt_bool_spec (B2R bt) (Rabs (rnd64 (B2R bx - B2R by_)))) as [K|K]; split;
      [discriminate|intros J; exfalso; exact (Rlt_not_le _ _ K J)|intros _; exact K|reflexivity].
  - destruct H as (Hs & _).
    assert (Hi : B2SF (Babs (Bminus mode_NE bx by_)) = S754_infinity false).
    { destruct (Bminus mode_NE bx by_); simpl in Hs |- *; try discriminate; auto. }
    rewrite Hi. pose proof (abs_B2R_lt_emax prec emax bt) as Hb.
    split.
    + destruct bt as [s|s| |s m e']; simpl in Ft; try discriminate.
    + intros Hle. exfalso. apply (Rlt_not_le _ _ (Rle_lt_trans _ _ _ (RRle_abs _) Hb)). eapply Rle_trans; [exact Hge|exact Hle].
Qed.

(** C51: the comparison succeeds iff the slices have equal lengths and corresponding
    elements are within the threshold. *)
Theorem C51_almost_equal_slices :
  forall a b t, Forall number a -> Forall number b -> number t ->
  (AlmostEqualFloat64Slices a b t = Ok tt <-> List.length a = List.length b /\ Forall2 (close t) a b).
Proof.
  intros a b t Ha Hb Ht. unfold AlmostEqualFloat64Slices.
  assert (L : forall a b, Forall number a -> Forall number b -> List.length a = List.length b ->
    (almostEqual_loop a b t = Ok tt <-> Forall2 (close t) a b)).
  { clear Ha Hb a b. induction a as [|x a IH]; intros [|y b] Ha Hb E; simpl in *; try discriminate.
    - split; auto.
    - inversion Ha; inversion Hb; subst. pose proof (gt_close t x y Ht H1 H5) as G.
      destruct (fgt (fabs (fsub x y)) t).
      + split; [discriminate|]. intros K. assert (C : close t x y) by (inversion K; auto). apply G in C. discriminate.
      + rewrite IH by auto. split; intros K; [constructor; auto; apply G; auto|inversion K; auto]. }
  destruct (zlen a =? zlen b) eqn:E; simpl negb; cbv iota.
  - assert (List.length a = List.length b) by (unfold zlen in E; lia). rewrite L by auto. tauto.
  - split; [discriminate|]. intros [K _]. unfold zlen in E. lia.
Qed.
Print Assumptions C51_almost_equal_slices.

(** in particular elements at real distance at most the threshold are accepted, and any
    rejected pair is further apart than the threshold *)
Theorem C51_real_distance :
  forall t x y, number t -> number x -> number y ->
  (Rabs (real x - real y) <= real t)%R -> AlmostEqualFloat64 x y t = true /\ close t x y.
Proof.
  intros t x y Ht Hx Hy H. assert (C : close t x y).
  { unfold close, nearest64. change (FLT_exp (-1074) 53) with (fexp prec emax). change ZnearestE with (round_mode mode_NE).
    destruct Ht as [Vt Ft]. destruct (valid_B t Vt) as [bt <-]. rewrite real_B in *.
    rewrite <- rnd64_B. apply rnd64_mono. auto. }
  split; auto. apply (gt_close t x y Ht Hx Hy) in C.
  unfold AlmostEqualFloat64, fle, fgt, SFleb, SFltb in *.
  destruct Ht as [Vt Ft], Hx as [Vx Fx], Hy as [Vy Fy].
  assert (N : is_nan (fabs (fsub x y)) = false).
  { destruct x as [sx|sx| |sx mx ex]; destruct y as [sy|sy| |sy my ey]; try discriminate; try (destruct sx; reflexivity); try (destruct sx, sy; reflexivity).
    destruct (valid_B _ Vx) as [bx Ex]. destruct (valid_B _ Vy) as [by_ Ey]. rewrite <- Ex, <- Ey, fsub_B.
    assert (Fx' : is_finite bx = true) by (rewrite <- finite_B, Ex; auto).
    assert (Fy' : is_finite by_ = true) by (rewrite <- finite_B, Ey; auto).
    pose proof (Bminus_correct prec emax Hprec Hmax mode_NE bx by_ Fx' Fy') as K.
    destruct (Rlt_bool _ _).
    - destruct K as (_ & Hf & _). destruct (Bminus mode_NE bx by_); auto; discriminate.
    - destruct K as (Hs & _). destruct (Bminus mode_NE bx by_); auto; discriminate. }
  assert (Vd : valid64 (fabs (fsub x y)) = true).
  { destruct (valid_B _ Vx) as [bx <-]. destruct (valid_B _ Vy) as [by_ <-]. rewrite fsub_B, fabs_B. apply B_valid. }
  destruct (valid_B _ Vd) as [d Ed]. destruct (valid_B _ Vt) as [bt Et]. rewrite <- Ed, <- Et in *.
  change (SFcompare (B2SF bt) (B2SF d)) with (Bcompare bt d) in C.
  change (SFcompare (B2SF d) (B2SF bt)) with (Bcompare d bt).
  rewrite (Bcompare_swap _ _ bt d). destruct (Bcompare bt d) as [[| |]|] eqn:Ec; try discriminate; auto.
  destruct d as [s|s| |s m e]; destruct bt as [st|st| |st mt et]; try discriminate.
Qed.
Print Assumptions C51_real_distance.

(** NumMismatchedFloat64Slices counts the pairs further apart than the threshold *)
Theorem C51_num_mismatched :
  forall a b t, Forall number a -> Forall number b -> number t -> List.length a = List.length b ->
  exists n, NumMismatchedFloat64Slices a b t = Ok n /\
    exists bad : list bool, List.length bad = List.length a /\
      (forall i x y c, nth_error a i = Some x -> nth_error b i = Some y -> nth_error bad i = Some c ->
         (c = true <-> ~ close t x y)) /\
      n = Z.of_nat (count_occ bool_dec bad true).
Proof.
  intros a b t Ha Hb Ht E. unfold NumMismatchedFloat64Slices.
  replace (zlen a =? zlen b) with true by (unfold zlen; lia). simpl negb. cbv iota. eexists. split; [reflexivity|].
  exists (map (fun xy => fgt (fabs (fsub (fst xy) (snd xy))) t) (combine a b)).
  split; [rewrite map_length, combine_length; lia|]. split.
  - intros i x y c Hx Hy Hc.
    assert (Ec : c = fgt (fabs (fsub x y)) t).
    { clear Ha Hb E. revert b i Hx Hy Hc. induction a as [|x0 a IH]; intros [|y0 b] [|i] Hx Hy Hc; simpl in *; try discriminate.
      - congruence.
      - eapply IH; eauto. }
    pose proof (gt_close t x y Ht (proj1 (Forall_forall _ _) Ha _ (nth_error_In _ _ Hx)) (proj1 (Forall_forall _ _) Hb _ (nth_error_In _ _ Hy))) as G.
    rewrite Ec. destruct (fgt _ t); intuition discriminate.
  - assert (L : forall a b k, List.length a = List.length b -> numMismatched_loop a b t k =
        k + Z.of_nat (count_occ bool_dec (map (fun xy => fgt (fabs (fsub (fst xy) (snd xy))) t) (combine a b)) true)).
    { clear. induction a as [|x a IH]; intros [|y b] k E; simpl in *; try discriminate; [lia|].
      rewrite IH by lia. destruct (fgt (fabs (fsub x y)) t); simpl; lia. }
    rewrite L by auto. lia.
Qed.
Print Assumptions C51_num_mismatched.

(** The unrestricted property is false: NaN is accepted against anything, ... *)
Theorem C51_nan_refuted :
  forall v t, AlmostEqualFloat64Slices [fnan] [v] t = Ok tt /\ NumMismatchedFloat64Slices [fnan] [v] t = Ok 0 /\
  AlmostEqualFloat64 fnan v t = false.
Proof.
  intros v t. assert (E : fabs (fsub fnan v) = fnan) by (destruct v; reflexivity).
  unfold AlmostEqualFloat64Slices, NumMismatchedFloat64Slices, AlmostEqualFloat64.
  change (zlen [fnan]) with 1. change (zlen [v]) with 1. cbn [negb Z.eqb Pos.eqb almostEqual_loop numMismatched_loop]. rewrite E.
  destruct t as [s|s| |s m e]; repeat split; reflexivity.
Qed.
Print Assumptions C51_nan_refuted.

(** ... and a distance that rounds down to the threshold is accepted although it is larger. *)
Theorem C51_rounding_refuted :
  exists x y t, number x /\ number y /\ number t /\ (real t < Rabs (real x - real y))%R /\
    AlmostEqualFloat64Slices [x] [y] t = Ok tt.
Proof.
  exists fone, (S754_finite true 4503599627370496 (-112)), fone. split; [split; reflexivity|]. split; [split; reflexivity|]. split; [split; reflexivity|].
  split; [|vm_compute; reflexivity].
  unfold real, fone, SF2R, cond_Zopp, F2R. cbn [Fnum Fexp].
  pose proof (bpow_gt_0 radix2 (-112)) as B. pose proof (bpow_gt_0 radix2 (-52)) as B2.
  change (- Z.pos 4503599627370496) with (Z.opp 4503599627370496). rewrite opp_IZR. 
  assert (P : (0 < IZR (Z.pos 4503599627370496))%R) by (apply IZR_lt; lia).
  pose proof (Rmult_lt_0_compat _ _ P B). pose proof (Rmult_lt_0_compat _ _ P B2).
  rewrite Rabs_pos_eq; lra.
Qed.
Print Assumptions C51_rounding_refuted.

Example compare_case :
  number (fint 3) /\ AlmostEqualFloat64Slices (map fint [1; 2; 3]) (map fint [1; 4; 3]) (fint 2) = Ok tt /\
  NumMismatchedFloat64Slices (map fint [1; 2; 3]) (map fint [1; 4; 6]) fone = Ok 2.
Proof. repeat split; vm_compute; reflexivity. Qed.
