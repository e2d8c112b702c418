(** * Lemmas about fused multiply-add *)

From Coq Require Import ZArith List Bool Lia String SpecFloat Reals Lra.
From Flocq Require Import Core.Core IEEE754.BinarySingleNaN Calc.Operations.
From Verif Require Import Go GoFloat Cmd LgTree Transformation Ensembles Leaves Fused Spec_Predict Spec_Split Spec_Round Spec_Fused Pf_Go Pf_Float Pf_Tree Pf_Range Pf_Round Prop_Round.
Local Open Scope Z_scope.

Lemma ffma_B : forall x y z : B64, ffma (B2SF x) (B2SF y) (B2SF z) = B2SF (Bfma mode_NE x y z).
Proof.
  intros x y z.
  destruct x as [sx|sx| |sx mx ex Bx], y as [sy|sy| |sy my ey By];
    try (destruct z as [sz|sz| |sz mz ez Bz]; cbn; try reflexivity; unfold Bfma_szero; cbn [Bsign];
         try (destruct sx, sy, sz; reflexivity); destruct sx, sz; reflexivity).
  assert (X : cond_Zopp sx (Zpos mx) * cond_Zopp sy (Zpos my) = cond_Zopp (xorb sx sy) (Zpos (mx * my))) by (destruct sx, sy; reflexivity).
  destruct z as [sz|sz| |sz mz ez Bz]; try reflexivity.
  - cbn [B2SF ffma Bfma Fmult]. change (SpecFloat.binary_normalize 53 1024) with (SpecFloat.binary_normalize prec emax). rewrite binary_normalize_equiv.
    rewrite X. destruct (xorb sx sy); reflexivity.
  - cbn [B2SF ffma Bfma Fmult Fplus Falign]. change (SpecFloat.binary_normalize 53 1024) with (SpecFloat.binary_normalize prec emax). rewrite binary_normalize_equiv.
    rewrite X. unfold Fplus, Falign.
    assert (S : forall m e, m = cond_Zopp (xorb sx sy) (Zpos (mx * my)) * 2 ^ (ex + ey - Z.min (ex + ey) ez) + cond_Zopp sz (Zpos mz) * 2 ^ (ez - Z.min (ex + ey) ez) ->
      B2SF (BinarySingleNaN.binary_normalize prec emax Hprec Hmax mode_NE m e false) =
      B2SF (BinarySingleNaN.binary_normalize prec emax Hprec Hmax mode_NE m e (Bfma_szero prec emax mode_NE (B754_finite sx mx ex Bx) (B754_finite sy my ey By) (B754_finite sz mz ez Bz)))).
    { intros m e E. destruct m; try reflexivity. cbn [BinarySingleNaN.binary_normalize B2SF]. unfold Bfma_szero. cbn [Bsign].
      assert (0 < 2 ^ (ex + ey - Z.min (ex + ey) ez)) by (apply Z.pow_pos_nonneg; lia).
      assert (0 < 2 ^ (ez - Z.min (ex + ey) ez)) by (apply Z.pow_pos_nonneg; lia).
      destruct (xorb sx sy), sz; cbn [Bool.eqb cond_Zopp] in *; try reflexivity; nia. }
    destruct (Zle_bool (ex + ey) ez) eqn:L.
    + apply Zle_bool_imp_le in L. rewrite <- S by (rewrite Z.min_l by lia; rewrite Z.sub_diag; cbn [Z.pow]; rewrite Z.mul_1_r; reflexivity).
      rewrite Z.min_l by lia. rewrite Z.sub_diag, Z.mul_1_r. reflexivity.
    + apply Z.leb_gt in L. rewrite <- S by (rewrite Z.min_r by lia; rewrite Z.sub_diag; cbn [Z.pow]; rewrite Z.mul_1_r; reflexivity).
      rewrite Z.min_r by lia. rewrite Z.sub_diag, Z.mul_1_r. reflexivity.
Qed.

Lemma ffma_valid : forall x y z, valid64 x = true -> valid64 y = true -> valid64 z = true -> valid64 (ffma x y z) = true.
Proof.
  intros x y z Vx Vy Vz. destruct (valid_B x Vx) as [a <-]. destruct (valid_B y Vy) as [b <-]. destruct (valid_B z Vz) as [c <-].
  rewrite ffma_B. apply B_valid.
Qed.

Lemma sign_le : forall b : B64, Bsign b = true -> (B2R b <= 0)%R.
Proof.
  intros [s|s| |s m e H] S; cbn [Bsign B2R] in *; try lra. subst s. apply F2R_le_0. cbn [Fnum cond_Zopp]. lia.
Qed.
Lemma sign_ge : forall b : B64, Bsign b = false -> (0 <= B2R b)%R.
Proof.
  intros [s|s| |s m e H] S; cbn [Bsign B2R] in *; try lra. subst s. apply F2R_ge_0. cbn [Fnum cond_Zopp]. lia.
Qed.

(** if the product is exact, fusing makes no difference *)
Lemma ffma_exact : forall x y z, valid64 x = true -> valid64 y = true -> valid64 z = true ->
  (finite64 (fmul x y) = true -> real (fmul x y) = (real x * real y)%R) -> (finite64 x = true -> finite64 y = true -> finite64 (fmul x y) = true) ->
  ffma x y z = fadd z (fmul x y).
Proof.
  intros x y z Vx Vy Vz. destruct (valid_B x Vx) as [a <-]. destruct (valid_B y Vy) as [b <-]. destruct (valid_B z Vz) as [c <-].
  rewrite ffma_B, fmul_B, fadd_B, !finite_B, !real_B. intros Ex Fi.
  destruct (is_finite a) eqn:Fa; [destruct (is_finite b) eqn:Fb; [destruct (is_finite c) eqn:Fc|]|].
  - specialize (Fi eq_refl eq_refl). specialize (Ex Fi).
    pose proof (Bfma_correct prec emax Hprec Hmax mode_NE a b c Fa Fb Fc) as C1. cbv zeta in C1.
    pose proof (Bplus_correct prec emax Hprec Hmax mode_NE c (Bmult mode_NE a b) Fc Fi) as C2. rewrite Ex in C2. rewrite (Rplus_comm (B2R c)) in C2.
    assert (Sg : Bsign (Bmult mode_NE a b) = xorb (Bsign a) (Bsign b)).
    { pose proof (Bmult_correct prec emax Hprec Hmax mode_NE a b) as C3. destruct (Rlt_bool _ _) in C3; [apply C3; destruct (Bmult mode_NE a b); try discriminate; reflexivity|].
      destruct (Bmult mode_NE a b); discriminate. }
    destruct (Rlt_bool (Rabs (rnd64 (B2R a * B2R b + B2R c))) (bpow radix2 emax)) eqn:O.
    + destruct C1 as (R1 & F1 & S1), C2 as (R2 & F2 & S2). f_equal. apply B2R_Bsign_inj; try assumption; [congruence|]. rewrite S1, S2.
      destruct (Rcompare _ _); try reflexivity. unfold Bfma_szero. rewrite Sg. destruct (xorb (Bsign a) (Bsign b)), (Bsign c); reflexivity.
    + rewrite C1. destruct C2 as [C2 S2]. rewrite C2. f_equal.
      assert (NZ : (B2R a * B2R b + B2R c <> 0)%R).
      { intros Z. rewrite Z, rnd64_0, Rabs_R0 in O. rewrite Rlt_bool_true in O by apply bpow_gt_0. discriminate. }
      destruct (Bsign c) eqn:Sc.
      * apply Rlt_bool_true. pose proof (sign_le c Sc). pose proof (sign_le _ (eq_sym S2)) as P. rewrite Ex in P. lra.
      * apply Rlt_bool_false. pose proof (sign_ge c Sc). pose proof (sign_ge _ (eq_sym S2)) as P. rewrite Ex in P. lra.
  - specialize (Fi eq_refl eq_refl). destruct (Bmult mode_NE a b); try discriminate; destruct a, b; try discriminate; destruct c; try discriminate; reflexivity.
  - destruct a as [sa|sa| |sa ma ea Ba]; try discriminate; destruct b as [sb|sb| |sb mb eb Bb]; try discriminate;
      destruct c as [sc|sc| |sc mc ec Bc]; cbn; try reflexivity; destruct sa, sb, sc; reflexivity.
  - destruct a as [sa|sa| |sa ma ea Ba]; try discriminate; destruct b as [sb|sb| |sb mb eb Bb]; try discriminate;
      destruct c as [sc|sc| |sc mc ec Bc]; cbn; try reflexivity; destruct sa, sb, sc; reflexivity.
Qed.

(** ** Exact products *)
Lemma fma_apart : forall x y z, valid64 x = true -> valid64 y = true -> valid64 z = true -> exact_product x y -> ffma x y z = fadd z (fmul x y).
Proof.
  intros x y z Vx Vy Vz E. apply ffma_exact; auto.
  - intros F. destruct (fmul_finite x y Vx Vy F) as (Fx & Fy & _). apply E; auto.
  - intros Fx Fy. apply E; auto.
Qed.
Lemma exact_one : forall v, valid64 v = true -> exact_product v fone.
Proof.
  intros v V Fv _. rewrite fmul_one by exact V. split; [exact Fv|]. destruct one_B as (o & Eo & Ro & _). rewrite <- Eo, real_B, Ro. ring.
Qed.
Lemma product_small : forall x y m e, valid64 x = true -> valid64 y = true -> finite64 x = true -> finite64 y = true ->
  (real x * real y)%R = F2R (Float radix2 m e) -> Z.abs m <= 2 ^ 53 -> -1074 <= e <= 900 ->
  finite64 (fmul x y) = true /\ real (fmul x y) = (real x * real y)%R.
Proof.
  intros x y m e Vx Vy. destruct (valid_B x Vx) as [a <-]. destruct (valid_B y Vy) as [b <-]. rewrite fmul_B, !finite_B, !real_B. intros Fa Fb E M L.
  pose proof (Bmult_correct prec emax Hprec Hmax mode_NE a b) as C. rewrite E in C |- *.
  rewrite round_generic in C; [|apply valid_rnd_N|apply format_small; lia]. rewrite Rlt_bool_true in C by (apply F2R_lt_emax; lia).
  destruct C as (R & F & _). rewrite R, F, Fa, Fb. auto.
Qed.
Lemma round_exact : forall s m e, Zpos m <= 2 ^ 53 -> -1074 <= e <= 900 ->
  finite64 (SpecFloat.binary_round 53 1024 s m e) = true /\ real (SpecFloat.binary_round 53 1024 s m e) = F2R (Float radix2 (cond_Zopp s (Zpos m)) e).
Proof.
  intros s m e M L. destruct (normalize_exact (cond_Zopp s (Zpos m)) e ltac:(destruct s; cbn [cond_Zopp]; lia) L) as [R F].
  assert (E : SpecFloat.binary_round 53 1024 s m e = B2SF (BinarySingleNaN.binary_normalize prec emax Hprec Hmax mode_NE (cond_Zopp s (Zpos m)) e false)).
  { rewrite <- binary_normalize_equiv. destruct s; reflexivity. }
  rewrite E, finite_B, real_B. auto.
Qed.
Lemma f32_real : forall w, finite64 (f64_of_f32bits w) = true ->
  exists m e, real (f64_of_f32bits w) = F2R (Float radix2 m e) /\ Z.abs m <= 2 ^ 24 /\ -149 <= e <= 105.
Proof.
  intros w. unfold f64_of_f32bits. set (s := 0 <? w / 2 ^ 31). set (ex := (w / 2 ^ 23) mod 256). set (fr := w mod 2 ^ 23).
  assert (0 <= ex < 256) by (apply Z.mod_pos_bound; lia). assert (0 <= fr < 2 ^ 23) by (apply Z.mod_pos_bound; lia).
  destruct (Z.eqb_spec ex 255); [destruct (fr =? 0); discriminate|]. destruct (Z.eqb_spec ex 0).
  - destruct fr as [|m|m]; intros _.
    + exists 0, 0. split; [|lia]. unfold real, SF2R. rewrite F2R_0. reflexivity.
    + destruct (round_exact s m (-149) ltac:(lia) ltac:(lia)) as [_ R]. do 2 eexists. split; [exact R|]. split; [|lia]. destruct s; cbn [cond_Zopp]; lia.
    + lia.
  - destruct (fr + 2 ^ 23) as [|m|m] eqn:Em; [lia| |lia]. intros _.
    destruct (round_exact s m (ex - 150) ltac:(lia) ltac:(lia)) as [_ R]. do 2 eexists. split; [exact R|]. split; [|lia]. destruct s; cbn [cond_Zopp]; lia.
Qed.
Lemma small_valid : forall x, small_integer x -> valid64 x = true.
Proof. intros x (z & _ & ->). apply f64_of_Z_valid. Qed.
Lemma exact_small : forall x w, small_integer x -> exact_product x (f64_of_f32bits w).
Proof.
  intros x w (z & Hz & ->) Fx Fw. destruct (of_Z_exact z) as (b & Eb & Rb & Fb); [lia|]. destruct (f32_real w Fw) as (m & e & R & M & L).
  apply (product_small _ _ (z * m) e); auto using f64_of_Z_valid, f32_valid; try lia.
  - rewrite R, Eb, real_B, Rb. unfold F2R. cbn [Fnum Fexp]. rewrite mult_IZR. ring.
  - rewrite Z.abs_mul. nia.
Qed.

(** ** Executions *)
Definition plain (c : fcmd) : cmd := match c with FCmd c => c | FMulAdd i x y => CAdd i (fmul x y) end.
Definition calm_cmd (c : fcmd) : Prop :=
  match c with
  | FCmd (CSet _ v) => valid64 v = true
  | FCmd (CPanic _) | FCmd CHang => True
  | FCmd _ => False
  | FMulAdd _ x y => valid64 x = true /\ valid64 y = true /\ exact_product x y
  end.
Lemma set_valid : forall m i v m', Forall (fun x => valid64 x = true) m -> valid64 v = true -> set_at m i v = Ok m' -> Forall (fun x => valid64 x = true) m'.
Proof.
  intros m i v m' V Vv S. apply set_at_ok in S. apply Forall_forall. intros x Hx. apply in_zget in Hx. destruct Hx as [k Hk].
  destruct (Z.eq_dec k i) as [->|N].
  - rewrite (zset_get_same _ _ _ _ _ S) in Hk. congruence.
  - rewrite (zset_get_other _ _ _ _ _ _ S N) in Hk. rewrite Forall_forall in V. apply V. eapply zget_in; eauto.
Qed.
Lemma fexec_plain : forall fuse cs m, Forall calm_cmd cs -> Forall (fun x => valid64 x = true) m -> fexec fuse cs m = exec (map plain cs) m.
Proof.
  induction cs as [|c cs IH]; intros m C V; [reflexivity|]. inversion C as [|? ? C1 C2]; subst. destruct c as [c|i x y]; cbn [fexec map plain exec].
  - destruct c as [i v|i v|i v|s|]; cbn [calm_cmd] in C1; try contradiction; cbn [exec1]; try reflexivity.
    destruct (set_at m i v) as [m1|?|?|] eqn:S; cbn [bind]; try reflexivity. apply IH; auto. eapply set_valid; eauto.
  - cbn [exec1]. destruct (at_ m i) as [a|?|?|] eqn:A; cbn [bind]; try reflexivity. destruct C1 as (Vx & Vy & E).
    assert (Va : valid64 a = true). { apply at_ok in A. rewrite Forall_forall in V. apply V. eapply zget_in; eauto. }
    rewrite (fma_apart x y a Vx Vy Va E).
    replace (if fuse (Datatypes.length cs) then fadd a (fmul x y) else fadd a (fmul x y)) with (fadd a (fmul x y)) by (destruct (fuse _); reflexivity).
    destruct (set_at m i (fadd a (fmul x y))) as [m1|?|?|] eqn:S; cbn [bind]; try reflexivity. apply IH; auto.
    eapply set_valid; [exact V| |exact S]. apply fadd_valid; auto using fmul_valid.
Qed.

(** ** The command lists *)
Lemma map_flat_map : forall A B C (f : B -> C) (g : A -> list B) l, map f (flat_map g l) = flat_map (fun x => map f (g x)) l.
Proof. induction l as [|x l IH]; cbn [flat_map map]; [reflexivity|]. rewrite map_app, IH. reflexivity. Qed.
Lemma flat_map_same : forall A B (f g : A -> list B) l, (forall x, f x = g x) -> flat_map f l = flat_map g l.
Proof. induction l as [|x l IH]; intros H; cbn [flat_map]; [reflexivity|]. rewrite H, IH by exact H. reflexivity. Qed.
Lemma plain_fused : forall p b fvals n s, map plain (b_fused p b fvals n s) = b_predictInner p b fvals n s.
Proof.
  induction b as [e|e|e|b IH t]; intros fvals n s; cbn [b_fused b_predictInner]; [| | |apply IH].
  - unfold lg_fused, lg_predictInner. rewrite map_app, map_map. f_equal. rewrite map_flat_map. apply flat_map_same. intros i. rewrite map_map.
    apply map_ext. intros k. unfold fcmd_of, cmd_of. destruct (bind _ _) as [r|?|?|]; reflexivity.
  - unfold xg_fused, xg_predictInner. rewrite map_app, map_map. f_equal. rewrite map_flat_map. apply flat_map_same. intros i. rewrite map_map.
    apply map_ext. intros k. cbv zeta. destruct (at_ (xgTrees e) _) as [t|?|?|]; cbn [bind fcmd_of cmd_of plain]; try reflexivity.
    destruct (predict p t fvals) as [r|?|?|]; cbn [bind fcmd_of cmd_of plain]; try reflexivity. destruct (at_ (xgWeightDrop e) _); reflexivity.
  - unfold xl_fused, xl_predictInner. rewrite map_flat_map. apply flat_map_same. intros k. cbn [map]. f_equal.
    + destruct (at_ (xlWeights e) _); reflexivity.
    + rewrite map_map. apply map_ext. intros i. destruct (at_ fvals i); cbn [bind fcmd_of cmd_of plain]; try reflexivity.
      destruct (at_ (xlWeights e) _); reflexivity.
Qed.

(** ** Rounding errors *)
Lemma ffma_finite : forall x y z, valid64 x = true -> valid64 y = true -> valid64 z = true -> finite64 (ffma x y z) = true ->
  finite64 x = true /\ finite64 y = true /\ finite64 z = true /\
  real (ffma x y z) = rnd64 (real x * real y + real z)%R.
Proof.
  intros x y z Vx Vy Vz. destruct (valid_B x Vx) as [a <-]. destruct (valid_B y Vy) as [b <-]. destruct (valid_B z Vz) as [c <-].
  rewrite ffma_B, !finite_B, !real_B. intros F.
  assert (G : is_finite a = true /\ is_finite b = true /\ is_finite c = true).
  { destruct a as [sa|sa| |sa ma ea Ha]; destruct b as [sb|sb| |sb mb eb Hb]; destruct c as [sc|sc| |sc mc ec Hc]; auto; try discriminate;
      cbn in F; try (destruct sa, sb, sc; discriminate); try discriminate. }
  destruct G as (Fa & Fb & Fc). split; [exact Fa|]. split; [exact Fb|]. split; [exact Fc|].
  pose proof (Bfma_correct prec emax Hprec Hmax mode_NE a b c Fa Fb Fc) as C. cbv zeta in C.
  destruct (Rlt_bool _ _); [apply C|]. destruct (Bfma mode_NE a b c); try discriminate; destruct (Rlt_bool _ _) in C; discriminate.
Qed.

Local Open Scope R_scope.
(** one step, fused or not *)
Lemma step_error : forall a x y b, valid64 a = true -> valid64 x = true -> valid64 y = true -> finite64 b = true ->
  b = fadd a (fmul x y) \/ b = ffma x y a ->
  valid64 b = true /\ finite64 a = true /\
  Rabs (real b - (real a + real x * real y)) <= u * Rabs (real a) + ((1 + u) * (1 + u) - 1) * Rabs (real x * real y) + (1 + u) * half_tiny.
Proof.
  intros a x y b Va Vx Vy F [->| ->]; pose proof u_pos as Pu; pose proof tiny_pos as Pt.
  - split; [apply fadd_valid; auto using fmul_valid|]. destruct (fadd_finite _ _ Va (fmul_valid _ _ Vx Vy) F) as (Fa & Fm & e2 & H2 & E2).
    split; [exact Fa|]. destruct (fmul_finite _ _ Vx Vy Fm) as (_ & _ & e1 & t & H1 & Ht & E1). rewrite E2, E1. set (q := real x * real y). set (r := real a).
    replace ((r + (q * (1 + e1) + t)) * (1 + e2) - (r + q)) with (r * e2 + q * (e1 + e2 + e1 * e2) + t * (1 + e2)) by ring.
    assert (B1 : Rabs (r * e2) <= u * Rabs r) by (rewrite Rabs_mult, Rmult_comm; apply Rmult_le_compat_r; auto using Rabs_pos).
    assert (B2 : Rabs (q * (e1 + e2 + e1 * e2)) <= ((1 + u) * (1 + u) - 1) * Rabs q).
    { rewrite Rabs_mult, Rmult_comm. apply Rmult_le_compat_r; [apply Rabs_pos|]. eapply Rle_trans; [apply Rabs_triang|].
      assert (Rabs (e1 + e2) <= u + u) by (eapply Rle_trans; [apply Rabs_triang|]; lra).
      assert (Rabs (e1 * e2) <= u * u) by (rewrite Rabs_mult; apply Rmult_le_compat; auto using Rabs_pos). lra. }
    assert (B3 : Rabs (t * (1 + e2)) <= (1 + u) * half_tiny).
    { rewrite Rabs_mult, Rmult_comm. apply Rmult_le_compat; auto using Rabs_pos. eapply Rle_trans; [apply Rabs_triang|]. rewrite Rabs_R1. lra. }
    eapply Rle_trans; [apply Rabs_triang|]. pose proof (Rabs_triang (r * e2) (q * (e1 + e2 + e1 * e2))). lra.
  - split; [apply ffma_valid; auto|]. destruct (ffma_finite _ _ _ Vx Vy Va F) as (_ & _ & Fa & E). split; [exact Fa|]. rewrite E.
    destruct (rnd_error (real x * real y + real a)) as (e & t & He & Ht & ->). set (q := real x * real y). set (r := real a).
    replace ((q + r) * (1 + e) + t - (r + q)) with ((q + r) * e + t) by ring.
    assert (B1 : Rabs ((q + r) * e) <= (Rabs q + Rabs r) * u) by (rewrite Rabs_mult; apply Rmult_le_compat; auto using Rabs_pos, Rabs_triang).
    assert (0 <= (u + u * u) * Rabs q) by (apply Rmult_le_pos; [nra|apply Rabs_pos]). assert (0 <= u * half_tiny) by (apply Rmult_le_pos; lra).
    eapply Rle_trans; [apply Rabs_triang|]. lra.
Qed.

Lemma accumulated_finite : forall a l r, accumulated a l r -> valid64 a = true -> Forall (fun p => valid64 (fst p) = true /\ valid64 (snd p) = true) l ->
  finite64 r = true ->
  finite64 a = true /\
  Rabs (real r - (real a + Rsum (exact_products l))) <=
    growth (List.length l) * Rabs (real a) + growth (S (List.length l)) * Rsum (map Rabs (exact_products l)) +
    (1 + growth (List.length l)) * (INR (List.length l) * half_tiny).
Proof.
  induction 1 as [a|a x y l r A IH|a x y l r A IH]; intros Va Vl F.
  1: { split; [exact F|]. cbn [exact_products map Rsum List.length INR]. rewrite Rplus_0_r. replace (real a - real a) with 0 by ring. rewrite Rabs_R0.
       unfold growth. simpl. lra. }
  all: inversion Vl as [|? ? [Vx Vy] Vl2]; subst; cbn [fst snd] in Vx, Vy.
  all: match type of A with accumulated ?b0 _ _ => set (b := b0) in * end.
  all: assert (Hb : b = fadd a (fmul x y) \/ b = ffma x y a) by (unfold b; auto).
  all: assert (Vb : valid64 b = true) by (unfold b; auto using fadd_valid, fmul_valid, ffma_valid).
  all: destruct (IH Vb Vl2 F) as [Fb B]; destruct (step_error a x y b Va Vx Vy Fb Hb) as (_ & Fa & D); split; [exact Fa|].
  all: cbn [exact_products map Rsum List.length fst snd] in *; fold (exact_products l) in *.
  all: rewrite S_INR; rewrite (growth_S (S (List.length l))); rewrite !(growth_S (List.length l)) in *.
  all: set (g := growth (List.length l)) in *; assert (G : 0 <= g) by apply growth_nonneg.
  all: set (P := Rsum (map Rabs (exact_products l))) in *; assert (0 <= P) by apply Rsum_abs_nonneg.
  all: set (E := Rsum (exact_products l)) in *; set (q := real x * real y) in *; set (ra := real a) in *; set (rb := real b) in *; set (n := INR (List.length l)) in *.
  all: assert (0 <= n) by apply pos_INR; pose proof u_pos; pose proof tiny_pos.
  all: assert (M : Rabs rb <= (1 + u) * Rabs ra + (1 + u) * (1 + u) * Rabs q + (1 + u) * half_tiny)
       by (replace rb with ((rb - (ra + q)) + (ra + q)) by ring; eapply Rle_trans; [apply Rabs_triang|]; pose proof (Rabs_triang ra q); lra).
  all: replace (real r - (ra + (q + E))) with ((real r - (rb + E)) + (rb - (ra + q))) by ring; eapply Rle_trans; [apply Rabs_triang|].
  all: assert (M2 : g * Rabs rb <= g * ((1 + u) * Rabs ra + (1 + u) * (1 + u) * Rabs q + (1 + u) * half_tiny)) by (apply Rmult_le_compat_l; auto).
  all: assert (0 <= u * ((g * (1 + u) + u) * P)) by (apply Rmult_le_pos; [lra|]; apply Rmult_le_pos; [|lra]; assert (0 <= g * (1 + u)) by (apply Rmult_le_pos; lra); lra).
  all: assert (0 <= u * P) by (apply Rmult_le_pos; lra).
  all: assert (0 <= (1 + g) * u * (n * half_tiny)) by (apply Rmult_le_pos; apply Rmult_le_pos; lra).
  all: replace ((1 + (g * (1 + u) + u)) * ((n + 1) * half_tiny)) with ((1 + g) * (n * half_tiny) + (1 + g) * u * (n * half_tiny) + (1 + g) * (1 + u) * half_tiny) by ring.
  all: replace (((g * (1 + u) + u) * (1 + u) + u) * (Rabs q + P)) with
         (g * ((1 + u) * (1 + u)) * Rabs q + ((1 + u) * (1 + u) - 1) * Rabs q + (g * (1 + u) + u) * P + u * ((g * (1 + u) + u) * P) + u * P) by ring.
  all: lra.
Qed.

(** the bound of Pf_Round.sum_products_error *)
Lemma accumulated_error : forall a l r, accumulated a l r -> valid64 a = true -> Forall (fun p => valid64 (fst p) = true /\ valid64 (snd p) = true) l ->
  finite64 r = true ->
  let n := List.length l in
  Rabs (real r - (real a + Rsum (exact_products l))) <=
    growth (S n) * (Rabs (real a) + Rsum (map Rabs (exact_products l))) + (1 + growth n) * (INR n * half_tiny).
Proof.
  intros a l r A Va Vl F n. destruct (accumulated_finite a l r A Va Vl F) as [_ B]. fold n in B. eapply Rle_trans; [exact B|].
  rewrite Rmult_plus_distr_l. assert (growth n * Rabs (real a) <= growth (S n) * Rabs (real a)) by (apply Rmult_le_compat_r; [apply Rabs_pos|apply growth_le]). lra.
Qed.
Local Close Scope R_scope.
