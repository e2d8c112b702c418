(** * C79: monotone constraints of the training hold for the predictions *)

From Coq Require Import ZArith List Bool String Lia ZifyBool Reals Lra.
From Coq Require Import Floats.SpecFloat.
From Flocq Require Import Core.Core IEEE754.BinarySingleNaN.
From Verif Require Import Go GoFloat GoText Cmd UtilMath UtilText LgTree Transformation Ensembles Leaves Parallel LgTextIO LgJsonIO XgBin XgIO Spec_Predict Spec_Split
  Spec_Tree Spec_Transform Spec_LgText Spec_Params Spec_LgFile Spec_LgJson Spec_XgBin Spec_XgTree Spec_XgFile SkClasses SkIO Pickle Spec_SkTree Spec_SkFile Spec_Pickle Spec_Monotone
  Pf_Go Pf_Cmd Pf_Exec Pf_Leaves Pf_Calls Pf_Rows Pf_Float Pf_Split Pf_Range Pf_Transform Pf_Tree Pf_Values Pf_Round Pf_LgFile Pf_Placed Pf_LgJsonTree
  Prop_Values Prop_Order Prop_Round Prop_Span Prop_LgText Prop_LgJson Prop_Xg Prop_Sk Prop_Transform Demo DemoText.
Local Open Scope Z_scope.

(** ** One tree *)
Lemma walk_leaf : forall d x v id, walk d x = Some (v, id) -> In (id, v) (leaves_of d).
Proof.
  induction d as [id0 v0|f t l IHl r IHr]; intros x v id H; cbn [walk] in H; [injection H as <- <-; left; reflexivity|].
  destruct (zget x f); [|discriminate]. cbn [leaves_of]. apply in_or_app. destruct (t f0); [left|right]; eauto.
Qed.
Lemma raised_walk : forall up f a b x y d u iu v iv, raised f a b x y -> constrained up f d -> splits_apart f a b d -> number_leaves d ->
  walk d x = Some (u, iu) -> walk d y = Some (v, iv) -> moved up u v.
Proof.
  intros up f a b x y d u iu v iv (L & Ha & Hb & _ & Ho). revert u iu v iv.
  assert (R : forall u, number u -> moved up u u).
  { intros u [_ F]. assert (le64 u u) by (apply le64_refl; destruct u; auto; discriminate). unfold moved. destruct up; assumption. }
  induction d as [id w|g t l IHl r IHr]; intros u iu v iv C S N Wx Wy; cbn [walk] in Wx, Wy.
  - injection Wx as <- <-. injection Wy as <- <-. apply R. apply (N id). left. reflexivity.
  - cbn [constrained splits_apart] in C, S. destruct C as (C1 & C2 & C3), S as (S1 & S2 & S3).
    assert (Nl : number_leaves l) by (intros i z I; apply (N i); cbn [leaves_of]; apply in_or_app; auto).
    assert (Nr : number_leaves r) by (intros i z I; apply (N i); cbn [leaves_of]; apply in_or_app; auto).
    destruct (Z.eq_dec g f) as [->|G].
    + rewrite Ha in Wx. rewrite Hb in Wy. specialize (C1 eq_refl). specialize (S1 eq_refl). destruct (t b).
      * rewrite S1 in Wx by reflexivity. eauto.
      * destruct (t a); [|eauto]. apply walk_leaf in Wx, Wy. exact (C1 _ _ _ _ Wx Wy).
    + rewrite (Ho g G) in Wx. destruct (zget y g); [|discriminate]. destruct (t f0); eauto.
Qed.

(** ** Products and sums *)
Lemma fmul_le : forall u v w, number u -> number v -> number w -> le64 fzero w -> finite64 (fmul u w) = true -> finite64 (fmul v w) = true ->
  le64 u v -> le64 (fmul u w) (fmul v w).
Proof.
  intros u v w [Vu Fu] [Vv Fv] [Vw Fw] W Pu Pv H. destruct (valid_B u Vu) as [a <-]. destruct (valid_B v Vv) as [b <-]. destruct (valid_B w Vw) as [c <-].
  rewrite !fmul_B in *. rewrite !finite_B in *. apply le64_B in H; auto.
  assert (C0 : (0 <= B2R c)%R). { assert (Z0 : fzero = B2SF (B754_zero false : B64)) by reflexivity. rewrite Z0 in W. apply le64_B in W; auto. }
  assert (M : forall x : B64, is_finite (Bmult mode_NE x c) = true -> is_finite x = true -> B2R (Bmult mode_NE x c) = rnd64 (B2R x * B2R c)).
  { intros x F Fx. pose proof (Bmult_correct prec emax Hprec Hmax mode_NE x c) as HB. destruct (Rlt_bool _ _) in HB; [apply HB|]. destruct (Bmult mode_NE x c); discriminate. }
  apply le64_B; auto. rewrite !M by auto. apply rnd64_mono. apply Rmult_le_compat_r; auto.
Qed.
Lemma inverse_number : forall n, 1 <= n <= 2 ^ 53 -> number (fdiv fone (f64_of_Z n)) /\ le64 fzero (fdiv fone (f64_of_Z n)) /\ (real (fdiv fone (f64_of_Z n)) <= 1)%R.
Proof.
  intros n Hn. destruct (of_Z_exact n) as (b & Eb & Rb & Fb); [lia|]. destruct one_B as (o & Eo & Ro & Fo & So).
  assert (N1 : (1 <= IZR n)%R) by (apply (IZR_le 1); lia).
  pose proof (Bdiv_correct prec emax Hprec Hmax mode_NE o b ltac:(lra)) as HB. rewrite Ro, Rb in HB.
  assert (Q : (0 <= 1 / IZR n <= 1)%R).
  { split; [apply Rmult_le_pos; [lra|apply Rlt_le, Rinv_0_lt_compat; lra]|]. unfold Rdiv. rewrite Rmult_1_l. rewrite <- Rinv_1. apply Rinv_le; lra. }
  assert (Q' : (0 <= rnd64 (1 / IZR n) <= 1)%R) by (split; [rewrite <- rnd64_0|rewrite <- rnd64_1 at 2]; apply rnd64_mono; lra).
  rewrite Rlt_bool_true in HB.
  2: { rewrite Rabs_pos_eq by lra. apply Rle_lt_trans with 1%R; [lra|]. change 1%R with (bpow radix2 0). apply bpow_lt. reflexivity. }
  destruct HB as (HR & HF & _). rewrite Eb, <- Eo, fdiv_B. split; [split; [apply B_valid|rewrite finite_B, HF; exact Fo]|]. split.
  - change fzero with (B2SF (B754_zero false : B64)). apply le64_B; auto; [rewrite HF; exact Fo|]. rewrite HR. apply Q'.
  - rewrite real_B, HR. apply Q'.
Qed.
Lemma fmul_shrinks : forall u w, number u -> number w -> le64 fzero w -> (real w <= 1)%R -> finite64 (fmul u w) = true.
Proof.
  intros u w [Vu Fu] [Vw Fw] W L. destruct (valid_B u Vu) as [a <-]. destruct (valid_B w Vw) as [c <-]. rewrite fmul_B. rewrite finite_B in *. rewrite real_B in L.
  assert (C0 : (0 <= B2R c)%R). { change fzero with (B2SF (B754_zero false : B64)) in W. apply le64_B in W; auto. }
  pose proof (Bmult_correct prec emax Hprec Hmax mode_NE a c) as HB. rewrite Rlt_bool_true in HB.
  - destruct HB as (_ & HF & _). rewrite HF, Fu, Fw. reflexivity.
  - apply Rle_lt_trans with (Rabs (B2R a)); [|apply abs_B2R_lt_emax]. rewrite <- (rnd64_B a) at 2. fold rnd64.
    assert (A : forall x, rnd64 (- x) = (- rnd64 x)%R) by (intros x; apply round_NE_opp).
    destruct (Rle_lt_dec 0 (B2R a)) as [Ha|Ha].
    + rewrite !Rabs_pos_eq; [apply rnd64_mono; nra| |]; rewrite <- rnd64_0; apply rnd64_mono; nra.
    + rewrite !Rabs_left1; [apply Ropp_le_contravar; apply rnd64_mono; nra| |]; rewrite <- rnd64_0; apply rnd64_mono; nra.
Qed.

(** ** Models *)

(** no tree answers less for [y] than for [x] *)
Definition not_below (p : platform) (trees : list lgTree) (x y : list f64) : Prop :=
  forall i t u lu v lv, zget trees i = Some t -> predict p t x = Ok (u, lu) -> predict p t y = Ok (v, lv) -> number u /\ number v /\ le64 u v.

Lemma same_used : forall e nE n n', used_estimators e nE n -> used_estimators e nE n' -> n = n'.
Proof. intros e nE n n' (k & Hk & H) (k' & Hk' & H'). assert (k' = k) by congruence. subst. lia. Qed.
Lemma used_bound : forall e nE n, well_formed e -> is_tree_model e -> used_estimators e nE n -> n <= zlen (model_trees e).
Proof.
  intros e nE n W T (k & Hk & H). destruct (wf_NEst e W) as (k' & Hk' & K0 & _ & K1). assert (k' = k) by congruence. subst k'.
  specialize (K1 T). destruct W as (G & _). nia.
Qed.
Lemma zip_le : forall (R : f64 -> f64 -> Prop) us ws, zlen us = zlen ws -> (forall i u w, zget us i = Some u -> zget ws i = Some w -> R u w) -> Forall2 R us ws.
Proof.
  intros Q us. induction us as [|u us IH]; intros ws Lw HR; (destruct ws as [|w ws]; [|]); try (exfalso; unfold zlen in Lw; cbn [List.length] in Lw; lia); [constructor|constructor].
  - apply (HR 0); reflexivity.
  - apply IH; [unfold zlen in *; cbn [List.length] in Lw; lia|]. intros i u' w' H1 H2. pose proof (zget_range _ _ _ _ H1) as R1.
    apply (HR (i + 1)); rewrite zget_cons by lia; replace (i + 1 - 1) with i by lia; assumption.
Qed.
Lemma sums_le : forall start us vs, valid64 start = true -> is_nan start = false -> Forall2 (fun u v => number u /\ number v /\ le64 u v) us vs ->
  le64 (sum_from start us) (sum_from start vs) /\ valid64 (sum_from start us) = true /\ valid64 (sum_from start vs) = true.
Proof.
  intros start us vs V N F.
  assert (A : Forall finite_number us /\ Forall finite_number vs /\ Forall2 le64 us vs).
  { induction F as [|u v us vs (H1 & H2 & H3) F (I1 & I2 & I3)]; repeat split; constructor; auto. }
  destruct A as (A1 & A2 & A3). split; [apply sum_le; auto; apply le64_refl; auto|].
  assert (S : forall l a, valid64 a = true -> Forall finite_number l -> valid64 (sum_from a l) = true).
  { induction l as [|c l IH]; intros a Va Fl; [exact Va|]. inversion Fl as [|? ? [H1 _] H2]; subst. unfold sum_from. cbn [fold_left]. apply IH; auto. apply fadd_valid; auto. }
  auto.
Qed.

(** LightGBM and scikit-learn, random forests included *)
Theorem C79_tree_scores :
  forall p e m x y nEstimators buf1 buf2 out1 out2,
  well_formed e -> raw_output e -> core (eBase e) = BLg m -> zlen (lgTrees m) <= 2 ^ 53 -> not_below p (lgTrees m) x y ->
  Predict p e x nEstimators buf1 = Ok out1 -> Predict p e y nEstimators buf2 = Ok out2 ->
  forall k, 0 <= k < NRawOutputGroups e -> exists r1 r2,
    zget out1 k = Some r1 /\ zget out2 k = Some r2 /\ le64 r1 r2 /\ valid64 r1 = true /\ valid64 r2 = true.
Proof.
  intros p e m x y nE b1 b2 o1 o2 W R C Z N P1 P2 k Hk.
  assert (T : is_tree_model e) by (unfold is_tree_model; rewrite C; exact I).
  assert (MT : model_trees e = lgTrees m) by (unfold model_trees; rewrite C; reflexivity).
  assert (G : forall c vs ws n, number c -> le64 fzero c -> (real c <= 1)%R -> tree_outputs p (lgTrees m) (NRawOutputGroups e) k n x vs ->
    tree_outputs p (lgTrees m) (NRawOutputGroups e) k n y ws ->
    Forall2 (fun u v => number u /\ number v /\ le64 u v) (map (fun v => fmul v c) vs) (map (fun v => fmul v c) ws)).
  { intros c vs ws n Nc C0 C1 [L1 T1] [L2 T2]. apply zip_le; [unfold zlen in *; rewrite !map_length; lia|]. intros i u w Hu Hw. rewrite zget_map in Hu, Hw.
    destruct (zget vs i) as [u0|] eqn:E1; [|discriminate]. destruct (zget ws i) as [w0|] eqn:E2; [|discriminate]. injection Hu as <-. injection Hw as <-.
    pose proof (zget_range _ _ _ _ E1) as Ri. destruct (T1 i ltac:(lia)) as (t & u1 & lu & A1 & A2 & A3). destruct (T2 i ltac:(lia)) as (t' & w1 & lw & B1 & B2 & B3).
    assert (t' = t) by congruence. assert (u1 = u0) by congruence. assert (w1 = w0) by congruence. subst t' u1 w1.
    destruct (N _ _ _ _ _ _ A1 A2 B2) as (D1 & D2 & D3). pose proof (fmul_shrinks _ _ D1 Nc C0 C1). pose proof (fmul_shrinks _ _ D2 Nc C0 C1).
    split; [split; [apply fmul_valid; [apply D1|apply Nc]|auto]|]. split; [split; [apply fmul_valid; [apply D2|apply Nc]|auto]|]. apply fmul_le; auto. }
  destruct (lgAverageOutput m) eqn:Av.
  - destruct (C12_average_output _ _ _ _ _ _ _ W R C Av P1) as (n & U & K1). destruct (C12_average_output _ _ _ _ _ _ _ W R C Av P2) as (n' & U' & K2).
    rewrite <- (same_used _ _ _ _ U U') in K2. clear n' U'. pose proof (used_bound _ _ _ W T U) as Un. rewrite MT in Un.
    destruct (K1 k Hk) as (vs & T1 & Z1). destruct (K2 k Hk) as (ws & T2 & Z2). do 2 eexists. split; [exact Z1|]. split; [exact Z2|].
    destruct (Z_lt_le_dec n 1) as [L|L].
    + assert (vs = [] /\ ws = []) as [-> ->] by (destruct T1 as [L1 _], T2 as [L2 _]; destruct vs, ws; auto; unfold zlen in *; cbn [List.length] in *; lia).
      repeat split; apply le64_refl; reflexivity.
    + destruct (inverse_number n ltac:(lia)) as (I1 & I2 & I3). apply sums_le; auto. eapply G; eauto.
  - destruct (C11_raw_score_is_sum _ _ _ _ _ _ _ W R C Av P1) as (n & U & K1). destruct (C11_raw_score_is_sum _ _ _ _ _ _ _ W R C Av P2) as (n' & U' & K2).
    rewrite <- (same_used _ _ _ _ U U') in K2. destruct (K1 k Hk) as (vs & T1 & Z1). destruct (K2 k Hk) as (ws & T2 & Z2). do 2 eexists. split; [exact Z1|]. split; [exact Z2|].
    apply sums_le; auto. destruct one_B as (o & Eo & Ro & Fo & _). eapply G; eauto; [split; reflexivity| |].
    + rewrite <- Eo. change fzero with (B2SF (B754_zero false : B64)). apply le64_B; auto. rewrite Ro. cbn. lra.
    + rewrite <- Eo, real_B, Ro. apply Rle_refl.
Qed.
Print Assumptions C79_tree_scores.

(** XGBoost: weights of trees that are not negative, products with them that do not overflow *)
Definition weights_fit (p : platform) (m : xgEnsemble) (x : list f64) : Prop :=
  forall i t w u lu, zget (xgTrees m) i = Some t -> zget (xgWeightDrop m) i = Some w -> predict p t x = Ok (u, lu) ->
  number w /\ le64 fzero w /\ finite64 (fmul u w) = true.
Theorem C79_xgboost_scores :
  forall p e m x y nEstimators buf1 buf2 out1 out2,
  well_formed e -> raw_output e -> core (eBase e) = BXg m -> number (xgBaseScore m) ->
  weights_fit p m x -> weights_fit p m y -> not_below p (xgTrees m) x y ->
  Predict p e x nEstimators buf1 = Ok out1 -> Predict p e y nEstimators buf2 = Ok out2 ->
  forall k, 0 <= k < NRawOutputGroups e -> exists r1 r2,
    zget out1 k = Some r1 /\ zget out2 k = Some r2 /\ le64 r1 r2 /\ valid64 r1 = true /\ valid64 r2 = true.
Proof.
  intros p e m x y nE b1 b2 o1 o2 W R C [Vb Fb] Wx Wy N P1 P2 k Hk.
  destruct (C13_xgboost_score _ _ _ _ _ _ _ W R C P1) as (n & U & K1). destruct (C13_xgboost_score _ _ _ _ _ _ _ W R C P2) as (n' & U' & K2).
  rewrite <- (same_used _ _ _ _ U U') in K2. destruct (K1 k Hk) as (vs & ws & [L1 T1] & M1 & G1 & Z1). destruct (K2 k Hk) as (vs' & ws' & [L2 T2] & M2 & G2 & Z2).
  do 2 eexists. split; [exact Z1|]. split; [exact Z2|]. apply sums_le; auto; [destruct (xgBaseScore m); auto; discriminate|].
  apply zip_le; [unfold zlen in *; rewrite !map_length, !combine_length; lia|]. intros i u v Hu Hv. rewrite zget_map in Hu, Hv.
  destruct (zget (combine vs ws) i) as [[u0 w0]|] eqn:E1; [|discriminate]. destruct (zget (combine vs' ws') i) as [[v0 w1]|] eqn:E2; [|discriminate]. injection Hu as <-. injection Hv as <-.
  destruct (zget_combine _ _ _ _ _ _ _ E1) as [A1 A2]. destruct (zget_combine _ _ _ _ _ _ _ E2) as [B1 B2]. pose proof (zget_range _ _ _ _ A1) as Ri.
  destruct (T1 i ltac:(lia)) as (t & u2 & lu & C1 & C2 & C3). destruct (T2 i ltac:(lia)) as (t' & v2 & lv & D1 & D2 & D3).
  rewrite (G1 i) in A2 by lia. rewrite (G2 i) in B2 by lia.
  assert (t' = t) by congruence. assert (u2 = u0) by congruence. assert (v2 = v0) by congruence. assert (w1 = w0) by congruence. subst t' u2 v2 w1.
  destruct (Wx _ _ _ _ _ C1 A2 C2) as (X1 & X2 & X3). destruct (Wy _ _ _ _ _ C1 A2 D2) as (_ & _ & Y3). destruct (N _ _ _ _ _ _ C1 C2 D2) as (N1 & N2 & N3). cbn [fst snd].
  split; [split; [apply fmul_valid; [apply N1|apply X1]|auto]|]. split; [split; [apply fmul_valid; [apply N2|apply X1]|auto]|]. apply fmul_le; auto.
Qed.
Print Assumptions C79_xgboost_scores.

(** ** Files *)
Lemma ordered_trees : forall p ts ds up f a b x y,
  Forall2 (fun T d => exists ren : Z -> Z, forall z v leaf, walk d z = Some (v, leaf) -> predict p T z = Ok (v, ren leaf)) ts ds ->
  raised f a b x y -> Forall (features_below (zlen x)) ds -> Forall (constrained up f) ds -> Forall (splits_apart f a b) ds -> Forall number_leaves ds ->
  if up then not_below p ts x y else not_below p ts y x.
Proof.
  intros p ts ds up f a b x y F R B C S N. pose proof R as (L & _).
  assert (G : forall i t u lu v lv, zget ts i = Some t -> predict p t x = Ok (u, lu) -> predict p t y = Ok (v, lv) -> number u /\ number v /\ moved up u v).
  { intros i t u lu v lv Ht Px Py. destruct (Forall2_zget _ _ _ _ _ F _ _ Ht) as (d & Hd & ren & E). apply zget_in in Hd.
    rewrite Forall_forall in B, C, S, N. specialize (B d Hd). specialize (C d Hd). specialize (S d Hd). specialize (N d Hd).
    destruct (walk_defined d (zlen x) x B eq_refl) as ([u' iu] & Wx). destruct (walk_defined d (zlen x) y B ltac:(lia)) as ([v' iv] & Wy).
    pose proof (E _ _ _ Wx). pose proof (E _ _ _ Wy). assert (u' = u) by congruence. assert (v' = v) by congruence. subst u' v'.
    split; [apply (N _ _ (walk_leaf _ _ _ _ Wx))|]. split; [apply (N _ _ (walk_leaf _ _ _ _ Wy))|]. eapply raised_walk; eauto. }
  destruct up; intros i t u lu v lv Ht P1 P2.
  - apply (G i t u lu v lv Ht P1 P2).
  - destruct (G i t v lv u lu Ht P2 P1) as (A1 & A2 & A3). auto.
Qed.

(** A LightGBM text model whose trees satisfy the constraint: raising the feature moves every raw score in the direction of the
    constraint or leaves it, for every number of trees used, with all rounding. *)
Theorem C79_lightgbm_text :
  forall p eof text rest header kvss groups max_feature_idx average load tr ds e up f a b x y nEstimators buf1 buf2 out1 out2,
  file_says p eof text rest header kvss groups max_feature_idx average load tr ds -> zlen text <= MaxInt -> zlen ds <= 2 ^ 53 ->
  LGEnsembleFromReader p (mkReader text eof) load = Ok e ->
  raised f a b x y -> Forall (features_below (zlen x)) ds -> Forall (constrained up f) ds -> Forall (splits_apart f a b) ds -> Forall number_leaves ds ->
  Predict p (EnsembleWithRawPredictions e) x nEstimators buf1 = Ok out1 -> Predict p (EnsembleWithRawPredictions e) y nEstimators buf2 = Ok out2 ->
  forall k, 0 <= k < groups -> exists r1 r2, zget out1 k = Some r1 /\ zget out2 k = Some r2 /\ valid64 r1 = true /\ valid64 r2 = true /\ moved up r1 r2.
Proof.
  intros p eof text rest header kvss g mf avg load tr ds e up f a b x y nE b1 b2 o1 o2 H L Ld E R B C S N P1 P2 k Hk.
  destruct (loaded_wf text p _ load e E eq_refl L) as (W & _). destruct (raw_view_wf e W) as [Wr _].
  destruct (file_loads _ _ _ _ _ _ _ _ _ _ _ _ H) as (ts & E' & F). rewrite E in E'. injection E' as ->.
  assert (Lt : zlen ts = zlen ds) by (clear - F; unfold zlen; f_equal; induction F; cbn; congruence).
  assert (O : if up then not_below p ts x y else not_below p ts y x).
  { eapply ordered_trees; eauto. clear - F. induction F as [|T d ts ds [_ Hb] F IH]; constructor; auto. exists (fun z => z). exact Hb. }
  set (m := mkLgEnsemble ts mf g (model_name avg) avg) in *.
  assert (Rw : raw_output (EnsembleWithRawPredictions (mkEnsemble (BLg m) tr))) by (eexists; reflexivity).
  destruct up.
  - destruct (C79_tree_scores p _ m x y nE b1 b2 o1 o2 Wr Rw eq_refl ltac:(cbn; lia) O P1 P2 k Hk) as (r1 & r2 & Z1 & Z2 & Hl & V1 & V2). exists r1, r2. auto.
  - destruct (C79_tree_scores p _ m y x nE b2 b1 o2 o1 Wr Rw eq_refl ltac:(cbn; lia) O P2 P1 k Hk) as (r1 & r2 & Z1 & Z2 & Hl & V1 & V2). exists r2, r1. auto 6.
Qed.
Print Assumptions C79_lightgbm_text.

Theorem C79_lightgbm_json :
  forall p v groups max_feature_idx trees ds e up f a b x y nEstimators buf1 buf2 out1 out2,
  json_model_says p v groups max_feature_idx trees ds -> 2 ^ 26 <= pl_maxalloc p -> zlen ds <= 2 ^ 53 ->
  LGEnsembleFromJSON p (Some v) false = Ok e ->
  raised f a b x y -> Forall (features_below (zlen x)) ds -> Forall (constrained up f) ds -> Forall (splits_apart f a b) ds -> Forall number_leaves ds ->
  Predict p e x nEstimators buf1 = Ok out1 -> Predict p e y nEstimators buf2 = Ok out2 ->
  forall k, 0 <= k < groups -> exists r1 r2, zget out1 k = Some r1 /\ zget out2 k = Some r2 /\ moved up r1 r2.
Proof.
  intros p v g mf trees ds e up f a b x y nE b1 b2 o1 o2 H Ha Ld E R B C S N P1 P2 k Hk.
  destruct (json_model_loads _ _ _ _ _ _ H Ha) as (ts & E' & F). rewrite E in E'. injection E' as ->.
  assert (Lt : zlen ts = zlen ds) by (clear - F; unfold zlen; f_equal; induction F; cbn; congruence).
  assert (Lr : zlen trees = zlen ds) by (destruct H as [_ H]; clear - H; unfold zlen; f_equal; induction H; cbn; congruence).
  assert (O : if up then not_below p ts x y else not_below p ts y x).
  { eapply ordered_trees; eauto. clear - F. induction F as [|T d ts ds (_ & ren & _ & Hb) F IH]; constructor; auto. exists ren. exact Hb. }
  set (m := mkLgEnsemble ts mf g (bs "lightgbm.gbdt") false) in *.
  assert (W : well_formed (mkEnsemble (BLg m) (TransformRaw g))).
  { destruct H as [(l & lit1 & lit2 & lit3 & _ & _ & _ & _ & _ & _ & _ & _ & _ & _ & _ & G & Nt & M) _]. change (2 ^ 53) with 9007199254740992 in *.
    split; [|split]; [|change (zlen ts <= MaxInt); unfold MaxInt, two63; lia|reflexivity]. change (1 <= g <= MaxInt).
    destruct (Z_lt_le_dec (zlen trees) g) as [Hl|Hl]; [rewrite Z.mod_small in M by (pose proof (zlen_nonneg _ trees); lia)|]; unfold MaxInt, two63 in *; lia. }
  assert (Rw : raw_output (mkEnsemble (BLg m) (TransformRaw g))) by (eexists; reflexivity).
  destruct up.
  - destruct (C79_tree_scores p _ m x y nE b1 b2 o1 o2 W Rw eq_refl ltac:(cbn [lgTrees m]; lia) O P1 P2 k Hk) as (r1 & r2 & Z1 & Z2 & Hl & V1 & V2). exists r1, r2. auto.
  - destruct (C79_tree_scores p _ m y x nE b2 b1 o2 o1 W Rw eq_refl ltac:(cbn [lgTrees m]; lia) O P2 P1 k Hk) as (r1 & r2 & Z1 & Z2 & Hl & V1 & V2). exists r2, r1. auto 6.
Qed.
Print Assumptions C79_lightgbm_json.

(** float32 values multiplied as float64 do not overflow *)
Lemma round_small : forall x, (Rabs x <= bpow radix2 300)%R -> (Rabs (rnd64 x) <= bpow radix2 300)%R.
Proof.
  intros x H. assert (F : rnd64 (bpow radix2 300) = bpow radix2 300).
  { apply round_generic; [apply valid_rnd64|]. apply generic_format_bpow. unfold fexp, SpecFloat.fexp, emin, prec, emax. cbn. lia. }
  apply Rabs_le. apply Rabs_le_inv in H. assert (A : rnd64 (- bpow radix2 300) = (- rnd64 (bpow radix2 300))%R) by apply round_NE_opp. rewrite F in A.
  split; [rewrite <- A|rewrite <- F]; apply rnd64_mono; lra.
Qed.
Lemma f32_small : forall w, finite64 (f64_of_f32bits w) = true -> (Rabs (real (f64_of_f32bits w)) <= bpow radix2 128)%R.
Proof.
  assert (Z : forall s, (Rabs (real (S754_zero s)) <= bpow radix2 128)%R) by (intros s; unfold real; cbn [SF2R]; rewrite Rabs_R0; apply bpow_ge_0).
  assert (G : forall s m e, Zpos m <= 2 ^ 24 -> e <= 104 -> (Rabs (real (SpecFloat.binary_round 53 1024 s m e)) <= bpow radix2 128)%R).
  { intros s m e Hm He. pose proof (binary_round_correct prec emax Hprec Hmax mode_NE s m e) as H. rewrite <- binary_round_equiv in H. cbv zeta in H. destruct H as [_ H].
    set (x := F2R {| Fnum := cond_Zopp s (Z.pos m); Fexp := e |}) in *. fold (rnd64 x) in H.
    assert (X : (Rabs x <= bpow radix2 128)%R).
    { unfold x. rewrite <- F2R_Zabs. rewrite abs_cond_Zopp. cbn [Z.abs]. unfold F2R. cbn [Fnum Fexp]. replace 128 with (24 + 104) by lia. rewrite bpow_plus.
      apply Rmult_le_compat; [apply IZR_le; lia|apply bpow_ge_0| |apply bpow_le; lia]. change (bpow radix2 24) with (IZR (2 ^ 24)). apply IZR_le. lia. }
    assert (Y : (Rabs (rnd64 x) <= bpow radix2 128)%R).
    { assert (F : rnd64 (bpow radix2 128) = bpow radix2 128).
      { apply round_generic; [apply valid_rnd64|]. apply generic_format_bpow. unfold fexp, SpecFloat.fexp, emin, prec, emax. cbn. lia. }
      apply Rabs_le. apply Rabs_le_inv in X. assert (A : rnd64 (- bpow radix2 128) = (- rnd64 (bpow radix2 128))%R) by apply round_NE_opp. rewrite F in A.
      split; [rewrite <- A|rewrite <- F]; apply rnd64_mono; lra. }
    rewrite Rlt_bool_true in H; [destruct H as [H _]; change (Rabs (SF2R radix2 (SpecFloat.binary_round prec emax s m e)) <= bpow radix2 128)%R; rewrite H; exact Y|].
    apply Rle_lt_trans with (bpow radix2 128); [exact Y|apply bpow_lt; reflexivity]. }
  intros w F. unfold f64_of_f32bits in *.
  assert (M1 : 0 <= (w / 2 ^ 23) mod 256 < 256) by (apply Z.mod_pos_bound; lia). assert (M2 : 0 <= w mod 2 ^ 23 < 2 ^ 23) by (apply Z.mod_pos_bound; lia).
  destruct (Z.eqb_spec ((w / 2 ^ 23) mod 256) 255); [destruct (_ =? 0); discriminate|].
  destruct (Z.eqb_spec ((w / 2 ^ 23) mod 256) 0).
  - destruct (w mod 2 ^ 23) eqn:E; try apply Z. apply G; lia.
  - destruct (w mod 2 ^ 23 + 2 ^ 23) eqn:E; try discriminate. apply G; lia.
Qed.
Lemma f32_product : forall u w, finite64 (f64_of_f32bits u) = true -> finite64 (f64_of_f32bits w) = true -> finite64 (fmul (f64_of_f32bits u) (f64_of_f32bits w)) = true.
Proof.
  intros u w Fu Fw. pose proof (f32_small u Fu) as Su. pose proof (f32_small w Fw) as Sw. destruct (valid_B _ (f32_valid u)) as [a Ea]. destruct (valid_B _ (f32_valid w)) as [c Ec].
  rewrite <- Ea, <- Ec in *. rewrite fmul_B. rewrite finite_B in *. rewrite real_B in *.
  pose proof (Bmult_correct prec emax Hprec Hmax mode_NE a c) as HB. fold rnd64 in HB. rewrite Rlt_bool_true in HB.
  - destruct HB as (_ & HF & _). rewrite HF, Fu, Fw. reflexivity.
  - apply Rle_lt_trans with (bpow radix2 300); [apply round_small|apply bpow_lt; reflexivity]. rewrite Rabs_mult. apply Rle_trans with (bpow radix2 128 * bpow radix2 128)%R.
    + apply Rmult_le_compat; auto using Rabs_pos.
    + rewrite <- bpow_plus. apply bpow_le. lia.
Qed.
Lemma xleaf_f32 : forall nodes c t ids, xdescribes nodes c t ids -> forall id v, In (id, v) (leaves_of (reference fle t)) -> exists w, v = f64_of_f32bits w.
Proof.
  intros nodes c t ids D. induction D as [c n Hn Hl|c n l r il ir Hn Dl IHl Dr IHr]; intros id v H; cbn [reference leaves_of] in H.
  - destruct H as [H|[]]. injection H as <- <-. eauto.
  - apply in_app_or in H. destruct H; eauto.
Qed.
Lemma xg_apart : forall nodes c t ids f a b, xdescribes nodes c t ids -> valid64 a = true -> valid64 b = true -> le64 a b -> splits_apart f a b (reference fle t).
Proof.
  intros nodes c t ids f a b D Va Vb L. destruct (le64_not_nan a b L) as [Na Nb].
  induction D as [c n Hn Hl|c n l r il ir Hn Dl IHl Dr IHr]; cbn [reference splits_apart]; [exact I|]. split; [|auto]. intros _. unfold xg_left. rewrite Na, Nb. intros H.
  apply fle_le64 in H; auto using f32_valid. apply fle_le64; auto using f32_valid. eapply le64_trans; [| | |exact L|exact H]; auto using f32_valid.
Qed.

(** XGBoost, gbtree and dart (whose tree weights must not be negative) *)
Theorem C79_xgboost :
  forall p h m leaf_vectors weights load xts rest eof e up f a b x y nEstimators buf1 buf2 out1 out2,
  xg_file_ok (pl_maxalloc p) h m leaf_vectors weights -> xg_says h m weights load xts ->
  XGEnsembleFromReader p (mkReader (e_xg_file h m leaf_vectors weights ++ rest) eof) load = Ok e ->
  number (f64_of_f32bits (lmBaseScore (mhParam h))) -> (forall i w, weight h weights i = Some w -> number w /\ le64 fzero w) ->
  raised f a b x y -> valid64 a = true -> valid64 b = true ->
  Forall (fun t => features_below (zlen x) (reference fle t)) xts -> Forall (fun t => constrained up f (reference fle t)) xts -> Forall (fun t => number_leaves (reference fle t)) xts ->
  Predict p (EnsembleWithRawPredictions e) x nEstimators buf1 = Ok out1 -> Predict p (EnsembleWithRawPredictions e) y nEstimators buf2 = Ok out2 ->
  forall k, 0 <= k < NRawOutputGroups e -> exists r1 r2, zget out1 k = Some r1 /\ zget out2 k = Some r2 /\ valid64 r1 = true /\ valid64 r2 = true /\ moved up r1 r2.
Proof.
  intros p h m vs ws load xts rest eof e up f a b x y nE b1 b2 o1 o2 Hok Hs E Nb Nw R Va Vb B C N P1 P2 k Hk.
  destruct (xg_file_loads p h m vs ws load xts rest eof Hok Hs) as (trees & wd & E' & FB & LT & LW & GW). rewrite E in E'. injection E' as ->.
  pose proof Hs as [B1 F1 F2 NT RT G IN WT OB EA]. destruct Hok as (_ & (Q1 & _) & _). pose proof Q1 as ([_ I1] & _ & _ & _ & _ & [_ I2] & _). change (2 ^ 31) with 2147483648 in *.
  assert (D : Forall (fun t => exists nodes c ids, xdescribes nodes c t ids) xts).
  { clear - EA. induction EA as [|T t ms xts (_ & _ & _ & ids & Hd & _) EA IH]; constructor; eauto. }
  assert (S : Forall (splits_apart f a b) (map (reference fle) xts)).
  { apply Forall_map. eapply Forall_impl; [|exact D]. cbv beta. intros t (nodes & c & ids & Hd). eapply xg_apart; eauto. apply R. }
  assert (FB' : Forall2 (fun T d => exists ren : Z -> Z, forall z v leaf, walk d z = Some (v, leaf) -> predict p T z = Ok (v, ren leaf)) trees (map (reference fle) xts)).
  { clear - FB. induction FB as [|T t trees xts (ren & _ & _ & B) FB IH]; constructor; [exists ren; auto|exact IH]. }
  assert (O : if up then not_below p trees x y else not_below p trees y x) by (eapply ordered_trees; eauto; apply Forall_map; auto).
  set (mm := mkXgEnsemble trees _ _ _ wd _) in *.
  assert (Fit : forall z, zlen z = zlen x -> weights_fit p mm z).
  { intros z Lz i t w u lu Ht Hw Hp. cbn [mm xgTrees xgWeightDrop] in Ht, Hw. rewrite GW in Hw by (apply zget_range in Ht; lia). destruct (Nw i w Hw) as [W1 W2]. split; [exact W1|]. split; [exact W2|].
    destruct (Forall2_zget _ _ _ _ _ FB' _ _ Ht) as (d & Hd & ren & Ew). rewrite zget_map in Hd. destruct (zget xts i) as [xt|] eqn:Ex; [|discriminate]. injection Hd as <-. apply zget_in in Ex.
    rewrite Forall_forall in B, N, D. destruct (walk_defined _ (zlen x) z (B xt Ex) Lz) as ([u' iu] & Wz). pose proof (Ew _ _ _ Wz) as Eu. assert (u' = u) by congruence. subst u'. apply walk_leaf in Wz.
    destruct (D xt Ex) as (nodes & c & ids & Hd). destruct (N xt Ex _ _ Wz) as [Vu Fu]. destruct (xleaf_f32 _ _ _ _ Hd _ _ Wz) as [u0 ->].
    unfold weight in Hw. destruct (is_dart h).
    - destruct (zget ws i) as [w0|]; [|discriminate]. injection Hw as <-. apply f32_product; [exact Fu|apply W1].
    - injection Hw as <-. rewrite fmul_one; auto. }
  assert (Wr : well_formed (EnsembleWithRawPredictions (mkEnsemble (BXg mm) (if load then TransformLogistic else TransformRaw (gpNumOutputGroup (gmParam m)))))).
  { split; [|split]; [| |reflexivity].
    - change (1 <= gpNumOutputGroup (gmParam m) <= MaxInt). unfold MaxInt, two63. lia.
    - change (zlen trees <= MaxInt). unfold MaxInt, two63. lia. }
  assert (Rw : raw_output (EnsembleWithRawPredictions (mkEnsemble (BXg mm) (if load then TransformLogistic else TransformRaw (gpNumOutputGroup (gmParam m)))))) by (eexists; reflexivity).
  pose proof (Fit x eq_refl) as Fx. assert (Fy : weights_fit p mm y) by (apply Fit; destruct R as [L _]; lia).
  destruct up.
  - destruct (C79_xgboost_scores p _ mm x y nE b1 b2 o1 o2 Wr Rw eq_refl Nb Fx Fy O P1 P2 k Hk) as (r1 & r2 & Z1 & Z2 & Hl & V1 & V2). exists r1, r2. auto.
  - destruct (C79_xgboost_scores p _ mm y x nE b2 b1 o2 o1 Wr Rw eq_refl Nb Fy Fx O P2 P1 k Hk) as (r1 & r2 & Z1 & Z2 & Hl & V1 & V2). exists r2, r1. auto 6.
Qed.
Print Assumptions C79_xgboost.

(** ** Probabilities *)
Lemma logistic_moves : forall p e up x y nE b1 b2 o1 o2, good_exp p -> monotone_exp p -> well_formed e -> eTransform e = TransformLogistic -> NRawOutputGroups e = 1 ->
  Predict p e x nE b1 = Ok o1 -> Predict p e y nE b2 = Ok o2 ->
  (forall raw1 raw2, Predict p (EnsembleWithRawPredictions e) x nE [fzero] = Ok raw1 -> Predict p (EnsembleWithRawPredictions e) y nE [fzero] = Ok raw2 ->
   exists r1 r2, zget raw1 0 = Some r1 /\ zget raw2 0 = Some r2 /\ valid64 r1 = true /\ valid64 r2 = true /\ moved up r1 r2) ->
  exists y1 y2, zget o1 0 = Some y1 /\ zget o2 0 = Some y2 /\ moved up y1 y2.
Proof.
  intros p e up x y nE b1 b2 o1 o2 G M W T N P1 P2 H.
  destruct (C54_raw_view_predicts p e x nE b1 o1 [fzero] W ltac:(intros n X; congruence) P1 ltac:(rewrite N; cbn; lia)) as [w1 Q1].
  destruct (C54_raw_view_predicts p e y nE b2 o2 [fzero] W ltac:(intros n X; congruence) P2 ltac:(rewrite N; cbn; lia)) as [w2 Q2].
  destruct (H w1 w2 Q1 Q2) as (r1 & r2 & Z1 & Z2 & V1 & V2 & Hm). destruct up.
  - destruct (C59_logistic_order p e nE x y b1 b2 o1 o2 _ _ w1 w2 r1 r2 G M W T N P1 P2 Q1 Q2 Z1 Z2 V1 V2 Hm) as (y1 & y2 & A & B & C). exists y1, y2. auto.
  - destruct (C59_logistic_order p e nE y x b2 b1 o2 o1 _ _ w2 w1 r2 r1 G M W T N P2 P1 Q2 Q1 Z2 Z1 V2 V1 Hm) as (y1 & y2 & A & B & C). exists y2, y1. auto.
Qed.

(** the probability of a binary LightGBM model loaded with its transformation *)
Theorem C79_lightgbm_probability :
  forall p eof text rest header kvss max_feature_idx average ds e up f a b x y nEstimators buf1 buf2 out1 out2,
  good_exp p -> monotone_exp p ->
  file_says p eof text rest header kvss 1 max_feature_idx average true TransformLogistic ds -> zlen text <= MaxInt -> zlen ds <= 2 ^ 53 ->
  LGEnsembleFromReader p (mkReader text eof) true = Ok e ->
  raised f a b x y -> Forall (features_below (zlen x)) ds -> Forall (constrained up f) ds -> Forall (splits_apart f a b) ds -> Forall number_leaves ds ->
  Predict p e x nEstimators buf1 = Ok out1 -> Predict p e y nEstimators buf2 = Ok out2 ->
  exists y1 y2, zget out1 0 = Some y1 /\ zget out2 0 = Some y2 /\ moved up y1 y2.
Proof.
  intros p eof text rest header kvss mf avg ds e up f a b x y nE b1 b2 o1 o2 G M H L Ld E R B C S N P1 P2.
  destruct (loaded_wf text p _ true e E eq_refl L) as (W & _). destruct (C28_text_file _ _ _ _ _ _ _ _ _ _ _ _ H) as (e' & E' & Hg & Ht & _).
  assert (e' = e) by congruence. subst e'. eapply (logistic_moves p e up x y nE b1 b2 o1 o2); eauto.
  intros w1 w2 Q1 Q2. eapply (C79_lightgbm_text p eof text rest header kvss 1 mf avg true TransformLogistic ds e up f a b x y); eauto. lia.
Qed.
Print Assumptions C79_lightgbm_probability.

Theorem C79_xgboost_probability :
  forall p h m leaf_vectors weights xts rest eof e up f a b x y nEstimators buf1 buf2 out1 out2,
  good_exp p -> monotone_exp p ->
  xg_file_ok (pl_maxalloc p) h m leaf_vectors weights -> xg_says h m weights true xts ->
  XGEnsembleFromReader p (mkReader (e_xg_file h m leaf_vectors weights ++ rest) eof) true = Ok e -> NRawOutputGroups e = 1 ->
  number (f64_of_f32bits (lmBaseScore (mhParam h))) -> (forall i w, weight h weights i = Some w -> number w /\ le64 fzero w) ->
  raised f a b x y -> valid64 a = true -> valid64 b = true ->
  Forall (fun t => features_below (zlen x) (reference fle t)) xts -> Forall (fun t => constrained up f (reference fle t)) xts -> Forall (fun t => number_leaves (reference fle t)) xts ->
  Predict p e x nEstimators buf1 = Ok out1 -> Predict p e y nEstimators buf2 = Ok out2 ->
  exists y1 y2, zget out1 0 = Some y1 /\ zget out2 0 = Some y2 /\ moved up y1 y2.
Proof.
  intros p h m vs ws xts rest eof e up f a b x y nE b1 b2 o1 o2 G M Hok Hs E G1 Nb Nw R Va Vb B C N P1 P2.
  assert (W : well_formed e /\ eTransform e = TransformLogistic).
  { destruct (xg_file_loads p h m vs ws true xts rest eof Hok Hs) as (trees & wd & E' & FB & LT & LW & GW). rewrite E in E'. injection E' as ->. split; [|reflexivity].
    destruct Hs as [B1 F1 F2 NT RT G0 IN WT OB EA]. destruct Hok as (_ & (Q1 & _) & _). pose proof Q1 as ([_ I1] & _ & _ & _ & _ & [_ I2] & _). change (2 ^ 31) with 2147483648 in *.
    split; [|split]; [| |exact I].
    - change (1 <= gpNumOutputGroup (gmParam m) <= MaxInt). unfold MaxInt, two63. lia.
    - change (zlen trees <= MaxInt). unfold MaxInt, two63. lia. }
  destruct W as [W T]. eapply (logistic_moves p e up x y nE b1 b2 o1 o2); eauto.
  intros w1 w2 Q1 Q2. eapply (C79_xgboost p h m vs ws true xts rest eof e up f a b x y); eauto. lia.
Qed.
Print Assumptions C79_xgboost_probability.

(** ** When splits are apart *)

(** every numerical split, for two values that are not missing: neither NaN, nor zero where zero means missing *)
Theorem C79_numerical_splits : forall m default_left threshold a b,
  valid64 threshold = true -> valid64 a = true -> valid64 b = true -> le64 a b -> ~ is_missing m a -> ~ is_missing m b ->
  numeric_left m default_left threshold b = true -> numeric_left m default_left threshold a = true.
Proof.
  intros m dl thr a b Vt Va Vb L Ma Mb H. destruct (le64_not_nan a b L) as [Na Nb].
  destruct (numeric_left_rule m dl thr a Vt Va) as [_ Ra]. destruct (numeric_left_rule m dl thr b Vt Vb) as [_ Rb]. apply (Rb Mb) in H. apply (Ra Ma).
  unfold nan_to_zero in *. rewrite Na. rewrite Nb in H. eapply le64_trans; [| | |exact L|exact H]; auto.
Qed.
Print Assumptions C79_numerical_splits.

(** ** Linear models: the sign of the weight decides *)
Lemma fmul_ge : forall u v w, number u -> number v -> number w -> le64 w fzero -> finite64 (fmul u w) = true -> finite64 (fmul v w) = true ->
  le64 u v -> le64 (fmul v w) (fmul u w).
Proof.
  intros u v w [Vu Fu] [Vv Fv] [Vw Fw] W Pu Pv H. destruct (valid_B u Vu) as [a <-]. destruct (valid_B v Vv) as [b <-]. destruct (valid_B w Vw) as [c <-].
  rewrite !fmul_B in *. rewrite !finite_B in *. apply le64_B in H; auto.
  assert (C0 : (B2R c <= 0)%R). { change fzero with (B2SF (B754_zero false : B64)) in W. apply le64_B in W; auto. }
  assert (M : forall x : B64, is_finite (Bmult mode_NE x c) = true -> is_finite x = true -> B2R (Bmult mode_NE x c) = rnd64 (B2R x * B2R c)).
  { intros x F Fx. pose proof (Bmult_correct prec emax Hprec Hmax mode_NE x c) as HB. destruct (Rlt_bool _ _) in HB; [apply HB|]. destruct (Bmult mode_NE x c); discriminate. }
  apply le64_B; auto. rewrite !M by auto. apply rnd64_mono. nra.
Qed.
(** the feature values and the products with the weights of group [k] are numbers *)
Definition terms_fit (m : xgLinear) (g k : Z) (x : list f64) : Prop :=
  forall i v w, 0 <= i < xlNumFeature m -> zget x i = Some v -> zget (xlWeights m) (i * g + k) = Some w ->
  number v /\ number (f64_of_f32bits w) /\ finite64 (fmul v (f64_of_f32bits w)) = true.
Theorem C79_gblinear :
  forall p e m (up : bool) f a b x y nEstimators buf1 buf2 out1 out2,
  well_formed e -> raw_output e -> core (eBase e) = BLinear m ->
  0 <= xlNumFeature m -> xlNRawOutputGroups m * (xlNumFeature m + 1) <= MaxInt -> raised f a b x y ->
  Predict p e x nEstimators buf1 = Ok out1 -> Predict p e y nEstimators buf2 = Ok out2 ->
  forall k, 0 <= k < NRawOutputGroups e -> terms_fit m (NRawOutputGroups e) k x -> terms_fit m (NRawOutputGroups e) k y ->
  (forall bias, zget (xlWeights m) (xlNumFeature m * NRawOutputGroups e + k) = Some bias -> number (fadd (xlBaseScore m) (f64_of_f32bits bias))) ->
  (forall w, zget (xlWeights m) (f * NRawOutputGroups e + k) = Some w -> if up then le64 fzero (f64_of_f32bits w) else le64 (f64_of_f32bits w) fzero) ->
  exists r1 r2, zget out1 k = Some r1 /\ zget out2 k = Some r2 /\ moved up r1 r2.
Proof.
  intros p e m up f a b x y nE b1 b2 o1 o2 W R C Nf Mx (L & Ha & Hb & Lab & Ho) P1 P2 k Hk Tx Ty Hbias Hw.
  destruct (C14_gblinear_score _ _ _ _ _ _ _ W R C Nf Mx P1 k Hk) as (bias & t1 & B1 & L1 & T1 & Z1). destruct (C14_gblinear_score _ _ _ _ _ _ _ W R C Nf Mx P2 k Hk) as (bias' & t2 & B2 & L2 & T2 & Z2).
  assert (bias' = bias) by congruence. subst bias'. do 2 eexists. split; [exact Z1|]. split; [exact Z2|]. specialize (Hbias _ B1). set (s := fadd _ _) in *.
  assert (T : forall i u v, zget t1 i = Some u -> zget t2 i = Some v -> number u /\ number v /\ moved up u v).
  { intros i u v Hu Hv. pose proof (zget_range _ _ _ _ Hu) as Ri. destruct (T1 i ltac:(lia)) as (x1 & w1 & X1 & W1 & E1). destruct (T2 i ltac:(lia)) as (y1 & w2 & Y1 & W2 & E2).
    assert (w2 = w1) by congruence. subst w2. destruct (Tx i _ _ ltac:(lia) X1 W1) as (Q1 & Q2 & Q3). destruct (Ty i _ _ ltac:(lia) Y1 W1) as (S1 & _ & S3).
    assert (u = fmul x1 (f64_of_f32bits w1)) by congruence. assert (v = fmul y1 (f64_of_f32bits w1)) by congruence. subst u v.
    assert (A1 : number (fmul x1 (f64_of_f32bits w1))) by (split; [apply fmul_valid; [apply Q1|apply f32_valid]|exact Q3]).
    assert (A2 : number (fmul y1 (f64_of_f32bits w1))) by (split; [apply fmul_valid; [apply S1|apply f32_valid]|exact S3]).
    split; [exact A1|]. split; [exact A2|]. destruct (Z.eq_dec i f) as [->|Hi].
    - assert (x1 = a) by congruence. assert (y1 = b) by congruence. subst x1 y1. specialize (Hw _ W1). unfold moved. destruct up; [apply fmul_le; auto|apply fmul_ge; auto].
    - assert (y1 = x1) by (rewrite (Ho i Hi) in X1; congruence). subst y1. assert (K : le64 (fmul x1 (f64_of_f32bits w1)) (fmul x1 (f64_of_f32bits w1))) by (apply le64_refl; destruct (fmul x1 (f64_of_f32bits w1)); auto; discriminate).
      unfold moved. destruct up; exact K. }
  assert (Ns : valid64 s = true /\ is_nan s = false) by (destruct Hbias as [Vs Fs]; split; [exact Vs|destruct s; auto; discriminate]). destruct Ns as [Vs Ns].
  unfold moved. destruct up.
  - apply (sums_le s t1 t2); auto. apply zip_le; [lia|]. exact T.
  - apply (sums_le s t2 t1); auto. apply zip_le; [lia|]. intros i v u Hv Hu. destruct (T i u v Hu Hv) as (A & B & D). auto.
Qed.
Print Assumptions C79_gblinear.

(** ** scikit-learn: the leaf values are scaled by the learning rate, the prior is added to the first *)

Lemma sk_apart : forall nodes values c t ids f a b, kdescribes nodes values c t ids -> Forall (fun n => valid64 (skThreshold n) = true) nodes ->
  valid64 a = true -> valid64 b = true -> le64 a b -> splits_apart f a b (sk_reference (fun v => v) t).
Proof.
  intros nodes values c t ids f a b D T Va Vb L. destruct (le64_not_nan a b L) as [Na Nb].
  induction D as [c n v Hn Hl Hv|c n l r il ir Hn Dl IHl Dr IHr]; cbn [sk_reference splits_apart]; [exact I|]. split; [|auto]. intros _. unfold sk_left. rewrite Na, Nb. intros H.
  assert (Vt : valid64 (skThreshold n) = true) by (rewrite Forall_forall in T; apply T; eapply zget_in; eauto).
  apply fle_le64 in H; auto. apply fle_le64; auto. eapply le64_trans; [| | |exact L|exact H]; auto.
Qed.
(** the learning rate is not negative, and no contribution of a leaf overflows *)
Definition sk_rate_fits (g : SklearnGradientBoosting) (sts : list sktree) : Prop :=
  number (gbLearningRate g) /\ le64 fzero (gbLearningRate g) /\
  forall t id v, In t sts -> In (id, v) (leaves_of (sk_reference (fun v => v) t)) ->
    number v /\ finite64 (fmul v (gbLearningRate g)) = true /\
    forall k prior, prior_of (gbInit g) k = Some prior -> number prior /\ finite64 (fadd (fmul v (gbLearningRate g)) prior) = true.
Lemma sk_below : forall out n t, sk_features_below n t -> features_below n (sk_reference out t).
Proof. induction t as [|f thr l IHl r IHr]; cbn [sk_features_below sk_reference features_below]; intuition. Qed.
Theorem C79_sklearn :
  forall p o s mu g sts rest eof load e up f a b x y nEstimators buf1 buf2 out1 out2,
  enc p true [] o s mu -> gb_is g o -> sk_says g sts -> sk_fits (pl_maxalloc p) g ->
  SKEnsembleFromReader p (mkReader (s ++ "."%byte :: rest) eof) load = Ok e ->
  raised f a b x y -> NFeatures e <= zlen x -> NRawOutputGroups e <= zlen buf1 -> NRawOutputGroups e <= zlen buf2 ->
  Forall (sk_features_below (zlen x)) sts -> Forall (fun t => constrained up f (sk_reference (fun v => v) t)) sts ->
  Forall (fun t => splits_apart f a b (sk_reference (fun v => v) t)) sts -> sk_rate_fits g sts ->
  Predict p e x nEstimators buf1 = Ok out1 -> Predict p e y nEstimators buf2 = Ok out2 ->
  forall k, 0 <= k < NRawOutputGroups e -> exists r1 r2, zget out1 k = Some r1 /\ zget out2 k = Some r2 /\ moved up r1 r2.
Proof.
  intros p o s mu g sts rest eof load e up f a b x y nE b1 b2 o1 o2 H Hg S F E R Nx L1 L2 B C A (Nr & R0 & Fit) P1 P2 k Hk. pose proof R as (L & Ha & Hb & _).
  destruct (C47_sklearn_file p o s mu g sts rest eof load H Hg S F) as (e' & E' & G & _ & _ & _ & _ & PP). assert (e' = e) by congruence. subst e'. clear E'.
  assert (X0 : x <> []) by (intros ->; apply zget_range in Ha; rewrite zlen_nil in Ha; lia). assert (Y0 : y <> []) by (intros ->; apply zget_range in Hb; rewrite zlen_nil in Hb; lia).
  destruct (PP x nE b1 B X0 Nx ltac:(lia)) as (o1' & P1' & n & U & K1). assert (o1' = o1) by congruence. subst o1'. rewrite L in B, Nx.
  destruct (PP y nE b2 B Y0 Nx ltac:(lia)) as (o2' & P2' & n' & U' & K2). assert (o2' = o2) by congruence. subst o2'.
  rewrite <- (same_used _ _ _ _ U U') in K2. destruct (K1 k ltac:(lia)) as (vs & prior & [M1 T1] & Pr & Z1). destruct (K2 k ltac:(lia)) as (ws & prior' & [M2 T2] & Pr' & Z2).
  assert (prior' = prior) by congruence. subst prior'. do 2 eexists. split; [exact Z1|]. split; [exact Z2|].
  assert (T : Forall2 (fun u v => (number u /\ number v /\ moved up u v) /\ (finite64 (fmul u (gbLearningRate g)) = true /\ finite64 (fmul v (gbLearningRate g)) = true) /\
      number prior /\ finite64 (fadd (fmul u (gbLearningRate g)) prior) = true /\ finite64 (fadd (fmul v (gbLearningRate g)) prior) = true) vs ws).
  { apply zip_le; [lia|]. intros i u v Hu Hv. pose proof (zget_range _ _ _ _ Hu) as Ri. destruct (T1 i ltac:(lia)) as (t & u' & iu & Ht & Wu & Hu'). destruct (T2 i ltac:(lia)) as (t' & v' & iv & Ht' & Wv & Hv').
    assert (t' = t) by congruence. assert (u' = u) by congruence. assert (v' = v) by congruence. subst t' u' v'. apply zget_in in Ht.
    destruct (Fit t iu u Ht (walk_leaf _ _ _ _ Wu)) as (N1 & F1 & Q1). destruct (Fit t iv v Ht (walk_leaf _ _ _ _ Wv)) as (N2 & F2 & Q2). destruct (Q1 _ _ Pr) as [Np G1]. destruct (Q2 _ _ Pr) as [_ G2].
    rewrite Forall_forall in C, A. repeat (split; [solve [auto]|]). split; [|auto]. split; [exact N1|]. split; [exact N2|]. eapply raised_walk; eauto. intros id z I. apply (Fit t id z Ht I). }
  assert (V : forall u, number u -> finite64 (fmul u (gbLearningRate g)) = true -> number (fmul u (gbLearningRate g))) by (intros u [Vu _] Fu; split; [apply fmul_valid; [exact Vu|apply Nr]|exact Fu]).
  assert (V' : forall u, number u -> number prior -> finite64 (fadd (fmul u (gbLearningRate g)) prior) = true -> number (fadd (fmul u (gbLearningRate g)) prior)).
  { intros u [Vu _] [Vp _] Fu. split; [|exact Fu]. apply fadd_valid; [apply fmul_valid; [exact Vu|apply Nr]|exact Vp]. }
  assert (Q : forall u, number u -> valid64 u = true /\ is_nan u = false) by (intros u [Vu Fu]; split; [exact Vu|destruct u; auto; discriminate]).
  assert (Y : forall u, number u -> le64 u u) by (intros u Hu; apply le64_refl; apply Q; exact Hu).
  assert (G1 : forall us zs, Forall2 (fun u v => (number u /\ number v /\ le64 u v) /\ (finite64 (fmul u (gbLearningRate g)) = true /\ finite64 (fmul v (gbLearningRate g)) = true) /\
      number prior /\ finite64 (fadd (fmul u (gbLearningRate g)) prior) = true /\ finite64 (fadd (fmul v (gbLearningRate g)) prior) = true) us zs ->
      le64 (sum_from fzero (sk_terms (gbLearningRate g) prior us)) (sum_from fzero (sk_terms (gbLearningRate g) prior zs))).
  { intros us zs W. apply sums_le; [reflexivity|reflexivity|]. destruct W as [|u v us zs ((N1 & N2 & O1) & (F1 & F2) & Np & F3 & F4) W]; cbn [sk_terms]; constructor.
    - split; [auto|]. split; [auto|]. destruct (Q _ (V u N1 F1)) as [W1 W2]. destruct (Q _ (V v N2 F2)) as [W3 W4]. apply fadd_le; auto. apply fmul_le; auto.
    - clear - V W Nr R0. induction W as [|u v us zs ((N1 & N2 & O1) & (F1 & F2) & _) W IH]; cbn [map]; constructor; auto. split; [auto|]. split; [auto|]. apply fmul_le; auto. }
  destruct up; cbn [moved].
  - apply G1. exact T.
  - apply G1. clear - T. induction T as [|u v us zs ((N1 & N2 & O1) & (F1 & F2) & Np & F3 & F4) W IH]; constructor; auto 10.
Qed.
Print Assumptions C79_sklearn.
