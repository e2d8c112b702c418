(** * C60: how far a raw score is from the real-number formula *)

From Coq Require Import ZArith List Bool String Lia ZifyBool Reals Lra.
From Coq Require Import Floats.SpecFloat.
From Flocq Require Import Core.Core IEEE754.BinarySingleNaN.
From Verif Require Import Go GoFloat GoText Cmd LgTree Transformation Ensembles Leaves Parallel Spec_Predict Spec_Split Spec_Round
  Pf_Go Pf_Cmd Pf_Exec Pf_Leaves Pf_Calls Pf_Rows Pf_Float Pf_Split Pf_Range Pf_Round Pf_Tree Demo Prop_Values.
From Verif Require Pf_PickleDec.
Local Open Scope Z_scope.

(** the float64 values stored in a model are float64 values *)
Definition valid_leaves (trees : list lgTree) : Prop :=
  Forall (fun t => Forall (fun v => valid64 v = true) (tLeafValues t)) trees.

Lemma outputs_valid : forall p trees g k n fvals vs, valid_leaves trees -> tree_outputs p trees g k n fvals vs ->
  Forall (fun v => valid64 v = true) vs.
Proof.
  intros p trees g k n fv vs Hval [Hl Ht]. apply Forall_forall. intros v Hv. apply in_zget in Hv. destruct Hv as [i Hi].
  destruct (Ht i) as (t & v' & leaf & Hz' & Hp & Hv'). { apply zget_range in Hi. lia. }
  assert (v' = v) by congruence. subst v'. unfold valid_leaves in Hval.
  rewrite Forall_forall in Hval. specialize (Hval t (zget_in _ _ _ _ Hz')). rewrite Forall_forall in Hval.
  apply Hval. eapply predict_leaf_in; eauto.
Qed.

Lemma binary_round_valid : forall s m e, valid64 (SpecFloat.binary_round 53 1024 s m e) = true.
Proof.
  intros s m e. unfold valid64. pose proof (binary_round_correct prec emax Hprec Hmax mode_NE s m e) as H.
  rewrite binary_round_equiv. apply H.
Qed.
Lemma f32_valid : forall w, valid64 (f64_of_f32bits w) = true.
Proof.
  intros w. unfold f64_of_f32bits. destruct (_ =? 255); [destruct (_ =? 0); reflexivity|].
  destruct (_ =? 0); destruct (_ : Z); try reflexivity; apply binary_round_valid.
Qed.

(** ** LightGBM: the sum of [n] leaf values *)
Theorem C60_lightgbm_score :
  forall p e m fvals nEstimators predictions out,
  well_formed e -> raw_output e -> core (eBase e) = BLg m -> lgAverageOutput m = false -> valid_leaves (lgTrees m) ->
  Predict p e fvals nEstimators predictions = Ok out ->
  exists n, used_estimators e nEstimators n /\
  forall k, 0 <= k < NRawOutputGroups e -> exists vs y,
    tree_outputs p (lgTrees m) (NRawOutputGroups e) k n fvals vs /\ zget out k = Some y /\
    (finite64 y = true ->
     (Rabs (real y - Rsum (map real vs)) <= growth (Z.to_nat n) * Rsum (map Rabs (map real vs)))%R).
Proof.
  intros p e m fv nE preds out W R C A V H.
  destruct (C11_raw_score_is_plain_sum p e m fv nE preds out W R C A V H) as (n & U & K). exists n. split; [exact U|].
  intros k Hk. destruct (K k Hk) as (vs & T & Z). exists vs; eexists. split; [exact T|]. split; [exact Z|]. intros F.
  destruct (sum_error vs fzero eq_refl (outputs_valid _ _ _ _ _ _ _ V T) F) as (_ & _ & B).
  replace (List.length vs) with (Z.to_nat n) in B by (destruct T as [<- _]; unfold zlen; lia).
  replace (real fzero) with 0%R in B by reflexivity. rewrite Rabs_R0, !Rplus_0_l in B. exact B.
Qed.
Print Assumptions C60_lightgbm_score.

(** ** Random forests: the average *)
Lemma inverse_error : forall n, 1 <= n <= 2 ^ 53 ->
  valid64 (fdiv fone (f64_of_Z n)) = true /\
  exists eps, (Rabs eps <= unit_roundoff)%R /\ real (fdiv fone (f64_of_Z n)) = (/ IZR n * (1 + eps))%R.
Proof.
  intros n Hn. split; [apply fdiv_valid; [reflexivity|apply f64_of_Z_valid]|].
  destruct (of_Z_exact n) as (b & Eb & Rb & Fb); [lia|]. destruct one_B as (o & Eo & Ro & Fo & So).
  rewrite Eb, <- Eo, fdiv_B, real_B. assert (N1 : (1 <= IZR n)%R) by (apply (IZR_le 1); lia).
  pose proof (Bdiv_correct prec emax Hprec Hmax mode_NE o b ltac:(lra)) as HB. rewrite Ro, Rb in HB.
  assert (N2 : (IZR n <= bpow radix2 53)%R) by (change (bpow radix2 53) with (IZR (2 ^ 53)); apply IZR_le; lia).
  assert (Q : (0 <= 1 / IZR n <= 1)%R).
  { split; [apply Rmult_le_pos; [lra|apply Rlt_le, Rinv_0_lt_compat; lra]|]. unfold Rdiv. rewrite Rmult_1_l. rewrite <- Rinv_1. apply Rinv_le; lra. }
  assert (Q' : (0 <= rnd64 (1 / IZR n) <= 1)%R) by (split; [rewrite <- rnd64_0|rewrite <- rnd64_1 at 2]; apply rnd64_mono; lra).
  rewrite Rlt_bool_true in HB.
  2: { rewrite Rabs_pos_eq by lra. apply Rle_lt_trans with 1%R; [lra|]. change 1%R with (bpow radix2 0). apply bpow_lt. reflexivity. }
  destruct HB as (HR & _ & _). rewrite HR.
  destruct (Relative.relative_error_N_FLT_ex radix2 (3 - emax - prec) prec Hprec (fun x => negb (Z.even x)) (1 / IZR n)) as (eps & Be & E).
  - rewrite Rabs_pos_eq by lra. unfold Rdiv. rewrite Rmult_1_l. apply Rle_trans with (/ bpow radix2 53)%R; [|apply Rinv_le; lra].
    rewrite <- bpow_opp. apply bpow_le. unfold emax, prec. lia.
  - exists eps. split.
    + eapply Rle_trans; [exact Be|]. unfold unit_roundoff. change (/ 2)%R with (bpow radix2 (-1)). rewrite <- bpow_plus. apply Rle_refl.
    + etransitivity; [exact E|]. unfold Rdiv. rewrite Rmult_1_l. reflexivity.
Qed.

Lemma Rsum_scale : forall c l, Rsum (map (fun x => x * c)%R l) = (Rsum l * c)%R.
Proof. induction l as [|x l IH]; simpl; [ring|]. rewrite IH. ring. Qed.
Lemma Rsum_triangle : forall l, (Rabs (Rsum l) <= Rsum (map Rabs l))%R.
Proof. induction l as [|x l IH]; simpl; [rewrite Rabs_R0; lra|]. eapply Rle_trans; [apply Rabs_triang|]. lra. Qed.

Theorem C60_random_forest_score :
  forall p e m fvals nEstimators predictions out,
  well_formed e -> raw_output e -> core (eBase e) = BLg m -> lgAverageOutput m = true -> valid_leaves (lgTrees m) ->
  Predict p e fvals nEstimators predictions = Ok out ->
  exists n, used_estimators e nEstimators n /\
  forall k, 0 <= k < NRawOutputGroups e -> exists vs y,
    tree_outputs p (lgTrees m) (NRawOutputGroups e) k n fvals vs /\ zget out k = Some y /\
    (1 <= n <= 2 ^ 53 -> finite64 y = true ->
     (Rabs (real y - Rsum (map real vs) / IZR n) <=
        growth (Z.to_nat n + 2) * (Rsum (map Rabs (map real vs)) / IZR n) +
        (1 + growth (Z.to_nat n)) * (IZR n * half_tiny))%R).
Proof.
  intros p e m fv nE preds out W R C A V H.
  destruct (C12_average_output p e m fv nE preds out W R C A H) as (n & U & K). exists n. split; [exact U|].
  intros k Hk. destruct (K k Hk) as (vs & T & Z). exists vs; eexists. split; [exact T|]. split; [exact Z|]. intros N F.
  destruct (inverse_error n N) as (Vw & eps & He & Ew). set (w := fdiv fone (f64_of_Z n)) in *.
  pose proof (outputs_valid _ _ _ _ _ _ _ V T) as Vv.
  set (ab := map (fun v => (v, w)) vs).
  assert (E1 : map (fun v => fmul v w) vs = products ab) by (unfold products, ab; rewrite map_map; reflexivity). rewrite E1 in *.
  assert (E2 : exact_products ab = map (fun x => (x * real w)%R) (map real vs)) by (unfold exact_products, ab; rewrite !map_map; reflexivity).
  assert (Vab : Forall (fun p => valid64 (fst p) = true /\ valid64 (snd p) = true) ab).
  { unfold ab. rewrite Forall_map. eapply Forall_impl; [|exact Vv]. intros v Hv. auto. }
  pose proof (sum_products_error ab fzero eq_refl Vab F) as B. cbv zeta in B.
  replace (List.length ab) with (Z.to_nat n) in B by (unfold ab; rewrite map_length; destruct T as [<- _]; unfold zlen; lia).
  replace (real fzero) with 0%R in B by reflexivity. rewrite Rabs_R0, !Rplus_0_l in B.
  rewrite INR_IZR_INZ, Z2Nat.id in B by lia. rewrite E2 in B. rewrite Rsum_scale in B.
  assert (Pw : (0 <= real w)%R).
  { rewrite Ew. apply Rmult_le_pos; [apply Rlt_le, Rinv_0_lt_compat, (IZR_lt 0); lia|]. pose proof (Rabs_def2 (- eps) 1).
    assert (Rabs eps < 1)%R by (eapply Rle_lt_trans; [exact He|]; change 1%R with (bpow radix2 0); apply bpow_lt; reflexivity).
    apply Rabs_def2 in H1. lra. }
  rewrite map_map in B. rewrite (map_ext (fun x => Rabs (x * real w)) (fun x => (Rabs x * real w)%R)) in B.
  2: { intros x. rewrite Rabs_mult, (Rabs_pos_eq (real w)) by exact Pw. reflexivity. }
  rewrite <- (map_map Rabs (fun x => (x * real w)%R)), Rsum_scale in B.
  replace (Z.to_nat n + 2)%nat with (S (S (Z.to_nat n))) by lia. rewrite (growth_S (S _)).
  set (g := growth (S (Z.to_nat n))) in *. assert (G : (0 <= g)%R) by apply growth_nonneg.
  set (S0 := Rsum (map real vs)) in *. set (A0 := Rsum (map Rabs (map real vs))) in *.
  assert (AS : (Rabs S0 <= A0)%R) by apply Rsum_triangle.
  set (c := ((1 + growth (Z.to_nat n)) * (IZR n * half_tiny))%R) in *.
  set (y := real (sum_from fzero (products ab))) in *. pose proof u_pos.
  assert (I : (0 < / IZR n)%R) by (apply Rinv_0_lt_compat, (IZR_lt 0); lia). unfold Rdiv. set (i := (/ IZR n)%R) in *.
  replace (y - S0 * i)%R with ((y - S0 * real w) + S0 * (i * eps))%R by (rewrite Ew; ring).
  eapply Rle_trans; [apply Rabs_triang|].
  assert (B2 : (Rabs (S0 * (i * eps)) <= u * (A0 * i))%R).
  { rewrite !Rabs_mult, (Rabs_pos_eq i) by lra. replace (u * (A0 * i))%R with (A0 * (i * u))%R by ring.
    apply Rmult_le_compat; auto using Rabs_pos; [|apply Rmult_le_compat_l; lra]. apply Rmult_le_pos; [lra|apply Rabs_pos]. }
  assert (B3 : (g * (A0 * real w) <= g * (A0 * i * (1 + u)))%R).
  { apply Rmult_le_compat_l; [exact G|]. rewrite Rmult_assoc. apply Rmult_le_compat_l; [unfold A0; apply Rsum_abs_nonneg|]. rewrite Ew.
    apply Rmult_le_compat_l; [lra|]. apply Rplus_le_compat_l. eapply Rle_trans; [apply Rle_abs|exact He]. }
  replace ((g * (1 + u) + u) * (A0 * i) + c)%R with (g * (A0 * i * (1 + u)) + c + u * (A0 * i))%R by ring. lra.
Qed.
Print Assumptions C60_random_forest_score.

(** ** XGBoost trees: base score plus weighted leaf values *)
Theorem C60_xgboost_score :
  forall p e m fvals nEstimators predictions out,
  well_formed e -> raw_output e -> core (eBase e) = BXg m -> valid_leaves (xgTrees m) ->
  valid64 (xgBaseScore m) = true -> Forall (fun w => valid64 w = true) (xgWeightDrop m) ->
  Predict p e fvals nEstimators predictions = Ok out ->
  exists n, used_estimators e nEstimators n /\
  forall k, 0 <= k < NRawOutputGroups e -> exists vs ws y,
    tree_outputs p (xgTrees m) (NRawOutputGroups e) k n fvals vs /\
    zlen ws = n /\
    (forall i, 0 <= i < n -> zget ws i = zget (xgWeightDrop m) (i * NRawOutputGroups e + k)) /\
    zget out k = Some y /\
    (finite64 y = true ->
     let exact := map (fun vw => (real (fst vw) * real (snd vw))%R) (combine vs ws) in
     (Rabs (real y - (real (xgBaseScore m) + Rsum exact)) <=
        growth (Z.to_nat n + 1) * (Rabs (real (xgBaseScore m)) + Rsum (map Rabs exact)) +
        (1 + growth (Z.to_nat n)) * (IZR n * half_tiny))%R).
Proof.
  intros p e m fv nE preds out W R C V Vb Vw H.
  destruct (C13_xgboost_score p e m fv nE preds out W R C H) as (n & U & K). exists n. split; [exact U|].
  intros k Hk. destruct (K k Hk) as (vs & ws & T & Lw & Hw & Z). exists vs, ws; eexists. split; [exact T|]. split; [exact Lw|]. split; [exact Hw|].
  split; [exact Z|]. intros F exact. fold (products (combine vs ws)) in F |- *.
  pose proof (outputs_valid _ _ _ _ _ _ _ V T) as Vv. destruct T as [Lv _].
  assert (Vws : Forall (fun w => valid64 w = true) ws).
  { apply Forall_forall. intros w Iw. apply in_zget in Iw. destruct Iw as [i Hi]. pose proof (zget_range _ _ _ _ Hi). rewrite Hw in Hi by lia.
    rewrite Forall_forall in Vw. apply Vw. eapply zget_in. exact Hi. }
  assert (Vab : Forall (fun p => valid64 (fst p) = true /\ valid64 (snd p) = true) (combine vs ws)).
  { apply Forall_forall. intros [a b] I. rewrite Forall_forall in Vv, Vws. split; [apply Vv; eapply in_combine_l; exact I|apply Vws; eapply in_combine_r; exact I]. }
  pose proof (sum_products_error (combine vs ws) _ Vb Vab F) as B. cbv zeta in B.
  assert (L : List.length (combine vs ws) = Z.to_nat n) by (rewrite combine_length; unfold zlen in *; lia). rewrite L in B.
  assert (0 <= n) by (rewrite <- Lw; unfold zlen; lia). rewrite INR_IZR_INZ, Z2Nat.id in B by lia.
  replace (Z.to_nat n + 1)%nat with (S (Z.to_nat n)) by lia. exact B.
Qed.
Print Assumptions C60_xgboost_score.

(** ** gblinear: base score plus bias plus weighted features *)
Theorem C60_gblinear_score :
  forall p e m fvals nEstimators predictions out,
  well_formed e -> raw_output e -> core (eBase e) = BLinear m ->
  0 <= xlNumFeature m -> xlNRawOutputGroups m * (xlNumFeature m + 1) <= MaxInt ->
  valid64 (xlBaseScore m) = true -> Forall (fun x => valid64 x = true) fvals ->
  Predict p e fvals nEstimators predictions = Ok out ->
  forall k, 0 <= k < NRawOutputGroups e -> exists bias xs ws y,
    zget (xlWeights m) (xlNumFeature m * NRawOutputGroups e + k) = Some bias /\
    zlen xs = xlNumFeature m /\ zlen ws = xlNumFeature m /\
    (forall i, 0 <= i < xlNumFeature m -> zget xs i = zget fvals i /\ zget ws i = zget (xlWeights m) (i * NRawOutputGroups e + k)) /\
    zget out k = Some y /\
    (finite64 y = true ->
     let b := real (f64_of_f32bits bias) in
     let exact := map (fun xw => (real (fst xw) * real (f64_of_f32bits (snd xw)))%R) (combine xs ws) in
     (Rabs (real y - (real (xlBaseScore m) + b + Rsum exact)) <=
        growth (Z.to_nat (xlNumFeature m) + 2) * (Rabs (real (xlBaseScore m)) + Rabs b + Rsum (map Rabs exact)) +
        (1 + growth (Z.to_nat (xlNumFeature m) + 1)) * ((IZR (xlNumFeature m) + 1) * half_tiny))%R).
Proof.
  intros p e m fv nE preds out W R C Nf Mx Vb Vf H k Hk.
  destruct (C14_gblinear_score p e m fv nE preds out W R C Nf Mx H k Hk) as (bias & terms & Zb & Lt & Ht & Z).
  assert (X : exists xs ws, zlen xs = xlNumFeature m /\ zlen ws = xlNumFeature m /\
    (forall i, 0 <= i < xlNumFeature m -> zget xs i = zget fv i /\ zget ws i = zget (xlWeights m) (i * NRawOutputGroups e + k)) /\
    terms = map (fun xw => fmul (fst xw) (f64_of_f32bits (snd xw))) (combine xs ws)).
  { clear Z H. remember (xlNumFeature m) as nf. clear Heqnf Mx Zb. revert nf Nf Lt Ht. induction terms as [|t terms IH] using rev_ind; intros nf Nf Lt Ht.
    - exists [], []. cbn [zlen List.length] in Lt. unfold zlen in *. cbn [List.length] in *. split; [lia|]. split; [lia|]. split; [intros; lia|]. reflexivity.
    - rewrite zlen_app in Lt. replace (zlen [t]) with 1 in Lt by reflexivity. pose proof (zlen_nonneg _ terms) as P0.
      destruct (IH (nf - 1)) as (xs & ws & L1 & L2 & G & E); [lia|lia| |].
      { intros i Hi. destruct (Ht i ltac:(lia)) as (x & w & A1 & A2 & A3). exists x, w. split; [exact A1|]. split; [exact A2|].
        rewrite zget_app_l in A3 by lia. exact A3. }
      destruct (Ht (nf - 1) ltac:(lia)) as (x & w & A1 & A2 & A3). exists (xs ++ [x]), (ws ++ [w]).
      rewrite !zlen_app. replace (zlen [x]) with 1 by reflexivity. replace (zlen [w]) with 1 by reflexivity. split; [lia|]. split; [lia|]. split.
      + intros i Hi. destruct (Z.eq_dec i (nf - 1)) as [->|Ne].
        * rewrite !zget_app_r by lia. rewrite L1, L2, Z.sub_diag. split; [rewrite A1|rewrite A2]; reflexivity.
        * rewrite !zget_app_l by lia. apply G. lia.
      + rewrite Pf_PickleDec.combine_app by (unfold zlen in *; lia). rewrite map_app, <- E. f_equal. cbn [combine map fst snd].
        replace (nf - 1) with (zlen terms) in A3 by lia. rewrite zget_app_r, Z.sub_diag in A3 by lia. change (zget [t] 0) with (Some t) in A3. congruence. }
  destruct X as (xs & ws & L1 & L2 & G & E). exists bias, xs, ws; eexists. split; [exact Zb|]. split; [exact L1|]. split; [exact L2|]. split; [exact G|].
  split; [exact Z|]. intros F b exact.
  set (ab := (f64_of_f32bits bias, fone) :: map (fun xw => (fst xw, f64_of_f32bits (snd xw))) (combine xs ws)).
  assert (Es : sum_from (fadd (xlBaseScore m) (f64_of_f32bits bias)) terms = sum_from (xlBaseScore m) (products ab)).
  { unfold ab, products. cbn [map fst snd]. rewrite fmul_one by apply f32_valid. rewrite map_map. cbn [fst snd]. rewrite E. reflexivity. }
  rewrite Es in *.
  assert (Vx : Forall (fun x => valid64 x = true) xs).
  { apply Forall_forall. intros x Ix. apply in_zget in Ix. destruct Ix as [i Hi]. pose proof (zget_range _ _ _ _ Hi). destruct (G i ltac:(lia)) as [G1 _]. rewrite G1 in Hi.
    rewrite Forall_forall in Vf. apply Vf. eapply zget_in. exact Hi. }
  assert (Vab : Forall (fun p => valid64 (fst p) = true /\ valid64 (snd p) = true) ab).
  { unfold ab. constructor; [split; [apply f32_valid|reflexivity]|]. rewrite Forall_map. apply Forall_forall. intros [x w] I. cbn [fst snd]. split; [|apply f32_valid].
    rewrite Forall_forall in Vx. apply Vx. eapply in_combine_l. exact I. }
  pose proof (sum_products_error ab _ Vb Vab F) as B. cbv zeta in B.
  assert (L : List.length ab = (Z.to_nat (xlNumFeature m) + 1)%nat) by (unfold ab; cbn [List.length]; rewrite map_length, combine_length; unfold zlen in *; lia).
  rewrite L in B. rewrite plus_INR, INR_IZR_INZ, Z2Nat.id in B by lia. change (INR 1) with 1%R in B.
  replace (S (Z.to_nat (xlNumFeature m) + 1)) with (Z.to_nat (xlNumFeature m) + 2)%nat in B by lia.
  assert (Ee : exact_products ab = b :: exact).
  { unfold exact_products, ab, exact, b. cbn [map fst snd]. rewrite map_map. f_equal. destruct one_B as (o & Eo & Ro & _). rewrite <- Eo, real_B, Ro, Rmult_1_r. reflexivity. }
  rewrite Ee in B. cbn [map Rsum] in B. rewrite <- !Rplus_assoc in B. exact B.
Qed.
Print Assumptions C60_gblinear_score.

(** what the growth factor is: about [n] times 2^-53 *)
Theorem C60_growth : forall n, (INR n * unit_roundoff < 1)%R -> (growth n <= INR n * unit_roundoff / (1 - INR n * unit_roundoff))%R.
Proof. exact growth_bound. Qed.

(** ** Concrete cases: the hypotheses hold for the models of Demo.v, and errors do occur *)
Definition big_leaf : lgEnsemble :=
  mkLgEnsemble [stump 0 (fint 1) (fint (2 ^ 53)) (fint 20); stump 0 (fint 1) (fint 1) (fint 7)] 0 1 (bs "lightgbm.gbdt") false.
Definition big_model : Ensemble := mkEnsemble (BLg big_leaf) (TransformRaw 1).

Example rounding_case :
  well_formed big_model /\ raw_output big_model /\ valid_leaves (lgTrees big_leaf) /\
  Predict amd64 big_model [fzero] 0 (zeros 1) = Ok [fint (2 ^ 53)].
Proof.
  split; [split; [vm_compute; split; discriminate|]; split; [vm_compute; discriminate|reflexivity]|]. split; [eexists; reflexivity|].
  split; [repeat constructor|]. vm_compute. reflexivity.
Qed.

(** the float64 score is not the exact sum 2^53 + 1 *)
Theorem C60_inexact_refuted : exists p e m fvals out y vs,
  well_formed e /\ raw_output e /\ core (eBase e) = BLg m /\ lgAverageOutput m = false /\ valid_leaves (lgTrees m) /\
  Predict p e fvals 0 (zeros 1) = Ok out /\ tree_outputs p (lgTrees m) 1 0 2 fvals vs /\ zget out 0 = Some y /\ finite64 y = true /\
  real y <> Rsum (map real vs).
Proof.
  destruct rounding_case as (W & R & V & P).
  exists amd64, big_model, big_leaf, [fzero], [fint (2 ^ 53)], (fint (2 ^ 53)), [fint (2 ^ 53); fint 1].
  split; [exact W|]. split; [exact R|]. split; [reflexivity|]. split; [reflexivity|]. split; [exact V|]. split; [exact P|]. split.
  - split; [reflexivity|]. intros i Hi. assert (i = 0 \/ i = 1) as [-> | ->] by lia; do 3 eexists; (split; [reflexivity|]); (split; [vm_compute; reflexivity|]); reflexivity.
  - split; [reflexivity|]. split; [reflexivity|].
    destruct (of_Z_exact (2 ^ 53)) as (b & Eb & Rb & _); [lia|]. destruct (of_Z_exact 1) as (o & Eo & Ro & _); [lia|].
    unfold fint. cbn [map Rsum]. rewrite Eb, Eo, !real_B, Rb, Ro. lra.
Qed.
Print Assumptions C60_inexact_refuted.

Example xgboost_rounding_case :
  valid_leaves (xgTrees demo_xg) /\ valid64 (xgBaseScore demo_xg) = true /\ Forall (fun w => valid64 w = true) (xgWeightDrop demo_xg) /\
  Predict amd64 (mkEnsemble (BXg demo_xg) (TransformRaw 1)) (map fint [1; 2]) 0 (zeros 1) = Ok [fint 17].
Proof. split; [repeat constructor|]. split; [reflexivity|]. split; [repeat constructor|]. vm_compute. reflexivity. Qed.
Example gblinear_rounding_case :
  valid64 (xlBaseScore demo_linear) = true /\
  Predict amd64 demo_lin (map fint [1; 2]) 0 (zeros 2) = Ok (map fint [13; 17]).
Proof. split; [reflexivity|]. vm_compute. reflexivity. Qed.
