(** * C88: fused multiply-add *)

From Coq Require Import ZArith List Bool Lia String SpecFloat Reals Lra.
From Verif Require Import Go GoFloat GoText Cmd UtilMath LgTree Transformation Ensembles Leaves Fused Spec_Predict Spec_Split Spec_Round Spec_Fused
  Demo Pf_Go Pf_Cmd Pf_Exec Pf_Leaves Pf_Calls Pf_Rows Pf_Float Pf_Tree Pf_Range Pf_Round Prop_Values Prop_Round Pf_Fused Pf_FusedSum.
From Flocq Require Import Core.Core IEEE754.BinarySingleNaN.
Local Open Scope Z_scope.

(** ** Nothing changes where the products are exact *)

Lemma predict_valid : forall p trees ID fvals t v leaf, valid_trees trees -> at_ trees ID = Ok t -> predict p t fvals = Ok (v, leaf) -> valid64 v = true.
Proof.
  intros p trees ID fvals t v leaf V A P. apply at_ok in A. unfold valid_trees in V. rewrite Forall_forall in V. specialize (V t (zget_in _ _ _ _ A)).
  rewrite Forall_forall in V. apply V. eapply predict_leaf_in; eauto.
Qed.

Lemma plain_calm : forall p e fvals n s, plain_products e fvals -> Forall calm_cmd (b_fused p (eBase e) fvals n s).
Proof.
  intros p [b t] fvals n s. unfold plain_products. cbn [eBase]. clear t. induction b as [m|m|m|b IH t]; cbn [core b_fused]; [| | |exact IH].
  - intros [A V]. unfold lg_fused. rewrite A. apply Forall_app. split.
    + apply Forall_map. apply Forall_forall. intros k _. exact fzero_valid.
    + apply Forall_flat_map. apply Forall_forall. intros i _. apply Forall_map. apply Forall_forall. intros k _.
      destruct (at_ (lgTrees m) _) as [t|?|?|] eqn:T; cbn [bind fcmd_of calm_cmd]; auto.
      destruct (predict p t fvals) as [[v leaf]|?|?|] eqn:P; cbn [bind fcmd_of calm_cmd]; auto. cbn [fst].
      pose proof (predict_valid _ _ _ _ _ _ _ V T P). auto using fone_valid, exact_one.
  - intros (W & B & V). unfold xg_fused. apply Forall_app. split.
    + apply Forall_map. apply Forall_forall. intros k _. exact B.
    + apply Forall_flat_map. apply Forall_forall. intros i _. apply Forall_map. apply Forall_forall. intros k _. cbv zeta.
      destruct (at_ (xgTrees m) _) as [t|?|?|] eqn:T; cbn [bind fcmd_of calm_cmd]; auto.
      destruct (predict p t fvals) as [[v leaf]|?|?|] eqn:P; cbn [bind fcmd_of calm_cmd]; auto.
      destruct (at_ (xgWeightDrop m) _) as [w|?|?|] eqn:Ew; cbn [bind fcmd_of calm_cmd]; auto. cbn [fst snd].
      apply at_ok in Ew. rewrite Forall_forall in W. rewrite (W w (zget_in _ _ _ _ Ew)).
      pose proof (predict_valid _ _ _ _ _ _ _ V T P). auto using fone_valid, exact_one.
  - intros (B & X). unfold xl_fused. apply Forall_flat_map. apply Forall_forall. intros k _. apply Forall_cons.
    + destruct (at_ (xlWeights m) _) as [w|?|?|]; cbn [fcmd_of calm_cmd]; auto. apply fadd_valid; auto using f32_valid.
    + apply Forall_map. apply Forall_forall. intros i _. destruct (at_ fvals i) as [x|?|?|] eqn:Ex; cbn [bind fcmd_of calm_cmd]; auto.
      destruct (at_ (xlWeights m) _) as [w|?|?|]; cbn [bind fcmd_of calm_cmd]; auto. cbn [fst snd].
      apply at_ok in Ex. rewrite Forall_forall in X. specialize (X x (zget_in _ _ _ _ Ex)). auto using small_valid, f32_valid, exact_small.
Qed.

(** A LightGBM model that is not a random forest, an XGBoost model whose trees have weight one, and
    a linear model on small integers: whichever additions the compiler fuses, every output is the
    same, bit for bit *)
Theorem C88_unchanged : forall fuse p e fvals nEstimators predictions,
  plain_products e fvals -> Forall (fun v => valid64 v = true) predictions ->
  Predict_fused fuse p e fvals nEstimators predictions = Predict p e fvals nEstimators predictions.
Proof.
  intros fuse p e fvals nE preds P V. unfold Predict_fused, Predict. cbv zeta.
  destruct (zlen preds <? _); [reflexivity|]. destruct (zlen fvals <? _); [reflexivity|].
  destruct (b_adjustNEstimators (eBase e) nE) as [n|?|?|]; cbn [bind]; try reflexivity. destruct (checkNEstimators e n); cbn [bind]; try reflexivity.
  unfold predictInnerAndTransform_fused, predictInnerAndTransform.
  assert (F : forall m, Forall (fun v => valid64 v = true) m -> fexec fuse (b_fused p (eBase e) fvals n 0) m = exec (b_predictInner p (eBase e) fvals n 0) m).
  { intros m Vm. rewrite fexec_plain; [|apply plain_calm; exact P|exact Vm]. rewrite plain_fused. reflexivity. }
  destruct (Type_t (eTransform e) =? TypeRaw); [apply F; exact V|]. destruct (Type_t (eTransform e) =? TypeLeafIndex); [reflexivity|].
  destruct (make_f64 p (NRawOutputGroups e)) as [raw|?|?|] eqn:M; cbn [bind cmds_of]; try reflexivity.
  rewrite F.
  2: { unfold make_f64 in M. destruct (_ || _); [discriminate|]. injection M as <-. apply Forall_forall. intros x Hx. apply repeat_spec in Hx. subst x. reflexivity. }
  reflexivity.
Qed.
Print Assumptions C88_unchanged.

(** ** Fused multiply-add is x*y + z rounded once *)
Theorem C88_fma : forall x y z, valid64 x = true -> valid64 y = true -> valid64 z = true -> finite64 (ffma x y z) = true ->
  real (ffma x y z) = round radix2 (SpecFloat.fexp 53 1024) ZnearestE (real x * real y + real z)%R.
Proof. intros x y z Vx Vy Vz F. apply (ffma_finite x y z Vx Vy Vz F). Qed.
Print Assumptions C88_fma.

(** ** Where results may change, they obey the same bounds *)
Lemma fused_used : forall fuse p e fv nE preds out, well_formed e -> raw_output e -> Predict_fused fuse p e fv nE preds = Ok out ->
  exists n, used_estimators e nE n /\ 0 <= n /\ fexec fuse (b_fused p (core (eBase e)) fv n 0) preds = Ok out.
Proof.
  intros fuse p e fv nE preds out Hwf [kt Hraw] H. unfold Predict_fused in H. destruct (zlen preds <? _); [discriminate|]. destruct (zlen fv <? _); [discriminate|].
  apply bind_ok in H. destruct H as (n & Ha & H). apply bind_ok in H. destruct H as (z & _ & H). clear z.
  destruct (wf_adjust e nE Hwf) as (k & Hk & Ha').
  destruct (wf_NEst e Hwf) as (k1 & Hk1 & Hp & _). assert (k1 = k) by congruence. subst k1.
  rewrite Ha' in Ha. injection Ha as <-.
  exists (if (0 <? nE) && (nE <? k) then nE else k). split; [|split].
  - exists k. split; auto. destruct ((0 <? nE) && (nE <? k)) eqn:Eb; [left|right]; split; auto; lia.
  - destruct ((0 <? nE) && (nE <? k)) eqn:Eb; lia.
  - unfold predictInnerAndTransform_fused in H. rewrite Hraw in H. cbn in H. rewrite <- H.
    generalize (if (0 <? nE) && (nE <? k) then nE else k). intros n. f_equal. clear. induction (eBase e) as [m|m|m|b IH t]; try reflexivity. exact IH.
Qed.

Lemma core_groups : forall e, NRawOutputGroups e = b_NRawOutputGroups (core (eBase e)).
Proof. intros e. unfold NRawOutputGroups. apply core_NRaw. Qed.

Theorem C88_random_forest_score :
  forall fuse p e m fvals nEstimators predictions out,
  well_formed e -> raw_output e -> core (eBase e) = BLg m -> lgAverageOutput m = true -> valid_leaves (lgTrees m) ->
  Predict_fused fuse p e fvals nEstimators predictions = Ok out ->
  exists n, used_estimators e nEstimators n /\
  forall k, 0 <= k < NRawOutputGroups e -> exists vs y,
    tree_outputs p (lgTrees m) (NRawOutputGroups e) k n fvals vs /\ zget out k = Some y /\
    (1 <= n <= 2 ^ 53 -> finite64 y = true ->
     (Rabs (real y - Rsum (map real vs) / IZR n) <=
        growth (Z.to_nat n + 2) * (Rsum (map Rabs (map real vs)) / IZR n) +
        (1 + growth (Z.to_nat n)) * (IZR n * half_tiny))%R).
Proof.
  intros fuse p e m fv nE preds out W R C A V H.
  destruct (fused_used fuse p e fv nE preds out W R H) as (n & U & Hn & X). exists n. split; [exact U|].
  rewrite core_groups, C in *. cbn [b_fused b_NRawOutputGroups] in *. intros k Hk.
  destruct (lg_fused_values fuse p m fv n preds out Hn X k Hk) as (vs & r & T & Z & Acc). rewrite A in Acc. exists vs, r. split; [exact T|]. split; [exact Z|]. intros N F.
  destruct (inverse_error n N) as (Vw & eps & He & Ew). set (w := fdiv fone (f64_of_Z n)) in *.
  pose proof (outputs_valid _ _ _ _ _ _ _ V T) as Vv.
  set (ab := map (fun v => (v, w)) vs) in *.
  assert (E2 : exact_products ab = map (fun x => (x * real w)%R) (map real vs)) by (unfold exact_products, ab; rewrite !map_map; reflexivity).
  assert (Vab : Forall (fun p => valid64 (fst p) = true /\ valid64 (snd p) = true) ab).
  { unfold ab. rewrite Forall_map. eapply Forall_impl; [|exact Vv]. intros v Hv. auto. }
  pose proof (accumulated_error _ _ _ Acc eq_refl Vab F) as B. cbv zeta in B.
  replace (List.length ab) with (Z.to_nat n) in B by (unfold ab; rewrite map_length; destruct T as [<- _]; unfold zlen; lia).
  replace (real fzero) with 0%R in B by reflexivity. rewrite Rabs_R0, !Rplus_0_l in B.
  rewrite INR_IZR_INZ, Z2Nat.id in B by lia. rewrite E2 in B. rewrite Rsum_scale in B.
  assert (Pw : (0 <= real w)%R).
  { rewrite Ew. apply Rmult_le_pos; [apply Rlt_le, Rinv_0_lt_compat, (IZR_lt 0); lia|].
    assert (He1 : (Rabs eps < 1)%R) by (eapply Rle_lt_trans; [exact He|]; change 1%R with (bpow radix2 0); apply bpow_lt; reflexivity).
    apply Rabs_def2 in He1. lra. }
  rewrite map_map in B. rewrite (map_ext (fun x => Rabs (x * real w)) (fun x => (Rabs x * real w)%R)) in B.
  2: { intros x. rewrite Rabs_mult, (Rabs_pos_eq (real w)) by exact Pw. reflexivity. }
  rewrite <- (map_map Rabs (fun x => (x * real w)%R)), Rsum_scale in B.
  replace (Z.to_nat n + 2)%nat with (S (S (Z.to_nat n))) by lia. rewrite (growth_S (S _)).
  set (g := growth (S (Z.to_nat n))) in *. assert (G : (0 <= g)%R) by apply growth_nonneg.
  set (S0 := Rsum (map real vs)) in *. set (A0 := Rsum (map Rabs (map real vs))) in *.
  assert (AS : (Rabs S0 <= A0)%R) by apply Rsum_triangle.
  set (c := ((1 + growth (Z.to_nat n)) * (IZR n * half_tiny))%R) in *.
  set (y := real r) in *. pose proof u_pos.
  assert (I : (0 < / IZR n)%R) by (apply Rinv_0_lt_compat, (IZR_lt 0); lia). unfold Rdiv. set (i := (/ IZR n)%R) in *.
  replace (y - S0 * i)%R with ((y - S0 * real w) + S0 * (i * eps))%R by (rewrite Ew; ring).
  eapply Rle_trans; [apply Rabs_triang|].
  assert (B2 : (Rabs (S0 * (i * eps)) <= u * (A0 * i))%R).
  { rewrite !Rabs_mult, (Rabs_pos_eq i) by lra. replace (u * (A0 * i))%R with (A0 * (i * u))%R by ring.
    apply Rmult_le_compat; auto using Rabs_pos; [|apply Rmult_le_compat_l; lra]. apply Rmult_le_pos; [lra|apply Rabs_pos]. }
  assert (B3 : (g * (A0 * real w) <= g * (A0 * i * (1 + u)))%R).
  { apply Rmult_le_compat_l; [exact G|]. rewrite Rmult_assoc. apply Rmult_le_compat_l; [unfold A0; apply Rsum_abs_nonneg|]. rewrite Ew.
    apply Rmult_le_compat_l; [lra|]. apply Rplus_le_compat_l. eapply Rle_trans; [apply Rle_abs|exact He]. }
  replace ((g * (1 + u) + u) * (A0 * i) + c)%R with (g * (A0 * i * (1 + u)) + c + u * (A0 * i))%R by ring. lra.
Qed.
Print Assumptions C88_random_forest_score.

Theorem C88_xgboost_score :
  forall fuse p e m fvals nEstimators predictions out,
  well_formed e -> raw_output e -> core (eBase e) = BXg m -> valid_leaves (xgTrees m) ->
  valid64 (xgBaseScore m) = true -> Forall (fun w => valid64 w = true) (xgWeightDrop m) ->
  Predict_fused fuse p e fvals nEstimators predictions = Ok out ->
  exists n, used_estimators e nEstimators n /\
  forall k, 0 <= k < NRawOutputGroups e -> exists vs ws y,
    tree_outputs p (xgTrees m) (NRawOutputGroups e) k n fvals vs /\
    zlen ws = n /\
    (forall i, 0 <= i < n -> zget ws i = zget (xgWeightDrop m) (i * NRawOutputGroups e + k)) /\
    zget out k = Some y /\
    (finite64 y = true ->
     let exact := map (fun vw => (real (fst vw) * real (snd vw))%R) (combine vs ws) in
     (Rabs (real y - (real (xgBaseScore m) + Rsum exact)) <=
        growth (Z.to_nat n + 1) * (Rabs (real (xgBaseScore m)) + Rsum (map Rabs exact)) +
        (1 + growth (Z.to_nat n)) * (IZR n * half_tiny))%R).
Proof.
  intros fuse p e m fv nE preds out W R C V Vb Vw H.
  destruct (fused_used fuse p e fv nE preds out W R H) as (n & U & Hn & X). exists n. split; [exact U|].
  rewrite core_groups, C in *. cbn [b_fused b_NRawOutputGroups] in *. intros k Hk.
  destruct (xg_fused_values fuse p m fv n preds out Hn X k Hk) as (vs & ws & r & T & Lw & Hw & Z & Acc). exists vs, ws, r.
  split; [exact T|]. split; [exact Lw|]. split; [exact Hw|]. split; [exact Z|]. intros F.
  pose proof (outputs_valid _ _ _ _ _ _ _ V T) as Vv. destruct T as [Lv _].
  assert (Vws : Forall (fun w => valid64 w = true) ws).
  { apply Forall_forall. intros w Iw. apply in_zget in Iw. destruct Iw as [i Hi]. pose proof (zget_range _ _ _ _ Hi). rewrite Hw in Hi by lia.
    rewrite Forall_forall in Vw. apply Vw. eapply zget_in. exact Hi. }
  assert (Vab : Forall (fun p => valid64 (fst p) = true /\ valid64 (snd p) = true) (combine vs ws)).
  { apply Forall_forall. intros [a b] I. rewrite Forall_forall in Vv, Vws. split; [apply Vv; eapply in_combine_l; exact I|apply Vws; eapply in_combine_r; exact I]. }
  pose proof (accumulated_error _ _ _ Acc Vb Vab F) as B. cbv zeta in B.
  assert (L : List.length (combine vs ws) = Z.to_nat n) by (rewrite combine_length; unfold zlen in *; lia). rewrite L in B.
  rewrite INR_IZR_INZ, Z2Nat.id in B by lia.
  replace (Z.to_nat n + 1)%nat with (S (Z.to_nat n)) by lia. exact B.
Qed.
Print Assumptions C88_xgboost_score.

Theorem C88_gblinear_score :
  forall fuse p e m fvals nEstimators predictions out,
  well_formed e -> raw_output e -> core (eBase e) = BLinear m ->
  0 <= xlNumFeature m -> xlNRawOutputGroups m * (xlNumFeature m + 1) <= MaxInt ->
  valid64 (xlBaseScore m) = true -> Forall (fun x => valid64 x = true) fvals ->
  Predict_fused fuse p e fvals nEstimators predictions = Ok out ->
  forall k, 0 <= k < NRawOutputGroups e -> exists bias xs ws y,
    zget (xlWeights m) (xlNumFeature m * NRawOutputGroups e + k) = Some bias /\
    zlen xs = xlNumFeature m /\ zlen ws = xlNumFeature m /\
    (forall i, 0 <= i < xlNumFeature m -> zget xs i = zget fvals i /\ zget ws i = zget (xlWeights m) (i * NRawOutputGroups e + k)) /\
    zget out k = Some y /\
    (finite64 y = true ->
     let b := real (f64_of_f32bits bias) in
     let exact := map (fun xw => (real (fst xw) * real (f64_of_f32bits (snd xw)))%R) (combine xs ws) in
     (Rabs (real y - (real (xlBaseScore m) + b + Rsum exact)) <=
        growth (Z.to_nat (xlNumFeature m) + 2) * (Rabs (real (xlBaseScore m)) + Rabs b + Rsum (map Rabs exact)) +
        (1 + growth (Z.to_nat (xlNumFeature m) + 1)) * ((IZR (xlNumFeature m) + 1) * half_tiny))%R).
Proof.
  intros fuse p e m fv nE preds out W R C Nf Mx Vb Vf H k Hk.
  destruct (fused_used fuse p e fv nE preds out W R H) as (n & U & Hn & X).
  rewrite core_groups, C in *. cbn [b_fused b_NRawOutputGroups] in *.
  destruct (lin_fused_values fuse m fv preds out X) with (k := k) as (bias & xs & ws & r & Zb & L1 & L2 & G & Z & Acc); [nia|exact Nf|exact Hk|].
  exists bias, xs, ws, r. rewrite (Z.mul_comm (xlNumFeature m)). split; [exact Zb|]. split; [exact L1|]. split; [exact L2|].
  split. { intros i Hi. rewrite (Z.mul_comm i). apply G. exact Hi. }
  split; [exact Z|]. intros F. set (b := real (f64_of_f32bits bias)). set (exact := map (fun xw => (real (fst xw) * real (f64_of_f32bits (snd xw)))%R) (combine xs ws)).
  set (ab := (f64_of_f32bits bias, fone) :: map (fun xw => (fst xw, f64_of_f32bits (snd xw))) (combine xs ws)).
  assert (Acc2 : accumulated (xlBaseScore m) ab r).
  { unfold ab. apply acc_two. rewrite fmul_one by apply f32_valid. exact Acc. }
  assert (Vx : Forall (fun x => valid64 x = true) xs).
  { apply Forall_forall. intros x Ix. apply in_zget in Ix. destruct Ix as [i Hi]. pose proof (zget_range _ _ _ _ Hi). destruct (G i ltac:(lia)) as [G1 _]. rewrite G1 in Hi.
    rewrite Forall_forall in Vf. apply Vf. eapply zget_in. exact Hi. }
  assert (Vab : Forall (fun p => valid64 (fst p) = true /\ valid64 (snd p) = true) ab).
  { unfold ab. constructor; [split; [apply f32_valid|reflexivity]|]. rewrite Forall_map. apply Forall_forall. intros [x w] I. cbn [fst snd]. split; [|apply f32_valid].
    rewrite Forall_forall in Vx. apply Vx. eapply in_combine_l. exact I. }
  pose proof (accumulated_error _ _ _ Acc2 Vb Vab F) as B. cbv zeta in B.
  assert (L : List.length ab = (Z.to_nat (xlNumFeature m) + 1)%nat) by (unfold ab; cbn [List.length]; rewrite map_length, combine_length; unfold zlen in *; lia).
  rewrite L in B. rewrite plus_INR, INR_IZR_INZ, Z2Nat.id in B by lia. change (INR 1) with 1%R in B.
  replace (S (Z.to_nat (xlNumFeature m) + 1)) with (Z.to_nat (xlNumFeature m) + 2)%nat in B by lia.
  assert (Ee : exact_products ab = b :: exact).
  { unfold exact_products, ab, exact, b. cbn [map fst snd]. rewrite map_map. f_equal. destruct one_B as (o & Eo & Ro & _). rewrite <- Eo, real_B, Ro, Rmult_1_r. reflexivity. }
  rewrite Ee in B. cbn [map Rsum] in B. rewrite <- !Rplus_assoc in B. exact B.
Qed.
Print Assumptions C88_gblinear_score.

(** ** Random forests and weighted trees may get another score *)
Definition thirds_forest : Ensemble :=
  mkEnsemble (BLg (mkLgEnsemble [stump 0 fzero (fint 5) (fint 7); stump 0 fzero (fint 5) (fint 7); stump 0 fzero (fint 11) (fint 13)]
                                1 1 (bs "lightgbm.rf") true)) (TransformRaw 1).
Definition thirds_dart : Ensemble :=
  mkEnsemble (BXg (mkXgEnsemble [stump 0 fzero (fint 5) (fint 7); stump 0 fzero (fint 5) (fint 7)]
                                1 1 (fint 3) [fdiv fone (fint 3); fdiv fone (fint 3)] (bs "xgboost.dart"))) (TransformRaw 1).

Theorem C88_forest_refuted : exists fuse p e m fvals a b,
  well_formed e /\ core (eBase e) = BLg m /\ lgAverageOutput m = true /\
  Predict p e fvals 0 (zeros 1) = Ok [a] /\ Predict_fused fuse p e fvals 0 (zeros 1) = Ok [b] /\
  finite64 a = true /\ finite64 b = true /\ a <> b.
Proof.
  exists (fun _ => true), amd64, thirds_forest; do 4 eexists. split; [repeat split; try reflexivity; vm_compute; discriminate|]. split; [reflexivity|]. split; [reflexivity|].
  split; [instantiate (2 := [fint (-1); fzero]); vm_compute; reflexivity|]. split; [vm_compute; reflexivity|]. split; [reflexivity|]. split; [reflexivity|]. discriminate.
Qed.
Print Assumptions C88_forest_refuted.

Theorem C88_dart_refuted : exists fuse p e m fvals a b,
  well_formed e /\ core (eBase e) = BXg m /\
  Predict p e fvals 0 (zeros 1) = Ok [a] /\ Predict_fused fuse p e fvals 0 (zeros 1) = Ok [b] /\
  finite64 a = true /\ finite64 b = true /\ a <> b.
Proof.
  exists (fun _ => true), amd64, thirds_dart; do 4 eexists. split; [repeat split; try reflexivity; vm_compute; discriminate|]. split; [reflexivity|].
  split; [instantiate (2 := [fint (-1); fzero]); vm_compute; reflexivity|]. split; [vm_compute; reflexivity|]. split; [reflexivity|]. split; [reflexivity|]. discriminate.
Qed.
Print Assumptions C88_dart_refuted.

(** ** Cases *)
Example unchanged_trees :
  plain_products demo_raw (map fint [2; 4]) /\
  Predict_fused (fun n => Nat.even n) amd64 demo_raw (map fint [2; 4]) 0 (zeros 2) = Ok (map fint [25; 10]).
Proof. split; [split; [reflexivity|repeat constructor]|]. vm_compute. reflexivity. Qed.
Example unchanged_xgboost :
  plain_products (mkEnsemble (BXg (mkXgEnsemble (xgTrees demo_xg) 1 1 (fint 3) [fone; fone] (bs "xgboost.gbtree"))) TransformLogistic) (map fint [2; 4]).
Proof. split; [repeat constructor|]. split; [reflexivity|]. repeat constructor. Qed.
Example unchanged_linear :
  plain_products demo_lin (map fint [1; 2]) /\
  Predict_fused (fun _ => true) amd64 demo_lin (map fint [1; 2]) 0 (zeros 2) = Ok (map fint [13; 17]).
Proof.
  split; [|vm_compute; reflexivity]. split; [reflexivity|]. repeat (constructor; [|]); [exists 1|exists 2|]; auto; split; try reflexivity; lia.
Qed.
Example fused_forest : well_formed thirds_forest /\ raw_output thirds_forest /\
  Predict_fused (fun _ => true) amd64 thirds_forest [fint (-1); fzero] 0 (zeros 1) = Ok [S754_finite false 7881299347898367 (-50)].
Proof. split; [repeat split; try reflexivity; vm_compute; discriminate|]. split; [eexists; reflexivity|]. vm_compute. reflexivity. Qed.
Example fused_dart : well_formed thirds_dart /\ raw_output thirds_dart /\
  Predict_fused (fun _ => true) amd64 thirds_dart [fint (-1); fzero] 0 (zeros 1) = Ok [S754_finite false 7130699410003286 (-50)].
Proof. split; [repeat split; try reflexivity; vm_compute; discriminate|]. split; [eexists; reflexivity|]. vm_compute. reflexivity. Qed.
