(** * C86: predicted probabilities are close to the mathematical ones *)

From Coq Require Import ZArith List Bool Lia Reals Lra.
From Coq Require Import Floats.SpecFloat.
From Flocq Require Import Core.Core.
From Verif Require Import Go GoFloat GoText Cmd UtilMath LgTree Transformation Ensembles Leaves Spec_Predict Spec_Split Spec_Transform Spec_Round Spec_Probability
  Demo Pf_Go Pf_Float Pf_Range Pf_Round Pf_Transform Prop_Values Prop_Transform Prop_Round Prop_Order Prop_Softmax Pf_Probability.
Import ListNotations.
Local Open Scope R_scope.

(** the output of a logistic model against the logistic function of the raw score *)
Theorem C86_logistic :
  forall p eps e fvals nEstimators predictions out rawbuf raw r,
  good_exp p -> accurate_exp p eps -> 0 <= eps <= / 8 ->
  well_formed e -> eTransform e = TransformLogistic -> NRawOutputGroups e = 1%Z ->
  Predict p e fvals nEstimators predictions = Ok out ->
  Predict p (EnsembleWithRawPredictions e) fvals nEstimators rawbuf = Ok raw ->
  zget raw 0 = Some r -> valid64 r = true -> finite64 r = true ->
  exists y, zget out 0 = Some y /\ finite64 y = true /\
    Rabs (real y - sigmoid (real r)) <= (2 * eps + bpow radix2 (-51)) * sigmoid (real r) + bpow radix2 (-1021).
Proof.
  intros p eps e fv nE preds out rawbuf raw r Hg Ha Heps Hwf Ht H1 H Hr Hz V F.
  destruct (C54_logistic _ _ _ _ _ _ _ _ Hwf Ht H1 H Hr) as (r' & Hz' & Ho). assert (r' = r) by congruence. subst r'.
  exists (logistic_of p r). split; [exact Ho|]. exact (logistic_near p eps r Hg Ha Heps V F).
Qed.
Print Assumptions C86_logistic.

(** the output of an exponential model *)
Theorem C86_exponential :
  forall p eps e fvals nEstimators predictions out rawbuf raw r,
  accurate_exp p eps ->
  well_formed e -> eTransform e = TransformExponential -> NRawOutputGroups e = 1%Z ->
  Predict p e fvals nEstimators predictions = Ok out ->
  Predict p (EnsembleWithRawPredictions e) fvals nEstimators rawbuf = Ok raw ->
  zget raw 0 = Some r -> valid64 r = true -> finite64 r = true ->
  exists y, zget out 0 = Some y /\ exp_near eps (real r) y.
Proof.
  intros p eps e fv nE preds out rawbuf raw r Ha Hwf Ht H1 H Hr Hz V F.
  destruct (C54_exponential _ _ _ _ _ _ _ _ Hwf Ht H1 H Hr) as (r' & Hz' & Ho). assert (r' = r) by congruence. subst r'.
  exists (pl_exp p r). split; [exact Ho|apply Ha; assumption].
Qed.
Print Assumptions C86_exponential.

(** the outputs of a softmax model: no score above 300, not all scores below -300 *)
Theorem C86_softmax :
  forall p eps e fvals nEstimators predictions out rawbuf raw,
  good_exp p -> accurate_exp p eps -> 0 <= eps <= / 8 ->
  well_formed e -> eTransform e = TransformSoftmax (NRawOutputGroups e) -> (NRawOutputGroups e <= 2 ^ 50)%Z ->
  Predict p e fvals nEstimators predictions = Ok out ->
  Predict p (EnsembleWithRawPredictions e) fvals nEstimators rawbuf = Ok raw ->
  let n := Z.to_nat (NRawOutputGroups e) in
  let scores := firstn n raw in
  Forall (fun r => valid64 r = true /\ finite64 r = true /\ real r <= 300) scores -> (exists r, In r scores /\ -300 <= real r) ->
  (forall k, (0 <= k < NRawOutputGroups e)%Z -> exists r y, zget raw k = Some r /\ zget out k = Some y /\
     Rabs (real y - softmax (map real scores) (real r)) <=
     (4 * eps + softmax_error n) * softmax (map real scores) (real r) + bpow radix2 (-390)) /\
  Rabs (Rsum (map real (firstn n out)) - 1) <= softmax_error n.
Proof.
  intros p eps e fv nE preds out rawbuf raw Hg Ha Heps Hwf Ht Hn H Hr n scores Hs Hlow.
  pose proof (C54_softmax _ _ _ _ _ _ _ _ Hwf Ht H Hr) as W. fold n scores in W.
  assert (G1 : (1 <= NRawOutputGroups e)%Z) by (destruct Hwf as ([G1 _] & _); exact G1).
  destruct (W (NRawOutputGroups e - 1)%Z ltac:(lia)) as (r0 & Z1 & _). apply zget_range in Z1.
  assert (Ln : List.length scores = n). { unfold scores. rewrite firstn_length. unfold n, zlen in *. lia. }
  destruct (softmax_near p eps scores Hg Ha Heps Hs Hlow) as (Fs & Bs & K). { unfold zlen. rewrite Ln. unfold n. lia. }
  split.
  - intros k Hk. destruct (W k Hk) as (r & Y1 & Y2). exists r, (softmax_of p scores r). split; [exact Y1|split; [exact Y2|]].
    replace (softmax_error n) with (softmax_error (List.length scores)) by (rewrite Ln; reflexivity). apply K.
    pose proof (zget_sub _ raw 0 (NRawOutputGroups e) k) as Gr. simpl skipn in Gr. fold n scores in Gr. apply (zget_in _ _ k). rewrite Gr by lia. exact Y1.
  - refine (proj1 (C20_predictions_sum_to_one p e fv nE preds out rawbuf raw Hg Hwf Ht _ H Hr _ Fs Bs)); [lia|].
    eapply Forall_impl; [|exact Hs]. intros r (V & F & _). split; [exact V|]. destruct r; try reflexivity; discriminate F.
Qed.
Print Assumptions C86_softmax.

(** From the trees to the probability: the output of a binary LightGBM model is the logistic
    function of the exact sum of the leaf values, up to the rounding of the sum, of [math.Exp]
    and of the two last operations. *)
Theorem C86_lightgbm_probability :
  forall p eps e m fvals nEstimators predictions out rawbuf raw r,
  good_exp p -> accurate_exp p eps -> 0 <= eps <= / 8 ->
  well_formed e -> eTransform e = TransformLogistic -> NRawOutputGroups e = 1%Z ->
  core (eBase e) = BLg m -> lgAverageOutput m = false -> valid_leaves (lgTrees m) ->
  Predict p e fvals nEstimators predictions = Ok out ->
  Predict p (EnsembleWithRawPredictions e) fvals nEstimators rawbuf = Ok raw ->
  zget raw 0 = Some r -> valid64 r = true -> finite64 r = true ->
  exists n leaves y, used_estimators e nEstimators n /\ tree_outputs p (lgTrees m) 1 0 n fvals leaves /\ zget out 0 = Some y /\
    Rabs (real y - sigmoid (Rsum (map real leaves))) <=
    2 * eps + bpow radix2 (-50) + growth (Z.to_nat n) / 4 * Rsum (map Rabs (map real leaves)).
Proof.
  intros p eps e m fv nE preds out rawbuf raw r Hg Ha Heps Hwf Ht H1 Hm Hav Hv H Hr Hz V F.
  destruct (C86_logistic p eps e fv nE preds out rawbuf raw r Hg Ha Heps Hwf Ht H1 H Hr Hz V F) as (y & Hy & _ & B).
  destruct (raw_view_wf e Hwf) as [Wr _].
  destruct (C60_lightgbm_score p (EnsembleWithRawPredictions e) m fv nE rawbuf raw Wr ltac:(eexists; reflexivity) Hm Hav Hv Hr) as (n & Hu & S).
  change (NRawOutputGroups (EnsembleWithRawPredictions e)) with (NRawOutputGroups e) in S. rewrite H1 in S.
  destruct (S 0%Z ltac:(lia)) as (vs & y' & Hvs & Hy' & D). assert (y' = r) by congruence. subst y'. specialize (D F).
  exists n, vs, y. split; [exact Hu|split; [exact Hvs|split; [exact Hy|]]].
  pose proof (sigmoid_slope (real r) (Rsum (map real vs))) as L.
  replace (real y - sigmoid (Rsum (map real vs))) with ((real y - sigmoid (real r)) + (sigmoid (real r) - sigmoid (Rsum (map real vs)))) by ring.
  eapply Rle_trans; [apply Rabs_triang|]. assert (Sg : 0 < sigmoid (real r) <= 1).
  { unfold sigmoid. pose proof (exp_pos (- real r)). split; [apply Rinv_0_lt_compat; lra|]. rewrite <- Rinv_1. apply Rinv_le; lra. }
  assert (0 < bpow radix2 (-51)) by apply bpow_gt_0. assert (bpow radix2 (-1021) <= bpow radix2 (-51)) by (apply bpow_le; lia).
  replace (bpow radix2 (-50)) with (2 * bpow radix2 (-51)) by (change 2 with (bpow radix2 1); rewrite <- bpow_plus; reflexivity).
  assert ((2 * eps + bpow radix2 (-51)) * sigmoid (real r) <= 2 * eps + bpow radix2 (-51)) by (rewrite <- (Rmult_1_r (2 * eps + bpow radix2 (-51))) at 2; apply Rmult_le_compat_l; lra).
  lra.
Qed.
Print Assumptions C86_lightgbm_probability.

(** ** A platform that meets the assumptions: the correctly rounded exponential *)
Theorem C86_rounded_exp : good_exp rounded /\ monotone_exp rounded /\ accurate_exp rounded unit_roundoff.
Proof. split; [exact rounded_good|split; [exact rounded_monotone|exact rounded_accurate]]. Qed.

Print Assumptions C86_rounded_exp.

(** any exponential can be put into the model's platform without changing the raw scores *)
Definition with_exp (E : f64 -> f64) : platform :=
  mkPlatform (pl_f2i32 amd64) (pl_f2u32 amd64) E 4 (2 ^ 40)%Z (fun _ => None) (fun _ => []) (fun c _ => 2 * c + 1)%Z.
Definition demo_binary_lg : lgEnsemble := mkLgEnsemble [stump 0 (fint 1) (fint 1) (fint 2); tree3 (fint 1) (fint (-2)) (fint 3)] 1 1 (bs "lightgbm.gbdt") false.
Definition demo_binary : Ensemble := mkEnsemble (BLg demo_binary_lg) TransformLogistic.

Lemma with_exp_binary : forall E,
  Predict (with_exp E) demo_binary (map fint [1; 2]%Z) 0 (zeros 1) = Ok [logistic_of (with_exp E) (fint (-1))] /\
  Predict (with_exp E) (EnsembleWithRawPredictions demo_binary) (map fint [1; 2]%Z) 0 (zeros 1) = Ok [fint (-1)].
Proof.
  intros E. split; [|vm_compute; reflexivity].
  assert (R : (let* raw := make_f64 (with_exp E) 1 in exec (b_predictInner (with_exp E) (BLg demo_binary_lg) (map fint [1; 2]%Z) 2 0) raw) = Ok [fint (-1)]) by (vm_compute; reflexivity).
  change (exec (cmds_of (let* raw := make_f64 (with_exp E) 1 in exec (b_predictInner (with_exp E) (BLg demo_binary_lg) (map fint [1; 2]%Z) 2 0) raw)
    (fun raw => match Transform_t (with_exp E) TransformLogistic raw 0 with Ok cs => cs | Err _ => [] | Panic m => [CPanic m] | Hang => [CHang] end)) (zeros 1) =
    Ok [logistic_of (with_exp E) (fint (-1))]).
  rewrite R. reflexivity.
Qed.
Lemma with_exp_softmax : forall E,
  (exists out, Predict (with_exp E) demo_softmax (map fint [1; 2]%Z) 0 (zeros 2) = Ok out) /\
  Predict (with_exp E) (EnsembleWithRawPredictions demo_softmax) (map fint [1; 2]%Z) 0 (zeros 2) = Ok (map fint [15; 9]%Z).
Proof.
  intros E. split; [|vm_compute; reflexivity].
  assert (R : (let* raw := make_f64 (with_exp E) 2 in exec (b_predictInner (with_exp E) (BLg demo_lg) (map fint [1; 2]%Z) 2 0) raw) = Ok (map fint [15; 9]%Z)) by (vm_compute; reflexivity).
  change (exists out, exec (cmds_of (let* raw := make_f64 (with_exp E) 2 in exec (b_predictInner (with_exp E) (BLg demo_lg) (map fint [1; 2]%Z) 2 0) raw)
    (fun raw => match Transform_t (with_exp E) (TransformSoftmax 2) raw 0 with Ok cs => cs | Err _ => [] | Panic m => [CPanic m] | Hang => [CHang] end)) (zeros 2) = Ok out).
  rewrite R. cbn [cmds_of Transform_t]. change (negb (zlen (map fint [15; 9]%Z) =? 2)%Z) with false. cbv iota. unfold SoftmaxFloat64Slice.
  set (s := UtilMath.softmax_sum _ _). destruct (negb (feq s fzero)); eexists; reflexivity.
Qed.

(** with the correctly rounded exponential *)
Local Opaque rounded_exp.
Example binary_case :
  exists n leaves y,
    tree_outputs (with_exp rounded_exp) (lgTrees demo_binary_lg) 1 0 n (map fint [1; 2]%Z) leaves /\
    Predict (with_exp rounded_exp) demo_binary (map fint [1; 2]%Z) 0 (zeros 1) = Ok [y] /\
    Rabs (real y - sigmoid (Rsum (map real leaves))) <= 2 * unit_roundoff + bpow radix2 (-50) + growth (Z.to_nat n) / 4 * Rsum (map Rabs (map real leaves)).
Proof.
  destruct (with_exp_binary rounded_exp) as [H1 H2]. destruct C86_rounded_exp as (Hg & _ & Ha).
  assert (W : well_formed demo_binary) by (repeat split; try reflexivity; vm_compute; discriminate).
  assert (Vl : valid_leaves (lgTrees demo_binary_lg)) by (repeat constructor).
  assert (Eu : 0 <= unit_roundoff <= / 8) by (pose proof u_pos; pose proof u_small; lra).
  destruct (C86_lightgbm_probability (with_exp rounded_exp) unit_roundoff demo_binary demo_binary_lg _ _ _ _ _ _ (fint (-1)) Hg Ha Eu W eq_refl eq_refl eq_refl eq_refl Vl H1 H2 eq_refl eq_refl eq_refl) as (n & leaves & y & _ & T & Y & B).
  exists n, leaves, y. split; [exact T|split; [|exact B]]. rewrite H1. injection Y as <-. reflexivity.
Qed.

Example softmax_case :
  exists out, Predict (with_exp rounded_exp) demo_softmax (map fint [1; 2]%Z) 0 (zeros 2) = Ok out /\
  forall k, (0 <= k < 2)%Z -> exists r y, zget (map fint [15; 9]%Z) k = Some r /\ zget out k = Some y /\
     Rabs (real y - softmax [15; 9] (real r)) <= (4 * unit_roundoff + softmax_error 2) * softmax [15; 9] (real r) + bpow radix2 (-390).
Proof.
  destruct (with_exp_softmax rounded_exp) as [[out H1] H2]. destruct C86_rounded_exp as (Hg & _ & Ha). exists out. split; [exact H1|].
  assert (R15 : real (fint 15) = 15) by (vm_compute; lra). assert (R9 : real (fint 9) = 9) by (vm_compute; lra).
  destruct transform_case as (Hwf & Ht & _).
  destruct (C86_softmax (with_exp rounded_exp) unit_roundoff demo_softmax _ _ _ _ _ _ Hg Ha ltac:(pose proof u_pos; pose proof u_small; lra) Hwf Ht ltac:(vm_compute; discriminate) H1 H2) as [K _].
  - change (firstn _ _) with [fint 15; fint 9]. repeat constructor; lra.
  - exists (fint 15). split; [left; reflexivity|lra].
  - intros k Hk. destruct (K k Hk) as (r & y & A & B & C). exists r, y. split; [exact A|split; [exact B|]].
    change (map real (firstn _ _)) with [real (fint 15); real (fint 9)] in C. rewrite R15, R9 in C. exact C.
Qed.
