(** * C86, from the trees to the probabilities: the other models *)

From Coq Require Import ZArith List Bool Lia Reals Lra.
From Coq Require Import Floats.SpecFloat.
From Flocq Require Import Core.Core.
From Verif Require Import Go GoFloat GoText Cmd UtilMath LgTree Transformation Ensembles Leaves Spec_Predict Spec_Split Spec_Transform Spec_Round Spec_Probability
  Demo Pf_Go Pf_Float Pf_Range Pf_Round Pf_Transform Prop_Values Prop_Transform Prop_Round Prop_Order Prop_Softmax Pf_Probability Prop_Probability.
Import ListNotations.
Local Open Scope R_scope.

Lemma sigmoid_unit : forall x, 0 < sigmoid x <= 1.
Proof.
  intros x. unfold sigmoid. pose proof (exp_pos (- x)). split; [apply Rinv_0_lt_compat; lra|]. rewrite <- Rinv_1. apply Rinv_le; lra.
Qed.

(** the logistic function of a score that is [d] away from the exact one *)
Lemma logistic_shift : forall eps y r s d, 0 <= eps ->
  Rabs (y - sigmoid r) <= (2 * eps + bpow radix2 (-51)) * sigmoid r + bpow radix2 (-1021) -> Rabs (r - s) <= d ->
  Rabs (y - sigmoid s) <= 2 * eps + bpow radix2 (-50) + d / 4.
Proof.
  intros eps y r s d He B D. pose proof (sigmoid_slope r s) as L.
  replace (y - sigmoid s) with ((y - sigmoid r) + (sigmoid r - sigmoid s)) by ring.
  eapply Rle_trans; [apply Rabs_triang|]. pose proof (sigmoid_unit r) as Sg.
  assert (0 < bpow radix2 (-51)) by apply bpow_gt_0. assert (bpow radix2 (-1021) <= bpow radix2 (-51)) by (apply bpow_le; lia).
  replace (bpow radix2 (-50)) with (2 * bpow radix2 (-51)) by (change 2 with (bpow radix2 1); rewrite <- bpow_plus; reflexivity).
  assert ((2 * eps + bpow radix2 (-51)) * sigmoid r <= 2 * eps + bpow radix2 (-51)) by (rewrite <- (Rmult_1_r (2 * eps + bpow radix2 (-51))) at 2; apply Rmult_le_compat_l; lra).
  lra.
Qed.

(** a binary XGBoost model *)
Theorem C86_xgboost_probability :
  forall p eps e m fvals nEstimators predictions out rawbuf raw r,
  good_exp p -> accurate_exp p eps -> 0 <= eps <= / 8 ->
  well_formed e -> eTransform e = TransformLogistic -> NRawOutputGroups e = 1%Z ->
  core (eBase e) = BXg m -> valid_leaves (xgTrees m) ->
  valid64 (xgBaseScore m) = true -> Forall (fun w => valid64 w = true) (xgWeightDrop m) ->
  Predict p e fvals nEstimators predictions = Ok out ->
  Predict p (EnsembleWithRawPredictions e) fvals nEstimators rawbuf = Ok raw ->
  zget raw 0 = Some r -> valid64 r = true -> finite64 r = true ->
  exists n leaves weights y, used_estimators e nEstimators n /\ tree_outputs p (xgTrees m) 1 0 n fvals leaves /\
    zlen weights = n /\ (forall i, (0 <= i < n)%Z -> zget weights i = zget (xgWeightDrop m) i) /\ zget out 0 = Some y /\
    let exact := map (fun vw => real (fst vw) * real (snd vw)) (combine leaves weights) in
    Rabs (real y - sigmoid (real (xgBaseScore m) + Rsum exact)) <=
    2 * eps + bpow radix2 (-50) +
    (growth (Z.to_nat n + 1) * (Rabs (real (xgBaseScore m)) + Rsum (map Rabs exact)) + (1 + growth (Z.to_nat n)) * (IZR n * half_tiny)) / 4.
Proof.
  intros p eps e m fv nE preds out rawbuf raw r Hg Ha Heps Hwf Ht H1 Hm Hv Hb Hw H Hr Hz V F.
  destruct (C86_logistic p eps e fv nE preds out rawbuf raw r Hg Ha Heps Hwf Ht H1 H Hr Hz V F) as (y & Hy & _ & B).
  destruct (raw_view_wf e Hwf) as [Wr _].
  destruct (C60_xgboost_score p (EnsembleWithRawPredictions e) m fv nE rawbuf raw Wr ltac:(eexists; reflexivity) Hm Hv Hb Hw Hr) as (n & Hu & S).
  change (NRawOutputGroups (EnsembleWithRawPredictions e)) with (NRawOutputGroups e) in S. rewrite H1 in S.
  destruct (S 0%Z ltac:(lia)) as (vs & ws & y' & Hvs & Lw & Gw & Hy' & D). assert (y' = r) by congruence. subst y'. specialize (D F).
  exists n, vs, ws, y. repeat match goal with |- _ /\ _ => split end; try assumption.
  - intros i Hi. rewrite (Gw i Hi). f_equal. lia.
  - cbv zeta in *. eapply logistic_shift; [lra|exact B|exact D].
Qed.
Print Assumptions C86_xgboost_probability.

(** a binary linear XGBoost model *)
Theorem C86_gblinear_probability :
  forall p eps e m fvals nEstimators predictions out rawbuf raw r,
  good_exp p -> accurate_exp p eps -> 0 <= eps <= / 8 ->
  well_formed e -> eTransform e = TransformLogistic -> NRawOutputGroups e = 1%Z ->
  core (eBase e) = BLinear m -> (0 <= xlNumFeature m)%Z -> (xlNRawOutputGroups m * (xlNumFeature m + 1) <= MaxInt)%Z ->
  valid64 (xlBaseScore m) = true -> Forall (fun x => valid64 x = true) fvals ->
  Predict p e fvals nEstimators predictions = Ok out ->
  Predict p (EnsembleWithRawPredictions e) fvals nEstimators rawbuf = Ok raw ->
  zget raw 0 = Some r -> valid64 r = true -> finite64 r = true ->
  exists bias xs ws y, zget (xlWeights m) (xlNumFeature m) = Some bias /\
    zlen xs = xlNumFeature m /\ zlen ws = xlNumFeature m /\
    (forall i, (0 <= i < xlNumFeature m)%Z -> zget xs i = zget fvals i /\ zget ws i = zget (xlWeights m) i) /\ zget out 0 = Some y /\
    let b := real (f64_of_f32bits bias) in
    let exact := map (fun xw => real (fst xw) * real (f64_of_f32bits (snd xw))) (combine xs ws) in
    Rabs (real y - sigmoid (real (xlBaseScore m) + b + Rsum exact)) <=
    2 * eps + bpow radix2 (-50) +
    (growth (Z.to_nat (xlNumFeature m) + 2) * (Rabs (real (xlBaseScore m)) + Rabs b + Rsum (map Rabs exact)) +
     (1 + growth (Z.to_nat (xlNumFeature m) + 1)) * ((IZR (xlNumFeature m) + 1) * half_tiny)) / 4.
Proof.
  intros p eps e m fv nE preds out rawbuf raw r Hg Ha Heps Hwf Ht H1 Hm Hf Hsz Hb Hx H Hr Hz V F.
  destruct (C86_logistic p eps e fv nE preds out rawbuf raw r Hg Ha Heps Hwf Ht H1 H Hr Hz V F) as (y & Hy & _ & B).
  destruct (raw_view_wf e Hwf) as [Wr _].
  pose proof (C60_gblinear_score p (EnsembleWithRawPredictions e) m fv nE rawbuf raw Wr ltac:(eexists; reflexivity) Hm Hf Hsz Hb Hx Hr) as S.
  change (NRawOutputGroups (EnsembleWithRawPredictions e)) with (NRawOutputGroups e) in S. rewrite H1 in S.
  destruct (S 0%Z ltac:(lia)) as (bias & xs & ws & y' & Hbias & Lx & Lw & G & Hy' & D). assert (y' = r) by congruence. subst y'. specialize (D F).
  exists bias, xs, ws, y. repeat match goal with |- _ /\ _ => split end; try assumption.
  - rewrite <- Hbias. f_equal. lia.
  - intros i Hi. destruct (G i Hi) as [G1 G2]. split; [exact G1|]. rewrite G2. f_equal. lia.
  - cbv zeta in *. eapply logistic_shift; [lra|exact B|exact D].
Qed.
Print Assumptions C86_gblinear_probability.

(** ** Several classes *)

Lemma Rsum_exp_shift : forall xs ys d, Forall2 (fun x y => Rabs (x - y) <= d) xs ys ->
  Rsum (map exp xs) <= exp d * Rsum (map exp ys) /\ Rsum (map exp ys) <= exp d * Rsum (map exp xs).
Proof.
  induction 1 as [|x y xs ys A F [I1 I2]]; cbn [map Rsum fold_right]; [split; cbn; lra|].
  assert (E : forall a b, Rabs (a - b) <= d -> exp a <= exp d * exp b).
  { intros a b D. rewrite <- exp_plus. apply exp_le. apply Rabs_le_inv in D. lra. }
  pose proof (E x y A). pose proof (E y x ltac:(rewrite Rabs_minus_sym; exact A)).
  change (fold_right Rplus 0 (map exp xs)) with (Rsum (map exp xs)). change (fold_right Rplus 0 (map exp ys)) with (Rsum (map exp ys)). lra.
Qed.

(** scores that are [d] away from the exact ones: factor [exp (2 d)] *)
Lemma softmax_shift : forall xs ys x y d, Forall2 (fun x y => Rabs (x - y) <= d) xs ys -> Rabs (x - y) <= d -> In x xs -> In y ys ->
  0 < softmax ys y /\ softmax xs x <= exp (2 * d) * softmax ys y /\ softmax ys y <= exp (2 * d) * softmax xs x.
Proof.
  assert (K : forall xs ys x y d, Forall2 (fun x y => Rabs (x - y) <= d) xs ys -> Rabs (x - y) <= d -> In x xs -> In y ys -> softmax xs x <= exp (2 * d) * softmax ys y).
  { intros xs ys x y d F A Ix Iy. destruct (Rsum_exp_shift _ _ _ F) as [_ S]. pose proof (Rsum_exp_ge xs x Ix). pose proof (Rsum_exp_ge ys y Iy).
    pose proof (exp_pos x). pose proof (exp_pos y). pose proof (exp_pos d). unfold softmax.
    assert (E : exp x <= exp d * exp y). { rewrite <- exp_plus. apply exp_le. apply Rabs_le_inv in A. lra. }
    replace (2 * d) with (d + d) by ring. rewrite exp_plus.
    apply (Rmult_le_reg_r (Rsum (map exp xs) * Rsum (map exp ys))). { apply Rmult_lt_0_compat; lra. }
    replace (exp x / Rsum (map exp xs) * (Rsum (map exp xs) * Rsum (map exp ys))) with (exp x * Rsum (map exp ys)) by (field; lra).
    replace (exp d * exp d * (exp y / Rsum (map exp ys)) * (Rsum (map exp xs) * Rsum (map exp ys))) with ((exp d * exp y) * (exp d * Rsum (map exp xs))) by (field; lra).
    apply Rmult_le_compat; lra. }
  intros xs ys x y d F A Ix Iy. split; [|split].
  - unfold softmax. pose proof (Rsum_exp_ge ys y Iy). pose proof (exp_pos y). apply Rdiv_lt_0_compat; lra.
  - apply K; assumption.
  - apply K; [|rewrite Rabs_minus_sym; exact A|exact Iy|exact Ix]. clear - F. induction F; constructor; [rewrite Rabs_minus_sym|]; assumption.
Qed.

Lemma softmax_transfer : forall xs ys x y d a t v, 0 <= a ->
  Forall2 (fun x y => Rabs (x - y) <= d) xs ys -> Rabs (x - y) <= d -> In x xs -> In y ys ->
  Rabs (v - softmax xs x) <= a * softmax xs x + t ->
  Rabs (v - softmax ys y) <= ((1 + a) * exp (2 * d) - 1) * softmax ys y + t.
Proof.
  intros xs ys x y d a t v Ha F A Ix Iy B. destruct (softmax_shift xs ys x y d F A Ix Iy) as (P & U & L).
  assert (D0 : 0 <= d) by (pose proof (Rabs_pos (x - y)); lra).
  assert (E1 : 1 <= exp (2 * d)) by (rewrite <- exp_0; apply exp_le; lra).
  set (E := exp (2 * d)) in *. set (s := softmax ys y) in *. set (q := softmax xs x) in *.
  assert (Q : Rabs (q - s) <= (E - 1) * s).
  { apply Rabs_le. split; [|lra]. assert (s / E <= q). { apply (Rmult_le_reg_l E); [lra|]. replace (E * (s / E)) with s by (field; lra). exact L. }
    assert (s - s / E <= (E - 1) * s). { replace (s - s / E) with ((E - 1) * (s * / E)) by (field; lra). apply Rmult_le_compat_l; [lra|].
      rewrite <- (Rmult_1_r s) at 2. apply Rmult_le_compat_l; [lra|]. rewrite <- Rinv_1. apply Rinv_le; lra. }
    lra. }
  replace (v - s) with ((v - q) + (q - s)) by ring. eapply Rle_trans; [apply Rabs_triang|].
  assert (a * q <= a * (E * s)) by (apply Rmult_le_compat_l; assumption). lra.
Qed.

Lemma choose_list : forall (A : Type) (P : Z -> A -> Prop) n, (forall k, (0 <= k < Z.of_nat n)%Z -> exists a, P k a) ->
  exists l, zlen l = Z.of_nat n /\ forall k a, zget l k = Some a -> P k a.
Proof.
  induction n as [|n IH]; intros H.
  - exists []. split; [reflexivity|]. intros k a G. apply zget_range in G. unfold zlen in G. cbn in G. lia.
  - destruct IH as (l & L & K). { intros k Hk. apply H. lia. } destruct (H (Z.of_nat n) ltac:(lia)) as [a Ha].
    exists (l ++ [a]). split. { unfold zlen in *. rewrite app_length. cbn. lia. }
    intros k x G. pose proof (zget_range _ _ _ _ G) as R0. destruct (Z.lt_ge_cases k (zlen l)) as [C|C].
    + rewrite zget_app_l in G by lia. apply K. exact G.
    + rewrite zget_app_r in G by lia. assert (k = Z.of_nat n) as ->. { unfold zlen in *. rewrite app_length in R0. cbn in R0. lia. }
      rewrite L in G. rewrite Z.sub_diag in G. injection G as <-. exact Ha.
Qed.

Lemma Forall2_zget : forall (A B : Type) (P : A -> B -> Prop) l l', zlen l = zlen l' ->
  (forall k x y, zget l k = Some x -> zget l' k = Some y -> P x y) -> Forall2 P l l'.
Proof.
  induction l as [|x l IH]; intros [|y l'] L H; unfold zlen in L; cbn in L; try lia; [constructor|]. constructor.
  - apply (H 0%Z); reflexivity.
  - apply IH; [unfold zlen; lia|]. intros k a b Ga Gb. apply (H (k + 1)%Z).
    + pose proof (zget_range _ _ _ _ Ga). change (x :: l) with ([x] ++ l). rewrite zget_app_r by (unfold zlen; cbn; lia). rewrite <- Ga. f_equal. unfold zlen; cbn; lia.
    + pose proof (zget_range _ _ _ _ Gb). change (y :: l') with ([y] ++ l'). rewrite zget_app_r by (unfold zlen; cbn; lia). rewrite <- Gb. f_equal. unfold zlen; cbn; lia.
Qed.

Section Classes.
Variables (p : platform) (eps : R) (e : Ensemble) (fvals : list f64) (nEstimators : Z) (predictions out rawbuf raw : list f64).
Hypotheses (Hg : good_exp p) (Ha : accurate_exp p eps) (Heps : 0 <= eps <= / 8)
  (Hwf : well_formed e) (Ht : eTransform e = TransformSoftmax (NRawOutputGroups e)) (Hn : (NRawOutputGroups e <= 2 ^ 50)%Z)
  (H : Predict p e fvals nEstimators predictions = Ok out)
  (Hr : Predict p (EnsembleWithRawPredictions e) fvals nEstimators rawbuf = Ok raw).
Let G := NRawOutputGroups e.
Let scores := firstn (Z.to_nat G) raw.
Hypotheses (Hs : Forall (fun r => valid64 r = true /\ finite64 r = true /\ real r <= 300) scores) (Hlow : exists r, In r scores /\ -300 <= real r).

(** [score k] is the exact score of class [k], [err k] how far the computed one may be off *)
Lemma softmax_exact_scores : forall sums d, zlen sums = G ->
  (forall k r s, zget raw k = Some r -> zget sums k = Some s -> Rabs (real r - s) <= d) ->
  forall k s, zget sums k = Some s -> exists y, zget out k = Some y /\
    Rabs (real y - softmax sums s) <= ((1 + 4 * eps + softmax_error (Z.to_nat G)) * exp (2 * d) - 1) * softmax sums s + bpow radix2 (-390).
Proof.
  intros sums d L D k s Gs.
  destruct (C86_softmax p eps e fvals nEstimators predictions out rawbuf raw Hg Ha Heps Hwf Ht Hn H Hr Hs Hlow) as [K _]. fold G scores in K.
  pose proof (zget_range _ _ _ _ Gs) as Rk. rewrite L in Rk.
  assert (Ls : zlen scores = G).
  { unfold scores, zlen. rewrite firstn_length. destruct (K (G - 1)%Z ltac:(lia)) as (r0 & _ & Z1 & _). apply zget_range in Z1. unfold zlen in Z1. lia. }
  assert (Gk : forall j, (0 <= j < G)%Z -> zget scores j = zget raw j).
  { intros j Hj. pose proof (zget_sub _ raw 0 G j ltac:(lia) Hj) as Q. simpl skipn in Q. exact Q. }
  destruct (K k Rk) as (r & y & Zr & Zy & B). exists y. split; [exact Zy|].
  replace (1 + 4 * eps + softmax_error (Z.to_nat G)) with (1 + (4 * eps + softmax_error (Z.to_nat G))) by ring.
  eapply (softmax_transfer (map real scores) sums (real r) s d); [| | |  | |exact B].
  - unfold softmax_error. pose proof (pos_INR (Z.to_nat G)). pose proof (bpow_gt_0 radix2 (-52)).
    assert (0 <= (INR (Z.to_nat G) + 2) * bpow radix2 (-52)) by (apply Rmult_le_pos; lra). lra.
  - apply Forall2_zget; [unfold zlen in *; rewrite map_length; lia|]. intros j x y0 Gx Gy. rewrite zget_map in Gx. pose proof (zget_range _ _ _ _ Gy) as Rj. rewrite L in Rj.
    rewrite Gk in Gx by exact Rj. destruct (zget raw j) as [rj|] eqn:Ej; [|discriminate Gx]. injection Gx as <-. exact (D j rj y0 Ej Gy).
  - exact (D k r s Zr Gs).
  - apply in_map. apply (zget_in _ _ k). rewrite Gk by exact Rk. exact Zr.
  - apply (zget_in _ _ k). exact Gs.
Qed.

Lemma score_finite : forall k r, (0 <= k < G)%Z -> zget raw k = Some r -> finite64 r = true.
Proof.
  intros k r Hk Gr. pose proof (zget_sub _ raw 0 G k ltac:(lia) Hk) as Q. simpl skipn in Q. change (zget scores k = zget raw k) in Q. rewrite Gr in Q.
  apply zget_in in Q. rewrite Forall_forall in Hs. apply Hs. exact Q.
Qed.

(** a multi-class LightGBM model: [leaves] of each class are what its trees answer *)
Lemma lightgbm_softmax : forall m, core (eBase e) = BLg m -> lgAverageOutput m = false -> valid_leaves (lgTrees m) ->
  exists n all, used_estimators e nEstimators n /\ zlen all = G /\
  (forall k leaves, zget all k = Some leaves -> tree_outputs p (lgTrees m) G k n fvals leaves) /\
  let exact leaves := Rsum (map real leaves) in
  forall d, Forall (fun leaves => growth (Z.to_nat n) * Rsum (map Rabs (map real leaves)) <= d) all ->
  forall k leaves, zget all k = Some leaves -> exists y, zget out k = Some y /\
    let probability := softmax (map exact all) (exact leaves) in
    Rabs (real y - probability) <= ((1 + 4 * eps + softmax_error (Z.to_nat G)) * exp (2 * d) - 1) * probability + bpow radix2 (-390).
Proof.
  intros m Hm Hav Hv. destruct (raw_view_wf e Hwf) as [Wr _].
  destruct (C60_lightgbm_score p (EnsembleWithRawPredictions e) m fvals nEstimators rawbuf raw Wr ltac:(eexists; reflexivity) Hm Hav Hv Hr) as (n & Hu & K).
  change (NRawOutputGroups (EnsembleWithRawPredictions e)) with G in K.
  assert (G1 : (1 <= G)%Z) by (destruct Hwf as ([G1 _] & _); exact G1).
  destruct (choose_list _ (fun k vs => exists y, tree_outputs p (lgTrees m) G k n fvals vs /\ zget raw k = Some y /\
     (finite64 y = true -> Rabs (real y - Rsum (map real vs)) <= growth (Z.to_nat n) * Rsum (map Rabs (map real vs)))) (Z.to_nat G)) as (all & La & C).
  { intros k Hk. apply K. lia. }
  rewrite Z2Nat.id in La by lia. exists n, all. split; [exact Hu|split; [exact La|split; [intros k vs Gv; destruct (C k vs Gv) as (y & T & _); exact T|]]].
  cbv zeta. intros d Hd k vs Gv. apply (softmax_exact_scores (map (fun l => Rsum (map real l)) all) d).
  - unfold zlen in *. rewrite map_length. exact La.
  - intros j r s Gr Gs. rewrite zget_map in Gs. destruct (zget all j) as [vj|] eqn:Ej; [|discriminate Gs]. injection Gs as <-.
    destruct (C j vj Ej) as (y & _ & Gy & B). assert (y = r) by congruence. subst y. pose proof (zget_range _ _ _ _ Ej) as Rj. rewrite La in Rj.
    eapply Rle_trans; [exact (B (score_finite j r Rj Gr))|]. rewrite Forall_forall in Hd. apply Hd. apply (zget_in _ _ j). exact Ej.
  - rewrite zget_map, Gv. reflexivity.
Qed.

(** a multi-class XGBoost model: leaves and drop-out weights of each class *)
Lemma xgboost_softmax : forall m, core (eBase e) = BXg m -> valid_leaves (xgTrees m) ->
  valid64 (xgBaseScore m) = true -> Forall (fun w => valid64 w = true) (xgWeightDrop m) ->
  exists n all, used_estimators e nEstimators n /\ zlen all = G /\
  (forall k leaves weights, zget all k = Some (leaves, weights) -> tree_outputs p (xgTrees m) G k n fvals leaves /\
     zlen weights = n /\ (forall i, (0 <= i < n)%Z -> zget weights i = zget (xgWeightDrop m) (i * G + k)%Z)) /\
  let terms lw := map (fun vw => real (fst vw) * real (snd vw)) (combine (fst lw) (snd lw)) in
  let exact lw := real (xgBaseScore m) + Rsum (terms lw) in
  forall d, Forall (fun lw => growth (Z.to_nat n + 1) * (Rabs (real (xgBaseScore m)) + Rsum (map Rabs (terms lw))) + (1 + growth (Z.to_nat n)) * (IZR n * half_tiny) <= d) all ->
  forall k lw, zget all k = Some lw -> exists y, zget out k = Some y /\
    let probability := softmax (map exact all) (exact lw) in
    Rabs (real y - probability) <= ((1 + 4 * eps + softmax_error (Z.to_nat G)) * exp (2 * d) - 1) * probability + bpow radix2 (-390).
Proof.
  intros m Hm Hv Hb Hw. destruct (raw_view_wf e Hwf) as [Wr _].
  destruct (C60_xgboost_score p (EnsembleWithRawPredictions e) m fvals nEstimators rawbuf raw Wr ltac:(eexists; reflexivity) Hm Hv Hb Hw Hr) as (n & Hu & K).
  change (NRawOutputGroups (EnsembleWithRawPredictions e)) with G in K.
  assert (G1 : (1 <= G)%Z) by (destruct Hwf as ([G1 _] & _); exact G1).
  set (terms := fun lw : list f64 * list f64 => map (fun vw => real (fst vw) * real (snd vw)) (combine (fst lw) (snd lw))).
  destruct (choose_list _ (fun k lw => (tree_outputs p (xgTrees m) G k n fvals (fst lw) /\ zlen (snd lw) = n /\
     (forall i, (0 <= i < n)%Z -> zget (snd lw) i = zget (xgWeightDrop m) (i * G + k)%Z)) /\ exists y, zget raw k = Some y /\
     (finite64 y = true -> Rabs (real y - (real (xgBaseScore m) + Rsum (terms lw))) <=
       growth (Z.to_nat n + 1) * (Rabs (real (xgBaseScore m)) + Rsum (map Rabs (terms lw))) + (1 + growth (Z.to_nat n)) * (IZR n * half_tiny))) (Z.to_nat G)) as (all & La & C).
  { intros k Hk. destruct (K k ltac:(lia)) as (vs & ws & y & T & Lw & Gw & Gy & B). exists (vs, ws). split; [split; [exact T|split; [exact Lw|exact Gw]]|]. exists y. split; [exact Gy|exact B]. }
  rewrite Z2Nat.id in La by lia. exists n, all. split; [exact Hu|split; [exact La|split; [intros k vs ws Gv; exact (proj1 (C k _ Gv))|]]].
  cbv zeta. intros d Hd k lw Gv. apply (softmax_exact_scores (map (fun lw => real (xgBaseScore m) + Rsum (terms lw)) all) d).
  - unfold zlen in *. rewrite map_length. exact La.
  - intros j r s Gr Gs. rewrite zget_map in Gs. destruct (zget all j) as [vj|] eqn:Ej; [|discriminate Gs]. injection Gs as <-.
    destruct (C j vj Ej) as (_ & y & Gy & B). assert (y = r) by congruence. subst y. pose proof (zget_range _ _ _ _ Ej) as Rj. rewrite La in Rj.
    eapply Rle_trans; [exact (B (score_finite j r Rj Gr))|]. rewrite Forall_forall in Hd. apply (Hd vj). apply (zget_in _ _ j). exact Ej.
  - rewrite zget_map, Gv. reflexivity.
Qed.
End Classes.

(** The outputs of a multi-class LightGBM model against the softmax of the exact sums of the
    leaf values of each class. *)
Theorem C86_lightgbm_softmax :
  forall p eps e m fvals nEstimators predictions out rawbuf raw,
  good_exp p -> accurate_exp p eps -> 0 <= eps <= / 8 ->
  well_formed e -> eTransform e = TransformSoftmax (NRawOutputGroups e) -> (NRawOutputGroups e <= 2 ^ 50)%Z ->
  core (eBase e) = BLg m -> lgAverageOutput m = false -> valid_leaves (lgTrees m) ->
  Predict p e fvals nEstimators predictions = Ok out ->
  Predict p (EnsembleWithRawPredictions e) fvals nEstimators rawbuf = Ok raw ->
  let classes := NRawOutputGroups e in
  let scores := firstn (Z.to_nat classes) raw in
  Forall (fun r => valid64 r = true /\ finite64 r = true /\ real r <= 300) scores -> (exists r, In r scores /\ -300 <= real r) ->
  exists n all, used_estimators e nEstimators n /\ zlen all = classes /\
  (forall k leaves, zget all k = Some leaves -> tree_outputs p (lgTrees m) classes k n fvals leaves) /\
  let exact leaves := Rsum (map real leaves) in
  forall d, Forall (fun leaves => growth (Z.to_nat n) * Rsum (map Rabs (map real leaves)) <= d) all ->
  forall k leaves, zget all k = Some leaves -> exists y, zget out k = Some y /\
    let probability := softmax (map exact all) (exact leaves) in
    Rabs (real y - probability) <= ((1 + 4 * eps + softmax_error (Z.to_nat classes)) * exp (2 * d) - 1) * probability + bpow radix2 (-390).
Proof.
  intros p eps e m fv nE preds out rawbuf raw Hg Ha Heps Hwf Ht Hn Hm Hav Hv H Hr classes scores Hs Hlow.
  exact (lightgbm_softmax p eps e fv nE preds out rawbuf raw Hg Ha Heps Hwf Ht Hn H Hr Hs Hlow m Hm Hav Hv).
Qed.
Print Assumptions C86_lightgbm_softmax.

(** The same for a multi-class XGBoost model: base score plus weighted leaf values. *)
Theorem C86_xgboost_softmax :
  forall p eps e m fvals nEstimators predictions out rawbuf raw,
  good_exp p -> accurate_exp p eps -> 0 <= eps <= / 8 ->
  well_formed e -> eTransform e = TransformSoftmax (NRawOutputGroups e) -> (NRawOutputGroups e <= 2 ^ 50)%Z ->
  core (eBase e) = BXg m -> valid_leaves (xgTrees m) ->
  valid64 (xgBaseScore m) = true -> Forall (fun w => valid64 w = true) (xgWeightDrop m) ->
  Predict p e fvals nEstimators predictions = Ok out ->
  Predict p (EnsembleWithRawPredictions e) fvals nEstimators rawbuf = Ok raw ->
  let classes := NRawOutputGroups e in
  let scores := firstn (Z.to_nat classes) raw in
  Forall (fun r => valid64 r = true /\ finite64 r = true /\ real r <= 300) scores -> (exists r, In r scores /\ -300 <= real r) ->
  exists n all, used_estimators e nEstimators n /\ zlen all = classes /\
  (forall k leaves weights, zget all k = Some (leaves, weights) -> tree_outputs p (xgTrees m) classes k n fvals leaves /\
     zlen weights = n /\ (forall i, (0 <= i < n)%Z -> zget weights i = zget (xgWeightDrop m) (i * classes + k)%Z)) /\
  let terms lw := map (fun vw => real (fst vw) * real (snd vw)) (combine (fst lw) (snd lw)) in
  let exact lw := real (xgBaseScore m) + Rsum (terms lw) in
  forall d, Forall (fun lw => growth (Z.to_nat n + 1) * (Rabs (real (xgBaseScore m)) + Rsum (map Rabs (terms lw))) + (1 + growth (Z.to_nat n)) * (IZR n * half_tiny) <= d) all ->
  forall k lw, zget all k = Some lw -> exists y, zget out k = Some y /\
    let probability := softmax (map exact all) (exact lw) in
    Rabs (real y - probability) <= ((1 + 4 * eps + softmax_error (Z.to_nat classes)) * exp (2 * d) - 1) * probability + bpow radix2 (-390).
Proof.
  intros p eps e m fv nE preds out rawbuf raw Hg Ha Heps Hwf Ht Hn Hm Hv Hb Hw H Hr classes scores Hs Hlow.
  exact (xgboost_softmax p eps e fv nE preds out rawbuf raw Hg Ha Heps Hwf Ht Hn H Hr Hs Hlow m Hm Hv Hb Hw).
Qed.
Print Assumptions C86_xgboost_softmax.

(** ** The hypotheses are met *)
Local Opaque rounded_exp.

(** two trees per class *)
Example lightgbm_softmax_case :
  exists out n all, Predict (with_exp rounded_exp) demo_softmax (map fint [1; 2]%Z) 0 (zeros 2) = Ok out /\ zlen all = 2%Z /\
  forall d, Forall (fun leaves => growth (Z.to_nat n) * Rsum (map Rabs (map real leaves)) <= d) all ->
  forall k leaves, zget all k = Some leaves -> exists y, zget out k = Some y /\
    Rabs (real y - softmax (map (fun l => Rsum (map real l)) all) (Rsum (map real leaves))) <=
    ((1 + 4 * unit_roundoff + softmax_error 2) * exp (2 * d) - 1) * softmax (map (fun l => Rsum (map real l)) all) (Rsum (map real leaves)) + bpow radix2 (-390).
Proof.
  destruct (with_exp_softmax rounded_exp) as [[out H1] H2]. destruct C86_rounded_exp as (Hg & _ & Ha).
  assert (R15 : real (fint 15) = 15) by (vm_compute; lra). assert (R9 : real (fint 9) = 9) by (vm_compute; lra).
  destruct transform_case as (Hwf & Ht & _).
  assert (Vl : valid_leaves (lgTrees demo_lg)) by (repeat constructor).
  destruct (C86_lightgbm_softmax (with_exp rounded_exp) unit_roundoff demo_softmax demo_lg _ _ _ _ _ _ Hg Ha ltac:(pose proof u_pos; pose proof u_small; lra) Hwf Ht ltac:(vm_compute; discriminate) eq_refl eq_refl Vl H1 H2) as (n & all & _ & La & _ & K).
  - change (firstn _ _) with [fint 15; fint 9]. repeat constructor; lra.
  - exists (fint 15). split; [left; reflexivity|lra].
  - exists out, n, all. split; [exact H1|split; [exact La|exact K]].
Qed.

Lemma with_exp_logistic : forall E,
  exists raw, Predict (with_exp E) demo_logistic (map fint [1; 2]%Z) 0 (zeros 1) = Ok [logistic_of (with_exp E) raw] /\
  Predict (with_exp E) (EnsembleWithRawPredictions demo_logistic) (map fint [1; 2]%Z) 0 (zeros 1) = Ok [raw] /\ valid64 raw = true /\ finite64 raw = true.
Proof.
  intros E.
  assert (R : exists raw, (let* raw := make_f64 (with_exp E) 1 in exec (b_predictInner (with_exp E) (BXg demo_xg) (map fint [1; 2]%Z) 2 0) raw) = Ok [raw] /\
    Predict (with_exp E) (EnsembleWithRawPredictions demo_logistic) (map fint [1; 2]%Z) 0 (zeros 1) = Ok [raw] /\ valid64 raw = true /\ finite64 raw = true)
    by (eexists; split; [vm_compute; reflexivity|split; [vm_compute; reflexivity|split; reflexivity]]).
  destruct R as (r & R & Rr & V & F). exists r. split; [|split; [exact Rr|split; assumption]].
  change (exec (cmds_of (let* raw := make_f64 (with_exp E) 1 in exec (b_predictInner (with_exp E) (BXg demo_xg) (map fint [1; 2]%Z) 2 0) raw)
    (fun raw => match Transform_t (with_exp E) TransformLogistic raw 0 with Ok cs => cs | Err _ => [] | Panic m => [CPanic m] | Hang => [CHang] end)) (zeros 1) = Ok [logistic_of (with_exp E) r]).
  rewrite R. reflexivity.
Qed.

(** a binary XGBoost model with drop-out weights *)
Example xgboost_case :
  exists n leaves weights y, Predict (with_exp rounded_exp) demo_logistic (map fint [1; 2]%Z) 0 (zeros 1) = Ok [y] /\
    tree_outputs (with_exp rounded_exp) (xgTrees demo_xg) 1 0 n (map fint [1; 2]%Z) leaves /\
    let exact := map (fun vw => real (fst vw) * real (snd vw)) (combine leaves weights) in
    Rabs (real y - sigmoid (real (xgBaseScore demo_xg) + Rsum exact)) <=
    2 * unit_roundoff + bpow radix2 (-50) +
    (growth (Z.to_nat n + 1) * (Rabs (real (xgBaseScore demo_xg)) + Rsum (map Rabs exact)) + (1 + growth (Z.to_nat n)) * (IZR n * half_tiny)) / 4.
Proof.
  destruct (with_exp_logistic rounded_exp) as (raw & H1 & H2 & V & F). destruct C86_rounded_exp as (Hg & _ & Ha).
  assert (W : well_formed demo_logistic) by (repeat split; try reflexivity; vm_compute; discriminate).
  assert (Vl : valid_leaves (xgTrees demo_xg)) by (repeat constructor).
  assert (Vw : Forall (fun w => valid64 w = true) (xgWeightDrop demo_xg)) by (repeat constructor).
  assert (Eu : 0 <= unit_roundoff <= / 8) by (pose proof u_pos; pose proof u_small; lra).
  destruct (C86_xgboost_probability (with_exp rounded_exp) unit_roundoff demo_logistic demo_xg _ _ _ _ _ _ raw Hg Ha Eu W eq_refl eq_refl eq_refl Vl eq_refl Vw H1 H2 eq_refl V F) as (n & leaves & ws & y & _ & T & _ & _ & Y & B).
  exists n, leaves, ws, y. split; [|split; [exact T|exact B]]. rewrite H1. injection Y as <-. reflexivity.
Qed.

(** a binary linear model: weights 1 and 2, bias 3 *)
Definition demo_linear1 : xgLinear := mkXgLinear 2 1 (fint 1) [1065353216; 1073741824; 1077936128]%Z.
Definition demo_lin_logistic : Ensemble := mkEnsemble (BLinear demo_linear1) TransformLogistic.

Lemma with_exp_linear : forall E,
  Predict (with_exp E) demo_lin_logistic (map fint [-1; -2]%Z) 0 (zeros 1) = Ok [logistic_of (with_exp E) (fint (-1))] /\
  Predict (with_exp E) (EnsembleWithRawPredictions demo_lin_logistic) (map fint [-1; -2]%Z) 0 (zeros 1) = Ok [fint (-1)].
Proof.
  intros E. split; [|vm_compute; reflexivity].
  assert (R : (let* raw := make_f64 (with_exp E) 1 in exec (b_predictInner (with_exp E) (BLinear demo_linear1) (map fint [-1; -2]%Z) 1 0) raw) = Ok [fint (-1)]) by (vm_compute; reflexivity).
  change (exec (cmds_of (let* raw := make_f64 (with_exp E) 1 in exec (b_predictInner (with_exp E) (BLinear demo_linear1) (map fint [-1; -2]%Z) 1 0) raw)
    (fun raw => match Transform_t (with_exp E) TransformLogistic raw 0 with Ok cs => cs | Err _ => [] | Panic m => [CPanic m] | Hang => [CHang] end)) (zeros 1) =
    Ok [logistic_of (with_exp E) (fint (-1))]).
  rewrite R. reflexivity.
Qed.

Example gblinear_case :
  exists bias xs ws y, Predict (with_exp rounded_exp) demo_lin_logistic (map fint [-1; -2]%Z) 0 (zeros 1) = Ok [y] /\
    let b := real (f64_of_f32bits bias) in
    let exact := map (fun xw => real (fst xw) * real (f64_of_f32bits (snd xw))) (combine xs ws) in
    Rabs (real y - sigmoid (real (fint 1) + b + Rsum exact)) <=
    2 * unit_roundoff + bpow radix2 (-50) +
    (growth 4 * (Rabs (real (fint 1)) + Rabs b + Rsum (map Rabs exact)) + (1 + growth 3) * ((2 + 1) * half_tiny)) / 4.
Proof.
  destruct (with_exp_linear rounded_exp) as [H1 H2]. destruct C86_rounded_exp as (Hg & _ & Ha).
  assert (W : well_formed demo_lin_logistic) by (repeat split; try reflexivity; vm_compute; discriminate).
  assert (Vx : Forall (fun x => valid64 x = true) (map fint [-1; -2]%Z)) by (repeat constructor).
  assert (Eu : 0 <= unit_roundoff <= / 8) by (pose proof u_pos; pose proof u_small; lra).
  destruct (C86_gblinear_probability (with_exp rounded_exp) unit_roundoff demo_lin_logistic demo_linear1 _ _ _ _ _ _ (fint (-1)) Hg Ha Eu W eq_refl eq_refl eq_refl ltac:(vm_compute; discriminate) ltac:(vm_compute; discriminate) eq_refl Vx H1 H2 eq_refl eq_refl eq_refl)
    as (bias & xs & ws & y & _ & _ & _ & _ & Y & B).
  exists bias, xs, ws, y. split; [|exact B]. rewrite H1. injection Y as <-. reflexivity.
Qed.

(** two classes, one weighted tree each *)
Definition demo_xg2 : xgEnsemble :=
  mkXgEnsemble [stump 0 (fint 1) (fint 10) (fint 20); tree3 (fint 1) (fint 2) (fint 3)] 1 2 (fint 3) [fint 1; fint 2] (bs "xgboost.dart").
Definition demo_xg_softmax : Ensemble := mkEnsemble (BXg demo_xg2) (TransformSoftmax 2).

Lemma with_exp_xg_softmax : forall E, exists a b,
  (exists out, Predict (with_exp E) demo_xg_softmax (map fint [1; 2]%Z) 0 (zeros 2) = Ok out) /\
  Predict (with_exp E) (EnsembleWithRawPredictions demo_xg_softmax) (map fint [1; 2]%Z) 0 (zeros 2) = Ok [a; b] /\
  Forall (fun r => valid64 r = true /\ finite64 r = true /\ 0 <= real r <= 300) [a; b].
Proof.
  intros E.
  assert (R : exists a b, (let* raw := make_f64 (with_exp E) 2 in exec (b_predictInner (with_exp E) (BXg demo_xg2) (map fint [1; 2]%Z) 1 0) raw) = Ok [a; b] /\
    Predict (with_exp E) (EnsembleWithRawPredictions demo_xg_softmax) (map fint [1; 2]%Z) 0 (zeros 2) = Ok [a; b] /\
    Forall (fun r => valid64 r = true /\ finite64 r = true /\ 0 <= real r <= 300) [a; b]).
  { eexists _, _. split; [vm_compute; reflexivity|split; [vm_compute; reflexivity|]].
    apply Forall_cons; [|apply Forall_cons; [|apply Forall_nil]]; (split; [reflexivity|split; [reflexivity|vm_compute; split; lra]]). }
  destruct R as (a & b & R & Rr & F). exists a, b. split; [|split; assumption].
  change (exists out, exec (cmds_of (let* raw := make_f64 (with_exp E) 2 in exec (b_predictInner (with_exp E) (BXg demo_xg2) (map fint [1; 2]%Z) 1 0) raw)
    (fun raw => match Transform_t (with_exp E) (TransformSoftmax 2) raw 0 with Ok cs => cs | Err _ => [] | Panic m => [CPanic m] | Hang => [CHang] end)) (zeros 2) = Ok out).
  rewrite R. cbn [cmds_of Transform_t]. change (negb (zlen [a; b] =? 2)%Z) with false. cbv iota. unfold SoftmaxFloat64Slice.
  set (s := UtilMath.softmax_sum _ _). destruct (negb (feq s fzero)); eexists; reflexivity.
Qed.

Example xgboost_softmax_case :
  exists out n all, Predict (with_exp rounded_exp) demo_xg_softmax (map fint [1; 2]%Z) 0 (zeros 2) = Ok out /\ zlen all = 2%Z /\
  let terms lw := map (fun vw => real (fst vw) * real (snd vw)) (combine (fst lw) (snd lw)) in
  let exact lw := real (fint 3) + Rsum (terms lw) in
  forall d, Forall (fun lw => growth (Z.to_nat n + 1) * (Rabs (real (fint 3)) + Rsum (map Rabs (terms lw))) + (1 + growth (Z.to_nat n)) * (IZR n * half_tiny) <= d) all ->
  forall k lw, zget all k = Some lw -> exists y, zget out k = Some y /\
    Rabs (real y - softmax (map exact all) (exact lw)) <=
    ((1 + 4 * unit_roundoff + softmax_error 2) * exp (2 * d) - 1) * softmax (map exact all) (exact lw) + bpow radix2 (-390).
Proof.
  destruct (with_exp_xg_softmax rounded_exp) as (a & b & [out H1] & H2 & F). destruct C86_rounded_exp as (Hg & _ & Ha).
  assert (W : well_formed demo_xg_softmax) by (repeat split; try reflexivity; vm_compute; discriminate).
  assert (Vl : valid_leaves (xgTrees demo_xg2)) by (repeat constructor).
  assert (Vw : Forall (fun w => valid64 w = true) (xgWeightDrop demo_xg2)) by (repeat constructor).
  destruct (C86_xgboost_softmax (with_exp rounded_exp) unit_roundoff demo_xg_softmax demo_xg2 _ _ _ _ _ _ Hg Ha ltac:(pose proof u_pos; pose proof u_small; lra) W eq_refl ltac:(vm_compute; discriminate) eq_refl Vl eq_refl Vw H1 H2) as (n & all & _ & La & _ & K).
  - change (firstn _ _) with [a; b]. eapply Forall_impl; [|exact F]. intros r (V & Fr & B). split; [exact V|split; [exact Fr|lra]].
  - exists a. split; [left; reflexivity|]. inversion F as [|? ? (_ & _ & B) _]. lra.
  - exists out, n, all. split; [exact H1|split; [exact La|exact K]].
Qed.
