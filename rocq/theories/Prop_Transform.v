(** * Properties of the output transformations (C19, C20, C54) *)

From Coq Require Import ZArith List Bool String Lia ZifyBool Reals Lra.
From Coq Require Import Floats.SpecFloat.
From Flocq Require Import Core.Core.
From Verif Require Import Go GoFloat Cmd UtilMath LgTree Transformation Ensembles Leaves Parallel Spec_Predict Spec_Split
  Spec_Transform Pf_Go Pf_Cmd Pf_Exec Pf_Leaves Pf_Calls Pf_Rows Pf_Float Pf_Split Pf_Range Pf_Transform Demo.
Local Open Scope Z_scope.

(** what is assumed of math.Exp: a non-negative non-NaN float64 (possibly +Inf) for every
    argument that is not NaN *)
Definition good_exp (p : platform) : Prop :=
  forall x, valid64 x = true -> is_nan x = false -> valid64 (pl_exp p x) = true /\ le64 fzero (pl_exp p x).

(** ** C54: a transformed prediction is the transformation of the raw prediction *)
Theorem C54_raw_view_predicts :
  forall p e fvals nEstimators predictions out rawbuf,
  well_formed e -> (forall n, eTransform e <> TransformLeafIndex n) ->
  Predict p e fvals nEstimators predictions = Ok out -> NRawOutputGroups e <= zlen rawbuf ->
  exists raw, Predict p (EnsembleWithRawPredictions e) fvals nEstimators rawbuf = Ok raw.
Proof.
  intros p e fv nE preds out rawbuf Hwf Ht H Hl.
  destruct (Predict_inv _ _ _ _ _ _ Hwf H) as (n & Ha & Hc & Hf & _ & E).
  assert (Er : exists tmp tmp', exec (b_predictInner p (eBase e) fv n 0) tmp = Ok tmp').
  { unfold predictInnerAndTransform in E.
    assert (K : forall cs, exec (cmds_of (let* raw := make_f64 p (NRawOutputGroups e) in
             exec (b_predictInner p (eBase e) fv n 0) raw) cs) preds = Ok out ->
             exists tmp tmp', exec (b_predictInner p (eBase e) fv n 0) tmp = Ok tmp').
    { intros cs Ecs. destruct (let* raw := make_f64 p (NRawOutputGroups e) in exec (b_predictInner p (eBase e) fv n 0) raw) eqn:Er;
        simpl in Ecs; try discriminate. apply bind_ok in Er. destruct Er as (z & _ & Er). eauto. }
    destruct (eTransform e) as [q| |q|q|] eqn:Et; cbn [Type_t] in E;
      [ do 2 eexists; exact E | eapply K; exact E | eapply K; exact E | exfalso; eapply Ht; eauto | eapply K; exact E]. }
  destruct Er as (tmp & tmp' & Er).
  assert (R : Forall (runs (zlen tmp)) (b_predictInner p (eBase e) fv n 0)) by (apply exec_runs; eauto).
  pose proof (inner_within p (eBase e) fv n) as Win.
  assert (R' : Forall (runs (zlen rawbuf)) (b_predictInner p (eBase e) fv n 0)).
  { rewrite Forall_forall in R |- *. intros c Hin. destruct (R c Hin) as (i & f & Hu & Hi). exists i, f. split; auto.
    unfold within in Win. rewrite Forall_forall in Win. specialize (Win c Hin). unfold cell_in in Win. rewrite Hu in Win.
    unfold NRawOutputGroups in Hl. lia. }
  apply exec_runs in R'. destruct R' as [raw ER]. exists raw.
  unfold Predict. cbv zeta.
  change (NOutputGroups (EnsembleWithRawPredictions e)) with (NRawOutputGroups e).
  change (NFeatures (EnsembleWithRawPredictions e)) with (NFeatures e).
  change (b_adjustNEstimators (eBase (EnsembleWithRawPredictions e)) nE) with (b_adjustNEstimators (eBase e) nE).
  rewrite Z.mul_1_r. pose proof Hwf as ([G1 G2] & _).
  rewrite s64_id by (unfold MaxInt, two63 in *; lia).
  replace (zlen rawbuf <? NRawOutputGroups e) with false by lia.
  replace (zlen fv <? NFeatures e) with false by lia.
  rewrite Ha. cbn [bind]. exact ER.
Qed.
Print Assumptions C54_raw_view_predicts.

Theorem C54_logistic :
  forall p e fvals nEstimators predictions out rawbuf raw,
  well_formed e -> eTransform e = TransformLogistic -> NRawOutputGroups e = 1 ->
  Predict p e fvals nEstimators predictions = Ok out ->
  Predict p (EnsembleWithRawPredictions e) fvals nEstimators rawbuf = Ok raw ->
  exists r, zget raw 0 = Some r /\ zget out 0 = Some (logistic_of p r).
Proof.
  intros p e fv nE preds out rawbuf raw Hwf Ht Hg H Hr.
  destruct (predict_transform p e fv nE preds out rawbuf raw Hwf ltac:(rewrite Ht; auto) H Hr) as (tmp & L & Hz & E & _).
  rewrite Ht in E. cbn [Transform_t] in E. rewrite L, Hg in E. simpl negb in E. cbv iota in E.
  rewrite Hg in *. destruct (zget_some _ tmp 0) as [r Ez]; [lia|].
  exists r. rewrite <- Hz by lia. split; auto.
  unfold at_ in E. rewrite Ez in E. cbn [bind] in E. cbn [exec exec1] in E.
  apply bind_ok in E. destruct E as (m' & E & E'). injection E' as <-. apply set_at_ok in E.
  apply (zset_get_same _ _ _ _ _ E).
Qed.
Print Assumptions C54_logistic.

Theorem C54_exponential :
  forall p e fvals nEstimators predictions out rawbuf raw,
  well_formed e -> eTransform e = TransformExponential -> NRawOutputGroups e = 1 ->
  Predict p e fvals nEstimators predictions = Ok out ->
  Predict p (EnsembleWithRawPredictions e) fvals nEstimators rawbuf = Ok raw ->
  exists r, zget raw 0 = Some r /\ zget out 0 = Some (pl_exp p r).
Proof.
  intros p e fv nE preds out rawbuf raw Hwf Ht Hg H Hr.
  destruct (predict_transform p e fv nE preds out rawbuf raw Hwf ltac:(rewrite Ht; auto) H Hr) as (tmp & L & Hz & E & _).
  rewrite Ht in E. cbn [Transform_t] in E. rewrite L, Hg in E. simpl negb in E. cbv iota in E.
  rewrite Hg in *. destruct (zget_some _ tmp 0) as [r Ez]; [lia|].
  exists r. rewrite <- Hz by lia. split; auto.
  unfold at_ in E. rewrite Ez in E. cbn [bind] in E. cbn [exec exec1] in E.
  apply bind_ok in E. destruct E as (m' & E & E'). injection E' as <-. apply set_at_ok in E.
  apply (zset_get_same _ _ _ _ _ E).
Qed.
Print Assumptions C54_exponential.

Theorem C54_softmax :
  forall p e fvals nEstimators predictions out rawbuf raw,
  well_formed e -> eTransform e = TransformSoftmax (NRawOutputGroups e) ->
  Predict p e fvals nEstimators predictions = Ok out ->
  Predict p (EnsembleWithRawPredictions e) fvals nEstimators rawbuf = Ok raw ->
  forall k, 0 <= k < NRawOutputGroups e -> exists r,
    zget raw k = Some r /\
    zget out k = Some (softmax_of p (firstn (Z.to_nat (NRawOutputGroups e)) raw) r).
Proof.
  intros p e fv nE preds out rawbuf raw Hwf Ht H Hr k Hk.
  destruct (predict_transform p e fv nE preds out rawbuf raw Hwf ltac:(rewrite Ht; auto) H Hr) as (tmp & L & Hz & E & Hl).
  rewrite Ht in E. cbn [Transform_t] in E. rewrite L, Z.eqb_refl in E. simpl negb in E. cbv iota in E.
  assert (Hlen : zlen tmp <= zlen preds).
  { unfold NOutputGroups in Hl. rewrite Ht in Hl. simpl in Hl. pose proof Hwf as ([G1 G2] & _).
    rewrite s64_id in Hl by (unfold MaxInt, two63 in *; lia). lia. }
  destruct (softmax_writes p tmp preds out Hlen E k ltac:(lia)) as (r & H1 & H2).
  assert (Eq : tmp = firstn (Z.to_nat (NRawOutputGroups e)) raw).
  { assert (Lr : NRawOutputGroups e <= zlen raw).
    { destruct (zget_some _ tmp (NRawOutputGroups e - 1)) as [x Hx]; [lia|].
      rewrite Hz in Hx by lia. apply zget_range in Hx. lia. }
    apply zget_ext.
    - pose proof (zlen_sub _ raw 0 (NRawOutputGroups e)) as Ls. simpl skipn in Ls. rewrite Ls; lia.
    - intros i Hi. rewrite Hz by lia. pose proof (zget_sub _ raw 0 (NRawOutputGroups e) i) as Gs. simpl skipn in Gs. rewrite Gs by lia. auto. }
  exists r. rewrite <- Hz, <- Eq by lia. auto.
Qed.
Print Assumptions C54_softmax.

(** ** C19 *)
Lemma exp_nonneg : forall p x, good_exp p -> valid64 x = true -> is_nan x = false -> nonneg (pl_exp p x).
Proof. intros p x H V N. destruct (H x V N). split; auto. Qed.

Theorem C19_logistic_range :
  forall p e fvals nEstimators predictions out rawbuf raw r,
  good_exp p -> well_formed e -> eTransform e = TransformLogistic -> NRawOutputGroups e = 1 ->
  Predict p e fvals nEstimators predictions = Ok out ->
  Predict p (EnsembleWithRawPredictions e) fvals nEstimators rawbuf = Ok raw ->
  zget raw 0 = Some r -> valid64 r = true -> is_nan r = false ->
  exists y, zget out 0 = Some y /\ is_nan y = false /\ le64 fzero y /\ le64 y fone.
Proof.
  intros p e fv nE preds out rawbuf raw r He Hwf Ht Hg H Hr Hz V N.
  destruct (C54_logistic _ _ _ _ _ _ _ _ Hwf Ht Hg H Hr) as (r' & Hr' & Ho). assert (r' = r) by congruence. subst r'.
  exists (logistic_of p r). split; auto.
  assert (Nn : nonneg (pl_exp p (fneg r))).
  { apply exp_nonneg; auto; [apply fneg_valid; auto|]. destruct r; auto. }
  assert (N1 : nonneg fone) by (split; [reflexivity|]; simpl; unfold real; simpl; unfold F2R; simpl; lra).
  destruct (fadd_nonneg fone _ N1 Nn) as ([Vs _] & L1 & _).
  destruct (finv_ge1 _ Vs L1) as (Vq & Q0 & Q1). unfold logistic_of. split; auto.
  destruct (fdiv _ _) as [s|[|]| |s m ex]; auto; contradiction.
Qed.
Print Assumptions C19_logistic_range.

Theorem C19_exponential_range :
  forall p e fvals nEstimators predictions out rawbuf raw r,
  good_exp p -> well_formed e -> eTransform e = TransformExponential -> NRawOutputGroups e = 1 ->
  Predict p e fvals nEstimators predictions = Ok out ->
  Predict p (EnsembleWithRawPredictions e) fvals nEstimators rawbuf = Ok raw ->
  zget raw 0 = Some r -> valid64 r = true -> is_nan r = false ->
  exists y, zget out 0 = Some y /\ is_nan y = false /\ le64 fzero y.
Proof.
  intros p e fv nE preds out rawbuf raw r He Hwf Ht Hg H Hr Hz V N.
  destruct (C54_exponential _ _ _ _ _ _ _ _ Hwf Ht Hg H Hr) as (r' & Hr' & Ho). assert (r' = r) by congruence. subst r'.
  exists (pl_exp p r). split; auto. destruct (He r V N) as [_ L]. split; auto.
  destruct (pl_exp p r) as [s|[|]| |s m ex]; auto; contradiction.
Qed.
Print Assumptions C19_exponential_range.

(** ** C20 *)
Lemma sum_bounds : forall l x, nonneg x -> Forall nonneg l ->
  nonneg (sum_from x l) /\ le64 x (sum_from x l) /\ forall y, In y l -> le64 y (sum_from x l).
Proof.
  induction l as [|a l IH]; intros x Hx Hl; simpl.
  - split; auto. split; [|contradiction]. apply le64_refl. destruct Hx as [_ H]. destruct x as [s|[|]| |s m ex]; auto; contradiction.
  - inversion Hl; subst. destruct (fadd_nonneg x a Hx H1) as (Ns & Lx & La).
    destruct (IH (fadd x a) Ns H2) as (N & L & Hin). unfold sum_from in *. simpl. split; auto. split.
    + eapply le64_trans; [apply Hx|apply Ns|apply N|exact Lx|exact L].
    + intros y [<-|Hy]; auto. eapply le64_trans; [apply H1|apply Ns|apply N|exact La|exact L].
Qed.

Lemma exps_nonneg : forall p raws, good_exp p -> Forall (fun r => valid64 r = true /\ is_nan r = false) raws ->
  Forall nonneg (map (pl_exp p) raws).
Proof.
  intros p raws H F. rewrite Forall_forall in *. intros y Hy. apply in_map_iff in Hy. destruct Hy as (x & <- & Hx).
  destruct (F x Hx). apply exp_nonneg; auto.
Qed.

Lemma nonneg_zero : nonneg fzero.
Proof. split; [reflexivity|]. simpl. apply Rle_refl. Qed.

Lemma le_finite : forall a b, nonneg a -> le64 a b -> finite64 b = true -> finite64 a = true.
Proof. intros a b [_ Ha] H F. destruct a as [s|[|]| |s m ex]; destruct b as [sb|[|]| |sb mb eb]; auto; try discriminate; contradiction. Qed.

(** the softmax of raw scores whose exponentials have a sum in the normal range *)
Theorem C20_softmax_distribution :
  forall p raws, good_exp p ->
  Forall (fun r => valid64 r = true /\ is_nan r = false) raws ->
  finite64 (exp_sum p raws) = true ->
  (bpow radix2 (-1022) <= real (exp_sum p raws) <= bpow radix2 1022)%R ->
  (forall r, In r raws -> le64 fzero (softmax_of p raws r) /\ le64 (softmax_of p raws r) fone) /\
  (forall r r', In r raws -> In r' raws -> le64 (pl_exp p r) (pl_exp p r') ->
     le64 (softmax_of p raws r) (softmax_of p raws r')).
Proof.
  intros p raws He Hr Fs Hs. pose proof (exps_nonneg p raws He Hr) as Hn.
  destruct (sum_bounds (map (pl_exp p) raws) fzero nonneg_zero Hn) as (Ns & _ & Hin).
  fold (exp_sum p raws) in Ns, Hin.
  destruct (finv_normal _ (proj1 Ns) Fs Hs) as (Ni & Fi & Hle).
  assert (Nz : feq (exp_sum p raws) fzero = false).
  {
    destruct (exp_sum p raws) as [s|s| |s m ex] eqn:Es; try discriminate; auto.
    destruct s; reflexivity. }
  assert (Hex : forall r, In r raws -> nonneg (pl_exp p r) /\ le64 (pl_exp p r) (exp_sum p raws) /\ finite64 (pl_exp p r) = true).
  { intros r Hir. assert (nonneg (pl_exp p r)) by (rewrite Forall_forall in Hn; apply Hn, in_map; auto).
    assert (le64 (pl_exp p r) (exp_sum p raws)) by (apply Hin, in_map; auto).
    repeat split; try apply H; auto. eapply le_finite; eauto. }
  unfold softmax_of. rewrite Nz. split.
  - intros r Hir. destruct (Hex r Hir) as (N & L & F). split; [|apply Hle; auto].
    apply (fmul_mono (pl_exp p r) (pl_exp p r) (fdiv fone (exp_sum p raws))); auto.
    apply le64_refl. destruct N as [_ N]. destruct (pl_exp p r) as [s|[|]| |s m ex]; auto; contradiction.
  - intros r r' Hir Hir' L. destruct (Hex r Hir) as (N & _ & F). destruct (Hex r' Hir') as (N' & _ & F').
    apply fmul_mono; auto.
Qed.
Print Assumptions C20_softmax_distribution.

(** The same for the outputs of Predict. *)
Theorem C20_softmax_predictions :
  forall p e fvals nEstimators predictions out rawbuf raw,
  good_exp p -> well_formed e -> eTransform e = TransformSoftmax (NRawOutputGroups e) ->
  Predict p e fvals nEstimators predictions = Ok out ->
  Predict p (EnsembleWithRawPredictions e) fvals nEstimators rawbuf = Ok raw ->
  let raws := firstn (Z.to_nat (NRawOutputGroups e)) raw in
  Forall (fun r => valid64 r = true /\ is_nan r = false) raws ->
  finite64 (exp_sum p raws) = true ->
  (bpow radix2 (-1022) <= real (exp_sum p raws) <= bpow radix2 1022)%R ->
  forall k, 0 <= k < NRawOutputGroups e -> exists y, zget out k = Some y /\ le64 fzero y /\ le64 y fone.
Proof.
  intros p e fv nE preds out rawbuf raw He Hwf Ht H Hr raws Hv Hf Hs k Hk.
  destruct (C54_softmax _ _ _ _ _ _ _ _ Hwf Ht H Hr k Hk) as (r & Hz & Ho).
  destruct (C20_softmax_distribution p raws He Hv Hf Hs) as [R _].
  exists (softmax_of p raws r). split; auto. apply R.
  unfold raws. pose proof (zget_sub _ raw 0 (NRawOutputGroups e) k) as Gs. simpl skipn in Gs.
  apply (zget_in _ _ k). rewrite Gs by lia. auto.
Qed.
Print Assumptions C20_softmax_predictions.

(** Outside of that range the property fails.  A class whose exponential overflows gets NaN. *)
Theorem C20_overflow_gives_nan_refuted :
  forall p raws r, good_exp p -> Forall (fun r => valid64 r = true /\ is_nan r = false) raws ->
  In r raws -> pl_exp p r = finf -> softmax_of p raws r = fnan.
Proof.
  intros p raws r He Hr Hin Hinf. pose proof (exps_nonneg p raws He Hr) as Hn.
  destruct (sum_bounds (map (pl_exp p) raws) fzero nonneg_zero Hn) as (Ns & _ & Hle).
  fold (exp_sum p raws) in Ns, Hle. specialize (Hle _ (in_map (pl_exp p) _ _ Hin)). rewrite Hinf in Hle.
  unfold softmax_of. rewrite Hinf.
  destruct (exp_sum p raws) as [s|[|]| |s m ex]; simpl in Hle; try contradiction. reflexivity.
Qed.
Print Assumptions C20_overflow_gives_nan_refuted.

(** If only the sum overflows, every output is zero. *)
Theorem C20_sum_overflow_gives_zero_refuted :
  forall p raws r, exp_sum p raws = finf -> nonneg (pl_exp p r) -> finite64 (pl_exp p r) = true ->
  feq (softmax_of p raws r) fzero = true.
Proof.
  intros p raws r Hs [_ N] F. unfold softmax_of. rewrite Hs. change (feq finf fzero) with false. cbv iota.
  change (fdiv fone finf) with fzero.
  destruct (pl_exp p r) as [s|s| |s m ex]; try discriminate; destruct s; reflexivity.
Qed.
Print Assumptions C20_sum_overflow_gives_zero_refuted.

(** a platform whose exponential is the constant [c]: stands for raw scores with that exponential *)
Definition const_exp (c : f64) : platform :=
  mkPlatform amd64_f2i32 amd64_f2u32 (fun _ => c) 1 (2 ^ 40) (fun _ => None) (fun _ => []) (fun c _ => 2 * c + 1).

Lemma const_exp_good : forall c, valid64 c = true -> le64 fzero c -> good_exp (const_exp c).
Proof. intros c V L x _ _. split; auto. Qed.

(** A tiny (subnormal) sum: the inverse overflows and the output is infinite. *)
Theorem C20_underflow_gives_inf_refuted :
  exists p raws r, good_exp p /\ Forall (fun r => valid64 r = true /\ is_nan r = false) raws /\ In r raws /\
    feq (exp_sum p raws) fzero = false /\ softmax_of p raws r = finf.
Proof.
  exists (const_exp (S754_finite false 1 (-1074))), [fzero; fone], fzero.
  split; [apply const_exp_good; [reflexivity|]; simpl; unfold real; simpl; apply F2R_ge_0; simpl; lia|].
  split; [repeat constructor|]. split; [simpl; auto|]. split; vm_compute; reflexivity.
Qed.
Print Assumptions C20_underflow_gives_inf_refuted.

(** A sum above 2^1022: the inverse is subnormal and an output can exceed one. *)
Theorem C20_large_sum_exceeds_one_refuted :
  exists p raws r, good_exp p /\ Forall (fun r => valid64 r = true /\ is_nan r = false) raws /\ In r raws /\
    finite64 (exp_sum p raws) = true /\ flt fone (softmax_of p raws r) = true.
Proof.
  exists (const_exp (S754_finite false 5565716070413372 971)), [fzero], fzero.
  split; [apply const_exp_good; [reflexivity|]; simpl; unfold real; simpl; apply F2R_ge_0; simpl; lia|].
  split; [repeat constructor|]. split; [simpl; auto|]. split; vm_compute; reflexivity.
Qed.
Print Assumptions C20_large_sum_exceeds_one_refuted.

(** ** Concrete cases *)
Lemma amd64_good_exp : good_exp amd64.
Proof.
  assert (Z1 : le64 fzero fone) by (simpl; unfold real; simpl; unfold F2R; simpl; lra).
  intros x V N. simpl. destruct x as [s|[|]| |s m ex]; try discriminate; simpl toy_exp; split; try reflexivity; try exact Z1; simpl; auto.
  apply Rle_refl.
Qed.

Example transform_case :
  well_formed demo_softmax /\ eTransform demo_softmax = TransformSoftmax (NRawOutputGroups demo_softmax) /\
  Predict amd64 demo_softmax (map fint [1; 2]) 0 (zeros 2) = Ok [fdiv fone (fint 2); fdiv fone (fint 2)] /\
  Predict amd64 (EnsembleWithRawPredictions demo_softmax) (map fint [1; 2]) 0 (zeros 2) = Ok (map fint [15; 9]) /\
  exp_sum amd64 (map fint [15; 9]) = fint 2 /\
  Predict amd64 demo_logistic (map fint [1; 2]) 0 (zeros 1) = Ok [fdiv fone (fint 2)].
Proof. split; [repeat split; try reflexivity; vm_compute; discriminate|]. repeat split; vm_compute; reflexivity. Qed.
