(** * From the class of a sklearn model to the ensemble *)

From Coq Require Import ZArith List Bool String Lia ZifyBool Reals Floats.SpecFloat.
From Flocq Require Import Core.Core IEEE754.BinarySingleNaN Plus_error.
From Verif Require Import Go GoFloat GoText LgTree TreeBuild Transformation Ensembles Leaves XgBin Pickle SkClasses SkIO.
From Verif Require Import Spec_Predict Spec_Split Spec_Tree Spec_XgBin Spec_Numpy Spec_Pickle Spec_SkTree Spec_SkFile.
From Verif Require Import Pf_Go Pf_Text Pf_Float Pf_Range Pf_Leaves Pf_Bits Pf_Split Pf_Build Pf_Placed Pf_Append Pf_XgBin Pf_XgTree Pf_SkTree Pf_SkFile Prop_LgText Prop_Xg.
Local Open Scope Z_scope.

(** ** Adding zero *)
Definition minus_zero : f64 := S754_zero true.
Lemma fadd_not_minus_zero : forall a b, valid64 a = true -> valid64 b = true -> a <> minus_zero -> fadd a b <> minus_zero.
Proof.
  intros a b Va Vb N E. destruct (valid_B a Va) as [x <-]. destruct (valid_B b Vb) as [y <-]. rewrite fadd_B in E.
  assert (F : is_finite x = true /\ is_finite y = true).
  { destruct x as [sx|sx| |sx mx ex Bx], y as [sy|sy| |sy my ey By]; try (split; reflexivity); cbn in E; try discriminate; destruct sx, sy; discriminate. }
  destruct F as [Fx Fy]. pose proof (Bplus_correct prec emax Hprec Hmax mode_NE x y Fx Fy) as H.
  destruct (Rlt_bool _ _).
  - destruct H as (H1 & _ & H3). destruct (Bplus mode_NE x y) as [s|s| |s m e B] eqn:Q; cbn [B2SF] in E; try discriminate. injection E as ->. cbn [B2R Bsign] in *.
    destruct (Req_dec (B2R x + B2R y) 0) as [HZ|HZ].
    + rewrite Rcompare_Eq in H3 by auto. destruct (Bsign x) eqn:S; [|discriminate]. cbn [andb] in H3.
      destruct x as [sx|sx| |sx mx ex Bx]; try discriminate; cbn in S; subst sx; [exfalso; apply N; reflexivity|].
      destruct y as [sy|sy| |sy my ey By]; try discriminate; cbn [Bsign] in H3; subst sy.
      revert HZ. apply Rlt_not_eq. replace 0%R with (0 + 0)%R by ring. apply Rplus_lt_compat; cbn [B2R]; apply F2R_lt_0; reflexivity.
    + symmetry in H1. revert H1. apply round_plus_neq_0; auto; try apply generic_format_B2R.
      * apply fexp_correct. exact Hprec.
      * apply monotone_exp_not_FTZ; [apply fexp_correct; exact Hprec|apply fexp_monotone].
      * apply valid_rnd_round_mode.
  - destruct H as [H _]. rewrite H in E. unfold binary_overflow, overflow_to_inf in E. discriminate.
Qed.

Lemma fadd_zero_r : forall x, x <> minus_zero -> fadd x fzero = x.
Proof. intros x N. destruct x as [[|]|s| |s m e]; try reflexivity; try contradiction. Qed.
Lemma fadd_minus_zero_r : forall s, s <> minus_zero -> fadd s minus_zero = s.
Proof. intros x N. destruct x as [[|]|s| |s m e]; try reflexivity; try contradiction. Qed.
Lemma is_minus_zero : forall x : f64, x = minus_zero \/ x <> minus_zero.
Proof. intros [[|]|s| |s m e]; ((left; reflexivity) || (right; discriminate)). Qed.
Lemma fadd_plain : forall s x, s <> minus_zero -> fadd s (fadd x fzero) = fadd s x.
Proof.
  intros s x N. destruct (is_minus_zero x) as [->|X].
  - change (fadd minus_zero fzero) with fzero. rewrite fadd_zero_r, fadd_minus_zero_r by auto. reflexivity.
  - rewrite fadd_zero_r by auto. reflexivity.
Qed.
(** adding 0 to every term does not change a sum that is not -0 to begin with *)
Lemma sum_plain : forall l s, valid64 s = true -> s <> minus_zero -> Forall (fun x => valid64 x = true) l ->
  sum_from s (map (fun x => fadd x fzero) l) = sum_from s l.
Proof.
  induction l as [|x l IH]; intros s Vs N F; [reflexivity|]. inversion F as [|? ? Vx F']; subst. unfold sum_from in *. cbn [map fold_left]. rewrite fadd_plain by auto.
  apply IH; auto; [apply fadd_valid; auto|apply fadd_not_minus_zero; auto].
Qed.

(** ** Trees *)
Lemma mapM_zseq : forall A (f : Z -> outcome A) (R : Z -> A -> Prop) n, 0 <= n -> (forall j, 0 <= j < n -> exists y, f j = Ok y /\ R j y) ->
  exists ys, mapM f (zseq n) = Ok ys /\ zlen ys = n /\ forall j, 0 <= j < n -> exists y, zget ys j = Some y /\ R j y.
Proof.
  intros A f R n Hn. pattern n. apply natlike_ind; auto.
  - intros _. exists []. split; [reflexivity|]. split; [reflexivity|]. lia.
  - intros x Hx IH H. destruct IH as (ys & E & L & G). { intros j Hj. apply H. lia. }
    destruct (H x ltac:(lia)) as (y & Ey & Ry). exists (ys ++ [y]). unfold Z.succ. rewrite zseq_succ, mapM_app, E by lia. cbn [bind mapM]. rewrite Ey. cbn [bind].
    split; [reflexivity|]. split; [rewrite zlen_app, zlen_cons, zlen_nil; lia|]. intros j Hj. destruct (Z.eq_dec j x) as [->|Nj].
    + exists y. split; auto. rewrite <- L. apply zget_mid.
    + destruct (G j ltac:(lia)) as (z & Gz & Rz). exists z. split; auto. rewrite zget_app_l by lia. auto.
Qed.

Section Load.
Variables (p : platform) (g : SklearnGradientBoosting) (sts : list sktree).
Hypothesis SAYS : sk_says g sts.
Hypothesis FITS : sk_fits (pl_maxalloc p) g.
Let groups := score_groups (gbNClasses g).
Let rate := gbLearningRate g.

Lemma groups_pos : 1 <= groups <= gbNClasses g.
Proof. unfold groups, score_groups. pose proof (ks_classes _ _ SAYS). destruct (Z.eqb_spec (gbNClasses g) 2); lia. Qed.

(** the base of score [k] *)
Lemma sk_base_ok : exists base, sk_base p (gbInit g) groups = Ok base /\ zlen base = groups /\
  forall k, 0 <= k < groups -> exists b, zget base k = Some b /\ prior_of (gbInit g) k = Some b.
Proof.
  pose proof groups_pos as G. pose proof (kf_classes _ _ FITS) as C. unfold sk_base, make_f64. replace ((groups <? 0) || (pl_maxalloc p <? groups)) with false by lia. cbn [bind].
  unfold prior_of. destruct (ks_prior _ _ SAYS) as [[-> L]|[-> L]].
  - change (beqb (bs "LogOddsEstimator") (bs "LogOddsEstimator")) with true. cbv iota. destruct (iePrior (gbInit g)) as [|b [|? ?]] eqn:E.
    + rewrite zlen_nil in L. lia.
    + exists (repeat b (Z.to_nat groups)). rewrite (at_zget _ _ _ b) by reflexivity. split; [|split].
      * induction (Z.to_nat groups) as [|n IH]; [reflexivity|]. cbn [repeat mapM bind]. rewrite IH. reflexivity.
      * rewrite zlen_repeat. lia.
      * intros k Hk. exists b. split; [apply zget_repeat; lia|reflexivity].
    + rewrite !zlen_cons in L. pose proof (zlen_nonneg _ l). lia.
  - change (beqb (bs "PriorProbabilityEstimator") (bs "LogOddsEstimator")) with false. change (beqb (bs "PriorProbabilityEstimator") (bs "PriorProbabilityEstimator")) with true. cbv iota.
    exists (iePrior (gbInit g)). fold groups in L. rewrite zlen_repeat, L. replace (groups =? Z.of_nat (Z.to_nat groups)) with true by lia. cbn [negb]. split; [reflexivity|]. split; [auto|].
    intros k Hk. destruct (zget_some _ (iePrior (gbInit g)) k ltac:(lia)) as [b Hb]. eauto.
Qed.

(** the tree of estimator [i] for score [k] *)
Definition loaded_as (base : list f64) (i : Z) (k : Z) (T : lgTree) : Prop :=
  exists t b, zget sts (i * groups + k) = Some t /\ (i = 0 -> zget base k = Some b) /\ (i <> 0 -> b = fzero) /\
    behaves_sk p T (sk_reference (scaled rate b) t).

Lemma sk_trees_ok : forall base, zlen base = groups ->
  exists trees, sk_trees p g groups base = Ok trees /\ zlen trees = gbNEstimators g * groups /\
  forall i k, 0 <= i < gbNEstimators g -> 0 <= k < groups -> exists T, zget trees (i * groups + k) = Some T /\ loaded_as base i k T.
Proof.
  intros base Lb. pose proof groups_pos as G. unfold sk_trees.
  pose (P := fun (i : Z) (acc : list lgTree * list f64) =>
    zlen (fst acc) = i * groups /\ zlen (snd acc) = groups /\ (i = 0 -> snd acc = base) /\ (i <> 0 -> forall k, 0 <= k < groups -> zget (snd acc) k = Some fzero) /\
    forall i' k, 0 <= i' < i -> 0 <= k < groups -> exists T, zget (fst acc) (i' * groups + k) = Some T /\ loaded_as base i' k T).
  destruct (foldM_inv _ P (fun acc i =>
      let (trees, base) := acc : list lgTree * list f64 in
      let* new := mapM (fun j =>
                    let* est := at_ (gbEstimators g) (i * groups + j) in
                    let* b := at_ base j in
                    lgTreeFromSklearnDecisionTreeRegressor p est (gbLearningRate g) b) (zseq groups) in
      Ok (trees ++ new, map (fun _ => fzero) base)) (gbNEstimators g) ([], base)) as ([trees b'] & E & HP).
  - pose proof (ks_estimators _ _ SAYS). lia.
  - unfold P. cbn [fst snd]. split; [reflexivity|]. split; [auto|]. split; [auto|]. split; [lia|]. intros. lia.
  - intros i [ts bs'] Hi (P1 & P2 & P3 & P4 & P5). cbn [fst snd] in *.
    destruct (mapM_zseq _ (fun j => let* est := at_ (gbEstimators g) (i * groups + j) in let* b := at_ bs' j in lgTreeFromSklearnDecisionTreeRegressor p est (gbLearningRate g) b)
      (fun k T => loaded_as base i k T) groups ltac:(lia)) as (new & En & Ln & Gn).
    { intros j Hj. destruct (zget_some _ (gbEstimators g) (i * groups + j)) as [est Hest]. { rewrite (ks_trees _ _ SAYS). fold groups. nia. }
      destruct (Forall2_zget _ _ _ _ _ (ks_each _ _ SAYS) _ _ Hest) as (t & Ht & St).
      destruct (zget_some _ bs' j ltac:(lia)) as [b Hb]. rewrite (at_zget _ _ _ _ Hest), (at_zget _ _ _ _ Hb). cbn [bind].
      destruct (sk_tree_loads p est t rate b St) as (T & ET & BT).
      - pose proof (ks_features _ _ SAYS) as F. rewrite Forall_forall in F. apply F. eapply zget_in; eauto.
      - pose proof (kf_nodes _ _ FITS) as F. rewrite Forall_forall in F. apply F. eapply zget_in; eauto.
      - exists T. split; auto. exists t, b. split; auto. split; [intros Z0; rewrite (P3 Z0) in Hb; auto|]. split; [|auto].
        intros NZ. rewrite (P4 NZ j Hj) in Hb. congruence. }
    rewrite En. cbn [bind]. eexists. split; [reflexivity|]. unfold P. cbn [fst snd]. split; [rewrite zlen_app; lia|]. split; [unfold zlen in *; rewrite map_length; auto|].
    split; [lia|]. split.
    + intros _ k Hk. rewrite zget_map. destruct (zget_some _ bs' k ltac:(lia)) as [b ->]. reflexivity.
    + intros i' k Hi' Hk. destruct (Z.eq_dec i' i) as [->|Ni].
      * destruct (Gn k Hk) as (T & GT & LT). exists T. split; auto. rewrite zget_app_r by lia. rewrite P1. replace (i * groups + k - i * groups) with k by lia. auto.
      * destruct (P5 i' k ltac:(lia) Hk) as (T & GT & LT). exists T. split; auto. rewrite zget_app_l by nia. auto.
  - destruct HP as (P1 & _ & _ & _ & P5). exists trees. rewrite E. auto.
Qed.

Lemma sk_class_loads : exists trees base, SKEnsembleFromClass p g =
    Ok (mkEnsemble (BLg (mkLgEnsemble trees (gbMaxFeatures g - 1) groups (bs "sklearn.ensemble.GradientBoostingClassifier") false)) (TransformRaw groups)) /\
  zlen trees = gbNEstimators g * groups /\
  (forall k, 0 <= k < groups -> exists b, zget base k = Some b /\ prior_of (gbInit g) k = Some b) /\
  forall i k, 0 <= i < gbNEstimators g -> 0 <= k < groups -> exists T, zget trees (i * groups + k) = Some T /\ loaded_as base i k T.
Proof.
  pose proof groups_pos as G. pose proof (ks_estimators _ _ SAYS) as N. pose proof (kf_trees _ _ FITS) as A1. pose proof (kf_alloc _ _ FITS) as A2. change (2 ^ 63) with two63 in A2.
  destruct sk_base_ok as (base & Eb & Lb & Gb). destruct (sk_trees_ok base Lb) as (trees & Et & Lt & Gt). exists trees, base.
  split; [|auto]. unfold SKEnsembleFromClass. cbv zeta. fold (score_groups (gbNClasses g)). fold groups. replace (gbNEstimators g =? 0) with false by lia.
  assert (0 <= gbNEstimators g * groups <= gbNEstimators g * gbNClasses g) by nia.
  rewrite s64_id by (unfold two63 in *; lia). rewrite (ks_trees _ _ SAYS). fold groups. rewrite Z.eqb_refl. cbn [negb]. rewrite Eb. cbn [bind].
  rewrite s64_id by (unfold two63 in *; lia). rewrite make_check_ok by lia. cbn [bind]. rewrite Et. cbn [bind].
  pose proof (ks_max_features _ _ SAYS) as M. change (2 ^ 63) with two63 in M. rewrite s64_id by (unfold two63 in *; lia). reflexivity.
Qed.
End Load.

Lemma walk_scaled : forall out t x v id, walk (sk_reference (fun v => v) t) x = Some (v, id) -> walk (sk_reference out t) x = Some (out v, id).
Proof.
  intros out t x. induction t as [i w|f thr l IHl r IHr]; intros v id H; cbn [sk_reference walk] in *; [congruence|].
  destruct (zget x f) as [y|]; [|discriminate]. destruct (sk_left thr y); auto.
Qed.
Lemma sk_below : forall out n t, sk_features_below n t -> features_below n (sk_reference out t).
Proof. intros out n t. induction t; cbn [sk_features_below sk_reference features_below]; auto. intros (? & ? & ?). auto. Qed.
