(** * C88: scikit-learn models loaded with fused multiply-add *)

From Coq Require Import ZArith List Bool Lia String SpecFloat Reals Lra.
From Verif Require Import Go GoFloat GoText Cmd LgTree TreeBuild Transformation Ensembles Leaves XgBin Pickle SkClasses SkIO Fused FusedSk
  Spec_Predict Spec_Split Spec_Round Spec_Fused Spec_FusedSk Demo Ex_Sk Pf_Go Pf_Float Pf_Round Prop_Round Pf_Fused Pf_FusedSk.
Local Open Scope Z_scope.

(** the [k]-th trees of the two models come from the same estimator of the file, whose leaf values
    are multiplied with the learning rate and increased by a prior, or by zero after the first
    estimator *)
Definition same_estimator (gb : SklearnGradientBoosting) (groups k : Z) (t t' : lgTree) : Prop :=
  exists est b, zget (gbEstimators gb) k = Some est /\ (k < groups -> In b (iePrior (gbInit gb))) /\ (groups <= k -> b = fzero) /\
    same_but_leaves (leaf_choice (stValues (srTree est)) (gbLearningRate gb) b) t t'.

Lemma mapM_choice : forall A B (Q : A -> B -> B -> Prop) (f f' : A -> outcome B) l,
  (forall x, In x l -> same_end (Q x) (f x) (f' x)) ->
  same_end (fun r r' => zlen r = zlen l /\ zlen r' = zlen l /\
    forall k x a a', zget l k = Some x -> zget r k = Some a -> zget r' k = Some a' -> Q x a a') (mapM f l) (mapM f' l).
Proof.
  intros A B Q f f' l. induction l as [|x l IH]; intros H; cbn [mapM].
  - constructor. repeat split; auto. intros k x a a' E. apply zget_range in E. change (zlen (@nil A)) with 0 in E. lia.
  - eapply same_bind; [apply H; left; reflexivity|]. intros y y' Hy. eapply same_bind; [apply IH; intros; apply H; right; assumption|].
    intros r r' (L & L' & P). constructor. rewrite !zlen_cons, L, L'. repeat split; auto. intros k z a a' E E1 E2.
    destruct (Z.eq_dec k 0) as [->|N].
    + rewrite zget_cons_0 in *. congruence.
    + pose proof (zget_range _ _ _ _ E). rewrite zget_cons in E, E1, E2 by lia. eapply P; eauto.
Qed.

Section Trees.
  Variables (fuse : Z -> Z -> bool) (p : platform) (gb : SklearnGradientBoosting) (groups : Z) (prior : list f64).
  Hypothesis (Hg : 0 <= groups).
  Hypothesis (Hp : forall j b, zget prior j = Some b -> In b (iePrior (gbInit gb))).

  Definition trees_related (n : Z) (a a' : list lgTree * list f64) : Prop :=
    snd a' = snd a /\ zlen (fst a) = n * groups /\ zlen (fst a') = n * groups /\
    (forall j b, zget (snd a) j = Some b -> (n = 0 -> In b (iePrior (gbInit gb))) /\ (0 < n -> b = fzero)) /\
    forall k t t', zget (fst a) k = Some t -> zget (fst a') k = Some t' -> same_estimator gb groups k t t'.

  Lemma fold_choice : forall m s a a', trees_related (Z.of_nat s) a a' ->
    same_end (trees_related (Z.of_nat (s + m)))
      (foldM (fun acc i =>
        let (trees, base) := acc : list lgTree * list f64 in
        let* new := mapM (fun j =>
                    let* est := at_ (gbEstimators gb) (i * groups + j) in
                    let* b := at_ base j in
                    lgTreeFromSklearnDecisionTreeRegressor p est (gbLearningRate gb) b) (zseq groups) in
        Ok (trees ++ new, map (fun _ => fzero) base)) (map Z.of_nat (seq s m)) a)
      (foldM (fun acc i =>
        let (trees, base) := acc : list lgTree * list f64 in
        let* new := mapM (fun j =>
                    let* est := at_ (gbEstimators gb) (i * groups + j) in
                    let* b := at_ base j in
                    lgTreeFromSklearn_fused (fuse (i * groups + j)) p est (gbLearningRate gb) b) (zseq groups) in
        Ok (trees ++ new, map (fun _ => fzero) base)) (map Z.of_nat (seq s m)) a').
  Proof.
    induction m as [|m IH]; intros s a a' H; cbn [seq map foldM]; [replace (s + 0)%nat with s by lia; constructor; exact H|].
    replace (s + S m)%nat with (S s + m)%nat by lia.
    apply (same_bind _ _ (trees_related (Z.of_nat (S s)))); [|intros b b'; apply IH].
    destruct a as [tr ba], a' as [tr' ba']. destruct H as (E & L & L' & B & T). cbn [fst snd] in *. subst ba'.
    eapply same_bind; [apply (mapM_choice _ _ (fun j t t' => same_estimator gb groups (Z.of_nat s * groups + j) t t'))|].
    - intros j Hj. apply in_zseq in Hj. apply same_bind_eq. intros est He. apply same_bind_eq. intros b Hb.
      apply at_ok in He. apply at_ok in Hb. destruct (B j b Hb) as [B0 B1].
      pose proof (tree_choice (fuse (Z.of_nat s * groups + j)) p est (gbLearningRate gb) b) as C.
      destruct C as [t t' C|m0|m0|]; constructor. exists est, b. repeat match goal with |- _ /\ _ => split end; auto.
      + intros K. apply B0. destruct s; [reflexivity|]. nia.
      + intros K. apply B1. destruct s; [lia|lia].
    - intros r r' (R & R' & Q). assert (Lz : zlen (zseq groups) = groups) by (unfold zseq, zlen; rewrite map_length, seq_length; lia).
      rewrite Lz in *. constructor. unfold trees_related. cbn [fst snd]. rewrite !zlen_app, L, L', R, R'.
      repeat match goal with |- _ /\ _ => split end; try lia; auto.
      + intros j b Hb. rewrite zget_map in Hb. split; [lia|]. intros _. destruct (zget ba j); cbn in Hb; congruence.
      + intros k t t' H1 H2. destruct (Z_lt_le_dec k (zlen tr)) as [K|K].
        * rewrite zget_app_l in H1, H2 by lia. eauto.
        * rewrite zget_app_r in H1, H2 by lia. rewrite L' in H2. rewrite L in H1, K. pose proof (zget_range _ _ _ _ H1).
          replace k with (Z.of_nat s * groups + (k - Z.of_nat s * groups)) by lia. eapply Q; eauto. apply zget_zseq. lia.
  Qed.

  Lemma trees_choice : same_end (fun l l' => zlen l' = zlen l /\ forall k t t', zget l k = Some t -> zget l' k = Some t' -> same_estimator gb groups k t t')
    (sk_trees p gb groups prior) (sk_trees_fused fuse p gb groups prior).
  Proof.
    unfold sk_trees, sk_trees_fused. eapply same_bind; [apply (fold_choice (Z.to_nat (gbNEstimators gb)) 0 ([], prior) ([], prior))|].
    - unfold trees_related. cbn [fst snd]. repeat match goal with |- _ /\ _ => split end; try reflexivity.
      + intros j b Hb. split; [intros _; eauto|cbn; lia].
      + intros k t t' H. apply zget_range in H. change (zlen (@nil lgTree)) with 0 in H. lia.
    - intros [l b] [l' b'] (_ & L & L' & _ & T). cbn [fst snd] in *. constructor. split; [lia|exact T].
  Qed.
End Trees.

Lemma base_prior : forall p init groups base, sk_base p init groups = Ok base -> 0 <= groups /\ forall j b, zget base j = Some b -> In b (iePrior init).
Proof.
  intros p init groups base H. unfold sk_base in H. apply bind_ok in H. destruct H as (z & M & H). split.
  - unfold make_f64 in M. destruct (groups <? 0) eqn:G; [discriminate|]. lia.
  - destruct (beqb _ _).
    + intros j b Hb. assert (X : forall l r, mapM (fun _ : f64 => at_ (iePrior init) 0) l = Ok r -> forall b, In b r -> In b (iePrior init)).
      { induction l as [|x l IH]; intros r Hr c Hc; cbn [mapM] in Hr; [injection Hr as <-; contradiction|].
        apply bind_ok in Hr. destruct Hr as (y & Hy & Hr). apply bind_ok in Hr. destruct Hr as (ys & Hys & Hr). injection Hr as <-.
        destruct Hc as [<-|Hc]; [apply at_ok in Hy; eapply zget_in; eauto|eauto]. }
      eapply X; eauto. eapply zget_in; eauto.
    + destruct (beqb _ _); [|discriminate]. destruct (negb _); [discriminate|]. injection H as <-. intros j b Hb. eapply zget_in; eauto.
Qed.

(** ** Loading *)
Lemma class_choice : forall fuse p gb,
  let groups := if gbNClasses gb =? 2 then 1 else gbNClasses gb in
  same_end (same_but_trees (same_estimator gb groups)) (SKEnsembleFromClass p gb) (SKEnsembleFromClass_fused fuse p gb).
Proof.
  intros fuse p gb groups. unfold SKEnsembleFromClass, SKEnsembleFromClass_fused. cbv zeta. fold groups.
  destruct (gbNEstimators gb =? 0); [constructor|]. destruct (negb _); [constructor|].
  apply same_bind_eq. intros base Hb. destruct (base_prior _ _ _ _ Hb) as [Hg Hp]. apply same_bind_eq. intros _ _.
  eapply same_bind; [apply (trees_choice fuse p gb groups base Hg Hp)|]. intros l l' [L T]. constructor.
  unfold same_but_trees. cbn [eTransform eBase]. do 2 eexists. repeat match goal with |- _ /\ _ => split end; try reflexivity; cbn [lgTrees]; auto.
Qed.

(** Whichever leaf values are computed with fused multiply-add: the same streams are accepted, the
    others end in the same error; the accepted ones give the same model but for the leaf values,
    each of which is the value in the file times the learning rate plus the prior (or zero),
    rounded once or twice *)
Theorem C88_sklearn_load : forall fuse p r flag,
  same_end (fun e e' => exists gb, SKEnsembleFromClass p gb = Ok e /\
                        same_but_trees (same_estimator gb (if gbNClasses gb =? 2 then 1 else gbNClasses gb)) e e')
    (SKEnsembleFromReader p r flag) (SKEnsembleFromReader_fused fuse p r flag).
Proof.
  intros fuse p r flag. unfold SKEnsembleFromReader, SKEnsembleFromReader_fused. apply same_bind_eq. intros [[v h] rest] _. apply same_bind_eq. intros gb _.
  pose proof (class_choice fuse p gb) as C. cbv zeta in C. remember (SKEnsembleFromClass p gb) as x eqn:E. destruct C; constructor. exists gb. auto.
Qed.
Print Assumptions C88_sklearn_load.

(** such leaf values are near v*scale + base, both of them *)
Theorem C88_sklearn_leaf : forall values scale base x y,
  Forall (fun v => valid64 v = true) values -> valid64 scale = true -> valid64 base = true ->
  leaf_choice values scale base x y -> finite64 x = true -> finite64 y = true ->
  exists v, In v values /\
    let bound := (u * Rabs (real base) + ((1 + u) * (1 + u) - 1) * Rabs (real v * real scale) + (1 + u) * half_tiny)%R in
    (Rabs (real x - (real base + real v * real scale)) <= bound)%R /\ (Rabs (real y - (real base + real v * real scale)) <= bound)%R.
Proof.
  intros values scale base x y V Vs Vb (v & I & E & C) Fx Fy. exists v. split; [exact I|]. cbv zeta. rewrite Forall_forall in V. specialize (V v I).
  rewrite fadd_swap in E by auto using fmul_valid.
  split; [apply (step_error base v scale x); auto|]. apply (step_error base v scale y); auto. destruct C as [->| ->]; auto.
Qed.
Print Assumptions C88_sklearn_leaf.

(** ** After the first estimator nothing changes but the sign of a zero; with learning rate one
       nothing changes at all *)
Definition valid_class (gb : SklearnGradientBoosting) : Prop :=
  valid64 (gbLearningRate gb) = true /\ Forall (fun v => valid64 v = true) (iePrior (gbInit gb)) /\
  Forall (fun est => Forall (fun v => valid64 v = true) (stValues (srTree est))) (gbEstimators gb).

Lemma Forall2_mono : forall A B (R Q : A -> B -> Prop) l l', (forall a b, R a b -> Q a b) -> Forall2 R l l' -> Forall2 Q l l'.
Proof. intros A B R Q l l' H. induction 1; constructor; auto. Qed.
Lemma Forall2_eq : forall A (l l' : list A), Forall2 eq l l' -> l' = l.
Proof. induction 1; congruence. Qed.

Theorem C88_sklearn_later_estimators : forall fuse p gb e e',
  valid_class gb -> SKEnsembleFromClass p gb = Ok e -> SKEnsembleFromClass_fused fuse p gb = Ok e' ->
  same_but_trees (fun k t t' => NRawOutputGroups e <= k -> same_but_leaves same_number t t') e e'.
Proof.
  intros fuse p gb e e' (Vr & Vp & Vv) H H'. pose proof (class_choice fuse p gb) as C. cbv zeta in C. rewrite H, H' in C.
  assert (S : same_but_trees (same_estimator gb (if gbNClasses gb =? 2 then 1 else gbNClasses gb)) e e') by (inversion C; assumption).
  destruct S as (m & m' & E1 & E2 & E3 & E4 & E5 & E6 & E7 & T).
  exists m, m'. repeat match goal with |- _ /\ _ => split end; auto. intros k t t' H1 H2 K. destruct (T k t t' H1 H2) as (est & b & He & _ & Hz & A & B & C' & D & F).
  assert (G : NRawOutputGroups e = (if gbNClasses gb =? 2 then 1 else gbNClasses gb)).
  { unfold SKEnsembleFromClass in H. cbv zeta in H. destruct (gbNEstimators gb =? 0); [discriminate|]. destruct (negb _); [discriminate|].
    apply bind_ok in H. destruct H as (? & _ & H). apply bind_ok in H. destruct H as (? & _ & H). apply bind_ok in H. destruct H as (? & _ & H). injection H as <-. reflexivity. }
  rewrite G in K. specialize (Hz K). subst b. unfold same_but_leaves. repeat match goal with |- _ /\ _ => split end; auto.
  eapply Forall2_mono; [|exact F]. intros x y (v & I & -> & [->| ->]); [left; reflexivity|]. apply fma_zero; auto.
  rewrite Forall_forall in Vv. specialize (Vv est (zget_in _ _ _ _ He)). rewrite Forall_forall in Vv. auto.
Qed.
Print Assumptions C88_sklearn_later_estimators.

Theorem C88_sklearn_rate_one : forall fuse p gb,
  valid_class gb -> gbLearningRate gb = fone -> SKEnsembleFromClass_fused fuse p gb = SKEnsembleFromClass p gb.
Proof.
  intros fuse p gb (Vr & Vp & Vv) R1. pose proof (class_choice fuse p gb) as C. cbv zeta in C.
  inversion C as [e e' (m & m' & E1 & E2 & E3 & E4 & E5 & E6 & E7 & T)| | |]; auto. f_equal.
  rewrite E1. destruct e' as [b' t']. cbn [eBase eTransform] in *. subst b'. f_equal. f_equal. destruct m as [tr mf g nm av], m' as [tr' mf' g' nm' av'].
  cbn [lgTrees lgMaxFeatureIdx lgNRawOutputGroups lgName lgAverageOutput] in *. subst. f_equal.
  apply Pf_Go.zget_ext; [exact E7|]. intros k L. rewrite E7 in L.
  destruct (zget_some _ tr k ltac:(lia)) as [t Ht]. destruct (zget_some _ tr' k ltac:(lia)) as [t1 Ht1]. rewrite Ht, Ht1. f_equal.
    destruct (T k t t1 Ht Ht1) as (est & b & He & Hb & Hz & A & B & C' & D & F).
    assert (Vb : valid64 b = true). { rewrite Forall_forall in Vp. destruct (Z_lt_le_dec k (if gbNClasses gb =? 2 then 1 else gbNClasses gb)) as [K|K]; auto. rewrite (Hz K). reflexivity. }
    rewrite Forall_forall in Vv. specialize (Vv est (zget_in _ _ _ _ He)). rewrite Forall_forall in Vv.
    assert (X : tLeafValues t1 = tLeafValues t).
    { apply Forall2_eq. eapply Forall2_mono; [|exact F]. intros x y (v & I & -> & [->| ->]); [reflexivity|]. rewrite R1.
      rewrite (fma_apart v fone b (Vv v I) fone_valid Vb (exact_one v (Vv v I))). apply fadd_swap; auto using fmul_valid, fone_valid. }
    destruct t, t1. cbn in *. congruence.
Qed.
Print Assumptions C88_sklearn_rate_one.

(** the values do change otherwise: value 3, learning rate 0.1, prior -0.3 *)
Definition tenth_model : SklearnGradientBoosting :=
  mkSkGB 2 [0; 1] 2 2 [k_tree [k_leaf] [fint 3]; k_tree k_nodes k_values] (fdiv fone (fint 10))
    (mkInit (bs "LogOddsEstimator") [fdiv (fint (-3)) (fint 10)]).
Theorem C88_sklearn_refuted : exists fuse p gb e e' a b, valid_class gb /\
  SKEnsembleFromClass p gb = Ok e /\ SKEnsembleFromClass_fused fuse p gb = Ok e' /\
  Predict p e (map fint [1; 2]) 0 (zeros 1) = Ok [a] /\ Predict p e' (map fint [1; 2]) 0 (zeros 1) = Ok [b] /\
  finite64 a = true /\ finite64 b = true /\ a <> b.
Proof.
  exists (fun _ _ => true), amd64, tenth_model. do 4 eexists. split; [repeat split; repeat constructor|].
  split; [vm_compute; reflexivity|]. split; [vm_compute; reflexivity|]. split; [vm_compute; reflexivity|]. split; [vm_compute; reflexivity|].
  split; [reflexivity|]. split; [reflexivity|]. discriminate.
Qed.
Print Assumptions C88_sklearn_refuted.

(** the model with learning rate one loads *)
Example rate_one_demo : exists gb e, valid_class gb /\ gbLearningRate gb = fone /\ SKEnsembleFromClass_fused (fun _ _ => true) amd64 gb = Ok e.
Proof.
  exists (mkSkGB 2 [0; 1] 2 2 [k_tree k_nodes k_values; k_tree [k_leaf] [fint 3]] fone (mkInit (bs "LogOddsEstimator") [fdiv (fint (-3)) (fint 10)])).
  eexists. split; [repeat split; repeat constructor|]. split; [reflexivity|]. vm_compute. reflexivity.
Qed.
