(** * C90: the order of the estimators matters for rounding only *)

From Coq Require Import ZArith List Bool String Lia ZifyBool Reals Lra Permutation.
From Verif Require Import Go GoFloat GoText Cmd LgTree Transformation Ensembles Leaves Spec_Predict Spec_Split Spec_Round Spec_Reorder
  Demo Pf_Go Pf_Cmd Pf_Leaves Pf_Float Pf_Round Pf_Values Prop_Values Prop_Round.
Local Open Scope Z_scope.

Lemma list_of_cells : forall A (d : A) l, l = map (fun j => match zget l j with Some v => v | None => d end) (zseq (zlen l)).
Proof.
  intros A d l. pose proof (zlen_nonneg _ l) as N. apply zget_ext; [rewrite zlen_map, zseq_zlen; auto|]. intros i H.
  rewrite zget_map_zseq by lia. destruct (zget_some _ l i ltac:(lia)) as [v ->]. reflexivity.
Qed.

Lemma cells_permuted : forall A (d : A) n order (vs vs' : list A), Permutation (zseq n) order -> zlen vs = n -> zlen vs' = n ->
  (forall i j, zget order i = Some j -> zget vs' i = zget vs j) -> Permutation vs vs'.
Proof.
  intros A d n order vs vs' P L L' E. rewrite (list_of_cells A d vs), L. pose proof (zlen_nonneg _ vs) as N.
  replace vs' with (map (fun j => match zget vs j with Some v => v | None => d end) order); [apply Permutation_map; exact P|].
  apply Permutation_length in P. assert (Lo : zlen order = n) by (unfold zlen; rewrite <- P; fold (zlen (zseq n)); rewrite zseq_zlen; lia).
  apply zget_ext; [rewrite zlen_map; lia|]. intros i Hi. rewrite zlen_map in Hi. rewrite zget_map.
  destruct (zget_some _ order i Hi) as [j Ho]. destruct (zget_some _ vs' i ltac:(lia)) as [x Hx]. rewrite Ho, Hx. cbn [option_map]. rewrite (E i j Ho) in Hx. rewrite Hx. reflexivity.
Qed.

Lemma in_order : forall n order i j, Permutation (zseq n) order -> zget order i = Some j -> 0 <= j < n.
Proof. intros n order i j P H. apply in_zseq. eapply Permutation_in; [apply Permutation_sym; exact P|]. eapply zget_in; eauto. Qed.

Lemma order_range : forall n order i j, 0 <= n -> Permutation (zseq n) order -> zget order i = Some j -> 0 <= i < n.
Proof.
  intros n order i j N P H. apply zget_range in H. apply Permutation_length in P. unfold zlen in H. rewrite <- P in H. fold (zlen (zseq n)) in H. rewrite zseq_zlen in H; lia.
Qed.

Lemma outputs_permuted : forall p trees trees' g k n order fvals vs vs', reordered n g order trees trees' -> 0 <= k < g ->
  tree_outputs p trees g k n fvals vs -> tree_outputs p trees' g k n fvals vs' ->
  forall i j, zget order i = Some j -> zget vs' i = zget vs j.
Proof.
  intros p trees trees' g k n order fvals vs vs' [P R] Hk [L T] [L' T'] i j Ho.
  assert (N : 0 <= n) by (rewrite <- L; apply zlen_nonneg).
  destruct (T j (in_order _ _ _ _ P Ho)) as (t & v & leaf & Hz & Hp & Hv). destruct (T' i (order_range _ _ _ _ N P Ho)) as (t' & v' & leaf' & Hz' & Hp' & Hv').
  rewrite (R i j k Ho Hk) in Hz'. rewrite Hz in Hz'. injection Hz' as <-. rewrite Hp in Hp'. injection Hp' as <- <-. congruence.
Qed.

Lemma Rsum_permuted : forall l l', Permutation l l' -> Rsum l = Rsum l'.
Proof. induction 1; cbn [Rsum]; lra. Qed.

Lemma all_used : forall e n, used_estimators e 0 n -> NEstimators e = Ok n.
Proof. intros e n (k & N & [[H _]|[_ ->]]); [lia|exact N]. Qed.

(** the sums of leaf values *)
Theorem C90_lightgbm :
  forall p e e' m m' n order fvals buf buf' out out',
  well_formed e -> raw_output e -> core (eBase e) = BLg m -> lgAverageOutput m = false -> valid_leaves (lgTrees m) ->
  well_formed e' -> raw_output e' -> core (eBase e') = BLg m' -> lgAverageOutput m' = false -> valid_leaves (lgTrees m') ->
  NEstimators e = Ok n -> NEstimators e' = Ok n -> NRawOutputGroups e' = NRawOutputGroups e ->
  reordered n (NRawOutputGroups e) order (lgTrees m) (lgTrees m') ->
  Predict p e fvals 0 buf = Ok out -> Predict p e' fvals 0 buf' = Ok out' ->
  forall k, 0 <= k < NRawOutputGroups e -> exists vs y y',
    tree_outputs p (lgTrees m) (NRawOutputGroups e) k n fvals vs /\ zget out k = Some y /\ zget out' k = Some y' /\
    (finite64 y = true -> finite64 y' = true ->
     (Rabs (real y - real y') <= 2 * growth (Z.to_nat n) * Rsum (map Rabs (map real vs)))%R).
Proof.
  intros p e e' m m' n order fv buf buf' out out' W R C A V W' R' C' A' V' N N' G O H H' k Hk.
  destruct (C60_lightgbm_score p e m fv 0 buf out W R C A V H) as (n1 & U1 & K1).
  destruct (C60_lightgbm_score p e' m' fv 0 buf' out' W' R' C' A' V' H') as (n2 & U2 & K2).
  apply all_used in U1. apply all_used in U2. assert (n1 = n) by congruence. assert (n2 = n) by congruence. subst n1 n2.
  rewrite G in K2. destruct (K1 k Hk) as (vs & y & T & Z & B). destruct (K2 k Hk) as (vs' & y' & T' & Z' & B').
  exists vs, y, y'. split; [exact T|]. split; [exact Z|]. split; [exact Z'|]. intros F F'. specialize (B F). specialize (B' F').
  assert (P : Permutation vs vs').
  { destruct O as [P O]. eapply (cells_permuted _ fzero n order); [exact P|apply T|apply T'|]. eapply outputs_permuted; eauto. split; eauto. }
  rewrite <- (Rsum_permuted _ _ (Permutation_map real P)) in B'. rewrite <- (Rsum_permuted _ _ (Permutation_map Rabs (Permutation_map real P))) in B'.
  set (E := Rsum (map real vs)) in *. replace (real y - real y')%R with ((real y - E) + - (real y' - E))%R by ring.
  eapply Rle_trans; [apply Rabs_triang|]. rewrite Rabs_Ropp. lra.
Qed.
Print Assumptions C90_lightgbm.

(** averages *)
Theorem C90_random_forest :
  forall p e e' m m' n order fvals buf buf' out out',
  well_formed e -> raw_output e -> core (eBase e) = BLg m -> lgAverageOutput m = true -> valid_leaves (lgTrees m) ->
  well_formed e' -> raw_output e' -> core (eBase e') = BLg m' -> lgAverageOutput m' = true -> valid_leaves (lgTrees m') ->
  NEstimators e = Ok n -> NEstimators e' = Ok n -> NRawOutputGroups e' = NRawOutputGroups e -> 1 <= n <= 2 ^ 53 ->
  reordered n (NRawOutputGroups e) order (lgTrees m) (lgTrees m') ->
  Predict p e fvals 0 buf = Ok out -> Predict p e' fvals 0 buf' = Ok out' ->
  forall k, 0 <= k < NRawOutputGroups e -> exists vs y y',
    tree_outputs p (lgTrees m) (NRawOutputGroups e) k n fvals vs /\ zget out k = Some y /\ zget out' k = Some y' /\
    (finite64 y = true -> finite64 y' = true ->
     (Rabs (real y - real y') <= 2 * (growth (Z.to_nat n + 2) * (Rsum (map Rabs (map real vs)) / IZR n) +
        (1 + growth (Z.to_nat n)) * (IZR n * half_tiny)))%R).
Proof.
  intros p e e' m m' n order fv buf buf' out out' W R C A V W' R' C' A' V' N N' G Hn O H H' k Hk.
  destruct (C60_random_forest_score p e m fv 0 buf out W R C A V H) as (n1 & U1 & K1).
  destruct (C60_random_forest_score p e' m' fv 0 buf' out' W' R' C' A' V' H') as (n2 & U2 & K2).
  apply all_used in U1. apply all_used in U2. assert (n1 = n) by congruence. assert (n2 = n) by congruence. subst n1 n2.
  rewrite G in K2. destruct (K1 k Hk) as (vs & y & T & Z & B). destruct (K2 k Hk) as (vs' & y' & T' & Z' & B').
  exists vs, y, y'. split; [exact T|]. split; [exact Z|]. split; [exact Z'|]. intros F F'. specialize (B Hn F). specialize (B' Hn F').
  assert (P : Permutation vs vs').
  { destruct O as [P O]. eapply (cells_permuted _ fzero n order); [exact P|apply T|apply T'|]. eapply outputs_permuted; eauto. split; eauto. }
  rewrite <- (Rsum_permuted _ _ (Permutation_map real P)) in B'. rewrite <- (Rsum_permuted _ _ (Permutation_map Rabs (Permutation_map real P))) in B'.
  set (E := (Rsum (map real vs) / IZR n)%R) in *. replace (real y - real y')%R with ((real y - E) + - (real y' - E))%R by ring.
  eapply Rle_trans; [apply Rabs_triang|]. rewrite Rabs_Ropp. lra.
Qed.
Print Assumptions C90_random_forest.

(** the weights of dart trees move with the trees *)
Theorem C90_xgboost :
  forall p e e' m m' n order fvals buf buf' out out',
  well_formed e -> raw_output e -> core (eBase e) = BXg m -> valid_leaves (xgTrees m) ->
  valid64 (xgBaseScore m) = true -> Forall (fun w => valid64 w = true) (xgWeightDrop m) ->
  well_formed e' -> raw_output e' -> core (eBase e') = BXg m' -> valid_leaves (xgTrees m') ->
  xgBaseScore m' = xgBaseScore m -> Forall (fun w => valid64 w = true) (xgWeightDrop m') ->
  NEstimators e = Ok n -> NEstimators e' = Ok n -> NRawOutputGroups e' = NRawOutputGroups e ->
  reordered n (NRawOutputGroups e) order (xgTrees m) (xgTrees m') ->
  reordered n (NRawOutputGroups e) order (xgWeightDrop m) (xgWeightDrop m') ->
  Predict p e fvals 0 buf = Ok out -> Predict p e' fvals 0 buf' = Ok out' ->
  forall k, 0 <= k < NRawOutputGroups e -> exists vs ws y y',
    tree_outputs p (xgTrees m) (NRawOutputGroups e) k n fvals vs /\
    zlen ws = n /\ (forall i, 0 <= i < n -> zget ws i = zget (xgWeightDrop m) (i * NRawOutputGroups e + k)) /\
    zget out k = Some y /\ zget out' k = Some y' /\
    (finite64 y = true -> finite64 y' = true ->
     let exact := map (fun vw => (real (fst vw) * real (snd vw))%R) (combine vs ws) in
     (Rabs (real y - real y') <= 2 * (growth (Z.to_nat n + 1) * (Rabs (real (xgBaseScore m)) + Rsum (map Rabs exact)) +
        (1 + growth (Z.to_nat n)) * (IZR n * half_tiny)))%R).
Proof.
  intros p e e' m m' n order fv buf buf' out out' W R C V Vb Vw W' R' C' V' Eb Vw' N N' G O Ow H H' k Hk.
  destruct (C60_xgboost_score p e m fv 0 buf out W R C V Vb Vw H) as (n1 & U1 & K1).
  destruct (C60_xgboost_score p e' m' fv 0 buf' out' W' R' C' V' ltac:(rewrite Eb; exact Vb) Vw' H') as (n2 & U2 & K2).
  apply all_used in U1. apply all_used in U2. assert (n1 = n) by congruence. assert (n2 = n) by congruence. subst n1 n2.
  rewrite G in K2. destruct (K1 k Hk) as (vs & ws & y & T & Lw & Hw & Z & B). destruct (K2 k Hk) as (vs' & ws' & y' & T' & Lw' & Hw' & Z' & B').
  exists vs, ws, y, y'. split; [exact T|]. split; [exact Lw|]. split; [exact Hw|]. split; [exact Z|]. split; [exact Z'|]. intros F F'. specialize (B F). specialize (B' F').
  cbv zeta in *. rewrite Eb in B'.
  assert (Nn : 0 <= n) by (rewrite <- Lw; apply zlen_nonneg).
  assert (P : Permutation (combine vs ws) (combine vs' ws')).
  { pose proof O as [P O2]. pose proof Ow as [_ Ow2].
    assert (X : forall (a b : list f64) i, zlen a = zlen b -> zget (combine a b) i = match zget a i, zget b i with Some x, Some z => Some (x, z) | _, _ => None end).
    { clear. intros a b i L. assert (L0 : List.length a = List.length b) by (unfold zlen in L; lia). clear L. revert b i L0. induction a as [|x a IH]; intros [|z b] i L; try discriminate.
      - destruct (zget [] i) eqn:E; [apply zget_range in E; unfold zlen in E; simpl in E; lia|]. cbn [combine]. rewrite !(zget_none _ []) by (unfold zlen; simpl; lia). reflexivity.
      - cbn [combine]. destruct (Z_lt_dec i 0) as [N|N]; [rewrite !zget_neg by auto; reflexivity|]. destruct (Z.eq_dec i 0) as [->|N0]; [reflexivity|].
        rewrite !zget_cons by lia. apply IH. cbn in L. lia. }
    destruct T as [Lv T0]. destruct T' as [Lv' T0'].
    eapply (cells_permuted _ (fzero, fzero) n order); [exact P|unfold zlen; rewrite combine_length; unfold zlen in *; lia|unfold zlen; rewrite combine_length; unfold zlen in *; lia|].
    intros i j Ho. rewrite !X by lia. rewrite (outputs_permuted p _ _ _ _ _ _ _ vs vs' O Hk (conj Lv T0) (conj Lv' T0') i j Ho).
    rewrite Hw' by (eapply order_range; eauto). rewrite Hw by (eapply in_order; eauto). rewrite (Ow2 i j k Ho Hk). reflexivity. }
  rewrite <- (Rsum_permuted _ _ (Permutation_map _ P)) in B'. rewrite <- (Rsum_permuted _ _ (Permutation_map Rabs (Permutation_map _ P))) in B'.
  match type of B with (Rabs (real y - ?x) <= _)%R => set (E := x) in * end. replace (real y - real y')%R with ((real y - E) + - (real y' - E))%R by ring.
  eapply Rle_trans; [apply Rabs_triang|]. rewrite Rabs_Ropp. lra.
Qed.
Print Assumptions C90_xgboost.

(** bit for bit it may matter: 2^53, 1, 1 against 1, 1, 2^53 *)
Definition three_trees (a b c : Z) : Ensemble :=
  mkEnsemble (BLg (mkLgEnsemble (map (fun v => stump 0 fzero (fint v) (fint v)) [a; b; c]) 1 1 (bs "lightgbm.gbdt") false)) (TransformRaw 1).
Theorem C90_bits_refuted : exists e e' m m' y y',
  core (eBase e) = BLg m /\ core (eBase e') = BLg m' /\ reordered 3 1 [1; 2; 0] (lgTrees m) (lgTrees m') /\
  Predict amd64 e [fzero; fzero] 0 (zeros 1) = Ok [y] /\ Predict amd64 e' [fzero; fzero] 0 (zeros 1) = Ok [y'] /\
  finite64 y = true /\ finite64 y' = true /\ y <> y'.
Proof.
  exists (three_trees (2 ^ 53) 1 1), (three_trees 1 1 (2 ^ 53)); do 4 eexists. split; [reflexivity|]. split; [reflexivity|]. split.
  - split.
    + change (zseq 3) with [0; 1; 2]. apply Permutation_trans with [1; 0; 2]; constructor; constructor.
    + intros i j k Ho Hk. assert (k = 0) by lia. subst k. pose proof (zget_range _ _ _ _ Ho) as Hr. replace (zlen [1; 2; 0]) with 3 in Hr by reflexivity.
      assert (i = 0 \/ i = 1 \/ i = 2) as [->|[->| ->]] by lia; vm_compute in Ho; injection Ho as <-; reflexivity.
  - split; [vm_compute; reflexivity|]. split; [vm_compute; reflexivity|]. split; [reflexivity|]. split; [reflexivity|]. discriminate.
Qed.
Print Assumptions C90_bits_refuted.

(** ** Cases *)
Example C90_demo :
  well_formed (three_trees 1 2 3) /\ raw_output (three_trees 1 2 3) /\ well_formed (three_trees 2 3 1) /\ NEstimators (three_trees 1 2 3) = Ok 3 /\
  Predict amd64 (three_trees 1 2 3) [fzero; fzero] 0 (zeros 1) = Ok [fint 6] /\ Predict amd64 (three_trees 2 3 1) [fzero; fzero] 0 (zeros 1) = Ok [fint 6].
Proof.
  split; [repeat split; try reflexivity; vm_compute; discriminate|]. split; [eexists; reflexivity|]. split; [repeat split; try reflexivity; vm_compute; discriminate|].
  split; [reflexivity|]. split; vm_compute; reflexivity.
Qed.
Example C90_weights :
  reordered 2 1 [1; 0] (xgTrees demo_xg) (rev (xgTrees demo_xg)) /\ reordered 2 1 [1; 0] (xgWeightDrop demo_xg) (rev (xgWeightDrop demo_xg)).
Proof.
  split; (split; [constructor|]); intros i j k Ho Hk; assert (k = 0) by lia; subst k; pose proof (zget_range _ _ _ _ Ho) as Hr; replace (zlen [1; 0]) with 2 in Hr by reflexivity;
    assert (i = 0 \/ i = 1) as [->| ->] by lia; vm_compute in Ho; injection Ho as <-; reflexivity.
Qed.
