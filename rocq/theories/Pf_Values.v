(** * Closed forms of the raw and leaf-index predictions *)

From Coq Require Import ZArith List Bool String Lia ZifyBool.
From Verif Require Import Go GoFloat GoText Cmd UtilBits LgTree Transformation Ensembles Leaves Parallel
  Spec_Predict Pf_Go Pf_Cmd Pf_Exec Pf_Leaves Pf_Calls Pf_Rows.

(** commands of a successful double loop of additions *)
Lemma adds_values : forall (x : Z -> Z -> outcome f64) g rows m m',
  exec (flat_map (fun i => map (fun k => cmd_of (x i k) (fun v => CAdd (0 + k) v)) (zseq g)) rows) m = Ok m' ->
  exists val, (forall i k, In i rows -> 0 <= k < g -> x i k = Ok (val i k)) /\
    flat_map (fun i => map (fun k => cmd_of (x i k) (fun v => CAdd (0 + k) v)) (zseq g)) rows =
    flat_map (fun i => map (fun k => CAdd k (val i k)) (zseq g)) rows.
Proof.
  intros x g rows m m' H.
  exists (fun i k => match x i k with Ok v => v | _ => fzero end).
  assert (Hv : forall i k, In i rows -> 0 <= k < g -> exists v, x i k = Ok v).
  { intros i k Hi Hk.
    destruct (exec_ok_no_panic _ _ _ (cmd_of (x i k) (fun v => CAdd (0 + k) v)) H) as (j & f & Hu).
    - apply in_flat_map. exists i. split; auto. apply in_map_iff. exists k. split; auto. apply in_zseq; auto.
    - apply cmd_of_upd in Hu. destruct Hu as (a & Ha & _). eauto. }
  split.
  - intros i k Hi Hk. destruct (Hv i k Hi Hk) as [v ->]. auto.
  - rewrite !flat_map_concat_map. f_equal. apply map_ext_in. intros i Hi. apply map_ext_in. intros k Hk.
    apply in_zseq in Hk. destruct (Hv i k Hi Hk) as [v ->]. reflexivity.
Qed.

Lemma cmd_of_bind_ok : forall A B (x : outcome A) (f : A -> B) (k : B -> cmd),
  cmd_of x (fun a => k (f a)) = cmd_of (let* a := x in Ok (f a)) k.
Proof. intros A B [| | |] f k; reflexivity. Qed.

(** setting [g] cells and then adding *)
Lemma sets_adds : forall g init (x : Z -> Z -> outcome f64) n m m', 0 <= g ->
  exec (map (fun k => CSet (0 + k) init) (zseq g) ++
        flat_map (fun i => map (fun k => cmd_of (x i k) (fun v => CAdd (0 + k) v)) (zseq g)) (zseq n)) m = Ok m' ->
  exists val, (forall i k, 0 <= i < n -> 0 <= k < g -> x i k = Ok (val i k)) /\
    forall k, 0 <= k < g -> zget m' k = Some (fold_left (fun acc i => fadd acc (val i k)) (zseq n) init).
Proof.
  intros g init x n m m' Hg H.
  rewrite exec_app in H. apply bind_ok in H. destruct H as (m1 & H1 & H2).
  destruct (adds_values x g (zseq n) m1 m' H2) as (val & Hv & E).
  exists val. split.
  - intros i k Hi Hk. apply Hv; auto. apply in_zseq; auto.
  - intros k Hk.
    assert (Hl : g <= zlen m).
    { assert (Hr : Forall (runs (zlen m)) (map (fun k => CSet (0 + k) init) (zseq g))) by (apply exec_runs; eauto).
      rewrite Forall_forall in Hr. destruct (Hr (CSet (0 + (g - 1)) init)) as (i & f & Hu & Hi).
      - apply in_map_iff. exists (g - 1). split; auto. apply in_zseq. lia.
      - simpl in Hu. injection Hu as <- _. lia. }
    destruct (exec_sets_prefix g (fun _ => init) m ltac:(lia)) as (m1' & E1 & L1 & G1 & _).
    assert (m1' = m1) by (revert H1 E1; simpl; congruence). subst m1'.
    rewrite E in H2.
    destruct (exec_adds g val (zseq n) m1 ltac:(lia)) as (m2' & E2 & L2 & G2 & _).
    assert (m2' = m') by congruence. subst m2'. apply G2; auto.
Qed.

Lemma fold_map : forall A (f : A -> f64) l x,
  fold_left (fun acc i => fadd acc (f i)) l x = sum_from x (map f l).
Proof. intros A f l. induction l as [|a l IH]; intros x; simpl; auto. Qed.

Lemma zget_map_zseq : forall A (f : Z -> A) n i, 0 <= i < n -> zget (map f (zseq n)) i = Some (f i).
Proof. intros A f n i Hi. rewrite zget_map, zget_zseq by auto. reflexivity. Qed.

Lemma lg_inner_values : forall p e fv n m m', 0 <= lgNRawOutputGroups e -> 0 <= n ->
  exec (lg_predictInner p e fv n 0) m = Ok m' ->
  forall k, 0 <= k < lgNRawOutputGroups e -> exists vs,
    tree_outputs p (lgTrees e) (lgNRawOutputGroups e) k n fv vs /\
    zget m' k = Some (sum_from fzero (map (fun v => fmul v
      (if lgAverageOutput e then fdiv fone (f64_of_Z n) else fone)) vs)).
Proof.
  intros p e fv n m m' Hg Hn H k Hk. unfold lg_predictInner in H. cbv zeta in H.
  set (coef := if lgAverageOutput e then fdiv fone (f64_of_Z n) else fone) in *.
  set (g := lgNRawOutputGroups e) in *.
  pose (x := fun i k => let* r := (let* t := at_ (lgTrees e) (i * g + k) in predict p t fv) in Ok (fmul (fst r) coef)).
  assert (H' : exec (map (fun k => CSet (0 + k) fzero) (zseq g) ++
     flat_map (fun i => map (fun k => cmd_of (x i k) (fun v => CAdd (0 + k) v)) (zseq g)) (zseq n)) m = Ok m').
  { rewrite <- H. f_equal. f_equal. rewrite !flat_map_concat_map. f_equal. apply map_ext. intros i.
    apply map_ext. intros j. unfold x. symmetry. apply cmd_of_bind_ok. }
  destruct (sets_adds g fzero x n m m' Hg H') as (val & Hv & Hs).
  assert (Ht : forall i, 0 <= i < n -> exists t r, zget (lgTrees e) (i * g + k) = Some t /\ predict p t fv = Ok r /\
     val i k = fmul (fst r) coef).
  { intros i Hi. specialize (Hv i k Hi Hk). unfold x in Hv. apply bind_ok in Hv. destruct Hv as (r & Hr & Hv).
    apply bind_ok in Hr. destruct Hr as (t & Ht & Hr). apply at_ok in Ht. injection Hv as Hv. eauto 6. }
  pose (out := fun i => match (let* t := at_ (lgTrees e) (i * g + k) in predict p t fv) with Ok r => fst r | _ => fzero end).
  exists (map out (zseq n)). split.
  - split; [rewrite zlen_map, zseq_zlen; lia|]. intros i Hi.
    destruct (Ht i Hi) as (t & [v leaf] & Hz & Hp & _). exists t, v, leaf. repeat split; auto.
    rewrite zget_map_zseq by auto. unfold out. apply at_ok in Hz. rewrite Hz. cbn [bind]. rewrite Hp. reflexivity.
  - rewrite Hs by auto. f_equal. rewrite fold_map, map_map. f_equal. apply map_ext_in. intros i Hi.
    apply in_zseq in Hi. destruct (Ht i Hi) as (t & [v leaf] & Hz & Hp & ->). unfold out.
    apply at_ok in Hz. rewrite Hz. cbn [bind]. rewrite Hp. reflexivity.
Qed.

Lemma xg_inner_values : forall p e fv n m m', 0 <= xgNRawOutputGroups e -> 0 <= n ->
  exec (xg_predictInner p e fv n 0) m = Ok m' ->
  forall k, 0 <= k < xgNRawOutputGroups e -> exists vs ws,
    tree_outputs p (xgTrees e) (xgNRawOutputGroups e) k n fv vs /\
    zlen ws = n /\
    (forall i, 0 <= i < n -> zget ws i = zget (xgWeightDrop e) (i * xgNRawOutputGroups e + k)) /\
    zget m' k = Some (sum_from (xgBaseScore e) (map (fun vw => fmul (fst vw) (snd vw)) (combine vs ws))).
Proof.
  intros p e fv n m m' Hg Hn H k Hk. unfold xg_predictInner in H. cbv zeta in H.
  set (g := xgNRawOutputGroups e) in *.
  match type of H with context [flat_map (fun i => map (fun k => cmd_of (@?y i k) _) _)] => set (x := y) in H end.
  destruct (sets_adds g _ x n m m' Hg H) as (val & Hv & Hs).
  assert (Ht : forall i, 0 <= i < n -> exists t r w, zget (xgTrees e) (i * g + k) = Some t /\ predict p t fv = Ok r /\
     zget (xgWeightDrop e) (i * g + k) = Some w /\ val i k = fmul (fst r) w).
  { intros i Hi. specialize (Hv i k Hi Hk). unfold x in Hv. apply bind_ok in Hv. destruct Hv as (t & Ht & Hv).
    apply bind_ok in Hv. destruct Hv as (r & Hr & Hv). apply bind_ok in Hv. destruct Hv as (w & Hw & Hv).
    apply at_ok in Ht. apply at_ok in Hw. injection Hv as Hv. eauto 8. }
  pose (out := fun i => match (let* t := at_ (xgTrees e) (i * g + k) in predict p t fv) with Ok r => fst r | _ => fzero end).
  pose (wt := fun i => match zget (xgWeightDrop e) (i * g + k) with Some r => r | _ => fzero end).
  exists (map out (zseq n)), (map wt (zseq n)). split; [|split; [|split]].
  - split; [rewrite zlen_map, zseq_zlen; lia|]. intros i Hi.
    destruct (Ht i Hi) as (t & [v leaf] & w & Hz & Hp & _). exists t, v, leaf. repeat split; auto.
    rewrite zget_map_zseq by auto. unfold out. apply at_ok in Hz. rewrite Hz. cbn [bind]. rewrite Hp. reflexivity.
  - rewrite zlen_map, zseq_zlen; lia.
  - intros i Hi. rewrite zget_map_zseq by auto. destruct (Ht i Hi) as (t & r & w & _ & _ & Hw & _).
    unfold wt. rewrite Hw. auto.
  - rewrite Hs by auto. f_equal. rewrite fold_map. f_equal.
    assert (Ec : forall (f h : Z -> f64) l, combine (map f l) (map h l) = map (fun i => (f i, h i)) l).
    { intros f h l. induction l; simpl; congruence. }
    rewrite Ec, map_map. apply map_ext_in. intros i Hi.
    apply in_zseq in Hi. destruct (Ht i Hi) as (t & [v leaf] & w & Hz & Hp & Hw & ->). unfold out, wt.
    apply at_ok in Hz. rewrite Hz, Hw. cbn [bind]. rewrite Hp. reflexivity.
Qed.

(** one group of the linear model *)
Lemma lin_group : forall k w0 (x : Z -> outcome f64) n m m', 
  exec (CSet (0 + k) w0 :: map (fun i => cmd_of (x i) (fun v => CAdd (0 + k) v)) (zseq n)) m = Ok m' ->
  exists val, (forall i, 0 <= i < n -> x i = Ok (val i)) /\
    zget m' k = Some (sum_from w0 (map val (zseq n))).
Proof.
  intros k w0 x n m m' H.
  exists (fun i => match x i with Ok v => v | _ => fzero end).
  assert (Hv : forall i, In i (zseq n) -> exists v, x i = Ok v).
  { intros i Hi.
    destruct (exec_ok_no_panic _ _ _ (cmd_of (x i) (fun v => CAdd (0 + k) v)) H) as (j & f & Hu).
    - right. apply in_map_iff. eauto.
    - apply cmd_of_upd in Hu. destruct Hu as (a & Ha & _). eauto. }
  split.
  - intros i Hi. destruct (Hv i) as [v ->]; auto. apply in_zseq; auto.
  - cbn [exec] in H. apply bind_ok in H. destruct H as (m1 & H1 & H).
    assert (G1 : zget m1 k = Some w0).
    { simpl in H1. apply set_at_ok in H1. eapply zset_get_same; eauto. }
    clear H1. revert w0 m1 G1 H. induction (zseq n) as [|i l IH]; intros w0 m1 G1 H.
    + simpl in *. congruence.
    + cbn [map exec] in H. apply bind_ok in H. destruct H as (m2 & H2 & H).
      destruct (Hv i (or_introl eq_refl)) as [v Ev]. rewrite Ev in H2. cbn [cmd_of exec1] in H2.
      apply bind_ok in H2. destruct H2 as (y & Hy & H2). apply at_ok in Hy. change (0 + k) with k in *.
      assert (y = w0) by congruence. subst y. apply set_at_ok in H2. cbn [map]. rewrite Ev. 
      unfold sum_from. cbn [fold_left].
      apply (IH (fun j Hj => Hv j (or_intror Hj)) (fadd w0 v) m2); auto. eapply zset_get_same; eauto.
Qed.

Lemma lin_inner_values : forall e fv m m',
  exec (xl_predictInner e fv 0) m = Ok m' ->
  0 <= xlNRawOutputGroups e * (xlNumFeature e + 1) <= MaxInt -> 0 <= xlNumFeature e ->
  forall k, 0 <= k < xlNRawOutputGroups e -> exists bias terms,
    zget (xlWeights e) (xlNRawOutputGroups e * xlNumFeature e + k) = Some bias /\
    zlen terms = xlNumFeature e /\
    (forall i, 0 <= i < xlNumFeature e -> exists x w,
       zget fv i = Some x /\ zget (xlWeights e) (xlNRawOutputGroups e * i + k) = Some w /\
       zget terms i = Some (fmul x (f64_of_f32bits w))) /\
    zget m' k = Some (sum_from (fadd (xlBaseScore e) (f64_of_f32bits bias)) terms).
Proof.
  intros e fv m m' H Hmax Hnf k Hk. unfold xl_predictInner in H. cbv zeta in H.
  set (g := xlNRawOutputGroups e) in *. set (nf := xlNumFeature e) in *.
  set (F := fun k => _) in H.
  (* split the loop at group k *)
  assert (Es : zseq g = zseq k ++ k :: zrange (k + 1) g).
  { rewrite <- !zrange_zseq. rewrite (zrange_app 0 k g) by lia. f_equal. apply zrange_cons. lia. }
  rewrite Es, flat_map_app in H. cbn [flat_map] in H.
  rewrite exec_app in H. apply bind_ok in H. destruct H as (m1 & H1 & H).
  rewrite exec_app in H. apply bind_ok in H. destruct H as (m2 & H2 & H3).
  assert (W : forall j, within j (j + 1) (F j)).
  { intros j. unfold F. constructor.
    - apply cell_in_cmd_of. intros a. unfold cell_in. simpl. lia.
    - apply within_map. intros i _. apply cell_in_cmd_of. intros a. unfold cell_in. simpl. lia. }
  assert (G3 : zget m' k = zget m2 k).
  { eapply exec_frame with (lo := k + 1) (hi := g); [|exact H3|lia].
    apply within_flat_map. intros j Hj. apply in_zrange in Hj. eapply within_weaken; [apply W|lia|lia]. }
  unfold F in H2.
  destruct (at_ (xlWeights e) (s64 (g * nf + k))) as [b| | |] eqn:Eb;
    try (simpl in H2; discriminate).
  cbn [cmd_of] in H2. apply (lin_group k) in H2. destruct H2 as (val & Hv & G2).
  assert (R : forall i, 0 <= i <= nf -> s64 (g * i + k) = g * i + k).
  { intros i Hi. apply s64_id. unfold MaxInt, two63 in *. nia. }
  rewrite R in Eb by lia. apply at_ok in Eb.
  exists b, (map val (zseq nf)). repeat split; auto.
  - rewrite zlen_map, zseq_zlen; auto.
  - intros i Hi. specialize (Hv i Hi). apply bind_ok in Hv. destruct Hv as (x & Hx & Hv).
    apply bind_ok in Hv. destruct Hv as (w & Hw & Hv). rewrite R in Hw by lia.
    apply at_ok in Hx. apply at_ok in Hw. exists x, w. repeat split; auto.
    rewrite zget_map_zseq by auto. congruence.
  - congruence.
Qed.

(** leaf indices: the loop of single stores *)
Lemma leafs_values : forall p trees g fv n m m', 0 <= g -> 0 <= n -> g * n <= MaxInt ->
  exec (trees_predictLeafIndicesInner p trees g fv n 0) m = Ok m' ->
  forall k i, 0 <= k < g -> 0 <= i < n -> exists t v leaf,
    zget trees (i * g + k) = Some t /\ predict p t fv = Ok (v, leaf) /\
    zget m' (k * n + i) = Some (f64_of_Z leaf).
Proof.
  intros p trees g fv n m m' Hg Hn Hmax H k i Hk Hi.
  unfold trees_predictLeafIndicesInner in H. cbv zeta in H.
  rewrite exec_app in H. apply bind_ok in H. destruct H as (m1 & _ & H).
  set (C := fun i k => cmd_of (let* t := at_ trees (i * g + k) in predict p t fv)
                     (fun r => CSet (0 + k * n + i) (f64_of_Z (snd r)))).
  change (exec (flat_map (fun i => map (C i) (zseq g)) (zseq n)) m1 = Ok m') in H.
  assert (Cin : forall i k, cell_in (k * n + i) (k * n + i + 1) (C i k)).
  { intros a b. apply cell_in_cmd_of. intros r. unfold cell_in. simpl. lia. }
  assert (Es : zseq n = zseq i ++ i :: zrange (i + 1) n).
  { rewrite <- !zrange_zseq. rewrite (zrange_app 0 i n) by lia. f_equal. apply zrange_cons. lia. }
  assert (Ek : zseq g = zseq k ++ k :: zrange (k + 1) g).
  { rewrite <- !zrange_zseq. rewrite (zrange_app 0 k g) by lia. f_equal. apply zrange_cons. lia. }
  rewrite Es, flat_map_app in H. cbn [flat_map] in H.
  rewrite exec_app in H. apply bind_ok in H. destruct H as (m2 & _ & H).
  rewrite exec_app in H. apply bind_ok in H. destruct H as (m3 & H2 & H3).
  rewrite Ek, map_app in H2. cbn [map] in H2.
  rewrite exec_app in H2. apply bind_ok in H2. destruct H2 as (m4 & _ & H2).
  cbn [exec] in H2. apply bind_ok in H2. destruct H2 as (m5 & H5 & H2).
  (* later commands do not touch the cell *)
  assert (Fr : forall cs a b, (forall c, In c cs -> exists i' k', c = C i' k' /\ 0 <= i' < n /\ (i' <> i \/ k' <> k)) ->
    exec cs a = Ok b -> zget b (k * n + i) = zget a (k * n + i)).
  { induction cs as [|c cs IH]; intros a b Hc E.
    - simpl in E. congruence.
    - cbn [exec] in E. apply bind_ok in E. destruct E as (a' & E1 & E2).
      rewrite (IH a' b); auto. 2: { intros d Hd. apply Hc. right; auto. }
      destruct (Hc c (or_introl eq_refl)) as (i' & k' & -> & Hi' & Hne).
      eapply exec1_frame; [apply Cin|exact E1|].
      assert (k' * n + i' <> k * n + i); [|lia].
      intros E'. assert (k' = k) by nia. subst k'. lia. }
  rewrite (Fr (flat_map (fun i => map (C i) (zseq g)) (zrange (i + 1) n)) m3 m'); [|intros c Hc|exact H3].
  2: { apply in_flat_map in Hc. destruct Hc as (i' & Hi' & Hc). apply in_map_iff in Hc. destruct Hc as (k' & <- & Hk').
       apply in_zrange in Hi'. exists i', k'. repeat split; auto; lia. }
  rewrite (Fr (map (C i) (zrange (k + 1) g)) m5 m3); [|intros c Hc|exact H2].
  2: { apply in_map_iff in Hc. destruct Hc as (k' & <- & Hk').
       apply in_zrange in Hk'. exists i, k'. repeat split; auto; lia. }
  unfold C in H5. destruct (let* t := at_ trees (i * g + k) in predict p t fv) as [r| | |] eqn:E; try discriminate.
  apply bind_ok in E. destruct E as (t & Ht & Hp). apply at_ok in Ht. destruct r as [v leaf].
  exists t, v, leaf. repeat split; auto. simpl in H5. apply set_at_ok in H5.
  eapply zset_get_same in H5. exact H5.
Qed.

(** a nested loop of single stores into a list of ints: NLeaves *)
Lemma nleaves_fold : forall (trees : list lgTree) g n l0, 0 <= g -> 0 <= n -> g * n <= zlen trees -> zlen l0 = g * n ->
  exists l, foldM (fun nleaves estimatorID =>
           foldM (fun nleaves groupID =>
                    let* t := at_ trees (estimatorID * g + groupID) in
                    set_at nleaves (groupID * n + estimatorID) (nLeaves t))
                 (zseq g) nleaves)
        (zseq n) l0 = Ok l /\ zlen l = g * n /\
  forall k i, 0 <= k < g -> 0 <= i < n -> exists t, zget trees (i * g + k) = Some t /\ zget l (k * n + i) = Some (nLeaves t).
Proof.
  intros trees g n l0 Hg Hn Ht Hl0.
  pose (good := fun (l : list Z) k i => exists t, zget trees (i * g + k) = Some t /\ zget l (k * n + i) = Some (nLeaves t)).
  destruct (foldM_inv _ (fun i l => zlen l = g * n /\ forall k i', 0 <= k < g -> 0 <= i' < i -> good l k i')
    (fun nleaves estimatorID =>
           foldM (fun nleaves groupID =>
                    let* t := at_ trees (estimatorID * g + groupID) in
                    set_at nleaves (groupID * n + estimatorID) (nLeaves t))
                 (zseq g) nleaves) n l0 Hn) as (l & E & Hl & Hgood).
  - split; auto. intros; lia.
  - intros i l Hi [Hl Hgd].
    destruct (foldM_inv _ (fun b l => zlen l = g * n /\ (forall k i', 0 <= k < g -> 0 <= i' < i -> good l k i') /\
                                      (forall k, 0 <= k < b -> good l k i))
      (fun nleaves groupID =>
                    let* t := at_ trees (i * g + groupID) in
                    set_at nleaves (groupID * n + i) (nLeaves t)) g l Hg) as (l' & E & Hl' & H1 & H2).
    + repeat split; auto. intros; lia.
    + intros k l1 Hk (Hl1 & H1 & H2).
      destruct (zget_some _ trees (i * g + k) ltac:(nia)) as [t Hz].
      destruct (zset_some _ l1 (k * n + i) (nLeaves t) ltac:(nia)) as [l2 Hs].
      exists l2. split.
      { rewrite (proj2 (at_ok _ _ _ _) Hz). cbn [bind]. apply set_at_ok; auto. }
      rewrite (zset_len _ _ _ _ _ Hs). split; auto. split.
      * intros k' i' Hk' Hi'. destruct (H1 k' i' Hk' Hi') as (t' & Hz' & Hg'). exists t'. split; auto.
        rewrite (zset_get_other _ _ _ _ _ _ Hs); auto. intros E'.
        assert (k' = k) by nia. subst. lia.
      * intros k' Hk'. destruct (Z.eq_dec k' k) as [->|Hne].
        -- exists t. split; auto. apply (zset_get_same _ _ _ _ _ Hs).
        -- destruct (H2 k' ltac:(lia)) as (t' & Hz' & Hg'). exists t'. split; auto.
           rewrite (zset_get_other _ _ _ _ _ _ Hs); auto. nia.
    + exists l'. split; auto. split; auto. intros k i' Hk Hi'.
      destruct (Z.eq_dec i' i) as [->|Hne]; [apply H2; auto|apply H1; lia].
  - exists l. auto.
Qed.
