(** * XGBoost trees as loaded *)

From Coq Require Import ZArith List Bool String Lia ZifyBool.
From Verif Require Import Go GoFloat GoText LgTree TreeBuild XgBin XgIO.
From Verif Require Import Spec_Split Spec_Tree Spec_XgBin Spec_XgTree.
From Verif Require Import Pf_Go Pf_Bits Pf_Split Pf_Build Pf_Placed Pf_Append.
Local Open Scope Z_scope.

Lemma xg_source_returns : forall nodes, source_returns (xg_source nodes).
Proof.
  intros nodes. split; [|split]; cbn [src_create src_left src_right xg_source].
  - intros t i. unfold xg_createNode. apply bind_not_hang; [apply at_not_hang|]. intros n _. cbv zeta.
    destruct (xCLeft n <? 0); [discriminate|]. destruct (xCRight n <? 0); [discriminate|].
    apply bind_not_hang; [apply at_not_hang|]. intros l _. destruct (xgIsLeaf l); cbv iota;
      (apply bind_not_hang; [apply at_not_hang|]; intros r _; discriminate).
  - intros i. apply bind_not_hang; [apply at_not_hang|]. discriminate.
  - intros i. apply bind_not_hang; [apply at_not_hang|]. discriminate.
Qed.

Lemma xg_ignores : forall nodes, ignores_nodes (xg_source nodes).
Proof.
  intros nodes t ns i. cbn [src_create xg_source]. unfold xg_createNode. destruct (at_ nodes i) as [n|m|m|]; cbn [bind]; auto. cbv zeta.
  destruct (xCLeft n <? 0); auto. destruct (xCRight n <? 0); auto.
  destruct (at_ nodes (xCLeft n)) as [l|m|m|]; cbn [bind]; auto. destruct (xgIsLeaf l); cbn [leaf_left];
    (destruct (at_ nodes (xCRight n)) as [r|m|m|]; cbn [bind]; auto; destruct (xgIsLeaf r); reflexivity).
Qed.

Fixpoint skeleton (nodes : list xNode) (c : Z) (t : xtree) : stree :=
  match t with
  | XLeaf _ _ => SLeaf
  | XNode _ _ _ l r =>
      match zget nodes c with
      | Some n => SNode c (skeleton nodes (xCLeft n) l) (skeleton nodes (xCRight n) r)
      | None => SLeaf
      end
  end.

Lemma xd_leaf_iff : forall nodes c t ids n, xdescribes nodes c t ids -> zget nodes c = Some n -> xgIsLeaf n = is_xleaf t.
Proof.
  intros nodes c t ids n H G. unfold xgIsLeaf. destruct H as [c n' G' E|c n' l r il ir G' Hl Hr]; assert (n' = n) by congruence; subst; cbn [is_xleaf].
  - rewrite E. reflexivity.
  - inversion Hl as [? ? K|? ? ? ? ? ? K]; subst; apply zget_range in K; lia.
Qed.
Lemma xd_zget : forall nodes c t ids, xdescribes nodes c t ids -> exists n, zget nodes c = Some n.
Proof. intros nodes c t ids H. destruct H; eauto. Qed.
Lemma xd_leaf_inv : forall nodes c t ids n, xdescribes nodes c t ids -> zget nodes c = Some n -> is_xleaf t = true -> t = XLeaf c (f64_of_f32bits (xInfo n)).
Proof. intros nodes c t ids n H G L. destruct H as [c n' G' E|]; [|discriminate]. congruence. Qed.

Lemma top_bit : forall z, 0 <= z < 2 ^ 32 -> negb (Z.shiftr z 31 =? 0) = (2 ^ 31 <=? z).
Proof.
  intros z H. rewrite Z.shiftr_div_pow2 by lia. change (2 ^ 32) with 4294967296 in H. change (2 ^ 31) with 2147483648.
  destruct (Z.leb_spec 2147483648 z).
  - assert (1 <= z / 2147483648) by (apply Z.div_le_lower_bound; lia). destruct (Z.eqb_spec (z / 2147483648) 0); auto; lia.
  - rewrite Z.div_small by lia. reflexivity.
Qed.
Lemma split_index : forall z, Z.land z (two31 - 1) = z mod 2 ^ 31.
Proof. intros z. change (two31 - 1) with (Z.ones 31). apply Z.land_ones. lia. Qed.

Lemma leaf_dtree : forall cmp t, is_leaf (reference cmp t) = is_xleaf t.
Proof. destruct t; reflexivity. Qed.

Lemma bare_numerical : forall f m thr dl, bare (numericalNode f (missing_flag m) thr (default_flag dl)).
Proof. intros f m thr dl. unfold bare. cbn [numericalNode nFlags]. destruct m, dl; split; reflexivity. Qed.

Definition nothing (t : lgTree) : Prop := True.

Lemma xg_matches : forall p nodes, Forall (fun n => uint32 (xSIndex n)) nodes ->
  forall c t ids, xdescribes nodes c t ids -> matches p (xg_source nodes) nothing (skeleton nodes c t) (reference fle t) 0.
Proof.
  intros p nodes Hu c t ids H. induction H as [c n G E|c n l r il ir G Hl IHl Hr IHr]; cbn [skeleton reference]; [constructor|].
  rewrite G. destruct (xd_zget _ _ _ _ Hl) as [nl Gl]. destruct (xd_zget _ _ _ _ Hr) as [nr Gr].
  pose proof (zget_range _ _ _ _ Gl) as Rl. pose proof (zget_range _ _ _ _ Gr) as Rr.
  assert (Un : uint32 (xSIndex n)) by (rewrite Forall_forall in Hu; apply Hu; eapply zget_in; eauto).
  set (n0 := numericalNode (xSIndex n mod 2 ^ 31) (missing_flag MNan) (f64_of_f32bits (xInfo n)) (default_flag (2 ^ 31 <=? xSIndex n))).
  assert (CR : forall t, src_create (xg_source nodes) t c = Ok (add_right (reference fle r) (add_left (reference fle l) (n0, t)))).
  { intros t0. cbn [src_create xg_source]. unfold xg_createNode. rewrite (at_zget _ _ _ _ G). cbn [bind]. cbv zeta.
    unfold xgDefaultLeft, xgSplitIndex. rewrite top_bit, split_index by auto.
    change (numericalNode _ missingNan _ _) with n0. replace (xCLeft n <? 0) with false by lia. replace (xCRight n <? 0) with false by lia.
    rewrite (at_zget _ _ _ _ Gl). cbn [bind]. rewrite (xd_leaf_iff _ _ _ _ _ Hl Gl).
    assert (EL : (if is_xleaf l then leaf_left (n0, t0) (f64_of_f32bits (xInfo nl)) else (n0, t0)) = add_left (reference fle l) (n0, t0)).
    { destruct (is_xleaf l) eqn:Q; [|destruct l; [discriminate|reflexivity]]. rewrite (xd_leaf_inv _ _ _ _ _ Hl Gl Q). reflexivity. }
    rewrite EL. destruct (add_left (reference fle l) (n0, t0)) as [n1 t1]. rewrite (at_zget _ _ _ _ Gr). cbn [bind]. rewrite (xd_leaf_iff _ _ _ _ _ Hr Gr).
    f_equal. destruct (is_xleaf r) eqn:Q; [|destruct r; [discriminate|reflexivity]]. rewrite (xd_leaf_inv _ _ _ _ _ Hr Gr Q). reflexivity. }
  change 0 with (0 + 0 + 0). apply m_node; auto.
  - intros t0 n1 t1 Hc. rewrite CR in Hc. injection Hc as Hc. exists n0, t0. split; [auto|]. apply bare_numerical.
  - lia.
  - intros t0 _ Ht Hb. exists n0, t0. split; [apply CR|]. split; [reflexivity|]. split; [auto|]. split; [exact I|]. split; [auto|]. split; [lia|]. split; [lia|].
    intros T n1 b Hbits E1 E2 _ v. rewrite (numerical_decides p T n1 MNan (2 ^ 31 <=? xSIndex n) v b Hbits E2). rewrite E1. reflexivity.
  - cbn [src_left xg_source]. rewrite (at_zget _ _ _ _ G). cbn [bind]. destruct l; cbn [skeleton]; [exact I|]. rewrite Gl. reflexivity.
  - cbn [src_right xg_source]. rewrite (at_zget _ _ _ _ G). cbn [bind]. destruct r; cbn [skeleton]; [exact I|]. rewrite Gr. reflexivity.
Qed.

Lemma skeleton_ids : forall nodes c t ids, xdescribes nodes c t ids ->
  (forall j, In j (sids (skeleton nodes c t)) -> In j ids) /\ (NoDup ids -> NoDup (sids (skeleton nodes c t))).
Proof.
  intros nodes c t ids H. induction H as [c n G E|c n l r il ir G Hl (I1 & N1) Hr (I2 & N2)]; cbn [skeleton sids].
  - split; [contradiction|constructor].
  - rewrite G. cbn [sids]. split.
    + intros j [->|Hj]; cbn; auto. right. apply in_or_app. apply in_app_or in Hj. destruct Hj; auto.
    + intros ND. inversion ND as [|? ? K1 K2]; subst. apply NoDup_app_inv in K2 || idtac.
      assert (S : forall a b : list Z, NoDup (a ++ b) -> NoDup a /\ NoDup b /\ forall x, In x a -> ~ In x b).
      { clear. induction a as [|x a IH]; intros b ND; cbn [app] in *; [split; [constructor|auto]|]. inversion ND as [|? ? A B]; subst.
        destruct (IH _ B) as (P & Q & R). split; [constructor; auto; intros X; apply A, in_or_app; auto|]. split; [auto|].
        intros y [<-|Hy] Y; [apply A, in_or_app; auto|]. eapply R; eauto. }
      assert (J : forall a b : list Z, NoDup a -> NoDup b -> (forall x, In x a -> ~ In x b) -> NoDup (a ++ b)).
      { clear. induction a as [|x a IH]; intros b A B D; cbn [app]; auto. inversion A; subst. constructor.
        - intros X. apply in_app_or in X. destruct X; auto. eapply D; [left; reflexivity|auto].
        - apply IH; auto. intros y Hy. apply D. cbn. auto. }
      destruct (S _ _ K2) as (P & Q & R). constructor.
      * intros X. apply K1. apply in_or_app. apply in_app_or in X. destruct X; auto.
      * apply J; auto. intros x X Y. eapply R; eauto.
Qed.

Lemma leaf_ids : forall nodes c t ids, xdescribes nodes c t ids -> NoDup ids -> forall cmp,
  (forall id, In id (map fst (leaves_of (reference cmp t))) -> In id ids) /\ NoDup (map fst (leaves_of (reference cmp t))).
Proof.
  assert (S : forall a b : list Z, NoDup (a ++ b) -> NoDup a /\ NoDup b /\ forall x, In x a -> ~ In x b).
  { clear. induction a as [|x a IH]; intros b ND; cbn [app] in *; [split; [constructor|auto]|]. inversion ND as [|? ? A B]; subst.
    destruct (IH _ B) as (P & Q & R). split; [constructor; auto; intros X; apply A, in_or_app; auto|]. split; [auto|].
    intros y [<-|Hy] Y; [apply A, in_or_app; auto|]. eapply R; eauto. }
  assert (J : forall a b : list Z, NoDup a -> NoDup b -> (forall x, In x a -> ~ In x b) -> NoDup (a ++ b)).
  { clear. induction a as [|x a IH]; intros b A B D; cbn [app]; auto. inversion A; subst. constructor.
    - intros X. apply in_app_or in X. destruct X; auto. eapply D; [left; reflexivity|auto].
    - apply IH; auto. intros y Hy. apply D. cbn. auto. }
  intros nodes c t ids H. induction H as [c n G E|c n l r il ir G Hl IHl Hr IHr]; intros ND cmp; cbn [reference leaves_of map fst].
  - split; [auto|]. constructor; [auto|constructor].
  - inversion ND as [|? ? K1 K2]; subst. destruct (S _ _ K2) as (P & Q & R). destruct (IHl P cmp) as (I1 & N1). destruct (IHr Q cmp) as (I2 & N2).
    rewrite map_app. split.
    + intros id X. right. apply in_or_app. apply in_app_or in X. destruct X; auto.
    + apply J; auto. intros x X Y. eapply R; eauto.
Qed.

Lemma xd_range : forall nodes c t ids, xdescribes nodes c t ids -> forall j, In j ids -> 0 <= j < zlen nodes.
Proof.
  intros nodes c t ids H. induction H as [c n G E|c n l r il ir G Hl IHl Hr IHr]; intros j I; apply zget_range in G.
  - destruct I as [<-|[]]. lia.
  - destruct I as [<-|I]; [lia|]. apply in_app_or in I. destruct I; auto.
Qed.

Lemma xg_tree_loads : forall p nf m t, xtree_says nf m t -> Forall (fun n => uint32 (xSIndex n)) (tmNodes m) ->
  zlen (tmNodes m) < 2 ^ 31 -> zlen (tmNodes m) <= pl_maxalloc p -> 0 <= nf < 2 ^ 31 ->
  exists T ren, xgTreeFromTreeModel p m nf = Ok T /\ nLeaves T = zlen (leaves_of (reference fle t)) /\ renumbers (reference fle t) ren /\
    forall x v id, walk (reference fle t) x = Some (v, id) -> predict p T x = Ok (v, ren id).
Proof.
  intros p nf m t (H1 & H2 & H3 & ids & D & ND & Hl) Hu Hz Ha Hnf. unfold xgTreeFromTreeModel.
  rewrite s32_id by (change (2 ^ 31) with two31 in Hnf; unfold two31 in *; lia). replace (nf <? tpNumFeature (tmParam m)) with false by lia. rewrite H1. cbn [Z.eqb negb].
  change (1 =? 1) with true. cbn [negb]. destruct (xd_zget _ _ _ _ D) as [n0 G0]. pose proof (zget_range _ _ _ _ G0) as R0. rewrite H3.
  replace (zlen (tmNodes m) =? 0) with false by lia. destruct (Z.eqb_spec (zlen (tmNodes m)) 1) as [E1|E1].
  - rewrite (at_zget _ _ _ _ G0). cbn [bind]. assert (Lt : t = XLeaf 0 (f64_of_f32bits (xInfo n0))).
    { inversion D as [c n G E|c n l r il ir G Dl Dr]; subst; [congruence|]. exfalso. assert (n = n0) by congruence. subst n.
      destruct (xd_zget _ _ _ _ Dl) as [nl Gl]. pose proof (zget_range _ _ _ _ Gl) as Rl. assert (El : xCLeft n0 = 0) by lia.
      inversion ND as [|? ? K1 K2]; subst. apply K1. apply in_or_app. left. rewrite El in Dl. inversion Dl; subst; cbn; auto. }
    subst t. exists (tree_set_leaves emptyTree [f64_of_f32bits (xInfo n0)]), (fun _ => 0). split; [reflexivity|]. split; [reflexivity|].
    cbn [reference leaves_of walk]. split.
    + split.
      * intros id v [E|[]]. unfold zlen. cbn. lia.
      * intros id v id' v' [E|[]] [E'|[]] _. congruence.
    + intros x v id E. injection E as <- <-. reflexivity.
  - assert (Lf : is_xleaf t = false). { destruct (is_xleaf t); auto. exfalso. apply E1. auto. }
    unfold make_check. replace ((zlen (tmNodes m) <? 0) || (pl_maxalloc p <? zlen (tmNodes m))) with false by lia. cbn [bind].
    destruct (skeleton_ids _ _ _ _ D) as (SI & SN). destruct (leaf_ids _ _ _ _ D ND fle) as (_ & NL).
    pose proof (xg_matches p (tmNodes m) Hu 0 t ids D) as M.
    destruct t as [|f thr dl l r]; [discriminate|]. cbn [skeleton] in *. rewrite G0 in *.
    destruct (append_builds p (xg_source (tmNodes m)) nothing ltac:(intros; exact I) _ _ 0 (zlen (tmNodes m)) emptyTree 0 _ _ (xg_ignores _) M eq_refl eq_refl) as (T & ren & B & L & R & P); auto;
      try reflexivity; try exact I; try (change (2 ^ 31) with 2147483648 in Hz; unfold two32; lia).
    + intros j Hj. apply (xd_range _ _ _ _ D). auto.
    + cbn [emptyTree tCatBoundaries]. rewrite zlen_nil. lia.
    + exists T, ren. auto.
Qed.

Lemma fle_flt : forall a b, feq a b = false -> fle a b = flt a b.
Proof. intros a b. unfold feq, fle, flt, SpecFloat.SFeqb, SpecFloat.SFleb, SpecFloat.SFltb. destruct (SpecFloat.SFcompare a b) as [[]|]; auto; discriminate. Qed.

Lemma no_ties_walk : forall t x, no_ties t x -> walk (reference fle t) x = walk (reference flt t) x.
Proof.
  induction t as [id v|f thr dl l IHl r IHr]; intros x H; cbn [reference walk no_ties] in *; auto.
  destruct (zget x f) as [v|]; auto. destruct H as [E H].
  assert (Q : xg_left fle thr dl v = xg_left flt thr dl v) by (unfold xg_left; destruct (is_nan v); auto; apply fle_flt; auto).
  rewrite Q. destruct (xg_left flt thr dl v); auto.
Qed.
