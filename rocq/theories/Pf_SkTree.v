(** * sklearn trees as loaded *)

From Coq Require Import ZArith List Bool String Lia ZifyBool Permutation.
From Verif Require Import Go GoFloat GoText LgTree TreeBuild XgBin Pickle SkClasses SkIO.
From Verif Require Import Spec_Split Spec_Tree Spec_SkTree.
From Verif Require Import Pf_Go Pf_Bits Pf_Split Pf_Build Pf_Placed Pf_Append Pf_XgTree.
Local Open Scope Z_scope.

Lemma sk_value_not_hang : forall values scale base i, sk_value values scale base i <> Hang.
Proof. intros. unfold sk_value. apply bind_not_hang; [apply at_not_hang|]. discriminate. Qed.

Lemma sk_source_returns : forall nodes values scale base, source_returns (sk_source nodes values scale base).
Proof.
  intros nodes values scale base. split; [|split]; cbn [src_create src_left src_right sk_source].
  - intros t i. unfold sk_createNode. apply bind_not_hang; [apply at_not_hang|]. intros n _. cbv zeta.
    apply bind_not_hang; [apply at_not_hang|]. intros l _. apply bind_not_hang.
    { destruct (_ <? 0); [|discriminate]. apply bind_not_hang; [apply sk_value_not_hang|]. discriminate. }
    intros [nd t'] _. apply bind_not_hang; [apply at_not_hang|]. intros r _. destruct (_ <? 0); [|discriminate].
    apply bind_not_hang; [apply sk_value_not_hang|]. discriminate.
  - intros i. apply bind_not_hang; [apply at_not_hang|]. discriminate.
  - intros i. apply bind_not_hang; [apply at_not_hang|]. discriminate.
Qed.

Lemma sk_ignores : forall nodes values scale base, ignores_nodes (sk_source nodes values scale base).
Proof.
  intros nodes values scale base t ns i. cbn [src_create sk_source]. unfold sk_createNode. destruct (at_ nodes i) as [n|m|m|]; cbn [bind]; auto. cbv zeta.
  destruct (at_ nodes (skLeftChild n)) as [l|m|m|]; cbn [bind]; auto.
  destruct (skLeftChild l <? 0); [destruct (sk_value _ _ _ (skLeftChild n)) as [v|m|m|]; cbn [bind]; auto|]; cbn [leaf_left bind];
    (destruct (at_ nodes (skRightChild n)) as [r|m|m|]; cbn [bind]; auto; destruct (skLeftChild r <? 0);
     [destruct (sk_value _ _ _ (skRightChild n)) as [v'|m|m|]; cbn [bind]; auto|reflexivity]).
Qed.

Definition is_kleaf (t : sktree) : bool := match t with KLeaf _ _ => true | _ => false end.
Fixpoint kskeleton (nodes : list SklearnNode) (c : Z) (t : sktree) : stree :=
  match t with
  | KLeaf _ _ => SLeaf
  | KNode _ _ l r =>
      match zget nodes c with
      | Some n => SNode c (kskeleton nodes (skLeftChild n) l) (kskeleton nodes (skRightChild n) r)
      | None => SLeaf
      end
  end.

Section Tree.
Variables (nodes : list SklearnNode) (values : list f64) (scale base : f64).
Notation kd := (kdescribes nodes values).
Notation ref := (sk_reference (scaled scale base)).

Lemma kd_zget : forall c t ids, kd c t ids -> exists n, zget nodes c = Some n.
Proof. intros c t ids H. destruct H; eauto. Qed.
Lemma kd_leaf_iff : forall c t ids n, kd c t ids -> zget nodes c = Some n -> (skLeftChild n <? 0) = is_kleaf t.
Proof.
  intros c t ids n H G. destruct H as [c n' v G' E V|c n' l r il ir G' Hl Hr]; assert (n' = n) by congruence; subst; cbn [is_kleaf].
  - rewrite E. reflexivity.
  - destruct (kd_zget _ _ _ Hl) as [m K]. apply zget_range in K. lia.
Qed.
Lemma kd_leaf_inv : forall c t ids, kd c t ids -> is_kleaf t = true -> exists v, t = KLeaf c v /\ zget values c = Some v /\ ids = [c].
Proof. intros c t ids H L. destruct H as [c n' v G' E|]; [|discriminate]. eauto. Qed.

Lemma sk_matches : forall p c t ids, kd c t ids -> sk_features_below (2 ^ 32) t ->
  matches p (sk_source nodes values scale base) nothing (kskeleton nodes c t) (ref t) 0.
Proof.
  intros p c t ids H. induction H as [c n v G E V|c n l r il ir G Hl IHl Hr IHr]; intros F; cbn [kskeleton sk_reference]; [constructor|].
  destruct F as (F0 & Fl & Fr). specialize (IHl Fl). specialize (IHr Fr).
  rewrite G. destruct (kd_zget _ _ _ Hl) as [nl Gl]. destruct (kd_zget _ _ _ Hr) as [nr Gr].
  pose proof (zget_range _ _ _ _ Gl) as Rl. pose proof (zget_range _ _ _ _ Gr) as Rr.
  set (n0 := numericalNode (skFeature n) (missing_flag MNone) (skThreshold n) (default_flag false)).
  assert (CR : forall t, src_create (sk_source nodes values scale base) t c = Ok (add_right (ref r) (add_left (ref l) (n0, t)))).
  { intros t0. cbn [src_create sk_source]. unfold sk_createNode. rewrite (at_zget _ _ _ _ G). cbn [bind]. cbv zeta.
    rewrite u32_id by (change (2 ^ 32) with two32 in F0; lia). change (numericalNode _ 0 _ 0) with n0.
    rewrite (at_zget _ _ _ _ Gl). cbn [bind]. rewrite (kd_leaf_iff _ _ _ _ Hl Gl).
    assert (EL : (if is_kleaf l then let* v := sk_value values scale base (skLeftChild n) in Ok (leaf_left (n0, t0) v) else Ok (n0, t0)) = Ok (add_left (ref l) (n0, t0))).
    { destruct (is_kleaf l) eqn:Q; [|destruct l; [discriminate|reflexivity]]. destruct (kd_leaf_inv _ _ _ Hl Q) as (v & -> & V & _).
      unfold sk_value. rewrite (at_zget _ _ _ _ V). reflexivity. }
    rewrite EL. cbn [bind]. destruct (add_left (ref l) (n0, t0)) as [n1 t1]. rewrite (at_zget _ _ _ _ Gr). cbn [bind]. rewrite (kd_leaf_iff _ _ _ _ Hr Gr).
    destruct (is_kleaf r) eqn:Q; [|destruct r; [discriminate|reflexivity]]. destruct (kd_leaf_inv _ _ _ Hr Q) as (v & -> & V & _).
    unfold sk_value. rewrite (at_zget _ _ _ _ V). reflexivity. }
  change 0 with (0 + 0 + 0). apply m_node; auto.
  - intros t0 n1 t1 Hc. rewrite CR in Hc. injection Hc as Hc. exists n0, t0. split; [auto|]. apply bare_numerical.
  - lia.
  - intros t0 _ Ht Hb. exists n0, t0. split; [apply CR|]. split; [reflexivity|]. split; [auto|]. split; [exact I|]. split; [auto|]. split; [lia|]. split; [lia|].
    intros T n1 b Hbits E1 E2 _ v. rewrite (numerical_decides p T n1 MNone false v b Hbits E2). rewrite E1. reflexivity.
  - cbn [src_left sk_source]. rewrite (at_zget _ _ _ _ G). cbn [bind]. destruct l; cbn [kskeleton]; [exact I|]. rewrite Gl. reflexivity.
  - cbn [src_right sk_source]. rewrite (at_zget _ _ _ _ G). cbn [bind]. destruct r; cbn [kskeleton]; [exact I|]. rewrite Gr. reflexivity.
Qed.

Lemma nodup_split : forall a b : list Z, NoDup (a ++ b) -> NoDup a /\ NoDup b /\ forall x, In x a -> ~ In x b.
Proof.
  induction a as [|x a IH]; intros b ND; cbn [app] in *; [split; [constructor|auto]|]. inversion ND as [|? ? A B]; subst.
  destruct (IH _ B) as (P & Q & R). split; [constructor; auto; intros X; apply A, in_or_app; auto|]. split; [auto|].
  intros y [<-|Hy] Y; [apply A, in_or_app; auto|]. eapply R; eauto.
Qed.
Lemma nodup_join : forall a b : list Z, NoDup a -> NoDup b -> (forall x, In x a -> ~ In x b) -> NoDup (a ++ b).
Proof.
  induction a as [|x a IH]; intros b A B D; cbn [app]; auto. inversion A; subst. constructor.
  - intros X. apply in_app_or in X. destruct X; auto. eapply D; [left; reflexivity|auto].
  - apply IH; auto. intros y Hy. apply D. cbn. auto.
Qed.

Lemma kskeleton_ids : forall c t ids, kd c t ids ->
  (forall j, In j (sids (kskeleton nodes c t)) -> In j ids) /\ (NoDup ids -> NoDup (sids (kskeleton nodes c t))).
Proof.
  intros c t ids H. induction H as [c n v G E V|c n l r il ir G Hl (I1 & N1) Hr (I2 & N2)]; cbn [kskeleton sids].
  - split; [contradiction|constructor].
  - rewrite G. cbn [sids]. split.
    + intros j [->|Hj]; cbn; auto. right. apply in_or_app. apply in_app_or in Hj. destruct Hj; auto.
    + intros ND. inversion ND as [|? ? K1 K2]; subst. destruct (nodup_split _ _ K2) as (P & Q & R). constructor.
      * intros X. apply K1. apply in_or_app. apply in_app_or in X. destruct X; auto.
      * apply nodup_join; auto. intros x X Y. eapply R; eauto.
Qed.

Lemma kleaf_ids : forall c t ids, kd c t ids -> NoDup ids ->
  (forall id, In id (map fst (leaves_of (ref t))) -> In id ids) /\ NoDup (map fst (leaves_of (ref t))).
Proof.
  intros c t ids H. induction H as [c n v G E V|c n l r il ir G Hl IHl Hr IHr]; intros ND; cbn [sk_reference leaves_of map fst].
  - split; [auto|]. constructor; [auto|constructor].
  - inversion ND as [|? ? K1 K2]; subst. destruct (nodup_split _ _ K2) as (P & Q & R). destruct (IHl P) as (I1 & N1). destruct (IHr Q) as (I2 & N2).
    rewrite map_app. split.
    + intros id X. right. apply in_or_app. apply in_app_or in X. destruct X; auto.
    + apply nodup_join; auto. intros x X Y. eapply R; eauto.
Qed.

Lemma kd_range : forall c t ids, kd c t ids -> forall j, In j ids -> 0 <= j < zlen nodes.
Proof.
  intros c t ids H. induction H as [c n v G E V|c n l r il ir G Hl IHl Hr IHr]; intros j I; apply zget_range in G.
  - destruct I as [<-|[]]. lia.
  - destruct I as [<-|I]; [lia|]. apply in_app_or in I. destruct I; auto.
Qed.

(** leaves among the nodes with the numbers [ids] *)
Definition marked_leaf (j : Z) : bool := match zget nodes j with Some n => skLeftChild n <? 0 | None => false end.
Lemma kd_count : forall c t ids, kd c t ids ->
  zlen (filter marked_leaf ids) = zlen (leaves_of (ref t)) /\ zlen ids = 2 * zlen (leaves_of (ref t)) - 1.
Proof.
  intros c t ids H. assert (L0 := fun c t ids => kd_leaf_iff c t ids).
  induction H as [c n v G E V|c n l r il ir G Hl IHl Hr IHr]; cbn [sk_reference leaves_of].
  - cbn [filter]. unfold marked_leaf. rewrite G, E. split; reflexivity.
  - cbn [filter]. assert (M : marked_leaf c = false).
    { unfold marked_leaf. rewrite G. destruct (kd_zget _ _ _ Hl) as [m K]. apply zget_range in K. lia. }
    rewrite M, filter_app, !zlen_app, zlen_cons, zlen_app. destruct IHl, IHr. lia.
Qed.

Lemma filter_index : forall A (f : A -> bool) l,
  zlen (filter f l) = zlen (filter (fun j => match zget l j with Some n => f n | None => false end) (zseq (zlen l))).
Proof.
  intros A f l. induction l as [|x l IH] using rev_ind; [reflexivity|].
  rewrite zlen_app, (zlen_cons _ x), zlen_nil, Z.add_0_r. pose proof (zlen_nonneg _ l). rewrite zseq_succ, !filter_app, !zlen_app by lia.
  f_equal.
  - rewrite IH. f_equal. apply filter_ext_in. intros j Hj. apply in_zseq in Hj. rewrite zget_app_l by lia. reflexivity.
  - cbn [filter]. assert (E : zget (l ++ [x]) (zlen l) = Some x) by apply zget_mid. rewrite E. destruct (f x); reflexivity.
Qed.
Lemma filter_perm_zlen : forall A (f : A -> bool) a b, Permutation a b -> zlen (filter f a) = zlen (filter f b).
Proof.
  intros A f a b H. unfold zlen. f_equal. apply Permutation_length. induction H; cbn [filter]; auto.
  - destruct (f x); auto.
  - destruct (f x), (f y); auto. constructor.
  - eapply Permutation_trans; eauto.
Qed.

Lemma kd_leaves : forall t ids, kd 0 t ids -> NoDup ids -> zlen ids = zlen nodes ->
  zlen (filter (fun n => skLeftChild n <? 0) nodes) = zlen (leaves_of (ref t)) /\ zlen nodes = 2 * zlen (leaves_of (ref t)) - 1.
Proof.
  intros t ids D ND L. destruct (kd_count _ _ _ D) as [C1 C2]. split; [|lia]. rewrite filter_index, <- C1.
  apply filter_perm_zlen. apply Permutation_sym. apply NoDup_Permutation_bis; auto.
  - pose proof (zseq_zlen (zlen nodes) (zlen_nonneg _ _)). unfold zlen in *. lia.
  - intros j Hj. apply in_zseq. eapply kd_range; eauto.
Qed.
End Tree.

Lemma leaves_pos : forall d, 1 <= zlen (leaves_of d).
Proof. induction d; cbn [leaves_of]; rewrite ?zlen_app; [unfold zlen; cbn; lia|lia]. Qed.

(** the loaded tree behaves like the reference; a constant tree looks at one feature value
    nevertheless and counts two leaves *)
Definition behaves_sk (p : platform) (T : lgTree) (d : dtree) : Prop :=
  exists ren, nLeaves T = Z.max 2 (zlen (leaves_of d)) /\ renumbers d ren /\
    forall x v id, x <> [] -> walk d x = Some (v, id) -> predict p T x = Ok (v, ren id).

Lemma sk_tree_loads : forall p tree t scale base, sktree_says (srTree tree) t -> sk_features_below (2 ^ 32) t ->
  stNNodes (srTree tree) <= pl_maxalloc p ->
  exists T, lgTreeFromSklearnDecisionTreeRegressor p tree scale base = Ok T /\ behaves_sk p T (sk_reference (scaled scale base) t).
Proof.
  intros p tree t scale base (H1 & H2 & ids & D & ND & Lids) F Ha. unfold lgTreeFromSklearnDecisionTreeRegressor. cbv zeta.
  set (nodes := stNodes (srTree tree)) in *. set (values := stValues (srTree tree)) in *.
  destruct (kd_leaves nodes values scale base t ids D ND Lids) as [C1 C2]. rewrite C1.
  replace (zlen (leaves_of (sk_reference (scaled scale base) t)) - 1 =? zlen nodes - zlen (leaves_of (sk_reference (scaled scale base) t))) with true by lia. cbn [negb].
  destruct (is_kleaf t) eqn:Q.
  - destruct (kd_leaf_inv _ _ _ _ _ D Q) as (v & -> & V & _). cbn [sk_reference leaves_of] in *. rewrite zlen_cons, zlen_nil in *.
    replace (zlen nodes - (1 + 0) =? 0) with true by lia. unfold sk_value. rewrite (at_zget _ _ _ _ V). cbn [bind].
    eexists. split; [reflexivity|]. exists (fun _ => 0). split; [reflexivity|]. split.
    + split.
      * intros id w [E|[]]. unfold zlen. cbn. lia.
      * intros id w id' w' [E|[]] [E'|[]] _. congruence.
    + intros x w id Hx E. cbn [walk] in E. injection E as <- <-. destruct x as [|x0 xs]; [contradiction|].
      unfold predict. cbn [tNodes tree_set_leaves tree_set_nodes]. cbn [predict_loop List.length]. unfold predict_step.
      cbn [tNodes tree_set_leaves tree_set_nodes]. match goal with |- context [at_ [?n] 0] => rewrite (at_zget _ [n] 0 n eq_refl) end. cbn [bind].
      cbn [nFeature node_set_left node_set_right node_or_flags numericalNode]. rewrite (at_zget _ (x0 :: xs) 0 x0 eq_refl). cbn [bind].
      set (T := tree_set_leaves _ _). set (nd := node_set_right _ _).
      assert (Dc : decision p T nd x0 = Ok (numeric_left MNone false (nThreshold nd) x0)).
      { apply (numerical_decides p T nd MNone false x0 12); [|reflexivity]. unfold leaf_bits. auto. }
      rewrite Dc. cbn [bind]. destruct (numeric_left _ _ _ _); reflexivity.
  - assert (L2 : 2 <= zlen (leaves_of (sk_reference (scaled scale base) t))).
    { destruct t as [|f thr l r]; [discriminate|]. cbn [sk_reference leaves_of]. rewrite zlen_app.
      pose proof (leaves_pos (sk_reference (scaled scale base) l)). pose proof (leaves_pos (sk_reference (scaled scale base) r)). lia. }
    replace (zlen nodes - zlen (leaves_of (sk_reference (scaled scale base) t)) =? 0) with false by lia.
    unfold make_check. rewrite H1 in *. pose proof (zlen_nonneg _ nodes). replace ((zlen nodes <? 0) || (pl_maxalloc p <? zlen nodes)) with false by lia. cbn [bind].
    destruct (kskeleton_ids _ _ _ _ _ D) as (SI & SN). destruct (kleaf_ids _ _ scale base _ _ _ D ND) as (_ & NL).
    pose proof (sk_matches nodes values scale base p 0 t ids D F) as M. destruct (kd_zget _ _ _ _ _ D) as [n0 G0].
    destruct t as [|f thr l r]; [discriminate|]. cbn [kskeleton] in *. rewrite G0 in *.
    destruct (append_builds p (sk_source nodes values scale base) nothing ltac:(intros; exact I) _ _ 0 (zlen nodes) emptyTree 0 _ _ (sk_ignores _ _ _ _) M eq_refl eq_refl) as (T & ren & B & L & R & P); auto;
      try reflexivity; try exact I; try (change (2 ^ 32) with two32 in H2; unfold two32 in *; lia).
    + intros j Hj. apply (kd_range _ _ _ _ _ D). auto.
    + cbn [emptyTree tCatBoundaries]. rewrite zlen_nil. lia.
    + exists T. split; [exact B|]. exists ren. split; [lia|]. split; auto.
Qed.
