(** * Computations that do not panic, and when the conversion loop is one of them *)

From Coq Require Import ZArith List Bool String Lia ZifyBool.
From Verif Require Import Go GoFloat LgTree TreeBuild XgBin.
From Verif Require Import Pf_Go.
Local Open Scope Z_scope.

Definition calm {A : Type} (o : outcome A) : Prop := forall m, o <> Panic m.

Lemma calm_ok : forall A (a : A), calm (Ok a). Proof. intros A a m. discriminate. Qed.
Lemma calm_err : forall A s, calm (@Err A s). Proof. intros A s m. discriminate. Qed.
Lemma calm_hang : forall A, calm (@Hang A). Proof. intros A m. discriminate. Qed.
Lemma calm_bind : forall A B (x : outcome A) (f : A -> outcome B), calm x -> (forall a, x = Ok a -> calm (f a)) -> calm (bind x f).
Proof. intros A B x f Hx Hf. destruct x; cbn [bind]; [apply Hf; reflexivity|intros m; discriminate|exfalso; eapply Hx; reflexivity|intros m; discriminate]. Qed.
Lemma calm_at : forall A (l : list A) i, 0 <= i < zlen l -> calm (at_ l i).
Proof. intros A l i H. unfold at_. destruct (zget_some _ l i H) as (x & ->). apply calm_ok. Qed.
Lemma calm_set : forall A (l : list A) i v, 0 <= i < zlen l -> calm (set_at l i v).
Proof. intros A l i v H m. unfold set_at, zset. replace ((i <? 0) || (zlen l <=? i)) with false by lia. discriminate. Qed.
Lemma calm_mapM : forall A B (f : A -> outcome B) l, (forall x, In x l -> calm (f x)) -> calm (mapM f l).
Proof.
  intros A B f l H. induction l as [|x l IH]; [apply calm_ok|]. cbn [mapM]. apply calm_bind; [apply H; left; reflexivity|]. intros y _. apply calm_bind; [apply IH; intros; apply H; right; assumption|]. intros ys _. apply calm_ok.
Qed.
Lemma calm_foldM : forall A B (f : A -> B -> outcome A) l (P : A -> Prop), (forall a x, In x l -> P a -> calm (f a x)) ->
  (forall a x a', In x l -> P a -> f a x = Ok a' -> P a') -> forall a, P a -> calm (foldM f l a).
Proof.
  intros A B f l P. induction l as [|x l IH]; intros H K a Pa; [apply calm_ok|]. cbn [foldM]. apply calm_bind; [apply H; auto; left; reflexivity|]. intros a' E. apply IH; [intros; apply H; auto; right; assumption|intros; eapply K; eauto; right; assumption|]. eapply K; eauto. left. reflexivity.
Qed.

Lemma Forall2_weaken : forall A B (P Q : A -> B -> Prop) l l', (forall a b, P a b -> Q a b) -> Forall2 P l l' -> Forall2 Q l l'.
Proof. intros A B P Q l l' H F. induction F; constructor; auto. Qed.

(** ** The loop *)
Section Build.
Variables (s : source) (n : Z) (inner : Z -> Prop).
Hypothesis Hn : 0 <= n < 2 ^ 32 - 1.
(** the inner nodes are among 0 .. n-1, can be created and refer to each other *)
Definition source_calm : Prop := forall t i, inner i ->
  0 <= i < n /\ calm (src_create s t i) /\
  (forall node t', src_create s t i = Ok (node, t') ->
     tNodes t' = tNodes t /\
     (has (nFlags node) leftLeaf = false -> exists k, src_left s i = Ok k /\ inner k) /\
     (has (nFlags node) rightLeaf = false -> exists k, src_right s i = Ok k /\ inner k)).
Hypothesis Hs : source_calm.

Fixpoint trues (l : list bool) : Z := match l with [] => 0 | b :: l => (if b then 1 else 0) + trues l end.
Lemma trues_bound : forall l, 0 <= trues l <= zlen l.
Proof. induction l as [|b l IH]; [unfold zlen; cbn; lia|]. rewrite zlen_cons. cbn [trues]. destruct b; lia. Qed.
Lemma trues_set : forall l i l', zget l i = Some false -> set_at l i true = Ok l' -> trues l' = trues l + 1 /\ zlen l' = zlen l.
Proof.
  intros l i l' G E. pose proof (zget_range _ _ _ _ G) as R. unfold set_at, zset in E. replace ((i <? 0) || (zlen l <=? i)) with false in E by lia. injection E as <-. rewrite zget_nth in G by lia.
  generalize dependent (Z.to_nat i). clear R i. induction l as [|b l IH]; intros [|k] G; try discriminate; cbn [set_nth].
  - injection G as ->. cbn [trues]. rewrite !zlen_cons. lia.
  - cbn [nth_error] in G. destruct (IH k G) as [E1 E2]. cbn [trues]. rewrite !zlen_cons. lia.
Qed.

Definition good_node (o : Z) (node : lgNode) : Prop :=
  (has (nFlags node) leftLeaf = false -> exists k, src_left s o = Ok k /\ inner k) /\
  (has (nFlags node) rightLeaf = false -> exists k, src_right s o = Ok k /\ inner k).
Definition good (b : bstate) : Prop :=
  zlen (b_visited b) = n /\ zlen (tNodes (b_tree b)) <= 1 + trues (b_visited b) /\
  Forall2 (fun o c => inner o /\ exists node, zget (tNodes (b_tree b)) c = Some node /\ good_node o node) (b_orig b) (b_conv b).

Lemma set_flags : forall (set : lgNode -> Z -> lgNode) , (set = node_set_left \/ set = node_set_right) -> forall nd v, nFlags (set nd v) = nFlags nd.
Proof. intros set [->| ->] nd v; destruct nd; reflexivity. Qed.

Lemma push_calm : forall set o c b, (set = node_set_left \/ set = node_set_right) -> good b -> inner o -> 0 <= c < zlen (tNodes (b_tree b)) ->
  zget (b_visited b) o = Some false ->
  calm (push_child s set o c b) /\ forall b', push_child s set o c b = Ok b' -> good b'.
Proof.
  intros set o c b Hset (V & C & F) Io Hc Hv. destruct (Hs (b_tree b) o Io) as (Ho & Cc & Cn). unfold push_child.
  destruct (src_create s (b_tree b) o) as [[node t]| | |] eqn:E; [|split; [intros m; discriminate|discriminate]|exfalso; eapply Cc; reflexivity|split; [intros m; discriminate|discriminate]].
  cbn [bind]. destruct (Cn node t eq_refl) as (En & Gl & Gr). rewrite En.
  assert (Sv : exists v', set_at (b_visited b) o true = Ok v'). { unfold set_at, zset. replace ((o <? 0) || (zlen (b_visited b) <=? o)) with false by lia. eauto. }
  destruct Sv as (v' & Sv). rewrite Sv. cbn [bind]. destruct (trues_set _ _ _ Hv Sv) as (T & Lv).
  set (nodes := tNodes (b_tree b) ++ [node]). assert (Ln : zlen nodes = zlen (tNodes (b_tree b)) + 1) by (unfold nodes; rewrite zlen_app; reflexivity).
  unfold at_. destruct (zget_some _ nodes c ltac:(lia)) as (par & Ep). rewrite Ep. cbn [bind].
  assert (Sn : exists nodes', set_at nodes c (set par (u32 (zlen nodes - 1))) = Ok nodes'). { unfold set_at, zset. replace ((c <? 0) || (zlen nodes <=? c)) with false by lia. eauto. }
  destruct Sn as (nodes' & Sn). rewrite Sn. cbn [bind]. split; [apply calm_ok|]. intros b' E'. injection E' as <-.
  assert (Zs : zset nodes c (set par (u32 (zlen nodes - 1))) = Some nodes'). { unfold set_at in Sn. destruct (zset nodes c _) eqn:Z0; [injection Sn as ->; reflexivity|discriminate]. }
  assert (Ln' : zlen nodes' = zlen nodes) by (eapply zset_len; exact Zs).
  pose proof (trues_bound v') as Tb. pose proof (trues_bound (b_visited b)).
  assert (U1 : u32 o = o) by (apply u32_id; unfold two32; lia).
  assert (U2 : u32 (zlen nodes - 1) = zlen nodes - 1). { apply u32_id. pose proof (zlen_nonneg _ (tNodes (b_tree b))). unfold two32. lia. }
  assert (Old : forall i nd, zget nodes i = Some nd -> exists nd', zget nodes' i = Some nd' /\ nFlags nd' = nFlags nd).
  { intros i nd G. destruct (Z.eq_dec i c) as [->|N].
    - exists (set par (u32 (zlen nodes - 1))). split; [eapply zset_get_same; exact Zs|]. rewrite set_flags by auto. congruence.
    - exists nd. split; [|reflexivity]. rewrite (zset_get_other _ _ _ _ _ _ Zs) by lia. exact G. }
  unfold good. cbn [b_visited b_tree b_orig b_conv]. rewrite U1, U2. split; [lia|].
  assert (Et : tNodes (tree_set_nodes t nodes') = nodes') by (destruct t; reflexivity). rewrite Et. split; [lia|]. constructor.
  - split; [exact Io|]. destruct (Old (zlen nodes - 1) node) as (nd' & G & Fl).
    { unfold nodes. rewrite zlen_app. change (zlen [node]) with 1. replace (zlen (tNodes (b_tree b)) + 1 - 1) with (zlen (tNodes (b_tree b))) by lia. rewrite zget_app_r by lia. rewrite Z.sub_diag. apply zget_cons_0. }
    exists nd'. split; [exact G|]. unfold good_node. rewrite Fl. auto.
  - eapply Forall2_weaken; [|exact F]. cbn beta. intros o' c' (Ho' & nd & G & Gn). split; [exact Ho'|].
    destruct (Old c' nd) as (nd' & G' & Fl). { pose proof (zget_range _ _ _ _ G). unfold nodes. rewrite zget_app_l by lia. exact G. }
    exists nd'. split; [exact G'|]. unfold good_node. rewrite Fl. exact Gn.
Qed.

Lemma step_calm : forall b, good b -> calm (build_step s b) /\ forall b', build_step s b = Ok (Some b') -> good b'.
Proof.
  intros b G. pose proof G as (V & C & F). unfold build_step.
  destruct (b_orig b) as [|o orig] eqn:Eo; [split; [apply calm_ok|discriminate]|]. destruct (b_conv b) as [|c conv] eqn:Ec; [inversion F|].
  inversion F as [|? ? ? ? (Ho & nd & Gn & Nl & Nr) F']; subst. assert (Hc := zget_range _ _ _ _ Gn).
  set (pop := mkB orig conv (b_visited b) (b_tree b)). assert (Gp : good pop) by (split; [exact V|]; split; [exact C|exact F']).
  assert (An : at_ (tNodes (b_tree b)) c = Ok nd) by (unfold at_; rewrite Gn; reflexivity). rewrite An. cbn [bind].
  assert (Left : calm (build_left s o c b pop) /\ forall b', build_left s o c b pop = Ok (Some b') -> good b').
  { unfold build_left, at_. rewrite Gn. cbn [bind]. destruct (has (nFlags nd) leftLeaf); [split; [apply calm_ok|congruence]|].
    destruct (Nl eq_refl) as (k & Ek & Ik). destruct (Hs (b_tree b) k Ik) as (Hk & _). rewrite Ek. cbn [bind]. destruct (zget_some _ (b_visited b) k ltac:(lia)) as (v & Ev). rewrite Ev. cbn [bind].
    destruct v; [split; [apply calm_ok|congruence]|]. destruct (push_calm node_set_left k c b (or_introl eq_refl) G Ik Hc Ev) as (P1 & P2). split.
    - apply calm_bind; [exact P1|]. intros; apply calm_ok.
    - intros b' E. apply bind_ok in E. destruct E as (b1 & E1 & E2). injection E2 as <-. auto. }
  destruct (has (nFlags nd) rightLeaf); [exact Left|]. destruct (Nr eq_refl) as (k & Ek & Ik). destruct (Hs (b_tree b) k Ik) as (Hk & _). rewrite Ek. cbn [bind]. unfold at_. destruct (zget_some _ (b_visited b) k ltac:(lia)) as (v & Ev). rewrite Ev. cbn [bind].
  destruct v; [exact Left|]. destruct (push_calm node_set_right k c b (or_intror eq_refl) G Ik Hc Ev) as (P1 & P2). split.
  - apply calm_bind; [exact P1|]. intros; apply calm_ok.
  - intros b' E. apply bind_ok in E. destruct E as (b1 & E1 & E2). injection E2 as <-. auto.
Qed.

Lemma loop_calm : forall fuel b, good b -> calm (build_loop s fuel b).
Proof.
  induction fuel as [|f IH]; intros b G; [apply calm_hang|]. cbn [build_loop]. destruct (step_calm b G) as (C & N). apply calm_bind; [exact C|]. intros [b'|] E; [apply IH; auto|apply calm_ok].
Qed.
Lemma build_calm : inner 0 -> forall t, tNodes t = [] -> calm (build s n t).
Proof.
  intros Hp t Et. unfold build. destruct (Hs t 0 Hp) as (_ & Cc & Cn). apply calm_bind; [exact Cc|]. intros [node t'] E. destruct (Cn _ _ E) as (En & Gl & Gr). apply loop_calm.
  assert (Lr : zlen (repeat false (Z.to_nat n)) = n) by (unfold zlen; rewrite repeat_length; lia).
  assert (Tr : tNodes (tree_set_nodes t' (tNodes t' ++ [node])) = [node]) by (destruct t'; cbn in *; rewrite En, Et; reflexivity).
  unfold good. cbn [b_visited b_tree b_orig b_conv]. rewrite Tr. split; [exact Lr|]. split; [pose proof (trues_bound (repeat false (Z.to_nat n))); change (zlen [node]) with 1; lia|].
  constructor; [|constructor]. split; [exact Hp|]. exists node. split; [apply zget_cons_0|]. split; auto.
Qed.
End Build.
