(** * Proofs about the conversion loop of the tree loaders *)

From Coq Require Import ZArith List Bool String Lia ZifyBool.
From Verif Require Import Go GoFloat LgTree TreeBuild Pf_Go Pf_Bits.
Local Open Scope Z_scope.

(** ** Termination on every source *)
Definition falses (v : list bool) : nat := count_occ bool_dec v false.

Lemma falses_set : forall v i v', zget v i = Some false -> zset v i true = Some v' -> (S (falses v') = falses v)%nat.
Proof.
  intros v i v' Hg Hs. pose proof (zget_range _ _ _ _ Hg) as R. rewrite zget_nth in Hg by lia.
  unfold zset in Hs. destruct ((i <? 0) || (zlen v <=? i)); [discriminate|]. injection Hs as <-.
  revert Hg. generalize (Z.to_nat i). clear. induction v as [|b v IH]; intros [|n] H; simpl in *; try discriminate.
  - injection H as ->. unfold falses. simpl. reflexivity.
  - unfold falses in *. simpl. destruct (bool_dec b false); rewrite <- (IH n H); reflexivity.
Qed.

Definition source_returns (s : source) : Prop :=
  (forall t i, src_create s t i <> Hang) /\ (forall i, src_left s i <> Hang) /\ (forall i, src_right s i <> Hang).

Definition measure (b : bstate) : nat := (2 * falses (b_visited b) + List.length (b_orig b))%nat.

Lemma at_not_hang : forall A (l : list A) i, at_ l i <> Hang.
Proof. intros. unfold at_. destruct (zget l i); discriminate. Qed.
Lemma set_at_not_hang : forall A (l : list A) i v, set_at l i v <> Hang.
Proof. intros. unfold set_at. destruct (zset l i v); discriminate. Qed.
Lemma bind_not_hang : forall A B (x : outcome A) (f : A -> outcome B), x <> Hang ->
  (forall a, x = Ok a -> f a <> Hang) -> bind x f <> Hang.
Proof. intros A B [a|m|m|] f Hx Hf; simpl; auto; try discriminate. Qed.

Lemma push_measure : forall s set i c b b', zget (b_visited b) i = Some false ->
  push_child s set i c b = Ok b' -> (measure b' < measure b)%nat.
Proof.
  intros s set i c b b' Hv H. unfold push_child in H.
  apply bind_ok in H. destruct H as ([node t] & H1 & H). apply bind_ok in H. destruct H as (v' & H2 & H).
  apply bind_ok in H. destruct H as (par & H3 & H). apply bind_ok in H. destruct H as (ns & H4 & H).
  injection H as <-. unfold measure. simpl. apply set_at_ok in H2. pose proof (falses_set _ _ _ Hv H2). lia.
Qed.

Lemma push_not_hang : forall s set i c b, source_returns s -> push_child s set i c b <> Hang.
Proof.
  intros s set i c b (Hc & _). unfold push_child. apply bind_not_hang; [apply Hc|]. intros [node t] _.
  apply bind_not_hang; [apply set_at_not_hang|]. intros v' _. apply bind_not_hang; [apply at_not_hang|]. intros par _.
  apply bind_not_hang; [apply set_at_not_hang|]. intros; discriminate.
Qed.

Lemma step_measure : forall s b, source_returns s -> build_step s b <> Hang /\
  forall b', build_step s b = Ok (Some b') -> (measure b' < measure b)%nat.
Proof.
  intros s b Hs. pose proof Hs as (_ & Hl & Hr). unfold build_step.
  destruct (b_orig b) as [|o orig] eqn:Eo; [split; [discriminate|intros; discriminate]|].
  destruct (b_conv b) as [|c conv] eqn:Ec; [split; [discriminate|intros; discriminate]|]. cbv zeta.
  set (pop := mkB orig conv (b_visited b) (b_tree b)).
  assert (Mpop : (measure pop < measure b)%nat) by (unfold measure, pop; simpl; rewrite Eo; simpl; lia).
  set (tl := build_left s o c b pop).
  assert (TL : tl <> Hang /\ forall b', tl = Ok (Some b') -> (measure b' < measure b)%nat).
  { unfold tl, build_left. split.
    - apply bind_not_hang; [apply at_not_hang|]. intros n _. destruct (has (nFlags n) leftLeaf); [discriminate|].
      apply bind_not_hang; [apply Hl|]. intros i _. apply bind_not_hang; [apply at_not_hang|]. intros [|] _; [discriminate|].
      apply bind_not_hang; [apply push_not_hang; auto|]. discriminate.
    - intros b' H. apply bind_ok in H. destruct H as (n & _ & H). destruct (has (nFlags n) leftLeaf); [injection H as <-; auto|].
      apply bind_ok in H. destruct H as (i & _ & H). apply bind_ok in H. destruct H as (v & Hv & H). apply at_ok in Hv.
      destruct v; [injection H as <-; auto|]. apply bind_ok in H. destruct H as (b1 & Hp & H). injection H as <-.
      eapply push_measure; eauto. }
  destruct TL as [T1 T2]. split.
  - apply bind_not_hang; [apply at_not_hang|]. intros n _. destruct (has (nFlags n) rightLeaf); [auto|].
    apply bind_not_hang; [apply Hr|]. intros i _. apply bind_not_hang; [apply at_not_hang|]. intros [|] _; [auto|].
    apply bind_not_hang; [apply push_not_hang; auto|]. discriminate.
  - intros b' H. apply bind_ok in H. destruct H as (n & _ & H). destruct (has (nFlags n) rightLeaf); [auto|].
    apply bind_ok in H. destruct H as (i & _ & H). apply bind_ok in H. destruct H as (v & Hv & H). apply at_ok in Hv.
    destruct v; [auto|]. apply bind_ok in H. destruct H as (b1 & Hp & H). injection H as <-. eapply push_measure; eauto.
Qed.

Lemma build_loop_returns : forall s fuel b, source_returns s -> (measure b < fuel)%nat -> build_loop s fuel b <> Hang.
Proof.
  intros s fuel. induction fuel as [|fuel IH]; intros b Hs Hm; [lia|]. simpl.
  destruct (step_measure s b Hs) as [H1 H2]. apply bind_not_hang; auto. intros [b'|] E; [|discriminate].
  apply IH; auto. specialize (H2 _ E). lia.
Qed.

(** more fuel does not change a result *)
Lemma build_loop_more : forall s fuel k b, build_loop s fuel b <> Hang -> build_loop s (fuel + k) b = build_loop s fuel b.
Proof.
  intros s fuel k. induction fuel as [|fuel IH]; intros b H; simpl in *; [contradiction|].
  destruct (build_step s b) as [[b'|]|m|m|]; simpl in *; auto.
Qed.

Lemma falses_repeat : forall n, falses (repeat false n) = n.
Proof. induction n; unfold falses in *; simpl; auto. Qed.

Lemma build_returns : forall s n t, source_returns s -> build s n t <> Hang.
Proof.
  intros s n t Hs. pose proof Hs as (Hc & _). unfold build. cbv zeta. apply bind_not_hang; [apply Hc|]. intros [node t'] _.
  apply build_loop_returns; auto. unfold measure. simpl. rewrite falses_repeat, repeat_length. lia.
Qed.

(** ** The layout the loop produces for a proper source *)
Inductive stree : Type := SLeaf | SNode (idx : Z) (l r : stree).

Fixpoint ssize (sk : stree) : Z := match sk with SLeaf => 0 | SNode _ l r => 1 + ssize l + ssize r end.
Fixpoint sids (sk : stree) : list Z := match sk with SLeaf => [] | SNode i l r => i :: sids l ++ sids r end.
Definition is_sleaf (sk : stree) : bool := match sk with SLeaf => true | _ => false end.

Lemma ssize_nonneg : forall sk, 0 <= ssize sk.
Proof. induction sk; cbn [ssize]; lia. Qed.
Lemma ssize_ids : forall sk, ssize sk = zlen (sids sk).
Proof. induction sk; cbn [ssize sids]; auto. rewrite zlen_cons, zlen_app. lia. Qed.

(** [create] does not look at the nodes built so far *)
Definition ignores_nodes (s : source) : Prop :=
  forall t ns i, src_create s (tree_set_nodes t ns) i =
    let* (n, t') := src_create s t i in Ok (n, tree_set_nodes t' ns).

Definition sroot_is (sk : stree) (o : outcome Z) : Prop := match sk with SLeaf => True | SNode i _ _ => o = Ok i end.

Fixpoint fits (s : source) (sk : stree) : Prop :=
  match sk with
  | SLeaf => True
  | SNode i l r =>
      (forall t n t', src_create s t i = Ok (n, t') ->
         has (nFlags n) leftLeaf = is_sleaf l /\ has (nFlags n) rightLeaf = is_sleaf r) /\
      sroot_is l (src_left s i) /\ sroot_is r (src_right s i) /\ fits s l /\ fits s r
  end.

Fixpoint lay (s : source) (sk : stree) (pos : Z) (t : lgTree) : outcome (list lgNode * lgTree) :=
  match sk with
  | SLeaf => Ok ([], t)
  | SNode i l r =>
      let* (n, t) := src_create s t i in
      let* (rs, t) := lay s r (pos + 1) t in
      let* (ls, t) := lay s l (pos + 1 + ssize r) t in
      let n := if is_sleaf r then n else node_set_right n (pos + 1) in
      let n := if is_sleaf l then n else node_set_left n (pos + 1 + ssize r) in
      Ok (n :: rs ++ ls, t)
  end.

(** marking the visited array *)
Definition mark (ids : list Z) (v : list bool) : list bool := fold_left (fun v i => set_nth v (Z.to_nat i) true) ids v.

Lemma zset_set_nth : forall A (l : list A) i v, 0 <= i < zlen l -> zset l i v = Some (set_nth l (Z.to_nat i) v).
Proof. intros. unfold zset. replace ((i <? 0) || (zlen l <=? i)) with false by lia. auto. Qed.

Lemma zlen_set_nth : forall A (l : list A) n v, zlen (set_nth l n v) = zlen l.
Proof. intros A l. unfold zlen. induction l as [|x l IH]; intros [|n] v; simpl; auto. specialize (IH n v). lia. Qed.

Lemma zlen_mark : forall ids v, zlen (mark ids v) = zlen v.
Proof. induction ids as [|i ids IH]; intros v; simpl; auto. rewrite IH. apply zlen_set_nth. Qed.

Lemma mark_app : forall a b v, mark (a ++ b) v = mark b (mark a v).
Proof. intros. unfold mark. apply fold_left_app. Qed.

Lemma zget_mark : forall ids v i, (forall j, In j ids -> 0 <= j < zlen v) ->
  zget (mark ids v) i = if in_dec Z.eq_dec i ids then Some true else zget v i.
Proof.
  induction ids as [|a ids IH]; intros v i H; [reflexivity|]. simpl mark.
  assert (Ha : 0 <= a < zlen v) by (apply H; simpl; auto).
  rewrite IH by (intros j Hj; rewrite zlen_set_nth; apply H; simpl; auto).
  pose proof (zset_set_nth _ v a true Ha) as Hs.
  destruct (in_dec Z.eq_dec i ids); destruct (in_dec Z.eq_dec i (a :: ids)) as [I|I]; simpl in I; try tauto.
  - destruct I as [<-|I]; [|tauto]. apply (zset_get_same _ _ _ _ _ Hs).
  - apply (zset_get_other _ _ _ _ _ i Hs). intuition.
Qed.

Definition fresh (ids : list Z) (v : list bool) : Prop := forall i, In i ids -> zget v i = Some false.

Lemma flags_set_left : forall n v, nFlags (node_set_left n v) = nFlags n. Proof. reflexivity. Qed.
Lemma flags_set_right : forall n v, nFlags (node_set_right n v) = nFlags n. Proof. reflexivity. Qed.

Lemma zset_mid : forall A (a : list A) x b v, zset (a ++ x :: b) (zlen a) v = Some (a ++ v :: b).
Proof.
  intros. rewrite zset_set_nth by (rewrite zlen_app, zlen_cons; pose proof (zlen_nonneg _ a); pose proof (zlen_nonneg _ b); lia).
  f_equal. unfold zlen. rewrite Nat2Z.id. induction a; simpl; auto. f_equal. auto.
Qed.
Lemma zget_mid : forall A (a : list A) x b, zget (a ++ x :: b) (zlen a) = Some x.
Proof. intros. rewrite zget_app_r by lia. rewrite Z.sub_diag. apply zget_cons_0. Qed.

Definition ccost (sk : stree) : nat := (2 * Z.to_nat (ssize sk))%nat.

Lemma tree_set_set : forall t a b, tree_set_nodes (tree_set_nodes t a) b = tree_set_nodes t b.
Proof. reflexivity. Qed.
Lemma tree_set_same : forall t, tree_set_nodes t (tNodes t) = t.
Proof. intros []. reflexivity. Qed.

(** laying out does not depend on the nodes built so far either *)
Lemma lay_ignores : forall s sk, ignores_nodes s -> forall pos t ns,
  lay s sk pos (tree_set_nodes t ns) = let* (l, t') := lay s sk pos t in Ok (l, tree_set_nodes t' ns).
Proof.
  intros s sk Hi. induction sk as [|i l IHl r IHr]; intros pos t ns; simpl; auto.
  rewrite Hi. destruct (src_create s t i) as [[n t1]|m|m|]; simpl; auto.
  rewrite IHr. destruct (lay s r (pos + 1) t1) as [[rs t2]|m|m|]; simpl; auto.
  rewrite IHl. destruct (lay s l (pos + 1 + ssize r) t2) as [[ls t3]|m|m|]; simpl; auto.
Qed.

Lemma lay_len : forall s sk pos t ns t', lay s sk pos t = Ok (ns, t') -> zlen ns = ssize sk.
Proof.
  intros s sk. induction sk as [|i l IHl r IHr]; intros pos t ns t' H; simpl in H.
  - injection H as <- <-. reflexivity.
  - apply bind_ok in H. destruct H as ([n t1] & _ & H). apply bind_ok in H. destruct H as ([rs t2] & Hr & H).
    apply bind_ok in H. destruct H as ([ls t3] & Hl & H). injection H as <- <-. cbn [ssize].
    rewrite zlen_cons, zlen_app. rewrite (IHr _ _ _ _ Hr), (IHl _ _ _ _ Hl). lia.
Qed.

Section Loop.
  Variable s : source.
  Hypothesis Hi : ignores_nodes s.

  Lemma push_eq : forall set i c b pre n post, zget (b_visited b) i = Some false -> 0 <= i < two32 ->
    zlen (tNodes (b_tree b)) < two32 ->
    (forall n v, nFlags (set n v) = nFlags n) ->
    tNodes (b_tree b) = pre ++ n :: post -> c = zlen pre ->
    push_child s set i c b =
      let* (node, t) := src_create s (b_tree b) i in
      Ok (mkB (i :: b_orig b) (zlen (tNodes (b_tree b)) :: b_conv b) (mark [i] (b_visited b))
              (tree_set_nodes t (pre ++ set n (zlen (tNodes (b_tree b))) :: post ++ [node]))).
  Proof.
    intros set i c b pre n post Hv Hr Hl Hf Hn ->. unfold push_child.
    pose proof (Hi (b_tree b) (tNodes (b_tree b)) i) as K. rewrite tree_set_same in K.
    destruct (src_create s (b_tree b) i) as [[node t]|m|m|] eqn:Ec; simpl in *; auto.
    assert (Et : tNodes t = tNodes (b_tree b)) by (injection K as K; rewrite K; reflexivity).
    rewrite Et. pose proof (zget_range _ _ _ _ Hv) as Rv.
    assert (L : zlen (tNodes (b_tree b) ++ [node]) - 1 = zlen (tNodes (b_tree b))) by (rewrite zlen_app; unfold zlen at 2; simpl; lia).
    rewrite L. rewrite !u32_id by (pose proof (zlen_nonneg _ (tNodes (b_tree b))); lia).
    unfold set_at. rewrite zset_set_nth by auto. simpl bind.
    rewrite Hn, <- app_assoc, <- app_comm_cons. unfold at_. rewrite zget_mid. simpl bind. rewrite zset_mid. simpl. reflexivity.
  Qed.

  Definition rdone (r : stree) (v : list bool) : Prop :=
    match r with SLeaf => True | SNode i _ _ => zget v i = Some true end.

  (** what a whole subtree does, starting just after its root was pushed *)
  Definition sub_ok (sk : stree) : Prop :=
    match sk with
    | SLeaf => True
    | SNode i l r =>
        forall fuel orig conv v t pre n,
        tNodes t = pre ++ [n] ->
        has (nFlags n) leftLeaf = is_sleaf l -> has (nFlags n) rightLeaf = is_sleaf r ->
        NoDup (sids l ++ sids r) -> fresh (sids l ++ sids r) v -> zlen v <= two32 ->
        zlen pre + ssize sk <= two32 ->
        build_loop s (ccost sk - 1 + fuel) (mkB (i :: orig) (zlen pre :: conv) v t) =
          let* (rs, t) := lay s r (zlen pre + 1) t in
          let* (ls, t) := lay s l (zlen pre + 1 + ssize r) t in
          let n := if is_sleaf r then n else node_set_right n (zlen pre + 1) in
          let n := if is_sleaf l then n else node_set_left n (zlen pre + 1 + ssize r) in
          build_loop s fuel (mkB orig conv (mark (sids r ++ sids l) v) (tree_set_nodes t (pre ++ n :: rs ++ ls)))
    end.

  Lemma mark_comm : forall a b v, (forall j, In j (a ++ b) -> 0 <= j < zlen v) -> mark (a ++ b) v = mark (b ++ a) v.
  Proof.
    intros a b v H. apply zget_ext; [rewrite !zlen_mark; auto|]. intros k Hk.
    rewrite !zget_mark; auto.
    - destruct (in_dec Z.eq_dec k (a ++ b)) as [I|I]; destruct (in_dec Z.eq_dec k (b ++ a)) as [J|J]; auto; rewrite in_app_iff in *; tauto.
    - intros j Hj. apply H. rewrite in_app_iff in *. tauto.
  Qed.

  Lemma fresh_range : forall ids v, fresh ids v -> forall j, In j ids -> 0 <= j < zlen v.
  Proof. intros ids v H j Hj. apply (zget_range _ v j false). auto. Qed.

  (** popping *)
  Lemma pop_ok : forall i l r, sroot_is l (src_left s i) -> sroot_is r (src_right s i) ->
    forall fuel orig conv v t pre n post,
    tNodes t = pre ++ n :: post ->
    has (nFlags n) leftLeaf = is_sleaf l -> has (nFlags n) rightLeaf = is_sleaf r -> rdone l v -> rdone r v ->
    build_loop s (S fuel) (mkB (i :: orig) (zlen pre :: conv) v t) = build_loop s fuel (mkB orig conv v t).
  Proof.
    intros i l r Rl Rr fuel orig conv v t pre n post Hn Fl Fr Dl Dr. cbn [build_loop]. unfold build_step, build_left.
    cbn [b_orig b_conv b_visited b_tree]. cbv zeta. unfold at_. rewrite Hn, zget_mid. cbn [bind]. rewrite Fr, Fl.
    destruct r as [|ir rl rr]; cbn [is_sleaf].
    - destruct l as [|il ll lr]; cbn [is_sleaf bind]; auto. simpl in Rl, Dl. rewrite Rl. cbn [bind]. rewrite Dl. reflexivity.
    - simpl in Rr, Dr. rewrite Rr. cbn [bind]. rewrite Dr. cbn [bind].
      destruct l as [|il ll lr]; cbn [is_sleaf bind]; auto. simpl in Rl, Dl. rewrite Rl. cbn [bind]. rewrite Dl. reflexivity.
  Qed.

  (** pushing the left child *)
  Lemma left_ok : forall i l r, sroot_is l (src_left s i) -> sroot_is r (src_right s i) -> l <> SLeaf ->
    forall fuel orig conv v t pre n post,
    tNodes t = pre ++ n :: post ->
    has (nFlags n) leftLeaf = false -> has (nFlags n) rightLeaf = is_sleaf r -> rdone r v ->
    match l with SNode il _ _ => zget v il = Some false | _ => True end ->
    zlen v <= two32 -> zlen (tNodes t) < two32 ->
    build_loop s (S fuel) (mkB (i :: orig) (zlen pre :: conv) v t) =
      let* b := push_child s node_set_left (match l with SNode il _ _ => il | _ => 0 end) (zlen pre) (mkB (i :: orig) (zlen pre :: conv) v t) in
      build_loop s fuel b.
  Proof.
    intros i l r Rl Rr Nl fuel orig conv v t pre n post Hn Fl Fr Dr Fv Lv Ln. cbn [build_loop]. unfold build_step, build_left.
    cbn [b_orig b_conv b_visited b_tree]. cbv zeta. unfold at_ at 1. rewrite Hn, zget_mid. cbn [bind]. rewrite Fr.
    destruct l as [|il ll lr]; [contradiction|]. simpl in Rl.
    assert (E : (let* n0 := at_ (pre ++ n :: post) (zlen pre) in
      if has (nFlags n0) leftLeaf then Ok (Some (mkB orig conv v t))
      else let* origIdx := src_left s i in let* v0 := at_ v origIdx in
        if v0 then Ok (Some (mkB orig conv v t))
        else let* b' := push_child s node_set_left origIdx (zlen pre) (mkB (i :: orig) (zlen pre :: conv) v t) in Ok (Some b')) =
      (let* b' := push_child s node_set_left il (zlen pre) (mkB (i :: orig) (zlen pre :: conv) v t) in Ok (Some b'))).
    { unfold at_. rewrite zget_mid. cbn [bind]. rewrite Fl, Rl. cbn [bind]. rewrite Fv. reflexivity. }
    destruct r as [|ir rl rr]; cbn [is_sleaf].
    - rewrite E. destruct (push_child _ _ il _ _); reflexivity.
    - simpl in Rr, Dr. rewrite Rr. cbn [bind]. unfold at_ at 1. rewrite Dr. cbn [bind]. rewrite E. destruct (push_child _ _ il _ _); reflexivity.
  Qed.

  (** pushing the right child *)
  Lemma right_ok : forall i ir rl rr, src_right s i = Ok ir ->
    forall fuel orig conv v t pre n post,
    tNodes t = pre ++ n :: post -> has (nFlags n) rightLeaf = false -> zget v ir = Some false ->
    build_loop s (S fuel) (mkB (i :: orig) (zlen pre :: conv) v t) =
      let* b := push_child s node_set_right (match SNode ir rl rr with SNode ir _ _ => ir | _ => 0 end) (zlen pre) (mkB (i :: orig) (zlen pre :: conv) v t) in
      build_loop s fuel b.
  Proof.
    intros i ir rl rr Rr fuel orig conv v t pre n post Hn Fr Fv. cbn [build_loop]. unfold build_step, build_left.
    cbn [b_orig b_conv b_visited b_tree]. cbv zeta. unfold at_ at 1. rewrite Hn, zget_mid. cbn [bind]. rewrite Fr, Rr.
    cbn [bind]. unfold at_ at 1. rewrite Fv. cbn [bind]. destruct (push_child _ _ ir _ _); reflexivity.
  Qed.

  Lemma nodup_app_parts : forall A (a b : list A), NoDup (a ++ b) ->
    NoDup a /\ NoDup b /\ forall x, In x a -> ~ In x b.
  Proof.
    intros A a b H. induction a as [|x a IH]; simpl in *; [repeat split; auto; constructor|].
    inversion H; subst. destruct (IH H3) as (Ha & Hb & Hd). rewrite in_app_iff in H2. repeat split; auto.
    - constructor; auto.
    - intros y [<-|Hy]; auto.
  Qed.

  (** one child subtree: push, run, back at the parent *)
  Lemma loop_sub : forall sk, fits s sk -> sub_ok sk.
  Proof.
    induction sk as [|i l IHl r IHr]; intros Hf; [exact I|].
    destruct Hf as (Hc & Rl & Rr & Fl & Fr). specialize (IHl Fl). specialize (IHr Fr).
    intros fuel orig conv v t pre n Hn HFl HFr ND Fv Lv Lp.
    destruct (nodup_app_parts _ _ _ ND) as (NDl & NDr & Dj).
    assert (Vr : forall j, In j (sids l ++ sids r) -> 0 <= j < zlen v) by (apply fresh_range; auto).
    assert (Fvl : fresh (sids l) v) by (intros j Hj; apply Fv; rewrite in_app_iff; auto).
    assert (Fvr : fresh (sids r) v) by (intros j Hj; apply Fv; rewrite in_app_iff; auto).
    pose proof (ssize_nonneg l) as Sl. pose proof (ssize_nonneg r) as Sr. cbn [ssize] in Lp.
    pose proof (zlen_nonneg _ pre) as Np.
    (* the left part, starting with the right part done *)
    assert (LEFT : forall fuel v t n post, tNodes t = pre ++ n :: post ->
      has (nFlags n) leftLeaf = is_sleaf l -> has (nFlags n) rightLeaf = is_sleaf r ->
      rdone r v -> fresh (sids l) v -> zlen v <= two32 -> zlen post = ssize r ->
      build_loop s (ccost l + 1 + fuel) (mkB (i :: orig) (zlen pre :: conv) v t) =
        let* (ls, t) := lay s l (zlen pre + 1 + ssize r) t in
        let n := if is_sleaf l then n else node_set_left n (zlen pre + 1 + ssize r) in
        build_loop s fuel (mkB orig conv (mark (sids l) v) (tree_set_nodes t (pre ++ n :: post ++ ls)))).
    { clear fuel v t n Hn HFl HFr Fv Lv Vr Fvl Fvr. intros fuel v t n post Hn HFl HFr Dr Fv Lv Lpost.
      destruct l as [|il ll lr].
      - cbn [lay bind is_sleaf sids]. rewrite app_nil_r, <- Hn, tree_set_same. unfold ccost. simpl plus.
        apply (pop_ok i SLeaf r) with (n := n) (post := post); simpl; auto.
      - assert (Lt : zlen (tNodes t) = zlen pre + 1 + ssize r) by (rewrite Hn, zlen_app, zlen_cons; lia).
        cbn [ssize] in Lp. pose proof (ssize_nonneg ll). pose proof (ssize_nonneg lr).
        assert (Fil : zget v il = Some false) by (apply Fv; simpl; auto).
        assert (Ef : (ccost (SNode il ll lr) + 1 + fuel)%nat = S (ccost (SNode il ll lr) - 1 + (S fuel))%nat).
        { unfold ccost. cbn [ssize]. rewrite Z2Nat.inj_add, Z2Nat.inj_add by lia. simpl. lia. }
        rewrite Ef.
        rewrite (left_ok i (SNode il ll lr) r Rl Rr) with (n := n) (post := post); auto; try discriminate; [|lia].
        pose proof (zget_range _ _ _ _ Fil) as Ril.
        rewrite (push_eq node_set_left il (zlen pre) _ pre n post) by (cbn [b_visited b_tree]; auto; lia).
        cbn [b_tree b_orig b_conv b_visited]. cbn [lay].
        destruct (src_create s t il) as [[nl t1]|m|m|] eqn:Ecr; cbn [bind]; auto.
        destruct Fl as (Hcl & Rll & Rlr & Fll & Flr). destruct (Hcl _ _ _ Ecr) as [HF1 HF2].
        inversion NDl; subst.
        set (pre' := pre ++ node_set_left n (zlen (tNodes t)) :: post).
        assert (Epre : pre ++ node_set_left n (zlen (tNodes t)) :: post ++ [nl] = pre' ++ [nl]).
        { unfold pre'. rewrite <- app_assoc. reflexivity. }
        rewrite Epre.
        assert (Lpre : zlen pre' = zlen (tNodes t)) by (unfold pre'; rewrite Hn, !zlen_app, !zlen_cons; lia).
        rewrite <- Lpre at 1.
        assert (Hd : forall j, In j (sids ll ++ sids lr) -> j <> il) by (intros j Hj ->; contradiction).
        rewrite (IHl (S fuel) (i :: orig) (zlen pre :: conv) (mark [il] v) _ pre' nl).
        2: reflexivity. 2: auto. 2: auto. 2: auto.
        2: { intros j Hj. rewrite zget_mark by (intros k [<-|[]]; auto). destruct (in_dec Z.eq_dec j [il]) as [[->|[]]|_].
             - exfalso. eapply Hd; eauto.
             - apply Fv. simpl. auto. }
        2: rewrite zlen_mark; auto.
        2: cbn [ssize]; lia.
        rewrite Lpre, Lt.
        rewrite (lay_ignores s lr Hi). destruct (lay s lr (zlen pre + 1 + ssize r + 1) t1) as [[rs2 t2]|m|m|]; cbn [bind]; auto.
        rewrite (lay_ignores s ll Hi). destruct (lay s ll (zlen pre + 1 + ssize r + 1 + ssize lr) t2) as [[ls2 t3]|m|m|]; cbn [bind]; auto.
        set (nl' := if is_sleaf ll then _ else _). cbn [is_sleaf].
        rewrite tree_set_set.
        assert (En : tNodes (tree_set_nodes t3 (pre' ++ nl' :: rs2 ++ ls2)) = pre ++ node_set_left n (zlen (tNodes t)) :: (post ++ nl' :: rs2 ++ ls2)).
        { simpl. unfold pre'. rewrite <- app_assoc. reflexivity. }
        assert (Vr2 : forall j, In j (sids lr ++ sids ll) -> 0 <= j < zlen (mark [il] v)).
        { intros j Hj. rewrite zlen_mark. apply (zget_range _ v j false). apply Fv. simpl. rewrite in_app_iff in *. tauto. }
        rewrite (pop_ok i (SNode il ll lr) r Rl Rr) with (n := node_set_left n (zlen (tNodes t))) (post := post ++ nl' :: rs2 ++ ls2); auto.
        + do 2 f_equal.
          * change (mark (sids lr ++ sids ll) (mark [il] v) = mark ([il] ++ (sids ll ++ sids lr)) v).
            rewrite (mark_app [il]). apply mark_comm. auto.
          * unfold pre'. rewrite Lt, <- app_assoc. reflexivity.
        + cbn [rdone]. rewrite zget_mark by auto. destruct (in_dec Z.eq_dec il (sids lr ++ sids ll)); auto.
          rewrite zget_mark by (intros k [<-|[]]; auto). destruct (in_dec Z.eq_dec il [il]) as [_|K]; auto. exfalso. apply K. simpl. auto.
        + destruct r as [|ir rl rr]; cbn [rdone] in *; auto. rewrite zget_mark by auto. destruct (in_dec Z.eq_dec ir (sids lr ++ sids ll)); auto.
          rewrite zget_mark by (intros k [<-|[]]; auto). destruct (in_dec Z.eq_dec ir [il]); auto. }
    destruct r as [|ir rl rr].
    - cbn [lay bind is_sleaf ssize sids].
      assert (Ef : (ccost (SNode i l SLeaf) - 1 + fuel)%nat = (ccost l + 1 + fuel)%nat).
      { unfold ccost. cbn [ssize]. rewrite Z2Nat.inj_add, Z2Nat.inj_add by lia. simpl. lia. }
      rewrite Ef. rewrite (LEFT fuel v t n []); auto; try exact I.
    - assert (Lt : zlen (tNodes t) = zlen pre + 1) by (rewrite Hn, zlen_app; reflexivity).
      cbn [ssize] in Lp, Sr. pose proof (ssize_nonneg rl). pose proof (ssize_nonneg rr).
      assert (Fir : zget v ir = Some false) by (apply Fvr; simpl; auto).
      pose proof (zget_range _ _ _ _ Fir) as Rir. simpl in Rr.
      assert (Ef : (ccost (SNode i l (SNode ir rl rr)) - 1 + fuel)%nat = S (ccost (SNode ir rl rr) - 1 + (ccost l + 1 + fuel))%nat).
      { unfold ccost. cbn [ssize]. rewrite !Z2Nat.inj_add by lia. simpl. lia. }
      rewrite Ef. rewrite (right_ok i ir rl rr Rr) with (n := n) (post := []); auto.
      rewrite (push_eq node_set_right ir (zlen pre) _ pre n []) by (cbn [b_visited b_tree]; auto; lia).
      cbn [b_tree b_orig b_conv b_visited]. cbn [lay].
      destruct (src_create s t ir) as [[nr t1]|m|m|] eqn:Ecr; cbn [bind]; auto.
      destruct Fr as (Hcr & Rrl & Rrr & Frl & Frr). destruct (Hcr _ _ _ Ecr) as [HF1 HF2].
      inversion NDr; subst.
      set (n1 := node_set_right n (zlen (tNodes t))).
      set (pre' := pre ++ [n1]).
      assert (Epre : pre ++ n1 :: [] ++ [nr] = pre' ++ [nr]) by (unfold pre'; rewrite <- app_assoc; reflexivity).
      rewrite Epre.
      assert (Lpre : zlen pre' = zlen (tNodes t)) by (unfold pre'; rewrite zlen_app, Lt; reflexivity).
      rewrite <- Lpre at 1.
      assert (Hd : forall j, In j (sids rl ++ sids rr) -> j <> ir) by (intros j Hj ->; contradiction).
      rewrite (IHr _ (i :: orig) (zlen pre :: conv) (mark [ir] v) _ pre' nr).
      2: reflexivity. 2: auto. 2: auto. 2: auto.
      2: { intros j Hj. rewrite zget_mark by (intros k [<-|[]]; auto). destruct (in_dec Z.eq_dec j [ir]) as [[->|[]]|_].
           - exfalso. eapply Hd; eauto.
           - apply Fvr. simpl. auto. }
      2: rewrite zlen_mark; auto.
      2: cbn [ssize]; lia.
      rewrite Lpre, Lt.
      rewrite (lay_ignores s rr Hi). destruct (lay s rr (zlen pre + 1 + 1) t1) as [[rs2 t2]|m|m|] eqn:Err; cbn [bind]; auto.
      rewrite (lay_ignores s rl Hi). destruct (lay s rl (zlen pre + 1 + 1 + ssize rr) t2) as [[ls2 t3]|m|m|] eqn:Erl; cbn [bind]; auto.
      set (nr' := if is_sleaf rl then _ else _). cbn [is_sleaf ssize].
      rewrite tree_set_set.
      assert (En : tNodes (tree_set_nodes t3 (pre' ++ nr' :: rs2 ++ ls2)) = pre ++ n1 :: (nr' :: rs2 ++ ls2)).
      { simpl. unfold pre'. rewrite <- app_assoc. reflexivity. }
      assert (Vr2 : forall j, In j (sids rr ++ sids rl) -> 0 <= j < zlen (mark [ir] v)).
      { intros j Hj. rewrite zlen_mark. apply (zget_range _ v j false). apply Fvr. simpl. rewrite in_app_iff in *. tauto. }
      rewrite (LEFT fuel _ _ n1 (nr' :: rs2 ++ ls2)); auto.
      + rewrite (lay_ignores s l Hi). cbn [ssize]. destruct (lay s l (zlen pre + 1 + (1 + ssize rl + ssize rr)) t3) as [[ls t4]|m|m|]; cbn [bind]; auto.
        unfold n1. rewrite Lt. rewrite tree_set_set. do 2 f_equal.
        * cbn [sids]. change ((ir :: sids rl ++ sids rr) ++ sids l) with ([ir] ++ ((sids rl ++ sids rr) ++ sids l)).
          rewrite (mark_app [ir]), (mark_app (sids rl ++ sids rr)).
          f_equal. apply mark_comm. auto.
      + cbn [rdone]. rewrite zget_mark by auto. destruct (in_dec Z.eq_dec ir (sids rr ++ sids rl)); auto.
        rewrite zget_mark by (intros k [<-|[]]; auto). destruct (in_dec Z.eq_dec ir [ir]) as [_|K]; auto. exfalso. apply K. simpl. auto.
      + intros j Hj. rewrite zget_mark by auto. destruct (in_dec Z.eq_dec j (sids rr ++ sids rl)) as [K|_].
        * exfalso. apply (Dj j Hj). simpl. rewrite in_app_iff in *. tauto.
        * rewrite zget_mark by (intros k [<-|[]]; auto). destruct (in_dec Z.eq_dec j [ir]) as [[->|[]]|_]; auto.
          exfalso. apply (Dj j Hj). simpl. auto.
      + rewrite !zlen_mark. auto.
      + cbn [ssize]. rewrite zlen_cons, zlen_app, (lay_len _ _ _ _ _ _ Err), (lay_len _ _ _ _ _ _ Erl). lia.
  Qed.

  Theorem build_lays : forall sk i l r n t, sk = SNode i l r -> i = 0 -> fits s sk -> NoDup (sids sk) ->
    (forall j, In j (sids sk) -> 0 <= j < n) -> n <= two32 -> tNodes t = [] ->
    build s n t = let* (ns, t) := lay s sk 0 t in Ok (tree_set_nodes t ns).
  Proof.
    intros sk i l r n t Esk -> Hf ND Hr Hn Ht. subst sk. unfold build. cbv zeta. cbn [lay].
    pose proof Hf as (Hc & _). pose proof (Hi t (tNodes t) 0) as K. rewrite tree_set_same in K.
    destruct (src_create s t 0) as [[node t1]|m|m|] eqn:Ecr; cbn [bind] in *; auto.
    destruct (Hc _ _ _ Ecr) as [F1 F2].
    assert (Et : tNodes t1 = []) by (injection K as K; rewrite K; simpl; auto). rewrite Et. cbn [app].
    cbn [sids] in ND, Hr. inversion ND; subst.
    assert (Sz : ssize (SNode 0 l r) <= n).
    { rewrite ssize_ids. clear - ND Hr. cbn [sids] in *.
      assert (I : incl (0 :: sids l ++ sids r) (zseq n)) by (intros j Hj; apply in_zseq; auto).
      pose proof (NoDup_incl_length ND I) as L. rewrite zseq_length in L. unfold zlen. specialize (Hr 0 (or_introl eq_refl)). lia. }
    rewrite repeat_length.
    assert (Nn : 0 <= n) by (specialize (Hr 0 (or_introl eq_refl)); lia).
    assert (Sl := ssize_nonneg l). assert (Sr := ssize_nonneg r).
    assert (Ef : exists fuel, (2 * Z.to_nat n + 2)%nat = (ccost (SNode 0 l r) - 1 + S fuel)%nat).
    { exists (2 * Z.to_nat n + 2 - ccost (SNode 0 l r))%nat. unfold ccost. cbn [ssize] in *. lia. }
    destruct Ef as [fuel Ef]. rewrite Ef.
    pose proof (loop_sub (SNode 0 l r) Hf (S fuel) [] [] (repeat false (Z.to_nat n)) (tree_set_nodes t1 [node]) [] node) as L.
    cbn [zlen List.length Z.of_nat] in L. rewrite L; auto.
    - rewrite (lay_ignores s r Hi). change (zlen []) with 0. destruct (lay s r (0 + 1) t1) as [[rs t2]|m|m|]; cbn [bind]; auto.
      rewrite (lay_ignores s l Hi). destruct (lay s l (0 + 1 + ssize r) t2) as [[ls t3]|m|m|]; cbn [bind]; auto.
    - intros j Hj. assert (0 <= j < n) by (apply Hr; simpl; auto). apply zget_repeat. lia.
    - unfold zlen. rewrite repeat_length. lia.
    - unfold zlen. simpl List.length. lia.
  Qed.
End Loop.
