(** * When command lists succeed, and what they leave behind *)

From Coq Require Import ZArith List Bool String Lia ZifyBool Permutation.
From Verif Require Import Go GoFloat Cmd Pf_Go Pf_Cmd.

(** a command that accesses a cell of [0,n) *)
Definition runs (n : Z) (c : cmd) : Prop :=
  exists i f, cmd_upd c = Some (i, f) /\ 0 <= i < n.

Lemma exec1_runs : forall c m, (exists m', exec1 c m = Ok m') <-> runs (zlen m) c.
Proof.
  intros c m. split.
  - intros [m' H]. apply exec1_ok in H. destruct H as (i & f & x & Hu & Hg & _).
    exists i, f. split; auto. eapply zget_range; eauto.
  - intros (i & f & Hu & Hi). destruct (zget_some _ m i Hi) as [x Hx].
    destruct (zset_some _ m i (f x) Hi) as [m' Hm']. exists m'. apply exec1_ok. eauto 8.
Qed.

Lemma exec_runs : forall cs m, (exists m', exec cs m = Ok m') <-> Forall (runs (zlen m)) cs.
Proof.
  induction cs as [|c cs IH]; intros m; simpl.
  - split; eauto.
  - split.
    + intros [m' H]. bind_inv. constructor.
      * apply exec1_runs. eauto.
      * rewrite <- (exec1_len _ _ _ Hb). apply IH. eauto.
    + intros H. inversion H; subst.
      destruct (proj2 (exec1_runs c m) H2) as [m1 E1]. rewrite E1. simpl.
      apply IH. rewrite (exec1_len _ _ _ E1). auto.
Qed.

Lemma exec_len_ok : forall cs m1 m2 m1', zlen m1 = zlen m2 -> exec cs m1 = Ok m1' ->
  exists m2', exec cs m2 = Ok m2'.
Proof.
  intros cs m1 m2 m1' Hl H. apply exec_runs. rewrite <- Hl. apply exec_runs. eauto.
Qed.

Lemma exec1_not_err : forall c m s, exec1 c m <> Err s.
Proof.
  intros [i v|i v|i v|t|] m s; simpl; unfold set_at, at_; try discriminate.
  - destruct (zset m i v); discriminate.
  - destruct (zget m i); simpl; [destruct (zset m i (fadd f v))|]; discriminate.
  - destruct (zget m i); simpl; [destruct (zset m i (fmul f v))|]; discriminate.
Qed.

Lemma exec_not_err : forall cs m s, exec cs m <> Err s.
Proof.
  induction cs as [|c cs IH]; intros m s; simpl; [discriminate|].
  pose proof (exec1_not_err c m) as H1.
  destruct (exec1 c m); simpl; auto; discriminate.
Qed.

(** ** Determinacy

    [defined S cs]: every [+=]/[*=] is preceded by an assignment to its cell (or the
    cell is in S) *)
Fixpoint defined (S : Z -> Prop) (cs : list cmd) : Prop :=
  match cs with
  | [] => True
  | CSet i _ :: t => defined (fun k => k = i \/ S k) t
  | CAdd i _ :: t => S i /\ defined S t
  | CMul i _ :: t => S i /\ defined S t
  | CPanic _ :: t => defined S t
  | CHang :: t => defined S t
  end.

Definition assigned (cs : list cmd) (i : Z) : Prop := exists v, In (CSet i v) cs.

Lemma defined_weaken : forall cs (S S' : Z -> Prop), (forall k, S k -> S' k) ->
  defined S cs -> defined S' cs.
Proof.
  induction cs as [|c cs IH]; intros S S' H D; simpl in *; auto.
  destruct c; simpl in *; intuition; eauto.
  eapply IH; [|eauto]. simpl. intuition.
Qed.

Lemma defined_app : forall a b S, defined S a ->
  defined (fun k => assigned a k \/ S k) b -> defined S (a ++ b).
Proof.
  induction a as [|c a IH]; intros b S Ha Hb; simpl in *.
  - eapply defined_weaken; [|eauto]. intros k [[v []]|H]; auto.
  - assert (Hgen : forall T : Z -> Prop, (forall k, assigned (c :: a) k \/ S k -> assigned a k \/ T k) ->
       defined (fun k => assigned a k \/ T k) b).
    { intros T HT. eapply defined_weaken; [|eauto]. auto. }
    destruct c as [i v|i v|i v|s|]; simpl in *; intuition; apply IH; auto; apply Hgen;
      intros k [[u [Hu|Hu]]|Hk]; try discriminate; auto; try (left; exists u; auto; fail).
    inversion Hu; subst; auto.
Qed.

Lemma exec_det : forall cs S m1 m2 m1' m2',
  defined S cs ->
  (forall k, S k -> zget m1 k = zget m2 k) ->
  exec cs m1 = Ok m1' -> exec cs m2 = Ok m2' ->
  forall k, (S k \/ assigned cs k) -> zget m1' k = zget m2' k.
Proof.
  induction cs as [|c cs IH]; intros S m1 m2 m1' m2' D HS H1 H2 k Hk; simpl in *.
  - inversion H1; inversion H2; subst. destruct Hk as [Hk|[v []]]; auto.
  - bind_inv. rename Hb0 into E1, Hb into E2, a0 into b1, a into b2.
    pose proof (exec1_len _ _ _ E1) as L1. pose proof (exec1_len _ _ _ E2) as L2.
    apply exec1_ok in E1. apply exec1_ok in E2.
    destruct E1 as (i1 & f1 & x1 & U1 & G1 & S1). destruct E2 as (i2 & f2 & x2 & U2 & G2 & S2).
    rewrite U1 in U2. inversion U2; subst i2 f2.
    assert (Hstep : forall T : Z -> Prop, f1 x1 = f1 x2 -> (forall q, T q -> q = i1 \/ S q) ->
              forall q, T q -> zget b1 q = zget b2 q).
    { intros T Hf HT q Hq. destruct (Z.eq_dec q i1) as [->|N].
      - rewrite (zset_get_same _ _ _ _ _ S1), (zset_get_same _ _ _ _ _ S2). congruence.
      - rewrite (zset_get_other _ _ _ _ _ q S1), (zset_get_other _ _ _ _ _ q S2) by auto.
        destruct (HT q Hq); [congruence|auto]. }
    destruct c as [i v|i v|i v|s|]; simpl in U1; inversion U1; subst i1 f1.
    + apply (IH (fun q => q = i \/ S q) b1 b2 m1' m2'); auto; try congruence.
      { apply Hstep; auto. }
      destruct Hk as [Hk|[u [Hu|Hu]]].
      * left. right. exact Hk.
      * left. left. inversion Hu; auto.
      * right. exists u. auto.
    + destruct D as [D1 D2]. rewrite (HS i D1), G2 in G1. inversion G1; subst.
      apply (IH S b1 b2 m1' m2'); auto; try congruence.
      { apply Hstep; auto. }
      destruct Hk as [Hk|[u [Hu|Hu]]]; auto; [discriminate|]. right. exists u. auto.
    + destruct D as [D1 D2]. rewrite (HS i D1), G2 in G1. inversion G1; subst.
      apply (IH S b1 b2 m1' m2'); auto; try congruence.
      { apply Hstep; auto. }
      destruct Hk as [Hk|[u [Hu|Hu]]]; auto; [discriminate|]. right. exists u. auto.
Qed.

(** ** Closed forms *)

(** an accumulating double loop: cell [k] of [0,g) receives its terms in order *)
Lemma exec_adds_row : forall g (val : Z -> f64) m, 0 <= g <= zlen m ->
  exists m', exec (map (fun k => CAdd k (val k)) (zseq g)) m = Ok m' /\
    zlen m' = zlen m /\
    (forall k x, 0 <= k < g -> zget m k = Some x -> zget m' k = Some (fadd x (val k))) /\
    (forall k, g <= k -> zget m' k = zget m k).
Proof.
  intros g val m Hg. pose proof Hg as Hg0. revert Hg0.
  assert (H0 : 0 <= g) by lia. pattern g. apply natlike_ind; auto; clear.
  - intros _. exists m. repeat split; intros; auto; lia.
  - intros g Hg IH Hle. destruct IH as (m' & E & Hl & Hin & Hout); [lia|].
    unfold Z.succ. rewrite zseq_succ by lia. rewrite map_app, exec_app, E. simpl.
    destruct (zget_some _ m' g) as [x Hx]; [lia|].
    destruct (zset_some _ m' g (fadd x (val g))) as [m2 Hm2]; [lia|].
    unfold at_, set_at. rewrite Hx. simpl. rewrite Hm2. simpl. exists m2. repeat split.
    + rewrite (zset_len _ _ _ _ _ Hm2). auto.
    + intros k y Hk Hy. destruct (Z.eq_dec k g) as [->|N].
      * rewrite (zset_get_same _ _ _ _ _ Hm2). rewrite Hout in Hx by lia. congruence.
      * rewrite (zset_get_other _ _ _ _ _ k Hm2) by auto. apply Hin; auto. lia.
    + intros k Hk. rewrite (zset_get_other _ _ _ _ _ k Hm2) by lia. apply Hout. lia.
Qed.

Lemma exec_adds : forall g (val : Z -> Z -> f64) rows m, 0 <= g <= zlen m ->
  exists m', exec (flat_map (fun i => map (fun k => CAdd k (val i k)) (zseq g)) rows) m = Ok m' /\
    zlen m' = zlen m /\
    (forall k x, 0 <= k < g -> zget m k = Some x ->
       zget m' k = Some (fold_left (fun acc i => fadd acc (val i k)) rows x)) /\
    (forall k, g <= k -> zget m' k = zget m k).
Proof.
  intros g val rows. induction rows as [|i rows IH]; intros m Hg; simpl.
  - exists m. auto.
  - destruct (exec_adds_row g (val i) m Hg) as (m1 & E1 & L1 & In1 & Out1).
    destruct (IH m1 ltac:(lia)) as (m2 & E2 & L2 & In2 & Out2).
    exists m2. rewrite exec_app, E1. simpl.
    split; [auto|]. split; [congruence|]. split.
    + intros k x Hk Hx. apply In2; auto.
    + intros k Hk. rewrite Out2, Out1; auto.
Qed.
