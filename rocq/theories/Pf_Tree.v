(** * Facts about tree traversal *)

From Coq Require Import ZArith List Bool Lia ZifyBool.
From Verif Require Import Go GoFloat UtilBits LgTree Pf_Go Spec_Walk.

Section Walk.
Variable p : platform.
Variable t : lgTree.
Variable fv : list f64.

Lemma loop_leaf : forall fuel i v leaf, predict_loop p t fv fuel i = Ok (v, leaf) ->
  zget (tLeafValues t) leaf = Some v.
Proof.
  induction fuel as [|fuel IH]; intros i v leaf H; simpl in H; [discriminate|].
  apply bind_ok in H. destruct H as (s & Hs & H). destruct s as [r|i'].
  - injection H as ->. unfold predict_step in Hs.
    apply bind_ok in Hs. destruct Hs as (nd & _ & Hs).
    apply bind_ok in Hs. destruct Hs as (x & _ & Hs).
    apply bind_ok in Hs. destruct Hs as (d & _ & Hs).
    destruct d; destruct (has _ _); try discriminate;
    apply bind_ok in Hs; destruct Hs as (y & Hy & Hs); injection Hs as <- <-; apply at_ok; auto.
  - eapply IH; eauto.
Qed.

Lemma predict_leaf : forall v leaf, predict p t fv = Ok (v, leaf) -> zget (tLeafValues t) leaf = Some v.
Proof.
  intros v leaf H. unfold predict in H. destruct (tNodes t) eqn:E.
  - apply bind_ok in H. destruct H as (y & Hy & H). injection H as <- <-. apply at_ok; auto.
  - eapply loop_leaf; eauto.
Qed.

Lemma predict_leaf_in : forall v leaf, predict p t fv = Ok (v, leaf) -> In v (tLeafValues t).
Proof. intros v leaf H. eapply zget_in. eapply predict_leaf; eauto. Qed.

Lemma visits_det : forall n i j, visits p t fv n i -> visits p t fv n j -> i = j.
Proof.
  induction n as [|n IH]; intros i j Hi Hj; inversion Hi; inversion Hj; subst; auto.
  assert (i0 = i1) by (eapply IH; eauto). subst. congruence.
Qed.

Lemma step_in_range : forall i s, predict_step p t fv i = Ok s -> 0 <= i < zlen (tNodes t).
Proof.
  intros i s H. unfold predict_step in H. apply bind_ok in H. destruct H as (nd & H & _).
  apply at_ok in H. eapply zget_range; eauto.
Qed.

(** the loop from the [k]-th visited node *)
Lemma loop_cases : forall fuel k i, visits p t fv k i ->
  (exists n r, (k < n <= k + fuel)%nat /\ stops p t fv n r /\ predict_loop p t fv fuel i = r) \/
  (predict_loop p t fv fuel i = Hang /\ exists i', visits p t fv (k + fuel) i').
Proof.
  induction fuel as [|fuel IH]; intros k i H; simpl.
  - right. split; auto. rewrite Nat.add_0_r. eauto.
  - destruct (predict_step p t fv i) as [[r|i']| | |] eqn:E; simpl.
    2: { destruct (IH (S k) i') as [(n & r & Hn & Hs & Hl)|[Hl [j Hj]]].
         - econstructor; eauto.
         - left. exists n, r. split; [lia|auto].
         - right. split; auto. exists j. replace (k + S fuel)%nat with (S k + fuel)%nat by lia. auto. }
    all: left; exists (S k); eexists; split; [lia|]; split; [|reflexivity];
      exists k, i; repeat split; auto; rewrite E; reflexivity.
Qed.

(** the first [S len] visited nodes, if the loop gets that far, contain a repetition *)
Lemma visits_prefix : forall n i, visits p t fv n i -> forall k, (k <= n)%nat -> exists j, visits p t fv k j.
Proof.
  induction n as [|n IH]; intros i H k Hk.
  - replace k with O by lia. exists 0. constructor.
  - destruct (Nat.eq_dec k (S n)) as [->|Hne]; [eauto|]. inversion H; subst. eapply IH; eauto. lia.
Qed.

Lemma visits_list : forall n i, visits p t fv n i -> exists l, List.length l = n /\
  forall k j, nth_error l k = Some j -> visits p t fv k j /\ 0 <= j < zlen (tNodes t).
Proof.
  induction n as [|n IH]; intros i H.
  - exists []. split; auto. intros [|k] j Hk; discriminate.
  - inversion H as [|n' i0 i' Hv Hs]; subst. destruct (IH _ Hv) as (l & Hl & Hn).
    exists (l ++ [i0]). split; [rewrite app_length; simpl; lia|].
    intros k j Hk. destruct (Nat.lt_ge_cases k (List.length l)) as [Hlt|Hge].
    + rewrite nth_error_app1 in Hk by auto. auto.
    + rewrite nth_error_app2 in Hk by auto. destruct (k - List.length l)%nat eqn:Ek.
      * simpl in Hk. injection Hk as <-. replace k with n by lia. split; auto. eapply step_in_range; eauto.
      * destruct n0; discriminate.
Qed.

Lemma repeat_diverges : forall a b i, (a < b)%nat -> visits p t fv a i -> visits p t fv b i -> diverges p t fv.
Proof.
  intros a b i Hab Ha Hb.
  assert (Hshift : forall d j, visits p t fv (a + d) j -> visits p t fv (b + d) j).
  { induction d as [|d IH]; intros j H.
    - rewrite Nat.add_0_r in *. rewrite (visits_det _ _ _ H Ha). auto.
    - rewrite Nat.add_succ_r in *. inversion H; subst. econstructor; eauto. }
  assert (H : forall q, exists j, visits p t fv (b + q * (b - a)) j).
  { induction q as [|q [j IH]].
    - exists i. simpl. rewrite Nat.add_0_r. auto.
    - exists j. assert (E : (b + q * (b - a) = a + (b - a + q * (b - a)))%nat).
      { generalize (q * (b - a))%nat. intros. lia. }
      rewrite E in IH. apply Hshift in IH. exact IH. }
  intros n. destruct (H n) as [j Hj]. eapply visits_prefix; eauto. nia.
Qed.

Lemma pigeon : forall (l : list Z) n, 0 <= n -> (forall x, In x l -> 0 <= x < n) -> n < zlen l ->
  exists a b x, (a < b)%nat /\ nth_error l a = Some x /\ nth_error l b = Some x.
Proof.
  intros l n Hn0 Hin Hn.
  destruct (ListDec.NoDup_dec Z.eq_dec l) as [Hnd|Hnd].
  - exfalso. assert (Hi : incl l (zseq n)). { intros x Hx. apply in_zseq. auto. }
    pose proof (NoDup_incl_length Hnd Hi) as Hle. rewrite zseq_length in Hle. unfold zlen in Hn. lia.
  - clear Hn Hin. induction l as [|x l IH]; [destruct Hnd; constructor|].
    destruct (in_dec Z.eq_dec x l) as [Hx|Hx].
    + apply In_nth_error in Hx. destruct Hx as [k Hk]. exists O, (S k), x. repeat split; auto. lia.
    + destruct IH as (a & b & y & Hab & H1 & H2).
      { intros Hd. apply Hnd. constructor; auto. }
      exists (S a), (S b), y. repeat split; auto. lia.
Qed.

Lemma long_diverges : forall n i, visits p t fv n i -> zlen (tNodes t) < Z.of_nat n -> diverges p t fv.
Proof.
  intros n i H Hn. destruct (visits_list n i H) as (l & Hl & Hv).
  destruct (pigeon l (zlen (tNodes t)) (zlen_nonneg _ _)) as (a & b & x & Hab & Ha & Hb).
  - intros x Hx. apply In_nth_error in Hx. destruct Hx as [k Hk]. apply (Hv k x Hk).
  - unfold zlen at 2. lia.
  - eapply repeat_diverges; [exact Hab|apply Hv; eauto|apply Hv; eauto].
Qed.

Lemma stops_not_diverges : forall n r, stops p t fv n r -> ~ diverges p t fv.
Proof.
  intros n r (k & i & -> & Hv & Hs) Hd. destruct (Hd (S k)) as [j Hj]. inversion Hj as [|n' i0 j' Hv0 Hs0]; subst.
  rewrite (visits_det _ _ _ Hv Hv0), Hs0 in Hs. auto.
Qed.

End Walk.
