(** * Lemmas about command lists: frame, commutation, translation *)

From Coq Require Import ZArith List Bool String Lia ZifyBool Permutation.
From Verif Require Import Go GoFloat Cmd Pf_Go.

(** cell and update function of a command that accesses memory *)
Definition cmd_upd (c : cmd) : option (Z * (f64 -> f64)) :=
  match c with
  | CSet i v => Some (i, fun _ => v)
  | CAdd i v => Some (i, fun x => fadd x v)
  | CMul i v => Some (i, fun x => fmul x v)
  | _ => None
  end.

(** every cell accessed lies in [lo, hi) *)
Definition cell_in (lo hi : Z) (c : cmd) : Prop :=
  match cmd_upd c with Some (i, _) => lo <= i < hi | None => True end.
Definition within (lo hi : Z) (cs : list cmd) : Prop := Forall (cell_in lo hi) cs.

Lemma exec1_ok : forall c m m',
  exec1 c m = Ok m' <->
  exists i f x, cmd_upd c = Some (i, f) /\ zget m i = Some x /\ zset m i (f x) = Some m'.
Proof.
  intros c m m'. split.
  - destruct c as [i v|i v|i v|s|]; simpl; intros H; try discriminate.
    + apply set_at_ok in H. pose proof (zset_range _ _ _ _ _ H) as Hr.
      destruct (zget_some _ m i Hr) as [x Hx]. exists i, (fun _ => v), x. auto.
    + bind_inv. apply at_ok in Hb. apply set_at_ok in H. eexists _, _, _. eauto.
    + bind_inv. apply at_ok in Hb. apply set_at_ok in H. eexists _, _, _. eauto.
  - intros (i & f & x & Hc & Hx & Hs).
    destruct c as [i' v|i' v|i' v|s|]; simpl in *; try discriminate; inversion Hc; subst.
    + apply set_at_ok. auto.
    + apply (proj2 (at_ok _ _ _ _)) in Hx. rewrite Hx. simpl. apply set_at_ok. auto.
    + apply (proj2 (at_ok _ _ _ _)) in Hx. rewrite Hx. simpl. apply set_at_ok. auto.
Qed.

Lemma exec_app : forall a b m, exec (a ++ b) m = (let* m' := exec a m in exec b m').
Proof.
  induction a as [|c a IH]; intros b m; simpl; auto.
  destruct (exec1 c m); simpl; auto.
Qed.

Lemma exec1_len : forall c m m', exec1 c m = Ok m' -> zlen m' = zlen m.
Proof.
  intros c m m' H. apply exec1_ok in H. destruct H as (i & f & x & _ & _ & Hs).
  eapply zset_len; eauto.
Qed.

Lemma exec_len : forall cs m m', exec cs m = Ok m' -> zlen m' = zlen m.
Proof.
  induction cs as [|c cs IH]; intros m m' H; simpl in H.
  - injection H as <-. auto.
  - bind_inv. apply IH in H. apply exec1_len in Hb. lia.
Qed.

Lemma exec1_frame : forall c m m' lo hi k,
  cell_in lo hi c -> exec1 c m = Ok m' -> ~ (lo <= k < hi) -> zget m' k = zget m k.
Proof.
  intros c m m' lo hi k Hc H Hk. apply exec1_ok in H.
  destruct H as (i & f & x & Hu & _ & Hs). unfold cell_in in Hc. rewrite Hu in Hc.
  eapply zset_get_other; eauto. lia.
Qed.

Lemma exec_frame : forall cs m m' lo hi k,
  within lo hi cs -> exec cs m = Ok m' -> ~ (lo <= k < hi) -> zget m' k = zget m k.
Proof.
  induction cs as [|c cs IH]; intros m m' lo hi k Hw H Hk; simpl in H.
  - injection H as <-. auto.
  - inversion Hw; subst. bind_inv.
    transitivity (zget a k); [eapply IH; eauto | eapply exec1_frame; eauto].
Qed.

Lemma within_app : forall lo hi a b, within lo hi (a ++ b) <-> within lo hi a /\ within lo hi b.
Proof. intros; apply Forall_app. Qed.

Lemma within_weaken : forall lo hi lo' hi' cs,
  within lo hi cs -> lo' <= lo -> hi <= hi' -> within lo' hi' cs.
Proof.
  intros lo hi lo' hi' cs H H1 H2. eapply Forall_impl; [|exact H].
  intros c. unfold cell_in. destruct (cmd_upd c) as [[i f]|]; lia.
Qed.

(** ** Equivalence of command lists: same successful results *)

Definition cequiv (a b : list cmd) : Prop :=
  forall m mf, exec a m = Ok mf <-> exec b m = Ok mf.

Lemma cequiv_refl : forall a, cequiv a a.
Proof. intros a m mf; tauto. Qed.
Lemma cequiv_sym : forall a b, cequiv a b -> cequiv b a.
Proof. intros a b H m mf. symmetry. apply H. Qed.
Lemma cequiv_trans : forall a b c, cequiv a b -> cequiv b c -> cequiv a c.
Proof. intros a b c H1 H2 m mf. rewrite (H1 m mf). apply H2. Qed.

Lemma exec_app_ok : forall a b m mf,
  exec (a ++ b) m = Ok mf <-> exists m', exec a m = Ok m' /\ exec b m' = Ok mf.
Proof.
  intros a b m mf. rewrite exec_app. split.
  - intros H. bind_inv. eauto.
  - intros (m' & H1 & H2). rewrite H1. auto.
Qed.

Lemma cequiv_app : forall a a' b b', cequiv a a' -> cequiv b b' -> cequiv (a ++ b) (a' ++ b').
Proof.
  intros a a' b b' Ha Hb m mf. rewrite !exec_app_ok. split; intros (m' & H1 & H2);
    exists m'; split; try apply Ha; try apply Hb; auto.
Qed.

Lemma exec1_swap : forall c1 c2 m mf,
  (forall i1 f1 i2 f2, cmd_upd c1 = Some (i1, f1) -> cmd_upd c2 = Some (i2, f2) -> i1 <> i2) ->
  (let* m' := exec1 c1 m in exec1 c2 m') = Ok mf ->
  (let* m' := exec1 c2 m in exec1 c1 m') = Ok mf.
Proof.
  intros c1 c2 m mf Hd H. bind_inv.
  apply exec1_ok in Hb. destruct Hb as (i1 & f1 & x1 & Hu1 & Hg1 & Hs1).
  apply exec1_ok in H. destruct H as (i2 & f2 & x2 & Hu2 & Hg2 & Hs2).
  assert (Hne : i1 <> i2) by eauto.
  assert (Hg2' : zget m i2 = Some x2).
  { rewrite <- Hg2. symmetry. eapply zset_get_other; eauto. }
  pose proof (zget_range _ _ _ _ Hg2') as Hr2.
  pose proof (zget_range _ _ _ _ Hg1) as Hr1.
  destruct (zset_some _ m i2 (f2 x2) Hr2) as [m2 Hm2].
  assert (E2 : exec1 c2 m = Ok m2) by (apply exec1_ok; eauto 8).
  rewrite E2. simpl.
  assert (Hg1' : zget m2 i1 = Some x1).
  { rewrite <- Hg1. eapply zset_get_other; eauto. }
  assert (Hl2 : zlen m2 = zlen m) by (eapply zset_len; eauto).
  destruct (zset_some _ m2 i1 (f1 x1)) as [m1 Hm1]; [lia|].
  assert (E1 : exec1 c1 m2 = Ok m1) by (apply exec1_ok; eauto 8).
  rewrite E1. f_equal.
  assert (Hla : zlen a = zlen m) by (eapply zset_len; eauto).
  assert (Hlf : zlen mf = zlen a) by (eapply zset_len; eauto).
  assert (Hl1 : zlen m1 = zlen m2) by (eapply zset_len; eauto).
  apply zget_ext; [lia|]. intros k Hk.
  destruct (Z.eq_dec k i1) as [->|N1].
  - rewrite (zset_get_same _ _ _ _ _ Hm1).
    rewrite (zset_get_other _ _ _ _ _ i1 Hs2) by lia.
    symmetry. eapply zset_get_same; eauto.
  - rewrite (zset_get_other _ _ _ _ _ k Hm1) by auto.
    destruct (Z.eq_dec k i2) as [->|N2].
    + rewrite (zset_get_same _ _ _ _ _ Hm2). symmetry. eapply zset_get_same; eauto.
    + rewrite (zset_get_other _ _ _ _ _ k Hm2) by auto.
      rewrite (zset_get_other _ _ _ _ _ k Hs2) by auto.
      symmetry. eapply zset_get_other; eauto.
Qed.

(** [c] accesses no cell accessed by [cs] *)
Definition apart (c : cmd) (cs : list cmd) : Prop :=
  Forall (fun d => forall i1 f1 i2 f2,
            cmd_upd c = Some (i1, f1) -> cmd_upd d = Some (i2, f2) -> i1 <> i2) cs.

Lemma move_front : forall A c m mf,
  apart c A ->
  (exec (A ++ [c]) m = Ok mf <-> exec (c :: A) m = Ok mf).
Proof.
  induction A as [|d A IH]; intros c m mf Ha; [tauto|].
  inversion Ha as [|? ? Hd HA]; subst. split; intros H.
  - simpl in H. bind_inv. apply IH in H; auto. simpl in H. bind_inv.
    assert (E : (let* m' := exec1 c m in exec1 d m') = Ok a0).
    { apply exec1_swap.
      - intros i1 f1 i2 f2 Hx Hy Heq. subst. exact (Hd _ _ _ _ Hy Hx eq_refl).
      - rewrite Hb. simpl. auto. }
    apply bind_ok in E. destruct E as (m1 & E1 & E2).
    simpl. rewrite E1. simpl. rewrite E2. simpl. auto.
  - simpl in H. bind_inv.
    assert (E : (let* m' := exec1 d m in exec1 c m') = Ok a0).
    { apply exec1_swap; auto. rewrite Hb. simpl. auto. }
    apply bind_ok in E. destruct E as (m1 & E1 & E2).
    simpl. rewrite E1. simpl. apply IH; auto. simpl. rewrite E2. simpl. auto.
Qed.

Lemma move_front_mid : forall A c B, apart c A -> cequiv (A ++ c :: B) (c :: A ++ B).
Proof.
  intros A c B Ha.
  change (A ++ c :: B) with (A ++ [c] ++ B). rewrite app_assoc.
  change (c :: A ++ B) with ((c :: A) ++ B).
  apply cequiv_app; [|apply cequiv_refl]. intros m mf. apply move_front. auto.
Qed.

Lemma within_apart : forall lo1 hi1 lo2 hi2 c cs,
  cell_in lo1 hi1 c -> within lo2 hi2 cs -> hi1 <= lo2 \/ hi2 <= lo1 -> apart c cs.
Proof.
  intros lo1 hi1 lo2 hi2 c cs Hc Hw Hd. eapply Forall_impl; [|exact Hw].
  intros d Hdd i1 f1 i2 f2 H1 H2. unfold cell_in in *. rewrite H1 in Hc. rewrite H2 in Hdd. lia.
Qed.

Lemma swap_lists : forall A B, Forall (fun c => apart c A) B -> cequiv (A ++ B) (B ++ A).
Proof.
  intros A B. revert A. induction B as [|c B IH]; intros A H.
  - rewrite app_nil_r. apply cequiv_refl.
  - inversion H; subst. eapply cequiv_trans; [apply move_front_mid; auto|].
    change (c :: A ++ B) with ([c] ++ (A ++ B)). change ((c :: B) ++ A) with ([c] ++ (B ++ A)).
    apply cequiv_app; [apply cequiv_refl|]. apply IH. auto.
Qed.

(** ** Blocks: the commands of a row, confined to that row's window *)

Definition block : Type := Z * list cmd.
Definition block_ok (w : Z) (b : block) : Prop := within (fst b * w) (fst b * w + w) (snd b).
Definition flat (bs : list block) : list cmd := flat_map snd bs.

Lemma flat_app : forall a b, flat (a ++ b) = flat a ++ flat b.
Proof. intros; unfold flat; apply flat_map_app. Qed.

Lemma windows_disjoint : forall w r1 r2,
  r1 <> r2 -> 0 <= w -> r1 * w + w <= r2 * w \/ r2 * w + w <= r1 * w.
Proof. intros w r1 r2 H Hw. destruct (Z_lt_le_dec r1 r2); [left|right]; nia. Qed.

Lemma within_neg : forall lo hi cs c, hi <= lo -> within lo hi cs -> In c cs -> cmd_upd c = None.
Proof.
  intros lo hi cs c Hl Hw Hin. pose proof (proj1 (Forall_forall _ _) Hw c Hin) as H.
  unfold cell_in in H. destruct (cmd_upd c) as [[i f]|]; auto. lia.
Qed.

Lemma block_apart : forall w b1 b2 c,
  block_ok w b1 -> block_ok w b2 -> fst b1 <> fst b2 -> In c (snd b1) -> apart c (snd b2).
Proof.
  intros w [r1 c1] [r2 c2] c H1 H2 Hne Hin. unfold block_ok in *. simpl in *.
  destruct (Z_lt_le_dec w 0) as [Hw|Hw].
  - apply Forall_forall. intros d Hd i1 f1 i2 f2 Hx.
    rewrite (within_neg (r1 * w) (r1 * w + w) c1 c ltac:(lia) H1 Hin) in Hx. discriminate.
  - eapply within_apart with (lo1 := r1 * w) (hi1 := r1 * w + w).
    + exact (proj1 (Forall_forall _ _) H1 c Hin).
    + exact H2.
    + apply windows_disjoint; auto.
Qed.

Lemma apart_flat : forall w b bs c,
  block_ok w b -> Forall (block_ok w) bs -> ~ In (fst b) (map fst bs) -> In c (snd b) ->
  apart c (flat bs).
Proof.
  intros w b bs c Hb Hbs Hn Hin. unfold flat. apply Forall_forall.
  intros d Hd. apply in_flat_map in Hd. destruct Hd as (b2 & Hb2 & Hd).
  pose proof (proj1 (Forall_forall _ _) Hbs b2 Hb2) as Hok.
  assert (Hne : fst b <> fst b2).
  { intros E. apply Hn. rewrite E. apply in_map. auto. }
  exact (proj1 (Forall_forall _ _) (block_apart w b b2 c Hb Hok Hne Hin) d Hd).
Qed.

Lemma flat_perm : forall w bs bs',
  Permutation bs bs' -> Forall (block_ok w) bs -> NoDup (map fst bs) ->
  cequiv (flat bs) (flat bs').
Proof.
  intros w bs bs' HP. induction HP as [|b bs bs' HP IH|b1 b2 bs|a b c H1 IH1 H2 IH2];
    intros Hok Hnd.
  - apply cequiv_refl.
  - simpl in *. inversion Hok; subst. inversion Hnd; subst.
    apply cequiv_app; [apply cequiv_refl|auto].
  - simpl in *. inversion Hok as [|? ? Hb2 Hok']; subst. inversion Hok' as [|? ? Hb1 Hok'']; subst.
    inversion Hnd as [|? ? Hn2 Hnd']; subst.
    rewrite !app_assoc. apply cequiv_app; [|apply cequiv_refl].
    apply swap_lists. apply Forall_forall. intros c Hc.
    eapply block_apart with (b1 := b1); eauto. intros E. apply Hn2. left. auto.
  - eapply cequiv_trans; [apply IH1; auto|]. apply IH2.
    + eapply Permutation_Forall; eauto.
    + eapply Permutation_NoDup; [apply Permutation_map; eauto|auto].
Qed.

(** ** Translation *)

Definition shift_cmd (d : Z) (c : cmd) : cmd :=
  match c with
  | CSet i v => CSet (d + i) v
  | CAdd i v => CAdd (d + i) v
  | CMul i v => CMul (d + i) v
  | CPanic s => CPanic s
  | CHang => CHang
  end.
Definition shift (d : Z) (cs : list cmd) : list cmd := map (shift_cmd d) cs.

Lemma shift_app : forall d a b, shift d (a ++ b) = shift d a ++ shift d b.
Proof. intros; apply map_app. Qed.

Lemma shift_cmd_of : forall A d (x : outcome A) k,
  shift_cmd d (cmd_of x k) = cmd_of x (fun a => shift_cmd d (k a)).
Proof. intros A d [a|m|m|] k; reflexivity. Qed.

Lemma shift_cmds_of : forall A d (x : outcome A) k,
  shift d (cmds_of x k) = cmds_of x (fun a => shift d (k a)).
Proof. intros A d [a|m|m|] k; reflexivity. Qed.

Lemma shift_0 : forall cs, shift 0 cs = cs.
Proof.
  intros cs. unfold shift. rewrite <- (map_id cs) at 2. apply map_ext.
  intros [i v|i v|i v|s|]; reflexivity.
Qed.

Lemma within_shift : forall d lo hi cs, within lo hi cs -> within (d + lo) (d + hi) (shift d cs).
Proof.
  intros d lo hi cs H. apply Forall_forall. intros c Hc. apply in_map_iff in Hc.
  destruct Hc as (c0 & <- & Hc0). pose proof (proj1 (Forall_forall _ _) H c0 Hc0) as H0.
  unfold cell_in in *. destruct c0; simpl in *; auto; lia.
Qed.

(** [w] is the window of length [zlen w] of [m] starting at [d] *)
Definition window_eq (d : Z) (m w : list f64) : Prop :=
  forall k, 0 <= k < zlen w -> zget m (d + k) = zget w k.

Lemma shift_exec1 : forall d c m w w',
  window_eq d m w -> exec1 c w = Ok w' ->
  exists m', exec1 (shift_cmd d c) m = Ok m' /\ window_eq d m' w'.
Proof.
  intros d c m w w' Hw H. apply exec1_ok in H. destruct H as (i & f & x & Hu & Hg & Hs).
  pose proof (zget_range _ _ _ _ Hg) as Hr.
  assert (Hm : zget m (d + i) = Some x) by (rewrite Hw by lia; auto).
  pose proof (zget_range _ _ _ _ Hm) as Hrm.
  destruct (zset_some _ m (d + i) (f x) Hrm) as [m' Hm'].
  exists m'. split.
  - apply exec1_ok. exists (d + i), f, x. repeat split; auto.
    destruct c; simpl in *; inversion Hu; subst; reflexivity.
  - intros k Hk. rewrite (zset_len _ _ _ _ _ Hs) in Hk.
    destruct (Z.eq_dec k i) as [->|N].
    + rewrite (zset_get_same _ _ _ _ _ Hm'). symmetry. eapply zset_get_same; eauto.
    + rewrite (zset_get_other _ _ _ _ _ (d + k) Hm') by lia.
      rewrite (zset_get_other _ _ _ _ _ k Hs) by lia. apply Hw. auto.
Qed.

Lemma shift_exec : forall d cs m w w',
  window_eq d m w -> exec cs w = Ok w' ->
  exists m', exec (shift d cs) m = Ok m' /\ window_eq d m' w'.
Proof.
  intros d cs. induction cs as [|c cs IH]; intros m w w' Hw H; simpl in H.
  - injection H as <-. exists m. split; auto.
  - bind_inv. destruct (shift_exec1 _ _ _ _ _ Hw Hb) as (m1 & E1 & Hw1).
    destruct (IH _ _ _ Hw1 H) as (m' & E2 & Hw2).
    exists m'. split; auto. simpl. rewrite E1. simpl. auto.
Qed.

(** converse: when the commands stay inside the window, success of the translated list
    gives success on the window alone *)
Lemma unshift_exec1 : forall d c m w m',
  window_eq d m w -> cell_in 0 (zlen w) c -> exec1 (shift_cmd d c) m = Ok m' ->
  exists w', exec1 c w = Ok w' /\ window_eq d m' w'.
Proof.
  intros d c m w m' Hw Hc H. apply exec1_ok in H. destruct H as (i & f & x & Hu & Hg & Hs).
  assert (Hi : exists k, cmd_upd c = Some (k, f) /\ i = d + k).
  { destruct c; simpl in *; inversion Hu; subst; eauto. }
  destruct Hi as (k & Hk & ->). unfold cell_in in Hc. rewrite Hk in Hc.
  assert (Hgw : zget w k = Some x) by (rewrite <- Hw by lia; auto).
  destruct (zset_some _ w k (f x) Hc) as [w' Hw'].
  assert (E : exec1 c w = Ok w') by (apply exec1_ok; eauto 8).
  exists w'. split; auto.
  destruct (shift_exec1 _ _ _ _ _ Hw E) as (m2 & E2 & Hw2).
  assert (m2 = m').
  { assert (exec1 (shift_cmd d c) m = Ok m') by (apply exec1_ok; eauto 8). congruence. }
  subst. auto.
Qed.

Lemma unshift_exec : forall d cs m w m',
  window_eq d m w -> within 0 (zlen w) cs -> exec (shift d cs) m = Ok m' ->
  exists w', exec cs w = Ok w' /\ window_eq d m' w'.
Proof.
  intros d cs. induction cs as [|c cs IH]; intros m w m' Hw Hin H; simpl in H.
  - injection H as <-. exists w. split; auto.
  - bind_inv. inversion Hin; subst.
    destruct (unshift_exec1 _ _ _ _ _ Hw H2 Hb) as (w1 & E1 & Hw1).
    assert (Hl : zlen w1 = zlen w) by (eapply exec1_len; eauto).
    destruct (IH _ _ _ Hw1 ltac:(rewrite Hl; auto) H) as (w' & E2 & Hw2).
    exists w'. split; auto. simpl. rewrite E1. simpl. auto.
Qed.

(** ** Initialisation by assignments *)

Lemma exec_sets_prefix : forall (g : Z) (f : Z -> f64) m,
  0 <= g <= zlen m ->
  exists m', exec (map (fun k => CSet k (f k)) (zseq g)) m = Ok m' /\
    zlen m' = zlen m /\
    (forall k, 0 <= k < g -> zget m' k = Some (f k)) /\
    (forall k, g <= k -> zget m' k = zget m k).
Proof.
  intros g f m Hg. pose proof Hg as Hg0. revert Hg0.
  assert (H0 : 0 <= g) by lia. pattern g. apply natlike_ind; auto; clear.
  - intros _. exists m. repeat split; intros; auto; lia.
  - intros g Hg IH Hle. destruct IH as (m' & E & Hl & Hin & Hout); [lia|].
    unfold Z.succ. rewrite zseq_succ by lia. rewrite map_app, exec_app, E. simpl.
    destruct (zset_some _ m' g (f g)) as [m2 Hm2]; [lia|].
    unfold set_at. rewrite Hm2. simpl. exists m2. repeat split.
    + rewrite (zset_len _ _ _ _ _ Hm2). auto.
    + intros k Hk. destruct (Z.eq_dec k g) as [->|N].
      * eapply zset_get_same; eauto.
      * rewrite (zset_get_other _ _ _ _ _ k Hm2) by auto. apply Hin. lia.
    + intros k Hk. rewrite (zset_get_other _ _ _ _ _ k Hm2) by lia. apply Hout. lia.
Qed.
