(** * A reference tree laid out in a loaded tree is what prediction walks *)

From Coq Require Import ZArith List Bool Lia ZifyBool.
From Verif Require Import Go GoFloat LgTree Spec_Tree Pf_Go Pf_Bits Pf_Split.
Local Open Scope Z_scope.

(** [placed p T ren pos d]: the reference tree [d] (an inner node) sits at node [pos] of [T],
    leaf [id] of [d] being stored under leaf index [ren id] *)
Inductive placed (p : platform) (T : lgTree) (ren : Z -> Z) : Z -> dtree -> Prop :=
| placed_node : forall pos node f test l r,
    zget (tNodes T) pos = Some node ->
    pos + 1 < two32 ->
    nFeature node = f ->
    (forall v, decision p T node v = Ok (test v)) ->
    side p T ren (has (nFlags node) leftLeaf) (nLeft node) (nLeft node) l ->
    side p T ren (has (nFlags node) rightLeaf) (nRight node) (pos + 1) r ->
    placed p T ren pos (DNode f test l r)
with side (p : platform) (T : lgTree) (ren : Z -> Z) : bool -> Z -> Z -> dtree -> Prop :=
| side_leaf : forall i next id v, zget (tLeafValues T) i = Some v -> i = ren id ->
    side p T ren true i next (DLeaf id v)
| side_node : forall i next d, placed p T ren next d -> side p T ren false i next d.

Scheme placed_mind := Minimality for placed Sort Prop
  with side_mind := Minimality for side Sort Prop.

Fixpoint depth (d : dtree) : nat := match d with DLeaf _ _ => 0 | DNode _ _ l r => S (Nat.max (depth l) (depth r)) end.
Fixpoint dsize (d : dtree) : Z := match d with DLeaf _ _ => 0 | DNode _ _ l r => 1 + dsize l + dsize r end.

Lemma dsize_nonneg : forall d, 0 <= dsize d.
Proof. induction d; cbn [dsize]; lia. Qed.
Lemma depth_size : forall d, Z.of_nat (depth d) <= dsize d.
Proof. induction d; cbn [dsize depth]; [lia|]. pose proof (dsize_nonneg d1). pose proof (dsize_nonneg d2). lia. Qed.

Lemma zget_pos_range : forall A (l : list A) i x, zget l i = Some x -> 0 <= i.
Proof. intros. apply zget_range in H. lia. Qed.

Lemma placed_inv : forall p T ren pos d, placed p T ren pos d -> exists node f test l r,
    d = DNode f test l r /\ zget (tNodes T) pos = Some node /\ pos + 1 < two32 /\ nFeature node = f /\
    (forall v, decision p T node v = Ok (test v)) /\
    side p T ren (has (nFlags node) leftLeaf) (nLeft node) (nLeft node) l /\
    side p T ren (has (nFlags node) rightLeaf) (nRight node) (pos + 1) r.
Proof. intros p T ren pos d H. destruct H as [pos node f test l r]. exists node, f, test, l, r. tauto. Qed.

Lemma placed_loop : forall p T ren x v id d pos, placed p T ren pos d -> walk d x = Some (v, id) ->
  forall fuel, (depth d <= fuel)%nat -> predict_loop p T x fuel pos = Ok (v, ren id).
Proof.
  intros p T ren x v id d. induction d as [i w|f test l IHl r IHr]; intros pos H W fuel Hf;
    destruct (placed_inv _ _ _ _ _ H) as (node & f' & test' & l' & r' & Ed & Hn & Hp & Hfe & Hd & Sl & Sr); [discriminate|].
  injection Ed as <- <- <- <-.
  destruct fuel as [|fuel]; [cbn [depth] in Hf; lia|]. cbn [predict_loop]. unfold predict_step.
  rewrite (at_zget _ _ _ _ Hn). cbn [bind]. cbn [walk] in W. rewrite Hfe.
  destruct (zget x f) as [fv|] eqn:Ex; [|discriminate]. rewrite (at_zget _ _ _ _ Ex). cbn [bind].
  rewrite Hd. cbn [bind]. cbn [depth] in Hf. destruct (test fv).
  - destruct (has (nFlags node) leftLeaf); inversion Sl as [i next id' w Hv Hi|i next d' Hpl]; subst.
    + cbn [walk] in W. injection W as <- <-. rewrite (at_zget _ _ _ _ Hv). cbn [bind]. rewrite Hi. reflexivity.
    + cbn [bind]. apply IHl; auto. lia.
  - destruct (has (nFlags node) rightLeaf); inversion Sr as [i next id' w Hv Hi|i next d' Hpl]; subst.
    + cbn [walk] in W. injection W as <- <-. rewrite (at_zget _ _ _ _ Hv). cbn [bind]. rewrite Hi. reflexivity.
    + cbn [bind]. pose proof (zget_pos_range _ _ _ _ Hn). rewrite u32_id by lia. apply IHr; auto. lia.
Qed.

Lemma placed_predict : forall p T ren x v id d, placed p T ren 0 d -> walk d x = Some (v, id) ->
  dsize d <= zlen (tNodes T) -> predict p T x = Ok (v, ren id).
Proof.
  intros p T ren x v id d H W S. unfold predict. destruct (tNodes T) as [|n ns] eqn:E.
  - destruct (placed_inv _ _ _ _ _ H) as (node & f' & test' & l' & r' & Ed & Hn & _). rewrite E in Hn. discriminate.
  - rewrite <- E in *. apply placed_loop with (d := d); auto. pose proof (depth_size d). unfold zlen in S. lia.
Qed.

(** a missing feature makes prediction panic *)
Lemma walk_defined : forall d n x, features_below n d -> zlen x = n -> exists r, walk d x = Some r.
Proof.
  intros d n x. induction d as [i w|f test l IHl r IHr]; intros H L; cbn [walk]; [eauto|]. destruct H as (Hf & Hl & Hr).
  destruct (zget_some _ x f ltac:(lia)) as [fv ->]. destruct (test fv); auto.
Qed.

(** [T'] has the same contents as [T] and possibly more *)
Definition prefix {A : Type} (a b : list A) : Prop := exists c, b = a ++ c.

Definition ext (T T' : lgTree) : Prop :=
  prefix (tLeafValues T) (tLeafValues T') /\ prefix (tCatBoundaries T) (tCatBoundaries T') /\
  prefix (tCatThresholds T) (tCatThresholds T').

Lemma prefix_refl : forall A (a : list A), prefix a a.
Proof. intros. exists []. rewrite app_nil_r. auto. Qed.
Lemma prefix_trans : forall A (a b c : list A), prefix a b -> prefix b c -> prefix a c.
Proof. intros A a b c [x ->] [y ->]. exists (x ++ y). rewrite app_assoc. auto. Qed.
Lemma prefix_app : forall A (a b : list A), prefix a (a ++ b).
Proof. intros. exists b. auto. Qed.
Lemma prefix_zget : forall A (a b : list A) i x, prefix a b -> zget a i = Some x -> zget b i = Some x.
Proof. intros A a b i x [c ->] H. rewrite zget_app_l; auto. apply zget_range in H. lia. Qed.
Lemma prefix_len : forall A (a b : list A), prefix a b -> zlen a <= zlen b.
Proof. intros A a b [c ->]. rewrite zlen_app. pose proof (zlen_nonneg _ c). lia. Qed.
#[global] Hint Resolve prefix_refl prefix_app : core.

Lemma ext_refl : forall T, ext T T.
Proof. repeat split; auto. Qed.
Lemma ext_trans : forall A B C, ext A B -> ext B C -> ext A C.
Proof. intros A B C (a & b & c) (d & e & f). repeat split; eapply prefix_trans; eauto. Qed.
#[global] Hint Resolve ext_refl : core.

(** nodes [ns] occupy positions [pos ...] of [T] *)
Definition occupies (ns : list lgNode) (pos : Z) (T : lgTree) : Prop :=
  forall i n, zget ns i = Some n -> zget (tNodes T) (pos + i) = Some n.

Lemma occupies_cons : forall n ns pos T, occupies (n :: ns) pos T ->
  zget (tNodes T) pos = Some n /\ occupies ns (pos + 1) T.
Proof.
  intros n ns pos T H. split.
  - specialize (H 0 n (zget_cons_0 _ _ _)). rewrite Z.add_0_r in H. auto.
  - intros i m Hm. pose proof (zget_pos_range _ _ _ _ Hm). specialize (H (1 + i) m). rewrite zget_cons in H by lia.
    replace (1 + i - 1) with i in H by lia. rewrite Z.add_assoc in H. auto.
Qed.

Lemma occupies_app : forall a b pos T, occupies (a ++ b) pos T -> occupies a pos T /\ occupies b (pos + zlen a) T.
Proof.
  intros a b pos T H. split.
  - intros i n Hn. apply H. rewrite zget_app_l; auto. apply zget_range in Hn. lia.
  - intros i n Hn. pose proof (zget_pos_range _ _ _ _ Hn). specialize (H (zlen a + i) n). rewrite zget_app_r in H by lia.
    replace (zlen a + i - zlen a) with i in H by lia. rewrite Z.add_assoc in H. auto.
Qed.
