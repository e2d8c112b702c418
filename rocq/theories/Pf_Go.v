(** * Lemmas about the Go primitives of Go.v *)

From Coq Require Import ZArith List Bool String Lia ZifyBool FinFun.
From Verif Require Import Go.

Lemma bind_ok : forall A B (x : outcome A) (f : A -> outcome B) b,
  bind x f = Ok b -> exists a, x = Ok a /\ f a = Ok b.
Proof. intros A B [a|m|m|] f b H; simpl in H; try discriminate; eauto. Qed.

Ltac bind_inv :=
  repeat match goal with
  | H : bind _ _ = Ok _ |- _ =>
      let a := fresh "a" in let H1 := fresh "Hb" in
      apply bind_ok in H; destruct H as (a & H1 & H)
  | H : Ok _ = Ok _ |- _ => inversion H; subst; clear H
  end.

Lemma zlen_nonneg : forall A (l : list A), 0 <= zlen l.
Proof. intros; unfold zlen; lia. Qed.
#[global] Hint Resolve zlen_nonneg : core.

Lemma zlen_app : forall A (a b : list A), zlen (a ++ b) = zlen a + zlen b.
Proof. intros; unfold zlen; rewrite app_length; lia. Qed.

Lemma zlen_cons : forall A (x : A) l, zlen (x :: l) = 1 + zlen l.
Proof. intros; unfold zlen; simpl List.length; lia. Qed.

Lemma zlen_nil : forall A, zlen (@nil A) = 0.
Proof. reflexivity. Qed.

Lemma zlen_map : forall A B (f : A -> B) l, zlen (map f l) = zlen l.
Proof. intros; unfold zlen; rewrite map_length; reflexivity. Qed.

Lemma zlen_repeat : forall A (x : A) n, zlen (repeat x n) = Z.of_nat n.
Proof. intros; unfold zlen; rewrite repeat_length; reflexivity. Qed.

Lemma zget_nth : forall A (l : list A) i,
  0 <= i -> zget l i = nth_error l (Z.to_nat i).
Proof.
  intros A l i Hi. unfold zget, zlen.
  destruct (Z.ltb_spec i 0); [lia|].
  destruct (Z.leb_spec (Z.of_nat (List.length l)) i); simpl; auto.
  symmetry. apply nth_error_None. lia.
Qed.

Lemma zget_neg : forall A (l : list A) i, i < 0 -> zget l i = None.
Proof. intros; unfold zget. destruct (Z.ltb_spec i 0); simpl; auto; lia. Qed.

Lemma zget_range : forall A (l : list A) i x, zget l i = Some x -> 0 <= i < zlen l.
Proof.
  intros A l i x. unfold zget.
  destruct (Z.ltb_spec i 0), (Z.leb_spec (zlen l) i); simpl; intros; try discriminate; lia.
Qed.

Lemma zget_some : forall A (l : list A) i, 0 <= i < zlen l -> exists x, zget l i = Some x.
Proof.
  intros A l i Hi. rewrite zget_nth by lia.
  destruct (nth_error l (Z.to_nat i)) eqn:E; eauto.
  apply nth_error_None in E. unfold zlen in Hi. lia.
Qed.

Lemma zget_none : forall A (l : list A) i, (i < 0 \/ zlen l <= i) -> zget l i = None.
Proof.
  intros A l i Hi. unfold zget.
  destruct (Z.ltb_spec i 0), (Z.leb_spec (zlen l) i); simpl; auto; lia.
Qed.

Lemma zget_in : forall A (l : list A) i x, zget l i = Some x -> In x l.
Proof.
  intros A l i x H. pose proof (zget_range _ _ _ _ H).
  rewrite zget_nth in H by lia. eapply nth_error_In; eauto.
Qed.

Lemma in_zget : forall A (l : list A) x, In x l -> exists i, zget l i = Some x.
Proof.
  intros A l x H. apply In_nth_error in H. destruct H as [n Hn].
  exists (Z.of_nat n). rewrite zget_nth by lia. rewrite Nat2Z.id. auto.
Qed.

Lemma zget_app_l : forall A (a b : list A) i, i < zlen a -> zget (a ++ b) i = zget a i.
Proof.
  intros A a b i Hi. destruct (Z_lt_le_dec i 0) as [H|H].
  - rewrite !zget_neg by lia. reflexivity.
  - rewrite !zget_nth by lia. apply nth_error_app1. unfold zlen in Hi. lia.
Qed.

Lemma zget_app_r : forall A (a b : list A) i, zlen a <= i -> zget (a ++ b) i = zget b (i - zlen a).
Proof.
  intros A a b i Hi. pose proof (zlen_nonneg _ a).
  rewrite !zget_nth by lia. unfold zlen in *.
  rewrite nth_error_app2 by lia. f_equal. lia.
Qed.

Lemma zget_cons_0 : forall A (x : A) l, zget (x :: l) 0 = Some x.
Proof. intros. rewrite zget_nth by lia. reflexivity. Qed.

Lemma zget_cons : forall A (x : A) l i, 0 < i -> zget (x :: l) i = zget l (i - 1).
Proof.
  intros. rewrite !zget_nth by lia.
  replace (Z.to_nat i) with (S (Z.to_nat (i - 1))) by lia. reflexivity.
Qed.

Lemma zget_map : forall A B (f : A -> B) l i, zget (map f l) i = option_map f (zget l i).
Proof.
  intros A B f l i. destruct (Z_lt_le_dec i 0) as [H|H].
  - rewrite !zget_neg by lia. reflexivity.
  - rewrite !zget_nth by lia. apply nth_error_map.
Qed.

Lemma zget_repeat : forall A (x : A) n i,
  0 <= i < Z.of_nat n -> zget (repeat x n) i = Some x.
Proof.
  intros A x n i Hi. rewrite zget_nth by lia.
  rewrite nth_error_repeat; auto; lia.
Qed.

Lemma zget_ext : forall A (a b : list A),
  zlen a = zlen b -> (forall i, 0 <= i < zlen a -> zget a i = zget b i) -> a = b.
Proof.
  intros A a. induction a as [|x a IH]; intros [|y b] Hl He; auto.
  - rewrite zlen_cons, zlen_nil in Hl. pose proof (zlen_nonneg _ b). lia.
  - rewrite zlen_cons, zlen_nil in Hl. pose proof (zlen_nonneg _ a). lia.
  - rewrite !zlen_cons in Hl. pose proof (zlen_nonneg _ a).
    assert (H0 := He 0). rewrite !zget_cons_0, zlen_cons in H0.
    specialize (H0 ltac:(lia)). injection H0 as ->. f_equal. apply IH; [lia|].
    intros i Hi. specialize (He (i + 1)). rewrite !zget_cons, zlen_cons in He by lia.
    replace (i + 1 - 1) with i in He by lia. apply He. lia.
Qed.

Lemma set_nth_length : forall A (l : list A) n v, List.length (set_nth l n v) = List.length l.
Proof. induction l; destruct n; simpl; auto. Qed.

Lemma set_nth_same : forall A (l : list A) n v,
  (n < List.length l)%nat -> nth_error (set_nth l n v) n = Some v.
Proof. induction l; destruct n; simpl; intros; auto; try lia. apply IHl; lia. Qed.

Lemma set_nth_other : forall A (l : list A) n k v,
  n <> k -> nth_error (set_nth l n v) k = nth_error l k.
Proof. induction l; destruct n, k; simpl; intros; auto; try congruence. Qed.

Lemma zset_range : forall A (l : list A) i v l', zset l i v = Some l' -> 0 <= i < zlen l.
Proof.
  intros A l i v l'. unfold zset.
  destruct (Z.ltb_spec i 0), (Z.leb_spec (zlen l) i); simpl; intros; try discriminate; lia.
Qed.

Lemma zset_some : forall A (l : list A) i v, 0 <= i < zlen l -> exists l', zset l i v = Some l'.
Proof.
  intros A l i v Hi. unfold zset.
  destruct (Z.ltb_spec i 0), (Z.leb_spec (zlen l) i); simpl; try lia; eauto.
Qed.

Lemma zset_len : forall A (l : list A) i v l', zset l i v = Some l' -> zlen l' = zlen l.
Proof.
  intros A l i v l'. unfold zset.
  destruct (_ || _)%bool; intros H; inversion H; subst.
  unfold zlen. rewrite set_nth_length. reflexivity.
Qed.

Lemma zset_get_same : forall A (l : list A) i v l', zset l i v = Some l' -> zget l' i = Some v.
Proof.
  intros A l i v l' H. pose proof (zset_range _ _ _ _ _ H).
  unfold zset in H. destruct (_ || _)%bool; inversion H; subst.
  rewrite zget_nth by lia. apply set_nth_same. unfold zlen in *; lia.
Qed.

Lemma zset_get_other : forall A (l : list A) i v l' k,
  zset l i v = Some l' -> k <> i -> zget l' k = zget l k.
Proof.
  intros A l i v l' k H Hk. pose proof (zset_range _ _ _ _ _ H).
  destruct (Z_lt_le_dec k 0) as [H1|H1]; [rewrite !zget_neg by lia; auto|].
  unfold zset in H. destruct (_ || _)%bool; inversion H; subst.
  rewrite !zget_nth by lia. apply set_nth_other. lia.
Qed.

Lemma zset_app_last : forall A (l : list A) x v,
  zset (l ++ [x]) (zlen l) v = Some (l ++ [v]).
Proof.
  intros A l x v. unfold zset. rewrite zlen_app, zlen_cons, zlen_nil.
  pose proof (zlen_nonneg _ l).
  destruct (Z.ltb_spec (zlen l) 0), (Z.leb_spec (zlen l + (1 + 0)) (zlen l)); simpl; try lia.
  f_equal. unfold zlen. rewrite Nat2Z.id. clear.
  induction l; simpl; auto. f_equal. auto.
Qed.

Lemma at_ok : forall A (l : list A) i x, at_ l i = Ok x <-> zget l i = Some x.
Proof.
  intros A l i x. unfold at_. destruct (zget l i); split; intros H; inversion H; auto.
Qed.

Lemma set_at_ok : forall A (l : list A) i v l', set_at l i v = Ok l' <-> zset l i v = Some l'.
Proof.
  intros A l i v l'. unfold set_at. destruct (zset l i v); split; intros H; inversion H; auto.
Qed.

Lemma at_cases : forall A (l : list A) i,
  (exists x, at_ l i = Ok x /\ zget l i = Some x) \/ (exists m, at_ l i = Panic m).
Proof. intros A l i. unfold at_. destruct (zget l i); eauto. Qed.

Lemma zseq_length : forall n, List.length (zseq n) = Z.to_nat n.
Proof. intros; unfold zseq; rewrite map_length, seq_length; reflexivity. Qed.

Lemma zseq_zlen : forall n, 0 <= n -> zlen (zseq n) = n.
Proof. intros; unfold zlen; rewrite zseq_length; lia. Qed.

Lemma zseq_nonpos : forall n, n <= 0 -> zseq n = [].
Proof. intros n H. unfold zseq. replace (Z.to_nat n) with O by lia. reflexivity. Qed.

Lemma in_zseq : forall n i, In i (zseq n) <-> 0 <= i < n.
Proof.
  intros n i. unfold zseq. rewrite in_map_iff. split.
  - intros (k & <- & Hk). apply in_seq in Hk. lia.
  - intros H. exists (Z.to_nat i). split; [lia|]. apply in_seq. lia.
Qed.

Lemma zget_zseq : forall n i, 0 <= i < n -> zget (zseq n) i = Some i.
Proof.
  intros n i Hi. rewrite zget_nth by lia. unfold zseq. rewrite nth_error_map.
  assert (H : nth_error (seq 0 (Z.to_nat n)) (Z.to_nat i) = Some (Z.to_nat i)).
  { rewrite (nth_error_nth' _ O) by (rewrite seq_length; lia).
    rewrite seq_nth by lia. reflexivity. }
  rewrite H. simpl. f_equal. lia.
Qed.

Lemma zseq_succ : forall n, 0 <= n -> zseq (n + 1) = zseq n ++ [n].
Proof.
  intros n Hn. unfold zseq. replace (Z.to_nat (n + 1)) with (S (Z.to_nat n)) by lia.
  rewrite seq_S, map_app. simpl. do 2 f_equal. lia.
Qed.

Lemma zseq_NoDup : forall n, NoDup (zseq n).
Proof.
  intros n. unfold zseq. apply Injective_map_NoDup.
  - intros a b. lia.
  - apply seq_NoDup.
Qed.

Lemma zrange_zseq : forall n, zrange 0 n = zseq n.
Proof.
  intros n. unfold zrange. rewrite Z.sub_0_r.
  transitivity (map (fun k : Z => k) (zseq n)); [apply map_ext; intros; lia | apply map_id].
Qed.

Lemma zrange_nil : forall a b, b <= a -> zrange a b = [].
Proof. intros a b H. unfold zrange. rewrite zseq_nonpos by lia. reflexivity. Qed.

Lemma zrange_cons : forall a b, a < b -> zrange a b = a :: zrange (a + 1) b.
Proof.
  intros a b H. unfold zrange, zseq.
  replace (Z.to_nat (b - a)) with (S (Z.to_nat (b - (a + 1)))) by lia.
  simpl. f_equal; [lia|]. rewrite <- seq_shift, !map_map. apply map_ext. intros; lia.
Qed.

Lemma zrange_app : forall a b c, a <= b <= c -> zrange a c = zrange a b ++ zrange b c.
Proof.
  intros a b c H. remember (Z.to_nat (b - a)) as n eqn:En. revert a En H.
  induction n; intros a En H.
  - assert (a = b) by lia. subst a. rewrite (zrange_nil b b) by lia. reflexivity.
  - rewrite (zrange_cons a c), (zrange_cons a b) by lia. simpl. f_equal. apply IHn; lia.
Qed.

Lemma in_zrange : forall a b i, In i (zrange a b) <-> a <= i < b.
Proof.
  intros a b i. unfold zrange. rewrite in_map_iff. split.
  - intros (k & <- & Hk). apply in_zseq in Hk. lia.
  - intros H. exists (i - a). split; [lia|]. apply in_zseq. lia.
Qed.

Lemma zrange_NoDup : forall a b, NoDup (zrange a b).
Proof.
  intros a b. unfold zrange. apply Injective_map_NoDup; [|apply zseq_NoDup].
  intros x y. lia.
Qed.

Lemma foldM_app : forall A B (f : B -> A -> outcome B) l1 l2 b,
  foldM f (l1 ++ l2) b = (let* b' := foldM f l1 b in foldM f l2 b').
Proof.
  intros A B f l1. induction l1 as [|x l1 IH]; intros l2 b; simpl; auto.
  destruct (f b x); simpl; auto.
Qed.

Lemma mapM_app : forall A B (f : A -> outcome B) l1 l2,
  mapM f (l1 ++ l2) = (let* a := mapM f l1 in let* b := mapM f l2 in Ok (a ++ b)).
Proof.
  intros A B f l1. induction l1 as [|x l1 IH]; intros l2; simpl.
  - destruct (mapM f l2); reflexivity.
  - destruct (f x); simpl; auto. rewrite IH.
    destruct (mapM f l1); simpl; auto. destruct (mapM f l2); simpl; auto.
Qed.

Lemma mapM_ok_length : forall A B (f : A -> outcome B) l ys,
  mapM f l = Ok ys -> List.length ys = List.length l.
Proof.
  intros A B f l. induction l as [|x l IH]; intros ys H; simpl in H.
  - injection H as <-. reflexivity.
  - bind_inv. subst. simpl. f_equal. auto.
Qed.

Lemma mapM_ok_nth : forall A B (f : A -> outcome B) l ys n x,
  mapM f l = Ok ys -> nth_error l n = Some x ->
  exists y, nth_error ys n = Some y /\ f x = Ok y.
Proof.
  intros A B f l. induction l as [|x0 l IH]; intros ys n x H Hn; simpl in H.
  - destruct n; discriminate.
  - bind_inv. subst. destruct n; simpl in *.
    + injection Hn as <-. eauto.
    + eauto.
Qed.

Lemma mapM_ok_all : forall A B (f : A -> outcome B) (g : A -> B) l,
  (forall x, In x l -> f x = Ok (g x)) -> mapM f l = Ok (map g l).
Proof.
  intros A B f g l. induction l as [|x l IH]; intros H; simpl; auto.
  rewrite H by (simpl; auto). simpl. rewrite IH by (intros; apply H; simpl; auto). reflexivity.
Qed.

Lemma s64_id : forall z, - two63 <= z < two63 -> s64 z = z.
Proof.
  intros z H. unfold s64, two63, two64 in *.
  destruct (Z_lt_le_dec z 0) as [Hz|Hz].
  - replace (z mod 18446744073709551616) with (z + 18446744073709551616).
    + destruct (Z.ltb_spec (z + 18446744073709551616) 9223372036854775808); lia.
    + rewrite <- (Z_mod_plus_full z 1). rewrite Z.mod_small; lia.
  - rewrite Z.mod_small by lia.
    destruct (Z.ltb_spec z 9223372036854775808); lia.
Qed.

Lemma u32_id : forall z, 0 <= z < two32 -> u32 z = z.
Proof. intros z H. unfold u32. apply Z.mod_small. auto. Qed.

Lemma u32_range : forall z, 0 <= u32 z < two32.
Proof. intros z. unfold u32. apply Z.mod_pos_bound. reflexivity. Qed.

Lemma s32_id : forall z, - two31 <= z < two31 -> s32 z = z.
Proof.
  intros z H. unfold s32, two31, two32 in *.
  destruct (Z_lt_le_dec z 0) as [Hz|Hz].
  - replace (z mod 4294967296) with (z + 4294967296).
    + destruct (Z.ltb_spec (z + 4294967296) 2147483648); lia.
    + rewrite <- (Z_mod_plus_full z 1). rewrite Z.mod_small; lia.
  - rewrite Z.mod_small by lia. destruct (Z.ltb_spec z 2147483648); lia.
Qed.

(** invariant rule for [for i := 0; i < n; i++] *)
Lemma foldM_inv : forall B (P : Z -> B -> Prop) (f : B -> Z -> outcome B) n b0, 0 <= n -> P 0 b0 ->
  (forall i b, 0 <= i < n -> P i b -> exists b', f b i = Ok b' /\ P (i + 1) b') ->
  exists b, foldM f (zseq n) b0 = Ok b /\ P n b.
Proof.
  intros B P f n b0 Hn H0 Hs.
  assert (H : forall k, 0 <= k <= n -> exists b, foldM f (zseq k) b0 = Ok b /\ P k b).
  { intros k Hk. assert (H1 : 0 <= k) by lia. revert Hk. pattern k. apply natlike_ind; auto.
    - intros _. exists b0. auto.
    - intros x Hx IH Hk. destruct IH as (b & E & Hb); [lia|].
      destruct (Hs x b ltac:(lia) Hb) as (b' & E' & Hb').
      exists b'. unfold Z.succ. rewrite zseq_succ by lia. rewrite foldM_app, E. cbn [bind foldM].
      rewrite E'. auto. }
  apply H. lia.
Qed.

Lemma nth_error_firstn_lt : forall A (l : list A) n k, (k < n)%nat -> nth_error (firstn n l) k = nth_error l k.
Proof.
  intros A l. induction l as [|x l IH]; intros [|n] [|k] H; simpl; auto; try lia. apply IH. lia.
Qed.
Lemma nth_error_skipn_add : forall A (l : list A) n k, nth_error (skipn n l) k = nth_error l (n + k).
Proof.
  intros A l. induction l as [|x l IH]; intros [|n] k; simpl; auto. destruct k; auto.
Qed.

Lemma zget_sub : forall A (l : list A) d w k, 0 <= d -> 0 <= k < w ->
  zget (firstn (Z.to_nat w) (skipn (Z.to_nat d) l)) k = zget l (d + k).
Proof.
  intros A l d w k Hd Hk. rewrite !zget_nth by lia.
  rewrite nth_error_firstn_lt by lia. rewrite nth_error_skipn_add. f_equal. lia.
Qed.

Lemma zlen_sub : forall A (l : list A) d w, 0 <= d -> 0 <= w -> d + w <= zlen l ->
  zlen (firstn (Z.to_nat w) (skipn (Z.to_nat d) l)) = w.
Proof. intros A l d w H1 H2 H3. unfold zlen in *. rewrite firstn_length, skipn_length. lia. Qed.

Lemma slice_ok : forall A (l : list A) lo hi r, slice l lo hi = Ok r ->
  0 <= lo <= hi /\ hi <= zlen l /\ r = firstn (Z.to_nat (hi - lo)) (skipn (Z.to_nat lo) l).
Proof.
  intros A l lo hi r H. unfold slice in H.
  destruct ((lo <? 0) || (hi <? lo) || (zlen l <? hi)) eqn:E; [discriminate|].
  inversion H; subst. repeat split; auto; lia.
Qed.

Lemma zget_slice : forall A (l : list A) lo hi w, slice l lo hi = Ok w ->
  zlen w = hi - lo /\ 0 <= lo <= hi /\ hi <= zlen l /\ forall i, 0 <= i < hi - lo -> zget w i = zget l (lo + i).
Proof.
  intros A l lo hi w H. apply slice_ok in H. destruct H as (H1 & H2 & ->). split; [apply zlen_sub; lia|].
  repeat split; try lia. intros i Hi. apply zget_sub; lia.
Qed.
