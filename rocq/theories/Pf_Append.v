(** * Sources that append leaf values while creating nodes

    XGBoost, sklearn and LightGBM JSON trees store their leaves among the nodes; the loaders
    append a leaf value whenever they create the parent of a leaf. *)

From Coq Require Import ZArith List Bool String Lia ZifyBool Permutation.
From Verif Require Import Go GoFloat LgTree TreeBuild.
From Verif Require Import Spec_Split Spec_Tree.
From Verif Require Import Pf_Go Pf_Bits Pf_Split Pf_Build Pf_Placed.
Local Open Scope Z_scope.

Definition is_leaf (d : dtree) : bool := match d with DLeaf _ _ => true | _ => false end.
Definition add_left (d : dtree) (nt : lgNode * lgTree) : lgNode * lgTree := match d with DLeaf _ v => leaf_left nt v | _ => nt end.
Definition add_right (d : dtree) (nt : lgNode * lgTree) : lgNode * lgTree := match d with DLeaf _ v => leaf_right nt v | _ => nt end.

(** leaves in the order in which they are appended *)
Definition own (d : dtree) : list (Z * f64) := match d with DLeaf id v => [(id, v)] | _ => [] end.
Fixpoint lorder (d : dtree) : list (Z * f64) :=
  match d with
  | DLeaf _ _ => []
  | DNode _ _ l r => own l ++ own r ++ lorder r ++ lorder l
  end.

Lemma lorder_perm : forall d, Permutation (own d ++ lorder d) (leaves_of d).
Proof.
  induction d as [id v|f test l IHl r IHr]; cbn [own lorder leaves_of app]; auto.
  rewrite <- IHl, <- IHr. rewrite <- app_assoc. apply Permutation_app_head. rewrite app_assoc. apply Permutation_app_comm.
Qed.
Lemma lorder_node : forall f test l r, Permutation (lorder (DNode f test l r)) (leaves_of (DNode f test l r)).
Proof. intros. rewrite <- lorder_perm. auto. Qed.
Lemma leaves_dsize : forall d, zlen (leaves_of d) = dsize d + 1.
Proof. induction d; cbn [leaves_of dsize]; rewrite ?zlen_app; unfold zlen in *; cbn [List.length] in *; lia. Qed.

(** a node without leaf bits *)
Definition bare (n : lgNode) : Prop := has (nFlags n) leftLeaf = false /\ has (nFlags n) rightLeaf = false.

Lemma has_lor : forall a b k, 0 <= k -> has (Z.lor a b) k = has a k || has b k.
Proof.
  intros a b k Hk. unfold has. rewrite Z.land_lor_distr_l.
  assert (A : 0 <= Z.land a k) by (apply Z.land_nonneg; auto). assert (B : 0 <= Z.land b k) by (apply Z.land_nonneg; auto).
  destruct (Z.ltb_spec 0 (Z.land a k)) as [E|E], (Z.ltb_spec 0 (Z.land b k)) as [F|F]; cbn [orb]; apply Z.ltb_lt || apply Z.ltb_ge;
    try (assert (0 <= Z.lor (Z.land a k) (Z.land b k)) by (apply Z.lor_nonneg; auto);
         assert (Z.lor (Z.land a k) (Z.land b k) <> 0) by (intros G; apply Z.lor_eq_0_iff in G; lia); lia).
  replace (Z.land a k) with 0 by lia. replace (Z.land b k) with 0 by lia. reflexivity.
Qed.

Definition bits_of (l r : dtree) : Z := Z.lor (if is_leaf l then leftLeaf else 0) (if is_leaf r then rightLeaf else 0).
Lemma bits_of_leaf : forall l r, leaf_bits (bits_of l r).
Proof. intros. unfold bits_of, leaf_bits. destruct (is_leaf l), (is_leaf r); cbn; auto. Qed.

(** what [add_left] and [add_right] do *)
Lemma add_both : forall l r n0 t1 n t', add_right r (add_left l (n0, t1)) = (n, t') ->
  nThreshold n = nThreshold n0 /\ nFeature n = nFeature n0 /\ nFlags n = Z.lor (nFlags n0) (bits_of l r) /\
  (is_leaf l = true -> nLeft n = u32 (zlen (tLeafValues t1))) /\
  (is_leaf r = true -> nRight n = u32 (zlen (tLeafValues t1) + zlen (own l))) /\
  t' = tree_set_leaves t1 (tLeafValues t1 ++ map snd (own l ++ own r)).
Proof.
  intros l r n0 t1 n t' H. unfold bits_of.
  destruct l as [il vl|], r as [ir vr|]; cbn [add_left add_right leaf_left leaf_right is_leaf own app map snd] in *; injection H as <- <-;
    cbn [nThreshold nFeature nFlags nLeft nRight node_set_left node_set_right node_or_flags tree_set_leaves tLeafValues];
    rewrite ?Z.lor_0_r, ?Z.lor_0_l, ?Z.lor_assoc, ?zlen_app, ?zlen_cons, ?zlen_nil, ?Z.add_0_r, ?app_nil_r, <- ?app_assoc; cbn [app];
    repeat split; try discriminate; auto.
  destruct t1; reflexivity.
Qed.

(** keeps facts away from [lia] *)
Definition hidden (P : Prop) : Prop := P.

Section Append.
Variables (p : platform) (s : source).
(** what the creation of nodes needs of the categorical arrays *)
Variable Inv : lgTree -> Prop.
Hypothesis Inv_leaves : forall t vs, Inv t -> Inv (tree_set_leaves t vs).

(** the source, read along the skeleton [sk], describes [d]; creating it appends at most [w]
    categorical words *)
Inductive matches : stree -> dtree -> Z -> Prop :=
| m_leaf : forall id v, matches SLeaf (DLeaf id v) 0
| m_node : forall c sl sr f test l r wl wr w,
    (forall t n t', src_create s t c = Ok (n, t') -> exists n0 t1, (n, t') = add_right r (add_left l (n0, t1)) /\ bare n0) ->
    0 <= w ->
    (forall t, Inv t -> zlen (tCatThresholds t) + w < two32 -> zlen (tCatBoundaries t) < two32 ->
      exists n0 t1, src_create s t c = Ok (add_right r (add_left l (n0, t1))) /\ nFeature n0 = f /\
        tLeafValues t1 = tLeafValues t /\ Inv t1 /\ ext t t1 /\
        zlen (tCatThresholds t1) <= zlen (tCatThresholds t) + w /\ zlen (tCatBoundaries t1) <= zlen (tCatBoundaries t) + 1 /\
        (forall T n b, leaf_bits b -> nThreshold n = nThreshold n0 -> nFlags n = Z.lor (nFlags n0) b -> ext t1 T ->
           forall v, decision p T n v = Ok (test v))) ->
    sroot_is sl (src_left s c) -> sroot_is sr (src_right s c) ->
    matches sl l wl -> matches sr r wr ->
    matches (SNode c sl sr) (DNode f test l r) (w + wl + wr).

Lemma matches_leaf : forall sk d w, matches sk d w -> is_sleaf sk = is_leaf d /\ ssize sk = dsize d /\ 0 <= w.
Proof. intros sk d w H. induction H; cbn [is_sleaf is_leaf ssize dsize]; repeat split; lia. Qed.

Lemma matches_fits : forall sk d w, matches sk d w -> fits s sk.
Proof.
  intros sk d w H. induction H as [|c sl sr f test l r wl wr w Hn Hw Hc Rl Rr Hl IHl Hr IHr]; cbn [fits]; auto.
  destruct (matches_leaf _ _ _ Hl) as (Ll & _ & _). destruct (matches_leaf _ _ _ Hr) as (Lr & _ & _).
  split; [|auto]. intros t n t' E. destruct (Hn _ _ _ E) as (n0 & t1 & E1 & B1 & B2). symmetry in E1. apply add_both in E1.
  destruct E1 as (_ & _ & -> & _). rewrite !has_lor by (unfold leftLeaf, rightLeaf; lia); rewrite B1, B2, Ll, Lr. unfold bits_of. destruct (is_leaf l), (is_leaf r); split; reflexivity.
Qed.

Lemma ext_set_leaves : forall t vs, prefix (tLeafValues t) vs -> ext t (tree_set_leaves t vs).
Proof. intros. repeat split; cbn; auto. Qed.

Lemma lay_append : forall sk d w, matches sk d w ->
  forall pos t, 0 <= pos -> Inv t -> zlen (tCatThresholds t) + w < two32 -> zlen (tCatBoundaries t) + dsize d <= two32 ->
  pos + dsize d < two32 -> zlen (tLeafValues t) + zlen (lorder d) <= two32 ->
  exists ns t', lay s sk pos t = Ok (ns, t') /\ Inv t' /\ ext t t' /\
    tLeafValues t' = tLeafValues t ++ map snd (lorder d) /\
    zlen (tCatThresholds t') <= zlen (tCatThresholds t) + w /\ zlen (tCatBoundaries t') <= zlen (tCatBoundaries t) + dsize d /\
    (is_leaf d = false -> forall T ren, ext t' T -> occupies ns pos T ->
       (forall k id v, zget (lorder d) k = Some (id, v) -> ren id = zlen (tLeafValues t) + k) -> placed p T ren pos d).
Proof.
  intros sk d w H. induction H as [id v|c sl sr f test l r wl wr w Hn Hw Hc Rl Rr Hl IHl Hr IHr]; intros pos t Hp HI Ht Hb Hs Hv.
  - exists [], t. cbn [lay lorder map dsize is_leaf]. rewrite app_nil_r. split; [auto|]. split; [auto|]. split; [auto|]. split; [auto|]. split; [lia|]. split; [lia|]. discriminate.
  - destruct (matches_leaf _ _ _ Hl) as (Ll & Sl & Wl). destruct (matches_leaf _ _ _ Hr) as (Lr & Sr & Wr).
    cbn [dsize lorder] in *. pose proof (dsize_nonneg l) as Dl. pose proof (dsize_nonneg r) as Dr.
    rewrite !zlen_app in Hv. pose proof (zlen_nonneg _ (lorder l)) as Zl. pose proof (zlen_nonneg _ (lorder r)) as Zr.
    pose proof (zlen_nonneg _ (own l)) as Ol. pose proof (zlen_nonneg _ (own r)) as Or. pose proof (zlen_nonneg _ (tLeafValues t)) as Zt.
    destruct (Hc t HI ltac:(lia) ltac:(lia)) as (n0 & t1 & Ec & Hf & Hlv & HI1 & X1 & T1 & B1 & Hd).
    destruct (add_right r (add_left l (n0, t1))) as [n t2] eqn:Ea. destruct (Hn _ _ _ Ec) as (n0' & t1' & Ea' & Hb1 & Hb2).
    assert (BF : has (nFlags n) leftLeaf = is_leaf l /\ has (nFlags n) rightLeaf = is_leaf r).
    { symmetry in Ea'. apply add_both in Ea'. destruct Ea' as (_ & _ & -> & _). rewrite !has_lor by (unfold leftLeaf, rightLeaf; lia); rewrite Hb1, Hb2. unfold bits_of.
      destruct (is_leaf l), (is_leaf r); split; reflexivity. }
    apply add_both in Ea. destruct Ea as (A1 & A2 & A3 & A4 & A5 & ->).
    match type of A4 with ?P => change (hidden P) in A4 end. match type of A5 with ?P => change (hidden P) in A5 end.
    match type of A3 with ?P => change (hidden P) in A3 end. match type of BF with ?P => change (hidden P) in BF end. set (t2 := tree_set_leaves t1 (tLeafValues t1 ++ map snd (own l ++ own r))) in *.
    assert (V2 : tLeafValues t2 = tLeafValues t ++ map snd (own l ++ own r)) by (unfold t2; cbn [tLeafValues tree_set_leaves]; rewrite Hlv; auto).
    assert (Z2 : zlen (tLeafValues t2) = zlen (tLeafValues t) + zlen (own l) + zlen (own r)).
    { rewrite V2, zlen_app. unfold zlen at 2. rewrite map_length. fold (zlen (own l ++ own r)). rewrite zlen_app. lia. }
    destruct (IHr (pos + 1) t2) as (rs & t3 & Er & HI3 & X3 & V3 & T3 & B3 & P3); try (unfold t2; cbn [tCatThresholds tCatBoundaries tree_set_leaves]; lia); try lia; [unfold t2; auto|].
    change (tCatThresholds t2) with (tCatThresholds t1) in *. change (tCatBoundaries t2) with (tCatBoundaries t1) in *.
    assert (Z3 : zlen (tLeafValues t3) = zlen (tLeafValues t2) + zlen (lorder r)).
    { rewrite V3, zlen_app. unfold zlen at 2. rewrite map_length. reflexivity. }
    destruct (IHl (pos + 1 + dsize r) t3) as (ls & t4 & El & HI4 & X4 & V4 & T4 & B4 & P4); try lia; [auto|].
    cbn [lay]. rewrite Ec. cbn [bind]. rewrite Er. cbn [bind]. rewrite Sr, El. cbn [bind].
    pose proof (lay_len _ _ _ _ _ _ Er) as Nr. pose proof (lay_len _ _ _ _ _ _ El) as Nl.
    eexists _, t4. split; [reflexivity|]. split; [auto|].
    assert (X2 : ext t1 t2) by (unfold t2; apply ext_set_leaves; auto).
    split. { eapply ext_trans; [exact X1|]. eapply ext_trans; [exact X2|]. eapply ext_trans; eauto. }
    split. { rewrite V4, V3, V2, !map_app, !app_assoc. reflexivity. }
    split; [lia|]. split; [lia|].
    intros _ T ren XT OC RN.
    apply occupies_cons in OC. destruct OC as [G OC]. apply occupies_app in OC. destruct OC as [Or' Ol'].
    assert (XT3 : ext t3 T) by (eapply ext_trans; eauto). assert (XT2 : ext t2 T) by (eapply ext_trans; eauto). assert (XT1 : ext t1 T) by (eapply ext_trans; eauto).
    assert (LV : forall k w, zget (map snd (own l ++ own r)) k = Some w -> zget (tLeafValues T) (zlen (tLeafValues t) + k) = Some w).
    { intros k w' Hk. destruct XT2 as (Pv & _). eapply prefix_zget; [exact Pv|]. rewrite V2. pose proof (zget_range _ _ _ _ Hk). rewrite zget_app_r by lia.
      replace (zlen (tLeafValues t) + k - zlen (tLeafValues t)) with k by lia. auto. }
    match type of G with _ = Some ?nn => set (n' := nn) in * end.
    assert (N' : nThreshold n' = nThreshold n /\ nFlags n' = nFlags n /\ nFeature n' = nFeature n /\
                 nLeft n' = (if is_leaf l then nLeft n else pos + 1 + dsize r) /\ nRight n' = (if is_leaf r then nRight n else pos + 1)).
    { unfold n'. rewrite Ll, Lr. destruct (is_leaf l), (is_leaf r); cbn; repeat split. }
    destruct N' as (N1 & N2 & N3 & N4 & N5).
    apply placed_node with (node := n').
    + exact G.
    + lia.
    + congruence.
    + intros v. apply (Hd T n' (bits_of l r)); auto; [apply bits_of_leaf|congruence|congruence].
    + rewrite N2, (proj1 BF), N4. destruct l as [il vl|fl tl l1 l2]; cbn [is_leaf].
      * rewrite (A4 eq_refl), Hlv. cbn [own app] in *. change (zlen [(il, vl)]) with 1 in *. rewrite u32_id by lia. apply side_leaf.
        -- replace (zlen (tLeafValues t)) with (zlen (tLeafValues t) + 0) by lia. apply LV. reflexivity.
        -- rewrite (RN 0 il vl) by reflexivity. lia.
      * apply side_node. apply P4; auto.
        -- rewrite Sr in Nr. rewrite Nr in Ol'. auto.
        -- intros k id v Hk. rewrite Z3, Z2. cbn [own app] in *. rewrite zlen_nil in *. pose proof (zget_range _ _ _ _ Hk).
           rewrite (RN (zlen (own r) + (zlen (lorder r) + k)) id v); [lia|]. rewrite zget_app_r by lia. rewrite zget_app_r by lia.
           replace (zlen (own r) + (zlen (lorder r) + k) - zlen (own r) - zlen (lorder r)) with k by lia. auto.
    + rewrite N2, (proj2 BF), N5. destruct r as [ir vr|fr tr r1 r2]; cbn [is_leaf].
      * rewrite (A5 eq_refl), Hlv. cbn [own] in *. change (zlen [(ir, vr)]) with 1 in *. rewrite u32_id by lia. apply side_leaf.
        -- apply LV. rewrite map_app. rewrite zget_app_r by (unfold zlen; rewrite map_length; lia).
           replace (zlen (own l) - zlen (map snd (own l))) with 0 by (unfold zlen; rewrite map_length; lia). reflexivity.
        -- rewrite (RN (zlen (own l)) ir vr); [lia|]. rewrite zget_app_r by lia. rewrite Z.sub_diag. reflexivity.
      * apply side_node. apply P3; auto.
        intros k id v Hk. rewrite Z2. cbn [own] in *. rewrite zlen_nil in *. pose proof (zget_range _ _ _ _ Hk).
        rewrite (RN (zlen (own l) + k) id v); [lia|]. rewrite zget_app_r by lia. replace (zlen (own l) + k - zlen (own l)) with k by lia. cbn [app]. rewrite zget_app_l by lia. auto.
Qed.

(** position of a number in a list *)
Fixpoint index_in (l : list Z) (x : Z) : Z := match l with [] => 0 | y :: l' => if x =? y then 0 else 1 + index_in l' x end.
Lemma index_in_spec : forall l x, In x l -> 0 <= index_in l x < zlen l /\ zget l (index_in l x) = Some x.
Proof.
  induction l as [|y l IH]; intros x H; [contradiction|]. cbn [index_in]. rewrite zlen_cons. pose proof (zlen_nonneg _ l). destruct (Z.eqb_spec x y) as [->|N].
  - split; [lia|reflexivity].
  - destruct H as [H|H]; [congruence|]. destruct (IH x H) as [R G]. split; [lia|]. rewrite zget_cons by lia. replace (1 + index_in l x - 1) with (index_in l x) by lia. auto.
Qed.
Lemma index_in_nodup : forall l k x, NoDup l -> zget l k = Some x -> index_in l x = k.
Proof.
  intros l. induction l as [|y l IH]; intros k x ND H; [apply zget_range in H; rewrite zlen_nil in H; lia|]. inversion ND as [|? ? N1 N2]; subst.
  cbn [index_in]. pose proof (zget_range _ _ _ _ H) as R. destruct (Z.eq_dec k 0) as [->|K].
  - rewrite zget_cons_0 in H. injection H as ->. rewrite Z.eqb_refl. auto.
  - rewrite zget_cons in H by lia. destruct (Z.eqb_spec x y) as [->|]; [exfalso; apply N1; eapply zget_in; eauto|]. rewrite (IH (k - 1) x); auto. lia.
Qed.

Lemma zget_map : forall A B (g : A -> B) l k, zget (map g l) k = option_map g (zget l k).
Proof.
  intros A B g l k. destruct (Z_lt_le_dec k 0) as [L|L].
  - unfold zget. replace (k <? 0) with true by lia. auto.
  - rewrite !zget_nth by lia. rewrite nth_error_map. reflexivity.
Qed.

(** the numbering of the loaded leaves *)
Lemma lorder_renumbers : forall d, is_leaf d = false -> NoDup (map fst (leaves_of d)) ->
  renumbers d (index_in (map fst (lorder d))) /\
  forall k id v, zget (lorder d) k = Some (id, v) -> index_in (map fst (lorder d)) id = k.
Proof.
  intros d L ND. destruct d as [|f test l r]; [discriminate|]. set (d := DNode f test l r) in *.
  assert (Pm : Permutation (lorder d) (leaves_of d)) by apply lorder_node.
  assert (ND' : NoDup (map fst (lorder d))). { eapply Permutation_NoDup; [|exact ND]. apply Permutation_map. apply Permutation_sym. auto. }
  assert (IN : forall id v, In (id, v) (leaves_of d) -> In id (map fst (lorder d))).
  { intros id v I. apply in_map_iff. exists (id, v). split; auto. eapply Permutation_in; [apply Permutation_sym; exact Pm|auto]. }
  assert (ZL : zlen (map fst (lorder d)) = zlen (leaves_of d)). { unfold zlen. rewrite map_length. rewrite (Permutation_length Pm). auto. }
  split; [split|].
  - intros id v I. destruct (index_in_spec _ _ (IN _ _ I)). lia.
  - intros id v id' v' I I' E. destruct (index_in_spec _ _ (IN _ _ I)) as [_ G]. destruct (index_in_spec _ _ (IN _ _ I')) as [_ G']. rewrite E in G. congruence.
  - intros k id v G. apply index_in_nodup; auto. rewrite zget_map, G. reflexivity.
Qed.

Lemma append_builds : forall sk d w n t c sl sr, ignores_nodes s -> matches sk d w ->
  sk = SNode c sl sr -> c = 0 -> NoDup (sids sk) -> (forall j, In j (sids sk) -> 0 <= j < n) -> n < two32 ->
  NoDup (map fst (leaves_of d)) ->
  tNodes t = [] -> tLeafValues t = [] -> tCatThresholds t = [] -> zlen (tCatBoundaries t) <= 1 -> Inv t -> w < two32 ->
  exists T ren, build s n t = Ok T /\ nLeaves T = zlen (leaves_of d) /\ renumbers d ren /\
    forall x v id, walk d x = Some (v, id) -> predict p T x = Ok (v, ren id).
Proof.
  intros sk d w n t c sl sr Hi M Esk Ec ND Rg Hn NDl Tn Tl Tt Tb It Hw.
  destruct (matches_leaf _ _ _ M) as (L & Sz & _).
  assert (Ld : is_leaf d = false) by (rewrite <- L, Esk; reflexivity).
  assert (Sn : dsize d <= n).
  { rewrite <- Sz, ssize_ids. assert (I : incl (sids sk) (zseq n)) by (intros j Hj; apply in_zseq; auto).
    pose proof (NoDup_incl_length ND I) as Q. rewrite zseq_length in Q. unfold zlen.
    assert (0 <= n) by (rewrite Esk in Rg; pose proof (Rg c ltac:(cbn; auto)); lia). lia. }
  assert (Zlo : zlen (lorder d) = dsize d + 1).
  { rewrite <- leaves_dsize. destruct d as [|f test l r]; [discriminate|]. unfold zlen. f_equal. apply Permutation_length, lorder_node. }
  destruct (lorder_renumbers d Ld NDl) as [RN IX].
  destruct (lay_append sk d w M 0 t) as (ns & t' & E & _ & _ & _ & _ & _ & P'); auto; try (rewrite ?Tt, ?Tl, ?zlen_nil; unfold two32 in *; lia).
  rewrite (build_lays s Hi sk c sl sr n t Esk Ec (matches_fits _ _ _ M)); auto; try lia. rewrite E. cbn [bind].
  pose proof (lay_len _ _ _ _ _ _ E) as Len. exists (tree_set_nodes t' ns), (index_in (map fst (lorder d))). split; [reflexivity|].
  split. { unfold nLeaves. cbn [tNodes tree_set_nodes]. rewrite leaves_dsize. lia. }
  split; [exact RN|]. intros x v id W. apply (placed_predict p _ _ x v id d); auto.
  - apply P'; auto.
    + repeat split; cbn; auto.
    + intros i nn Hi'. cbn. auto.
    + intros k id' v' G. rewrite Tl, zlen_nil, Z.add_0_l. eapply IX; eauto.
  - cbn [tNodes tree_set_nodes]. lia.
Qed.
End Append.
