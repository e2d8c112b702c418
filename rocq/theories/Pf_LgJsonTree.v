(** * LightGBM JSON trees as loaded *)

From Coq Require Import ZArith List Bool String Lia ZifyBool.
From Verif Require Import Go GoFloat GoText UtilBits LgTree TreeBuild LgJsonIO.
From Verif Require Import Spec_Bits Spec_Split Spec_Tree Spec_LgJson.
From Verif Require Import Pf_Go Pf_Bits Prop_Bits Pf_Text Pf_Words Pf_Split Pf_Build Pf_Placed Pf_Append Pf_LgTree Pf_XgTree Pf_LgJson.
Local Open Scope Z_scope.

(** ** Category sets *)
Lemma mapM_atoi : forall tokens cats, map atoi tokens = map Some cats ->
  mapM (fun s => match atoi s with Some v => Ok v | None => Err "can't convert" end) tokens = Ok cats.
Proof.
  induction tokens as [|s tokens IH]; intros [|c cats] H; try discriminate; [reflexivity|]. cbn [map] in H. injection H as H1 H2.
  cbn [mapM]. rewrite H1. cbn [bind]. rewrite (IH cats H2). reflexivity.
Qed.

Lemma existsb_in : forall cats k, existsb (Z.eqb k) cats = true <-> In k cats.
Proof.
  intros cats k. rewrite existsb_exists. split.
  - intros (x & I & E). apply Z.eqb_eq in E. subst. auto.
  - intros I. exists k. split; auto. apply Z.eqb_refl.
Qed.

Lemma fold_max_ge : forall cats c, In c cats -> c <= fold_right Z.max 0 cats.
Proof. induction cats as [|x cats IH]; intros c []; cbn [fold_right]; [lia|]. specialize (IH c H). lia. Qed.

(** what the creation of categorical nodes needs of the tree under construction *)
Definition cats_ready (some : bool) (t : lgTree) : Prop :=
  some = true -> exists b, tCatBoundaries t = b ++ [zlen (tCatThresholds t)].

Lemma category_ok : forall p t s cats, map atoi (split s (bs "||")) = map Some cats -> Forall (fun c => 0 <= c < 2 ^ 31) cats ->
  2 ^ 26 <= pl_maxalloc p -> cats_ready true t -> zlen (tCatThresholds t) + set_words cats < two32 -> zlen (tCatBoundaries t) < two32 ->
  exists ci ct t1, json_category p t s = Ok (ci, ct, t1) /\ (ct = 0 \/ ct = catOneHot \/ ct = catSmall) /\
    tLeafValues t1 = tLeafValues t /\ cats_ready true t1 /\ ext t t1 /\
    zlen (tCatThresholds t1) <= zlen (tCatThresholds t) + set_words cats /\ zlen (tCatBoundaries t1) <= zlen (tCatBoundaries t) + 1 /\
    forall T n b m, leaf_bits b -> nThreshold n = f64_of_Z ci -> nFlags n = Z.lor (Z.lor (Z.lor categorical (missing_flag m)) ct) b -> ext t1 T ->
      stores T n m (fun k => existsb (Z.eqb k) cats).
Proof.
  intros p t s cats Hs Fc Ha Hinv Hthr Hbnd. unfold json_category. set (tokens := split s (bs "||")) in *.
  assert (Mx : 0 <= fold_right Z.max 0 cats). { clear. induction cats; cbn [fold_right]; lia. }
  assert (Sw : 1 <= set_words cats) by (unfold set_words; pose proof (Z.div_pos (fold_right Z.max 0 cats) 32 Mx); lia).
  destruct tokens as [|tok [|tok2 toks]] eqn:Et.
  - exfalso. unfold tokens in Et. assert (NE : forall s', split s' (bs "||") <> []).
    { intros s'. change (split s' (bs "||")) with (split_go (bs "||") s' [] 0). generalize (@nil byte), O. induction s' as [|c s' IH]; intros cur k; cbn [split_go]; [discriminate|].
      destruct k; auto. destruct (has_prefix (c :: s') (bs "||")); [discriminate|auto]. }
    exact (NE s Et).
  - destruct cats as [|c [|]]; try discriminate. cbn [map] in Hs. injection Hs as Hs. rewrite Hs. inversion Fc as [|? ? Hc _]; subst.
    change (2 ^ 31) with two31 in Hc.
    exists (u32 c), catOneHot, t. split; [reflexivity|]. split; [auto|]. split; [auto|]. split; [auto|]. split; [auto|]. split; [lia|]. split; [lia|].
    intros T n b m Hb Ht Hf _. rewrite u32_id in Ht by (unfold two31, two32 in *; lia).
    apply stores_one with (b := b) (c := c); auto. intros k _. cbn [existsb]. apply orb_false_r.
  - rewrite (mapM_atoi _ cats Hs). cbn [bind].
    destruct (C27_construct_bitset p cats) as (words & Ew & Ww & Bw & Lw).
    { rewrite Forall_forall in Fc |- *. intros c I. specialize (Fc c I). change (2 ^ 31) with 2147483648 in Fc. change (2 ^ 26) with 67108864 in Ha.
      split; [unfold MaxInt, two63; lia|]. assert (c / 32 < 67108864) by (apply Z.div_lt_upper_bound; lia). lia. }
    rewrite Ew. cbn [bind].
    assert (Zw : zlen words <= set_words cats).
    { destruct (Z_le_gt_dec (zlen words) (set_words cats)) as [|G]; auto. exfalso.
      destruct (proj1 (Lw (set_words cats) ltac:(lia)) ltac:(lia)) as (v & I & Hv). pose proof (fold_max_ge cats v I). unfold set_words in Hv.
      pose proof (Z.div_mod (fold_right Z.max 0 cats) 32 ltac:(lia)). pose proof (Z.mod_pos_bound (fold_right Z.max 0 cats) 32 ltac:(lia)). lia. }
    assert (Cb : forall k, 0 <= k < two31 -> existsb (Z.eqb k) cats = bit words k).
    { intros k Hk. destruct (bit words k) eqn:B.
      - apply existsb_in. apply Bw; [lia|auto].
      - destruct (existsb (Z.eqb k) cats) eqn:X; auto. apply existsb_in in X. apply Bw in X; [congruence|lia]. }
    assert (LARGE : exists ci ct t1, (let thresholds := tCatThresholds t ++ words in
          Ok (u32 (zlen (tCatBoundaries t) - 1), 0, tree_set_cats t (tCatBoundaries t ++ [u32 (zlen thresholds)]) thresholds)) = Ok (ci, ct, t1) /\
       (ct = 0 \/ ct = catOneHot \/ ct = catSmall) /\ tLeafValues t1 = tLeafValues t /\ cats_ready true t1 /\ ext t t1 /\
       zlen (tCatThresholds t1) <= zlen (tCatThresholds t) + set_words cats /\ zlen (tCatBoundaries t1) <= zlen (tCatBoundaries t) + 1 /\
       forall T n b m, leaf_bits b -> nThreshold n = f64_of_Z ci -> nFlags n = Z.lor (Z.lor (Z.lor categorical (missing_flag m)) ct) b -> ext t1 T ->
         stores T n m (fun k => existsb (Z.eqb k) cats)).
    { destruct (Hinv eq_refl) as (b0 & Eb). set (n0 := zlen (tCatThresholds t)) in *. pose proof (zlen_nonneg _ words) as Zw0. pose proof (zlen_nonneg _ b0) as Zb.
      assert (N0 : 0 <= n0) by apply zlen_nonneg.
      assert (Lb : zlen b0 + 1 < two32) by (rewrite Eb, zlen_app, zlen_cons, zlen_nil in Hbnd; lia).
      assert (Ub : u32 (zlen (tCatBoundaries t) - 1) = zlen b0).
      { rewrite Eb, zlen_app, zlen_cons, zlen_nil. rewrite u32_id; lia. }
      assert (Ut : u32 (zlen (tCatThresholds t ++ words)) = n0 + zlen words).
      { rewrite zlen_app. fold n0. rewrite u32_id; lia. }
      cbv zeta. rewrite Ub, Ut. eexists _, _, _. split; [reflexivity|]. split; [auto|]. split; [reflexivity|].
      split. { intros _. exists (tCatBoundaries t). cbn [tCatBoundaries tCatThresholds tree_set_cats]. rewrite zlen_app. reflexivity. }
      split. { repeat split; cbn; auto. }
      split. { cbn [tCatThresholds tree_set_cats]. rewrite zlen_app. fold n0. lia. }
      split. { cbn [tCatBoundaries tree_set_cats]. rewrite zlen_app, zlen_cons, zlen_nil. lia. }
      intros T n b m Hb Ht Hf (E1 & E2 & E3). cbn [tCatBoundaries tCatThresholds tree_set_cats] in E2, E3.
      apply stores_large with (b := b) (idx := zlen b0) (lo := n0) (hi := n0 + zlen words) (words := words); [auto|lia|auto|auto| | | |lia|auto].
      - apply (prefix_zget _ _ _ _ _ E2). rewrite Eb, <- app_assoc. apply zget_mid.
      - apply (prefix_zget _ _ _ _ _ E2). rewrite Eb. rewrite zget_app_r by (rewrite zlen_app, zlen_cons, zlen_nil; lia).
        rewrite zlen_app, zlen_cons, zlen_nil. replace (zlen b0 + 1 - (zlen b0 + (1 + 0))) with 0 by lia. reflexivity.
      - destruct E3 as [post E3]. unfold slice. rewrite E3. pose proof (zlen_nonneg _ post).
        replace ((n0 <? 0) || (n0 + zlen words <? n0) || (zlen ((tCatThresholds t ++ words) ++ post) <? n0 + zlen words)) with false
          by (rewrite !zlen_app; fold n0; lia).
        f_equal. replace (n0 + zlen words - n0) with (zlen words) by lia. unfold n0, zlen. rewrite !Nat2Z.id.
        rewrite <- app_assoc, skipn_app, skipn_all, Nat.sub_diag. cbn [app skipn].
        rewrite firstn_app, firstn_all, Nat.sub_diag. cbn [firstn]. apply app_nil_r. }
    destruct words as [|w [|w2 ws]]; [exact LARGE| |exact LARGE].
    exists w, catSmall, t. split; [reflexivity|]. split; [auto|]. split; [auto|]. split; [auto|]. split; [auto|]. split; [lia|]. split; [lia|].
    intros T n b m Hb Ht Hf _. apply stores_small with (b := b) (bits := w); auto. inversion Ww; auto.
Qed.

(** ** The nodes as a source *)
Fixpoint nodes_of (j : jnode) : list (lgNodeJSON * jnode * jnode) :=
  match j with NLeaf _ => [] | NNode n l r => (n, l, r) :: nodes_of l ++ nodes_of r end.
Definition jz (j : jnode) : Z := Z.of_nat (jsize j).
Fixpoint jskel (k : Z) (j : jnode) : stree :=
  match j with NLeaf _ => SLeaf | NNode _ l r => SNode k (jskel (k + 1) l) (jskel (k + 1 + jz l) r) end.
Definition json_source (p : platform) (nodes : list (lgNodeJSON * jnode * jnode)) : source :=
  mkSource (fun t i => match zget nodes i with Some (n, l, r) => json_createNode p t n l r | None => Panic "no node" end)
           (fun i => Ok (i + 1))
           (fun i => match zget nodes i with Some (_, l, _) => Ok (i + 1 + jz l) | None => Panic "no node" end).

Lemma nodes_len : forall j, zlen (nodes_of j) = jz j.
Proof. induction j as [v|n l IHl r IHr]; [reflexivity|]. cbn [nodes_of]. rewrite zlen_cons, zlen_app, IHl, IHr. unfold jz. cbn [jsize]. lia. Qed.
Lemma jz_node : forall n l r, jz (NNode n l r) = 1 + jz l + jz r.
Proof. intros. unfold jz. cbn [jsize]. lia. Qed.
Lemma jz_nonneg : forall j, 0 <= jz j.
Proof. intros. unfold jz. lia. Qed.
Lemma jskel_size : forall j k, ssize (jskel k j) = jz j.
Proof. induction j as [v|n l IHl r IHr]; intros k; [reflexivity|]. cbn [jskel ssize]. rewrite IHl, IHr, jz_node. reflexivity. Qed.
Definition is_nleaf (j : jnode) : bool := match j with NLeaf _ => true | _ => false end.
Lemma jskel_leaf : forall j k, is_sleaf (jskel k j) = is_nleaf j.
Proof. destruct j; reflexivity. Qed.
Lemma nd_is_leaf : forall p j first d w, ndescribes p j first d w -> is_nleaf j = is_leaf d.
Proof. intros p j first d w H. destruct H; reflexivity. Qed.

Lemma json_leaves_add : forall p l r fl fr dl dr wl wr nt, ndescribes p l fl dl wl -> ndescribes p r fr dr wr ->
  json_leaves l r nt = add_right dr (add_left dl nt).
Proof. intros p l r fl fr dl dr wl wr nt Hl Hr. unfold json_leaves. destruct Hl, Hr; reflexivity. Qed.

Lemma category_ignores : forall p t ns s, json_category p (tree_set_nodes t ns) s =
  let* (r, t') := json_category p t s in Ok (r, tree_set_nodes t' ns).
Proof.
  intros p t ns s. unfold json_category. destruct (split s (bs "||")) as [|a [|b c]]; [reflexivity|destruct (atoi a); reflexivity|].
  destruct (mapM _ _) as [vs|m|m|]; cbn [bind]; auto. destruct (ConstructBitset p vs) as [[|w [|w2 ws]]|m|m|]; reflexivity.
Qed.
Lemma leaves_ignores : forall l r n t ns, json_leaves l r (n, tree_set_nodes t ns) = let (n', t') := json_leaves l r (n, t) in (n', tree_set_nodes t' ns).
Proof. intros l r n t ns. destruct l, r; reflexivity. Qed.
Lemma create_ignores : forall p t ns n l r, json_createNode p (tree_set_nodes t ns) n l r =
  let* (nd, t') := json_createNode p t n l r in Ok (nd, tree_set_nodes t' ns).
Proof.
  intros p t ns n l r. unfold json_createNode. destruct (beqb _ (bs "==")).
  - unfold json_createCategoricalNode. destruct (stringToMissingType _); [|reflexivity]. destruct (nj_Threshold n); try reflexivity.
    rewrite category_ignores. destruct (json_category p t s) as [[[ci ct] t1]|m|m|]; cbn [bind]; auto. rewrite leaves_ignores. destruct (json_leaves _ _ _); reflexivity.
  - destruct (beqb _ (bs "<=")); [|reflexivity]. unfold json_createNumericalNode. destruct (stringToMissingType _); [|reflexivity]. destruct (nj_Threshold n); try reflexivity.
    rewrite leaves_ignores. cbn [bind]. destruct (json_leaves _ _ _); reflexivity.
Qed.

Lemma missing_lookup : forall m, stringToMissingType (missing_name m) = Some (missing_flag m).
Proof. destruct m; reflexivity. Qed.

Lemma bare_categorical : forall f m ci ct, ct = 0 \/ ct = catOneHot \/ ct = catSmall -> bare (categoricalNode f (missing_flag m) ci ct).
Proof. intros f m ci ct [-> | [-> | ->]]; unfold bare; cbn [categoricalNode nFlags]; destruct m; split; reflexivity. Qed.

Lemma json_matches : forall p some nodes, 2 ^ 26 <= pl_maxalloc p -> forall j first d w, ndescribes p j first d w ->
  forall k, 0 <= k -> (0 < w -> some = true) -> (forall i x, zget (nodes_of j) i = Some x -> zget nodes (k + i) = Some x) ->
  matches p (json_source p nodes) (cats_ready some) (jskel k j) d w.
Proof.
  intros p some nodes Ha j first d w H.
  induction H as [first v|n first f m dl thr lc rc l r dl' dr wl wr R Hl IHl Hr IHr|n first f m dl s cats lc rc l r dl' dr wl wr R Es Fc Hl IHl Hr IHr];
    intros k Hk Hw Hn; cbn [jskel]; [constructor| |].
  - assert (W0 : 0 <= wl /\ 0 <= wr).
    { assert (Q : forall j first d w, ndescribes p j first d w -> 0 <= w).
      { clear. intros j first d w H. induction H; try lia. unfold set_words.
        assert (0 <= fold_right Z.max 0 cats) by (clear; induction cats; cbn [fold_right]; lia). pose proof (Z.div_pos (fold_right Z.max 0 cats) 32). lia. }
      split; eapply Q; eauto. }
    assert (G : zget nodes k = Some (n, l, r)) by (rewrite <- (Z.add_0_r k); apply Hn; reflexivity).
    assert (Gl : forall i x, zget (nodes_of l) i = Some x -> zget nodes (k + 1 + i) = Some x).
    { intros i x Hx. rewrite <- Z.add_assoc. apply Hn. cbn [nodes_of]. pose proof (zget_range _ _ _ _ Hx). rewrite zget_cons by lia.
      replace (1 + i - 1) with i by lia. rewrite zget_app_l by lia. auto. }
    assert (Gr : forall i x, zget (nodes_of r) i = Some x -> zget nodes (k + 1 + jz l + i) = Some x).
    { intros i x Hx. replace (k + 1 + jz l + i) with (k + (1 + jz l + i)) by lia. apply Hn. cbn [nodes_of]. pose proof (zget_range _ _ _ _ Hx).
      pose proof (jz_nonneg l). rewrite zget_cons by lia. rewrite zget_app_r by (rewrite nodes_len; lia). rewrite nodes_len.
      replace (1 + jz l + i - 1 - jz l) with i by lia. auto. }
    destruct R as (R1 & R2 & R3 & R4 & R5 & R6 & R7).
    set (n0 := numericalNode f (missing_flag m) thr (default_flag dl)).
    assert (CR : forall t, src_create (json_source p nodes) t k = Ok (add_right dr (add_left dl' (n0, t)))).
    { intros t. cbn [src_create json_source]. rewrite G. unfold json_createNode. rewrite R1. change (beqb (bs "<=") (bs "==")) with false. change (beqb (bs "<=") (bs "<=")) with true. cbv iota.
      unfold json_createNumericalNode. rewrite R3, missing_lookup, R5, R2, R4. rewrite (json_leaves_add p l r _ _ dl' dr wl wr _ Hl Hr). reflexivity. }
    replace (wl + wr) with (0 + wl + wr) by lia. apply m_node; auto.
    + intros t0 n1 t1 Hc. rewrite CR in Hc. injection Hc as Hc. exists n0, t0. split; [auto|]. apply bare_numerical.
    + lia.
    + intros t0 HI Ht Hb. exists n0, t0. split; [apply CR|]. split; [reflexivity|]. split; [auto|]. split; [auto|]. split; [auto|]. split; [lia|]. split; [lia|].
      intros T n1 b Hbits E1 E2 _ v. rewrite (numerical_decides p T n1 m dl v b Hbits E2). rewrite E1. reflexivity.
    + destruct l; cbn [jskel sroot_is]; [exact I|reflexivity].
    + destruct r; cbn [jskel sroot_is]; [exact I|]. cbn [src_right json_source]. rewrite G. reflexivity.
    + apply IHl; auto; lia.
    + apply IHr; auto; pose proof (jz_nonneg l); lia.
  - assert (W0 : 0 <= wl /\ 0 <= wr /\ 1 <= set_words cats).
    { assert (Sw : forall cats, 1 <= set_words cats).
      { clear. intros cats. unfold set_words. assert (0 <= fold_right Z.max 0 cats) by (induction cats; cbn [fold_right]; lia). pose proof (Z.div_pos (fold_right Z.max 0 cats) 32). lia. }
      assert (Q : forall j first d w, ndescribes p j first d w -> 0 <= w).
      { clear -Sw. intros j first d w H. induction H; try lia. specialize (Sw cats). lia. }
      split; [|split]; [eapply Q; eauto|eapply Q; eauto|apply Sw]. }
    assert (Hsome : some = true) by (apply Hw; lia). subst some.
    assert (G : zget nodes k = Some (n, l, r)) by (rewrite <- (Z.add_0_r k); apply Hn; reflexivity).
    assert (Gl : forall i x, zget (nodes_of l) i = Some x -> zget nodes (k + 1 + i) = Some x).
    { intros i x Hx. rewrite <- Z.add_assoc. apply Hn. cbn [nodes_of]. pose proof (zget_range _ _ _ _ Hx). rewrite zget_cons by lia.
      replace (1 + i - 1) with i by lia. rewrite zget_app_l by lia. auto. }
    assert (Gr : forall i x, zget (nodes_of r) i = Some x -> zget nodes (k + 1 + jz l + i) = Some x).
    { intros i x Hx. replace (k + 1 + jz l + i) with (k + (1 + jz l + i)) by lia. apply Hn. cbn [nodes_of]. pose proof (zget_range _ _ _ _ Hx).
      pose proof (jz_nonneg l). rewrite zget_cons by lia. rewrite zget_app_r by (rewrite nodes_len; lia). rewrite nodes_len.
      replace (1 + jz l + i - 1 - jz l) with i by lia. auto. }
    destruct R as (R1 & R2 & R3 & R4 & R5 & R6 & R7).
    assert (CR : forall t ci ct t1, json_category p t s = Ok (ci, ct, t1) ->
      src_create (json_source p nodes) t k = Ok (add_right dr (add_left dl' (categoricalNode f (missing_flag m) ci ct, t1)))).
    { intros t ci ct t1 E. cbn [src_create json_source]. rewrite G. unfold json_createNode. rewrite R1. change (beqb (bs "==") (bs "==")) with true. cbv iota.
      unfold json_createCategoricalNode. rewrite R3, missing_lookup, R5, E. cbn [bind]. rewrite R2. rewrite (json_leaves_add p l r _ _ dl' dr wl wr _ Hl Hr). reflexivity. }
    apply m_node; auto.
    + intros t0 n1 t1 Hc. destruct (json_category p t0 s) as [[[ci ct] t2]|e|e|] eqn:E.
      * rewrite (CR _ _ _ _ E) in Hc. injection Hc as Hc. exists (categoricalNode f (missing_flag m) ci ct), t2. split; [auto|].
        apply bare_categorical. unfold json_category in E. destruct (split s (bs "||")) as [|a [|b c]]; [discriminate|destruct (atoi a); [injection E as <- <- <-; auto|discriminate]|].
        apply bind_ok in E. destruct E as (vs & _ & E). apply bind_ok in E. destruct E as (ws & _ & E). destruct ws as [|w1 [|w2 ws]]; injection E as <- <- <-; auto.
      * exfalso. cbn [src_create json_source] in Hc. rewrite G in Hc. unfold json_createNode in Hc. rewrite R1 in Hc. change (beqb (bs "==") (bs "==")) with true in Hc. cbv iota in Hc.
        unfold json_createCategoricalNode in Hc. rewrite R3, missing_lookup, R5, E in Hc. discriminate.
      * exfalso. cbn [src_create json_source] in Hc. rewrite G in Hc. unfold json_createNode in Hc. rewrite R1 in Hc. change (beqb (bs "==") (bs "==")) with true in Hc. cbv iota in Hc.
        unfold json_createCategoricalNode in Hc. rewrite R3, missing_lookup, R5, E in Hc. discriminate.
      * exfalso. cbn [src_create json_source] in Hc. rewrite G in Hc. unfold json_createNode in Hc. rewrite R1 in Hc. change (beqb (bs "==") (bs "==")) with true in Hc. cbv iota in Hc.
        unfold json_createCategoricalNode in Hc. rewrite R3, missing_lookup, R5, E in Hc. discriminate.
    + lia.
    + intros t0 HI Ht Hb. destruct (category_ok p t0 s cats Es Fc Ha HI Ht Hb) as (ci & ct & t1 & E & Hct & V1 & I1 & X1 & T1 & B1 & St).
      exists (categoricalNode f (missing_flag m) ci ct), t1. split; [apply CR; auto|]. split; [reflexivity|]. split; [auto|]. split; [auto|]. split; [auto|]. split; [auto|]. split; [auto|].
      intros T n1 b Hbits E1 E2 XT v. apply categorical_decides. eapply St; eauto.
    + destruct l; cbn [jskel sroot_is]; [exact I|reflexivity].
    + destruct r; cbn [jskel sroot_is]; [exact I|]. cbn [src_right json_source]. rewrite G. reflexivity.
    + apply IHl; auto; lia.
    + apply IHr; auto; pose proof (jz_nonneg l); lia.
Qed.

(** ** The stack loop *)
Definition patch (ptr : option parentPtr) (ns : list lgNode) : list lgNode :=
  match ptr with
  | None => ns
  | Some q =>
      match zget ns (pp_index q) with
      | Some par => set_nth ns (Z.to_nat (pp_index q)) (if pp_left q then node_set_left par (u32 (zlen ns)) else node_set_right par (u32 (zlen ns)))
      | None => ns
      end
  end.
Definition valid_ptr (ptr : option parentPtr) (gen : Z) (ns : list lgNode) : Prop :=
  match ptr with None => True | Some q => pp_gen q = gen /\ 0 <= pp_index q < zlen ns end.

Lemma write_patch : forall ptr t ns gen cap, valid_ptr ptr gen ns ->
  write_ptr ptr (mkJ (tree_set_nodes t ns) gen cap) = Ok (mkJ (tree_set_nodes t (patch ptr ns)) gen cap).
Proof.
  intros [q|] t ns gen cap H; [|reflexivity]. destruct H as [Hg Hr]. unfold write_ptr, patch. cbn [js_gen js_cap js_tree tNodes tree_set_nodes]. rewrite Hg, Z.eqb_refl.
  destruct (zget_some _ ns (pp_index q) Hr) as [par E]. rewrite (at_zget _ _ _ _ E), E. cbn [bind]. unfold set_at.
  rewrite zset_set_nth by auto. reflexivity.
Qed.
Lemma patch_len : forall ptr ns, zlen (patch ptr ns) = zlen ns.
Proof. intros [q|] ns; [|reflexivity]. unfold patch. destruct (zget ns (pp_index q)); [apply zlen_set_nth|reflexivity]. Qed.

Lemma set_nth_mid : forall A (a : list A) x b v, set_nth (a ++ x :: b) (List.length a) v = a ++ v :: b.
Proof. intros A a x b v. induction a as [|y a IH]; cbn [app List.length set_nth]; [reflexivity|]. rewrite IH. reflexivity. Qed.
Lemma patch_mid : forall gen left a x b, patch (Some (mkPtr gen (zlen a) left)) (a ++ x :: b) =
  a ++ (if left then node_set_left x (u32 (zlen (a ++ x :: b))) else node_set_right x (u32 (zlen (a ++ x :: b)))) :: b.
Proof. intros gen left a x b. unfold patch. cbn [pp_index pp_left]. rewrite zget_mid. unfold zlen at 1. rewrite Nat2Z.id. apply set_nth_mid. Qed.

Lemma loop_lays : forall p nodes j k ptr stack gen cap t ns fuel laid t',
  is_nleaf j = false -> fits (json_source p nodes) (jskel k j) -> 0 <= k ->
  (forall i x, zget (nodes_of j) i = Some x -> zget nodes (k + i) = Some x) ->
  valid_ptr ptr gen ns -> zlen ns + jz j <= cap -> zlen ns + jz j < two32 ->
  lay (json_source p nodes) (jskel k j) (zlen ns) t = Ok (laid, t') ->
  json_loop p (jsize j + fuel) ((ptr, j) :: stack) (mkJ (tree_set_nodes t ns) gen cap) =
  json_loop p fuel stack (mkJ (tree_set_nodes t' (patch ptr ns ++ laid)) gen cap).
Proof.
  intros p nodes j. induction j as [v|n l IHl r IHr]; intros k ptr stack gen cap t ns fuel laid t' NL F Hk Hn Hv Hc H32 L; [discriminate|]. clear NL.
  rewrite jz_node in *. pose proof (jz_nonneg l) as Jl. pose proof (jz_nonneg r) as Jr. pose proof (zlen_nonneg _ ns) as Zns.
  assert (G : zget nodes k = Some (n, l, r)) by (rewrite <- (Z.add_0_r k); apply Hn; reflexivity).
  assert (Gl : forall i x, zget (nodes_of l) i = Some x -> zget nodes (k + 1 + i) = Some x).
  { intros i x Hx. rewrite <- Z.add_assoc. apply Hn. cbn [nodes_of]. pose proof (zget_range _ _ _ _ Hx). rewrite zget_cons by lia.
    replace (1 + i - 1) with i by lia. rewrite zget_app_l by lia. auto. }
  assert (Gr : forall i x, zget (nodes_of r) i = Some x -> zget nodes (k + 1 + jz l + i) = Some x).
  { intros i x Hx. replace (k + 1 + jz l + i) with (k + (1 + jz l + i)) by lia. apply Hn. cbn [nodes_of]. pose proof (zget_range _ _ _ _ Hx).
    rewrite zget_cons by lia. rewrite zget_app_r by (rewrite nodes_len; lia). rewrite nodes_len.
    replace (1 + jz l + i - 1 - jz l) with i by lia. auto. }
  cbn [jskel fits] in F. destruct F as (Ff & _ & _ & Fl & Fr). cbn [jskel lay] in L.
  apply bind_ok in L. destruct L as ([nd t1] & Ec & L). apply bind_ok in L. destruct L as ([rs t2] & Er & L). apply bind_ok in L. destruct L as ([ls t3] & El & L).
  injection L as <- <-. destruct (Ff _ _ _ Ec) as [Fll Frr]. rewrite !jskel_leaf in *. rewrite jskel_size in *.
  cbn [src_create json_source] in Ec. rewrite G in Ec.
  cbn [jsize plus json_loop js_tree js_gen js_cap]. rewrite create_ignores, Ec. cbn [bind].
  rewrite (write_patch ptr t1 ns gen cap Hv). cbn [bind]. cbv zeta. unfold append_node. cbn [js_tree js_gen js_cap tNodes tree_set_nodes]. rewrite patch_len.
  replace (zlen ns + 1 <=? cap) with true by lia. set (ns1 := patch ptr ns) in *. assert (Z1 : zlen ns1 = zlen ns) by apply patch_len. clearbody ns1.
  change (tree_set_nodes (tree_set_nodes t1 ns1) (ns1 ++ [nd])) with (tree_set_nodes t1 (ns1 ++ [nd])). rewrite Fll, Frr.
  assert (LEFT : forall x st, is_nleaf l = false -> zlen (ns1 ++ x :: rs) = zlen ns + 1 + jz r ->
    json_loop p (jsize l + fuel) ((Some (mkPtr gen (zlen ns1) true), l) :: st) (mkJ (tree_set_nodes t2 (ns1 ++ x :: rs)) gen cap) =
    json_loop p fuel st (mkJ (tree_set_nodes t3 (ns1 ++ node_set_left x (zlen ns + 1 + jz r) :: rs ++ ls)) gen cap)).
  { intros x st NLl Zx. rewrite (IHl (k + 1) _ st gen cap t2 (ns1 ++ x :: rs) fuel ls t3); auto; try lia.
    - rewrite patch_mid, Zx, u32_id by lia. rewrite <- app_assoc. reflexivity.
    - cbn [valid_ptr pp_gen pp_index]. split; [auto|]. rewrite zlen_app, zlen_cons. pose proof (zlen_nonneg _ rs). pose proof (zlen_nonneg _ ns1). lia.
    - rewrite Zx. auto. }
  assert (Zr : zlen rs = jz r) by (rewrite (lay_len _ _ _ _ _ _ Er); apply jskel_size).
  assert (Zx : forall x, zlen (ns1 ++ x :: rs) = zlen ns + 1 + jz r) by (intros x; rewrite zlen_app, zlen_cons, Z1, Zr; lia).
  assert (Zp : zlen (tNodes (tree_set_nodes t1 (ns1 ++ [nd]))) - 1 = zlen ns1) by (cbn [tNodes tree_set_nodes]; rewrite zlen_app, zlen_cons, zlen_nil; lia).
  assert (RIGHT : forall st fu, is_nleaf r = false ->
    json_loop p (jsize r + fu) ((Some (mkPtr gen (zlen ns1) false), r) :: st) (mkJ (tree_set_nodes t1 (ns1 ++ [nd])) gen cap) =
    json_loop p fu st (mkJ (tree_set_nodes t2 (ns1 ++ node_set_right nd (zlen ns + 1) :: rs)) gen cap)).
  { intros st fu NLr. rewrite (IHr (k + 1 + jz l) _ st gen cap t1 (ns1 ++ [nd]) fu rs t2); auto; try (rewrite ?zlen_app, ?zlen_cons, ?zlen_nil; lia).
    - rewrite patch_mid, zlen_app, zlen_cons, zlen_nil, Z1. rewrite u32_id by lia. rewrite <- app_assoc. replace (zlen ns + (1 + 0)) with (zlen ns + 1) by lia. reflexivity.
    - cbn [valid_ptr pp_gen pp_index]. split; [auto|]. rewrite zlen_app, zlen_cons, zlen_nil. pose proof (zlen_nonneg _ ns1). lia.
    - rewrite zlen_app, zlen_cons, zlen_nil, Z1. replace (zlen ns + (1 + 0)) with (zlen ns + 1) by lia. auto. }
  destruct l as [vl|nl ll lr], r as [vr|nr rl rr]; cbn [is_nleaf jsize plus] in *.
  - cbn [jskel lay] in Er, El. injection Er as <- <-. injection El as <- <-. cbn [app]. reflexivity.
  - cbn [jskel lay] in El. injection El as <- <-. cbn [push_json js_tree js_gen]. rewrite Zp. rewrite app_nil_r.
    rewrite <- (RIGHT stack fuel eq_refl). reflexivity.
  - cbn [jskel lay] in Er. injection Er as <- <-. cbn [push_json js_tree js_gen]. rewrite Zp. cbn [app].
    specialize (LEFT nd stack eq_refl (Zx nd)). cbn [app] in LEFT. rewrite Nat.add_0_r. rewrite <- LEFT. reflexivity.
  - cbn [push_json js_tree js_gen]. rewrite Zp.
    rewrite <- (LEFT (node_set_right nd (zlen ns + 1)) stack eq_refl (Zx _)). rewrite <- (RIGHT _ _ eq_refl). f_equal. lia.
Qed.

(** ** The whole tree *)
Lemma json_depth_fuel : forall p v first d w, jdescribes (pl_parse_float p) (f2i32 p) v first d w -> numeric (pl_parse_float p) v ->
  exists j, unmarshalNode p (Some v) = Ok j /\ ndescribes p j first d w.
Proof. intros p v first d w H N. unfold unmarshalNode. apply unmarshal_describes; auto. lia. Qed.

Lemma nd_size : forall p j first d w, ndescribes p j first d w -> jz j = dsize d /\ 0 <= w.
Proof.
  intros p j first d w H. induction H as [|? ? ? ? ? ? ? ? ? ? ? ? ? ? ? Hl [E1 W1] Hr [E2 W2]|? ? ? ? ? ? cats ? ? ? ? ? ? ? ? ? ? ? Hl [E1 W1] Hr [E2 W2]]; [split; [reflexivity|lia]| |];
    rewrite jz_node; cbn [dsize]; split; try lia.
  unfold set_words. assert (0 <= fold_right Z.max 0 cats) by (clear; induction cats; cbn [fold_right]; lia). pose proof (Z.div_pos (fold_right Z.max 0 cats) 32). lia.
Qed.

(** leaves are numbered from left to right *)
Lemma nd_ids : forall p j first d w, ndescribes p j first d w ->
  (forall id, In id (map fst (leaves_of d)) -> first <= id < first + zlen (leaves_of d)) /\ NoDup (map fst (leaves_of d)).
Proof.
  assert (J : forall a b : list Z, NoDup a -> NoDup b -> (forall x, In x a -> ~ In x b) -> NoDup (a ++ b)).
  { clear. induction a as [|x a IH]; intros b A B D; cbn [app]; auto. inversion A; subst. constructor.
    - intros X. apply in_app_or in X. destruct X; auto. eapply D; [left; reflexivity|auto].
    - apply IH; auto. intros y Hy. apply D. cbn. auto. }
  intros p j first d w H. induction H as [first v|? first ? ? ? ? ? ? ? ? dl' dr ? ? ? Hl [R1 N1] Hr [R2 N2]|? first ? ? ? ? ? ? ? ? ? dl' dr ? ? ? ? ? Hl [R1 N1] Hr [R2 N2]]; cbn [leaves_of].
  - split; [|constructor; [intros []|constructor]]. intros id [<-|[]]. cbn [fst]. unfold zlen. cbn. lia.
  - rewrite map_app, zlen_app. pose proof (zlen_nonneg _ (leaves_of dl')). pose proof (zlen_nonneg _ (leaves_of dr)). split.
    + intros id I. apply in_app_or in I. destruct I as [I|I]; [specialize (R1 id I)|specialize (R2 id I)]; lia.
    + apply J; auto. intros x X Y. specialize (R1 x X). specialize (R2 x Y). lia.
  - rewrite map_app, zlen_app. pose proof (zlen_nonneg _ (leaves_of dl')). pose proof (zlen_nonneg _ (leaves_of dr)). split.
    + intros id I. apply in_app_or in I. destruct I as [I|I]; [specialize (R1 id I)|specialize (R2 id I)]; lia.
    + apply J; auto. intros x X Y. specialize (R1 x X). specialize (R2 x Y). lia.
Qed.

Lemma json_builds : forall p j first d w cap t some, ndescribes p j first d w -> is_nleaf j = false -> 2 ^ 26 <= pl_maxalloc p ->
  (0 < w -> some = true) -> cats_ready some t -> w < two32 -> zlen (leaves_of d) < two32 -> dsize d <= cap -> cap <= pl_maxalloc p ->
  tNodes t = [] -> tLeafValues t = [] -> tCatThresholds t = [] -> zlen (tCatBoundaries t) <= 1 ->
  exists T ren, json_build p j cap t = Ok T /\ nLeaves T = zlen (leaves_of d) /\ renumbers d ren /\
    forall x v id, walk d x = Some (v, id) -> predict p T x = Ok (v, ren id).
Proof.
  intros p j first d w cap t some H NL Ha Hw Hr Hw32 Hl Hcap Hcm Tn Tl Tt Tb.
  destruct (nd_size _ _ _ _ _ H) as [Sz _]. rewrite leaves_dsize in Hl. pose proof (dsize_nonneg d) as D0.
  assert (Ld : is_leaf d = false) by (rewrite <- (nd_is_leaf _ _ _ _ _ H); auto).
  pose proof (json_matches p some (nodes_of j) Ha j first d w H 0 ltac:(lia) Hw ltac:(intros i x E; exact E)) as M.
  destruct (lorder_renumbers d Ld (proj2 (nd_ids _ _ _ _ _ H))) as [RN IX].
  assert (Zlo : zlen (lorder d) = dsize d + 1).
  { rewrite <- leaves_dsize. destruct d as [|f test l r]; [discriminate|]. unfold zlen. f_equal. apply Permutation.Permutation_length, lorder_node. }
  destruct (lay_append p (json_source p (nodes_of j)) (cats_ready some) ltac:(intros t0 vs HI; exact HI) _ _ _ M 0 t) as (ns & t' & E & _ & _ & _ & _ & _ & P'); auto;
    try (rewrite ?Tt, ?Tl, ?zlen_nil; lia).
  pose proof (lay_len _ _ _ _ _ _ E) as Len. rewrite jskel_size in Len.
  exists (tree_set_nodes t' ns), (index_in (map fst (lorder d))). split; [|split; [|split; [exact RN|]]].
  - unfold json_build. replace (pl_maxalloc p <? cap) with false by lia.
    assert (Et : t = tree_set_nodes t []) by (destruct t; cbn in Tn; subst; reflexivity).
    rewrite Et. replace (S (jsize j)) with (jsize j + 1)%nat by lia.
    rewrite (loop_lays p (nodes_of j) j 0 None [] 0 cap t [] 1 ns t' NL (matches_fits _ _ _ _ _ _ M)); auto; try (rewrite ?zlen_nil; lia). exact I.
  - unfold nLeaves. cbn [tNodes tree_set_nodes]. rewrite leaves_dsize. lia.
  - intros x v id W. apply (placed_predict p _ _ x v id d); auto.
    + apply P'; auto.
      * repeat split; cbn; auto.
      * intros i nn Hi'. cbn. auto.
      * intros k id' v' G. rewrite Tl, zlen_nil, Z.add_0_l. eapply IX; eauto.
    + cbn [tNodes tree_set_nodes]. lia.
Qed.

(** ** The tree object *)
Section TreeObject.
  Variable p : platform.
  Lemma keep_nl : forall n n' k w, forallb plain_char k = true -> k <> bs "num_leaves" -> store_tree p n (k, w) = Ok n' -> tj_NumLeaves n' = tj_NumLeaves n.
  Proof. keep_tac. Qed.
  Lemma keep_nc : forall n n' k w, forallb plain_char k = true -> k <> bs "num_cat" -> store_tree p n (k, w) = Ok n' -> tj_NumCat n' = tj_NumCat n.
  Proof. keep_tac. Qed.
  Lemma keep_root : forall n n' k w, forallb plain_char k = true -> k <> bs "tree_structure" -> store_tree p n (k, w) = Ok n' -> tj_RootRaw n' = tj_RootRaw n.
  Proof. keep_tac. Qed.

  Lemma decode_tree : forall l lit1 lit2 nl nc root, plain l -> numeric (pl_parse_float p) (JObj l) ->
    In (bs "num_leaves", JNum lit1) l -> atoi lit1 = Some nl -> In (bs "num_cat", JNum lit2) l -> parse_uint32 lit2 = Some nc ->
    In (bs "tree_structure", root) l ->
    dec_struct (store_tree p) (mkTreeJSON 0 0 None) (JObj l) = Ok (mkTreeJSON nl nc (Some root)).
  Proof.
    intros l lit1 lit2 nl nc root P Nm I1 E1 I2 E2 I3.
    assert (OK : exists n, foldM (store_tree p) l (mkTreeJSON 0 0 None) = Ok n).
    { apply (foldM_ok _ _ (store_tree p) (fun kv => In kv l)); [|apply Forall_forall; auto].
      intros [a b c] [k v] I. destruct P as [ND Pc]. pose proof (Pc k v I) as Hk. unfold store_tree. cbv beta iota zeta.
      repeat match goal with |- context [if key_is k ?nm then _ else _] => destruct (key_is k nm) eqn:? end; eauto.
      - match goal with K : key_is k _ = true |- _ => rewrite key_is_plain in K by (auto || reflexivity); apply beqb_eq in K; subst k end.
        rewrite (plain_unique _ l _ v _ (conj ND Pc) I I1). unfold dec_num. rewrite E1. cbn [bind]. eauto.
      - match goal with K : key_is k _ = true |- _ => rewrite key_is_plain in K by (auto || reflexivity); apply beqb_eq in K; subst k end.
        rewrite (plain_unique _ l _ v _ (conj ND Pc) I I2). unfold dec_num. rewrite E2. cbn [bind]. eauto.
      - destruct (dec_iface_ok p v) as [i ->]; [apply numeric_fit; eapply numeric_member; eauto|]. cbn [bind]. eauto. }
    destruct OK as [[a b c] E]. unfold dec_struct. rewrite E. f_equal.
    pose proof (fold_field _ _ _ tj_NumLeaves _ keep_nl l (JNum lit1) (mkTreeJSON 0 0 None) (mkTreeJSON a b c) (fun z => z = nl) P I1) as F1.
    pose proof (fold_field _ _ _ tj_NumCat _ keep_nc l (JNum lit2) (mkTreeJSON 0 0 None) (mkTreeJSON a b c) (fun z => z = nc) P I2) as F2.
    pose proof (fold_field _ _ _ tj_RootRaw _ keep_root l root (mkTreeJSON 0 0 None) (mkTreeJSON a b c) (fun z => z = Some root) P I3) as F3.
    specialize (fun H => F1 H E). specialize (fun H => F2 H E). specialize (fun H => F3 H E). cbn [tj_NumLeaves tj_NumCat tj_RootRaw] in *.
    rewrite F1, F2, F3; auto.
    - intros [? ? ?] n1 S. injection S as <-. reflexivity.
    - intros [? ? ?] n1 S. cbn in S. rewrite E2 in S. injection S as <-. reflexivity.
    - intros [? ? ?] n1 S. cbn in S. rewrite E1 in S. injection S as <-. reflexivity.
  Qed.
End TreeObject.

(** the loaded tree behaves like [d], up to the numbering of the leaves *)
Definition behaves_upto (p : platform) (T : lgTree) (d : dtree) : Prop :=
  nLeaves T = zlen (leaves_of d) /\
  exists ren, renumbers d ren /\ forall x v id, walk d x = Some (v, id) -> predict p T x = Ok (v, ren id).

Lemma jd_numeric_leaves : forall d, 1 <= zlen (leaves_of d).
Proof. intros d. rewrite leaves_dsize. pose proof (dsize_nonneg d). lia. Qed.

Lemma json_tree_loads : forall p v nl d, json_tree_says (pl_parse_float p) (f2i32 p) v nl d ->
  nl - 1 <= pl_maxalloc p -> 2 ^ 26 <= pl_maxalloc p -> exists T, unmarshalTree p v = Ok T /\ behaves_upto p T d.
Proof.
  intros p v nl d (l & lit1 & lit2 & nc & root & w & -> & P & Nm & I1 & E1 & I2 & E2 & I3 & D & L1 & L2 & W & NC) Ha Hb. apply int64_iff in E1. apply uint32_iff in E2.
  unfold unmarshalTree. rewrite (decode_tree p l lit1 lit2 nl nc root) by auto. cbn [bind tj_NumLeaves tj_NumCat tj_RootRaw]. cbv zeta.
  pose proof (jd_numeric_leaves d) as L0. replace (nl <? 1) with false by lia.
  destruct (json_depth_fuel p root 0 d w D (numeric_member _ _ _ _ Nm I3)) as (j & Ej & N). rewrite Ej. cbn [bind].
  destruct j as [lv|n jl jr].
  - inversion N; subst. eexists. split; [reflexivity|]. split; [destruct (0 <? _); reflexivity|].
    exists (fun z => z). split.
    + unfold renumbers. cbn [leaves_of]. rewrite zlen_cons, zlen_nil. split.
      * intros a b [E|[]]. injection E as <- <-. lia.
      * intros; auto.
    + intros x v id Hw. cbn [walk] in Hw. injection Hw as <- <-. destruct (0 <? _); reflexivity.
  - destruct (json_builds p (NNode n jl jr) 0 d w (nl - 1) (if 0 <? nc then tree_set_cats (tree_set_ncat emptyTree nc) [0] [] else tree_set_ncat emptyTree nc) (0 <? nc) N eq_refl Hb) as (T & ren & ET & H); auto; try (destruct (0 <? nc) eqn:?; reflexivity || lia).
    + intros Q. rewrite Q. exists []. reflexivity.
    + rewrite leaves_dsize in L1. lia.
    + destruct (0 <? nc) eqn:Q; cbn; lia.
    + exists T. split; [exact ET|]. destruct H as (H1 & H2 & H3). split; [auto|]. exists ren. auto.
Qed.
