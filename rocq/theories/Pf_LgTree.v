(** * The LightGBM text loader lays out the described tree *)

From Coq Require Import ZArith List Bool String Lia ZifyBool.
From Verif Require Import Go GoFloat GoText UtilBits UtilText LgTree TreeBuild LgTextIO.
From Verif Require Import Spec_Bits Spec_Split Spec_Tree Spec_LgText.
From Verif Require Import Pf_Go Pf_Bits Prop_Bits Pf_Split Pf_Build Pf_Placed.
Local Open Scope Z_scope.

(** ** Flag arithmetic *)
Lemma missing_flag_cases : forall d m, 0 <= d -> missing_type d = Some m -> convertMissingType d = Ok (missing_flag m).
Proof.
  intros d m Hd H. unfold convertMissingType, missing_type in *. cbv zeta.
  rewrite Z.shiftr_div_pow2 by lia. change 3 with (Z.ones 2). rewrite Z.land_ones by lia. change (2 ^ 2) with 4.
  pose proof (Z.mod_pos_bound (d / 4) 4 ltac:(lia)).
  assert (C : (d / 4) mod 4 = 0 \/ (d / 4) mod 4 = 1 \/ (d / 4) mod 4 = 2 \/ (d / 4) mod 4 = 3) by lia.
  destruct C as [E|[E|[E|E]]]; rewrite E in *; simpl in *; inversion H; reflexivity.
Qed.

Lemma has_1 : forall d, 0 <= d -> has d 1 = is_categorical d.
Proof.
  intros d Hd. unfold has, is_categorical. change 1 with (Z.ones 1). rewrite Z.land_ones by lia. change (2 ^ 1) with 2.
  rewrite Zmod_odd. destruct (Z.odd d); reflexivity.
Qed.

Lemma has_2 : forall d, 0 <= d -> has d 2 = is_default_left d.
Proof.
  intros d Hd. unfold has, is_default_left.
  assert (E : Z.land d 2 = Z.shiftl (Z.land (Z.shiftr d 1) 1) 1).
  { apply Z.bits_inj'. intros n Hn. rewrite Z.land_spec, Z.shiftl_spec by lia.
    destruct (Z.eq_dec n 0) as [->|]. { rewrite (Z.testbit_neg_r (Z.land (Z.shiftr d 1) 1) (0 - 1)) by lia. apply andb_false_r. }
    rewrite Z.land_spec, Z.shiftr_spec by lia. replace (n - 1 + 1) with n by lia.
    destruct (Z.eq_dec n 1) as [->|]; [reflexivity|].
    f_equal. change 2 with (2 ^ 1). rewrite Z.pow2_bits_false by lia. change 1 with (2 ^ 0) at 1. rewrite Z.pow2_bits_false by lia. auto. }
  rewrite E. rewrite Z.shiftr_div_pow2 by lia. change 1 with (Z.ones 1) at 2. rewrite Z.land_ones by lia. change (2 ^ 1) with 2.
  rewrite Zmod_odd. destruct (Z.odd (d / 2)); reflexivity.
Qed.

(** ** Counting bits *)
Lemma count_bits_range : forall l, 0 <= count_bits l <= 32 * zlen l.
Proof.
  intros l. unfold count_bits. split; [auto|].
  pose proof (zlen_nonneg _ l). unfold zlen at 1.
  assert (K : forall (f : Z -> bool) xs, (List.length (filter f xs) <= List.length xs)%nat).
  { intros f xs. induction xs as [|x xs IH]; simpl; auto. destruct (f x); simpl; lia. }
  specialize (K (bit l) (zseq (32 * zlen l))). rewrite zseq_length in K. lia.
Qed.

Lemma bit_range : forall l k, bit l k = true -> 0 <= k < 32 * zlen l.
Proof.
  intros l k H. unfold bit in H. destruct (zget l (k / 32)) eqn:E; [|discriminate]. apply zget_range in E.
  pose proof (Z.div_mod k 32 ltac:(lia)). pose proof (Z.mod_pos_bound k 32 ltac:(lia)). lia.
Qed.

Lemma count_bits_pos : forall l k, bit l k = true -> 1 <= count_bits l.
Proof.
  intros l k H. pose proof (bit_range _ _ H) as R. unfold count_bits.
  assert (I : In k (filter (bit l) (zseq (32 * zlen l)))) by (apply filter_In; rewrite in_zseq; auto).
  destruct (filter (bit l) (zseq (32 * zlen l))); [contradiction|]. rewrite zlen_cons. pose proof (zlen_nonneg _ l0). lia.
Qed.

Lemma count_bits_one : forall l k, count_bits l = 1 -> bit l k = true -> forall j, bit l j = (j =? k).
Proof.
  intros l k C H j. unfold count_bits in C.
  assert (I : forall i, bit l i = true -> In i (filter (bit l) (zseq (32 * zlen l)))).
  { intros i Hi. apply filter_In. rewrite in_zseq. split; auto. apply bit_range; auto. }
  destruct (filter (bit l) (zseq (32 * zlen l))) as [|x xs] eqn:E; [discriminate|].
  destruct xs; [|rewrite !zlen_cons in C; pose proof (zlen_nonneg _ xs); lia].
  specialize (I k H) as Ik. destruct Ik as [->|[]].
  destruct (Z.eqb_spec j k) as [->|N]; auto. destruct (bit l j) eqn:B; auto. destruct (I j B) as [->|[]]; lia.
Qed.

(** ** One node *)
Definition arrays_of (a : text_tree) : lgArrays :=
  mkArrays (tt_left a) (tt_right a) (tt_decision a) (tt_feature a) (tt_threshold a) (tt_cat_threshold a) (tt_cat_boundaries a).

(** the ranges the integer parsers guarantee *)
Definition ranged (a : text_tree) : Prop :=
  Forall (fun z => - two31 <= z < two31) (tt_left a) /\ Forall (fun z => - two31 <= z < two31) (tt_right a) /\
  Forall (fun z => 0 <= z < two32) (tt_decision a) /\
  Forall word (tt_cat_threshold a) /\ Forall (fun z => 0 <= z < two32) (tt_cat_boundaries a).

Lemma forall_zget : forall A (P : A -> Prop) l i x, Forall P l -> zget l i = Some x -> P x.
Proof. intros A P l i x H G. rewrite Forall_forall in H. apply H. eapply zget_in; eauto. Qed.

Definition child_bits (cl cr : Z) : Z := Z.lor (if cl <? 0 then leftLeaf else 0) (if cr <? 0 then rightLeaf else 0).

Lemma child_bits_leaf : forall cl cr, leaf_bits (child_bits cl cr).
Proof. intros. unfold child_bits, leaf_bits. destruct (cl <? 0), (cr <? 0); simpl; auto. Qed.

Definition marked (n : lgNode) (cl cr : Z) : lgNode :=
  mkNode (nThreshold n) (if cl <? 0 then - cl - 1 else nLeft n) (if cr <? 0 then - cr - 1 else nRight n)
         (nFeature n) (Z.lor (nFlags n) (child_bits cl cr)).

Lemma mark_leaves_eq : forall a idx n cl cr, zget (a_left a) idx = Some cl -> zget (a_right a) idx = Some cr ->
  - two31 <= cl < two31 -> - two31 <= cr < two31 ->
  mark_leaves a idx n = Ok (marked n cl cr).
Proof.
  intros a idx n cl cr Hl Hr Rl Rr. unfold mark_leaves. rewrite (at_zget _ _ _ _ Hl). cbn [bind]. rewrite (at_zget _ _ _ _ Hr). cbn [bind].
  unfold marked, child_bits. f_equal. destruct n as [th l r f fl].
  destruct (Z.ltb_spec cl 0), (Z.ltb_spec cr 0); rewrite ?u32_id by (unfold two31, two32 in *; lia); unfold node_or_flags, node_set_left, node_set_right; cbn [nThreshold nLeft nRight nFeature nFlags];
    rewrite ?Z.lor_0_r, ?Z.lor_0_l, <- ?Z.lor_assoc; auto.
Qed.

Lemma marked_flags : forall n cl cr, (exists m dl, nFlags n = Z.lor (missing_flag m) (default_flag dl)) \/
    (exists m c, (c = 0 \/ c = catOneHot \/ c = catSmall) /\ nFlags n = Z.lor (Z.lor categorical (missing_flag m)) c) ->
  has (nFlags (marked n cl cr)) leftLeaf = (cl <? 0) /\ has (nFlags (marked n cl cr)) rightLeaf = (cr <? 0).
Proof.
  intros n cl cr H. unfold marked, child_bits. cbn [nFlags].
  destruct H as [(m & dl & ->) | (m & c & Hc & ->)].
  - destruct m, dl, (cl <? 0), (cr <? 0); split; reflexivity.
  - destruct Hc as [-> | [-> | ->]]; destruct m, (cl <? 0), (cr <? 0); split; reflexivity.
Qed.

Section Create.
  Variable p : platform.
  Variable a : text_tree.
  Hypothesis R : ranged a.

  (** [creates c t node t' test w]: creating node [c] gives [node], whose decision in every
      extension of the new tree is [test] *)
  Definition good_node (T : lgTree) (t' : lgTree) (node0 node : lgNode) (test : f64 -> bool) : Prop :=
    ext t' T -> forall v, decision p T node v = Ok (test v).

  Definition same_rule (n n' : lgNode) : Prop := nThreshold n = nThreshold n' /\ nFlags n = nFlags n' /\ nFeature n = nFeature n'.

  Lemma decision_same : forall T n n' v, same_rule n n' -> decision p T n v = decision p T n' v.
  Proof.
    intros T n n' v (H1 & H2 & H3). unfold decision, categoricalDecision, numericalDecision. rewrite H1, H2. reflexivity.
  Qed.

  (** the categorical part of the tree under construction *)
  Definition cat_inv (t : lgTree) : Prop :=
    (tt_cat_boundaries a = [] \/ exists b, tCatBoundaries t = b ++ [zlen (tCatThresholds t)]).

  Lemma create_numerical : forall c d m f thr cl cr t,
    zget (tt_decision a) c = Some d -> is_categorical d = false -> missing_type d = Some m ->
    zget (tt_feature a) c = Some f -> zget (tt_threshold a) c = Some thr ->
    zget (tt_left a) c = Some cl -> zget (tt_right a) c = Some cr ->
    exists n0, lg_createNode p (arrays_of a) t c = Ok (marked n0 cl cr, t) /\ nFeature n0 = f /\
      (exists m dl, nFlags n0 = Z.lor (missing_flag m) (default_flag dl)) /\
      (forall T n, same_rule n (marked n0 cl cr) -> forall v, decision p T n v = Ok (numeric_left m (is_default_left d) thr v)).
  Proof.
    intros c d m f thr cl cr t Hd Hc Hm Hf Ht Hl Hr. destruct R as (R1 & R2 & R3 & R4 & R5).
    pose proof (forall_zget _ _ _ _ _ R3 Hd) as Rd. cbv beta in Rd.
    exists (numericalNode f (missing_flag m) thr (default_flag (is_default_left d))). split; [|split; [|split]].
    - unfold lg_createNode. cbn [a_decision arrays_of]. rewrite (at_zget _ _ _ _ Hd). cbn [bind]. rewrite has_1, Hc by lia.
      unfold lg_createNumericalNode. cbn [a_decision a_feature a_threshold arrays_of]. rewrite (at_zget _ _ _ _ Hd). cbn [bind].
      rewrite (missing_flag_cases d m) by (auto; lia). cbn [bind]. rewrite (at_zget _ _ _ _ Hf). cbn [bind]. rewrite (at_zget _ _ _ _ Ht). cbn [bind].
      rewrite has_2 by lia.
      change (if is_default_left d then defaultLeft else 0) with (default_flag (is_default_left d)).
      rewrite (mark_leaves_eq _ _ _ cl cr); auto.
      + apply (forall_zget _ _ _ _ _ R1 Hl).
      + apply (forall_zget _ _ _ _ _ R2 Hr).
    - reflexivity.
    - exists m, (is_default_left d). reflexivity.
    - intros T n Hs v. rewrite (decision_same T _ _ v Hs).
      change thr with (nThreshold (marked (numericalNode f (missing_flag m) thr (default_flag (is_default_left d))) cl cr)) at 2.
      apply numerical_decides with (b := child_bits cl cr); [apply child_bits_leaf|reflexivity].
  Qed.

  Lemma create_categorical : forall c d m f thr k lo hi before words after cl cr t,
    zget (tt_decision a) c = Some d -> is_categorical d = true -> missing_type d = Some m ->
    zget (tt_feature a) c = Some f -> zget (tt_threshold a) c = Some thr ->
    trunc thr = Some k -> zget (tt_cat_boundaries a) k = Some lo -> zget (tt_cat_boundaries a) (k + 1) = Some hi ->
    tt_cat_threshold a = before ++ words ++ after -> zlen before = lo -> zlen words = hi - lo ->
    (exists j, 0 <= j /\ bit words j = true) -> zlen words <= 2 ^ 26 -> zlen (tt_cat_boundaries a) <= two32 ->
    zget (tt_left a) c = Some cl -> zget (tt_right a) c = Some cr ->
    cat_inv t -> zlen (tCatThresholds t) + zlen words < two32 -> zlen (tCatBoundaries t) < two32 ->
    exists n0 t', lg_createNode p (arrays_of a) t c = Ok (marked n0 cl cr, t') /\ nFeature n0 = f /\
      (exists m c, (c = 0 \/ c = catOneHot \/ c = catSmall) /\ nFlags n0 = Z.lor (Z.lor categorical (missing_flag m)) c) /\
      cat_inv t' /\ ext t t' /\ tLeafValues t' = tLeafValues t /\
      zlen (tCatThresholds t') <= zlen (tCatThresholds t) + zlen words /\
      zlen (tCatBoundaries t') <= zlen (tCatBoundaries t) + 1 /\
      (forall T n, same_rule n (marked n0 cl cr) -> ext t' T ->
       forall v, decision p T n v = Ok (category_left (f2i32 p) m (bit words) v)).
  Proof.
    intros c d m f thr k lo hi before words after cl cr t Hd Hc Hm Hf Ht Hk Hlo Hhi Hcat Hb Hw (j & Hj0 & Hj) Hsz Hbl Hl Hr Hinv Hthr Hbnd.
    destruct R as (R1 & R2 & R3 & R4 & R5).
    pose proof (forall_zget _ _ _ _ _ R3 Hd) as Rd. cbv beta in Rd.
    pose proof (forall_zget _ _ _ _ _ R1 Hl) as Rl. pose proof (forall_zget _ _ _ _ _ R2 Hr) as Rr. cbv beta in Rl, Rr.
    pose proof (zget_range _ _ _ _ Hlo) as Rk. pose proof (zget_range _ _ _ _ Hhi) as Rk1.
    assert (Ww : Forall word words) by (rewrite Hcat in R4; apply Forall_app in R4; destruct R4 as [_ R4]; apply Forall_app in R4; tauto).
    assert (Fk : f2u32 p thr = k) by (unfold f2u32; rewrite Hk; replace ((0 <=? k) && (k <? two32)) with true by lia; auto).
    pose proof (zlen_nonneg _ words) as Zw.
    assert (Sl : slice (tt_cat_threshold a) lo hi = Ok words).
    { unfold slice. pose proof (zlen_nonneg _ before). pose proof (zlen_nonneg _ after).
      replace ((lo <? 0) || (hi <? lo) || (zlen (tt_cat_threshold a) <? hi)) with false
        by (rewrite Hcat, !zlen_app; lia).
      f_equal. rewrite Hcat. assert (El : Z.to_nat lo = List.length before) by (unfold zlen in Hb; lia).
      assert (Ew : Z.to_nat (hi - lo) = List.length words) by (unfold zlen in Hw; lia).
      rewrite El, Ew, skipn_app, skipn_all, Nat.sub_diag. cbn [app skipn].
      rewrite firstn_app, firstn_all, Nat.sub_diag. cbn [firstn]. apply app_nil_r. }
    pose proof (count_bits_range words) as Cr. pose proof (count_bits_pos words j Hj) as Cp.
    assert (Nb : NumberOfSetBits words = count_bits words).
    { rewrite C25_number_of_set_bits by auto. apply Z.mod_small. change (2 ^ 32) with 4294967296. change (2 ^ 26) with 67108864 in Hsz. lia. }
    assert (KEY : forall ci ct t', 
      (if NumberOfSetBits words =? 0 then Err "no bits set"
       else if NumberOfSetBits words =? 1 then
         match FirstNonZeroBit words with Ok i => Ok (i, catOneHot, t) | Err _ => Err "not reached error" | Panic m => Panic m | Hang => Hang end
       else if u32 (hi - lo) =? 1 then let* w := at_ (tt_cat_threshold a) lo in Ok (w, catSmall, t)
       else Ok (u32 (zlen (tCatBoundaries t) - 1), 0,
             tree_set_cats t (tCatBoundaries t ++ [u32 (zlen (tCatThresholds t ++ words))]) (tCatThresholds t ++ words))) = Ok (ci, ct, t') ->
      lg_createNode p (arrays_of a) t c = Ok (marked (categoricalNode f (missing_flag m) ci ct) cl cr, t')).
    { intros ci ct t' E. unfold lg_createNode. cbn [a_decision arrays_of]. rewrite (at_zget _ _ _ _ Hd). cbn [bind]. rewrite has_1, Hc by lia.
      unfold lg_createCategoricalNode. cbn [a_decision a_feature a_threshold a_catBoundaries a_catThreshold arrays_of].
      rewrite (at_zget _ _ _ _ Hd). cbn [bind].
      rewrite (missing_flag_cases d m) by (auto; lia). cbn [bind]. rewrite (at_zget _ _ _ _ Ht). cbn [bind]. rewrite Fk.
      rewrite u32_id by lia. rewrite (at_zget _ _ _ _ Hhi). cbn [bind]. rewrite (at_zget _ _ _ _ Hlo). cbn [bind]. cbv zeta.
      rewrite Sl. cbn [bind]. rewrite E. cbn [bind]. rewrite (at_zget _ _ _ _ Hf). cbn [bind].
      rewrite (mark_leaves_eq _ _ _ cl cr) by auto. reflexivity. }
    destruct (Z.eq_dec (count_bits words) 1) as [C1|C1].
    - (* one member *)
      destruct (first_bit_loop words 0 Ww ltac:(lia) ltac:(change (2 ^ 32) with 4294967296; change (2 ^ 26) with 67108864 in Hsz; lia)) as [[_ F]|(i & EF & Hi0 & Hi & _)].
      + exfalso. rewrite F in Hj by auto. discriminate.
      + rewrite Z.add_0_l in EF. fold (FirstNonZeroBit words) in EF.
        exists (categoricalNode f (missing_flag m) i catOneHot), t. split; [|split; [|split]].
        * apply KEY. rewrite Nb, C1, EF. reflexivity.
        * reflexivity.
        * exists m, catOneHot. split; auto.
        * split; [auto|]. split; [auto|]. split; [auto|]. split; [lia|]. split; [lia|].
          intros T n Hs _ v. rewrite (decision_same T _ _ v Hs). apply categorical_decides.
          pose proof (bit_range _ _ Hi).
          apply stores_one with (b := child_bits cl cr) (c := i); [apply child_bits_leaf| |reflexivity|reflexivity|].
          -- change (2 ^ 26) with 67108864 in Hsz. unfold two31. lia.
          -- intros q _. apply count_bits_one; auto.
    - destruct (Z.eq_dec (hi - lo) 1) as [B1|B1].
      + (* one word *)
        destruct words as [|w [|w2 ws]]; rewrite ?zlen_cons, ?zlen_nil in *; try (pose proof (zlen_nonneg _ ws)); try lia.
        exists (categoricalNode f (missing_flag m) w catSmall), t. split; [|split; [|split]].
        * apply KEY. rewrite Nb. destruct (Z.eqb_spec (count_bits [w]) 0); [lia|]. destruct (Z.eqb_spec (count_bits [w]) 1); [lia|].
          rewrite B1. change (u32 1 =? 1) with true. cbv iota. rewrite (at_zget _ _ _ w); auto.
          rewrite Hcat. rewrite <- Hb. cbn [app]. apply zget_mid.
        * reflexivity.
        * exists m, catSmall. split; auto.
        * split; [auto|]. split; [auto|]. split; [auto|]. split; [lia|]. split; [lia|].
          intros T n Hs _ v. rewrite (decision_same T _ _ v Hs). apply categorical_decides.
          apply stores_small with (b := child_bits cl cr) (bits := w); [apply child_bits_leaf| |reflexivity|reflexivity|auto].
          inversion Ww; auto.
      + (* several words *)
        destruct Hinv as [Hinv|(b & Hinv)]; [rewrite Hinv in Rk; unfold zlen in Rk; simpl in Rk; lia|].
        set (n0 := zlen (tCatThresholds t)) in *.
        assert (Ub : u32 (zlen (tCatBoundaries t) - 1) = zlen b).
        { rewrite Hinv, zlen_app in Hbnd. rewrite Hinv, zlen_app. rewrite zlen_cons, zlen_nil in *. pose proof (zlen_nonneg _ b). rewrite u32_id; lia. }
        assert (Ut : u32 (zlen (tCatThresholds t ++ words)) = n0 + zlen words).
        { rewrite zlen_app. fold n0. assert (0 <= n0) by apply zlen_nonneg. rewrite u32_id; lia. }
        assert (Lb : zlen b + 1 < two32).
        { rewrite Hinv, zlen_app in Hbnd. rewrite zlen_cons, zlen_nil in Hbnd. lia. }
        set (t' := tree_set_cats t (tCatBoundaries t ++ [n0 + zlen words]) (tCatThresholds t ++ words)).
        exists (categoricalNode f (missing_flag m) (zlen b) 0), t'. split; [|split; [|split]].
        * apply KEY. rewrite Nb. destruct (Z.eqb_spec (count_bits words) 0); [lia|]. destruct (Z.eqb_spec (count_bits words) 1); [lia|].
          destruct (Z.eqb_spec (u32 (hi - lo)) 1) as [E|_].
          { rewrite u32_id in E; [lia|]. change (2 ^ 26) with 67108864 in Hsz. unfold two32. lia. }
          rewrite Ub, Ut. reflexivity.
        * reflexivity.
        * exists m, 0. split; auto.
        * split. { right. exists (tCatBoundaries t). unfold t'. cbn [tCatBoundaries tCatThresholds tree_set_cats]. rewrite zlen_app. reflexivity. }
          split. { repeat split; cbn; auto. }
          split; [reflexivity|]. split. { unfold t'. cbn [tCatThresholds tree_set_cats]. rewrite zlen_app. fold n0. lia. }
          split. { unfold t'. cbn [tCatBoundaries tree_set_cats]. rewrite zlen_app, zlen_cons, zlen_nil. lia. }
          intros T n Hs (E1 & E2 & E3) v. rewrite (decision_same T _ _ v Hs). apply categorical_decides.
          unfold t' in E2, E3. cbn [tCatBoundaries tCatThresholds tree_set_cats] in E2, E3.
          pose proof (zlen_nonneg _ b) as Zb.
          apply stores_large with (b := child_bits cl cr) (idx := zlen b) (lo := n0) (hi := n0 + zlen words) (words := words);
            [apply child_bits_leaf|lia|reflexivity|reflexivity| | | |lia|auto].
          -- apply (prefix_zget _ _ _ _ _ E2). rewrite Hinv, <- app_assoc. apply zget_mid.
          -- apply (prefix_zget _ _ _ _ _ E2). rewrite Hinv. rewrite zget_app_r by (rewrite zlen_app, zlen_cons, zlen_nil; lia).
             rewrite zlen_app, zlen_cons, zlen_nil. replace (zlen b + 1 - (zlen b + (1 + 0))) with 0 by lia. reflexivity.
          -- destruct E3 as [post E3]. unfold slice. rewrite E3. assert (0 <= n0) by apply zlen_nonneg. pose proof (zlen_nonneg _ post).
             replace ((n0 <? 0) || (n0 + zlen words <? n0) || (zlen ((tCatThresholds t ++ words) ++ post) <? n0 + zlen words)) with false
               by (rewrite !zlen_app; fold n0; lia).
             f_equal. replace (n0 + zlen words - n0) with (zlen words) by lia. unfold n0, zlen. rewrite !Nat2Z.id.
             rewrite <- app_assoc, skipn_app, skipn_all, Nat.sub_diag. cbn [app skipn].
             rewrite firstn_app, firstn_all, Nat.sub_diag. cbn [firstn]. apply app_nil_r.
  Qed.

  (** ** The whole tree *)
  Lemma describes_neg : forall i32 c d ids w, describes i32 a c d ids w -> c < 0 ->
    exists v, d = DLeaf (- c - 1) v /\ zget (tt_leaf_value a) (- c - 1) = Some v /\ ids = [] /\ w = 0.
  Proof.
    intros i32 c d ids w H Hc. inversion H; subst.
    - exists v. replace (- (- leaf - 1) - 1) with leaf by lia. auto.
    - apply zget_range in H0. lia.
    - apply zget_range in H0. lia.
  Qed.
  Lemma describes_leaf : forall i32 c d ids w, describes i32 a c d ids w -> (c <? 0) = match d with DLeaf _ _ => true | _ => false end.
  Proof.
    intros i32 c d ids w H. inversion H as [leaf v G|? ? ? ? ? ? ? ? ? ? ? ? ? G|? ? ? ? ? ? ? ? ? ? ? ? ? ? ? ? ? ? ? G]; subst;
      apply zget_range in G; lia.
  Qed.

  Lemma describes_w : forall i32 c d ids w, describes i32 a c d ids w -> 0 <= w /\ zlen ids = dsize d.
  Proof.
    intros i32 c d ids w H. induction H; cbn [dsize]; rewrite ?zlen_cons, ?zlen_app, ?zlen_nil; try lia.
    pose proof (zlen_nonneg _ words). lia.
  Qed.

  Definition src := lg_source p (arrays_of a).

  Lemma marked_left_set : forall n cl cr v, same_rule (node_set_left (marked n cl cr) v) (marked n cl cr).
  Proof. repeat split. Qed.

  Lemma lays : zlen (tt_cat_boundaries a) <= two32 -> forall c d ids w, describes (f2i32 p) a c d ids w ->
    exists sk, sids sk = ids /\ ssize sk = dsize d /\ fits src sk /\ is_sleaf sk = (c <? 0) /\
      (0 <= c -> exists l r, sk = SNode c l r) /\
      forall pos t, 0 <= pos -> cat_inv t -> zlen (tCatThresholds t) + w < two32 -> zlen (tCatBoundaries t) + dsize d <= two32 ->
        pos + dsize d < two32 -> tLeafValues t = tt_leaf_value a ->
        exists ns t', lay src sk pos t = Ok (ns, t') /\ cat_inv t' /\ ext t t' /\ tLeafValues t' = tt_leaf_value a /\
          zlen (tCatThresholds t') <= zlen (tCatThresholds t) + w /\ zlen (tCatBoundaries t') <= zlen (tCatBoundaries t) + dsize d /\
          (0 <= c -> forall T, ext t' T -> occupies ns pos T -> placed p T (fun i => i) pos d).
  Proof.
    intros Hbl c d ids w H.
    assert (NODE : forall c f test cl cr l r il ir wl wr ww,
      zget (tt_left a) c = Some cl -> zget (tt_right a) c = Some cr -> 0 <= ww ->
      describes (f2i32 p) a cl l il wl -> describes (f2i32 p) a cr r ir wr ->
      (forall t n t', src_create src t c = Ok (n, t') -> has (nFlags n) leftLeaf = (cl <? 0) /\ has (nFlags n) rightLeaf = (cr <? 0)) ->
      (forall t, cat_inv t -> zlen (tCatThresholds t) + ww < two32 -> zlen (tCatBoundaries t) < two32 ->
        exists n0 t', lg_createNode p (arrays_of a) t c = Ok (marked n0 cl cr, t') /\ nFeature n0 = f /\ cat_inv t' /\ ext t t' /\
          (has (nFlags (marked n0 cl cr)) leftLeaf = (cl <? 0) /\ has (nFlags (marked n0 cl cr)) rightLeaf = (cr <? 0)) /\
          tLeafValues t' = tLeafValues t /\ zlen (tCatThresholds t') <= zlen (tCatThresholds t) + ww /\
          zlen (tCatBoundaries t') <= zlen (tCatBoundaries t) + 1 /\
          (forall T n, same_rule n (marked n0 cl cr) -> ext t' T -> forall v, decision p T n v = Ok (test v))) ->
      (exists sk, sids sk = il /\ ssize sk = dsize l /\ fits src sk /\ is_sleaf sk = (cl <? 0) /\
        (0 <= cl -> exists l r, sk = SNode cl l r) /\
        forall pos t, 0 <= pos -> cat_inv t -> zlen (tCatThresholds t) + wl < two32 -> zlen (tCatBoundaries t) + dsize l <= two32 ->
        pos + dsize l < two32 -> tLeafValues t = tt_leaf_value a ->
        exists ns t', lay src sk pos t = Ok (ns, t') /\ cat_inv t' /\ ext t t' /\ tLeafValues t' = tt_leaf_value a /\
          zlen (tCatThresholds t') <= zlen (tCatThresholds t) + wl /\ zlen (tCatBoundaries t') <= zlen (tCatBoundaries t) + dsize l /\
          (0 <= cl -> forall T, ext t' T -> occupies ns pos T -> placed p T (fun i => i) pos l)) ->
      (exists sk, sids sk = ir /\ ssize sk = dsize r /\ fits src sk /\ is_sleaf sk = (cr <? 0) /\
        (0 <= cr -> exists l r, sk = SNode cr l r) /\
        forall pos t, 0 <= pos -> cat_inv t -> zlen (tCatThresholds t) + wr < two32 -> zlen (tCatBoundaries t) + dsize r <= two32 ->
        pos + dsize r < two32 -> tLeafValues t = tt_leaf_value a ->
        exists ns t', lay src sk pos t = Ok (ns, t') /\ cat_inv t' /\ ext t t' /\ tLeafValues t' = tt_leaf_value a /\
          zlen (tCatThresholds t') <= zlen (tCatThresholds t) + wr /\ zlen (tCatBoundaries t') <= zlen (tCatBoundaries t) + dsize r /\
          (0 <= cr -> forall T, ext t' T -> occupies ns pos T -> placed p T (fun i => i) pos r)) ->
      exists sk, sids sk = c :: il ++ ir /\ ssize sk = dsize (DNode f test l r) /\ fits src sk /\ is_sleaf sk = (c <? 0) /\
      (0 <= c -> exists l r, sk = SNode c l r) /\
      forall pos t, 0 <= pos -> cat_inv t -> zlen (tCatThresholds t) + (ww + wl + wr) < two32 -> zlen (tCatBoundaries t) + dsize (DNode f test l r) <= two32 ->
        pos + dsize (DNode f test l r) < two32 -> tLeafValues t = tt_leaf_value a ->
        exists ns t', lay src sk pos t = Ok (ns, t') /\ cat_inv t' /\ ext t t' /\ tLeafValues t' = tt_leaf_value a /\
          zlen (tCatThresholds t') <= zlen (tCatThresholds t) + (ww + wl + wr) /\ zlen (tCatBoundaries t') <= zlen (tCatBoundaries t) + dsize (DNode f test l r) /\
          (0 <= c -> forall T, ext t' T -> occupies ns pos T -> placed p T (fun i => i) pos (DNode f test l r))).
    { clear c d ids w H. intros c f test cl cr l r il ir wl wr ww Hl Hr Hww Dl Dr Hflags Hcr (skl & L1 & L2 & L3 & L4 & L5 & L6) (skr & M1 & M2 & M3 & M4 & M5 & M6).
      pose proof (zget_range _ _ _ _ Hl) as Rc.
      destruct (describes_w _ _ _ _ _ Dl) as [Wl _]. destruct (describes_w _ _ _ _ _ Dr) as [Wr _].
      pose proof (dsize_nonneg l) as Sl. pose proof (dsize_nonneg r) as Sr.
      exists (SNode c skl skr). cbn [sids ssize]. rewrite L1, M1, L2, M2. split; [auto|]. split; [reflexivity|]. split; [|split; [|split]].
      - cbn [fits]. split; [|split; [|split; [|split; auto]]].
        + intros t n t' E. destruct (Hflags _ _ _ E) as [F1 F2]. rewrite F1, F2, L4, M4. auto.
        + destruct (Z.ltb_spec cl 0).
          * destruct skl; [exact I|discriminate].
          * destruct (L5 ltac:(lia)) as (x & y & ->). cbn. apply at_ok. auto.
        + destruct (Z.ltb_spec cr 0).
          * destruct skr; [exact I|discriminate].
          * destruct (M5 ltac:(lia)) as (x & y & ->). cbn. apply at_ok. auto.
      - cbn [is_sleaf]. lia.
      - eauto.
      - cbn [dsize]. intros pos t Hp Hi Ht Hb Hpos Hlv.
        destruct (Hcr t Hi ltac:(lia) ltac:(lia)) as (n0 & t1 & Ec & Hf & I1 & X1 & (Fl & Fr) & V1 & T1 & B1 & Dec).
        destruct (M6 (pos + 1) t1) as (rs & t2 & Er & I2 & X2 & V2 & T2 & B2 & P2); auto; try lia; try congruence.
        destruct (L6 (pos + 1 + dsize r) t2) as (ls & t3 & El & I3 & X3 & V3 & T3 & B3 & P3); auto; try lia.
        set (n1 := if is_sleaf skr then marked n0 cl cr else node_set_right (marked n0 cl cr) (pos + 1)).
        set (n2 := if is_sleaf skl then n1 else node_set_left n1 (pos + 1 + dsize r)).
        exists (n2 :: rs ++ ls), t3. split; [|split; [|split; [|split; [|split; [|split]]]]]; auto; try lia.
        + cbn [lay]. change (src_create src t c) with (lg_createNode p (arrays_of a) t c). rewrite Ec. cbn [bind].
          rewrite Er. cbn [bind]. rewrite M2, El. cbn [bind]. reflexivity.
        + eapply ext_trans; [exact X1|]. eapply ext_trans; eauto.
        + intros _ T XT Occ. apply occupies_cons in Occ. destruct Occ as [On Occ]. apply occupies_app in Occ. destruct Occ as [Or Ol].
          rewrite (lay_len _ _ _ _ _ _ Er), M2 in Ol.
          assert (SR : same_rule n2 (marked n0 cl cr)) by (unfold n2, n1; destruct (is_sleaf skr), (is_sleaf skl); repeat split).
          pose proof XT as (XV & _ & _).
          apply placed_node with (node := n2); auto; try lia.
          * destruct SR as (_ & _ & ->). auto.
          * intros v. apply (Dec T n2 SR). eapply ext_trans; [exact X2|]. eapply ext_trans; eauto.
          * destruct SR as (_ & -> & _). rewrite Fl. destruct (Z.ltb_spec cl 0) as [Hn|Hn].
            -- destruct (describes_neg _ _ _ _ _ Dl Hn) as (v & -> & Hv & _).
               assert (Left2 : nLeft n2 = - cl - 1).
               { unfold n2, n1. rewrite L4. destruct (is_sleaf skr); cbn; destruct (Z.ltb_spec cl 0); auto; lia. }
               rewrite Left2. apply side_leaf; auto. rewrite V3 in XV. eapply prefix_zget; eauto.
            -- assert (Left2 : nLeft n2 = pos + 1 + dsize r) by (unfold n2; rewrite L4; reflexivity).
               rewrite Left2. apply side_node. apply P3; auto.
          * destruct SR as (_ & -> & _). rewrite Fr. destruct (Z.ltb_spec cr 0) as [Hn|Hn].
            -- destruct (describes_neg _ _ _ _ _ Dr Hn) as (v & -> & Hv & _).
               assert (Right2 : nRight n2 = - cr - 1).
               { unfold n2, n1. rewrite M4. destruct (is_sleaf skl); cbn; destruct (Z.ltb_spec cr 0); auto; lia. }
               rewrite Right2. apply side_leaf; auto. rewrite V3 in XV. eapply prefix_zget; eauto.
            -- apply side_node. apply P2; auto. eapply ext_trans; eauto. }
    induction H as [leaf v Hv|c d m f thr cl cr l r il ir wl wr Hd Hc Hm Hf Ht Hl Hr Dl IHl Dr IHr|
                    c d m f thr k lo hi before words after cl cr l r il ir wl wr Hd Hc Hm Hf Ht Hk Hlo Hhi Hcat Hb Hw Hj Hsz Hl Hr Dl IHl Dr IHr].
    - exists SLeaf. apply zget_range in Hv. split; [auto|]. split; [auto|]. split; [exact I|]. split; [cbn; lia|]. split; [lia|].
      intros pos t Hp Hi Ht Hbn Hpos Hlv. exists [], t. cbn [dsize] in *. repeat split; auto; try lia.
    - destruct (describes_w _ _ _ _ _ Dl) as [Wl _].
      replace (wl + wr) with (0 + wl + wr) by lia.
      apply (NODE c f (numeric_left m (is_default_left d) thr) cl cr l r il ir wl wr 0); auto; try lia.
      + intros t n t' E. destruct (create_numerical c d m f thr cl cr t) as (n0 & E0 & Hf0 & Fl & _); auto.
        cbn [src src_create lg_source] in E. rewrite E0 in E. injection E as <- <-. apply marked_flags. auto.
      + intros t Hi Hth Hbn. destruct (create_numerical c d m f thr cl cr t) as (n0 & E0 & Hf0 & Fl & Dec); auto.
        exists n0, t. repeat split; auto; try lia; apply marked_flags; auto.
    - apply (NODE c f (category_left (f2i32 p) m (bit words)) cl cr l r il ir wl wr (zlen words)); auto.
      + intros t n t' E. cbn [src src_create lg_source] in E. unfold lg_createNode in E. cbn [a_decision arrays_of] in E.
        destruct R as (R1 & R2 & R3 & R4 & R5). pose proof (forall_zget _ _ _ _ _ R3 Hd) as Rd. cbv beta in Rd.
        pose proof (forall_zget _ _ _ _ _ R1 Hl) as Rl. pose proof (forall_zget _ _ _ _ _ R2 Hr) as Rr. cbv beta in Rl, Rr.
        rewrite (at_zget _ _ _ _ Hd) in E. cbn [bind] in E. rewrite has_1, Hc in E by lia.
        unfold lg_createCategoricalNode in E. cbn [a_decision a_feature a_threshold a_catBoundaries a_catThreshold arrays_of] in E.
        rewrite (at_zget _ _ _ _ Hd) in E. cbn [bind] in E.
        rewrite (missing_flag_cases d m) in E by (auto; lia). cbn [bind] in E.
        apply bind_ok in E. destruct E as (x1 & _ & E). apply bind_ok in E. destruct E as (x2 & _ & E). apply bind_ok in E. destruct E as (x3 & _ & E).
        apply bind_ok in E. destruct E as (ws & _ & E). apply bind_ok in E. destruct E as ([[ci ct] t2] & Ecase & E).
        apply bind_ok in E. destruct E as (x4 & _ & E). apply bind_ok in E. destruct E as (nn & En & E). injection E as <- <-.
        rewrite (mark_leaves_eq _ _ _ cl cr) in En by auto. injection En as <-. apply marked_flags. right. exists m, ct. split; [|reflexivity].
        clear - Ecase. destruct (_ =? 0); [discriminate|]. destruct (_ =? 1).
        * destruct (FirstNonZeroBit ws); inversion Ecase; auto.
        * destruct (_ =? 1).
          -- destruct (at_ _ _); simpl in Ecase; inversion Ecase; auto.
          -- inversion Ecase; auto.
      + intros t Hi Hth Hbn.
        destruct (create_categorical c d m f thr k lo hi before words after cl cr t) as (n0 & t' & E0 & Hf0 & Fl & I1 & X1 & V1 & T1 & B1 & Dec); auto.
        exists n0, t'. repeat split; auto; try apply X1; apply marked_flags; auto.
  Qed.
End Create.

Lemma lg_ignores : forall p a, ignores_nodes (lg_source p a).
Proof.
  intros p a t ns i. cbn [lg_source src_create]. unfold lg_createNode.
  destruct (at_ (a_decision a) i) as [d|m|m|]; cbn [bind]; auto. destruct (has d 1).
  - unfold lg_createCategoricalNode. cbn [tCatThresholds tCatBoundaries tree_set_nodes].
    destruct (at_ (a_decision a) i) as [d'|m|m|]; cbn [bind]; auto.
    destruct (convertMissingType d') as [mt|m|m|]; cbn [bind]; auto.
    destruct (at_ (a_threshold a) i) as [th|m|m|]; cbn [bind]; auto.
    destruct (at_ (a_catBoundaries a) (u32 (f2u32 p th + 1))) as [hi|m|m|]; cbn [bind]; auto.
    destruct (at_ (a_catBoundaries a) (f2u32 p th)) as [lo|m|m|]; cbn [bind]; auto.
    destruct (slice (a_catThreshold a) lo hi) as [ws|m|m|]; cbn [bind]; auto.
    destruct (NumberOfSetBits ws =? 0); cbn [bind]; auto.
    destruct (NumberOfSetBits ws =? 1).
    + destruct (FirstNonZeroBit ws); cbn [bind]; auto. destruct (at_ (a_feature a) i); cbn [bind]; auto.
      destruct (mark_leaves _ _ _); cbn [bind]; auto.
    + destruct (u32 (hi - lo) =? 1).
      * destruct (at_ (a_catThreshold a) lo); cbn [bind]; auto. destruct (at_ (a_feature a) i); cbn [bind]; auto.
        destruct (mark_leaves _ _ _); cbn [bind]; auto.
      * cbn [bind]. destruct (at_ (a_feature a) i); cbn [bind]; auto. destruct (mark_leaves _ _ _); cbn [bind]; auto.
  - destruct (lg_createNumericalNode a i); cbn [bind]; auto.
Qed.

Lemma describes_ids : forall i32 a c d ids w, describes i32 a c d ids w -> forall j, In j ids -> 0 <= j.
Proof.
  intros i32 a c d ids w D. induction D as [leaf v Hv|c d m f thr cl cr l r il ir wl wr Hd Hc Hm Hf Ht Hl Hr Dl IHl Dr IHr|
                    c d m f thr k lo hi before words after cl cr l r il ir wl wr Hd Hc Hm Hf Ht Hk Hlo Hhi Hcat Hb Hw Hj Hsz Hl Hr Dl IHl Dr IHr];
    intros j Hin; cbn [In] in Hin; [contradiction| |];
    (destruct Hin as [<-|Hin]; [apply zget_range in Hd; lia|apply in_app_or in Hin; destruct Hin as [Hin|Hin]; [apply (IHl j Hin)|apply (IHr j Hin)]]).
Qed.

Lemma lg_builds : forall p a num_leaves d ncat, ranged a -> 2 <= num_leaves ->
  proper (f2i32 p) num_leaves a d ->
  let t0 := tree_set_leaves (tree_set_ncat emptyTree ncat) (tt_leaf_value a) in
  forall t1, t1 = (if tt_cat_boundaries a then t0 else tree_set_cats t0 [0] []) \/ t1 = tree_set_cats t0 [0] [] ->
  exists T, build (lg_source p (arrays_of a)) (num_leaves - 1) t1 = Ok T /\ nLeaves T = dsize d + 1 /\
    forall x v id, walk d x = Some (v, id) -> predict p T x = Ok (v, id).
Proof.
  intros p a nl d ncat Ra Hnl (ids & w & D & ND & Hid & Hw & Hn & Hbl) t0 t1 Ht1.
  change (2 ^ 32) with two32 in Hbl. destruct (lays p a Ra Hbl 0 d ids w D) as (sk & S1 & S2 & S3 & S4 & S5 & S6).
  destruct (S5 ltac:(lia)) as (l & r & Esk).
  assert (In0 : forall j, In j (sids sk) -> 0 <= j < nl - 1).
  { intros j Hj. rewrite S1 in Hj. split; [|apply Hid; auto]. apply (describes_ids _ _ _ _ _ _ D j Hj). }
  assert (Sz : dsize d <= nl - 1).
  { rewrite <- S2, ssize_ids. rewrite S1 in *.
    assert (I : incl ids (zseq (nl - 1))) by (intros j Hj; apply in_zseq; auto).
    pose proof (NoDup_incl_length ND I) as L. rewrite zseq_length in L. unfold zlen. lia. }
  change (2 ^ 31) with two31 in Hn. change (2 ^ 32) with two32 in Hw.
  assert (Dp : 0 < dsize d) by (rewrite <- S2, Esk; cbn [ssize]; pose proof (ssize_nonneg l); pose proof (ssize_nonneg r); lia).
  assert (T1 : tNodes t1 = [] /\ tLeafValues t1 = tt_leaf_value a /\ tCatThresholds t1 = [] /\ cat_inv a t1 /\ zlen (tCatBoundaries t1) <= 1).
  { destruct Ht1 as [-> | ->]; unfold cat_inv; [destruct (tt_cat_boundaries a)|]; cbn; repeat split; auto; unfold zlen; cbn; try lia;
      right; exists []; reflexivity. }
  destruct T1 as (N1 & V1 & C1 & I1 & B1).
  rewrite (build_lays _ (lg_ignores p (arrays_of a)) sk 0 l r (nl - 1) t1 Esk eq_refl S3); auto; try (rewrite S1; auto); try (unfold two31, two32 in *; lia).
  destruct (S6 0 t1) as (ns & t' & E & I2 & X2 & V2 & T2 & B2 & P2); auto; try (unfold two31, two32 in *; rewrite ?C1; unfold zlen in *; cbn [List.length] in *; lia).
  unfold src in E. rewrite E. cbn [bind]. eexists. split; [reflexivity|].
  pose proof (lay_len _ _ _ _ _ _ E) as Len. split.
  { unfold nLeaves. cbn [tNodes tree_set_nodes]. rewrite Len, S2. lia. }
  intros x v id W. apply (placed_predict p _ (fun i => i) x v id d); auto.
  - apply P2; [lia| |].
    + repeat split; cbn; auto.
    + intros i n Hi. cbn. auto.
  - cbn [tNodes tree_set_nodes]. lia.
Qed.
