(** * C80 for LightGBM text models *)

From Coq Require Import ZArith List Bool String Lia ZifyBool.
From Verif Require Import Go GoFloat GoText LgTree Transformation Ensembles Leaves LgTextIO Spec_Predict Spec_Bits Spec_Split Spec_Tree Spec_LgText Spec_Params Spec_LgFile Spec_Decimal Spec_Write
  Pf_Go Pf_Words Pf_Decimal Pf_Placed Pf_LgFile Pf_LgTree Prop_Batch Prop_Values Pf_Returns Pf_Rows Prop_LgText Prop_Write Prop_WriteJson.
Local Open Scope Z_scope.

(** ** Segments of lists *)
Definition seg {A} (l : list A) (c : Z) (s : list A) : Prop := exists pre post, l = pre ++ s ++ post /\ zlen pre = c.
Lemma seg_all : forall A (l : list A), seg l 0 l.
Proof. intros A l. exists [], []. rewrite app_nil_r. split; reflexivity. Qed.
Lemma seg_head : forall A (l : list A) c x s, seg l c (x :: s) -> zget l c = Some x.
Proof. intros A l c x s (pre & post & -> & <-). apply (zget_middle _ pre x (s ++ post)). Qed.
Lemma seg_tail : forall A (l : list A) c x s, seg l c (x :: s) -> seg l (c + 1) s.
Proof. intros A l c x s (pre & post & -> & <-). exists (pre ++ [x]), post. rewrite <- app_assoc, zlen_app. split; reflexivity. Qed.
Lemma seg_left : forall A (l : list A) c s1 s2, seg l c (s1 ++ s2) -> seg l c s1.
Proof. intros A l c s1 s2 (pre & post & -> & <-). exists pre, (s2 ++ post). rewrite <- app_assoc. split; reflexivity. Qed.
Lemma seg_right : forall A (l : list A) c s1 s2, seg l c (s1 ++ s2) -> seg l (c + zlen s1) s2.
Proof. intros A l c s1 s2 (pre & post & -> & <-). exists (pre ++ s1), post. rewrite <- !app_assoc, zlen_app. split; reflexivity. Qed.

(** ** Sets of categories as words *)
Definition word_of (cats : list Z) (j : Z) : Z := fold_right Z.lor 0 (map (fun c => if c / 32 =? j then 2 ^ (c mod 32) else 0) cats).
Definition cat_words (cats : list Z) : list Z := map (word_of cats) (zseq (1 + fold_right Z.max 0 cats / 32)).
Lemma max_nonneg : forall l, 0 <= fold_right Z.max 0 l.
Proof. induction l; cbn [fold_right]; lia. Qed.
Lemma max_ge : forall l x, In x l -> x <= fold_right Z.max 0 l.
Proof. induction l as [|y l IH]; intros x I; [destruct I|]. cbn [fold_right]. destruct I as [->|I]; [lia|]. apply IH in I. lia. Qed.
Lemma max_below : forall l n, 0 < n -> Forall (fun c => 0 <= c < n) l -> fold_right Z.max 0 l < n.
Proof. intros l n Hn F. induction F; cbn [fold_right]; lia. Qed.
Lemma cat_words_len : forall cats, zlen (cat_words cats) = 1 + fold_right Z.max 0 cats / 32.
Proof.
  intros cats. unfold cat_words, zlen. rewrite map_length. change (zlen (zseq (1 + fold_right Z.max 0 cats / 32)) = 1 + fold_right Z.max 0 cats / 32). apply zseq_zlen.
  pose proof (max_nonneg cats). pose proof (Z.div_pos (fold_right Z.max 0 cats) 32). lia.
Qed.
Lemma word_of_word : forall cats j, word (word_of cats j).
Proof.
  intros cats j. unfold word_of. induction cats as [|c cats IH]; cbn [map fold_right]; [unfold word; lia|].
  set (w := fold_right Z.lor 0 _) in *. assert (X : word (if c / 32 =? j then 2 ^ (c mod 32) else 0)).
  { destruct (c / 32 =? j); [|unfold word; lia]. pose proof (Z.mod_pos_bound c 32 ltac:(lia)). unfold word. split; [apply Z.pow_nonneg; lia|apply Z.pow_lt_mono_r; lia]. }
  set (v := if c / 32 =? j then _ else _) in *. clearbody v w. unfold word in *. split; [apply Z.lor_nonneg; lia|].
  destruct (Z.eq_dec (Z.lor v w) 0) as [->|N]; [lia|]. apply Z.log2_lt_pow2; [pose proof (Z.lor_nonneg v w); lia|]. rewrite Z.log2_lor by lia.
  apply Z.max_lub_lt; [destruct (Z.eq_dec v 0) as [->|]; [cbn; lia|apply Z.log2_lt_pow2; lia]|destruct (Z.eq_dec w 0) as [->|]; [cbn; lia|apply Z.log2_lt_pow2; lia]].
Qed.
Lemma word_of_bit : forall cats j i, 0 <= i < 32 -> Z.testbit (word_of cats j) i = existsb (Z.eqb (32 * j + i)) cats.
Proof.
  intros cats j i Hi. unfold word_of. induction cats as [|c cats IH]; cbn [map fold_right existsb]; [apply Z.bits_0|]. rewrite Z.lor_spec, IH. f_equal.
  pose proof (Z.div_mod c 32 ltac:(lia)). pose proof (Z.mod_pos_bound c 32 ltac:(lia)). destruct (Z.eqb_spec (c / 32) j) as [E|E].
  - rewrite Z.pow2_bits_eqb by lia. lia.
  - rewrite Z.bits_0. lia.
Qed.
Lemma cat_words_bit : forall cats k, Forall (fun c => 0 <= c < 2 ^ 31) cats -> bit (cat_words cats) k = existsb (Z.eqb k) cats.
Proof.
  intros cats k F. unfold bit, cat_words. rewrite zget_map. pose proof (max_nonneg cats). pose proof (Z.div_pos (fold_right Z.max 0 cats) 32 ltac:(lia) ltac:(lia)).
  pose proof (Z.div_mod k 32 ltac:(lia)). pose proof (Z.mod_pos_bound k 32 ltac:(lia)).
  destruct (Z_lt_le_dec (k / 32) 0) as [Hk|Hk]; [|destruct (Z_lt_le_dec (k / 32) (1 + fold_right Z.max 0 cats / 32)) as [Hk2|Hk2]].
  - rewrite zget_none by lia. cbn [option_map]. symmetry. apply not_true_iff_false. intros E. apply existsb_exists in E. destruct E as (c & I & E). rewrite Forall_forall in F. apply F in I. lia.
  - rewrite zget_zseq by lia. cbn [option_map]. rewrite word_of_bit by lia. f_equal. f_equal. lia.
  - rewrite zget_none by (rewrite zseq_zlen by lia; lia). cbn [option_map]. symmetry. apply not_true_iff_false. intros E. apply existsb_exists in E. destruct E as (c & I & E). apply max_ge in I.
    pose proof (Z.div_le_mono c (fold_right Z.max 0 cats) 32 ltac:(lia) I). replace c with k in * by lia. lia.
Qed.

(** ** The arrays: inner nodes in preorder from [c], leaves from [lf], sets from [k], their words from [o] *)
Definition rule_sets (r : lrule) : Z := match r with LNumber _ _ _ => 0 | LCategories _ _ => 1 end.
Definition rule_words (r : lrule) : list Z := match r with LNumber _ _ _ => [] | LCategories _ cats => cat_words cats end.
Definition child (t : tree lrule bytes) (c lf : Z) : Z := match t with Leaf _ => - lf - 1 | Split _ _ _ _ => c end.
Definition missing_code (m : missing) : Z := match m with MNone => 0 | MZero => 4 | MNan => 8 end.
Definition decision_of (r : lrule) : Z :=
  match r with LNumber m dl _ => missing_code m + (if dl then 2 else 0) | LCategories m _ => missing_code m + 1 end.
Fixpoint t_left (t : tree lrule bytes) (c lf : Z) : list Z :=
  match t with Leaf _ => [] | Split _ _ l r => child l (c + 1) lf :: t_left l (c + 1) lf ++ t_left r (c + 1 + splits_in l) (lf + leaves_in l) end.
Fixpoint t_right (t : tree lrule bytes) (c lf : Z) : list Z :=
  match t with Leaf _ => [] | Split _ _ l r => child r (c + 1 + splits_in l) (lf + leaves_in l) :: t_right l (c + 1) lf ++ t_right r (c + 1 + splits_in l) (lf + leaves_in l) end.
Fixpoint t_decision (t : tree lrule bytes) : list Z := match t with Leaf _ => [] | Split _ ru l r => decision_of ru :: t_decision l ++ t_decision r end.
Fixpoint t_feature (t : tree lrule bytes) : list Z := match t with Leaf _ => [] | Split f _ l r => f :: t_feature l ++ t_feature r end.
Fixpoint t_threshold (t : tree lrule bytes) (k : Z) : list bytes :=
  match t with
  | Leaf _ => []
  | Split _ ru l r => match ru with LNumber _ _ thr => thr | LCategories _ _ => decimal k end :: t_threshold l (k + rule_sets ru) ++ t_threshold r (k + rule_sets ru + cats_in l)
  end.
Fixpoint t_words (t : tree lrule bytes) : list Z := match t with Leaf _ => [] | Split _ ru l r => rule_words ru ++ t_words l ++ t_words r end.
Fixpoint t_bounds (t : tree lrule bytes) (o : Z) : list Z :=
  match t with
  | Leaf _ => []
  | Split _ ru l r =>
      let o1 := o + zlen (rule_words ru) in
      match ru with LNumber _ _ _ => [] | LCategories _ _ => [o1] end ++ t_bounds l o1 ++ t_bounds r (o1 + zlen (t_words l))
  end.
Fixpoint t_leaves (t : tree lrule bytes) : list bytes := match t with Leaf lit => [lit] | Split _ _ l r => t_leaves l ++ t_leaves r end.
Fixpoint t_ids (t : tree lrule bytes) (c : Z) : list Z := match t with Leaf _ => [] | Split _ _ l r => c :: t_ids l (c + 1) ++ t_ids r (c + 1 + splits_in l) end.
(** what the file says: sets are bits of words *)
Definition rule_bits (p : platform) (r : lrule) : f64 -> bool :=
  match r with LNumber m dl thr => numeric_left m dl (lit_value p thr) | LCategories m cats => category_left (f2i32 p) m (bit (cat_words cats)) end.
Fixpoint t_ref (p : platform) (t : tree lrule bytes) (lf : Z) : dtree :=
  match t with Leaf lit => DLeaf lf (lit_value p lit) | Split f ru l r => DNode f (rule_bits p ru) (t_ref p l lf) (t_ref p r (lf + leaves_in l)) end.

Lemma splits_leaves : forall R V (t : tree R V), splits_in t = leaves_in t - 1.
Proof. induction t; cbn [splits_in leaves_in]; lia. Qed.
Lemma t_lengths : forall t c lf k, zlen (t_left t c lf) = splits_in t /\ zlen (t_right t c lf) = splits_in t /\ zlen (t_decision t) = splits_in t /\
  zlen (t_feature t) = splits_in t /\ zlen (t_threshold t k) = splits_in t /\ zlen (t_leaves t) = leaves_in t /\ zlen (t_words t) = words_in t.
Proof.
  induction t as [lit|f ru l IHl r IHr]; intros c lf k; cbn [t_left t_right t_decision t_feature t_threshold t_leaves t_words splits_in leaves_in words_in]; [repeat split; reflexivity|].
  destruct (IHl (c + 1) lf (k + rule_sets ru)) as (A1 & A2 & A3 & A4 & A5 & A6 & A7). destruct (IHr (c + 1 + splits_in l) (lf + leaves_in l) (k + rule_sets ru + cats_in l)) as (B1 & B2 & B3 & B4 & B5 & B6 & B7).
  repeat split; rewrite ?zlen_cons, ?zlen_app; try lia. destruct ru; cbn [rule_words]; [rewrite zlen_nil; lia|rewrite cat_words_len; lia].
Qed.
Lemma t_bounds_len : forall t o, zlen (t_bounds t o) = cats_in t.
Proof.
  induction t as [lit|f ru l IHl r IHr]; intros o; cbn [t_bounds cats_in]; [reflexivity|]. rewrite !zlen_app, IHl, IHr. destruct ru; [rewrite zlen_nil; lia|rewrite zlen_cons, zlen_nil; lia].
Qed.
(** after the sets of [t] come the others *)
Lemma bounds_end : forall B t k o rest, seg B k (o :: t_bounds t o ++ rest) -> seg B (k + cats_in t) (o + zlen (t_words t) :: rest).
Proof.
  intros B. induction t as [lit|f ru l IHl r IHr]; intros k o rest H; cbn [t_bounds cats_in t_words] in *.
  - cbn [app] in H. rewrite zlen_nil, !Z.add_0_r. exact H.
  - rewrite !zlen_app. destruct ru as [m dl thr|m cats]; cbn [rule_words] in *.
    + rewrite zlen_nil, Z.add_0_r in H. cbn [app] in H. rewrite <- app_assoc in H. apply IHl in H. apply IHr in H.
      replace (k + (0 + cats_in l + cats_in r)) with (k + cats_in l + cats_in r) by lia. rewrite zlen_nil. replace (o + (0 + (zlen (t_words l) + zlen (t_words r)))) with (o + zlen (t_words l) + zlen (t_words r)) by lia. exact H.
    + cbn [app] in H. apply seg_tail in H. rewrite <- app_assoc in H. apply IHl in H. apply IHr in H.
      replace (k + (1 + cats_in l + cats_in r)) with (k + 1 + cats_in l + cats_in r) by lia.
      replace (o + (zlen (cat_words cats) + (zlen (t_words l) + zlen (t_words r)))) with (o + zlen (cat_words cats) + zlen (t_words l) + zlen (t_words r)) by lia. exact H.
Qed.

(** strconv.ParseFloat reads small integers exactly *)
Definition reads_indices (p : platform) : Prop := forall z, 0 <= z < 2 ^ 32 -> exists v, pl_parse_float p (decimal z) = Some v /\ trunc v = Some z.
(** visible characters other than the equals sign *)
Definition visible (b : byte) : Prop := 33 <= byteZ b <= 126 /\ b <> eqc.
Definition token_ok (p : platform) (lit : bytes) : Prop := lit <> [] /\ Forall visible lit /\ exists v, pl_parse_float p lit = Some v.
Definition trule_ok (p : platform) (r : lrule) : Prop :=
  match r with LNumber _ _ thr => token_ok p thr | LCategories _ cats => cats <> [] /\ Forall (fun c => 0 <= c < 2 ^ 31) cats end.

Lemma decision_numerical : forall m dl thr, is_categorical (decision_of (LNumber m dl thr)) = false /\ missing_type (decision_of (LNumber m dl thr)) = Some m /\ is_default_left (decision_of (LNumber m dl thr)) = dl.
Proof. intros [| |] [|] thr; vm_compute; auto. Qed.
Lemma decision_categorical : forall m cats, is_categorical (decision_of (LCategories m cats)) = true /\ missing_type (decision_of (LCategories m cats)) = Some m.
Proof. intros [| |] cats; vm_compute; auto. Qed.
Lemma decision_range : forall r, 0 <= decision_of r < 2 ^ 32.
Proof. intros [[| |] [|] thr|[| |] cats]; cbn; lia. Qed.

Section Text.
  Variables (p : platform) (features : Z).
  Hypothesis indices : reads_indices p.
  Hypothesis Hfeatures : 1 <= features <= 2 ^ 32.
  Notation good := (made_of features (trule_ok p) (token_ok p)).

  Lemma t_described : forall a t c lf k o, good t -> 0 <= k -> k + cats_in t <= 2 ^ 32 ->
    seg (tt_left a) c (t_left t c lf) -> seg (tt_right a) c (t_right t c lf) -> seg (tt_decision a) c (t_decision t) -> seg (tt_feature a) c (t_feature t) ->
    seg (tt_threshold a) c (map (lit_value p) (t_threshold t k)) -> seg (tt_leaf_value a) lf (map (lit_value p) (t_leaves t)) ->
    (0 < cats_in t -> seg (tt_cat_boundaries a) k (o :: t_bounds t o)) -> (0 < cats_in t -> seg (tt_cat_threshold a) o (t_words t)) ->
    describes (f2i32 p) a (child t c lf) (t_ref p t lf) (t_ids t c) (words_in t).
  Proof.
    intros a. induction t as [lit|f ru l IHl r IHr]; intros c lf k o M Hk Hk2 SL SR SD SF ST SV SB SW.
    - cbn [child t_ref t_ids words_in]. apply desc_leaf. apply (seg_head _ _ _ _ _ SV).
    - cbn [made_of child t_ref t_ids words_in cats_in t_left t_right t_decision t_feature t_threshold t_leaves t_words t_bounds map] in *. destruct M as (Hf & Hr & Ml & Mr).
      pose proof (words_pos _ l) as Wl. pose proof (words_pos _ r) as Wr.
      destruct (t_lengths l (c + 1) lf (k + rule_sets ru)) as (A1 & A2 & A3 & A4 & A5 & A6 & A7).
      change (match ru with LNumber _ _ _ => 0 | LCategories _ _ => 1 end) with (rule_sets ru) in *.
      assert (RS : 0 <= rule_sets ru <= 1) by (destruct ru; cbn; lia).
      pose proof (seg_head _ _ _ _ _ SL) as GL. pose proof (seg_head _ _ _ _ _ SR) as GR. pose proof (seg_head _ _ _ _ _ SD) as GD. pose proof (seg_head _ _ _ _ _ SF) as GF. pose proof (seg_head _ _ _ _ _ ST) as GT.
      apply seg_tail in SL, SR, SD, SF, ST. rewrite map_app in ST, SV.
      assert (Dl : describes (f2i32 p) a (child l (c + 1) lf) (t_ref p l lf) (t_ids l (c + 1)) (words_in l)).
      { apply (IHl (c + 1) lf (k + rule_sets ru) (o + zlen (rule_words ru))); [exact Ml|lia|lia|eapply seg_left; eassumption..| |].
        - intros Hc. specialize (SB ltac:(lia)). destruct ru as [m dl thr|m cats]; cbn [rule_sets rule_words app] in *.
          + rewrite zlen_nil, Z.add_0_r in *. rewrite Z.add_0_r. apply (seg_left _ _ _ (o :: t_bounds l o) _ SB).
          + apply seg_tail in SB. apply (seg_left _ _ _ (o + zlen (cat_words cats) :: t_bounds l (o + zlen (cat_words cats))) _ SB).
        - intros Hc. specialize (SW ltac:(lia)). apply seg_right in SW. apply seg_left in SW. exact SW. }
      assert (Dr : describes (f2i32 p) a (child r (c + 1 + splits_in l) (lf + leaves_in l)) (t_ref p r (lf + leaves_in l)) (t_ids r (c + 1 + splits_in l)) (words_in r)).
      { apply (IHr (c + 1 + splits_in l) (lf + leaves_in l) (k + rule_sets ru + cats_in l) (o + zlen (rule_words ru) + zlen (t_words l))); [exact Mr|lia|lia|..].
        - rewrite <- A1 at 1. eapply seg_right; exact SL.
        - rewrite <- A2 at 1. eapply seg_right; exact SR.
        - rewrite <- A3 at 1. eapply seg_right; exact SD.
        - rewrite <- A4 at 1. eapply seg_right; exact SF.
        - apply seg_right in ST. replace (zlen (map (lit_value p) (t_threshold l (k + rule_sets ru)))) with (splits_in l) in ST by (rewrite <- A5; unfold zlen; rewrite map_length; reflexivity). exact ST.
        - apply seg_right in SV. replace (zlen (map (lit_value p) (t_leaves l))) with (leaves_in l) in SV by (rewrite <- A6; unfold zlen; rewrite map_length; reflexivity). exact SV.
        - intros Hc. specialize (SB ltac:(lia)). destruct ru as [m dl thr|m cats]; cbn [rule_sets rule_words app] in *.
          + rewrite zlen_nil, !Z.add_0_r in *. rewrite app_comm_cons in SB. apply (bounds_end _ l k o _ SB).
          + apply seg_tail in SB. apply (bounds_end _ l (k + 1) (o + zlen (cat_words cats)) _ SB).
        - intros Hc. specialize (SW ltac:(lia)). apply seg_right in SW. apply seg_right in SW. exact SW. }
      destruct ru as [m dl thr|m cats].
      + destruct (decision_numerical m dl thr) as (C1 & C2 & C3). cbn [rule_bits]. rewrite <- C3. cbn [Z.add].
        eapply desc_numerical; [exact GD|exact C1|exact C2|exact GF|exact GT|exact GL|exact GR|exact Dl|exact Dr].
      + destruct (decision_categorical m cats) as (C1 & C2). cbn [rule_bits rule_words rule_sets trule_ok] in *. destruct Hr as [N F].
        specialize (SB ltac:(lia)). specialize (SW ltac:(lia)). destruct (indices k ltac:(lia)) as (v & Ev & Tv).
        assert (LV : lit_value p (decimal k) = v) by (unfold lit_value; rewrite Ev; reflexivity). rewrite LV in GT.
        pose proof (seg_left _ _ _ _ _ SW) as (before & after & EW & LB).
        rewrite <- (cat_words_len cats).
        eapply desc_categorical with (k := k) (lo := o) (hi := o + zlen (cat_words cats)) (before := before) (after := after);
          [exact GD|exact C1|exact C2|exact GF|exact GT|exact Tv| | |exact EW|exact LB|lia| | |exact GL|exact GR|exact Dl|exact Dr].
        * exact (seg_head _ _ _ _ _ SB).
        * apply seg_tail in SB. exact (seg_head _ _ _ _ _ SB).
        * destruct cats as [|c0 cats]; [congruence|]. exists c0. split; [inversion F; lia|]. rewrite cat_words_bit by exact F. cbn [existsb]. rewrite Z.eqb_refl. reflexivity.
        * rewrite cat_words_len. pose proof (max_below cats (2 ^ 31) ltac:(lia) F) as MB. assert (fold_right Z.max 0 cats / 32 < 2 ^ 26) by (apply Z.div_lt_upper_bound; lia). lia.
  Qed.
  Lemma t_ids_ok : forall (t : tree lrule bytes) c, NoDup (t_ids t c) /\ forall i, In i (t_ids t c) -> c <= i < c + splits_in t.
  Proof.
    induction t as [lit|f ru l IHl r IHr]; intros c; cbn [t_ids splits_in]; [split; [constructor|intros i []]|].
    destruct (IHl (c + 1)) as [Nl Rl]. destruct (IHr (c + 1 + splits_in l)) as [Nr Rr]. pose proof (splits_leaves _ _ l). pose proof (splits_leaves _ _ r). pose proof (leaves_pos _ _ l). pose proof (leaves_pos _ _ r).
    split.
    - constructor.
      + intros I. apply in_app_or in I. destruct I as [I|I]; [apply Rl in I|apply Rr in I]; lia.
      + apply Pf_SkTree.nodup_join; auto. intros i I J. apply Rl in I. apply Rr in J. lia.
    - intros i [<-|I]; [lia|]. apply in_app_or in I. destruct I as [I|I]; [apply Rl in I|apply Rr in I]; lia.
  Qed.
  Lemma t_walks : forall t lf x, good t -> exists id, walk (t_ref p t lf) x = option_map (fun v => (v, id)) (value_of (lrule_left p) (lit_value p) t x).
  Proof.
    induction t as [lit|f ru l IHl r IHr]; intros lf x M; cbn [t_ref walk value_of made_of] in *; [exists lf; reflexivity|]. destruct M as (Hf & Hr & Ml & Mr).
    destruct (zget x f) as [z|]; [|exists 0; reflexivity].
    assert (E : rule_bits p ru z = lrule_left p ru z).
    { destruct ru as [m dl thr|m cats]; [reflexivity|]. destruct Hr as [_ F]. cbn [rule_bits lrule_left]. unfold category_left. rewrite !cat_words_bit by exact F. reflexivity. }
    rewrite E. destruct (lrule_left p ru z); auto.
  Qed.
  Lemma t_below : forall n t lf, good t -> features <= n -> features_below n (t_ref p t lf).
  Proof. induction t as [lit|f r l IHl r' IHr]; intros lf M L; cbn [t_ref features_below made_of] in *; [exact I|]. destruct M as (Hf & _ & Ml & Mr). split; [lia|auto]. Qed.
End Text.

(** ** Lines *)
Definition shown (b : byte) : Prop := b = sp \/ visible b.
Definition value_ok (v : bytes) : Prop := Forall shown v /\ (v = [] \/ exists v' c, v = v' ++ [c] /\ visible c).
Definition key_ok (k : bytes) : Prop := k <> [] /\ Forall visible k.
Definition line_of (kv : bytes * bytes) : bytes := fst kv ++ eqc :: snd kv.
Definition sjoin (l : list bytes) : bytes := match l with [] => [] | t :: ts => t ++ flat_map (fun t => sp :: t) ts end.

Lemma visible_bytes : forall b, visible b -> b <> sp /\ b <> nl /\ b <> eqc.
Proof. intros b [H N]. split; [|split; [|exact N]]; intros ->; revert H; vm_compute; intuition. Qed.
Lemma white_ends : forall w, white_char w -> exists a w' c w'', w = a :: w' /\ w = w'' ++ [c] /\ ~ 33 <= byteZ a <= 126 /\ ~ 33 <= byteZ c <= 126.
Proof.
  intros w (code & W & U). destruct U as [a H|a b code Ha Hb|a b c code Ha Hb Hc|a b c d code Ha Hb Hc Hd]; unfold white_code, continues in *.
  - exists a, [], a, []. repeat split; auto; lia.
  - exists a, [b], b, [a]. repeat split; auto; lia.
  - exists a, [b; c], c, [a; b]. repeat split; auto; lia.
  - exists a, [b; c; d], d, [a; b; c]. repeat split; auto; lia.
Qed.
Lemma blank_nil : blank [].
Proof. exists []. split; [constructor|reflexivity]. Qed.
Lemma visible_start : forall a s, 33 <= byteZ a <= 126 -> ~ blank (a :: s).
Proof. intros a s H (ws & F & E). destruct F as [|w ws Hw F]; [discriminate|]. destruct (white_ends w Hw) as (a' & w' & _ & _ & -> & _ & N & _). cbn in E. injection E as -> _. contradiction. Qed.
Lemma visible_trimmed : forall s a s' s'' c, s = a :: s' -> s = s'' ++ [c] -> 33 <= byteZ a <= 126 -> 33 <= byteZ c <= 126 -> trimmed s s.
Proof.
  intros s a s' s'' c E1 E2 Ha Hc. exists [], []. split; [apply blank_nil|]. split; [apply blank_nil|]. split; [rewrite app_nil_r; reflexivity|]. intros w r W. destruct (white_ends w W) as (a' & w' & c' & w'' & F1 & F2 & N1 & N2). split; intros E.
  - rewrite F1, E1 in E. injection E as -> _. contradiction.
  - rewrite F2, E2, app_assoc in E. apply app_inj_tail in E. destruct E as [_ ->]. contradiction.
Qed.
Lemma line_ok : forall k v, key_ok k -> value_ok v -> line_says (line_of (k, v)) (k, v) /\ Spec_Params.one_line (line_of (k, v)) /\ ~ blank (line_of (k, v)).
Proof.
  intros k v [N K] [V E]. unfold line_of. cbn [fst snd]. destruct k as [|a k]; [congruence|]. inversion K as [|? ? Ka Kk]; subst. destruct Ka as [Ka Ka'].
  assert (Eq : 33 <= byteZ eqc <= 126) by (vm_compute; split; discriminate). split; [|split].
  - apply says_pair.
    + destruct E as [->|(v' & c & -> & [Hc _])]; [apply (visible_trimmed _ a (k ++ [eqc]) (a :: k) eqc); [reflexivity|reflexivity|exact Ka|exact Eq]|apply (visible_trimmed _ a (k ++ eqc :: v' ++ [c]) ((a :: k) ++ eqc :: v') c); [reflexivity|rewrite <- app_assoc; reflexivity|exact Ka|exact Hc]].
    + intros I. rewrite Forall_forall in K. apply K in I. destruct I as [_ I]. apply I. reflexivity.
    + intros I. rewrite Forall_forall in V. apply V in I. destruct I as [I|[_ I]]; [discriminate I|apply I; reflexivity].
  - intros I. apply in_app_or in I. rewrite Forall_forall in K, V. destruct I as [I|[I|I]]; [apply K in I; apply visible_bytes in I; destruct I as (_ & I & _); apply I; reflexivity|discriminate I|].
    apply V in I. destruct I as [I|I]; [discriminate I|]. apply visible_bytes in I. destruct I as (_ & I & _). apply I. reflexivity.
  - apply visible_start. exact Ka.
Qed.
(** lines, closed by an empty one *)
Definition block_of (kvs : list (bytes * bytes)) : bytes := unlines (map line_of kvs) ++ [nl].
Lemma block_says : forall eof kvs rest, kvs <> [] -> Forall (fun kv => key_ok (fst kv) /\ value_ok (snd kv)) kvs -> block eof (block_of kvs ++ rest) kvs rest.
Proof.
  intros eof kvs rest N F. unfold block_of. rewrite <- app_assoc. apply (block_blank eof (map line_of kvs) kvs [] rest).
  - destruct kvs; [congruence|discriminate].
  - apply Forall_forall. intros l I. apply in_map_iff in I. destruct I as ([k v] & <- & I). rewrite Forall_forall in F. destruct (F _ I). apply line_ok; assumption.
  - intros [].
  - clear N. induction F as [|[k v] kvs [K V] F IH]; cbn [map]; constructor; [apply line_ok; assumption|exact IH].
  - destruct kvs as [|kv kvs]; [constructor|]. cbn [map tl]. inversion F; subst. apply Forall_forall. intros l I. apply in_map_iff in I. destruct I as ([k v] & <- & I).
    match goal with H : Forall _ kvs |- _ => rewrite Forall_forall in H; destruct (H _ I) end. apply line_ok; assumption.
  - apply blank_nil.
Qed.

(** ** Values *)
Lemma sjoin_parts : forall l, l <> [] -> Forall (fun t => Forall visible t) l -> parts sp (sjoin l) l.
Proof.
  intros l N F. split; [exact N|]. split; [|reflexivity]. eapply Forall_impl; [|exact F]. intros t Ft I. rewrite Forall_forall in Ft. apply Ft in I. apply visible_bytes in I. destruct I as (I & _). apply I. reflexivity.
Qed.
Lemma sjoin_shown : forall l, Forall (fun t => Forall visible t) l -> Forall shown (sjoin l).
Proof.
  assert (S : forall t, Forall visible t -> Forall shown t) by (intros t F; eapply Forall_impl; [|exact F]; intros b H; right; exact H).
  intros l F. destruct l as [|t l]; [constructor|]. inversion F; subst. cbn [sjoin]. apply Forall_app. split; [auto|].
  match goal with H : Forall _ l |- _ => induction H as [|t' l Ht' Hl IH] end; cbn [flat_map]; [constructor|]. apply Forall_app. inversion F; subst. split; [constructor; [left; reflexivity|auto]|]. apply IH. constructor; [assumption|]. inversion H3; assumption.
Qed.
Lemma sjoin_last : forall l t, sjoin (l ++ [t]) = match l with [] => t | _ => sjoin l ++ sp :: t end.
Proof.
  intros l t. destruct l as [|u l]; cbn [app sjoin flat_map]; [rewrite app_nil_r; reflexivity|]. rewrite flat_map_app. cbn [flat_map]. rewrite app_nil_r, app_assoc. reflexivity.
Qed.
Lemma sjoin_ok : forall l, Forall (fun t => t <> [] /\ Forall visible t) l -> value_ok (sjoin l).
Proof.
  intros l F. split; [apply sjoin_shown; eapply Forall_impl; [|exact F]; intros t H; apply H|].
  destruct l as [|u l] using rev_ind; [left; reflexivity|]. right. clear IHl. apply Forall_app in F. destruct F as [_ F]. inversion F as [|? ? [N V] _]; subst.
  destruct u as [|c u] using rev_ind; [congruence|]. clear IHu. apply Forall_app in V. destruct V as [_ V]. inversion V; subst. rewrite sjoin_last. destruct l as [|b0 l]; [exists u, c; auto|].
  exists (sjoin (b0 :: l) ++ sp :: u), c. split; [rewrite <- app_assoc; reflexivity|assumption].
Qed.
Lemma decimal_token : forall z, decimal z <> [] /\ Forall visible (decimal z).
Proof.
  intros z. split; [unfold decimal; destruct (z <? 0); [discriminate|unfold decimal_nat; apply digits_of_nonempty; lia]|]. apply Forall_forall. intros b I. apply decimal_bytes in I. destruct I as [->|(d & Hd & ->)].
  - split; [vm_compute; split; discriminate|discriminate].
  - split; [rewrite digit_byte by exact Hd; lia|]. apply digit_not; [exact Hd|]. vm_compute. intros [_ H]. apply H. reflexivity.
Qed.
Lemma decimals_tokens : forall l, Forall (fun t => t <> [] /\ Forall visible t) (map decimal l).
Proof. intros l. apply Forall_forall. intros t I. apply in_map_iff in I. destruct I as (z & <- & _). apply decimal_token. Qed.
Lemma decimal_value : forall z, value_ok (decimal z).
Proof. intros z. pose proof (sjoin_ok [decimal z]) as H. cbn [sjoin flat_map] in H. rewrite app_nil_r in H. apply H. constructor; [apply decimal_token|constructor]. Qed.

(** ** The block of a tree *)
Definition t_kvs (t : tree lrule bytes) : list (bytes * bytes) :=
  [(bs "num_leaves", decimal (leaves_in t)); (bs "num_cat", decimal (cats_in t));
   (bs "split_feature", sjoin (map decimal (t_feature t))); (bs "threshold", sjoin (t_threshold t 0)); (bs "decision_type", sjoin (map decimal (t_decision t)));
   (bs "left_child", sjoin (map decimal (t_left t 0 0))); (bs "right_child", sjoin (map decimal (t_right t 0 0))); (bs "leaf_value", sjoin (t_leaves t));
   (bs "cat_boundaries", sjoin (map decimal (0 :: t_bounds t 0))); (bs "cat_threshold", sjoin (map decimal (t_words t)))].
Definition visibleb (b : byte) : bool := (33 <=? byteZ b) && (byteZ b <=? 126) && negb (byteZ b =? 61).
Lemma key_check : forall k, match k with [] => false | _ => forallb visibleb k end = true -> key_ok k.
Proof.
  intros k H. destruct k as [|a k]; [discriminate|]. split; [discriminate|]. apply Forall_forall. intros b I. rewrite forallb_forall in H. specialize (H b I). unfold visibleb in H. split; [lia|].
  intros ->. change (byteZ eqc) with 61 in H. lia.
Qed.

Section Block.
  Variables (p : platform) (features : Z).
  Hypothesis indices : reads_indices p.
  Hypothesis Hfeatures : 1 <= features <= 2 ^ 32.
  Notation good := (made_of features (trule_ok p) (token_ok p)).

  Lemma leaves_tokens : forall t, good t -> Forall (token_ok p) (t_leaves t).
  Proof. induction t as [lit|f ru l IHl r IHr]; intros M; cbn [made_of t_leaves] in *; [constructor; [exact M|constructor]|]. apply Forall_app. split; [apply IHl|apply IHr]; apply M. Qed.
  Lemma thresholds_tokens : forall t k, good t -> 0 <= k -> k + cats_in t <= 2 ^ 32 -> Forall (token_ok p) (t_threshold t k).
  Proof.
    induction t as [lit|f ru l IHl r IHr]; intros k M H0 H1; cbn [made_of t_threshold cats_in] in *; [constructor|]. destruct M as (Hf & Hr & Ml & Mr).
    pose proof (words_pos _ l). pose proof (words_pos _ r). assert (RS : 0 <= rule_sets ru <= 1) by (destruct ru; cbn; lia).
    change (match ru with LNumber _ _ _ => 0 | LCategories _ _ => 1 end) with (rule_sets ru) in *. constructor; [|apply Forall_app; split; [apply IHl|apply IHr]; auto; lia].
    destruct ru as [m dl thr|m cats]; [exact Hr|]. cbn [rule_sets] in *. destruct (indices k ltac:(lia)) as (v & E & _). destruct (decimal_token k). split; [assumption|]. split; [assumption|]. exists v. exact E.
  Qed.
  Lemma tokens_read : forall l, Forall (token_ok p) l -> Forall2 (fun s x => pl_parse_float p s = Some x) l (map (lit_value p) l).
  Proof. intros l F. induction F as [|t l (_ & _ & v & E) F IH]; cbn [map]; constructor; [|exact IH]. unfold lit_value. rewrite E. reflexivity. Qed.
  Lemma token_weak : forall l, Forall (token_ok p) l -> Forall (fun t => t <> [] /\ Forall visible t) l.
  Proof. intros l F. eapply Forall_impl; [|exact F]. intros t (A & B & _). auto. Qed.

  Lemma t_kvs_ok : forall t, good t -> cats_in t <= 2 ^ 32 -> Forall (fun kv => key_ok (fst kv) /\ value_ok (snd kv)) (t_kvs t).
  Proof.
    intros t M C. pose proof (token_weak _ (leaves_tokens t M)). pose proof (token_weak _ (thresholds_tokens t 0 M ltac:(lia) ltac:(lia))).
    unfold t_kvs. repeat (apply Forall_cons; [split; [apply key_check; reflexivity|cbn [snd]; first [apply decimal_value|apply sjoin_ok; first [apply decimals_tokens|assumption]]]|]). apply Forall_nil.
  Qed.
  Definition t_text (t : tree lrule bytes) : text_tree :=
    mkText (t_left t 0 0) (t_right t 0 0) (t_decision t) (t_feature t) (map (lit_value p) (t_threshold t 0))
      (if 0 <? cats_in t then t_words t else []) (if 0 <? cats_in t then 0 :: t_bounds t 0 else []) (map (lit_value p) (t_leaves t)).

  Lemma decimals_list : forall A kvs key (reads : bytes -> A -> Prop) (f : A -> bytes) l, last_value kvs key = Some (sjoin (map f l)) -> l <> [] ->
    (forall x, In x l -> reads (f x) x /\ Forall visible (f x)) -> lists kvs key reads l.
  Proof.
    intros A kvs key reads f l E N R. exists (sjoin (map f l)), (map f l). split; [exact E|]. split.
    - apply sjoin_parts; [destruct l; [congruence|discriminate]|]. apply Forall_forall. intros t I. apply in_map_iff in I. destruct I as (x & <- & I). apply R. exact I.
    - clear E N. induction l as [|x l IH]; cbn [map]; constructor; [apply R; left; reflexivity|]. apply IH. intros y I. apply R. right. exact I.
  Qed.
  Lemma tokens_list : forall kvs key l, last_value kvs key = Some (sjoin l) -> l <> [] -> Forall (token_ok p) l -> lists kvs key (fun s x => pl_parse_float p s = Some x) (map (lit_value p) l).
  Proof.
    intros kvs key l E N F. exists (sjoin l), l. split; [exact E|]. split; [|apply tokens_read; exact F]. apply sjoin_parts; [exact N|]. eapply Forall_impl; [|exact F]. intros t H. apply H.
  Qed.
  Lemma nonempty : forall A (l : list A), 1 <= zlen l -> l <> [].
  Proof. intros A l H ->. rewrite zlen_nil in H. lia. Qed.

  Lemma children_range : forall t c lf, 0 <= c -> 0 <= lf -> c + splits_in t < 2 ^ 31 -> lf + leaves_in t <= 2 ^ 31 ->
    forall z, In z (t_left t c lf) \/ In z (t_right t c lf) -> - 2 ^ 31 <= z < 2 ^ 31.
  Proof.
    induction t as [lit|f ru l IHl r IHr]; intros c lf H1 H2 H3 H4 z; cbn [t_left t_right splits_in leaves_in] in *; [intros [[]|[]]|].
    pose proof (splits_leaves _ _ l). pose proof (splits_leaves _ _ r). pose proof (leaves_pos _ _ l). pose proof (leaves_pos _ _ r).
    assert (Cl : - 2 ^ 31 <= child l (c + 1) lf < 2 ^ 31) by (destruct l; cbn [child splits_in leaves_in] in *; lia).
    assert (Cr : - 2 ^ 31 <= child r (c + 1 + splits_in l) (lf + leaves_in l) < 2 ^ 31) by (destruct r; cbn [child splits_in leaves_in] in *; lia).
    specialize (IHl (c + 1) lf ltac:(lia) ltac:(lia) ltac:(lia) ltac:(lia) z). specialize (IHr (c + 1 + splits_in l) (lf + leaves_in l) ltac:(lia) ltac:(lia) ltac:(lia) ltac:(lia) z).
    intros [[<-|I]|[<-|I]]; try assumption; apply in_app_or in I; destruct I; auto.
  Qed.
  Lemma features_range : forall t, good t -> forall z, In z (t_feature t) -> 0 <= z < 2 ^ 32.
  Proof. induction t as [lit|f ru l IHl r IHr]; intros M z I; cbn [t_feature made_of] in *; [destruct I|]. destruct M as (Hf & _ & Ml & Mr). destruct I as [<-|I]; [lia|]. apply in_app_or in I. destruct I; auto. Qed.
  Lemma decisions_range : forall t z, In z (t_decision t) -> 0 <= z < 2 ^ 32.
  Proof. induction t as [lit|f ru l IHl r IHr]; intros z I; cbn [t_decision] in *; [destruct I|]. destruct I as [<-|I]; [apply decision_range|]. apply in_app_or in I. destruct I; auto. Qed.
  Lemma words_range : forall t z, In z (t_words t) -> 0 <= z < 2 ^ 32.
  Proof.
    induction t as [lit|f ru l IHl r IHr]; intros z I; cbn [t_words] in *; [destruct I|]. apply in_app_or in I. destruct I as [I|I]; [|apply in_app_or in I; destruct I; auto].
    destruct ru as [m dl thr|m cats]; cbn [rule_words] in I; [destruct I|]. apply in_map_iff in I. destruct I as (j & <- & _). apply word_of_word.
  Qed.
  Lemma bounds_range : forall t o z, 0 <= o -> In z (t_bounds t o) -> 0 <= z <= o + words_in t.
  Proof.
    induction t as [lit|f ru l IHl r IHr]; intros o z Ho I; cbn [t_bounds words_in] in *; [destruct I|].
    destruct (t_lengths l 0 0 0) as (_ & _ & _ & _ & _ & _ & W1). pose proof (words_pos _ l). pose proof (words_pos _ r).
    assert (E : zlen (rule_words ru) = match ru with LNumber _ _ _ => 0 | LCategories _ cats => 1 + fold_right Z.max 0 cats / 32 end) by (destruct ru; [reflexivity|apply cat_words_len]).
    rewrite <- E in *. pose proof (zlen_nonneg _ (rule_words ru)). rewrite W1 in *. apply in_app_or in I. destruct I as [I|I].
    - destruct ru; [destruct I|]. destruct I as [<-|[]]. lia.
    - apply in_app_or in I. destruct I as [I|I]; [apply IHl in I|apply IHr in I]; lia.
  Qed.

  (** small enough for the loader *)
  Definition t_small (t : tree lrule bytes) : Prop := good t /\ leaves_in t <= 2 ^ 31 /\ leaves_in t - 1 <= pl_maxalloc p /\ words_in t < 2 ^ 32.

  Lemma t_says : forall t, t_small t -> tree_says (pl_parse_float p) (f2i32 p) (t_kvs t) (leaves_in t) (t_ref p t 0).
  Proof.
    intros t (M & L & _ & W). pose proof (words_pos _ t) as WP. pose proof (leaves_pos _ _ t) as LP. pose proof (splits_leaves _ _ t) as SL.
    destruct (t_lengths t 0 0 0) as (A1 & A2 & A3 & A4 & A5 & A6 & A7). pose proof (t_bounds_len t 0) as A8.
    exists (cats_in t), (t_text t). split.
    - split; [exists (decimal (leaves_in t)); split; [reflexivity|apply int64_decimal; lia]|]. split; [exists (decimal (cats_in t)); split; [reflexivity|apply int64_decimal; lia]|].
      split; [apply tokens_list; [reflexivity|apply nonempty; lia|apply leaves_tokens; exact M]|]. intros H2. cbn [t_text tt_left tt_right tt_decision tt_feature tt_threshold tt_cat_threshold tt_cat_boundaries].
      assert (V : forall z, Forall visible (decimal z)) by (intros z; apply decimal_token).
      split; [apply decimals_list with (f := decimal); [reflexivity|apply nonempty; lia|]|].
      { intros z I. split; [|apply V]. apply int32_decimal. apply (children_range t 0 0); auto; lia. }
      split; [apply decimals_list with (f := decimal); [reflexivity|apply nonempty; lia|]|].
      { intros z I. split; [|apply V]. apply int32_decimal. apply (children_range t 0 0); auto; lia. }
      split; [apply decimals_list with (f := decimal); [reflexivity|apply nonempty; lia|]|].
      { intros z I. split; [|apply V]. apply uint32_decimal. eapply decisions_range; exact I. }
      split; [apply decimals_list with (f := decimal); [reflexivity|apply nonempty; lia|]|].
      { intros z I. split; [|apply V]. apply uint32_decimal. eapply features_range; [exact M|exact I]. }
      split; [apply tokens_list; [reflexivity|apply nonempty; lia|apply thresholds_tokens; [exact M|lia|lia]]|].
      destruct (0 <? cats_in t) eqn:C; [|split; reflexivity]. split.
      + apply decimals_list with (f := decimal); [reflexivity|apply nonempty; lia|]. intros z I. split; [|apply V]. apply uint32_decimal. eapply words_range; exact I.
      + apply decimals_list with (f := decimal); [reflexivity|discriminate|]. intros z I. split; [|apply V]. apply uint32_decimal. destruct I as [<-|I]; [lia|]. apply bounds_range in I; lia.
    - destruct t as [lit|f ru l r].
      + left. split; [reflexivity|]. exists (lit_value p lit), []. split; reflexivity.
      + right. pose proof (leaves_pos _ _ l). pose proof (leaves_pos _ _ r). split; [cbn [leaves_in]; lia|]. set (t := Split f ru l r) in *.
        exists (t_ids t 0), (words_in t). destruct (t_ids_ok t 0) as [N R].
        split; [|split; [exact N|split; [intros i I; apply R in I; lia|split; [exact W|split; [exact L|]]]]].
        * change 0 with (child t 0 0) at 1. apply (t_described p features indices (t_text t) t 0 0 0 0); try apply seg_all; auto; try lia.
          -- intros C. cbn [t_text tt_cat_boundaries]. replace (0 <? cats_in t) with true by lia. apply seg_all.
          -- intros C. cbn [t_text tt_cat_threshold]. replace (0 <? cats_in t) with true by lia. apply seg_all.
        * cbn [t_text tt_cat_boundaries]. destruct (0 <? cats_in t); [rewrite zlen_cons; lia|rewrite zlen_nil; lia].
  Qed.
End Block.

(** ** The file *)
Lemma Forall2_len : forall A B (R : A -> B -> Prop) a b, Forall2 R a b -> List.length a = List.length b.
Proof. intros A B R a b H. induction H; cbn [List.length]; congruence. Qed.
Definition t_header (features groups : Z) (average : bool) (objective : bytes) (ts : list (tree lrule bytes)) : list (bytes * bytes) :=
  [(bs "version", bs "v2"); (bs "num_class", decimal groups); (bs "num_tree_per_iteration", decimal groups); (bs "max_feature_idx", decimal (features - 1));
   (bs "tree_sizes", sjoin (map (fun _ => bs "0") ts)); (bs "objective", objective)] ++ if average then [(bs "average_output", [])] else [].
Definition t_file (features groups : Z) (average : bool) (objective : bytes) (ts : list (tree lrule bytes)) : bytes :=
  block_of (t_header features groups average objective ts) ++ List.concat (map (fun t => block_of (t_kvs t)) ts).

Lemma t_file_says : forall p features groups average objective ts tr load rest eof,
  reads_indices p -> 1 <= features <= 2 ^ 32 -> 1 <= groups < 2 ^ 63 -> 1 <= zlen ts -> zlen ts mod groups = 0 ->
  value_ok objective -> objective_means groups objective tr -> Forall (t_small p features) ts ->
  exists rest' header, file_says p eof (t_file features groups average objective ts ++ rest) rest' header (map t_kvs ts) groups (features - 1) average load
    (if load && negb average then tr else TransformRaw groups) (map (fun t => t_ref p t 0) ts).
Proof.
  intros p features groups average objective ts tr load rest eof Hi Hf Hg Hn Hm Ho Hobj F.
  exists (List.concat (map (fun t => block_of (t_kvs t)) ts) ++ rest), (t_header features groups average objective ts).
  assert (Kz : Forall (fun t => t <> [] /\ Forall visible t) (map (fun _ : tree lrule bytes => bs "0") ts)).
  { apply Forall_forall. intros t I. apply in_map_iff in I. destruct I as (? & <- & _). apply (decimal_token 0). }
  split; [|split; [|split; [|split]]].
  - unfold t_file. rewrite <- app_assoc. apply block_says; [discriminate|]. unfold t_header.
    repeat (apply Forall_cons; [split; [apply key_check; reflexivity|cbn [snd]; first [exact Ho|apply decimal_value|apply sjoin_ok; exact Kz|idtac]]|]).
    + split; [change (bs "v2") with ["v"; "2"]%byte; apply Forall_cons; [|apply Forall_cons; [|apply Forall_nil]]; right; (split; [vm_compute; split; discriminate|discriminate])|]. right. exists (bs "v"), "2"%byte. split; [reflexivity|]. split; [vm_compute; split; discriminate|discriminate].
    + destruct average; [|apply Forall_nil]. apply Forall_cons; [|apply Forall_nil]. split; [apply key_check; reflexivity|]. split; [constructor|left; reflexivity].
  - assert (LV : forall key, beqb (bs "average_output") key = false -> last_value (t_header features groups average objective ts) key = last_value (t_header features groups false objective ts) key).
    { intros key E. unfold t_header. destruct average; [|reflexivity]. cbn [app last_value]. rewrite E. reflexivity. }
    split.
    + left. rewrite LV by reflexivity. reflexivity.
    + exists (decimal groups). rewrite LV by reflexivity. split; [reflexivity|apply int64_decimal; lia].
    + exists (decimal groups). rewrite LV by reflexivity. split; [reflexivity|apply int64_decimal; lia].
    + lia.
    + exists (decimal (features - 1)). rewrite LV by reflexivity. split; [reflexivity|apply int64_decimal; lia].
    + exists (sjoin (map (fun _ => bs "0") ts)), (map (fun _ => bs "0") ts). rewrite LV by reflexivity. split; [reflexivity|]. split.
      * apply sjoin_parts; [|eapply Forall_impl; [|exact Kz]; intros t H; apply H]. destruct ts; [rewrite zlen_nil in Hn; lia|discriminate].
      * unfold zlen. rewrite !map_length. reflexivity.
    + exists (zlen ts / groups). unfold zlen at 1. rewrite map_length. fold (zlen ts). pose proof (Z.div_mod (zlen ts) groups ltac:(lia)). lia.
    + destruct average; [split; [intros _; exists []; reflexivity|reflexivity]|]. split; [discriminate|]. intros [v E]. discriminate E.
  - unfold transform_says. destruct load; [|reflexivity]. destruct average; [reflexivity|]. cbn [andb negb]. exists objective. split; [reflexivity|exact Hobj].
  - clear Hn Hm Kz. induction F as [|t ts Ht F IH]; cbn [map List.concat]; [constructor|]. rewrite <- app_assoc. eapply blocks_cons; [|exact IH].
    destruct Ht as (M & L & _ & W). pose proof (words_pos _ t). apply block_says; [discriminate|]. eapply t_kvs_ok; [exact Hi|exact M|lia].
  - clear Hn Hm Kz. induction F as [|t ts Ht F IH]; cbn [map]; constructor; [|exact IH]. exists (leaves_in t). split; [eapply t_says; eassumption|apply Ht].
Qed.

(** Whatever the shapes of the trees, their rules, thresholds, sets of categories and leaf values: there is a text that loads as the
    ensemble, whatever follows it in the stream, and its raw scores are the sums, or means, of what the trees say. *)
Theorem C80_lightgbm_text :
  forall p features groups average objective tr trees,
  reads_indices p -> 1 <= features <= 2 ^ 32 -> 1 <= groups <= pl_maxalloc p -> groups < 2 ^ 63 ->
  1 <= zlen trees <= MaxInt -> zlen trees mod groups = 0 ->
  value_ok objective -> objective_means groups objective tr ->
  Forall (fun t => made_of features (trule_ok p) (token_ok p) t /\ leaves_in t <= 2 ^ 31 /\ leaves_in t - 1 <= pl_maxalloc p /\ words_in t < 2 ^ 32) trees ->
  exists text, forall rest eof load, exists e,
    LGEnsembleFromReader p (mkReader (text ++ rest) eof) load = Ok e /\ NRawOutputGroups e = groups /\ NFeatures e = (if features =? 1 then 0 else features) /\
    Transformation_ e = (if load && negb average then tr else TransformRaw groups) /\ NEstimators e = Ok (zlen trees / groups) /\
    forall x nEstimators predictions, features <= zlen x -> groups <= zlen predictions ->
    exists out n, Predict p (EnsembleWithRawPredictions e) x nEstimators predictions = Ok out /\ used_estimators e nEstimators n /\
    forall k, 0 <= k < groups -> exists vs,
      values_of (lrule_left p) (lit_value p) trees groups k n x vs /\
      zget out k = Some (sum_from fzero (map (fun v => fmul v (if average then fdiv fone (f64_of_Z n) else fone)) vs)).
Proof.
  intros p features groups avg objective tr ts Hi Hf Hg Hg2 Hn Hm Ho Hobj F. exists (t_file features groups avg objective ts). intros rest eof load.
  change (Forall (t_small p features) ts) in F.
  destruct (t_file_says p features groups avg objective ts tr load rest eof Hi Hf ltac:(lia) ltac:(lia) Hm Ho Hobj F) as (rest' & header & Says).
  destruct (file_loads _ _ _ _ _ _ _ _ _ _ _ _ Says) as (lts & E & B). set (e := mkEnsemble _ _) in E. exists e. split; [exact E|]. split; [reflexivity|].
  assert (L : zlen lts = zlen ts) by (unfold zlen; rewrite (Forall2_len _ _ _ _ _ B), map_length; reflexivity).
  assert (NF : NFeatures e = if features =? 1 then 0 else features).
  { change (trees_NFeatures (features - 1) = if features =? 1 then 0 else features). unfold trees_NFeatures.
    destruct (Z.eqb_spec features 1) as [->|N1]; [reflexivity|]. replace (0 <? features - 1) with true by lia. replace (features - 1 + 1) with features by lia. apply s64_id. change two63 with (2 ^ 63). lia. }
  split; [exact NF|]. split; [reflexivity|].
  assert (NE : NEstimators e = Ok (zlen ts / groups)).
  { change (trees_NEstimators lts groups = Ok (zlen ts / groups)). unfold trees_NEstimators, go_div. replace (groups =? 0) with false by lia. rewrite L. f_equal. apply Z.quot_div_nonneg; lia. }
  split; [exact NE|]. intros x nE preds Hx Hp. set (e' := EnsembleWithRawPredictions e).
  assert (Wf' : well_formed e').
  { split; [change (1 <= groups <= MaxInt); unfold MaxInt; change two63 with (2 ^ 63); lia|]. split; [change (zlen lts <= MaxInt); lia|reflexivity]. }
  assert (W : Forall (fun d => exists r, walk d x = Some r) (map (fun t => t_ref p t 0) ts)).
  { apply Forall_forall. intros d I. apply in_map_iff in I. destruct I as (t & <- & I). rewrite Forall_forall in F. destruct (F t I) as (M & _). eapply walk_defined; [|reflexivity]. eapply t_below; [exact M|exact Hx]. }
  assert (Out : forall k n vs, walk_outputs (map (fun t => t_ref p t 0) ts) groups k n x vs -> values_of (lrule_left p) (lit_value p) ts groups k n x vs).
  { intros k n vs [L1 T1]. split; [exact L1|]. intros i Hi2. destruct (T1 i Hi2) as (d & v & leaf & Zd & Wd & Zv). rewrite zget_map in Zd.
    destruct (zget ts (i * groups + k)) as [t|] eqn:Zt; [|discriminate]. injection Zd as <-. exists t, v. split; [reflexivity|]. split; [|exact Zv].
    rewrite Forall_forall in F. destruct (F t (zget_in _ _ _ _ Zt)) as (M & _). destruct (t_walks p features t 0 x M) as (id & E'). rewrite E' in Wd. destruct (value_of _ _ t x); [injection Wd as -> _; reflexivity|discriminate]. }
  destruct (Predict_returns p e' x nE preds Wf') as (out & Eo).
  - unfold evaluable. cbn. rewrite Forall_forall in W |- *. intros t It. apply in_zget in It. destruct It as (i & Hi2).
    destruct (Forall2_zget _ _ _ _ _ B _ _ Hi2) as (d & Hd & _ & Hb). destruct (W d (zget_in _ _ _ _ Hd)) as ([v leaf] & Hw). exists (v, leaf). apply Hb. exact Hw.
  - change (groups <= MaxInt). unfold MaxInt. change two63 with (2 ^ 63). lia.
  - exact Hp.
  - change (NFeatures e <= zlen x). rewrite NF. destruct (features =? 1); [pose proof (zlen_nonneg _ x); lia|exact Hx].
  - change (groups <= pl_maxalloc p). lia.
  - intros ([k K] & _). discriminate.
  - assert (R : raw_output e') by (exists groups; reflexivity).
    exists out. destruct avg.
    + destruct (C12_average_output p e' _ x nE preds out Wf' R eq_refl eq_refl Eo) as (n & Hu & K). exists n. split; [exact Eo|]. split; [exact Hu|].
      intros k Hk. destruct (K k Hk) as (vs & Hout & Hz). exists vs. split; [|exact Hz]. apply Out. eapply behaves_outputs; eauto.
    + destruct (C11_raw_score_is_sum p e' _ x nE preds out Wf' R eq_refl eq_refl Eo) as (n & Hu & K). exists n. split; [exact Eo|]. split; [exact Hu|].
      intros k Hk. destruct (K k Hk) as (vs & Hout & Hz). exists vs. split; [|exact Hz]. apply Out. eapply behaves_outputs; eauto.
Qed.
Print Assumptions C80_lightgbm_text.
