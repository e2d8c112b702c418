(** * C80 for LightGBM JSON models *)

From Coq Require Import ZArith List Bool String Lia ZifyBool.
From Verif Require Import Go GoFloat GoText LgTree Transformation Ensembles Leaves LgJsonIO JsonText Spec_Predict Spec_Split Spec_Tree Spec_Words Spec_Decimal Spec_LgJson Spec_JsonText Spec_Write
  Pf_Go Pf_Text Pf_Words Pf_Decimal Pf_Float Pf_Placed Pf_JsonText Prop_LgText Prop_LgJson Prop_JsonText Prop_Write Ex_JsonText Demo DemoText.
Local Open Scope Z_scope.

(** ** Integers *)
Lemma digit_not : forall d c, 0 <= d < 10 -> ~ 48 <= byteZ c <= 57 -> numeral_digit d <> c.
Proof.
  intros d c Hd Hc E. apply Hc. subst c. unfold numeral_digit. assert (C : d = 0 \/ d = 1 \/ d = 2 \/ d = 3 \/ d = 4 \/ d = 5 \/ d = 6 \/ d = 7 \/ d = 8 \/ d = 9) by lia.
  repeat (destruct C as [-> | C]; [vm_compute; split; discriminate|]). subst d. vm_compute. split; discriminate.
Qed.
Lemma int64_decimal : forall z, - 2 ^ 63 <= z < 2 ^ 63 -> int64_text (decimal z) z.
Proof. intros z Hz. apply int64_iff. unfold atoi. rewrite parse_decimal. apply in_range_iff. change two63 with (2 ^ 63). split; [reflexivity|lia]. Qed.
Lemma int32_decimal : forall z, - 2 ^ 31 <= z < 2 ^ 31 -> int32_text (decimal z) z.
Proof. intros z Hz. apply int32_iff. unfold parse_int32. rewrite parse_decimal. apply in_range_iff. change two31 with (2 ^ 31). split; [reflexivity|lia]. Qed.
Lemma uint32_decimal : forall z, 0 <= z < 2 ^ 32 -> uint32_text (decimal z) z.
Proof.
  intros z Hz. apply uint32_iff. unfold parse_uint32, decimal. replace (z <? 0) with false by lia. rewrite parse_decimal_nat by lia. apply in_range_iff. change two32 with (2 ^ 32). split; [reflexivity|lia].
Qed.
Lemma digit_byte : forall d, 0 <= d < 10 -> byteZ (numeral_digit d) = 48 + d.
Proof. apply digit_cases; reflexivity. Qed.
Lemma leading_digit : forall fuel n s, 1 <= n -> n < 2 ^ Z.of_nat fuel -> (0 < fuel)%nat -> exists d s', 1 <= d < 10 /\ digits_of fuel n s = numeral_digit d :: s'.
Proof.
  induction fuel as [|fuel IH]; intros n s H0 H1 H2; [lia|]. cbn [digits_of]. destruct (Z.ltb_spec n 10); [exists n, s; split; [lia|reflexivity]|].
  assert (HF : (0 < fuel)%nat). { destruct fuel; [|lia]. change (2 ^ Z.of_nat 1) with 2 in H1. lia. }
  apply IH; [apply Z.div_le_lower_bound; lia| |exact HF]. apply Z.div_lt_upper_bound; [lia|]. rewrite Nat2Z.inj_succ, Z.pow_succ_r in H1 by lia. lia.
Qed.
Lemma decimal_number : forall z, 0 <= z -> number_text (decimal z).
Proof.
  intros z Hz. assert (I : int_text (decimal z)).
  { unfold decimal. replace (z <? 0) with false by lia. destruct (Z.eq_dec z 0) as [->|N]; [constructor|].
    destruct (leading_digit (S (Z.to_nat (Z.log2 z))) z []) as (d & s & Hd & E); [lia| |lia|].
    { rewrite Nat2Z.inj_succ, Z2Nat.id by apply Z.log2_nonneg. apply Z.log2_spec. lia. }
    assert (B : forall b, In b (decimal_nat z) -> digit b).
    { intros b Ib. destruct (decimal_nat_bytes z b Hz Ib) as (d' & D' & ->). unfold digit. rewrite digit_byte by exact D'. lia. }
    unfold decimal_nat in *. rewrite E in *. apply int_digits.
    - apply B. left. reflexivity.
    - intros Q. assert (byteZ (numeral_digit d) = 48) by (rewrite Q; reflexivity). rewrite digit_byte in H by lia. lia.
    - apply Forall_forall. intros b Ib. apply B. right. exact Ib. }
  pose proof (number_intro [] (decimal z) [] [] ltac:(left; reflexivity) I frac_none exp_none) as K. cbn [app] in K. rewrite app_nil_r in K. exact K.
Qed.

(** ** The value of a tree *)
Fixpoint join (l : list bytes) : bytes := match l with [] => [] | [x] => x | x :: l' => x ++ bs "||" ++ join l' end.
Definition rule_json (r : lrule) : json := match r with LNumber _ _ thr => JNum thr | LCategories _ cats => JStr (join (map decimal cats)) end.
Definition rule_operator (r : lrule) : bytes := match r with LNumber _ _ _ => bs "<=" | LCategories _ _ => bs "==" end.
Definition rule_default (r : lrule) : bool := match r with LNumber _ dl _ => dl | LCategories _ _ => false end.
Definition rule_missing (r : lrule) : missing := match r with LNumber m _ _ => m | LCategories m _ => m end.
Fixpoint l_json (t : tree lrule bytes) : json :=
  match t with
  | Leaf lit => JObj [(bs "leaf_value", JNum lit)]
  | Split f r l r' =>
      JObj [(bs "split_index", JNum (bs "0")); (bs "split_feature", JNum (decimal f)); (bs "threshold", rule_json r); (bs "decision_type", JStr (rule_operator r));
            (bs "default_left", JBool (rule_default r)); (bs "missing_type", JStr (missing_name (rule_missing r))); (bs "left_child", l_json l); (bs "right_child", l_json r')]
  end.
Fixpoint leaves_in {R V} (t : tree R V) : Z := match t with Leaf _ => 1 | Split _ _ l r => leaves_in l + leaves_in r end.
Fixpoint cats_in {V} (t : tree lrule V) : Z :=
  match t with Leaf _ => 0 | Split _ r l r' => match r with LNumber _ _ _ => 0 | LCategories _ _ => 1 end + cats_in l + cats_in r' end.
Definition l_tree (t : tree lrule bytes) : json :=
  JObj [(bs "num_leaves", JNum (decimal (leaves_in t))); (bs "num_cat", JNum (decimal (cats_in t))); (bs "tree_structure", l_json t)].
Definition l_model (features groups : Z) (ts : list (tree lrule bytes)) : json :=
  JObj [(bs "name", JStr (bs "tree")); (bs "version", JStr (bs "v2")); (bs "num_class", JNum (decimal groups)); (bs "num_tree_per_iteration", JNum (decimal groups));
        (bs "max_feature_idx", JNum (decimal (features - 1))); (bs "tree_info", JArr (map l_tree ts))].

(** a literal of JSON that the parser of floats knows *)
Definition lit_ok (p : platform) (lit : bytes) : Prop := number_text lit /\ exists v, pl_parse_float p lit = Some v.
Definition lrule_ok (p : platform) (r : lrule) : Prop :=
  match r with LNumber _ _ thr => lit_ok p thr | LCategories _ cats => cats <> [] /\ Forall (fun c => 0 <= c < 2 ^ 31) cats end.
(** strconv.ParseFloat accepts decimal integers *)
Definition reads_integers (p : platform) : Prop := forall z, 0 <= z < 2 ^ 63 -> exists v, pl_parse_float p (decimal z) = Some v.

Fixpoint l_ref (p : platform) (t : tree lrule bytes) (first : Z) : dtree :=
  match t with
  | Leaf lit => DLeaf first (lit_value p lit)
  | Split f r l r' => DNode f (lrule_left p r) (l_ref p l first) (l_ref p r' (first + leaves_in l))
  end.
Lemma l_ref_leaves : forall p t first, zlen (leaves_of (l_ref p t first)) = leaves_in t.
Proof. induction t as [lit|f r l IHl r' IHr]; intros first; cbn [l_ref leaves_of leaves_in]; [reflexivity|]. rewrite zlen_app, IHl, IHr. reflexivity. Qed.
Lemma l_walks : forall p t first x, exists id, walk (l_ref p t first) x = option_map (fun v => (v, id)) (value_of (lrule_left p) (lit_value p) t x).
Proof.
  induction t as [lit|f r l IHl r' IHr]; intros first x; cbn [l_ref walk value_of]; [exists first; reflexivity|]. destruct (zget x f) as [z|]; [|exists 0; reflexivity]. destruct (lrule_left p r z); auto.
Qed.
Lemma l_below : forall p P Q n t first, made_of n P Q t -> features_below n (l_ref p t first).
Proof. induction t as [lit|f r l IHl r' IHr]; intros first M; cbn [l_ref features_below made_of] in *; [exact I|]. destruct M as (Hf & _ & Ml & Mr). auto. Qed.
Lemma leaves_pos : forall R V (t : tree R V), 1 <= leaves_in t.
Proof. induction t; cbn [leaves_in]; lia. Qed.
Lemma words_pos : forall V (t : tree lrule V), 0 <= cats_in t <= words_in t /\ (cats_in t = 0 -> words_in t = 0).
Proof.
  induction t as [v|f r l IHl r' IHr]; cbn [cats_in words_in]; [lia|]. destruct r as [m dl thr|m cats]; [lia|].
  assert (0 <= fold_right Z.max 0 cats) by (clear; induction cats; cbn [fold_right]; lia). pose proof (Z.div_pos (fold_right Z.max 0 cats) 32 ltac:(lia) ltac:(lia)). lia.
Qed.

(** objects with distinct plain keys *)
Fixpoint distinct (l : list bytes) : bool := match l with [] => true | x :: l' => negb (existsb (beqb x) l') && distinct l' end.
Lemma plain_check : forall A (l : list (bytes * A)) names, map fst l = names -> distinct names && forallb (forallb plain_char) names = true -> plain l.
Proof.
  intros A l names <- H. apply andb_prop in H as [D P]. split.
  - clear P. induction (map fst l) as [|x n IH]; constructor; cbn [distinct] in D; apply andb_prop in D as [D1 D2]; auto. intros I. apply negb_true_iff in D1.
    assert (existsb (beqb x) n = true) by (apply existsb_exists; exists x; split; [exact I|apply beqb_eq; reflexivity]). congruence.
  - intros k v I. rewrite forallb_forall in P. apply P. apply (in_map fst) in I. exact I.
Qed.

(** categories between bars *)
Lemma pieces_join : forall tokens, tokens <> [] -> (forall t, In t tokens -> ~ In "|"%byte t) -> pieces (bs "||") (join tokens) tokens.
Proof.
  induction tokens as [|t tokens IH]; intros N B; [congruence|]. destruct tokens as [|t' tokens].
  - cbn [join]. apply pc_last. intros a b E. apply (B t (or_introl eq_refl)). rewrite E. apply in_or_app. right. left. reflexivity.
  - change (join (t :: t' :: tokens)) with (t ++ bs "||" ++ join (t' :: tokens)). apply pc_more; [|apply IH; [discriminate|intros q I; apply B; right; exact I]].
    pose proof (B t (or_introl eq_refl)) as K. generalize (join (t' :: tokens)) as rest. clear - K. induction t as [|c t IH]; intros rest a b E; [cbn; lia|].
    destruct a as [|c' a]; [exfalso; cbn in E; injection E as -> _; apply K; left; reflexivity|]. cbn [List.length]. injection E as _ E. apply le_n_S. eapply IH; [|exact E]. intros I. apply K. right. exact I.
Qed.
Lemma decimal_no_bar : forall z, 0 <= z -> ~ In "|"%byte (decimal z).
Proof.
  intros z Hz I. unfold decimal in I. replace (z <? 0) with false in I by lia. destruct (decimal_nat_bytes z _ Hz I) as (d & Hd & E). symmetry in E. revert E. apply digit_not; [exact Hd|]. vm_compute. intros [_ X]. apply X. reflexivity.
Qed.
Lemma cats_written : forall cats, cats <> [] -> Forall (fun c => 0 <= c < 2 ^ 31) cats ->
  pieces (bs "||") (join (map decimal cats)) (map decimal cats) /\ Forall2 int64_text (map decimal cats) cats.
Proof.
  intros cats N F. split.
  - apply pieces_join; [destruct cats; [congruence|discriminate]|]. intros t I. apply in_map_iff in I. destruct I as (c & <- & I). rewrite Forall_forall in F. apply decimal_no_bar. apply F in I. lia.
  - clear N. induction F as [|c cats Hc F IH]; constructor; [|exact IH]. apply int64_decimal. lia.
Qed.

(** all numbers of the value are known *)
Lemma numeric_obj : forall pf l, (forall k v, In (k, v) l -> numeric pf v) -> numeric pf (JObj l).
Proof. intros pf l H lit O. inversion O; subst. eapply H; eauto. Qed.
Lemma numeric_arr : forall pf l, (forall v, In v l -> numeric pf v) -> numeric pf (JArr l).
Proof. intros pf l H lit O. inversion O; subst. eapply H; eauto. Qed.
Lemma numeric_num : forall pf lit, (exists v, pf lit = Some v) -> numeric pf (JNum lit).
Proof. intros pf l H lit O. inversion O; subst. exact H. Qed.
Lemma numeric_str : forall pf s, numeric pf (JStr s).
Proof. intros pf l lit O. inversion O. Qed.
Lemma numeric_bool : forall pf s, numeric pf (JBool s).
Proof. intros pf l lit O. inversion O. Qed.

Section Json.
  Variables (p : platform) (features : Z).
  Hypothesis ints : reads_integers p.
  Hypothesis Hfeatures : 1 <= features <= 2 ^ 32.
  Notation good := (made_of features (lrule_ok p) (lit_ok p)).

  Lemma l_numeric : forall t, good t -> numeric (pl_parse_float p) (l_json t).
  Proof.
    induction t as [lit|f r l IHl r' IHr]; intros M; cbn [l_json made_of] in *.
    - apply numeric_obj. intros k v [E|[]]. injection E as <- <-. apply numeric_num. apply M.
    - destruct M as (Hf & Hr & Ml & Mr). apply numeric_obj. intros k v I. cbn [In] in I.
      repeat (destruct I as [E|I]; [injection E as <- <-|]); try (apply numeric_str || apply numeric_bool); auto; [| | |destruct I].
      + apply numeric_num. change (bs "0") with (decimal 0). apply ints. lia.
      + apply numeric_num. apply ints. lia.
      + destruct r; cbn [rule_json]; [apply numeric_num; apply Hr|apply numeric_str].
  Qed.
  Lemma lit_parsed : forall lit, lit_ok p lit -> pl_parse_float p lit = Some (lit_value p lit).
  Proof. intros lit (_ & v & E). unfold lit_value. rewrite E. reflexivity. Qed.

  Lemma l_described : forall t first, good t -> jdescribes (pl_parse_float p) (f2i32 p) (l_json t) first (l_ref p t first) (words_in t).
  Proof.
    induction t as [lit|f r l IHl r' IHr]; intros first M; cbn [l_json l_ref words_in made_of] in *.
    - eapply jd_leaf with (lit := lit); [eapply plain_check; [reflexivity|vm_compute; reflexivity]|left; reflexivity|apply lit_parsed; exact M|].
      intros k x [E|[]]. injection E as <- <-. cbn [In]. intros I. repeat (destruct I as [I|I]; [discriminate I|]). exact I.
    - destruct M as (Hf & Hr & Ml & Mr). set (members := [_; _; _; _; _; _; _; _]).
      assert (Mem : split_members members (rule_operator r) f (rule_missing r) (l_json l) (l_json r')).
      { split; [eapply plain_check; [reflexivity|vm_compute; reflexivity]|]. split; [|split; [|split; [|split; [|split]]]].
        - intros v I. exists (decimal 0), 0. split; [|apply uint32_decimal; lia]. cbn in I. destruct I as [E|I]; [injection E as <-; reflexivity|]. repeat (destruct I as [I|I]; [discriminate I|]). destruct I.
        - left. exists (decimal f). split; [cbn; tauto|apply uint32_decimal; lia].
        - cbn; tauto.
        - cbn; tauto.
        - cbn; tauto.
        - cbn; tauto. }
      assert (Fl : flag_is members (bs "default_left") (rule_default r)) by (left; cbn; tauto).
      pose proof (IHr (first + leaves_in l) Mr) as Jr. rewrite <- (l_ref_leaves p l first) in Jr |- *.
      destruct r as [m dl thr|m cats].
      + cbn [lrule_ok lrule_left rule_missing rule_default rule_operator] in *. replace (0 + words_in l + words_in r') with (words_in l + words_in r') by lia.
        eapply jd_numerical; [exact Mem|exact Fl| |apply lit_parsed; exact Hr|apply IHl; exact Ml|exact Jr]. cbn; tauto.
      + cbn [lrule_ok lrule_left rule_missing rule_default rule_operator] in *. destruct Hr as [N F]. destruct (cats_written cats N F) as [P T].
        eapply jd_categorical; [exact Mem|exact Fl| |exact P|exact T|exact F|apply IHl; exact Ml|exact Jr]. cbn; tauto.
  Qed.
  (** small enough for the loader *)
  Definition l_small (limit : Z) (t : tree lrule bytes) : Prop :=
    good t /\ leaves_in t < 2 ^ 32 /\ leaves_in t - 1 <= pl_maxalloc p /\ words_in t < 2 ^ 32 /\ 3 + depth_of t <= limit.

  Lemma l_tree_numeric : forall limit t, l_small limit t -> numeric (pl_parse_float p) (l_tree t).
  Proof.
    intros limit t (M & L & _ & W & _). pose proof (words_pos _ t). pose proof (leaves_pos _ _ t). apply numeric_obj. intros k v I. cbn [In] in I.
    destruct I as [E|[E|[E|[]]]]; injection E as <- <-; [apply numeric_num, ints; lia|apply numeric_num, ints; lia|apply l_numeric; exact M].
  Qed.
  Lemma l_tree_says : forall limit t, l_small limit t -> json_tree_says (pl_parse_float p) (f2i32 p) (l_tree t) (leaves_in t) (l_ref p t 0).
  Proof.
    intros limit t Sm. pose proof (l_tree_numeric limit t Sm) as Nu. destruct Sm as (M & L & _ & W & _). pose proof (words_pos _ t). pose proof (leaves_pos _ _ t).
    eexists _, (decimal (leaves_in t)), (decimal (cats_in t)), (cats_in t), (l_json t), (words_in t).
    split; [reflexivity|]. split; [eapply plain_check; [reflexivity|vm_compute; reflexivity]|]. split; [exact Nu|].
    split; [cbn; tauto|]. split; [apply int64_decimal; lia|]. split; [cbn; tauto|]. split; [apply uint32_decimal; lia|]. split; [cbn; tauto|].
    split; [apply l_described; exact M|]. rewrite l_ref_leaves. lia.
  Qed.
  Lemma l_model_says : forall limit groups ts, 1 <= groups < 2 ^ 63 -> 1 <= zlen ts -> zlen ts mod groups = 0 -> Forall (l_small limit) ts ->
    json_model_says p (l_model features groups ts) groups (features - 1) (map l_tree ts) (map (fun t => l_ref p t 0) ts).
  Proof.
    intros limit groups ts Hg Hn Hm F. split.
    - assert (L : zlen (map l_tree ts) = zlen ts) by (unfold zlen; rewrite map_length; reflexivity).
      eexists _, (decimal groups), (decimal groups), (decimal (features - 1)). split; [reflexivity|]. split; [eapply plain_check; [reflexivity|vm_compute; reflexivity]|].
      split; [cbn; tauto|]. split; [cbn; tauto|]. split; [cbn; tauto|]. split; [apply int64_decimal; lia|]. split; [cbn; tauto|]. split; [apply int64_decimal; lia|].
      split; [cbn; tauto|]. split; [apply int64_decimal; lia|]. split; [cbn; tauto|]. rewrite L. auto with zarith.
    - clear Hn Hm. induction F as [|t ts Ht F IH]; cbn [map]; constructor; [|exact IH]. exists (leaves_in t). split; [eapply l_tree_says; exact Ht|apply Ht].
  Qed.

  (** ** The text *)
  Lemma number_writable : forall lit, number_text lit -> writable (JNum lit) = true.
  Proof. intros lit N. cbn [writable]. pose proof (scan_number_complete lit [] N I) as E. rewrite app_nil_r in E. rewrite E. reflexivity. Qed.
  Lemma decimal_letters : forall z, 0 <= z -> forallb letter (decimal z) = true.
  Proof.
    intros z Hz. apply forallb_forall. intros b I. unfold decimal in I. replace (z <? 0) with false in I by lia. destruct (decimal_nat_bytes z b Hz I) as (d & Hd & ->).
    unfold letter. rewrite digit_byte by exact Hd. lia.
  Qed.
  Lemma join_letters : forall l, Forall (fun t => forallb letter t = true) l -> forallb letter (join l) = true.
  Proof.
    induction l as [|t l IH]; intros F; [reflexivity|]. inversion F; subst. destruct l as [|t' l]; [assumption|]. change (join (t :: t' :: l)) with (t ++ bs "||" ++ join (t' :: l)).
    rewrite forallb_app, forallb_app. rewrite H1, IH by assumption. reflexivity.
  Qed.
  Lemma l_writable : forall t, good t -> writable (l_json t) = true.
  Proof.
    induction t as [lit|f r l IHl r' IHr]; intros M; cbn [l_json made_of] in *.
    - destruct M as [M _]. pose proof (number_writable lit M) as E. cbn [writable] in E |- *. rewrite E. reflexivity.
    - destruct M as (Hf & Hr & Ml & Mr). pose proof (number_writable _ (decimal_number f (proj1 Hf))) as Ef.
      assert (Er : writable (rule_json r) = true).
      { destruct r as [m dl thr|m cats]; cbn [rule_json]; [apply number_writable; apply Hr|]. cbn [writable]. apply join_letters. apply Forall_forall. intros t I. apply in_map_iff in I. destruct I as (c & <- & I).
        destruct Hr as [_ Hr]. rewrite Forall_forall in Hr. apply decimal_letters. apply Hr in I. lia. }
      specialize (IHl Ml). specialize (IHr Mr).
      change ((true && writable (JNum (bs "0")) && ((true && writable (JNum (decimal f))) && ((true && writable (rule_json r)) && ((true && forallb letter (rule_operator r)) && ((true && true) && ((true && forallb letter (missing_name (rule_missing r))) &&
              ((true && writable (l_json l)) && ((true && writable (l_json r')) && true))))))))  = true).
      rewrite Ef, Er, IHl, IHr. destruct r as [m dl thr|m cats]; destruct m; reflexivity.
  Qed.
  Lemma l_tree_writable : forall limit t, l_small limit t -> writable (l_tree t) = true.
  Proof.
    intros limit t (M & _). pose proof (words_pos _ t). pose proof (leaves_pos _ _ t).
    change ((true && writable (JNum (decimal (leaves_in t)))) && ((true && writable (JNum (decimal (cats_in t)))) && ((true && writable (l_json t)) && true)) = true).
    rewrite (number_writable _ (decimal_number (leaves_in t) ltac:(lia))), (number_writable _ (decimal_number (cats_in t) ltac:(lia))), l_writable by exact M. reflexivity.
  Qed.
  Lemma l_model_writable : forall limit groups ts, 1 <= groups -> Forall (l_small limit) ts -> writable (l_model features groups ts) = true.
  Proof.
    intros limit groups ts Hg F.
    change (true && (true && ((true && writable (JNum (decimal groups))) && ((true && writable (JNum (decimal groups))) && ((true && writable (JNum (decimal (features - 1)))) && ((true && writable (JArr (map l_tree ts))) && true))))) = true).
    rewrite (number_writable _ (decimal_number groups ltac:(lia))), (number_writable _ (decimal_number (features - 1) ltac:(lia))).
    assert (A : writable (JArr (map l_tree ts)) = true).
    { induction F as [|t ts Ht F IH]; [reflexivity|]. change (writable (l_tree t) && writable (JArr (map l_tree ts)) = true). rewrite (l_tree_writable limit t Ht). exact IH. }
    rewrite A. reflexivity.
  Qed.

  Lemma l_nesting : forall t n, depth_of t <= n -> nesting_within n (l_json t).
  Proof.
    induction t as [lit|f r l IHl r' IHr]; intros n Hn; cbn [l_json depth_of] in *.
    - constructor; [lia|]. repeat constructor.
    - assert (1 <= depth_of l) by (destruct l; cbn [depth_of]; [lia|]; assert (forall t : tree lrule bytes, 0 <= depth_of t) by (induction t; cbn [depth_of]; lia); pose proof (H l1); pose proof (H l2); lia).
      constructor; [lia|]. repeat (apply Forall_cons || apply Forall_nil); cbn [snd]; try constructor; [destruct r; constructor|apply IHl; lia|apply IHr; lia].
  Qed.
  Lemma l_model_nesting : forall limit groups ts, 1 <= zlen ts -> Forall (l_small limit) ts -> nesting_within limit (l_model features groups ts).
  Proof.
    intros limit groups ts Hn F. assert (Hl : 4 <= limit).
    { destruct ts as [|t ts]; [cbn in Hn; lia|]. inversion F as [|? ? (_ & _ & _ & _ & D) _]; subst. assert (1 <= depth_of t); [|lia].
      clear. assert (K : forall t : tree lrule bytes, 0 <= depth_of t) by (induction t0; cbn [depth_of]; lia). destruct t; cbn [depth_of]; [lia|]. pose proof (K t1). pose proof (K t2). lia. }
    constructor; [lia|]. repeat (apply Forall_cons || apply Forall_nil); cbn [snd]; try constructor; [lia|].
    apply Forall_forall. intros v I. apply in_map_iff in I. destruct I as (t & <- & I). rewrite Forall_forall in F. destruct (F t I) as (_ & _ & _ & _ & D).
    constructor; [lia|]. repeat (apply Forall_cons || apply Forall_nil); cbn [snd]; try constructor. apply l_nesting. lia.
  Qed.
End Json.

(** Whatever the shapes of the trees, their rules, thresholds, sets of categories and leaf values: there is a text that loads as the
    ensemble, whatever follows it in the stream, and its scores are the sums of what the trees say. *)
Theorem C80_lightgbm_json :
  forall p limit features groups trees,
  reads_integers p -> 2 ^ 26 <= pl_maxalloc p -> 1 <= features <= 2 ^ 32 -> 1 <= groups <= pl_maxalloc p -> groups < 2 ^ 63 ->
  1 <= zlen trees <= MaxInt -> zlen trees mod groups = 0 ->
  Forall (fun t => made_of features (lrule_ok p) (lit_ok p) t /\ leaves_in t < 2 ^ 32 /\ leaves_in t - 1 <= pl_maxalloc p /\
                   words_in t < 2 ^ 32 /\ 3 + depth_of t <= limit) trees ->
  exists text, forall rest eof, exists e,
    LGEnsembleFromJSONReader p limit (mkReader (text ++ rest) eof) false = Ok e /\ NRawOutputGroups e = groups /\ NFeatures e = (if features =? 1 then 0 else features) /\
    Transformation_ e = TransformRaw groups /\ NEstimators e = Ok (zlen trees / groups) /\
    forall x nEstimators predictions, features <= zlen x -> groups <= zlen predictions ->
    exists out n, Predict p e x nEstimators predictions = Ok out /\ used_estimators e nEstimators n /\
    forall k, 0 <= k < groups -> exists vs,
      values_of (lrule_left p) (lit_value p) trees groups k n x vs /\ zget out k = Some (sum_from fzero (map (fun v => fmul v fone) vs)).
Proof.
  intros p limit features groups ts Hi Hb Hf Hg Hg2 Hn Hm F. exists (write (l_model features groups ts)). intros rest eof.
  change (Forall (l_small p features limit) ts) in F.
  pose proof (l_model_says p features Hi Hf limit groups ts ltac:(lia) ltac:(lia) Hm F) as Says.
  pose proof (write_text true _ (l_model_writable p features Hf limit groups ts ltac:(lia) F)) as Text.
  pose proof (l_model_nesting p features limit groups ts ltac:(lia) F) as Nest.
  assert (L : zlen (map l_tree ts) = zlen ts) by (unfold zlen; rewrite map_length; reflexivity).
  destruct (C64_predictions p limit [] _ rest eof _ _ _ _ _ white_nil Text Nest Says Hb ltac:(lia)) as (e & E & G & P & _).
  cbn [app] in E. exists e. split; [exact E|]. split; [exact G|].
  assert (E2 : LGEnsembleFromJSON p (Some (l_model features groups ts)) false = Ok e).
  { rewrite <- E. symmetry. apply (C64_json_stream p limit [] _ rest eof _ false white_nil Text); [right; eexists; reflexivity|exact Nest]. }
  destruct (C34_json_file _ _ _ _ _ _ Says Hb) as (e1 & E1 & _ & T & N & _). rewrite E2 in E1. injection E1 as <-.
  destruct (json_model_loads _ _ _ _ _ _ Says Hb) as (lts & E1 & _). rewrite E2 in E1.
  assert (NF : NFeatures e = if features =? 1 then 0 else features).
  { injection E1 as ->. change (trees_NFeatures (features - 1) = if features =? 1 then 0 else features). unfold trees_NFeatures.
    destruct (Z.eqb_spec features 1) as [->|N1]; [reflexivity|]. replace (0 <? features - 1) with true by lia. replace (features - 1 + 1) with features by lia. apply s64_id. change two63 with (2 ^ 63). lia. }
  split; [exact NF|]. split; [exact T|]. split; [rewrite N, L; reflexivity|]. intros x nE preds Hx Hp.
  destruct (P x nE preds) as (out & n & EP & U & K).
  - apply Forall_forall. intros d I. apply in_map_iff in I. destruct I as (t & <- & I). rewrite Forall_forall in F. destruct (F t I) as (M & _).
    eapply walk_defined; [|reflexivity]. eapply below_more; [eapply l_below; exact M|exact Hx].
  - rewrite NF. destruct (features =? 1); [pose proof (zlen_nonneg _ x); lia|exact Hx].
  - exact Hp.
  - lia.
  - exists out, n. split; [exact EP|]. split; [exact U|]. intros k Hk. destruct (K k Hk) as (vs & [L1 T1] & Z). exists vs. split; [|exact Z].
    split; [exact L1|]. intros i Hi2. destruct (T1 i Hi2) as (d & v & leaf & Zd & Wd & Zv). rewrite zget_map in Zd.
    destruct (zget ts (i * groups + k)) as [t|] eqn:Zt; [|discriminate]. injection Zd as <-. exists t, v. split; [reflexivity|]. split; [|exact Zv].
    destruct (l_walks p t 0 x) as (id & E'). rewrite E' in Wd. destruct (value_of _ _ t x); [injection Wd as -> _; reflexivity|discriminate].
Qed.
Print Assumptions C80_lightgbm_json.
