(** * Facts about byte strings, splitting and line reading *)

From Coq Require Import ZArith List Bool Lia ZifyBool.
From Verif Require Import Go GoText UtilText Pf_Go Spec_Params Spec_LgText.

Lemma byte_eqb_refl : forall c : byte, Byte.eqb c c = true.
Proof. intros c. apply Byte.byte_dec_lb. reflexivity. Qed.
Lemma byte_eqb_eq : forall c d : byte, Byte.eqb c d = true <-> c = d.
Proof. intros c d. split; [apply Byte.byte_dec_bl|intros ->; apply byte_eqb_refl]. Qed.
Lemma byte_eqb_neq : forall c d : byte, Byte.eqb c d = false <-> c <> d.
Proof. intros c d. rewrite <- not_true_iff_false, byte_eqb_eq. tauto. Qed.

Lemma beqb_eq : forall a b, beqb a b = true <-> a = b.
Proof.
  induction a as [|x a IH]; intros [|y b]; simpl; split; intros H; try discriminate; auto.
  - apply andb_true_iff in H. destruct H as [H1 H2]. apply byte_eqb_eq in H1. apply IH in H2. congruence.
  - injection H as -> ->. rewrite byte_eqb_refl. apply IH. auto.
Qed.
Lemma beqb_refl : forall a, beqb a a = true.
Proof. intros. apply beqb_eq. auto. Qed.
Lemma beqb_neq : forall a b, beqb a b = false <-> a <> b.
Proof. intros a b. rewrite <- not_true_iff_false, beqb_eq. tauto. Qed.

(** ** strings.Split at one byte *)
Lemma split_go_none : forall c s cur, ~ In c s -> split_go [c] s cur 0 = [rev cur ++ s].
Proof.
  intros c s. induction s as [|x s IH]; intros cur H; cbn [split_go].
  - rewrite app_nil_r. reflexivity.
  - cbn [has_prefix]. replace (Byte.eqb c x) with false by (symmetry; apply byte_eqb_neq; intros ->; apply H; simpl; auto).
    cbn [andb]. rewrite IH by (intros I; apply H; simpl; auto). cbn [rev]. rewrite <- app_assoc. reflexivity.
Qed.

Lemma split_go_here : forall c s1 s2 cur, ~ In c s1 ->
  split_go [c] (s1 ++ c :: s2) cur 0 = (rev cur ++ s1) :: split_go [c] s2 [] 0.
Proof.
  intros c s1 s2. induction s1 as [|x s1 IH]; intros cur H; cbn [split_go app].
  - cbn [has_prefix]. rewrite byte_eqb_refl. destruct s2; cbn; rewrite app_nil_r; reflexivity.
  - cbn [has_prefix]. replace (Byte.eqb c x) with false by (symmetry; apply byte_eqb_neq; intros ->; apply H; simpl; auto).
    cbn [andb]. rewrite IH by (intros I; apply H; simpl; auto). cbn [rev]. rewrite <- app_assoc. reflexivity.
Qed.

Lemma split_none : forall c s, ~ In c s -> split s [c] = [s].
Proof. intros. unfold split. rewrite split_go_none; auto. Qed.
Lemma split_here : forall c s1 s2, ~ In c s1 -> split (s1 ++ c :: s2) [c] = s1 :: split s2 [c].
Proof. intros. unfold split. rewrite split_go_here; auto. Qed.

(** any string is a run without [c], or such a run, [c], and a rest *)
Lemma first_occurrence : forall (c : byte) s, (~ In c s) \/ exists s1 s2, s = s1 ++ c :: s2 /\ ~ In c s1.
Proof.
  intros c s. induction s as [|x s IH]; [left; auto|].
  destruct (Byte.byte_eq_dec x c) as [->|N].
  - right. exists [], s. split; auto.
  - destruct IH as [IH|(s1 & s2 & -> & H)].
    + left. intros [E|E]; auto.
    + right. exists (x :: s1), s2. split; auto. intros [E|E]; auto.
Qed.

(** [split] undoes joining *)
Fixpoint join (c : byte) (l : list bytes) : bytes :=
  match l with
  | [] => []
  | [x] => x
  | x :: l' => x ++ c :: join c l'
  end.
Lemma split_join : forall c l, l <> [] -> Forall (fun s => ~ In c s) l -> split (join c l) [c] = l.
Proof.
  intros c l. induction l as [|x l IH]; intros N H; [contradiction|]. inversion H; subst.
  destruct l as [|y l].
  - apply split_none. auto.
  - change (join c (x :: y :: l)) with (x ++ c :: join c (y :: l)). rewrite split_here by auto. f_equal. apply IH; auto. discriminate.
Qed.
Lemma split_tokens : forall c s, Forall (fun t => ~ In c t) (split s [c]) /\ join c (split s [c]) = s /\ split s [c] <> [].
Proof.
  intros c s. remember (List.length s) as n eqn:E. revert s E. induction n as [n IH] using lt_wf_ind. intros s E.
  destruct (first_occurrence c s) as [H|(s1 & s2 & -> & H)].
  - rewrite split_none by auto. repeat split; auto; try discriminate.
  - rewrite split_here by auto. destruct (IH (List.length s2)) with (s := s2) as (I1 & I2 & I3); auto.
    { subst n. rewrite app_length. simpl. lia. }
    repeat split; auto; try discriminate.
    destruct (split s2 [c]) as [|t l] eqn:Es; [contradiction|]. rewrite <- I2. reflexivity.
Qed.

(** ** Lines *)
Lemma cut_line_some : forall l r, ~ In nl l -> cut_line (l ++ nl :: r) = Some (l ++ [nl], r).
Proof.
  induction l as [|c l IH]; intros r H; cbn [app cut_line].
  - rewrite byte_eqb_refl. reflexivity.
  - replace (Byte.eqb c nl) with false by (symmetry; apply byte_eqb_neq; intros ->; apply H; simpl; auto).
    rewrite IH by (intros I; apply H; simpl; auto). reflexivity.
Qed.
Lemma cut_line_none : forall s, ~ In nl s -> cut_line s = None.
Proof.
  induction s as [|c s IH]; intros H; cbn [cut_line]; auto.
  replace (Byte.eqb c nl) with false by (symmetry; apply byte_eqb_neq; intros ->; apply H; simpl; auto).
  rewrite IH by (intros I; apply H; simpl; auto). reflexivity.
Qed.
Lemma cut_line_inv : forall s l r, cut_line s = Some (l, r) -> exists l0, l = l0 ++ [nl] /\ s = l0 ++ nl :: r /\ ~ In nl l0.
Proof.
  intros s l r H. destruct (first_occurrence nl s) as [N|(s1 & s2 & -> & N)].
  - rewrite cut_line_none in H by auto. discriminate.
  - rewrite cut_line_some in H by auto. injection H as <- <-. eauto.
Qed.

(** ** strings.TrimSpace *)
Lemma drop_prefix_some : forall w s r, drop_prefix w s = Some r <-> s = w ++ r.
Proof.
  induction w as [|a w IH]; intros s r; cbn [drop_prefix app]; [split; [congruence|intros ->; auto]|].
  destruct s as [|b s]; [split; discriminate|]. destruct (Byte.eqb a b) eqn:E.
  - apply byte_eqb_eq in E. subst b. rewrite IH. split; [intros ->; auto|congruence].
  - apply byte_eqb_neq in E. split; [discriminate|intros H; injection H as H _; congruence].
Qed.
Lemma drop_one_some : forall ws s r, drop_one ws s = Some r -> exists w, In w ws /\ s = w ++ r.
Proof.
  induction ws as [|w ws IH]; intros s r H; cbn [drop_one] in H; [discriminate|]. destruct (drop_prefix w s) as [r'|] eqn:E.
  - injection H as <-. apply drop_prefix_some in E. exists w. simpl. auto.
  - destruct (IH s r H) as (w' & I & E'). exists w'. simpl. auto.
Qed.
Lemma drop_one_none : forall ws s, drop_one ws s = None <-> forall w r, In w ws -> s <> w ++ r.
Proof.
  intros ws s. split.
  - induction ws as [|w ws IH]; cbn [drop_one]; intros H w' r I E; [destruct I|]. destruct (drop_prefix w s) as [r'|] eqn:Ep; [discriminate|].
    destruct I as [->|I]; [|exact (IH H w' r I E)]. apply drop_prefix_some in E. congruence.
  - intros H. destruct (drop_one ws s) as [r|] eqn:E; [|reflexivity]. apply drop_one_some in E. destruct E as (w & I & E). destruct (H w r I E).
Qed.

(** no word is empty and none is the beginning of another *)
Definition code (ws : list bytes) : Prop := ~ In [] ws /\ forall w1 w2 r, In w1 ws -> In w2 ws -> w1 = w2 ++ r -> w1 = w2.
Lemma app_prefix : forall (a b c d : bytes), a ++ b = c ++ d -> (exists r, a = c ++ r) \/ exists r, c = a ++ r.
Proof.
  induction a as [|x a IH]; intros b c d H; [right; exists c; reflexivity|]. destruct c as [|y c]; [left; exists (x :: a); reflexivity|].
  cbn [app] in H. injection H as <- H. destruct (IH _ _ _ H) as [[r ->]|[r ->]]; [left|right]; exists r; reflexivity.
Qed.
Lemma code_unique : forall ws w1 w2 r1 r2, code ws -> In w1 ws -> In w2 ws -> w1 ++ r1 = w2 ++ r2 -> w1 = w2 /\ r1 = r2.
Proof.
  intros ws w1 w2 r1 r2 (_ & C) I1 I2 E. assert (W : w1 = w2).
  { destruct (app_prefix _ _ _ _ E) as [[r H]|[r H]]; [eapply C; eauto|symmetry; eapply C; eauto]. }
  subst w2. split; [reflexivity|]. apply app_inv_head in E. auto.
Qed.
Lemma concat_unique : forall ws, code ws -> forall a b r1 r2, Forall (fun w => In w ws) a -> Forall (fun w => In w ws) b ->
  List.concat a ++ r1 = List.concat b ++ r2 -> drop_one ws r1 = None -> drop_one ws r2 = None -> r1 = r2.
Proof.
  intros ws C a. induction a as [|x a IH]; intros b r1 r2 Fa Fb E D1 D2.
  - destruct b as [|y b]; [exact E|]. inversion Fb; subst. cbn [List.concat app] in E. rewrite <- app_assoc in E.
    destruct (proj1 (drop_one_none ws r1) D1 y (List.concat b ++ r2)); auto.
  - inversion Fa; subst. cbn [List.concat] in E. rewrite <- app_assoc in E. destruct b as [|y b].
    + cbn [List.concat app] in E. destruct (proj1 (drop_one_none ws r2) D2 x (List.concat a ++ r1)); auto.
    + inversion Fb; subst. cbn [List.concat] in E. rewrite <- app_assoc in E. destruct (code_unique ws x y _ _ C ltac:(assumption) ltac:(assumption) E) as [-> E2].
      eapply IH; eauto.
Qed.
Lemma drop_all_spec : forall ws, ~ In [] ws -> forall fuel s, (List.length s <= fuel)%nat ->
  exists a, Forall (fun w => In w ws) a /\ s = List.concat a ++ drop_all fuel ws s /\ drop_one ws (drop_all fuel ws s) = None.
Proof.
  intros ws N. induction fuel as [|fuel IH]; intros s L; cbn [drop_all].
  - destruct s; [|simpl in L; lia]. exists []. split; [constructor|]. split; [reflexivity|]. apply drop_one_none. intros w r I E.
    destruct w; [contradiction|discriminate].
  - destruct (drop_one ws s) as [r|] eqn:E; [|exists []; auto]. apply drop_one_some in E. destruct E as (w & I & ->).
    destruct (IH r) as (a & Fa & Ea & Da). { rewrite app_length in L. destruct w; [contradiction|]. simpl in L. lia. }
    exists (w :: a). split; [constructor; auto|]. split; [cbn [List.concat]; rewrite <- app_assoc; congruence|exact Da].
Qed.

(** the list of encodings is right *)
Lemma byteZ_inj : forall a b, byteZ a = byteZ b -> a = b.
Proof.
  intros a b H. unfold byteZ in H. apply N2Z.inj in H. assert (O : Byte.of_N (Byte.to_N a) = Byte.of_N (Byte.to_N b)) by congruence.
  rewrite !Byte.of_to_N in O. congruence.
Qed.
Lemma byteZ_bound : forall a, (0 <= byteZ a < 256)%Z.
Proof. intros a. destruct a; vm_compute; split; congruence. Qed.
Lemma white_char_spaces : forall b, white_char b <-> In b spaces.
Proof.
  intros b. split.
  - intros (c & W & U). unfold white_code in W. inversion U as [x Hx|x y c' Hx Hy Ec Lc|x y z c' Hx Hy Hz Ec Lc Ns|x y z t c' Hx Hy Hz Ht Ec Lc]; subst; unfold continues in *; clear U.
    + pose proof (byteZ_bound x) as Bx. assert (K : forall d, byteZ x = byteZ d -> In [d] spaces -> In [x] spaces) by (intros d Hd; rewrite (byteZ_inj x d Hd); auto).
      assert (D : (byteZ x = 9 \/ byteZ x = 10 \/ byteZ x = 11 \/ byteZ x = 12 \/ byteZ x = 13 \/ byteZ x = 32)%Z) by lia. clear W.
      destruct D as [D|[D|[D|[D|[D|D]]]]];
        [apply (K "009"%byte)|apply (K "010"%byte)|apply (K "011"%byte)|apply (K "012"%byte)|apply (K "013"%byte)|apply (K " "%byte)]; try exact D; unfold spaces; simpl; tauto.
    + assert (Ex : byteZ x = byteZ "194"%byte) by (change (byteZ "194"%byte) with 194%Z; lia). apply byteZ_inj in Ex. subst x. change (byteZ "194"%byte) with 194%Z in *.
      assert (D : (byteZ y = byteZ "133"%byte \/ byteZ y = byteZ "160"%byte)%Z) by (change (byteZ "133"%byte) with 133%Z; change (byteZ "160"%byte) with 160%Z; lia).
      destruct D as [D|D]; apply byteZ_inj in D; subst y; unfold spaces; simpl; tauto.
    + assert (K : forall d e f, byteZ x = byteZ d -> byteZ y = byteZ e -> byteZ z = byteZ f -> In [d; e; f] spaces -> In [x; y; z] spaces)
        by (intros d e f Hd He Hf; rewrite (byteZ_inj x d Hd), (byteZ_inj y e He), (byteZ_inj z f Hf); auto).
      set (v := (((byteZ x - 224) * 64 + (byteZ y - 128)) * 64 + (byteZ z - 128))%Z) in *.
      assert (D : (v = 5760 \/ v = 8192 \/ v = 8193 \/ v = 8194 \/ v = 8195 \/ v = 8196 \/ v = 8197 \/ v = 8198 \/ v = 8199 \/ v = 8200 \/ v = 8201 \/ v = 8202 \/
                   v = 8232 \/ v = 8233 \/ v = 8239 \/ v = 8287 \/ v = 12288)%Z) by lia. clear W Ns Lc. unfold v in D. clear v.
      Local Ltac pick K d e f D := apply (K d e f);
        [let u := eval vm_compute in (byteZ d) in change (byteZ d) with u; lia
        |let u := eval vm_compute in (byteZ e) in change (byteZ e) with u; lia
        |let u := eval vm_compute in (byteZ f) in change (byteZ f) with u; lia
        |unfold spaces; simpl; tauto].
      destruct D as [D|D]; [pick K "225"%byte "154"%byte "128"%byte D|].
      destruct D as [D|D]; [pick K "226"%byte "128"%byte "128"%byte D|].
      destruct D as [D|D]; [pick K "226"%byte "128"%byte "129"%byte D|].
      destruct D as [D|D]; [pick K "226"%byte "128"%byte "130"%byte D|].
      destruct D as [D|D]; [pick K "226"%byte "128"%byte "131"%byte D|].
      destruct D as [D|D]; [pick K "226"%byte "128"%byte "132"%byte D|].
      destruct D as [D|D]; [pick K "226"%byte "128"%byte "133"%byte D|].
      destruct D as [D|D]; [pick K "226"%byte "128"%byte "134"%byte D|].
      destruct D as [D|D]; [pick K "226"%byte "128"%byte "135"%byte D|].
      destruct D as [D|D]; [pick K "226"%byte "128"%byte "136"%byte D|].
      destruct D as [D|D]; [pick K "226"%byte "128"%byte "137"%byte D|].
      destruct D as [D|D]; [pick K "226"%byte "128"%byte "138"%byte D|].
      destruct D as [D|D]; [pick K "226"%byte "128"%byte "168"%byte D|].
      destruct D as [D|D]; [pick K "226"%byte "128"%byte "169"%byte D|].
      destruct D as [D|D]; [pick K "226"%byte "128"%byte "175"%byte D|].
      destruct D as [D|D]; [pick K "226"%byte "129"%byte "159"%byte D|].
      pick K "227"%byte "128"%byte "128"%byte D.
    + exfalso. lia.
  - intros H. unfold white_char, white_code.
    assert (A : forall x c, byteZ x = c -> (c < 128)%Z -> utf8 c [x]) by (intros x c <- L; apply utf8_1; exact L).
    assert (B : forall x y c, (192 <=? byteZ x) && (byteZ x <? 224) && (128 <=? byteZ y) && (byteZ y <? 192) && (c =? (byteZ x - 192) * 64 + (byteZ y - 128)) && (128 <=? c) = true -> utf8 c [x; y]).
    { intros x y c H0. apply utf8_2; unfold continues; lia. }
    assert (D : forall x y z c, (224 <=? byteZ x) && (byteZ x <? 240) && (128 <=? byteZ y) && (byteZ y <? 192) && (128 <=? byteZ z) && (byteZ z <? 192) &&
                (c =? ((byteZ x - 224) * 64 + (byteZ y - 128)) * 64 + (byteZ z - 128)) && (2048 <=? c) && (c <? 55296) = true -> utf8 c [x; y; z]).
    { intros x y z c H0. apply utf8_3; unfold continues, surrogate; lia. }
    unfold spaces in H. simpl in H.
    repeat (destruct H as [<-|H]; [
      match goal with
      | |- exists c, _ /\ utf8 c [?x] => let u := eval vm_compute in (byteZ x) in exists u; split; [lia|apply A; [reflexivity|lia]]
      | |- exists c, _ /\ utf8 c [?x; ?y] => let u := eval vm_compute in ((byteZ x - 192) * 64 + (byteZ y - 128))%Z in exists u; split; [lia|apply B; reflexivity]
      | |- exists c, _ /\ utf8 c [?x; ?y; ?z] => let u := eval vm_compute in (((byteZ x - 224) * 64 + (byteZ y - 128)) * 64 + (byteZ z - 128))%Z in exists u; split; [lia|apply D; reflexivity]
      end|]). destruct H.
Qed.

Definition code_b (ws : list bytes) : bool :=
  forallb (fun w => negb (beqb w [])) ws && forallb (fun w1 => forallb (fun w2 => match drop_prefix w2 w1 with Some _ => beqb w1 w2 | None => true end) ws) ws.
Lemma code_b_ok : forall ws, code_b ws = true -> code ws.
Proof.
  intros ws H. apply andb_true_iff in H. destruct H as [H1 H2]. rewrite forallb_forall in H1, H2. split.
  - intros I. specialize (H1 _ I). discriminate.
  - intros w1 w2 r I1 I2 E. specialize (H2 _ I1). cbn beta in H2. rewrite forallb_forall in H2. specialize (H2 _ I2). cbn beta in H2. apply drop_prefix_some in E. rewrite E in H2. apply beqb_eq in H2. exact H2.
Qed.
Lemma spaces_code : code spaces. Proof. apply code_b_ok. vm_compute. reflexivity. Qed.
Lemma spaces_rev_code : code (map (@rev byte) spaces). Proof. apply code_b_ok. vm_compute. reflexivity. Qed.
(** no white character starts inside another *)
Lemma spaces_start : forall w1 w2 a b c r, In w1 spaces -> In w2 spaces -> w1 = a :: b ++ c :: r -> forall t, w2 <> c :: t.
Proof.
  assert (K : forallb (fun w1 => forallb (fun w2 => forallb (fun c => negb (beqb (firstn 1 w2) [c])) (tl w1)) spaces) spaces = true) by (vm_compute; reflexivity).
  intros w1 w2 a b c r I1 I2 E t E2. rewrite forallb_forall in K. specialize (K _ I1). cbn beta in K. rewrite forallb_forall in K. specialize (K _ I2). cbn beta in K. rewrite forallb_forall in K.
  specialize (K c). subst w1 w2. cbn [tl firstn] in K. cbn beta in K. rewrite beqb_refl in K. cbn [negb] in K. assert (X : false = true); [|discriminate].
  apply K. apply in_app_iff. right. simpl. auto.
Qed.

Lemma blank_spaces : forall s, blank s <-> exists a, Forall (fun w => In w spaces) a /\ s = List.concat a.
Proof.
  intros s. unfold blank. split; intros (a & F & E); exists a; split; auto; (eapply Forall_impl; [|exact F]); intros w; apply white_char_spaces.
Qed.
Lemma concat_rev : forall (a : list bytes), rev (List.concat a) = List.concat (map (@rev byte) (rev a)).
Proof.
  induction a as [|x a IH]; [reflexivity|]. cbn [List.concat rev]. rewrite rev_app_distr, IH, map_app, concat_app. cbn [map List.concat]. rewrite app_nil_r. reflexivity.
Qed.
Lemma rev_spaces : forall a, Forall (fun w => In w spaces) a <-> Forall (fun w => In w (map (@rev byte) spaces)) (map (@rev byte) (rev a)).
Proof.
  intros a. rewrite !Forall_forall. split.
  - intros H w I. apply in_map_iff in I. destruct I as (x & <- & I). apply in_map. apply H. apply in_rev. exact I.
  - intros H w I. assert (J : In (rev w) (map (@rev byte) (rev a))) by (apply in_map; apply in_rev in I; exact I). apply H in J. apply in_map_iff in J.
    destruct J as (x & E & I2). apply (f_equal (@rev byte)) in E. rewrite !rev_involutive in E. subst; exact I2.
Qed.
Lemma ends_none : forall s, drop_one (map (@rev byte) spaces) (rev s) = None <-> forall w r, In w spaces -> s <> r ++ w.
Proof.
  intros s. rewrite drop_one_none. split.
  - intros H w r I E. apply (H (rev w) (rev r)); [apply in_map; auto|]. rewrite <- rev_app_distr. congruence.
  - intros H w r I E. apply in_map_iff in I. destruct I as (x & <- & I). apply (H x (rev r) I). apply (f_equal (@rev byte)) in E.
    rewrite rev_involutive, rev_app_distr, rev_involutive in E. exact E.
Qed.

Lemma trimmed_spaces : forall s t, trimmed s t <-> exists before after, blank before /\ blank after /\ s = before ++ t ++ after /\
  drop_one spaces t = None /\ drop_one (map (@rev byte) spaces) (rev t) = None.
Proof.
  intros s t. unfold trimmed. split; intros (b & a & B & A & E & H); exists b, a; repeat (split; [assumption|]).
  - split; [apply drop_one_none|apply ends_none]; intros w r I; apply (H w r); apply white_char_spaces; exact I.
  - intros w r W. apply white_char_spaces in W. destruct H as [H1 H2]. split; [apply (proj1 (drop_one_none _ _) H1); auto|apply (proj1 (ends_none _) H2); auto].
Qed.
Theorem trim_space_trimmed : forall s, trimmed s (trim_space s).
Proof.
  intros s. apply trimmed_spaces. unfold trim_space, trim_right, trim_left.
  destruct (drop_all_spec spaces (proj1 spaces_code) (List.length s) s (le_n _)) as (a & Fa & Ea & Da).
  set (t := drop_all (List.length s) spaces s) in *.
  destruct (drop_all_spec (map (@rev byte) spaces) (proj1 spaces_rev_code) (List.length t) (rev t)) as (b & Fb & Eb & Db); [rewrite rev_length; auto|].
  set (u := drop_all (List.length t) (map (@rev byte) spaces) (rev t)) in *.
  assert (Et : t = rev u ++ List.concat (map (@rev byte) (rev b))).
  { apply (f_equal (@rev byte)) in Eb. rewrite rev_involutive, rev_app_distr, concat_rev in Eb. exact Eb. }
  exists (List.concat a), (List.concat (map (@rev byte) (rev b))). split; [apply blank_spaces; eauto|]. split.
  { apply blank_spaces. eexists. split; [|reflexivity]. apply rev_spaces. refine (eq_ind_r (fun l => Forall (fun w => In w (map (@rev byte) spaces)) l) Fb _).
    rewrite (map_rev (@rev byte) b), rev_involutive, map_map. rewrite (map_ext _ (fun x => x)) by (intros; apply rev_involutive). rewrite map_id. reflexivity. }
  rewrite <- Et. split; [exact Ea|]. rewrite rev_involutive. split; [|exact Db].
  apply drop_one_none. intros w r I E. apply (proj1 (drop_one_none _ _) Da w (r ++ List.concat (map (@rev byte) (rev b))) I).
  rewrite Et, E, <- app_assoc. reflexivity.
Qed.
Lemma app_blank_starts : forall t a, t <> [] -> drop_one spaces t = None -> blank a -> drop_one spaces (t ++ a) = None.
Proof.
  intros t a N D B. apply blank_spaces in B. destruct B as (ws & F & ->). apply drop_one_none. intros w r I E.
  destruct (app_prefix _ _ _ _ E) as [[q H]|[q H]]; [exact (proj1 (drop_one_none _ _) D w q I H)|].
  subst w. rewrite <- app_assoc in E. apply app_inv_head in E. destruct q as [|c q].
  { rewrite app_nil_r in I. apply (proj1 (drop_one_none _ _) D t [] I). rewrite app_nil_r. reflexivity. }
  destruct ws as [|v ws]; [discriminate|]. inversion F; subst. cbn [List.concat] in E. destruct v as [|c' v]; [destruct spaces_code; contradiction|].
  cbn [app] in E. injection E as -> _. destruct t as [|x t]; [contradiction|]. cbn [app] in I. eapply spaces_start; [exact I|eassumption|reflexivity|reflexivity].
Qed.
Lemma trimmed_unique : forall s t1 t2, trimmed s t1 -> trimmed s t2 -> t1 = t2.
Proof.
  assert (Z0 : forall s t, trimmed s t -> blank s -> t = []).
  { intros s t H Bl. apply trimmed_spaces in H. destruct H as (b & a & B & A & E & D1 & D2). destruct t as [|x t]; [reflexivity|].
    assert (D : drop_one spaces ((x :: t) ++ a) = None) by (apply app_blank_starts; auto; discriminate).
    apply blank_spaces in B, Bl. destruct B as (bs & Fb & ->), Bl as (ss & Fs & ->). rewrite <- (app_nil_r (List.concat ss)) in E.
    apply (concat_unique spaces spaces_code) in E; auto. discriminate. }
  assert (Z1 : forall s, trimmed s [] -> blank s).
  { intros s H. apply trimmed_spaces in H. destruct H as (b & a & B & A & -> & _). apply blank_spaces in B, A. destruct B as (bs & Fb & ->), A as (az & Fa & ->).
    apply blank_spaces. exists (bs ++ az). split; [apply Forall_app; auto|]. rewrite concat_app. reflexivity. }
  intros s t1 t2 H1 H2. destruct t1 as [|x1 t1]; [symmetry; apply (Z0 s); auto|]. destruct t2 as [|x2 t2]; [apply (Z0 s); auto|].
  apply trimmed_spaces in H1, H2. destruct H1 as (b1 & a1 & B1 & A1 & E1 & P1 & Q1), H2 as (b2 & a2 & B2 & A2 & E2 & P2 & Q2).
  assert (D1 : drop_one spaces ((x1 :: t1) ++ a1) = None) by (apply app_blank_starts; auto; discriminate).
  assert (D2 : drop_one spaces ((x2 :: t2) ++ a2) = None) by (apply app_blank_starts; auto; discriminate).
  apply blank_spaces in B1, B2, A1, A2. destruct B1 as (u1 & F1 & ->), B2 as (u2 & F2 & ->), A1 as (v1 & G1 & ->), A2 as (v2 & G2 & ->).
  assert (E : (x1 :: t1) ++ List.concat v1 = (x2 :: t2) ++ List.concat v2).
  { apply (concat_unique spaces spaces_code u1 u2); auto. congruence. }
  apply (f_equal (@rev byte)) in E. rewrite !rev_app_distr, !concat_rev in E. apply (concat_unique _ spaces_rev_code) in E; auto; try (apply rev_spaces; assumption).
  apply (f_equal (@rev byte)) in E. rewrite !rev_involutive in E. exact E.
Qed.
(** the model's TrimSpace removes exactly the white space around *)
Theorem trim_space_iff : forall s t, trim_space s = t <-> trimmed s t.
Proof. intros s t. split; [intros <-; apply trim_space_trimmed|intros H; eapply trimmed_unique; [apply trim_space_trimmed|exact H]]. Qed.

Lemma nl_white : white_char [nl].
Proof. apply white_char_spaces. unfold spaces. simpl. tauto. Qed.
Lemma blank_app : forall a b, blank a -> blank b -> blank (a ++ b).
Proof. intros a b (x & Fx & ->) (y & Fy & ->). exists (x ++ y). split; [apply Forall_app; auto|rewrite concat_app; auto]. Qed.
Lemma blank_nil : blank []. Proof. exists []. auto. Qed.
Lemma blank_char : forall w, white_char w -> blank w.
Proof. intros w H. exists [w]. split; [auto|]. cbn [List.concat]. rewrite app_nil_r. reflexivity. Qed.
(** trailing white space does not matter *)
Lemma trim_right_app : forall a b, blank b -> trim_space (a ++ b) = trim_space a.
Proof.
  intros a b H. apply trim_space_iff. destruct (trim_space_trimmed a) as (x & y & X & Y & E & N). exists x, (y ++ b). split; [exact X|].
  split; [apply blank_app; auto|]. split; [|exact N]. rewrite E at 1. rewrite <- !app_assoc. reflexivity.
Qed.
Lemma trim_nl : forall a, trim_space (a ++ [nl]) = trim_space a.
Proof. intros. apply trim_right_app. apply blank_char. apply nl_white. Qed.
Lemma white_nonempty : forall w, white_char w -> w <> [].
Proof. intros w H ->. apply white_char_spaces in H. destruct spaces_code. contradiction. Qed.
Lemma trim_blank : forall s, trim_space s = [] <-> blank s.
Proof.
  intros s. rewrite trim_space_iff. split.
  - intros (x & y & X & Y & -> & _). apply blank_app; auto.
  - intros H. exists s, []. split; [exact H|]. split; [apply blank_nil|]. split; [rewrite app_nil_r; reflexivity|].
    intros w r W. apply white_nonempty in W. split; intros E; apply W; [destruct w; auto; discriminate|destruct r, w; auto; discriminate].
Qed.
(** a trimmed line is never a single newline: the first loop of ReadParamsUntilBlank always
    leaves after one iteration *)
Lemma trim_space_not_newline : forall s, beqb (trim_space s) [nl] = false.
Proof.
  intros s. apply beqb_neq. intros H. apply trim_space_iff in H. destruct H as (x & y & _ & _ & _ & N). destruct (N [nl] [] nl_white) as [K _]. apply K. reflexivity.
Qed.
Lemma trim_space_shorter : forall s, zlen (trim_space s) <= zlen s.
Proof.
  intros s. destruct (trim_space_trimmed s) as (x & y & _ & _ & E & _). rewrite E at 2. rewrite !zlen_app.
  pose proof (zlen_nonneg byte x). pose proof (zlen_nonneg byte y). lia.
Qed.
(** a string whose first and last byte are visible ASCII characters is its own trim *)
Definition visible (c : byte) : Prop := 32 < byteZ c < 127.
Lemma white_ends : forall w c, white_char w -> visible c -> (forall r, w <> c :: r) /\ forall r, w <> r ++ [c].
Proof.
  intros w c H V. apply white_char_spaces in H.
  assert (K : forallb (fun w => match w, rev w with a :: _, b :: _ => negb ((32 <? byteZ a) && (byteZ a <? 127)) && negb ((32 <? byteZ b) && (byteZ b <? 127)) | _, _ => false end) spaces = true)
    by (vm_compute; reflexivity).
  rewrite forallb_forall in K. specialize (K w H). unfold visible in V. cbn beta in K. split; intros r ->.
  - destruct (rev (c :: r)); [discriminate|]. lia.
  - assert (R : rev (r ++ [c]) = c :: rev r) by (rewrite rev_app_distr; reflexivity). destruct (r ++ [c]); [discriminate|]. rewrite R in K. lia.
Qed.
Lemma trim_id : forall s, (forall c t, s = c :: t -> visible c) -> (forall c t, s = t ++ [c] -> visible c) -> trim_space s = s.
Proof.
  intros s H1 H2. apply trim_space_iff. exists [], []. split; [apply blank_nil|]. split; [apply blank_nil|]. split; [rewrite app_nil_r; reflexivity|].
  intros w r W. pose proof (white_nonempty w W) as N. split; intros E.
  - destruct w as [|c w]; [contradiction|]. cbn [app] in E. destruct (white_ends (c :: w) c W (H1 c (w ++ r) E)) as [K _]. apply (K w). reflexivity.
  - destruct (exists_last N) as (w0 & c & ->). rewrite app_assoc in E. destruct (white_ends _ c W (H2 c _ E)) as [_ K]. apply (K w0). reflexivity.
Qed.

(** ** Lines of a parameter block *)
Lemma params_line_says : forall ps line kv, line_says line kv -> params_line ps (trim_space line) = Ok (kv :: ps).
Proof.
  intros ps line kv H. unfold params_line. destruct H as [k v E Hk Hv|k E Hk]; apply trim_space_iff in E; rewrite E.
  - rewrite split_here, split_none by auto. reflexivity.
  - rewrite split_none by auto. reflexivity.
Qed.

Lemma params_line_inv : forall ps line ps', params_line ps (trim_space line) = Ok ps' -> exists kv, line_says line kv /\ ps' = kv :: ps.
Proof.
  intros ps line ps' H. unfold params_line in H.
  destruct (first_occurrence eqc (trim_space line)) as [N|(k & v & E & N)].
  - rewrite split_none in H by auto. injection H as <-. exists (trim_space line, []). split; auto. apply says_key; auto. apply trim_space_trimmed.
  - rewrite E, split_here in H by auto. destruct (first_occurrence eqc v) as [M|(v1 & v2 & -> & M)].
    + rewrite split_none in H by auto. injection H as <-. exists (k, v). split; auto. apply says_pair; auto. apply trim_space_iff. exact E.
    + rewrite split_here in H by auto. destruct (split_tokens eqc v2) as (_ & _ & T).
      destruct (split v2 [eqc]); [contradiction|discriminate].
Qed.

Lemma params_line_two : forall ps line a b c, trimmed line (a ++ eqc :: b ++ eqc :: c) -> exists m, params_line ps (trim_space line) = Err m.
Proof.
  intros ps line a b c E. apply trim_space_iff in E. destruct (params_line ps (trim_space line)) as [ps'|m|m|] eqn:H; eauto.
  - apply params_line_inv in H. destruct H as (kv & H & _). exfalso.
    assert (C : forall x : bytes, (count_occ Byte.byte_eq_dec x eqc = 0)%nat <-> ~ In eqc x) by (intros; symmetry; apply count_occ_not_In).
    destruct H as [k v E' Hk Hv|k E' Hk]; apply trim_space_iff in E'; rewrite E in E'; apply (f_equal (fun x => count_occ Byte.byte_eq_dec x eqc)) in E';
      rewrite !count_occ_app in E'; cbn [count_occ] in E'; rewrite !count_occ_app in E'; cbn [count_occ] in E'.
    + apply C in Hk. apply C in Hv. destruct (Byte.byte_eq_dec eqc eqc); [lia|congruence].
    + apply C in Hk. destruct (Byte.byte_eq_dec eqc eqc); [lia|congruence].
  - exfalso. unfold params_line in H. destruct (split _ _) as [|x [|y [|z l]]]; discriminate.
  - exfalso. unfold params_line in H. destruct (split _ _) as [|x [|y [|z l]]]; discriminate.
Qed.

Lemma params_line_cases : forall ps line, (exists ps', params_line ps line = Ok ps') \/ (exists m, params_line ps line = Err m).
Proof. intros ps line. unfold params_line. destruct (split _ _) as [|x [|y [|z l]]]; eauto. Qed.

(** lookup in the accumulated list is the last value of the lines read *)
Lemma lookup_app : forall a b k, lookup (a ++ b) k = match lookup a k with Some v => Some v | None => lookup b k end.
Proof. induction a as [|[x y] a IH]; intros b k; simpl; auto. destruct (beqb x k); auto. Qed.
Lemma lookup_rev : forall kvs k, lookup (rev kvs) k = last_value kvs k.
Proof.
  induction kvs as [|[x y] kvs IH]; intros k; simpl; auto. rewrite lookup_app, IH. destruct (last_value kvs k); auto.
Qed.
