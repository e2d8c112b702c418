(** * Integers and words are read as the specification says *)

From Coq Require Import ZArith List Bool Lia ZifyBool.
From Verif Require Import Go GoText Spec_Words Pf_Go Pf_Text.
Local Open Scope Z_scope.

(** ** Integers *)
Lemma digit_iff : forall c d, digit_says c d <-> digit c = Some d.
Proof.
  intros c d. unfold digit_says, digit. change (byteZ "0"%byte) with 48. destruct ((48 <=? byteZ c) && (byteZ c <=? 57)) eqn:E; split.
  - intros (A & B). f_equal. lia.
  - intros H. injection H as <-. lia.
  - intros (A & B). lia.
  - discriminate.
Qed.
Lemma digits_snoc : forall s c acc, digits (s ++ [c]) acc = match digits s acc with Some n => match digit c with Some d => Some (10 * n + d) | None => None end | None => None end.
Proof.
  induction s as [|x s IH]; intros c acc; cbn [app digits]; [destruct (digit c); reflexivity|]. destruct (digit x); [apply IH|reflexivity].
Qed.
Lemma natural_digits : forall s n, natural s n <-> s <> [] /\ digits s 0 = Some n.
Proof.
  intros s n. split.
  - intros H. induction H as [c d D|s n c d H IH D]; apply digit_iff in D.
    + split; [discriminate|]. cbn [digits]. rewrite D. reflexivity.
    + destruct IH as [_ IH]. split; [destruct s; discriminate|]. rewrite digits_snoc, IH, D. reflexivity.
  - revert n. induction s as [|c s IH] using rev_ind; intros n (N & H); [contradiction|]. rewrite digits_snoc in H.
    destruct (digits s 0) as [m|] eqn:E; [|discriminate]. destruct (digit c) as [d|] eqn:D; [|discriminate]. injection H as <-. apply digit_iff in D.
    destruct s as [|x s].
    + cbn [digits] in E. injection E as <-. cbn [app]. replace (10 * 0 + d) with d by lia. apply nat_one. exact D.
    + apply nat_more; [apply IH; split; [discriminate|reflexivity]|exact D].
Qed.
Lemma natural_iff : forall s n, natural s n <-> parse_nat s = Some n.
Proof.
  intros s n. rewrite natural_digits. unfold parse_nat. destruct s; [split; [intros (N & _); contradiction|discriminate]|]. split; [tauto|]. intros H. split; [discriminate|exact H].
Qed.
Lemma natural_nonneg : forall s n, natural s n -> 0 <= n.
Proof. intros s n H. induction H as [c d (A & _)|s n c d H IH (A & _)]; lia. Qed.
Lemma natural_first : forall c s n, natural (c :: s) n -> c <> "+"%byte /\ c <> "-"%byte.
Proof.
  intros c s n H. apply natural_digits in H. destruct H as [_ H]. cbn [digits] in H. split; intros ->; discriminate.
Qed.
Lemma integer_iff : forall s z, integer s z <-> parse_signed s = Some z.
Proof.
  intros s z. split.
  - intros H. destruct H as [s n H|s n H|s n H]; unfold parse_signed.
    + destruct s as [|c s]; [apply natural_digits in H; destruct H; contradiction|]. destruct (natural_first _ _ _ H) as [A B].
      rewrite (proj2 (byte_eqb_neq c "+") A), (proj2 (byte_eqb_neq c "-") B). apply natural_iff. exact H.
    + rewrite byte_eqb_refl. apply natural_iff. exact H.
    + change (Byte.eqb "-" "+") with false. rewrite byte_eqb_refl. apply natural_iff in H. rewrite H. reflexivity.
  - unfold parse_signed. destruct s as [|c s]; [discriminate|]. destruct (Byte.eqb c "+") eqn:E1.
    + apply byte_eqb_eq in E1. subst c. intros H. apply int_plus. apply natural_iff. exact H.
    + destruct (Byte.eqb c "-") eqn:E2.
      * apply byte_eqb_eq in E2. subst c. destruct (parse_nat s) as [n|] eqn:E; [|discriminate]. intros H. injection H as <-. apply int_minus. apply natural_iff. exact E.
      * intros H. apply int_plain. apply natural_iff. exact H.
Qed.
Lemma in_range_iff : forall lo hi o z, in_range lo hi o = Some z <-> o = Some z /\ lo <= z <= hi.
Proof.
  intros lo hi [y|] z; cbn [in_range]; [|split; [discriminate|intros (H & _); discriminate]].
  destruct ((lo <=? y) && (y <=? hi)) eqn:E; split; intros H.
  - injection H as <-. split; [reflexivity|lia].
  - destruct H as [H _]. exact H.
  - discriminate.
  - destruct H as [H1 H2]. injection H1 as ->. lia.
Qed.
Theorem int64_iff : forall s z, int64_text s z <-> atoi s = Some z.
Proof. intros s z. unfold int64_text, atoi. rewrite in_range_iff, integer_iff. change two63 with (2 ^ 63). intuition lia. Qed.
Theorem int32_iff : forall s z, int32_text s z <-> parse_int32 s = Some z.
Proof. intros s z. unfold int32_text, parse_int32. rewrite in_range_iff, integer_iff. change two31 with (2 ^ 31). intuition lia. Qed.
Theorem uint32_iff : forall s z, uint32_text s z <-> parse_uint32 s = Some z.
Proof.
  intros s z. unfold uint32_text, parse_uint32. rewrite in_range_iff. change two32 with (2 ^ 32). split.
  - intros (H & L). pose proof (natural_nonneg _ _ H). split; [apply natural_iff; exact H|lia].
  - intros (H & L). split; [apply natural_iff; exact H|lia].
Qed.

(** ** Words *)
Lemma parts_join : forall c s ts, parts c s ts <-> ts <> [] /\ Forall (fun t => ~ In c t) ts /\ s = join c ts.
Proof.
  intros c s ts. unfold parts. assert (E : (match ts with [] => [] | t :: ts => t ++ flat_map (fun t => c :: t) ts end) = join c ts).
  { destruct ts as [|t ts]; [reflexivity|]. revert t. induction ts as [|u ts IH]; intros t; [cbn; apply app_nil_r|]. change (join c (t :: u :: ts)) with (t ++ c :: join c (u :: ts)). rewrite <- (IH u). reflexivity. }
  split; intros (X & Y & Z0); (split; [exact X|split; [exact Y|]]); rewrite Z0; [exact E|symmetry; exact E].
Qed.
Lemma parts_split : forall c s ts, parts c s ts <-> split s [c] = ts.
Proof.
  intros c s ts. rewrite parts_join. split.
  - intros (N & F & ->). apply split_join; auto.
  - intros <-. destruct (split_tokens c s) as (A & B & C). auto.
Qed.

Lemma split_go_skip : forall sep a s cur, split_go sep (a ++ s) cur (List.length a) = split_go sep s cur 0.
Proof. intros sep a. induction a as [|x a IH]; intros s cur; [reflexivity|]. cbn [app List.length split_go]. apply IH. Qed.
Lemma has_prefix_iff : forall pre s, has_prefix s pre = true <-> exists r, s = pre ++ r.
Proof.
  induction pre as [|c pre IH]; intros s; [split; [exists s; reflexivity|destruct s; reflexivity]|].
  destruct s as [|d s]; [split; [discriminate|intros (r & H); discriminate]|]. cbn [has_prefix app]. split.
  - intros H. apply andb_true_iff in H. destruct H as [H1 H2]. apply byte_eqb_eq in H1. subst. apply IH in H2. destruct H2 as [r ->]. exists r. reflexivity.
  - intros (r & H). injection H as -> ->. rewrite byte_eqb_refl. apply IH. exists r. reflexivity.
Qed.
Lemma pieces_none : forall sep s cur : bytes, (forall a b, s <> a ++ sep ++ b) -> split_go sep s cur 0 = [rev cur ++ s].
Proof.
  intros sep s. induction s as [|c s IH]; intros cur H; cbn [split_go]; [rewrite app_nil_r; reflexivity|].
  destruct (has_prefix (c :: s) sep) eqn:E; [apply has_prefix_iff in E; destruct E as [r E]; destruct (H [] r E)|].
  rewrite IH; [cbn [rev]; rewrite <- app_assoc; reflexivity|]. intros a b Ea. apply (H (c :: a) b). rewrite Ea. reflexivity.
Qed.
Lemma pieces_here : forall sep t rest cur : bytes, sep <> [] ->
  (forall a b, t ++ sep ++ rest = a ++ sep ++ b -> (List.length t <= List.length a)%nat) ->
  split_go sep (t ++ sep ++ rest) cur 0 = (rev cur ++ t) :: split_go sep rest [] 0.
Proof.
  intros sep t rest. induction t as [|c t IH]; intros cur N H.
  - cbn [app]. clear H. destruct sep as [|d sep]; [contradiction|]. cbn [app split_go]. rewrite (proj2 (has_prefix_iff (d :: sep) (d :: sep ++ rest))) by (exists rest; reflexivity).
    rewrite app_nil_r. cbn [List.length Nat.pred]. rewrite split_go_skip. reflexivity.
  - cbn [app split_go]. destruct (has_prefix (c :: t ++ sep ++ rest) sep) eqn:E.
    + apply has_prefix_iff in E. destruct E as [r E]. specialize (H [] r E). cbn [List.length] in H. lia.
    + rewrite IH; auto.
      * cbn [rev]. rewrite <- app_assoc. reflexivity.
      * intros a b Ea. specialize (H (c :: a) b). cbn [app List.length] in H. rewrite Ea in H. specialize (H eq_refl). lia.
Qed.
Lemma leftmost : forall sep s : bytes, (forall a b, s <> a ++ sep ++ b) \/
  exists t rest, s = t ++ sep ++ rest /\ forall a b, s = a ++ sep ++ b -> (List.length t <= List.length a)%nat.
Proof.
  intros sep s. induction s as [|c s IH].
  - destruct sep as [|d sep]; [right; exists [], []; split; [reflexivity|simpl; lia]|]. left. intros a b H. destruct a; discriminate.
  - destruct (has_prefix (c :: s) sep) eqn:E.
    + apply has_prefix_iff in E. destruct E as [r E]. right. exists [], r. split; [exact E|simpl; lia].
    + assert (Z0 : forall b, c :: s <> sep ++ b). { intros b H. assert (X : has_prefix (c :: s) sep = true) by (apply has_prefix_iff; eauto). congruence. }
      destruct IH as [IH|(t & rest & -> & IH)].
      * left. intros a b H. destruct a as [|x a]; [exact (Z0 b H)|]. cbn [app] in H. injection H as _ H. exact (IH a b H).
      * right. exists (c :: t), rest. split; [reflexivity|]. intros a b H. destruct a as [|x a]; [destruct (Z0 b H)|]. cbn [app] in H. injection H as _ H.
        specialize (IH a b H). cbn [List.length]. lia.
Qed.
Theorem pieces_split : forall sep s ts, sep <> [] -> (pieces sep s ts <-> split s sep = ts).
Proof.
  intros sep s ts N. assert (Sp : forall s, split s sep = split_go sep s [] 0) by (intros; destruct sep; [contradiction|reflexivity]). rewrite Sp. split.
  - intros H. induction H as [s H|t rest ts H P IH]; [rewrite pieces_none by auto; reflexivity|]. rewrite pieces_here by auto. rewrite IH. reflexivity.
  - intros <-. remember (List.length s) as n eqn:E. revert s E. induction n as [n IH] using lt_wf_ind. intros s E. destruct (leftmost sep s) as [H|(t & rest & -> & H)].
    + rewrite pieces_none by auto. apply pc_last. exact H.
    + rewrite pieces_here by auto. apply pc_more; [exact H|]. apply (IH (List.length rest)); auto. subst n. rewrite !app_length. destruct sep; [contradiction|]. simpl. lia.
Qed.
Lemma reads_map : forall A (reads : bytes -> A -> Prop) (f : bytes -> option A), (forall s x, reads s x <-> f s = Some x) ->
  forall toks l, Forall2 reads toks l <-> map f toks = map Some l.
Proof.
  intros A reads f R toks. induction toks as [|t toks IH]; intros l; destruct l as [|x l]; cbn [map]; split; intros H;
    try (constructor; fail); try discriminate; try reflexivity; inversion H; subst.
  - apply R in H3. apply IH in H5. congruence.
  - constructor; [apply R; auto|apply IH; auto].
Qed.
Lemma pieces_numbers : forall sep s tokens zs, sep <> [] -> pieces sep s tokens -> Forall2 int64_text tokens zs -> map atoi (split s sep) = map Some zs.
Proof. intros sep s tokens zs N P F. apply pieces_split in P; [|exact N]. subst tokens. apply (reads_map _ _ _ int64_iff). exact F. Qed.
