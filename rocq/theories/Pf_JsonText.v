(** * Proofs about the JSON scanner (JsonText.v) *)

From Coq Require Import ZArith List Bool String Lia ZifyBool.
From Verif Require Import Go GoText GoFloat Leaves LgJsonIO JsonText Spec_JsonText Pf_XgBin Pf_LgFile.
Local Open Scope Z_scope.

(** ** Bytes *)
Lemma byteZ_inj : forall a b, byteZ a = byteZ b -> a = b.
Proof. intros a b H. rewrite <- (byte_of_byteZ a), <- (byte_of_byteZ b), H. reflexivity. Qed.
Lemma byte_is : forall b z, byteZ b = z -> b = byte_of_Z z.
Proof. intros b z <-. symmetry. apply byte_of_byteZ. Qed.
Ltac ranges := repeat match goal with
  | b : byte |- _ => lazymatch goal with H : 0 <= byteZ b < 256 |- _ => fail | _ => pose proof (byteZ_range b) end end.

Lemma some_pair : forall A B (a c : A) (b d : B), Some (a, b) = Some (c, d) -> a = c /\ b = d.
Proof. intros A B a c b d H. injection H as -> ->. auto. Qed.

(** ** UTF-8 *)
Lemma encode_utf8 : forall code, 0 <= code <= 1114111 -> ~ surrogate code -> utf8 code (encode_rune code).
Proof.
  intros r R S. unfold encode_rune.
  destruct (r <? 128) eqn:E1; [|destruct (r <? 2048) eqn:E2; [|destruct (r <? 65536) eqn:E3]].
  - replace r with (byteZ (byte_of_Z r)) at 1; [apply utf8_1|]; rewrite byteZ_of_Z, Z.mod_small; lia.
  - pose proof (Z.div_mod r 64 ltac:(lia)). pose proof (Z.mod_pos_bound r 64 ltac:(lia)).
    assert (0 <= r / 64 < 32) by lia.
    apply utf8_2; unfold continues; rewrite ?byteZ_of_Z; rewrite ?(Z.mod_small _ 256) by lia; lia.
  - pose proof (Z.div_mod r 64 ltac:(lia)). pose proof (Z.mod_pos_bound r 64 ltac:(lia)).
    pose proof (Z.div_mod (r / 64) 64 ltac:(lia)). pose proof (Z.mod_pos_bound (r / 64) 64 ltac:(lia)).
    replace (r / 4096) with (r / 64 / 64) by (rewrite Z.div_div by lia; reflexivity).
    assert (0 <= r / 64 / 64 < 16) by lia.
    apply utf8_3; unfold continues; rewrite ?byteZ_of_Z; rewrite ?(Z.mod_small _ 256) by lia; auto; lia.
  - pose proof (Z.div_mod r 64 ltac:(lia)). pose proof (Z.mod_pos_bound r 64 ltac:(lia)).
    pose proof (Z.div_mod (r / 64) 64 ltac:(lia)). pose proof (Z.mod_pos_bound (r / 64) 64 ltac:(lia)).
    pose proof (Z.div_mod (r / 64 / 64) 64 ltac:(lia)). pose proof (Z.mod_pos_bound (r / 64 / 64) 64 ltac:(lia)).
    replace (r / 4096) with (r / 64 / 64) by (rewrite Z.div_div by lia; reflexivity).
    replace (r / 262144) with (r / 64 / 64 / 64) by (rewrite !Z.div_div by lia; reflexivity).
    assert (0 <= r / 64 / 64 / 64 < 5) by lia.
    apply utf8_4; unfold continues; rewrite ?byteZ_of_Z; rewrite ?(Z.mod_small _ 256) by lia; auto; lia.
Qed.
Lemma utf8_unique : forall code a b, utf8 code a -> utf8 code b -> a = b.
Proof.
  intros code a b H. revert b. destruct H; intros t K; inversion K; subst; unfold continues in *; ranges;
    try lia; repeat f_equal; apply byteZ_inj; lia.
Qed.
Lemma utf8_range : forall code o, utf8 code o -> 0 <= code <= 1114111 /\ ~ surrogate code.
Proof. intros code o H. destruct H; unfold continues, surrogate in *; ranges; split; try lia. Qed.
Lemma utf8_is_encode : forall code o, utf8 code o -> o = encode_rune code.
Proof. intros code o H. destruct (utf8_range _ _ H). eapply utf8_unique; [exact H|]. apply encode_utf8; auto. Qed.

Ltac bools := repeat (match goal with
  | |- context [if ?b then _ else _] => let E := fresh "E" in destruct b eqn:E
  | H : context [if ?b then _ else _] |- _ => let E := fresh "E" in destruct b eqn:E
  end; try lia; try discriminate).

Lemma decode_complete : forall code c s rest, utf8 code (c :: s) -> 128 <= byteZ c -> decode_rune c (s ++ rest) = Some (c :: s, rest).
Proof.
  intros code c s rest H Hc. inversion H; subst; [lia| | |]; unfold decode_rune, between, continues, surrogate in *; ranges; cbn [app]; bools; reflexivity.
Qed.
Lemma decode_sound : forall c s o r, decode_rune c s = Some (o, r) -> 128 <= byteZ c -> c :: s = o ++ r /\ exists code, utf8 code o /\ 128 <= code.
Proof.
  intros c s o r H Hc. unfold decode_rune, between in H.
  destruct s as [|b1 s1]; [discriminate|].
  destruct ((194 <=? byteZ c) && (byteZ c <=? 223) && ((128 <=? byteZ b1) && (byteZ b1 <=? 191))) eqn:E1.
  { injection H as <- <-. split; [reflexivity|]. eexists. split; [apply utf8_2; [lia|unfold continues; lia|reflexivity|lia]|lia]. }
  destruct s1 as [|b2 s2]; [discriminate|].
  match type of H with (if ?b then _ else _) = _ => destruct b eqn:E2 end.
  { injection H as <- <-. split; [reflexivity|]. eexists. split; [apply utf8_3; [lia|unfold continues..|reflexivity| |]|]; unfold surrogate; bools. }
  destruct s2 as [|b3 s3]; [discriminate|].
  match type of H with (if ?b then _ else _) = _ => destruct b eqn:E3 end; [|discriminate].
  injection H as <- <-. split; [reflexivity|]. eexists. split; [apply utf8_4; [lia|unfold continues..|reflexivity|]|]; bools.
Qed.

(** ** Escapes *)
Lemma hex_complete : forall c x, hex_value c x -> hex_digit c = Some x.
Proof.
  intros c x H. destruct H as [i c H|i c H]; (do 16 (destruct i as [|i]; [injection H as <-; reflexivity|])); destruct i; discriminate.
Qed.
Lemma hex_sound : forall c x, hex_digit c = Some x -> hex_value c x.
Proof.
  intros c x H. destruct c; vm_compute in H; try discriminate; injection H as <-;
  (apply (hex_value_lower 0); reflexivity) || (apply (hex_value_lower 1); reflexivity) || (apply (hex_value_lower 2); reflexivity) ||
  (apply (hex_value_lower 3); reflexivity) || (apply (hex_value_lower 4); reflexivity) || (apply (hex_value_lower 5); reflexivity) ||
  (apply (hex_value_lower 6); reflexivity) || (apply (hex_value_lower 7); reflexivity) || (apply (hex_value_lower 8); reflexivity) ||
  (apply (hex_value_lower 9); reflexivity) || (apply (hex_value_lower 10); reflexivity) || (apply (hex_value_lower 11); reflexivity) ||
  (apply (hex_value_lower 12); reflexivity) || (apply (hex_value_lower 13); reflexivity) || (apply (hex_value_lower 14); reflexivity) ||
  (apply (hex_value_lower 15); reflexivity) || (apply (hex_value_upper 10); reflexivity) || (apply (hex_value_upper 11); reflexivity) ||
  (apply (hex_value_upper 12); reflexivity) || (apply (hex_value_upper 13); reflexivity) || (apply (hex_value_upper 14); reflexivity) ||
  (apply (hex_value_upper 15); reflexivity).
Qed.
Lemma hex_range : forall c x, hex_digit c = Some x -> 0 <= x < 16 /\ byteZ c <> 34.
Proof. intros c x H. destruct c; vm_compute in H; try discriminate; injection H as <-; vm_compute; repeat split; discriminate. Qed.
Lemma getu4_complete : forall code h rest, hex4 code h -> getu4 (h ++ rest) = Some (code, rest).
Proof.
  intros code h rest H. destruct H as [a b c d x y z w A B C D]. cbn. rewrite (hex_complete _ _ A), (hex_complete _ _ B), (hex_complete _ _ C), (hex_complete _ _ D).
  f_equal. f_equal. lia.
Qed.
Lemma getu4_sound : forall s code r, getu4 s = Some (code, r) -> exists h, s = h ++ r /\ hex4 code h /\ 0 <= code < 65536.
Proof.
  intros s code r H. destruct s as [|a [|b [|c [|d s]]]]; try discriminate. cbn in H.
  destruct (hex_digit a) as [x|] eqn:A; [|discriminate]. destruct (hex_digit b) as [y|] eqn:B; [|discriminate].
  destruct (hex_digit c) as [z|] eqn:C; [|discriminate]. destruct (hex_digit d) as [w|] eqn:D; [|discriminate]. injection H as <- <-.
  exists [a; b; c; d]. pose proof (hex_range _ _ A). pose proof (hex_range _ _ B). pose proof (hex_range _ _ C). pose proof (hex_range _ _ D).
  split; [reflexivity|]. split; [|lia]. replace (((x * 16 + y) * 16 + z) * 16 + w) with (x * 4096 + y * 256 + z * 16 + w) by lia.
  constructor; apply hex_sound; auto.
Qed.

Definition starts_quote (s : bytes) : Prop := exists c s', s = c :: s' /\ byteZ c = 34.
Lemma char_complete : forall o t rest, json_char true o t -> string_char (t ++ rest) = Some (o, rest) /\ t <> [] /\ ~ starts_quote (t ++ rest).
Proof.
  intros o t rest H. inversion H; subst.
  - assert (exists c s, t = c :: s) as (c & s & ->) by (destruct H0; eauto). split; [|split; [discriminate|]].
    + cbn [app string_char]. destruct (Z_lt_ge_dec (byteZ c) 128) as [L|G].
      * inversion H0; subst; unfold continues in *; ranges; try lia. cbn [app]. bools. reflexivity.
      * rewrite (decode_complete code) by (auto; lia). bools. reflexivity.
    + intros (c' & s' & E & Q). injection E as <- _. inversion H0; subst; ranges; lia.
  - split; [|split; [discriminate|intros (c' & s' & E & Q); injection E as <- _; discriminate]].
    cbn in H0. repeat (destruct H0 as [H0|H0]; [injection H0 as <- <-; reflexivity|]). destruct H0.
  - split; [|split; [discriminate|intros (c' & s' & E & Q); injection E as <- _; discriminate]].
    cbn [app string_char backslash]. change (byteZ "\") with 92. cbn -[unicode_escape].
    unfold unicode_escape. rewrite (getu4_complete _ _ _ H0). unfold surrogate in H1. rewrite (utf8_is_encode _ _ H2).
    bools. reflexivity.
  - split; [|split; [discriminate|intros (c' & s' & E & Q); injection E as <- _; discriminate]].
    cbn [app string_char backslash]. change (byteZ "\") with 92. cbn -[unicode_escape]. rewrite <- app_assoc.
    unfold unicode_escape. rewrite (getu4_complete _ _ _ H0). cbn [app]. rewrite (getu4_complete _ _ _ H1).
    change (byteZ backslash) with 92. change (byteZ "u") with 117. rewrite (utf8_is_encode _ _ H4). bools. reflexivity.
Qed.

Lemma short_sound : forall c o, short_escape c = Some o -> json_char false [o] [backslash; c].
Proof.
  intros c o H. assert (E : o = byte_of_Z (byteZ o)) by (symmetry; apply byte_of_byteZ). rewrite E. apply jc_short.
  destruct c; vm_compute in H; try discriminate; injection H as <-; vm_compute; tauto.
Qed.
Lemma char_sound : forall s o r, string_char s = Some (o, r) -> ~ starts_quote s -> exists t, s = t ++ r /\ t <> [] /\ json_char false o t.
Proof.
  intros [|c s1] o r H Q; [discriminate|]. cbn [string_char] in H.
  assert (Nq : byteZ c <> 34) by (intros E; apply Q; exists c, s1; auto).
  destruct (byteZ c =? 92) eqn:E92.
  { apply Z.eqb_eq in E92. apply byte_is in E92. subst c. change (byte_of_Z 92) with backslash in *.
    destruct s1 as [|e s2]; [discriminate|]. destruct (short_escape e) as [x|] eqn:ES.
    - injection H as <- <-. exists [backslash; e]. split; [reflexivity|]. split; [discriminate|]. apply short_sound; auto.
    - destruct (byteZ e =? 117) eqn:E117; [|discriminate]. apply Z.eqb_eq in E117. apply byte_is in E117. subst e. change (byte_of_Z 117) with "u"%byte in *.
      unfold unicode_escape in H. destruct (getu4 s2) as [[code s3]|] eqn:G; [|discriminate]. destruct (getu4_sound _ _ _ G) as (h & -> & Hh & R).
      destruct ((code <? 55296) || (57344 <=? code)) eqn:E1.
      + injection H as <- <-. exists (backslash :: "u"%byte :: h). split; [reflexivity|]. split; [discriminate|].
        assert (~ surrogate code) by (unfold surrogate; lia). eapply jc_unicode; eauto. apply encode_utf8; auto; lia.
      + assert (L : json_char false replacement (backslash :: "u"%byte :: h)) by (apply (jc_lone code); auto; unfold surrogate; lia).
        assert (Lone : forall o r, Some (replacement, s3) = Some (o, r) -> exists t, backslash :: "u"%byte :: h ++ s3 = t ++ r /\ t <> [] /\ json_char false o t).
        { intros o' r' K. injection K as <- <-. exists (backslash :: "u"%byte :: h). split; [reflexivity|]. split; [discriminate|exact L]. }
        destruct (56320 <=? code) eqn:E2; [apply Lone; auto|].
        destruct s3 as [|b [|u s4]]; [apply Lone; auto..|].
        destruct ((byteZ b =? 92) && (byteZ u =? 117)) eqn:E3; [|apply Lone; auto].
        destruct (getu4 s4) as [[r2 s5]|] eqn:G2; [|apply Lone; auto].
        destruct ((56320 <=? r2) && (r2 <? 57344)) eqn:E4; [|apply Lone; auto].
        apply some_pair in H. destruct H as [<- <-]. destruct (getu4_sound _ _ _ G2) as (l & -> & Hl & R2).
        apply andb_prop in E3. destruct E3 as [E3 E5]. apply Z.eqb_eq in E3, E5. apply byte_is in E3, E5. subst b u.
        exists (backslash :: "u"%byte :: h ++ backslash :: "u"%byte :: l). split; [cbn [app]; rewrite <- app_assoc; reflexivity|]. split; [discriminate|].
        eapply jc_pair; eauto; try lia. apply encode_utf8; [lia|unfold surrogate; lia]. }
  destruct (byteZ c <? 32) eqn:E32; [discriminate|]. destruct (byteZ c <? 128) eqn:E128.
  - injection H as <- <-. exists [c]. split; [reflexivity|]. split; [discriminate|]. eapply jc_plain; [apply utf8_1| | |]; lia.
  - destruct (decode_rune c s1) as [[o' r']|] eqn:D.
    + injection H as -> ->. destruct (decode_sound _ _ _ _ D ltac:(lia)) as (E & code & U & R). exists o. split; [exact E|]. split.
      * destruct U; discriminate.
      * eapply jc_plain; eauto; lia.
    + injection H as <- <-. exists [c]. split; [reflexivity|]. split; [discriminate|]. apply jc_bad_byte. lia.
Qed.

(** a longer stream gives the same character, if the string ends inside the shorter one *)
Definition has_quote (s : bytes) : Prop := exists c, In c s /\ byteZ c = 34.
Lemma getu4_more : forall s more, has_quote s -> getu4 s = None -> getu4 (s ++ more) = None.
Proof.
  intros s more (q & I & Q) H.
  assert (N : forall c, q = c -> hex_digit c = None) by (intros c <-; destruct (hex_digit q) eqn:E; [apply hex_range in E; lia|reflexivity]).
  assert (P : forall a b c d s', In q [a; b; c; d] -> getu4 (a :: b :: c :: d :: s') = None).
  { intros a b c d s' J. cbn. cbn in J. destruct J as [J|[J|[J|[J|[]]]]]; symmetry in J; rewrite (N _ J);
      repeat match goal with |- context [hex_digit ?x] => destruct (hex_digit x) end; reflexivity. }
  destruct s as [|a [|b [|c [|d s]]]]; cbn in I.
  - destruct I.
  - destruct more as [|m1 [|m2 [|m3 m]]]; try reflexivity. cbn [app]. apply P. cbn. tauto.
  - destruct more as [|m1 [|m2 m]]; try reflexivity. cbn [app]. apply P. cbn. tauto.
  - destruct more as [|m1 m]; try reflexivity. cbn [app]. apply P. cbn. tauto.
  - cbn in H |- *. destruct (hex_digit a), (hex_digit b), (hex_digit c), (hex_digit d); try discriminate; reflexivity.
Qed.
Lemma getu4_ext : forall s more code r, getu4 s = Some (code, r) -> getu4 (s ++ more) = Some (code, r ++ more).
Proof.
  intros s more code r H. destruct s as [|a [|b [|c [|d s]]]]; try discriminate. cbn in H |- *.
  destruct (hex_digit a), (hex_digit b), (hex_digit c), (hex_digit d); try discriminate. injection H as <- <-. reflexivity.
Qed.
Lemma decode_ext : forall c s more o r, decode_rune c s = Some (o, r) -> decode_rune c (s ++ more) = Some (o, r ++ more).
Proof.
  intros c s more o r H. unfold decode_rune in *. destruct s as [|b1 s1]; [discriminate|]. cbn [app].
  destruct (between 194 c 223 && between 128 b1 191); [injection H as <- <-; reflexivity|].
  destruct s1 as [|b2 s2]; [discriminate|]. cbn [app].
  match goal with |- (if ?b then _ else _) = _ => destruct b end; [injection H as <- <-; reflexivity|].
  destruct s2 as [|b3 s3]; [discriminate|]. cbn [app].
  match goal with |- (if ?b then _ else _) = _ => destruct b end; [injection H as <- <-; reflexivity|discriminate].
Qed.
Lemma decode_more : forall c s more, has_quote s -> decode_rune c s = None -> decode_rune c (s ++ more) = None.
Proof.
  intros c s more (q & I & Q) H. unfold decode_rune, between in *. destruct s as [|b1 s1]; [destruct I|]. cbn [app].
  match type of H with (if ?b then _ else _) = _ => destruct b eqn:E1 end; [discriminate|].
  destruct s1 as [|b2 s2].
  { destruct I as [->|[]]. destruct more as [|m1 m]; [reflexivity|]. cbn [app]. bools; destruct m as [|m2 m]; try reflexivity; bools. reflexivity. all: reflexivity. }
  cbn [app]. match type of H with (if ?b then _ else _) = _ => destruct b eqn:E2 end; [discriminate|].
  destruct s2 as [|b3 s3].
  { destruct more as [|m1 m]; [reflexivity|]. cbn [app]. destruct I as [->|[->|[]]].
    all: match goal with |- (if ?b then _ else _) = _ => destruct b eqn:E3 end; [|reflexivity]; exfalso; bools. }
  cbn [app]. match type of H with (if ?b then _ else _) = _ => destruct b end; [discriminate|reflexivity].
Qed.
Lemma char_ext : forall s more o r, string_char s = Some (o, r) -> has_quote r -> string_char (s ++ more) = Some (o, r ++ more).
Proof.
  intros [|c s1] more o r H Hq; [discriminate|]. cbn [string_char app] in *.
  destruct (byteZ c =? 92).
  { destruct s1 as [|e s2]; [discriminate|]. cbn [app]. destruct (short_escape e) as [x|].
    - injection H as <- <-. reflexivity.
    - destruct (byteZ e =? 117); [|discriminate]. unfold unicode_escape in *. destruct (getu4 s2) as [[code s3]|] eqn:G; [|discriminate].
      rewrite (getu4_ext _ _ _ _ G). destruct ((code <? 55296) || (57344 <=? code)); [injection H as <- <-; reflexivity|].
      destruct (56320 <=? code); [injection H as <- <-; reflexivity|].
      destruct s3 as [|b [|u s4]].
      + injection H as <- <-. destruct Hq as (? & [] & _).
      + injection H as <- <-. destruct Hq as (q & [<-|[]] & Q). cbn [app]. destruct more as [|m1 m]; [reflexivity|]. rewrite Q. reflexivity.
      + cbn [app]. destruct ((byteZ b =? 92) && (byteZ u =? 117)) eqn:E; [|injection H as <- <-; reflexivity].
        destruct (getu4 s4) as [[r2 s5]|] eqn:G2.
        * rewrite (getu4_ext _ _ _ _ G2). destruct ((56320 <=? r2) && (r2 <? 57344)); apply some_pair in H; destruct H as [<- <-]; reflexivity.
        * injection H as <- <-. rewrite getu4_more; auto. destruct Hq as (q & [<-|[<-|I]] & Q); [lia..|]. exists q; auto. }
  destruct (byteZ c <? 32); [discriminate|]. destruct (byteZ c <? 128); [injection H as <- <-; reflexivity|].
  destruct (decode_rune c s1) as [[o' r']|] eqn:D.
  - injection H as -> ->. rewrite (decode_ext _ _ _ _ _ D). reflexivity.
  - injection H as <- <-. rewrite (decode_more _ _ _ Hq D). reflexivity.
Qed.

(** ** Strings *)
Lemma body_complete : forall o t rest fuel, json_chars true o t -> (List.length t < fuel)%nat -> string_body fuel (t ++ quote :: rest) = Some (o, rest).
Proof.
  intros o t rest fuel H. revert fuel. induction H as [|o t o' t' C _ IH]; intros fuel L.
  - destruct fuel; [lia|]. reflexivity.
  - destruct (char_complete o t (t' ++ quote :: rest) C) as (E & Ne & Nq). destruct fuel as [|f]; [lia|].
    assert (List.length t' < f)%nat by (rewrite app_length in L; destruct t; [congruence|cbn in L; lia]).
    rewrite <- app_assoc. cbn [string_body]. rewrite E, (IH f) by auto.
    destruct t as [|c t]; [congruence|]. cbn [app]. replace (byteZ c =? 34) with false; [reflexivity|].
    symmetry. apply Z.eqb_neq. intros Q. apply Nq. cbn [app]. eexists _, _. eauto.
Qed.
Lemma body_sound : forall fuel s o r, string_body fuel s = Some (o, r) -> exists t, s = t ++ quote :: r /\ json_chars false o t.
Proof.
  induction fuel as [|f IH]; intros s o r H; [discriminate|]. cbn [string_body] in H. destruct s as [|c s1]; [discriminate|].
  destruct (byteZ c =? 34) eqn:Q.
  - injection H as <- <-. apply Z.eqb_eq in Q. apply byte_is in Q. subst c. exists []. split; [reflexivity|constructor].
  - destruct (string_char (c :: s1)) as [[o1 s2]|] eqn:C; [|discriminate]. destruct (string_body f s2) as [[o2 r2]|] eqn:B; [|discriminate]. injection H as <- <-.
    destruct (char_sound _ _ _ C) as (t1 & E1 & _ & J1); [intros (c' & s' & E & K); injection E as <- _; lia|].
    destruct (IH _ _ _ B) as (t2 & E2 & J2). exists (t1 ++ t2). split; [rewrite E1, E2, <- app_assoc; reflexivity|]. constructor; auto.
Qed.
Lemma body_ext : forall fuel fuel' s more o r, string_body fuel s = Some (o, r) -> (fuel <= fuel')%nat -> string_body fuel' (s ++ more) = Some (o, r ++ more).
Proof.
  induction fuel as [|f IH]; intros fuel' s more o r H L; [discriminate|]. destruct fuel' as [|f']; [lia|]. cbn [string_body] in *.
  destruct s as [|c s1]; [discriminate|]. cbn [app]. destruct (byteZ c =? 34) eqn:Q; [injection H as <- <-; reflexivity|].
  destruct (string_char (c :: s1)) as [[o1 s2]|] eqn:C; [|discriminate]. destruct (string_body f s2) as [[o2 r2]|] eqn:B; [|discriminate]. injection H as <- <-.
  change (c :: s1 ++ more) with ((c :: s1) ++ more). rewrite (char_ext _ _ _ _ C).
  - rewrite (IH f' _ _ _ _ B) by lia. reflexivity.
  - destruct (body_sound _ _ _ _ B) as (t & -> & _). exists quote. split; [apply in_or_app; right; left; reflexivity|reflexivity].
Qed.

(** ** Numbers *)
Definition continues_number (c : byte) : bool := is_digit c || (byteZ c =? 46) || (byteZ c =? 101) || (byteZ c =? 69).
(** the number before it ends here *)
Definition number_ends (rest : bytes) : Prop := match rest with [] => True | c :: _ => continues_number c = false end.

Lemma digit_iff : forall c, is_digit c = true <-> digit c.
Proof. intros c. unfold is_digit, between, digit. lia. Qed.
Definition no_digit (s : bytes) : Prop := match s with [] => True | c :: _ => is_digit c = false end.
Lemma span_complete : forall d rest, Forall digit d -> no_digit rest -> span_digits (d ++ rest) = (d, rest).
Proof.
  intros d rest F N. induction F as [|c d D _ IH].
  - destruct rest as [|c r]; [reflexivity|]. cbn in N |- *. rewrite N. reflexivity.
  - cbn [app span_digits]. apply digit_iff in D. rewrite D, IH. reflexivity.
Qed.
Lemma span_sound : forall s d r, span_digits s = (d, r) -> s = d ++ r /\ Forall digit d /\ no_digit r.
Proof.
  induction s as [|c s IH]; intros d r H; cbn [span_digits] in H.
  - injection H as <- <-. split; [reflexivity|]. split; [constructor|exact I].
  - destruct (is_digit c) eqn:D.
    + destruct (span_digits s) as [d' r'] eqn:E. injection H as <- <-. destruct (IH _ _ eq_refl) as (-> & F & N). split; [reflexivity|]. split; [constructor; auto; apply digit_iff; auto|exact N].
    + injection H as <- <-. split; [reflexivity|]. split; [constructor|exact D].
Qed.
Lemma span_ext : forall s more d r, span_digits s = (d, r) -> r <> [] -> span_digits (s ++ more) = (d, r ++ more).
Proof.
  intros s more d r H Hr. destruct (span_sound _ _ _ H) as (-> & F & N). rewrite <- app_assoc. apply span_complete; auto. destruct r; [congruence|exact N].
Qed.

Lemma scan_number_complete : forall lit rest, number_text lit -> number_ends rest -> scan_number (lit ++ rest) = Some (lit, rest).
Proof.
  intros lit rest H N. destruct H as [sign i f e Hs Hi Hf He]. unfold number_ends, continues_number in N.
  assert (Rd : no_digit rest) by (destruct rest; [exact I|cbn; destruct (is_digit b); [discriminate|reflexivity]]).
  assert (XE : scan_exp (e ++ rest) = Some (e, rest)).
  { destruct He as [|e sg d Ie Is Dn Fd].
    - cbn [app]. destruct rest as [|c r]; [reflexivity|]. cbn. replace ((byteZ c =? 101) || (byteZ c =? 69)) with false by lia. reflexivity.
    - cbn [app scan_exp]. replace ((byteZ e =? 101) || (byteZ e =? 69)) with true by (cbn in Ie; destruct Ie as [<-|[<-|[]]]; reflexivity).
      rewrite <- app_assoc. destruct d as [|c d]; [congruence|]. inversion Fd as [|? ? Dc Fd']; subst. cbn in Is. destruct Is as [<-|[<-|[<-|[]]]].
      + cbn [app]. unfold digit in Dc. replace ((byteZ c =? 43) || (byteZ c =? 45)) with false by lia. change (c :: d ++ rest) with ((c :: d) ++ rest). rewrite (span_complete (c :: d) rest Fd Rd). reflexivity.
      + cbn -[span_digits]. change (c :: d ++ rest) with ((c :: d) ++ rest). rewrite (span_complete (c :: d) rest Fd Rd). reflexivity.
      + cbn -[span_digits]. change (c :: d ++ rest) with ((c :: d) ++ rest). rewrite (span_complete (c :: d) rest Fd Rd). reflexivity. }
  assert (ND : no_digit (e ++ rest)).
  { destruct He as [|e sg d Ie Is Dn Fd]; [exact Rd|]. cbn in Ie |- *. destruct Ie as [<-|[<-|[]]]; reflexivity. }
  assert (XF : scan_frac (f ++ e ++ rest) = Some (f, e ++ rest)).
  { destruct Hf as [|d Dn Fd].
    - unfold scan_frac, take_byte. cbn [app]. destruct (e ++ rest) as [|c r] eqn:E; [reflexivity|]. replace (byteZ c =? 46) with false; [reflexivity|].
      symmetry. destruct He as [|e sg d Ie Is Dn Fd]; cbn in E.
      + subst rest. lia.
      + injection E as <- _. cbn in Ie. destruct Ie as [<-|[<-|[]]]; reflexivity.
    - unfold scan_frac, take_byte. cbn [app]. change (byteZ "." =? 46) with true. cbn iota. rewrite (span_complete d (e ++ rest) Fd ND). destruct d; [congruence|reflexivity]. }
  assert (NF : no_digit (f ++ e ++ rest)).
  { destruct Hf as [|d Dn Fd]; [exact ND|]. reflexivity. }
  assert (XI : scan_int (i ++ f ++ e ++ rest) = Some (i, f ++ e ++ rest)).
  { destruct Hi as [|c d Dc Cz Fd].
    - reflexivity.
    - unfold scan_int, take_byte. cbn [app]. replace (byteZ c =? 48) with false.
      + change (c :: d ++ f ++ e ++ rest) with ((c :: d) ++ f ++ e ++ rest). rewrite span_complete; auto.
      + symmetry. apply Z.eqb_neq. intros E. apply Cz. apply byte_is in E. exact E. }
  unfold scan_number. rewrite <- !app_assoc. cbn in Hs. destruct Hs as [<-|[<-|[]]].
  - cbn [app]. assert (T : take_byte 45 (i ++ f ++ e ++ rest) = None).
    { destruct Hi as [|c d Dc Cz Fd]; [reflexivity|]. cbn. unfold digit in Dc. replace (byteZ c =? 45) with false by lia. reflexivity. }
    rewrite T, XI, XF, XE. reflexivity.
  - change (take_byte 45 (["-"%byte] ++ i ++ f ++ e ++ rest)) with (Some ("-"%byte, i ++ f ++ e ++ rest)). cbv iota beta. rewrite XI, XF, XE. reflexivity.
Qed.

Lemma take_byte_sound : forall z s c r, take_byte z s = Some (c, r) -> s = c :: r /\ byteZ c = z.
Proof. intros z [|c s] c' r H; [discriminate|]. cbn in H. destruct (byteZ c =? z) eqn:E; [|discriminate]. injection H as <- <-. split; [reflexivity|lia]. Qed.
Lemma take_byte_ext : forall z s more c r, take_byte z s = Some (c, r) -> take_byte z (s ++ more) = Some (c, r ++ more).
Proof. intros z s more c r H. destruct (take_byte_sound _ _ _ _ H) as (-> & E). cbn. rewrite (proj2 (Z.eqb_eq _ _) E). reflexivity. Qed.
Lemma take_byte_none : forall z s more, take_byte z s = None -> s <> [] -> take_byte z (s ++ more) = None.
Proof. intros z [|c s] more H N; [congruence|]. cbn in *. destruct (byteZ c =? z); [discriminate|reflexivity]. Qed.

Lemma scan_int_sound : forall s i r, scan_int s = Some (i, r) -> s = i ++ r /\ int_text i.
Proof.
  intros s i r H. unfold scan_int in H. destruct (take_byte 48 s) as [[c s1]|] eqn:T.
  - destruct (take_byte_sound _ _ _ _ T) as (-> & E). injection H as <- <-. apply byte_is in E. subst c. split; [reflexivity|apply int_zero].
  - destruct (span_digits s) as [d s1] eqn:E. destruct (span_sound _ _ _ E) as (-> & F & _). destruct d as [|c d]; [discriminate|]. injection H as <- <-.
    split; [reflexivity|]. inversion F; subst. apply int_digits; auto. intros ->. cbn in T. discriminate.
Qed.
Lemma scan_frac_sound : forall s f r, scan_frac s = Some (f, r) -> s = f ++ r /\ frac_text f.
Proof.
  intros s f r H. unfold scan_frac in H. destruct (take_byte 46 s) as [[c s1]|] eqn:T.
  - destruct (take_byte_sound _ _ _ _ T) as (-> & E). destruct (span_digits s1) as [d s2] eqn:G. destruct (span_sound _ _ _ G) as (-> & F & _). destruct d as [|x d]; [discriminate|].
    injection H as <- <-. apply byte_is in E. subst c. split; [reflexivity|]. apply frac_some; auto; discriminate.
  - injection H as <- <-. split; [reflexivity|apply frac_none].
Qed.
Lemma scan_exp_sound : forall s e r, scan_exp s = Some (e, r) -> s = e ++ r /\ exp_text e.
Proof.
  intros s e r H. unfold scan_exp in H. destruct s as [|c s]; [injection H as <- <-; split; [reflexivity|constructor]|].
  destruct ((byteZ c =? 101) || (byteZ c =? 69)) eqn:E; [|injection H as <- <-; split; [reflexivity|constructor]].
  assert (Ie : In c (letters "eE")).
  { apply orb_prop in E. destruct E as [E|E]; apply Z.eqb_eq in E; apply byte_is in E; subst c; vm_compute; tauto. }
  assert (G : forall sg s1, In sg [[]; letters "+"; letters "-"] -> s = sg ++ s1 ->
    match span_digits s1 with ([], _) => None | (d, r2) => Some (c :: sg ++ d, r2) end = Some (e, r) -> c :: s = e ++ r /\ exp_text e).
  { intros sg s1 Is -> K. destruct (span_digits s1) as [d s2] eqn:G. destruct (span_sound _ _ _ G) as (-> & F & _). destruct d as [|x d]; [discriminate|].
    injection K as <- <-. split; [cbn [app]; rewrite <- app_assoc; reflexivity|]. apply exp_some; auto. discriminate. }
  destruct s as [|x s]; [apply (G [] []); cbn; auto|].
  destruct ((byteZ x =? 43) || (byteZ x =? 45)) eqn:Es.
  - apply (G [x] s); auto. apply orb_prop in Es. destruct Es as [Es|Es]; apply Z.eqb_eq in Es; apply byte_is in Es; subst x; vm_compute; tauto.
  - apply (G [] (x :: s)); cbn; auto.
Qed.
Lemma scan_number_sound : forall s lit r, scan_number s = Some (lit, r) -> s = lit ++ r /\ number_text lit.
Proof.
  intros s lit r H. unfold scan_number in H.
  assert (G : forall sg s0, In sg [[]; letters "-"] -> s = sg ++ s0 ->
    match scan_int s0 with None => None | Some (i, s1) => match scan_frac s1 with None => None | Some (fr, s2) =>
      match scan_exp s2 with None => None | Some (ex, s3) => Some (sg ++ i ++ fr ++ ex, s3) end end end = Some (lit, r) -> s = lit ++ r /\ number_text lit).
  { intros sg s0 Is -> K. destruct (scan_int s0) as [[i s1]|] eqn:A; [|discriminate]. destruct (scan_frac s1) as [[f s2]|] eqn:B; [|discriminate].
    destruct (scan_exp s2) as [[e s3]|] eqn:C; [|discriminate]. injection K as <- <-.
    destruct (scan_int_sound _ _ _ A) as (-> & Hi). destruct (scan_frac_sound _ _ _ B) as (-> & Hf). destruct (scan_exp_sound _ _ _ C) as (-> & He).
    split; [rewrite <- !app_assoc; reflexivity|]. constructor; auto. }
  destruct (take_byte 45 s) as [[m s1]|] eqn:T.
  - destruct (take_byte_sound _ _ _ _ T) as (-> & E). apply byte_is in E. subst m. apply (G (letters "-") s1); auto. cbn. auto.
  - apply (G [] s); auto. cbn. auto.
Qed.
Lemma span_rest_len : forall s d r, span_digits s = (d, r) -> r <> [] -> s <> [].
Proof. intros s d r H Hr ->. cbn in H. congruence. Qed.
Lemma scan_number_ext : forall s more lit r, scan_number s = Some (lit, r) -> r <> [] -> scan_number (s ++ more) = Some (lit, r ++ more).
Proof.
  intros s more lit r H Hr. unfold scan_number in *.
  assert (XI : forall s i r, scan_int s = Some (i, r) -> r <> [] -> scan_int (s ++ more) = Some (i, r ++ more)).
  { intros s0 i r0 K R. unfold scan_int in *. destruct (take_byte 48 s0) as [[c s1]|] eqn:T.
    - rewrite (take_byte_ext _ _ _ _ _ T). injection K as <- <-. reflexivity.
    - destruct (span_digits s0) as [d s1] eqn:E. destruct d as [|x d]; [discriminate|]. injection K as <- <-.
      rewrite take_byte_none by (auto; intros ->; discriminate). rewrite (span_ext _ _ _ _ E R). reflexivity. }
  assert (XF : forall s i r, scan_frac s = Some (i, r) -> r <> [] -> scan_frac (s ++ more) = Some (i, r ++ more)).
  { intros s0 i r0 K R. unfold scan_frac in *. destruct (take_byte 46 s0) as [[c s1]|] eqn:T.
    - rewrite (take_byte_ext _ _ _ _ _ T). destruct (span_digits s1) as [d s2] eqn:E. destruct d as [|x d]; [discriminate|]. injection K as <- <-.
      rewrite (span_ext _ _ _ _ E R). reflexivity.
    - injection K as <- <-. rewrite take_byte_none by auto. reflexivity. }
  assert (XE : forall s i r, scan_exp s = Some (i, r) -> r <> [] -> scan_exp (s ++ more) = Some (i, r ++ more)).
  { intros s0 i r0 K R. unfold scan_exp in *. destruct s0 as [|c s0]; [injection K as <- <-; congruence|]. cbn [app].
    destruct ((byteZ c =? 101) || (byteZ c =? 69)); [|injection K as <- <-; reflexivity].
    destruct s0 as [|x s0]; [discriminate|]. cbn [app]. destruct ((byteZ x =? 43) || (byteZ x =? 45)).
    - destruct (span_digits s0) as [d s2] eqn:E. destruct d as [|y d]; [discriminate|]. injection K as <- <-. rewrite (span_ext _ _ _ _ E R). reflexivity.
    - destruct (span_digits (x :: s0)) as [d s2] eqn:E. destruct d as [|y d]; [discriminate|]. injection K as <- <-.
      change (x :: s0 ++ more) with ((x :: s0) ++ more). rewrite (span_ext _ _ _ _ E R). reflexivity. }
  assert (G : forall sg s0,
    match scan_int s0 with None => None | Some (i, s1) => match scan_frac s1 with None => None | Some (fr, s2) =>
      match scan_exp s2 with None => None | Some (ex, s3) => Some (sg ++ i ++ fr ++ ex, s3) end end end = Some (lit, r) ->
    match scan_int (s0 ++ more) with None => None | Some (i, s1) => match scan_frac s1 with None => None | Some (fr, s2) =>
      match scan_exp s2 with None => None | Some (ex, s3) => Some (sg ++ i ++ fr ++ ex, s3) end end end = Some (lit, r ++ more)).
  { intros sg s0 K. destruct (scan_int s0) as [[i s1]|] eqn:A; [|discriminate]. destruct (scan_frac s1) as [[f s2]|] eqn:B; [|discriminate].
    destruct (scan_exp s2) as [[e s3]|] eqn:C; [|discriminate]. injection K as <- <-.
    assert (s2 <> []) by (intros ->; apply scan_exp_sound in C; destruct C as (C & _); symmetry in C; apply app_eq_nil in C; tauto).
    assert (s1 <> []) by (intros ->; apply scan_frac_sound in B; destruct B as (B & _); symmetry in B; apply app_eq_nil in B; tauto).
    rewrite (XI _ _ _ A), (XF _ _ _ B), (XE _ _ _ C) by auto. reflexivity. }
  destruct (take_byte 45 s) as [[m s1]|] eqn:T.
  - rewrite (take_byte_ext _ _ _ _ _ T). apply G; auto.
  - assert (s <> []) by (intros ->; discriminate). rewrite take_byte_none by auto. apply G; auto.
Qed.

(** ** White space *)
Definition no_ws (s : bytes) : Prop := match s with [] => True | c :: _ => is_ws c = false end.
Lemma ws_iff : forall c, is_ws c = true <-> In (byteZ c) [32; 9; 10; 13].
Proof. intros c. unfold is_ws. cbn. lia. Qed.
Lemma skip_complete : forall w s, white w -> no_ws s -> skip_ws (w ++ s) = s.
Proof.
  induction w as [|c w IH]; intros s B N.
  - destruct s as [|c s]; [reflexivity|]. cbn in N |- *. rewrite N. reflexivity.
  - cbn [app skip_ws]. rewrite (proj2 (ws_iff c)) by (apply B; left; reflexivity). apply IH; auto. intros d I. apply B. right. exact I.
Qed.
Lemma skip_sound : forall s, exists w, s = w ++ skip_ws s /\ white w /\ no_ws (skip_ws s).
Proof.
  induction s as [|c s (w & E & B & N)].
  - exists []. split; [reflexivity|]. split; [intros c []|exact I].
  - cbn [skip_ws]. destruct (is_ws c) eqn:W.
    + exists (c :: w). split; [cbn [app]; rewrite <- E; reflexivity|]. split; [|exact N]. intros d [<-|J]; [apply ws_iff; auto|auto].
    + exists []. split; [reflexivity|]. split; [intros d []|exact W].
Qed.
Lemma skip_ext : forall s more, skip_ws s <> [] -> skip_ws (s ++ more) = skip_ws s ++ more.
Proof.
  intros s more H. destruct (skip_sound s) as (w & E & B & N). rewrite E at 1. rewrite <- app_assoc. apply skip_complete; auto.
  destruct (skip_ws s); [congruence|exact N].
Qed.
Lemma skip_len : forall s, (List.length (skip_ws s) <= List.length s)%nat.
Proof. induction s as [|c s IH]; [auto|]. cbn [skip_ws]. destruct (is_ws c); cbn [List.length] in *; lia. Qed.
Lemma blank_app : forall a b, white a -> white b -> white (a ++ b).
Proof. intros a b A B c I. apply in_app_or in I. destruct I; auto. Qed.

(** ** Values *)
Scheme json_text_mind := Minimality for json_text Sort Prop
  with elements_text_mind := Minimality for elements_text Sort Prop
  with members_text_mind := Minimality for members_text Sort Prop
  with member_text_mind := Minimality for member_text Sort Prop.
Combined Scheme json_text_mutind from json_text_mind, elements_text_mind, members_text_mind, member_text_mind.

(** the first byte of a text *)
Lemma number_start : forall lit, number_text lit -> exists c t, lit = c :: t /\ (digit c \/ byteZ c = 45).
Proof.
  intros lit H. destruct H as [sg i f e Hs Hi _ _]. cbn in Hs. destruct Hs as [<-|[<-|[]]].
  - destruct Hi as [|c d D _ _]; eexists _, _; (split; [reflexivity|]); left; auto. unfold digit. vm_compute. split; discriminate.
  - eexists _, _. split; [reflexivity|]. right. reflexivity.
Qed.
Lemma text_start : forall b v t, json_text b v t -> exists c t', t = c :: t' /\ is_ws c = false /\ byteZ c <> 93 /\ byteZ c <> 125.
Proof.
  intros b v t H. destruct H; try (eexists _, _; split; [reflexivity|]; split; [reflexivity|]; split; vm_compute; discriminate).
  destruct (number_start _ H) as (c & t & -> & D). exists c, t. split; [reflexivity|]. unfold digit in D. unfold is_ws. lia.
Qed.
Lemma no_ws_text : forall b v t rest, json_text b v t -> no_ws (t ++ rest).
Proof. intros b v t rest H. destruct (text_start _ _ _ H) as (c & t' & -> & W & _). exact W. Qed.

Definition closes (c : byte) : Prop := byteZ c = 44 \/ byteZ c = 93 \/ byteZ c = 125.
Lemma ends_after_blank : forall w c rest, white w -> closes c -> number_ends (w ++ c :: rest).
Proof.
  intros [|x w] c rest B C; unfold number_ends, continues_number, is_digit, between; cbn [app].
  - unfold closes in C. lia.
  - specialize (B x (or_introl eq_refl)). cbn in B. lia.
Qed.

Definition is_num (v : json) : Prop := exists lit, v = JNum lit.
Lemma skip_to : forall w c s, white w -> is_ws c = false -> skip_ws (w ++ c :: s) = c :: s.
Proof. intros w c s B N. apply skip_complete; auto. Qed.

Lemma scan_word_app : forall w r, scan_word w (w ++ r) = Some r.
Proof. intros w r. unfold scan_word. rewrite has_prefix_app. f_equal. induction w; auto. Qed.

Ltac lens := do 6 (rewrite ?app_length in *; cbn [List.length app] in * ); lia.
Lemma value_complete_all : forall limit,
  (forall v t, json_text true v t -> forall depth fuel w rest, white w -> nesting_within (limit - depth) v -> (is_num v -> number_ends rest) ->
     (2 * List.length (w ++ t ++ rest) < fuel)%nat -> value limit fuel depth (w ++ t ++ rest) = Some (v, rest)) /\
  (forall l t, elements_text true l t -> forall depth fuel rest, Forall (nesting_within (limit - depth)) l ->
     (2 * List.length (t ++ "]"%byte :: rest) + 1 < fuel)%nat -> elements limit fuel depth (t ++ "]"%byte :: rest) = Some (l, rest)) /\
  (forall l t, members_text true l t -> forall depth fuel rest, Forall (fun kv => nesting_within (limit - depth) (snd kv)) l ->
     (2 * List.length (t ++ "}"%byte :: rest) + 1 < fuel)%nat -> members limit fuel depth (t ++ "}"%byte :: rest) = Some (l, rest)) /\
  (forall k v t, member_text true k v t -> forall depth fuel c rest, closes c -> nesting_within (limit - depth) v ->
     (2 * List.length (t ++ c :: rest) + 1 < S fuel)%nat ->
     members limit (S fuel) depth (t ++ c :: rest) =
       (if byteZ c =? 44 then match members limit fuel depth rest with Some (l, r2) => Some ((k, v) :: l, r2) | None => None end
        else if byteZ c =? 125 then Some ([(k, v)], rest) else None) /\
     exists w c' t', t = w ++ c' :: t' /\ white w /\ byteZ c' = 34).
Proof.
  intros limit.
  apply json_text_mutind.
  - intros depth fuel w rest B N E L. destruct fuel; [lia|]. cbn [value].
    change (letters "null") with ["n"; "u"; "l"; "l"]%byte. cbn [app]. rewrite skip_to by auto.
    change ("n"%byte :: "u"%byte :: "l"%byte :: "l"%byte :: rest) with (bs "null" ++ rest). rewrite scan_word_app. reflexivity.
  - intros depth fuel w rest B N E L. destruct fuel; [lia|]. cbn [value].
    change (letters "true") with ["t"; "r"; "u"; "e"]%byte. cbn [app]. rewrite skip_to by auto.
    change ("t"%byte :: "r"%byte :: "u"%byte :: "e"%byte :: rest) with (bs "true" ++ rest). rewrite scan_word_app. reflexivity.
  - intros depth fuel w rest B N E L. destruct fuel; [lia|]. cbn [value].
    change (letters "false") with ["f"; "a"; "l"; "s"; "e"]%byte. cbn [app]. rewrite skip_to by auto.
    change ("f"%byte :: "a"%byte :: "l"%byte :: "s"%byte :: "e"%byte :: rest) with (bs "false" ++ rest). rewrite scan_word_app. reflexivity.
  - intros lit Hn depth fuel w rest B N E L. destruct fuel; [lia|]. cbn [value]. rewrite skip_complete by (auto; apply (no_ws_text true (JNum lit)); constructor; auto).
    pose proof (scan_number_complete lit rest Hn (E (ex_intro _ lit eq_refl))) as C. destruct (number_start _ Hn) as (c & t & -> & D). cbn [app] in *. unfold digit in D.
    replace (byteZ c =? 123) with false by lia. replace (byteZ c =? 91) with false by lia. replace (byteZ c =? 34) with false by lia.
    replace (byteZ c =? 110) with false by lia. replace (byteZ c =? 116) with false by lia. replace (byteZ c =? 102) with false by lia. rewrite C. reflexivity.
  - intros o t C depth fuel w rest B N E L. destruct fuel; [lia|]. cbn [value app]. rewrite skip_to by auto. change (byteZ quote) with 34. cbn -[string_body app].
    rewrite <- app_assoc. cbn [app]. rewrite (body_complete o); auto. rewrite app_length. cbn [List.length]. lia.
  - intros w0 B0 depth fuel w rest B N E L. destruct fuel; [lia|]. cbn [value app]. rewrite skip_to by auto. change (byteZ "[") with 91.
    inversion N; subst. cbn -[app Z.add Z.ltb]. rewrite <- app_assoc. cbn [app]. rewrite skip_to by auto. replace (limit <? depth + 1) with false by lia. reflexivity.
  - intros l t Ht IH depth fuel w rest B N E L. destruct fuel as [|f]; [lia|]. cbn [value app]. rewrite skip_to by auto. change (byteZ "[") with 91.
    inversion N; subst. cbn -[app Z.add Z.ltb elements take_byte]. rewrite <- app_assoc. cbn [app]. replace (limit <? depth + 1) with false by lia.
    assert (T : take_byte 93 (skip_ws (t ++ "]"%byte :: rest)) = None).
    { assert (exists w1 v t1 t2, t = w1 ++ t1 ++ t2 /\ white w1 /\ json_text true v t1) as (w1 & v & t1 & t2 & -> & B1 & J).
      { destruct Ht; eexists _, _, _, _; split; eauto. }
      rewrite <- !app_assoc. destruct (text_start _ _ _ J) as (c & t' & -> & W & K & _). cbn [app]. rewrite skip_to by auto. cbn. replace (byteZ c =? 93) with false by lia. reflexivity. }
    rewrite T, IH; auto.
    + replace (limit - (depth + 1)) with (limit - depth - 1) by lia. auto.
    + lens.
  - intros w0 B0 depth fuel w rest B N E L. destruct fuel; [lia|]. cbn [value app]. rewrite skip_to by auto. change (byteZ "{") with 123.
    inversion N; subst. cbn -[app Z.add Z.ltb]. rewrite <- app_assoc. cbn [app]. rewrite skip_to by auto. replace (limit <? depth + 1) with false by lia. reflexivity.
  - intros l t Ht IH depth fuel w rest B N E L. destruct fuel as [|f]; [lia|]. cbn [value app]. rewrite skip_to by auto. change (byteZ "{") with 123.
    inversion N; subst. cbn -[app Z.add Z.ltb members take_byte]. rewrite <- app_assoc. cbn [app]. replace (limit <? depth + 1) with false by lia.
    assert (T : take_byte 125 (skip_ws (t ++ "}"%byte :: rest)) = None).
    { assert (exists w1 t2, t = w1 ++ quote :: t2 /\ white w1) as (w1 & t2 & -> & B1).
      { destruct Ht as [k v m M|k v m l t' M _]; destruct M; rewrite <- ?app_assoc; cbn [app]; eexists _, _; (split; [reflexivity|assumption]). }
      rewrite <- !app_assoc. cbn [app]. rewrite skip_to by auto. reflexivity. }
    rewrite T, IH; auto.
    + replace (limit - (depth + 1)) with (limit - depth - 1) by lia. auto.
    + lens.
  - intros w1 v t w2 B1 J IH B2 depth fuel rest F L. destruct fuel as [|f]; [lia|]. cbn [elements]. inversion F; subst. rewrite <- !app_assoc. rewrite IH; auto.
    + rewrite skip_to by auto. reflexivity.
    + intros _. apply ends_after_blank; auto. right. left. reflexivity.
    + rewrite <- !app_assoc in L. lia.
  - intros w1 v t w2 l t' B1 J IH B2 Jl IHl depth fuel rest F L. destruct fuel as [|f]; [lia|]. cbn [elements]. inversion F; subst. rewrite <- !app_assoc. cbn [app]. rewrite IH; auto.
    + rewrite skip_to by auto. change (byteZ "," =? 44) with true. cbn iota. rewrite IHl; auto. lens.
    + intros _. apply ends_after_blank; auto. left. reflexivity.
    + lens.
  - intros k v m M IH depth fuel rest F L. inversion F; subst. destruct fuel as [|f]; [lia|]. destruct (IH depth f "}"%byte rest) as [-> _]; auto. right; right; reflexivity.
  - intros k v m l t' M IH Ml IHl depth fuel rest F L. inversion F; subst. destruct fuel as [|f]; [lia|]. rewrite <- app_assoc. cbn [app]. destruct (IH depth f ","%byte (t' ++ "}"%byte :: rest)) as [-> _]; auto.
    + left. reflexivity.
    + rewrite <- app_assoc in L. cbn [app] in L. lia.
    + change (byteZ "," =? 44) with true. cbn iota. rewrite IHl; auto. lens.
  - intros w1 k kt w2 w3 v t w4 B1 Ck B2 B3 J IH B4 depth fuel c rest Cc N L. split; [|eexists _, _, _; split; [reflexivity|]; split; [auto|reflexivity]].
    cbn [members]. rewrite <- !app_assoc. cbn [app]. rewrite skip_to by auto. cbn -[string_body app value members skip_ws List.length].
    rewrite <- !app_assoc. cbn [app]. rewrite (body_complete k); auto.
    2:{ rewrite !app_length. cbn [List.length]. lia. }
    rewrite <- !app_assoc. cbn [app]. rewrite skip_to by auto. cbn -[string_body app value members skip_ws]. rewrite <- !app_assoc. rewrite IH; auto.
    + rewrite skip_to; auto. unfold closes in Cc. unfold is_ws. lia.
    + intros _. apply ends_after_blank; auto.
    + lens.
Qed.

Lemma scan_word_sound : forall w s r, scan_word w s = Some r -> s = w ++ r.
Proof.
  intros w s r H. unfold scan_word in H. destruct (has_prefix s w) eqn:E; [|discriminate]. injection H as <-.
  destruct (has_prefix_inv _ _ E) as (x & ->). f_equal. clear. induction w; auto.
Qed.

Lemma value_sound_all : forall limit fuel,
  (forall d s v r, value limit fuel d s = Some (v, r) -> exists w t, s = w ++ t ++ r /\ white w /\ json_text false v t /\ nesting_within (limit - d) v) /\
  (forall d s l r, elements limit fuel d s = Some (l, r) -> exists t, s = t ++ "]"%byte :: r /\ elements_text false l t /\ Forall (nesting_within (limit - d)) l) /\
  (forall d s l r, members limit fuel d s = Some (l, r) -> exists t, s = t ++ "}"%byte :: r /\ members_text false l t /\ Forall (fun kv => nesting_within (limit - d) (snd kv)) l).
Proof.
  intros limit. induction fuel as [|f (IHv & IHe & IHm)]; [split; [|split]; intros; discriminate|]. split; [|split].
  - intros d s v r H. cbn [value] in H. destruct (skip_sound s) as (w & Es & B & N). destruct (skip_ws s) as [|c s1] eqn:K; [discriminate|].
    assert (Close : forall t, c :: s1 = t ++ r -> json_text false v t -> nesting_within (limit - d) v ->
              exists w t, s = w ++ t ++ r /\ white w /\ json_text false v t /\ nesting_within (limit - d) v).
    { intros t E J M. exists w, t. rewrite <- E. auto. }
    destruct (byteZ c =? 123) eqn:E1.
    { apply Z.eqb_eq in E1. apply byte_is in E1. change (byte_of_Z 123) with "{"%byte in E1. subst c. destruct (limit <? d + 1) eqn:Ld; [discriminate|].
      destruct (take_byte 125 (skip_ws s1)) as [[q r1]|] eqn:T.
      - injection H as <- <-. destruct (skip_sound s1) as (w1 & E2 & B1 & _). apply take_byte_sound in T. destruct T as (T & Q). apply byte_is in Q. change (byte_of_Z 125) with "}"%byte in Q. subst q.
        apply (Close ("{"%byte :: w1 ++ ["}"%byte])); [cbn [app]; rewrite <- app_assoc; cbn [app]; rewrite <- T, <- E2; reflexivity|constructor; auto|constructor; [lia|constructor]].
      - destruct (members limit f (d + 1) s1) as [[l r1]|] eqn:M; [|discriminate]. injection H as <- <-. destruct (IHm _ _ _ _ M) as (t & -> & J & F).
        apply (Close ("{"%byte :: t ++ ["}"%byte])); [cbn [app]; rewrite <- app_assoc; reflexivity|apply jt_object; auto|constructor; [lia|]].
        replace (limit - d - 1) with (limit - (d + 1)) by lia. exact F. }
    destruct (byteZ c =? 91) eqn:E2.
    { apply Z.eqb_eq in E2. apply byte_is in E2. change (byte_of_Z 91) with "["%byte in E2. subst c. destruct (limit <? d + 1) eqn:Ld; [discriminate|].
      destruct (take_byte 93 (skip_ws s1)) as [[q r1]|] eqn:T.
      - injection H as <- <-. destruct (skip_sound s1) as (w1 & E3 & B1 & _). apply take_byte_sound in T. destruct T as (T & Q). apply byte_is in Q. change (byte_of_Z 93) with "]"%byte in Q. subst q.
        apply (Close ("["%byte :: w1 ++ ["]"%byte])); [cbn [app]; rewrite <- app_assoc; cbn [app]; rewrite <- T, <- E3; reflexivity|constructor; auto|constructor; [lia|constructor]].
      - destruct (elements limit f (d + 1) s1) as [[l r1]|] eqn:M; [|discriminate]. injection H as <- <-. destruct (IHe _ _ _ _ M) as (t & -> & J & F).
        apply (Close ("["%byte :: t ++ ["]"%byte])); [cbn [app]; rewrite <- app_assoc; reflexivity|apply jt_array; auto|constructor; [lia|]].
        replace (limit - d - 1) with (limit - (d + 1)) by lia. exact F. }
    destruct (byteZ c =? 34) eqn:E3.
    { apply Z.eqb_eq in E3. apply byte_is in E3. change (byte_of_Z 34) with quote in E3. subst c.
      destruct (string_body (S (List.length s1)) s1) as [[o r1]|] eqn:M; [|discriminate]. injection H as <- <-. destruct (body_sound _ _ _ _ M) as (t & -> & J).
      apply (Close (quote :: t ++ [quote])); [cbn [app]; rewrite <- app_assoc; reflexivity|constructor; auto|constructor]. }
    destruct (byteZ c =? 110) eqn:E4.
    { destruct (scan_word (bs "null") (c :: s1)) as [r1|] eqn:M; [|discriminate]. injection H as <- <-. apply scan_word_sound in M. eapply Close; [exact M|constructor|constructor]. }
    destruct (byteZ c =? 116) eqn:E5.
    { destruct (scan_word (bs "true") (c :: s1)) as [r1|] eqn:M; [|discriminate]. injection H as <- <-. apply scan_word_sound in M. eapply Close; [exact M|constructor|constructor]. }
    destruct (byteZ c =? 102) eqn:E6.
    { destruct (scan_word (bs "false") (c :: s1)) as [r1|] eqn:M; [|discriminate]. injection H as <- <-. apply scan_word_sound in M. eapply Close; [exact M|constructor|constructor]. }
    destruct (scan_number (c :: s1)) as [[lit r1]|] eqn:M; [|discriminate]. injection H as <- <-. apply scan_number_sound in M. destruct M as (M & J). eapply Close; [exact M|constructor; auto|constructor].
  - intros d s l r H. cbn [elements] in H. destruct (value limit f d s) as [[v r1]|] eqn:V; [|discriminate]. destruct (IHv _ _ _ _ V) as (w & t & -> & B & J & M).
    destruct (skip_sound r1) as (w2 & E2 & B2 & _). destruct (skip_ws r1) as [|c r2]; [discriminate|]. subst r1. destruct (byteZ c =? 44) eqn:C.
    + destruct (elements limit f d r2) as [[l' r3]|] eqn:R; [|discriminate]. injection H as <- <-. destruct (IHe _ _ _ _ R) as (t' & -> & J' & F).
      apply Z.eqb_eq in C. apply byte_is in C. change (byte_of_Z 44) with ","%byte in C. subst c.
      exists (w ++ t ++ w2 ++ ","%byte :: t'). split; [rewrite <- !app_assoc; reflexivity|]. split; [constructor; auto|constructor; auto].
    + destruct (byteZ c =? 93) eqn:C2; [|discriminate]. injection H as <- <-. apply Z.eqb_eq in C2. apply byte_is in C2. change (byte_of_Z 93) with "]"%byte in C2. subst c.
      exists (w ++ t ++ w2). split; [rewrite <- !app_assoc; reflexivity|]. split; [constructor; auto|constructor; auto].
  - intros d s l r H. cbn [members] in H. destruct (skip_sound s) as (w1 & E1 & B1 & _). destruct (take_byte 34 (skip_ws s)) as [[q s1]|] eqn:T; [|discriminate].
    apply take_byte_sound in T. destruct T as (T & Q). apply byte_is in Q. change (byte_of_Z 34) with quote in Q. subst q. rewrite T in E1.
    destruct (string_body (S (List.length s1)) s1) as [[k s2]|] eqn:SB; [|discriminate]. destruct (body_sound _ _ _ _ SB) as (kt & E2 & Jk).
    destruct (skip_sound s2) as (w2 & E3 & B2 & _). destruct (take_byte 58 (skip_ws s2)) as [[q s3]|] eqn:T2; [|discriminate].
    apply take_byte_sound in T2. destruct T2 as (T2 & Q). apply byte_is in Q. change (byte_of_Z 58) with ":"%byte in Q. subst q. rewrite T2 in E3.
    destruct (value limit f d s3) as [[v r1]|] eqn:V; [|discriminate]. destruct (IHv _ _ _ _ V) as (w3 & t & E4 & B3 & J & M).
    destruct (skip_sound r1) as (w4 & E5 & B4 & _). destruct (skip_ws r1) as [|c r2]; [discriminate|]. clear T T2 SB V. subst r1 s3 s2 s1 s.
    pose proof (mt_intro false w1 k kt w2 w3 v t w4 B1 Jk B2 B3 J B4) as Mt. destruct (byteZ c =? 44) eqn:C.
    + destruct (members limit f d r2) as [[l' r3]|] eqn:R; [|discriminate]. injection H as <- <-. destruct (IHm _ _ _ _ R) as (t' & -> & J' & F).
      apply Z.eqb_eq in C. apply byte_is in C. change (byte_of_Z 44) with ","%byte in C. subst c.
      eexists. split; [|split; [apply mt_more; [exact Mt|exact J']|constructor; auto]]. repeat (cbn [app]; rewrite <- ?app_assoc). reflexivity.
    + destruct (byteZ c =? 125) eqn:C2; [|discriminate]. injection H as <- <-. apply Z.eqb_eq in C2. apply byte_is in C2. change (byte_of_Z 125) with "}"%byte in C2. subst c.
      eexists. split; [|split; [apply mt_one; exact Mt|constructor; auto]]. repeat (cbn [app]; rewrite <- ?app_assoc). reflexivity.
Qed.

(** more fuel, a greater limit, more bytes at the end: the same result *)
Lemma value_ext_all : forall limit limit' more, limit <= limit' -> forall fuel,
  (forall fuel' d s v r, (fuel <= fuel')%nat -> value limit fuel d s = Some (v, r) -> more = [] \/ r <> [] \/ ~ is_num v -> value limit' fuel' d (s ++ more) = Some (v, r ++ more)) /\
  (forall fuel' d s l r, (fuel <= fuel')%nat -> elements limit fuel d s = Some (l, r) -> elements limit' fuel' d (s ++ more) = Some (l, r ++ more)) /\
  (forall fuel' d s l r, (fuel <= fuel')%nat -> members limit fuel d s = Some (l, r) -> members limit' fuel' d (s ++ more) = Some (l, r ++ more)).
Proof.
  intros limit limit' more HL. induction fuel as [|f (IHv & IHe & IHm)]; [split; [|split]; intros; discriminate|]. split; [|split].
  - intros [|f'] d s v r L H C; [lia|]. cbn [value] in *. destruct (skip_ws s) as [|c s1] eqn:K; [discriminate|].
    rewrite skip_ext by congruence. rewrite K. cbn [app].
    destruct (byteZ c =? 123).
    { destruct (limit <? d + 1) eqn:Ld; [discriminate|]. replace (limit' <? d + 1) with false by lia.
      destruct (take_byte 125 (skip_ws s1)) as [[q r1]|] eqn:T.
      - injection H as <- <-. rewrite skip_ext by (intros E; rewrite E in T; discriminate). rewrite (take_byte_ext _ _ _ _ _ T). reflexivity.
      - destruct (members limit f (d + 1) s1) as [[l r1]|] eqn:M; [|discriminate]. injection H as <- <-.
        assert (skip_ws s1 <> []) by (intros E; destruct f; [discriminate|]; cbn [members] in M; rewrite E in M; discriminate).
        rewrite skip_ext, take_byte_none by auto. rewrite (IHm f' _ _ _ _ ltac:(lia) M). reflexivity. }
    destruct (byteZ c =? 91).
    { destruct (limit <? d + 1) eqn:Ld; [discriminate|]. replace (limit' <? d + 1) with false by lia.
      destruct (take_byte 93 (skip_ws s1)) as [[q r1]|] eqn:T.
      - injection H as <- <-. rewrite skip_ext by (intros E; rewrite E in T; discriminate). rewrite (take_byte_ext _ _ _ _ _ T). reflexivity.
      - destruct (elements limit f (d + 1) s1) as [[l r1]|] eqn:M; [|discriminate]. injection H as <- <-.
        assert (skip_ws s1 <> []) by (intros E; destruct f as [|[|f]]; [discriminate..|]; cbn [elements] in M; cbn [value] in M; rewrite E in M; discriminate).
        rewrite skip_ext, take_byte_none by auto. rewrite (IHe f' _ _ _ _ ltac:(lia) M). reflexivity. }
    destruct (byteZ c =? 34).
    { destruct (string_body (S (List.length s1)) s1) as [[o r1]|] eqn:M; [|discriminate]. injection H as <- <-. rewrite (body_ext _ (S (List.length (s1 ++ more))) _ _ _ _ M); [reflexivity|]. rewrite app_length. lia. }
    assert (W : forall w r1, scan_word w (c :: s1) = Some r1 -> scan_word w (c :: s1 ++ more) = Some (r1 ++ more)).
    { intros w r1 M. apply scan_word_sound in M. change (c :: s1 ++ more) with ((c :: s1) ++ more). rewrite M, <- app_assoc. apply scan_word_app. }
    destruct (byteZ c =? 110).
    { destruct (scan_word (bs "null") (c :: s1)) as [r1|] eqn:M; [|discriminate]. injection H as <- <-. rewrite (W _ _ M). reflexivity. }
    destruct (byteZ c =? 116).
    { destruct (scan_word (bs "true") (c :: s1)) as [r1|] eqn:M; [|discriminate]. injection H as <- <-. rewrite (W _ _ M). reflexivity. }
    destruct (byteZ c =? 102).
    { destruct (scan_word (bs "false") (c :: s1)) as [r1|] eqn:M; [|discriminate]. injection H as <- <-. rewrite (W _ _ M). reflexivity. }
    destruct (scan_number (c :: s1)) as [[lit r1]|] eqn:M; [|discriminate]. injection H as <- <-. change (c :: s1 ++ more) with ((c :: s1) ++ more).
    destruct C as [->|[C|C]].
    + rewrite !app_nil_r, M. reflexivity.
    + rewrite (scan_number_ext _ _ _ _ M C). reflexivity.
    + exfalso. apply C. eexists. reflexivity.
  - intros [|f'] d s l r L H; [lia|]. cbn [elements] in *. destruct (value limit f d s) as [[v r1]|] eqn:V; [|discriminate].
    destruct (skip_ws r1) as [|c r2] eqn:K; [discriminate|]. assert (r1 <> []) by (intros ->; discriminate).
    rewrite (IHv f' _ _ _ _ ltac:(lia) V) by auto. rewrite skip_ext by congruence. rewrite K. cbn [app]. destruct (byteZ c =? 44).
    + destruct (elements limit f d r2) as [[l' r3]|] eqn:R; [|discriminate]. injection H as <- <-. rewrite (IHe f' _ _ _ _ ltac:(lia) R). reflexivity.
    + destruct (byteZ c =? 93); [|discriminate]. injection H as <- <-. reflexivity.
  - intros [|f'] d s l r L H; [lia|]. cbn [members] in *. destruct (take_byte 34 (skip_ws s)) as [[q s1]|] eqn:T; [|discriminate].
    rewrite skip_ext by (intros E; rewrite E in T; discriminate). rewrite (take_byte_ext _ _ _ _ _ T).
    destruct (string_body (S (List.length s1)) s1) as [[k s2]|] eqn:SB; [|discriminate]. rewrite (body_ext _ (S (List.length (s1 ++ more))) _ _ _ _ SB) by (rewrite app_length; lia).
    destruct (take_byte 58 (skip_ws s2)) as [[q' s3]|] eqn:T2; [|discriminate]. rewrite skip_ext by (intros E; rewrite E in T2; discriminate). rewrite (take_byte_ext _ _ _ _ _ T2).
    destruct (value limit f d s3) as [[v r1]|] eqn:V; [|discriminate]. destruct (skip_ws r1) as [|c r2] eqn:K; [discriminate|]. assert (r1 <> []) by (intros ->; discriminate).
    rewrite (IHv f' _ _ _ _ ltac:(lia) V) by auto. rewrite skip_ext by congruence. rewrite K. cbn [app]. destruct (byteZ c =? 44).
    + destruct (members limit f d r2) as [[l' r3]|] eqn:R; [|discriminate]. injection H as <- <-. rewrite (IHm f' _ _ _ _ ltac:(lia) R). reflexivity.
    + destruct (byteZ c =? 125); [|discriminate]. injection H as <- <-. reflexivity.
Qed.
