(** * Texts that meet the hypotheses of C64, and texts that break them *)

From Coq Require Import ZArith List Bool String Lia ZifyBool.
From Verif Require Import Go GoFloat GoText LgTree Transformation Ensembles Leaves LgJsonIO JsonText
  Spec_Tree Spec_LgJson Spec_JsonText Spec_EndToEnd Pf_Go Pf_LgJson Pf_JsonText Prop_LgText Prop_LgJson Prop_EndToEnd Prop_JsonText Ex_LgText Ex_LgJson Demo DemoText.
Local Open Scope Z_scope.

(** ** A plain writer, and a check that it applies *)
Fixpoint write (v : json) : bytes :=
  match v with
  | JNull => bs "null"
  | JBool b => bs (if b then "true" else "false")
  | JNum lit => lit
  | JStr s => quote :: s ++ [quote]
  | JArr [] => bs "[]"
  | JArr l => bs "[" ++ (fix go (l : list json) : bytes := match l with [] => [] | [x] => write x | x :: l' => write x ++ bs "," ++ go l' end) l ++ bs "]"
  | JObj [] => bs "{}"
  | JObj l => bs "{" ++ (fix go (l : list (bytes * json)) : bytes :=
                match l with [] => [] | [(k, x)] => quote :: k ++ quote :: bs ": " ++ write x | (k, x) :: l' => (quote :: k ++ quote :: bs ": " ++ write x) ++ bs "," ++ go l' end) l ++ bs "}"
  end.
Definition letter (c : byte) : bool := (32 <=? byteZ c) && (byteZ c <? 128) && negb (byteZ c =? 34) && negb (byteZ c =? 92).
Fixpoint writable (v : json) : bool :=
  match v with
  | JNull | JBool _ => true
  | JNum lit => match scan_number lit with Some (_, []) => true | _ => false end
  | JStr s => forallb letter s
  | JArr l => (fix go (l : list json) : bool := match l with [] => true | x :: l' => writable x && go l' end) l
  | JObj l => (fix go (l : list (bytes * json)) : bool := match l with [] => true | (k, x) :: l' => forallb letter k && writable x && go l' end) l
  end.
Lemma letters_text : forall b s, forallb letter s = true -> json_chars b s s.
Proof.
  induction s as [|c s IH]; intros H; [constructor|]. cbn [forallb] in H. apply andb_prop in H. destruct H as [H1 H2].
  change (c :: s) with ([c] ++ s). constructor; [|auto]. unfold letter in H1. eapply jc_plain; [apply utf8_1| | |]; lia.
Qed.
Lemma white_nil : white []. Proof. intros c []. Qed.
Lemma white_sp : white [sp]. Proof. intros c [<-|[]]. left. reflexivity. Qed.
Lemma write_text : forall b v, writable v = true -> json_text b v (write v).
Proof.
  intros b v. induction v as [| | x | | l IH | l IH] using json_ind'; intros H.
  - constructor.
  - destruct b0; constructor.
  - cbn [writable] in H. destruct (scan_number x) as [[lit [|]]|] eqn:E; try discriminate. destruct (scan_number_sound _ _ _ E) as (-> & N). rewrite app_nil_r. constructor; auto.
  - constructor. apply letters_text. exact H.
  - destruct l as [|v l]; [apply (jt_empty_array b []); apply white_nil|]. cbn [write]. apply (jt_array b (v :: l)).
    cbn [writable] in H. revert v H IH. induction l as [|v' l IHl]; intros v H IH; apply andb_prop in H; destruct H as [H1 H2]; inversion IH as [|? ? P1 P2]; subst.
    + pose proof (et_one b [] v (write v) [] white_nil (P1 H1) white_nil) as K. cbn [app] in K. rewrite app_nil_r in K. exact K.
    + pose proof (et_more b [] v (write v) [] (v' :: l) _ white_nil (P1 H1) white_nil (IHl v' H2 P2)) as K. exact K.
  - destruct l as [|[k v] l]; [apply (jt_empty_object b []); apply white_nil|]. cbn [write]. apply (jt_object b ((k, v) :: l)).
    cbn [writable] in H. revert k v H IH. induction l as [|[k' v'] l IHl]; intros k v H IH; apply andb_prop in H; destruct H as [H1 H2]; apply andb_prop in H1; destruct H1 as [Hk Hv]; inversion IH as [|? ? P1 P2]; subst.
    all: pose proof (mt_intro b [] k k [] [sp] v (write v) [] white_nil (letters_text b k Hk) white_nil white_sp (P1 Hv) white_nil) as M; rewrite app_nil_r in M.
    + apply mt_one. exact M.
    + pose proof (mt_more b k v _ ((k', v') :: l) _ M (IHl k' v' H2 P2)) as K. exact K.
Qed.

(** ** The model of Ex_LgJson.v as bytes *)
Definition ex_text : bytes := Eval vm_compute in write ex_json.
Lemma ex_text_says : json_text true ex_json ex_text.
Proof. change ex_text with (write ex_json). apply write_text. vm_compute. reflexivity. Qed.
Lemma ex_nesting : nesting_within 10000 ex_json.
Proof. repeat (constructor; [vm_compute; discriminate|]; repeat (apply Forall_cons || apply Forall_nil; cbn [snd])); repeat constructor; try (vm_compute; discriminate). Qed.

Example C64_demo_hypotheses : white [sp; nl] /\ json_text true ex_json ex_text /\ structured ex_json /\ nesting_within 10000 ex_json.
Proof. split; [intros c [<-|[<-|[]]]; vm_compute; tauto|]. split; [apply ex_text_says|]. split; [right; eexists; reflexivity|apply ex_nesting]. Qed.

Example C64_demo :
  exists e, LGEnsembleFromJSONReader amd64_text 10000 (mkReader ([sp; nl] ++ ex_text ++ bs "anything") false) false = Ok e /\ NRawOutputGroups e = 1.
Proof.
  destruct C64_demo_hypotheses as (B & J & _ & N).
  destruct (C64_predictions amd64_text 10000 [sp; nl] ex_text (bs "anything") false ex_json 1 1 [ex_json_tree; ex_json_const] [ex_tree'; ex_const] B J N ex_json_says) as (e & E & G & _).
  - vm_compute. discriminate.
  - vm_compute. discriminate.
  - eauto.
Qed.

(** strings: a text with every kind of escape, and the same string without *)
Definition escaped : bytes := bs "[""\u0041\n\ud83d\ude00\/\u00e9""]".
Definition plain_text : bytes := bs "[ ""A\u000a" ++ ["240"; "159"; "152"; "128"]%byte ++ bs "/" ++ ["195"; "169"]%byte ++ bs """ ]".
Definition said : json := JArr [JStr (["A"; "010"; "240"; "159"; "152"; "128"; "/"; "195"; "169"]%byte)].
Example escapes_alike : first_value 10 (mkReader escaped true) = Some said /\ first_value 10 (mkReader plain_text true) = Some said.
Proof. vm_compute. split; reflexivity. Qed.
Example escaped_says : json_text true said escaped.
Proof.
  assert (E : escaped = "["%byte :: ([] ++ (quote :: bs "\u0041\n\ud83d\ude00\/\u00e9" ++ [quote]) ++ []) ++ ["]"%byte]) by (vm_compute; reflexivity).
  rewrite E. apply jt_array. apply et_one; [apply white_nil| |apply white_nil]. apply jt_str.
  assert (H4 : forall a b c d x y z w, hex_digit a = Some x -> hex_digit b = Some y -> hex_digit c = Some z -> hex_digit d = Some w ->
    hex4 (x * 4096 + y * 256 + z * 16 + w) [a; b; c; d]) by (intros; constructor; apply hex_sound; auto).
  assert (S : ~ surrogate 65 /\ ~ surrogate 233) by (unfold surrogate; lia). destruct S as [S1 S2].
  apply (jcs_cons true ["A"%byte] (bs "\u0041")).
  { apply (jc_unicode true 65 (bs "0041")); [apply (H4 _ _ _ _ 0 0 4 1); reflexivity|exact S1|apply (utf8_1 "A"); reflexivity]. }
  apply (jcs_cons true ["010"%byte] (bs "\n")); [apply (jc_short true "n" 10); cbn; tauto|].
  apply (jcs_cons true ["240"; "159"; "152"; "128"]%byte (bs "\ud83d\ude00")).
  { apply (jc_pair true 55357 56832 (bs "d83d") (bs "de00")); [apply (H4 _ _ _ _ 13 8 3 13); reflexivity|apply (H4 _ _ _ _ 13 14 0 0); reflexivity|lia|lia|].
    apply utf8_4; unfold continues; vm_compute; first [reflexivity|discriminate|split; (discriminate || reflexivity)]. }
  apply (jcs_cons true ["/"%byte] (bs "\/")); [apply (jc_short true "/" 47); cbn; tauto|].
  apply (jcs_cons true ["195"; "169"]%byte (bs "\u00e9")); [|apply jcs_nil].
  apply (jc_unicode true 233 (bs "00e9")); [apply (H4 _ _ _ _ 0 0 14 9); reflexivity|exact S2|].
  apply utf8_2; unfold continues; vm_compute; first [reflexivity|discriminate|split; (discriminate || reflexivity)].
Qed.

(** refused: not JSON, cut off, nested too deep *)
Example refused :
  map (fun s => first_value 3 (mkReader (bs s) true)) [""; "  "; "tree"; "{'a':1}"; "{""a"":01}"; "{""a"":1,}"; "[1 2]"; "{""a"" 1}"; "{""a"":.5}"; "{""a"":1e}"; "{""a"":""\x""}"; "{""a"":[[1]]"; "[[[[1]]]]"]%string =
  repeat None 13.
Proof. vm_compute. reflexivity. Qed.
Example not_json_hypothesis : forall v, ~ stream_says false v (bs "tree").
Proof.
  intros v (w & t & rest & E & B & J). assert (K : skip_ws (bs "tree") = t ++ rest) by (rewrite E; apply skip_complete; auto; eapply no_ws_text; eauto).
  change (skip_ws (bs "tree")) with (bs "tree") in K. destruct J; try discriminate.
  destruct (number_start _ H) as (c & t2 & -> & D). injection K as <- _. vm_compute in D. destruct D as [[_ D]|D]; [apply D; reflexivity|discriminate].
Qed.
Example too_deep_hypothesis : ~ nesting_within 3 (JArr [JArr [JArr [JArr [JNum (bs "1")]]]]).
Proof.
  intros H. repeat (match goal with K : nesting_within _ (JArr _) |- _ => inversion K; clear K; subst | K : Forall _ (_ :: _) |- _ => inversion K; clear K; subst end). lia.
Qed.
Example cut_hypothesis : exists s cut, [sp; nl] ++ ex_text = s ++ cut /\ cut <> [] /\ (100 < List.length s)%nat.
Proof.
  exists (firstn 200 ([sp; nl] ++ ex_text)), (skipn 200 ([sp; nl] ++ ex_text)). split; [symmetry; apply firstn_skipn|]. split; [vm_compute; discriminate|vm_compute; repeat constructor].
Qed.
