(** * Reading of parameter blocks (C32) *)

From Coq Require Import ZArith List Bool Lia.
From Verif Require Import Go GoText UtilText Spec_Params Spec_LgText Pf_Go Pf_Text.

Lemma read_line : forall l r e, one_line l -> read_string (mkReader (l ++ nl :: r) e) = (l ++ [nl], RdNil, mkReader r e).
Proof. intros l r e H. unfold read_string. cbn [rd_bytes rd_eof]. rewrite cut_line_some by auto. reflexivity. Qed.
Lemma read_last : forall s e, one_line s -> read_string (mkReader s e) = (s, if e then RdEOF else RdOther, mkReader [] e).
Proof. intros s e H. unfold read_string. cbn [rd_bytes rd_eof]. rewrite cut_line_none by auto. reflexivity. Qed.

Lemma blank_dec : forall l, beqb (trim_space l) [] = true <-> blank l.
Proof. intros l. rewrite beqb_eq. apply trim_blank. Qed.
Lemma not_blank : forall l, ~ blank l -> beqb (trim_space l) [] = false.
Proof. intros l H. rewrite <- trim_blank in H. apply beqb_neq. auto. Qed.

Lemma unlines_cons : forall l ls, unlines (l :: ls) = l ++ nl :: unlines ls.
Proof. intros. unfold unlines. simpl. rewrite <- app_assoc. reflexivity. Qed.

(** the loop on well formed lines followed by [s] *)
Lemma loop_lines : forall lines kvs, Forall2 line_says lines kvs -> Forall one_line lines -> Forall (fun l => ~ blank l) (tl lines) ->
  forall line0 ls, lines = line0 :: ls ->
  forall fuel ps s e, (List.length (unlines ls ++ s) < fuel)%nat ->
  exists fuel', (List.length s <= fuel')%nat /\
  params_loop fuel ps (trim_space line0) (mkReader (unlines ls ++ s) e) =
    let '(line, err, r) := read_string (mkReader s e) in
    match err with
    | RdOther => Err "read error"
    | _ => if beqb (trim_space line) [] then Ok (rev kvs ++ ps, r) else params_loop fuel' (rev kvs ++ ps) (trim_space line) r
    end.
Proof.
  intros lines kvs H. induction H as [|l kv lines kvs Hs H2 IH]; intros Ho Hb line0 ls E fuel ps s e Hf; [discriminate|].
  injection E as -> ->. destruct fuel as [|fuel]; [lia|]. cbn [params_loop]. rewrite (params_line_says _ _ _ Hs). cbn [bind].
  cbn [tl] in Hb. inversion Ho as [|? ? Ho1 Ho2]; subst. destruct H2 as [|l2 kv2 ls2 kvs2 Hs2 H2].
  - cbn [unlines map List.concat app] in *. exists fuel. destruct (read_string (mkReader s e)) as [[line err] r] eqn:Er. cbn [rev app].
    split; [lia|]. destruct err; reflexivity.
  - rewrite unlines_cons, <- app_assoc, <- app_comm_cons. inversion Ho2 as [|? ? Ho3 Ho4]; subst. inversion Hb as [|? ? Hb1 Hb2]; subst.
    rewrite read_line by auto. cbn [bind]. rewrite trim_nl, not_blank by auto.
    rewrite unlines_cons, !app_length in Hf. cbn [List.length] in Hf.
    destruct (IH Ho2 Hb2 l2 ls2 eq_refl fuel (kv :: ps) s e) as (fuel' & F1 & F2).
    { rewrite app_length. lia. }
    exists fuel'. split; auto. rewrite F2. cbn [rev]. rewrite <- !app_assoc. reflexivity.
Qed.

(** ** C32 *)
(** A block of lines closed by a blank line: all of them are read, the last value of a key
    wins, and the reader stands just behind the blank line.  (The first line is never taken
    for the closing blank line; see [C32_leading_blank_lines_skipped_refuted].) *)
Theorem C32_block :
  forall lines kvs b rest eof,
  lines <> [] -> Forall one_line lines -> one_line b ->
  Forall2 line_says lines kvs -> Forall (fun l => ~ blank l) (tl lines) -> blank b ->
  exists ps, ReadParamsUntilBlank (mkReader (unlines lines ++ b ++ nl :: rest) eof) = Ok (ps, mkReader rest eof) /\
             forall key, lookup ps key = last_value kvs key.
Proof.
  intros lines kvs b rest eof N Ho Hob Hs Hnb Hb. destruct lines as [|l0 ls]; [contradiction|].
  exists (rev kvs). split; [|intros; apply lookup_rev]. unfold ReadParamsUntilBlank. rewrite unlines_cons, <- app_assoc, <- app_comm_cons.
  inversion Ho; subst. rewrite read_line by auto. rewrite trim_nl.
  destruct (loop_lines (l0 :: ls) kvs Hs Ho Hnb l0 ls eq_refl (S (List.length (rd_bytes (mkReader (l0 ++ nl :: unlines ls ++ b ++ nl :: rest) eof)))) [] (b ++ nl :: rest) eof) as (f & F1 & F2).
  { cbn [rd_bytes]. rewrite !app_length. cbn [List.length]. rewrite ?app_length. cbn [List.length]. lia. }
  rewrite F2, read_line by auto. rewrite trim_nl. rewrite (proj2 (blank_dec b) Hb). rewrite app_nil_r. reflexivity.
Qed.
Print Assumptions C32_block.

(** A block closed by the end of the input; the last line may lack its newline. *)
Theorem C32_end_of_input :
  forall lines kvs last,
  lines <> [] -> Forall one_line lines -> one_line last -> Forall (fun l => ~ blank l) (tl lines) ->
  (blank last /\ Forall2 line_says lines kvs \/ ~ blank last /\ Forall2 line_says (lines ++ [last]) kvs) ->
  exists ps, ReadParamsUntilBlank (mkReader (unlines lines ++ last) true) = Ok (ps, mkReader [] true) /\
             forall key, lookup ps key = last_value kvs key.
Proof.
  intros lines kvs last N Ho Hol Hnb C. destruct lines as [|l0 ls]; [contradiction|].
  exists (rev kvs). split; [|intros; apply lookup_rev]. unfold ReadParamsUntilBlank. rewrite unlines_cons, <- app_assoc, <- app_comm_cons.
  inversion Ho; subst. rewrite read_line by auto. rewrite trim_nl.
  assert (Hs : exists kvs1, Forall2 line_says (l0 :: ls) kvs1 /\ (blank last /\ kvs = kvs1 \/ ~ blank last /\ exists kv, line_says last kv /\ kvs = kvs1 ++ [kv])).
  { destruct C as [[B C]|[B C]]; [eauto|]. apply Forall2_app_inv_l in C. destruct C as (k1 & k2 & C1 & C2 & ->).
    inversion C2 as [|? kv ? ? Hkv C3]; subst. inversion C3; subst. exists k1. split; auto. right. split; auto. eauto. }
  destruct Hs as (kvs1 & Hs & D).
  destruct (loop_lines (l0 :: ls) kvs1 Hs Ho Hnb l0 ls eq_refl (S (List.length (rd_bytes (mkReader (l0 ++ nl :: unlines ls ++ last) true)))) [] last true) as (f & F1 & F2).
  { cbn [rd_bytes]. rewrite !app_length. cbn [List.length]. rewrite ?app_length. cbn [List.length]. lia. }
  rewrite F2, read_last by auto. cbn [bind]. destruct D as [[B ->]|(B & kv & Hkv & ->)].
  - rewrite (proj2 (blank_dec last) B). rewrite app_nil_r. reflexivity.
  - rewrite (not_blank last B), app_nil_r.
    destruct f as [|f]; [destruct last; [exfalso; apply B; apply blank_nil|simpl in F1; lia]|]. cbn [params_loop]. rewrite (params_line_says _ _ _ Hkv). cbn [bind].
    rewrite read_last by (intros []). rewrite rev_app_distr. reflexivity.
Qed.
Print Assumptions C32_end_of_input.

(** A line with two '=' makes the whole block an error. *)
Theorem C32_two_equals_signs :
  forall lines kvs bad a b c s eof,
  Forall one_line (lines ++ [bad]) -> Forall (fun l => ~ blank l) (tl (lines ++ [bad])) -> Forall2 line_says lines kvs ->
  trimmed bad (a ++ eqc :: b ++ eqc :: c) ->
  exists m, ReadParamsUntilBlank (mkReader (unlines (lines ++ [bad]) ++ s) eof) = Err m.
Proof.
  intros lines kvs bad a b c s eof Ho Hnb Hs Hbad. unfold ReadParamsUntilBlank.
  assert (U : unlines (lines ++ [bad]) = unlines lines ++ bad ++ [nl]) by (unfold unlines; rewrite map_app, concat_app; simpl; rewrite app_nil_r; auto).
  apply Forall_app in Ho. destruct Ho as [Ho Hob]. inversion Hob as [|? ? Hob1 _]; subst.
  destruct lines as [|l0 ls].
  - cbn [app]. rewrite unlines_cons. cbn [unlines map List.concat]. rewrite <- app_assoc, <- app_comm_cons. rewrite read_line by auto.
    rewrite trim_nl. cbn [params_loop]. destruct (params_line_two [] bad a b c Hbad) as [m ->]. cbn [bind]. eauto.
  - rewrite U, <- app_assoc. rewrite unlines_cons, <- app_assoc, <- app_comm_cons. inversion Ho; subst. rewrite read_line by auto. rewrite trim_nl.
    assert (Hnb1 : Forall (fun l => ~ blank l) (tl (l0 :: ls)) /\ ~ blank bad).
    { cbn [app tl] in *. apply Forall_app in Hnb. destruct Hnb as [K1 K2]. inversion K2; auto. }
    destruct Hnb1 as [Hnb1 Hnb2].
    destruct (loop_lines (l0 :: ls) kvs Hs Ho Hnb1 l0 ls eq_refl
      (S (List.length (rd_bytes (mkReader (l0 ++ nl :: unlines ls ++ (bad ++ [nl]) ++ s) eof)))) [] ((bad ++ [nl]) ++ s) eof) as (f & F1 & F2).
    { cbn [rd_bytes]. rewrite !app_length. cbn [List.length]. rewrite ?app_length. cbn [List.length]. lia. }
    rewrite F2. rewrite <- app_assoc. cbn [app]. rewrite read_line by auto. cbn [bind]. rewrite trim_nl, (not_blank _ Hnb2).
    destruct f as [|f]; [rewrite !app_length in F1; simpl in F1; lia|]. cbn [params_loop]. destruct (params_line_two (rev kvs ++ []) bad a b c Hbad) as [m ->]. cbn [bind]. eauto.
Qed.
Print Assumptions C32_two_equals_signs.

(** Nothing else is ever returned: whatever the stream, a block read without error consists
    of lines as above, and the reader never hangs or panics. *)
Lemma loop_inv : forall fuel ps line0 r, (List.length (rd_bytes r) < fuel)%nat ->
  (exists m, params_loop fuel ps (trim_space line0) r = Err m) \/
  exists lines kvs kv0 last r', params_loop fuel ps (trim_space line0) r = Ok (rev kvs ++ kv0 :: ps, r') /\
    line_says line0 kv0 /\ Forall one_line lines /\ one_line last /\ Forall (fun l => ~ blank l) lines /\ rd_eof r' = rd_eof r /\
    ((blank last /\ Forall2 line_says lines kvs /\ rd_bytes r = unlines lines ++ last ++ nl :: rd_bytes r') \/
     (rd_eof r = true /\ rd_bytes r' = [] /\ rd_bytes r = unlines lines ++ last /\
       (blank last /\ Forall2 line_says lines kvs \/ ~ blank last /\ Forall2 line_says (lines ++ [last]) kvs))).
Proof.
  induction fuel as [|fuel IH]; intros ps line0 r Hf; [lia|]. cbn [params_loop].
  destruct (params_line ps (trim_space line0)) as [ps'|m|m|] eqn:El.
  2: left; eexists; reflexivity.
  2,3: destruct (params_line_cases ps (trim_space line0)) as [[? K]|[? K]]; rewrite K in El; discriminate.
  apply params_line_inv in El. destruct El as (kv0 & Hkv & ->). cbn [bind].
  destruct r as [s e]. cbn [rd_bytes rd_eof] in *. unfold read_string. cbn [rd_bytes rd_eof].
  destruct (cut_line s) as [[l rest]|] eqn:Ec.
  - apply cut_line_inv in Ec. destruct Ec as (l0 & -> & -> & Hl0). rewrite trim_nl.
    destruct (beqb (trim_space l0) []) eqn:Eb.
    + right. exists [], [], kv0, l0, (mkReader rest e). cbn [rev app rd_eof rd_bytes unlines map List.concat].
      repeat split; auto. left. repeat split; auto. apply blank_dec. auto.
    + assert (Nb : ~ blank l0) by (intros B; apply blank_dec in B; congruence).
      rewrite app_length in Hf. cbn [List.length] in Hf.
      destruct (IH (kv0 :: ps) l0 (mkReader rest e)) as [[m Hm]|(lines & kvs & kv1 & last & r' & R1 & R2 & R3 & R4 & R5 & R6 & R7)].
      { cbn [rd_bytes]. lia. }
      { left. eauto. }
      right. exists (l0 :: lines), (kv1 :: kvs), kv0, last, r'. cbn [rd_bytes rd_eof] in *. split.
      { rewrite R1. cbn [rev]. rewrite <- app_assoc. reflexivity. }
      repeat split; auto. rewrite unlines_cons, <- !app_assoc, <- !app_comm_cons.
      destruct R7 as [(B & F & E)|(E1 & E2 & E3 & C)].
      * left. rewrite <- E. auto.
      * right. rewrite <- E3. repeat split; auto. destruct C as [[B C]|[B C]]; [left|right]; auto.
  - assert (No : one_line s).
    { destruct (first_occurrence nl s) as [N|(s1 & s2 & -> & N)]; auto. rewrite cut_line_some in Ec by auto. discriminate. }
    destruct e; [|left; eauto]. destruct (beqb (trim_space s) []) eqn:Eb.
    + right. exists [], [], kv0, s, (mkReader [] true). cbn [rev app rd_eof rd_bytes unlines map List.concat]. repeat split; auto.
      right. repeat split; auto. left. split; auto. apply blank_dec. auto.
    + assert (Nb : ~ blank s) by (intros B; apply blank_dec in B; congruence).
      assert (fuel <> O). { intros ->. destruct s; [discriminate|simpl in Hf; lia]. }
      destruct fuel as [|fuel']; [contradiction|]. cbn [params_loop].
      destruct (params_line (kv0 :: ps) (trim_space s)) as [ps'|m|m|] eqn:El.
      2: left; eexists; reflexivity.
      2,3: destruct (params_line_cases (kv0 :: ps) (trim_space s)) as [[? K]|[? K]]; rewrite K in El; discriminate.
      apply params_line_inv in El. destruct El as (kv1 & Hkv1 & ->). cbn [bind].
      right. exists [], [kv1], kv0, s, (mkReader [] true). cbn [rev app rd_eof rd_bytes unlines map List.concat]. repeat split; auto.
      right. repeat split; auto.
Qed.

Theorem C32_exact :
  forall r,
  (exists m, ReadParamsUntilBlank r = Err m) \/
  exists lines kvs last ps r', ReadParamsUntilBlank r = Ok (ps, r') /\ (forall key, lookup ps key = last_value kvs key) /\
    lines <> [] /\ Forall one_line lines /\ one_line last /\ Forall (fun l => ~ blank l) (tl lines) /\ rd_eof r' = rd_eof r /\
    (* closed by a blank line *)
    ((blank last /\ Forall2 line_says lines kvs /\ rd_bytes r = unlines lines ++ last ++ nl :: rd_bytes r') \/
    (* or by the end of input *)
     (rd_eof r = true /\ rd_bytes r' = [] /\ rd_bytes r = unlines lines ++ last /\
       (blank last /\ Forall2 line_says lines kvs \/ ~ blank last /\ Forall2 line_says (lines ++ [last]) kvs))).
Proof.
  intros [s e]. unfold ReadParamsUntilBlank, read_string. cbn [rd_bytes rd_eof].
  destruct (cut_line s) as [[l rest]|] eqn:Ec.
  - apply cut_line_inv in Ec. destruct Ec as (l0 & -> & -> & Hl0). rewrite trim_nl.
    destruct (loop_inv (S (List.length (l0 ++ nl :: rest))) [] l0 (mkReader rest e)) as [[m Hm]|(lines & kvs & kv0 & last & r' & R1 & R2 & R3 & R4 & R5 & R6 & R7)].
    { cbn [rd_bytes]. rewrite !app_length. cbn [List.length]. rewrite ?app_length. cbn [List.length]. lia. }
    { left. eauto. }
    right. exists (l0 :: lines), (kv0 :: kvs), last, (rev kvs ++ [kv0]), r'. rewrite R1. cbn [rd_bytes rd_eof] in *.
    split; [auto|]. split; [intros key; apply (lookup_rev (kv0 :: kvs))|]. split; [discriminate|]. repeat split; auto.
    rewrite unlines_cons, <- !app_assoc, <- !app_comm_cons. destruct R7 as [(B & F & E)|(E1 & E2 & E3 & C)].
    + left. rewrite <- E. auto.
    + right. rewrite <- E3. repeat split; auto. destruct C as [[B C]|[B C]]; [left|right]; auto.
  - left. destruct e; eauto.
Qed.
Print Assumptions C32_exact.

Lemma ReadParams_no_hang : forall r, ReadParamsUntilBlank r <> Hang.
Proof. intros r. destruct (C32_exact r) as [[m ->]|(? & ? & ? & ? & ? & -> & _)]; discriminate. Qed.

(** Not what the comment "skip empty" in the code intends: one blank line in front of a
    block becomes an empty key, two make an empty block. *)
Theorem C32_leading_blank_lines_skipped_refuted :
  (exists ps, ReadParamsUntilBlank (mkReader (nl :: bs "a=1" ++ [nl; nl]) true) = Ok (ps, mkReader [] true) /\
              lookup ps [] = Some []) /\
  (exists ps, ReadParamsUntilBlank (mkReader (nl :: nl :: bs "a=1" ++ [nl]) true) = Ok (ps, mkReader (bs "a=1" ++ [nl]) true) /\
              lookup ps (bs "a") = None).
Proof. split; eexists; split; vm_compute; reflexivity. Qed.
Print Assumptions C32_leading_blank_lines_skipped_refuted.

(** a concrete block: repeated key, key without value, surrounding blanks (an ideographic
    space in front of the last line) *)
Example C32_case :
  let lines := [bs "tree"; bs " x=1 2 "; ["227"; "128"; "128"]%byte ++ bs "x=3"] in
  let kvs := [(bs "tree", []); (bs "x", bs "1 2"); (bs "x", bs "3")] in
  Forall one_line lines /\ Forall2 line_says lines kvs /\ Forall (fun l => ~ blank l) (tl lines) /\
  last_value kvs (bs "x") = Some (bs "3") /\
  exists ps, ReadParamsUntilBlank (mkReader (unlines lines ++ [sp] ++ nl :: bs "rest") true) = Ok (ps, mkReader (bs "rest") true).
Proof.
  assert (NI : forall (c : byte) s, existsb (Byte.eqb c) s = false -> ~ In c s).
  { intros c s H I. assert (existsb (Byte.eqb c) s = true) by (apply existsb_exists; exists c; split; auto; apply byte_eqb_refl). congruence. }
  assert (NB : forall s, trim_space s <> [] -> ~ blank s) by (intros s H B; apply H; apply trim_blank; auto).
  cbv zeta. split; [|split; [|split; [|split]]].
  - repeat constructor; apply NI; reflexivity.
  - constructor; [apply says_key|constructor; [apply says_pair|constructor; [apply says_pair|constructor]]]; try (apply NI; reflexivity); apply trim_space_iff; vm_compute; reflexivity.
  - repeat constructor; apply NB; vm_compute; discriminate.
  - reflexivity.
  - eexists. vm_compute. reflexivity.
Qed.
