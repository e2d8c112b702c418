(** * Proofs about streams that stall for so long that bufio.Reader gives up *)

From Coq Require Import ZArith List Bool String Lia.
From Verif Require Import Go GoFloat GoText UtilText LgTree Ensembles Leaves LgTextIO Mat MatIO Stream Spec_Stream Spec_Tired Pf_Stream.
Local Open Scope nat_scope.
Local Opaque rbufsize.

Definition tired (b : bufr) (rest : bytes) : Prop :=
  br_err b = None /\ List.length (br_buf b) <= rbufsize /\
  exists before, gives_up (br_src b) before /\ br_buf b ++ List.concat before = rest.

Lemma repeat_split {A} (x : A) k n : k <= n -> repeat x n = repeat x k ++ repeat x (n - k).
Proof. intros H. rewrite <- repeat_app. f_equal. lia. Qed.

Lemma read_piece n s c rest : src_pieces s = c :: rest -> List.length c <= n -> (src_with_data s = true -> rest <> []) ->
  src_read n s = (c, None, src_next s rest).
Proof.
  intros H L W. unfold src_read. rewrite H. apply Nat.leb_le in L. rewrite L. destruct rest; [|reflexivity].
  destruct (src_with_data s); [exfalso; now apply W | reflexivity].
Qed.
Lemma read_part n s c rest : src_pieces s = c :: rest -> n < List.length c ->
  src_read n s = (firstn n c, None, src_next s (skipn n c :: rest)).
Proof. intros H L. unfold src_read. rewrite H. apply Nat.leb_gt in L. now rewrite L. Qed.

(** the stream gives up *)
Lemma fill_stops tries : forall b after, src_pieces (br_src b) = repeat [] tries ++ after -> (src_with_data (br_src b) = true -> after <> []) ->
  exists s, fill tries b = mkBufr (br_buf b) (Some RdOther) s.
Proof.
  induction tries as [|tries IH]; intros b after H W; [eexists; reflexivity|]. cbn [fill].
  rewrite (read_piece _ _ [] (repeat [] tries ++ after) H); [|apply Nat.le_0_l|].
  - destruct (IH (mkBufr (br_buf b ++ []) None (src_next (br_src b) (repeat [] tries ++ after))) after eq_refl) as (s & E); [exact W|].
    exists s. rewrite E. cbn. now rewrite app_nil_r.
  - intros D. specialize (W D). destruct tries; [exact W | discriminate].
Qed.
(** the stream goes on *)
Lemma fill_goes tries : forall b before after, tries <= 100 -> before <> [] -> br_err b = None -> List.length (br_buf b) < rbufsize ->
  src_pieces (br_src b) = before ++ repeat [] 100 ++ after ->
  patient 100 (src_next (br_src b) (before ++ repeat [] 99)) ->
  (forall z, before ++ repeat [] 99 <> repeat [] tries ++ z) ->
  exists b' before', fill tries b = b' /\ br_err b' = None /\ List.length (br_buf b) < List.length (br_buf b') <= rbufsize /\
  src_pieces (br_src b') = before' ++ repeat [] 100 ++ after /\
  src_with_data (br_src b') = src_with_data (br_src b) /\
  patient 100 (src_next (br_src b') (before' ++ repeat [] 99)) /\
  br_buf b' ++ List.concat before' = br_buf b ++ List.concat before.
Proof.
  induction tries as [|tries IH]; intros b before after Ht Hb He Hl Hs Hp Hn; [exfalso; eapply Hn; reflexivity|].
  destruct before as [|c before]; [congruence|]. cbn [fill].
  destruct (Nat.le_gt_cases (List.length c) (rbufsize - List.length (br_buf b))) as [L|L].
  - rewrite (read_piece _ _ c (before ++ repeat [] 100 ++ after) Hs L) by (intros _; destruct before; discriminate).
    assert (Hp' : patient 100 (src_next (br_src b) (before ++ repeat [] 99))).
    { refine (patient_next 100 _ _ c Hp _). reflexivity. }
    destruct c as [|x c].
    + destruct (IH (mkBufr (br_buf b ++ []) None (src_next (br_src b) (before ++ repeat [] 100 ++ after))) before after) as (b' & before' & K); cbn [br_buf br_err br_src src_next src_pieces src_with_data src_eof] in *; try rewrite app_nil_r; auto; try lia.
      * intros ->. apply (Hn (repeat [] (99 - tries))). assert (H9 : tries <= 99) by lia. exact (f_equal (cons []) (repeat_split [] tries 99 H9)).
      * intros z Hz. apply (Hn z). exact (f_equal (cons []) Hz).
      * exists b', before'. rewrite app_nil_r in K. exact K.
    + eexists _, before. split; [reflexivity|]. cbn [br_buf br_err br_src src_next src_pieces src_with_data src_eof List.concat].
      split; [reflexivity|]. split; [rewrite app_length; cbn [List.length] in *; lia|]. split; [reflexivity|]. split; [reflexivity|]. split; [exact Hp'|].
      now rewrite app_assoc.
  - rewrite (read_part _ _ c (before ++ repeat [] 100 ++ after) Hs L).
    assert (N : skipn (rbufsize - List.length (br_buf b)) c <> []).
    { intros H. apply (f_equal (@List.length byte)) in H. rewrite skipn_length in H. cbn in H. lia. }
    eexists _, (skipn (rbufsize - List.length (br_buf b)) c :: before).
    assert (Hd : firstn (rbufsize - List.length (br_buf b)) c <> []).
    { intros H. apply (f_equal (@List.length byte)) in H. rewrite firstn_length in H. cbn [List.length] in H. lia. }
    destruct (firstn (rbufsize - List.length (br_buf b)) c) as [|x d] eqn:F; [congruence|]. rewrite <- F.
    split; [reflexivity|]. cbn [br_buf br_err br_src src_next src_pieces src_with_data src_eof List.concat].
    split; [reflexivity|]. split; [rewrite app_length, firstn_length; lia|]. split; [reflexivity|]. split; [reflexivity|].
    split; [refine (patient_cut 100 _ _ c _ _ N Hp _); [lia|reflexivity]|].
    rewrite <- app_assoc. f_equal. rewrite app_assoc. now rewrite firstn_skipn.
Qed.

Lemma fill_tired b rest : tired b rest -> List.length (br_buf b) < rbufsize ->
  (exists s, fill 100 b = mkBufr (br_buf b) (Some RdOther) s /\ rest = br_buf b) \/
  (exists b', fill 100 b = b' /\ tired b' rest /\ List.length (br_buf b) < List.length (br_buf b')).
Proof.
  intros (He & Hl & before & (after & Hs & Hp & Hw) & Hr) L. destruct before as [|c before].
  - left. destruct (fill_stops 100 b after Hs Hw) as (s & E). exists s. split; [exact E|]. cbn in Hr. now rewrite app_nil_r in Hr.
  - right. destruct (fill_goes 100 b (c :: before) after) as (b' & before' & E & E1 & E2 & E3 & E4 & E5 & E6); auto; try discriminate.
    { intros z. exact (Hp [] z). }
    exists b'. split; [exact E|]. split; [|lia]. split; [exact E1|]. split; [lia|]. exists before'. split; [|congruence].
    exists after. split; [exact E3|]. split; [exact E5 | now rewrite E4].
Qed.

Lemma slice_tired fuel : forall b rest, tired b rest -> (rbufsize - List.length (br_buf b) + 2 <= fuel) ->
  exists l e b', read_slice fuel b = Ok (l, e, b') /\
  match e with
  | SlFound => exists rest', cut_line rest = Some (l, rest') /\ tired b' rest'
  | SlErr x => x = RdOther /\ cut_line rest = None /\ l = rest
  | SlFull => cut_line l = None /\ l <> [] /\ exists rest', rest = l ++ rest' /\ tired b' rest'
  end.
Proof.
  induction fuel as [|fuel IH]; intros b rest T Hf; [lia|]. cbn [read_slice].
  pose proof T as (He & Hl & before & Hg & Hr). destruct (cut_line (br_buf b)) as [[l rem]|] eqn:C.
  - eexists _, _, _. split; [reflexivity|]. cbn. exists (rem ++ List.concat before). split; [rewrite <- Hr; now apply cut_line_app|].
    split; [exact He|]. split; [|exists before; split; [exact Hg|reflexivity]]. cbn. rewrite (cut_line_parts _ _ _ C), app_length in Hl. lia.
  - rewrite He. destruct (rbufsize <=? List.length (br_buf b)) eqn:L.
    + apply Nat.leb_le in L. eexists _, _, _. split; [reflexivity|]. cbn. split; [exact C|]. split.
      { intros H. rewrite H in L. pose proof rbufsize_pos. cbn in L. lia. }
      exists (List.concat before). split; [now rewrite Hr|]. split; [reflexivity|]. split; [apply Nat.le_0_l|]. exists before. split; [exact Hg|reflexivity].
    + apply Nat.leb_gt in L. destruct (fill_tired b rest T L) as [(s & E & ->)|(b' & E & T' & G)]; rewrite E.
      * destruct fuel as [|fuel]; [lia|]. cbn [read_slice br_buf br_err]. rewrite C. eexists _, _, _. split; [reflexivity|]. cbn. auto.
      * apply IH; [exact T'|]. destruct T' as (_ & T' & _). lia.
Qed.

Lemma fragments_tired fuel : forall acc b rest, tired b rest -> List.length rest < fuel -> cut_line acc = None ->
  exists l e b', read_fragments fuel acc b = Ok (l, e, b') /\
  match cut_line (acc ++ rest) with
  | Some (l', rest') => l = l' /\ e = RdNil /\ tired b' rest'
  | None => l = acc ++ rest /\ e = RdOther
  end.
Proof.
  induction fuel as [|fuel IH]; intros acc b rest T Hf Ha; [lia|]. cbn [read_fragments].
  destruct (slice_tired (S (S rbufsize)) b rest T) as (l & e & b' & R1 & R2); [lia|]. rewrite R1. cbn [bind]. rewrite (cut_line_app_none acc _ Ha).
  destruct e as [| |x].
  - destruct R2 as (rest' & C & T'). rewrite C. eexists _, _, _. split; [reflexivity|]. auto.
  - destruct R2 as (C & Ne & rest' & -> & T').
    destruct (IH (acc ++ l) b' rest' T') as (l2 & e2 & b2 & S1 & S2).
    + rewrite app_length in Hf. destruct l; [congruence|]. cbn in Hf. lia.
    + rewrite (cut_line_app_none acc _ Ha), C. reflexivity.
    + exists l2, e2, b2. split; [exact S1|]. rewrite <- (cut_line_app_none acc _ Ha), app_assoc. exact S2.
  - destruct R2 as (-> & C & ->). rewrite C. eexists _, _, _. split; [reflexivity|]. auto.
Qed.

Lemma tired_left b rest : tired b rest -> List.length rest <= left b.
Proof.
  intros (_ & _ & before & (after & Hs & _) & <-). unfold left, contents. rewrite Hs, !concat_app, !app_length. lia.
Qed.
Lemma cut_line_shorter a l rest : cut_line a = Some (l, rest) -> List.length rest < List.length a.
Proof.
  revert l. induction a as [|c a IH]; intros l H; cbn [cut_line] in H; [discriminate|]. destruct (Byte.eqb c nl); [injection H as _ <-; cbn; lia|].
  destruct (cut_line a) as [[l' r']|]; [|discriminate]. injection H as _ <-. specialize (IH _ eq_refl). cbn. lia.
Qed.

(** one line *)
Lemma ReadString_tired b rest : tired b rest ->
  (exists l b' rest', buf_ReadString b = Ok (l, RdNil, b') /\ flat_rs (mkReader rest false) = Ok (l, RdNil, mkReader rest' false) /\ tired b' rest' /\ List.length rest' < List.length rest) \/
  (exists l b' r', buf_ReadString b = Ok (l, RdOther, b') /\ flat_rs (mkReader rest false) = Ok (l, RdOther, r')).
Proof.
  intros T. unfold buf_ReadString, flat_rs, read_string. cbn [rd_bytes rd_eof].
  destruct (fragments_tired (S (List.length (contents b))) [] b rest T) as (l & e & b' & R1 & R2); [pose proof (tired_left b rest T); unfold left in *; lia | reflexivity |].
  rewrite R1. cbn [app] in R2. destruct (cut_line rest) as [[l' rest']|] eqn:C.
  - left. destruct R2 as (-> & -> & T'). exists l', b', rest'. split; [reflexivity|]. split; [reflexivity|]. split; [exact T'|]. eapply cut_line_shorter; eauto.
  - right. destruct R2 as (-> & ->). eexists _, _, _. split; reflexivity.
Qed.

(** the loaders *)
Definition alike_tired {A} (x : outcome (A * bufr)) (y : outcome (A * reader)) : Prop := alike (fun b r => tired b (rd_bytes r) /\ rd_eof r = false) x y.

Lemma params_tired n1 : forall n2 ps line b rest, tired b rest -> List.length rest < n1 -> List.length rest < n2 ->
  alike_tired (r_params_loop buf_ReadString n1 ps line b) (r_params_loop flat_rs n2 ps line (mkReader rest false)).
Proof.
  induction n1 as [|n1 IH]; intros n2 ps line b rest T H1 H2; [lia|]. destruct n2 as [|n2]; [lia|]. cbn [r_params_loop].
  apply alike_pure. intros ps'. destruct (ReadString_tired b rest T) as [(l & b' & rest' & E1 & E2 & T' & L)|(l & b' & r' & E1 & E2)]; rewrite E1, E2; cbn [bind].
  - destruct (beqb (trim_space l) []); [split; auto|]. apply IH; [exact T'|lia|lia].
  - reflexivity.
Qed.
Lemma ReadParams_tired b r : tired b (rd_bytes r) /\ rd_eof r = false -> alike_tired (r_ReadParamsUntilBlank buf_ReadString left b) (r_ReadParamsUntilBlank flat_rs flat_size r).
Proof.
  destruct r as [rest eof]. cbn [rd_bytes rd_eof]. intros [T ->]. unfold r_ReadParamsUntilBlank. pose proof (tired_left b rest T) as Hl.
  destruct (ReadString_tired b rest T) as [(l & b' & rest' & E1 & E2 & T' & L)|(l & b' & r' & E1 & E2)]; rewrite E1, E2; cbn [bind].
  - apply params_tired; [exact T'| |unfold flat_size; cbn]; lia.
  - reflexivity.
Qed.
Lemma trees_tired p n : forall b r, tired b (rd_bytes r) /\ rd_eof r = false -> alike_tired (r_read_trees buf_ReadString left p n b) (r_read_trees flat_rs flat_size p n r).
Proof.
  induction n as [|n IH]; intros b r T; [split; auto|]. cbn [r_read_trees]. unfold r_lgTreeFromReader.
  apply alike_bind.
  - apply alike_bind; [apply ReadParams_tired; exact T|]. intros ps b' r' T'. apply alike_pure. intros t. split; auto.
  - intros t b' r' T'. apply alike_bind; [apply IH; exact T'|]. intros ts b2 r2 T2. split; auto.
Qed.
Lemma lg_tired p b r load : tired b (rd_bytes r) /\ rd_eof r = false ->
  r_LGEnsembleFromReader buf_ReadString left p b load = r_LGEnsembleFromReader flat_rs flat_size p r load.
Proof.
  intros T. unfold r_LGEnsembleFromReader.
  eapply alike_end; [apply ReadParams_tired; exact T|]. intros ps b' r' T'. cbn beta in T'.
  destruct (lg_header ps) as [[e n]| | |]; cbn [bind]; auto.
  destruct (lg_transform _ _ _ _); cbn [bind]; auto.
  eapply alike_end; [apply trees_tired; exact T'|]. reflexivity.
Qed.
Lemma rows_tired {St} limit parse (f : St -> _ -> outcome St) n1 : forall n2 rows st b rest, tired b rest -> List.length rest < n1 -> List.length rest < n2 ->
  alike_tired (r_read_rows buf_ReadString n1 limit parse f rows st b) (r_read_rows flat_rs n2 limit parse f rows st (mkReader rest false)).
Proof.
  induction n1 as [|n1 IH]; intros n2 rows st b rest T H1 H2; [lia|]. destruct n2 as [|n2]; [lia|]. cbn [r_read_rows].
  destruct (ReadString_tired b rest T) as [(l & b' & rest' & E1 & E2 & T' & L)|(l & b' & r' & E1 & E2)]; rewrite E1, E2; cbn [bind].
  - destruct (beqb (trim_space l) []); [split; auto|]. apply alike_pure. intros recs. apply alike_pure. intros st'.
    destruct ((0 <? limit)%Z && (rows + 1 =? limit)%Z); [split; auto|]. apply IH; [exact T'|lia|lia].
  - reflexivity.
Qed.
Lemma tired_new s before : gives_up s before -> tired (NewReader s) (List.concat before).
Proof. intros H. split; [reflexivity|]. split; [apply Nat.le_0_l|]. exists before. split; [exact H|reflexivity]. Qed.

(** every stream lasts or gives up *)
Lemma prefix_dec n : forall l : list bytes, (exists after, l = repeat [] n ++ after) \/ (forall after, l <> repeat [] n ++ after).
Proof.
  induction n as [|n IH]; intros l; [left; exists l; reflexivity|]. destruct l as [|[|x c] l].
  - right. discriminate.
  - destruct (IH l) as [(after & ->)|H]; [left; exists after; reflexivity|]. right. intros after E. injection E as E. now apply (H after).
  - right. discriminate.
Qed.
Lemma first_run n : forall l : list bytes,
  (forall before after, l <> before ++ repeat [] (S n) ++ after) \/
  (exists before after, l = before ++ repeat [] (S n) ++ after /\ forall x y, before ++ repeat [] n <> x ++ repeat [] (S n) ++ y).
Proof.
  induction l as [|c l IH].
  { left. intros before after E. destruct before; discriminate. }
  destruct (prefix_dec (S n) (c :: l)) as [(after & E)|N].
  - right. exists [], after. split; [exact E|]. intros x y E'. cbn [app] in E'. apply (f_equal (@List.length bytes)) in E'.
    rewrite !app_length, !repeat_length in E'. lia.
  - destruct IH as [IH|(before & after & -> & IH)].
    + left. intros before after E. destruct before as [|d before]; [now apply (N after)|]. injection E as _ E. now apply (IH before after).
    + right. exists (c :: before), after. split; [reflexivity|]. intros x y E. destruct x as [|d x].
      * assert (E2 : repeat (@nil byte) (S n) = repeat [] n ++ [[]]) by (rewrite (repeat_split [] n (S n)) by lia; replace (S n - n) with 1 by lia; reflexivity).
        apply (N (y ++ [[]] ++ after)). change (([] ++ repeat [] (S n) ++ y)) with (repeat [] (S n) ++ y) in E. rewrite (app_assoc (repeat [] (S n))), <- E, E2, <- !app_assoc. reflexivity.
      * injection E as _ E. now apply (IH x y).
Qed.
Lemma lasts_or_not s : lasting 100 s \/ exists before, gives_up s before.
Proof.
  destruct (first_run 99 (src_pieces s)) as [N|(before & after & E & F)].
  - left. now apply patient_lasting.
  - assert (D : (src_with_data s = true -> after <> []) \/ (src_with_data s = true /\ after = [])).
    { destruct (src_with_data s); [|left; discriminate]. destruct after; [right; auto|left; discriminate]. }
    destruct D as [D|[D ->]]; [right; exists before, after; split; [exact E|]; split; [exact F|exact D]|].
    left. intros x y E'. split; [exact D|]. destruct y as [|z y]; [reflexivity|]. exfalso. rewrite E' in E. clear E' D.
    assert (L : exists y' z', z :: y = y' ++ [z']) by (destruct (@exists_last _ (z :: y)) as (y' & z' & K); [discriminate|exists y', z'; exact K]).
    destruct L as (y' & z' & L). rewrite L in E. apply (F x y').
    assert (E2 : repeat (@nil byte) 100 = repeat [] 99 ++ [[]]) by reflexivity.
    rewrite app_nil_r in E. rewrite E2 in E at 2. rewrite !app_assoc in E. apply app_inj_tail in E. destruct E as [E _].
    rewrite <- E. now rewrite <- !app_assoc.
Qed.
(** and not both *)
Lemma gives_up_not s before : gives_up s before -> ~ lasting 100 s.
Proof.
  intros (after & E & _ & W) L. destruct (L before after E) as [D Z]. now apply W.
Qed.
