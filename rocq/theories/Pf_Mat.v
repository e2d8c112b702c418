(** * Proofs about package mat *)

From Coq Require Import ZArith List Bool String Lia ZifyBool.
From Verif Require Import Go GoFloat GoText Mat MatIO.
From Verif Require Import Spec_Params Spec_Mat.
From Verif Require Import Pf_Go Pf_Text Pf_Words.
Local Open Scope Z_scope.

Lemma zget_nil : forall A i, zget (@nil A) i = None.
Proof. intros A i. unfold zget. destruct (_ || _); [reflexivity|]. destruct (Z.to_nat i); reflexivity. Qed.

(** ** Splitting *)
Lemma has_prefix_app : forall a s, has_prefix (a ++ s) a = true.
Proof. induction a as [|x a IH]; intros s; [destruct s; reflexivity|]. cbn [app has_prefix]. rewrite byte_eqb_refl. apply IH. Qed.
Lemma split_go_token : forall d ds t s cur, ~ In d t -> split_go (d :: ds) (t ++ s) cur 0 = split_go (d :: ds) s (rev t ++ cur) 0.
Proof.
  intros d ds t. induction t as [|x t IH]; intros s cur H; [reflexivity|]. cbn [app]. cbn [split_go has_prefix].
  replace (Byte.eqb d x) with false by (symmetry; apply byte_eqb_neq; intros ->; apply H; left; reflexivity). cbn [andb].
  rewrite IH by (intros I; apply H; right; exact I). cbn [rev]. rewrite <- app_assoc. reflexivity.
Qed.
Lemma split_go_sep : forall d ds s cur, split_go (d :: ds) ((d :: ds) ++ s) cur 0 = rev cur :: split_go (d :: ds) s [] 0.
Proof.
  intros d ds s cur. cbn [app]. cbn [split_go]. change (d :: ds ++ s) with ((d :: ds) ++ s). rewrite has_prefix_app. cbn [List.length Nat.pred]. rewrite split_go_skip. reflexivity.
Qed.
(** a text of tokens that do not contain the first byte of the delimiter *)
Fixpoint joins (sep : bytes) (l : list bytes) : bytes :=
  match l with [] => [] | [x] => x | x :: l' => x ++ sep ++ joins sep l' end.
Lemma split_joins : forall d ds l, l <> [] -> Forall (fun t => ~ In d t) l -> split (joins (d :: ds) l) (d :: ds) = l.
Proof.
  intros d ds l N F. unfold split. induction l as [|x l IH]; [contradiction|]. inversion F; subst. destruct l as [|y l].
  - cbn [joins]. rewrite <- (app_nil_r x) at 1. rewrite split_go_token by auto. cbn [split_go]. rewrite app_nil_r, rev_involutive. reflexivity.
  - change (joins (d :: ds) (x :: y :: l)) with (x ++ (d :: ds) ++ joins (d :: ds) (y :: l)). rewrite split_go_token, split_go_sep by auto. rewrite app_nil_r, rev_involutive. f_equal. apply IH; auto. discriminate.
Qed.

(** ** Lines *)
Section Lines.
Variable p : platform.
Lemma svm_token_cases : forall token, token <> [] ->
  (exists e, says_entry p token e /\ forall ts acc, svm_tokens p (token :: ts) acc = svm_tokens p ts (acc ++ [e])) \/
  ((forall e, ~ says_entry p token e) /\ forall ts acc, exists m, svm_tokens p (token :: ts) acc = Err m).
Proof.
  intros token N. assert (Z0 : zlen token =? 0 = false) by (destruct token; [contradiction|rewrite zlen_cons; pose proof (zlen_nonneg _ token); lia]).
  assert (S : forall e, says_entry p token e -> exists a b, split token (bs ":") = [a; b] /\ parse_uint32 a = Some (fst e) /\ pl_parse_float p b = Some (snd e)).
  { intros e (a & b & -> & Na & Nb & Pa & Pb). apply uint32_iff in Pa. exists a, b. change (bs ":") with [":"%byte]. rewrite split_here, split_none by auto. auto. }
  cbn [svm_tokens]. rewrite Z0. destruct (split token (bs ":")) as [|a [|b [|c l]]] eqn:E.
  - right. split; [|eauto]. intros e H. destruct (S e H) as (? & ? & X & _). discriminate.
  - right. split; [|eauto]. intros e H. destruct (S e H) as (? & ? & X & _). discriminate.
  - destruct (parse_uint32 a) as [c|] eqn:Ea.
    + destruct (pl_parse_float p b) as [v|] eqn:Eb.
      * left. exists (c, v). split; [|reflexivity]. apply parts_split in E. apply parts_join in E. destruct E as (_ & F & ->). inversion F as [|? ? Fa F']; subst. inversion F'; subst. apply uint32_iff in Ea. exists a, b. auto 10.
      * right. split; [|eauto]. intros e H. destruct (S e H) as (? & ? & X & _ & Y). injection X as <- <-. congruence.
    + right. split; [|eauto]. intros e H. destruct (S e H) as (? & ? & X & Y & _). injection X as <- <-. congruence.
  - right. split; [|eauto]. intros e H. destruct (S e H) as (? & ? & X & _). discriminate.
Qed.
Lemma svm_tokens_says : forall ts es, says_entries p ts es -> forall acc, svm_tokens p ts acc = Ok (acc ++ es).
Proof.
  intros ts es H. induction H as [|ts|t ts e es N E H IH]; intros acc.
  - cbn. rewrite app_nil_r. reflexivity.
  - cbn. rewrite app_nil_r. reflexivity.
  - destruct (svm_token_cases t N) as [(e' & E' & R)|[B _]]; [|elim (B e E)]. rewrite R, IH, <- app_assoc.
    assert (e' = e). { destruct E as (a & b & -> & Na & Nb & Pa & Pb), E' as (a' & b' & Q & Na' & Nb' & Pa' & Pb'). apply uint32_iff in Pa, Pa'.
      assert (X : split (a ++ ":"%byte :: b) [":"%byte] = split (a' ++ ":"%byte :: b') [":"%byte]) by congruence. rewrite !split_here, !split_none in X by auto. injection X as -> ->. destruct e, e'. cbn [fst snd] in *. congruence. }
    subst. reflexivity.
Qed.
Lemma svm_tokens_bad : forall ts, (forall es, ~ says_entries p ts es) -> forall acc, exists m, svm_tokens p ts acc = Err m.
Proof.
  induction ts as [|t ts IH]; intros H acc; [elim (H [] (en_end p))|]. destruct t as [|c t]; [elim (H [] (en_empty p ts))|].
  destruct (svm_token_cases (c :: t) ltac:(discriminate)) as [(e & E & R)|[_ B]]; [|apply B].
  rewrite R. apply IH. intros es He. apply (H (e :: es)). apply en_cons; auto. discriminate.
Qed.
Lemma skip_tl : forall (A : Type) skip (l : list A), (if skip : bool then skipn 1 l else l) = (if skip then tl l else l).
Proof. intros A [|] [|x l]; reflexivity. Qed.
Lemma svm_line_says : forall skip line es, libsvm_says p skip line es -> svm_line p skip (trim_space line) = Ok es.
Proof.
  intros skip line es (t & ts & T & P & L & E). apply trim_space_iff in T. subst t. apply parts_split in P. unfold svm_line. change (bs " ") with [" "%byte]. rewrite P. replace (zlen ts <? 2) with false by lia.
  rewrite skip_tl, (svm_tokens_says _ _ E). reflexivity.
Qed.
Lemma svm_line_bad : forall skip line, (forall es, ~ libsvm_says p skip line es) -> exists m, svm_line p skip (trim_space line) = Err m.
Proof.
  intros skip line H. unfold svm_line. change (bs " ") with [" "%byte]. destruct (Z.ltb_spec (zlen (split (trim_space line) [" "%byte])) 2) as [L|L]; [eauto|].
  rewrite skip_tl. apply svm_tokens_bad. intros es He. apply (H es). exists (trim_space line), (split (trim_space line) [" "%byte]). split; [apply trim_space_trimmed|]. split; [apply parts_split; reflexivity|auto].
Qed.

Lemma csv_field_cases : forall def t, (exists v, says_field p def t v /\ forall ts col acc, csv_tokens p def (t :: ts) col acc = csv_tokens p def ts (col + 1) (acc ++ [(col, v)])) \/
  ((forall v, ~ says_field p def t v) /\ forall ts col acc, exists m, csv_tokens p def (t :: ts) col acc = Err m).
Proof.
  intros def t. cbn [csv_tokens]. destruct t as [|c t].
  - left. exists def. split; [left; auto|reflexivity].
  - assert (Z0 : zlen (c :: t) =? 0 = false) by (rewrite zlen_cons; pose proof (zlen_nonneg _ t); lia). rewrite Z0. destruct (pl_parse_float p (c :: t)) as [v|] eqn:E.
    + left. exists v. split; [right; split; [discriminate|auto]|reflexivity].
    + right. split; [|cbn [bind]; eauto]. intros v [[X _]|[_ X]]; congruence.
Qed.
Lemma field_fun : forall def t v v', says_field p def t v -> says_field p def t v' -> v = v'.
Proof. intros def t v v' [[A B]|[A B]] [[A' B']|[A' B']]; congruence. Qed.
Fixpoint number_from (k : Z) (vs : list f64) : list libsvmRecord := match vs with [] => [] | v :: vs => (k, v) :: number_from (k + 1) vs end.
Lemma csv_tokens_says : forall def ts vs, Forall2 (says_field p def) ts vs -> forall col acc, csv_tokens p def ts col acc = Ok (acc ++ number_from col vs).
Proof.
  intros def ts vs H. induction H as [|t v ts vs E H IH]; intros col acc; [cbn; rewrite app_nil_r; reflexivity|].
  destruct (csv_field_cases def t) as [(v' & E' & R)|[B _]]; [|elim (B v E)]. rewrite R, IH, <- app_assoc, (field_fun _ _ _ _ E E'). reflexivity.
Qed.
Lemma csv_tokens_bad : forall def ts, (forall vs, ~ Forall2 (says_field p def) ts vs) -> forall col acc, exists m, csv_tokens p def ts col acc = Err m.
Proof.
  intros def. induction ts as [|t ts IH]; intros H col acc; [elim (H []); constructor|].
  destruct (csv_field_cases def t) as [(v & E & R)|[_ B]]; [|apply B]. rewrite R. apply IH. intros vs Hv. apply (H (v :: vs)). constructor; auto.
Qed.
Lemma number_from_len : forall vs k, zlen (number_from k vs) = zlen vs.
Proof. induction vs as [|v vs IH]; intros k; [reflexivity|]. cbn [number_from]. rewrite !zlen_cons, IH. reflexivity. Qed.
Lemma number_from_get : forall vs k i, zget (number_from k vs) i = option_map (fun v => (k + i, v)) (zget vs i).
Proof.
  induction vs as [|v vs IH]; intros k i; cbn [number_from]; [rewrite !zget_nil; reflexivity|].
  destruct (Z.eq_dec i 0) as [->|N]; [rewrite !zget_cons_0; cbn [option_map]; f_equal; f_equal; lia|].
  destruct (Z.ltb_spec i 0); [rewrite !zget_neg by lia; reflexivity|]. rewrite !zget_cons by lia. rewrite IH. destruct (zget vs (i - 1)); cbn [option_map]; f_equal; f_equal; lia.
Qed.
Lemma numbered_from : forall vs es, numbered vs es <-> es = number_from 0 vs.
Proof.
  intros vs es. split.
  - intros (L & H). apply zget_ext; [rewrite number_from_len; auto|]. intros k Hk. rewrite number_from_get. destruct (zget_some _ vs k ltac:(lia)) as [v Hv]. rewrite Hv, (H _ _ Hv). cbn [option_map]. f_equal.
  - intros ->. split; [apply number_from_len|]. intros k v Hv. rewrite number_from_get, Hv. reflexivity.
Qed.
Lemma csv_line_says : forall skip c def line es, csv_says p skip c def line es -> csv_line p skip [c] def (trim_space line) = Ok es.
Proof.
  intros skip c def line es (t & ts & vs & T & P & F & N). apply trim_space_iff in T. subst t. apply parts_split in P. unfold csv_line. rewrite P, skip_tl, (csv_tokens_says _ _ _ F). apply numbered_from in N. subst. reflexivity.
Qed.
Lemma csv_line_bad : forall skip c def line, (forall es, ~ csv_says p skip c def line es) -> exists m, csv_line p skip [c] def (trim_space line) = Err m.
Proof.
  intros skip c def line H. unfold csv_line. rewrite skip_tl. apply csv_tokens_bad. intros vs Hv. apply (H (number_from 0 vs)). exists (trim_space line), (split (trim_space line) [c]), vs.
  split; [apply trim_space_trimmed|]. split; [apply parts_split; reflexivity|]. split; auto. apply numbered_from. reflexivity.
Qed.
End Lines.

(** ** The loop over lines *)
Section Loop.
Context {A : Type}.
Variables (says : bytes -> list entry -> Prop) (parse : bytes -> outcome (list libsvmRecord)) (f : A -> list libsvmRecord -> outcome A) (limit : Z) (eof : bool).
Hypothesis says_parse : forall l es, says l es -> parse (trim_space l) = Ok es.
Hypothesis bad_parse : forall l, (forall es, ~ says l es) -> exists m, parse (trim_space l) = Err m.
Hypothesis f_total : forall s es, (exists s', f s es = Ok s') \/ (exists m, f s es = Err m).

Lemma first_line_read : forall text l rest, first_line eof text l rest -> exists line e, read_string (mkReader text eof) = (line, e, mkReader rest eof) /\ e <> RdOther /\ trim_space line = trim_space l.
Proof.
  intros text l rest (O & [-> |(-> & -> & ->)]); unfold read_string; cbn [rd_bytes rd_eof].
  - rewrite cut_line_some by auto. eexists _, _. split; [reflexivity|]. split; [discriminate|apply trim_nl].
  - rewrite cut_line_none by auto. eexists _, _. split; [reflexivity|]. split; [discriminate|reflexivity].
Qed.
Lemma first_line_len : forall text l rest, first_line eof text l rest -> ~ blank l -> (List.length rest < List.length text)%nat.
Proof.
  intros text l rest (O & [-> |(E & -> & ->)]) B.
  - rewrite app_length. cbn [List.length]. lia.
  - destruct l; [elim B; apply blank_nil|cbn [List.length]; lia].
Qed.
Lemma nonblank : forall l, ~ blank l -> beqb (trim_space l) [] = false.
Proof. intros l B. apply beqb_neq. intros E. apply B. apply trim_blank. auto. Qed.

Lemma read_rows_says : forall n text rows rest, rows_of says limit eof n text rows rest -> forall fuel s, (S (S (List.length text)) <= fuel)%nat ->
  read_rows fuel limit parse f n s (mkReader text eof) = let* s' := foldM f rows s in Ok (s', mkReader rest eof).
Proof.
  intros n text rows rest H. induction H as [n text l rest F B|n text l rest row F B Sy L1 L2|n text l rest row rows rest' F B Sy L H IH]; intros fuel s Hf;
    (destruct fuel as [|fuel]; [lia|]); cbn [read_rows]; destruct (first_line_read _ _ _ F) as (line & e & R & E & T); rewrite R, T.
  - apply trim_blank in B. rewrite B. destruct e; try contradiction; reflexivity.
  - rewrite (nonblank _ B), (says_parse _ _ Sy). cbn [bind foldM]. replace ((0 <? limit) && (n + 1 =? limit)) with true by lia.
    destruct e; try contradiction; destruct (f s row); reflexivity.
  - rewrite (nonblank _ B), (says_parse _ _ Sy). cbn [bind foldM]. replace ((0 <? limit) && (n + 1 =? limit)) with false by lia.
    pose proof (first_line_len _ _ _ F B) as Ln.
    destruct e; try contradiction; destruct (f s row) as [s'| | |]; cbn [bind]; try reflexivity; apply IH; lia.
Qed.
Lemma read_rows_bad : forall n text, rows_bad says limit eof n text -> forall fuel s, (S (S (List.length text)) <= fuel)%nat ->
  exists m, read_rows fuel limit parse f n s (mkReader text eof) = Err m.
Proof.
  intros n text H. induction H as [n text E O|n text l rest F B N|n text l rest row F B Sy L H IH]; intros fuel s Hf; (destruct fuel as [|fuel]; [lia|]); cbn [read_rows].
  - unfold read_string. cbn [rd_bytes rd_eof]. rewrite cut_line_none by auto. rewrite E. eauto.
  - destruct (first_line_read _ _ _ F) as (line & e & R & E & T); rewrite R, T, (nonblank _ B). destruct (bad_parse l N) as [m Hm]. rewrite Hm. cbn [bind]. destruct e; try contradiction; eauto.
  - destruct (first_line_read _ _ _ F) as (line & e & R & E & T); rewrite R, T, (nonblank _ B), (says_parse _ _ Sy). cbn [bind]. pose proof (first_line_len _ _ _ F B) as Ln.
    replace ((0 <? limit) && (n + 1 =? limit)) with false by lia. destruct (f_total s row) as [[s' ->]|[m ->]]; cbn [bind]; destruct e; try contradiction; eauto; apply IH; lia.
Qed.
(** every text is one or the other *)
Hypothesis says_dec : forall l, (exists es, says l es) \/ (forall es, ~ says l es).
Lemma rows_total : forall text n, (exists rows rest, rows_of says limit eof n text rows rest) \/ rows_bad says limit eof n text.
Proof.
  intros text. remember (List.length text) as k eqn:K. revert text K. induction k as [k IH] using lt_wf_ind. intros text K n.
  assert (C : (exists l rest, first_line eof text l rest) \/ (eof = false /\ one_line text)).
  { destruct (first_occurrence nl text) as [N|(s1 & s2 & -> & N)].
    - destruct eof; [left; exists text, []; split; auto|right; auto].
    - left. exists s1, s2. split; auto. }
  destruct C as [(l & rest & F)|[E O]]; [|right; apply rb_read; auto].
  destruct (trim_space l) as [|c t] eqn:T; [left; exists [], rest; eapply ro_blank; eauto; apply trim_blank; auto|].
  assert (B : ~ blank l) by (intros B; apply trim_blank in B; congruence).
  destruct (says_dec l) as [[row Sy]|N]; [|right; eapply rb_line; eauto].
  destruct ((0 <? limit) && (n + 1 =? limit)) eqn:L.
  - left. exists [row], rest. eapply ro_limit; eauto; lia.
  - pose proof (first_line_len _ _ _ F B) as Ln. destruct (IH (List.length rest) ltac:(lia) rest eq_refl (n + 1)) as [(rows & rest' & H)|H].
    + left. exists (row :: rows), rest'. eapply ro_more; eauto; lia.
    + right. eapply rb_more; eauto; lia.
Qed.
End Loop.
