(** * Proofs about package mat: writing and reading back *)

From Coq Require Import ZArith List Bool String Lia ZifyBool.
From Verif Require Import Go GoFloat GoText XgBin Mat MatIO.
From Verif Require Import Spec_Params Spec_Mat.
From Verif Require Import Pf_Go Pf_Text Pf_Words Pf_XgBin Pf_Mat Pf_MatRows.
Local Open Scope Z_scope.

Lemma mapM_ok : forall A B (f : A -> outcome B) g l, (forall x, In x l -> f x = Ok (g x)) -> mapM f l = Ok (map g l).
Proof.
  intros A B f g l. induction l as [|x l IH]; intros H; [reflexivity|]. cbn [mapM map]. rewrite H by (left; reflexivity). cbn [bind]. rewrite IH by (intros y Hy; apply H; right; exact Hy). reflexivity.
Qed.
Lemma joins_last : forall sep l x, joins sep (l ++ [x]) = List.concat (map (fun t => t ++ sep) l) ++ x.
Proof.
  intros sep l x. induction l as [|y l IH]; [reflexivity|]. destruct l as [|z l].
  - cbn [app joins map List.concat]. rewrite app_nil_r, <- app_assoc. reflexivity.
  - change (joins sep ((y :: z :: l) ++ [x])) with (y ++ sep ++ joins sep ((z :: l) ++ [x])). rewrite IH. cbn [map List.concat]. rewrite <- !app_assoc. reflexivity.
Qed.
Lemma cells_joins : forall (delim : bytes) (g : Z -> bytes) n, 0 < n ->
  List.concat (map (fun j => g j ++ if j =? n - 1 then [] else delim) (zseq n)) = joins delim (map g (zseq n)).
Proof.
  intros delim g n N. assert (X : exists m, n = m + 1) by (exists (n - 1); lia). destruct X as [m ->]. replace (m + 1 - 1) with m by lia. rewrite zseq_succ by lia. rewrite !map_app, concat_app. cbn [map List.concat]. rewrite joins_last, map_map. rewrite Z.eqb_refl, !app_nil_r. f_equal. f_equal.
  apply map_ext_in. intros j Hj. apply in_zseq in Hj. replace (j =? m) with false by lia. reflexivity.
Qed.

Section Write.
Variables (p : platform) (d : byte) (ds : bytes) (values : list f64) (rows cols : Z) (def : f64).
Let delim : bytes := d :: ds.
Hypotheses (R : 0 < rows) (C : 0 < cols) (L : zlen values = rows * cols) (M : rows * cols <= MaxInt) (Nl : ~ In nl delim) (W : Forall (prints_well p delim) values).

Definition cutv (i : Z) : list f64 := firstn (Z.to_nat cols) (skipn (Z.to_nat (i * cols)) values).
Lemma cutv_len : forall i, 0 <= i < rows -> zlen (cutv i) = cols.
Proof. intros i Hi. unfold cutv, zlen. rewrite firstn_length, skipn_length. unfold zlen in L. nia. Qed.
Lemma cutv_get : forall i k, 0 <= i < rows -> 0 <= k < cols -> zget (cutv i) k = zget values (i * cols + k).
Proof. intros i k Hi Hk. unfold cutv. rewrite !zget_nth by nia. rewrite nth_error_firstn_lt, nth_error_skipn_add by lia. f_equal. nia. Qed.
Lemma in_zget' : forall A (x : A) l, In x l -> exists k, zget l k = Some x.
Proof. intros A x l H. apply In_nth_error in H. destruct H as [n H]. exists (Z.of_nat n). rewrite zget_nth by lia. rewrite Nat2Z.id. exact H. Qed.
Lemma zget_in' : forall A (x : A) l k, zget l k = Some x -> In x l.
Proof. intros A x l k H. apply zget_range in H as Q. rewrite zget_nth in H by lia. eapply nth_error_In; eauto. Qed.
Lemma cutv_prints : forall i, 0 <= i < rows -> Forall (prints_well p delim) (cutv i).
Proof.
  intros i Hi. apply Forall_forall. intros v Hv. apply in_zget' in Hv. destruct Hv as [k Hk]. apply zget_range in Hk as Q. rewrite cutv_len in Q by auto. rewrite cutv_get in Hk by auto. eapply Forall_forall; [exact W|]. eapply zget_in'; eauto.
Qed.

(** a row as written *)
Definition line_of (vs : list f64) : bytes := joins delim (map (pl_print_float p) vs).
Lemma write_row_ok : forall i, 0 <= i < rows -> write_row p (mkDense values cols rows) delim i = Ok (line_of (cutv i) ++ [nl]).
Proof.
  intros i Hi. unfold write_row. cbn [dmValues dmCols]. rewrite (mapM_ok _ _ _ (fun j => pl_print_float p (nth (Z.to_nat j) (cutv i) fzero) ++ if j =? cols - 1 then [] else delim)).
  - cbn [bind]. f_equal. f_equal. rewrite (cells_joins delim (fun j => pl_print_float p (nth (Z.to_nat j) (cutv i) fzero)) cols C). unfold line_of. f_equal. apply zget_ext.
    + rewrite !zlen_map', zseq_zlen, cutv_len by lia. reflexivity.
    + intros k Hk. rewrite zlen_map', zseq_zlen in Hk by lia. rewrite !zget_map, zget_zseq by lia. cbn [option_map]. rewrite zget_nth by lia. rewrite (nth_error_nth' (cutv i) fzero); [reflexivity|]. pose proof (cutv_len i Hi) as X. unfold zlen in X. lia.
  - intros j Hj. apply in_zseq in Hj. unfold at_. rewrite <- cutv_get by auto. rewrite zget_nth by lia. rewrite (nth_error_nth' (cutv i) fzero); [reflexivity|]. pose proof (cutv_len i Hi) as X. unfold zlen in X. lia.
Qed.
Definition text_of (rs : list (list f64)) : bytes := List.concat (map (fun vs => line_of vs ++ [nl]) rs).
Lemma write_ok : WriteStr p (mkDense values cols rows) delim = Ok (text_of (map cutv (zseq rows))).
Proof.
  unfold WriteStr. cbn [dmCols dmRows dmValues]. rewrite s64_id by (unfold MaxInt, two63 in *; nia). replace (cols * rows =? zlen values) with true by lia. cbn [negb]. replace ((cols =? 0) || (rows =? 0)) with false by lia.
  rewrite (mapM_ok _ _ _ (fun i => line_of (cutv i) ++ [nl])).
  - cbn [bind]. unfold text_of. rewrite map_map. reflexivity.
  - intros i Hi. apply in_zseq in Hi. apply write_row_ok. exact Hi.
Qed.

(** a printed line is read back *)
Definition printed (l : bytes) (es : list entry) : Prop := exists vs, vs <> [] /\ Forall (prints_well p delim) vs /\ l = line_of vs /\ es = number_from 0 vs.
Lemma line_first : forall vs c t, vs <> [] -> Forall (prints_well p delim) vs -> line_of vs = c :: t -> visible c.
Proof.
  intros vs c t N F E. destruct vs as [|v vs]; [contradiction|]. inversion F as [|? ? (P1 & P2 & _) F']; subst. unfold line_of in E. cbn [map] in E.
  destruct (pl_print_float p v) as [|x s] eqn:Q; [contradiction|]. assert (H : exists u, joins delim ((x :: s) :: map (pl_print_float p) vs) = x :: u) by (destruct (map (pl_print_float p) vs); cbn [joins app]; eauto).
  destruct H as [u H]. rewrite H in E. injection E as <- _. inversion P2; auto.
Qed.
Lemma line_last : forall vs c t, vs <> [] -> Forall (prints_well p delim) vs -> line_of vs = t ++ [c] -> visible c.
Proof.
  intros vs c t N F E. destruct (exists_last N) as (vs' & v & ->). apply Forall_app in F. destruct F as [_ F]. inversion F as [|? ? (P1 & P2 & _) _]; subst. unfold line_of in E. rewrite map_app in E. cbn [map] in E. rewrite joins_last in E.
  destruct (exists_last P1) as (s & x & Q). rewrite Q in E, P2. rewrite app_assoc in E. apply app_inj_tail in E. destruct E as [_ <-]. apply Forall_app in P2. destruct P2 as [_ P2]. inversion P2; auto.
Qed.
Lemma print_tokens : forall vs, Forall (prints_well p delim) vs -> Forall2 (says_field p def) (map (pl_print_float p) vs) vs.
Proof. intros vs F. induction F as [|v vs (P1 & _ & _ & P4) F IH]; cbn [map]; constructor; auto. right. auto. Qed.
Lemma printed_parse : forall l es, printed l es -> csv_line p false delim def (trim_space l) = Ok es.
Proof.
  intros l es (vs & N & F & -> & ->). rewrite trim_id; [|intros c t E; eapply line_first; eauto|intros c t E; eapply line_last; eauto].
  unfold csv_line, line_of, delim. rewrite split_joins.
  - rewrite (csv_tokens_says p def _ _ (print_tokens vs F)). reflexivity.
  - destruct vs; [contradiction|discriminate].
  - apply Forall_forall. intros t Ht. apply in_map_iff in Ht. destruct Ht as (v & <- & Hv). rewrite Forall_forall in F. destruct (F v Hv) as (_ & _ & P3 & _). apply (P3 d ds eq_refl).
Qed.
Lemma joins_one_line : forall l, Forall (fun t => ~ In nl t) l -> ~ In nl (joins delim l).
Proof.
  intros l F. induction F as [|t l Ht F IH]; [intros []|]. destruct l as [|u l]; [exact Ht|]. change (joins delim (t :: u :: l)) with (t ++ delim ++ joins delim (u :: l)). intros I. apply in_app_or in I. destruct I as [I|I]; [auto|]. apply in_app_or in I. destruct I as [I|I]; auto.
Qed.
Lemma printed_line : forall vs, vs <> [] -> Forall (prints_well p delim) vs -> one_line (line_of vs) /\ ~ blank (line_of vs).
Proof.
  intros vs N F. split.
  - apply joins_one_line. apply Forall_forall. intros t Ht I. apply in_map_iff in Ht. destruct Ht as (v & <- & Hv). rewrite Forall_forall in F. destruct (F v Hv) as (_ & P2 & _). rewrite Forall_forall in P2. specialize (P2 _ I). cbn beta in P2. change (byteZ nl) with 10 in P2. lia.
  - intros B. destruct (line_of vs) as [|c t] eqn:E.
    + destruct vs as [|v vs]; [contradiction|]. inversion F as [|? ? (P1 & _) _]; subst. unfold line_of in E. cbn [map] in E. destruct (pl_print_float p v); [contradiction|]. destruct (map (pl_print_float p) vs); discriminate.
    + pose proof (line_first vs c t N F E) as X. destruct B as (ws & Fw & Eb). destruct Fw as [|w ws Ww _]; [discriminate|]. pose proof (white_nonempty w Ww) as Nw. destruct w as [|c' w]; [contradiction|].
      cbn [List.concat app] in Eb. injection Eb as <- _. destruct (white_ends _ c Ww X) as [K _]. apply (K w). reflexivity.
Qed.
Lemma text_rows : forall limit rs n, Forall (fun vs => vs <> [] /\ Forall (prints_well p delim) vs) rs -> limit <= 0 \/ n + zlen rs <= limit -> (rs <> [] \/ limit <= 0 \/ n < limit) ->
  rows_of printed limit true n (text_of rs) (map (number_from 0) rs) [].
Proof.
  intros limit rs. induction rs as [|vs rs IH]; intros n F Hl Hl'.
  - cbn [map]. unfold text_of. cbn [map List.concat]. apply ro_blank with (l := []); [|apply blank_nil]. split; [intros []|]. right. auto.
  - inversion F as [|? ? [N W'] F']; subst. destruct (printed_line vs N W') as [O B]. unfold text_of. cbn [map List.concat]. fold (text_of rs). rewrite <- app_assoc. cbn [app]. rewrite zlen_cons in Hl. pose proof (zlen_nonneg _ rs) as Q.
    assert (Fl : first_line true (line_of vs ++ nl :: text_of rs) (line_of vs) (text_of rs)) by (split; [exact O|left; reflexivity]).
    assert (P : printed (line_of vs) (number_from 0 vs)) by (exists vs; auto).
    destruct (Z_lt_le_dec 0 limit) as [G|G]; [destruct (Z.eq_dec (n + 1) limit) as [E|E]|].
    + assert (rs = []) by (destruct rs; [reflexivity|rewrite zlen_cons in Hl; pose proof (zlen_nonneg _ rs); lia]). subst rs. apply ro_limit with (l := line_of vs); auto.
    + apply ro_more with (l := line_of vs) (rest := text_of rs); [exact Fl|exact B|exact P|lia|]. apply IH; auto; [lia|]. destruct rs; [right; right; rewrite zlen_nil in *; lia|left; discriminate].
    + apply ro_more with (l := line_of vs) (rest := text_of rs); [exact Fl|exact B|exact P|lia|]. apply IH; auto; lia.
Qed.
Lemma round_trip : forall limit, limit <= 0 \/ rows <= limit ->
  DenseMatFromCsv p (mkReader (text_of (map cutv (zseq rows))) true) limit false delim def = Ok (mkDense values cols rows, mkReader [] true).
Proof.
  intros limit Hl. unfold DenseMatFromCsv.
  assert (H : rows_of printed limit true 0 (text_of (map cutv (zseq rows))) (map (number_from 0) (map cutv (zseq rows))) []).
  { apply text_rows.
    - apply Forall_forall. intros vs Hv. apply in_map_iff in Hv. destruct Hv as (i & <- & Hi). apply in_zseq in Hi. split; [intros X; pose proof (cutv_len i Hi) as Y; rewrite X, zlen_nil in Y; lia|]. apply cutv_prints. exact Hi.
    - rewrite zlen_map', zseq_zlen by lia. lia.
    - left. replace rows with (rows - 1 + 1) by lia. rewrite zseq_succ by lia. rewrite map_app. intros X. apply app_eq_nil in X. destruct X. discriminate. }
  rewrite (read_rows_says _ _ recordsToDenseMat limit true printed_parse _ _ _ _ H) by (unfold read_fuel; cbn [rd_bytes]; lia).
  rewrite map_map. change (map (fun x => number_from 0 (cutv x)) (zseq rows)) with (cut_rows values rows cols).
  pose proof (dense_cut values rows cols ltac:(lia) ltac:(lia) L) as (D1 & D2 & D3). cbn [dmRows dmCols dmValues] in *.
  assert (F : Forall (full_row cols) (cut_rows values rows cols)) by (apply Forall_forall; intros r Hr; apply in_zget' in Hr; destruct Hr as [i Hi]; apply (D3 i r Hi)).
  destruct (dense_rows cols C (cut_rows values rows cols) noDense [] (or_introl (conj eq_refl eq_refl)) F) as (m & E & Hm). rewrite E. cbn [bind]. f_equal. f_equal. cbn [app] in Hm.
  destruct Hm as [[X _]|(_ & E1 & (E2 & E3 & E4))]; [rewrite X, zlen_nil in D1; lia|]. destruct m as [vals cs rs]. cbn [dmRows dmCols dmValues] in *. subst cs. rewrite <- D1 in E2. rewrite E2 in *. clear E2. f_equal.
  apply zget_ext; [congruence|]. intros k Hk. rewrite E3 in Hk. assert (Hi : 0 <= k / cols < rows) by (split; [apply Z.div_pos; lia|apply Z.div_lt_upper_bound; lia]). pose proof (Z_div_mod_eq_full k cols). pose proof (Z.mod_pos_bound k cols C).
  destruct (zget_some _ (cut_rows values rows cols) (k / cols)) as [r Hr]; [lia|]. destruct (D3 _ _ Hr) as [[Lr _] G]. destruct (E4 _ _ Hr) as [_ G']. destruct (zget_some _ r (k mod cols) ltac:(lia)) as [[c v] Hv].
  specialize (G _ _ _ Hv). specialize (G' _ _ _ Hv). replace k with (k / cols * cols + k mod cols) by lia. congruence.
Qed.
End Write.
