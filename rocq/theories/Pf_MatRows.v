(** * Proofs about package mat: rows and matrices *)

From Coq Require Import ZArith List Bool String Lia ZifyBool.
From Verif Require Import Go GoFloat GoText XgBin Mat MatIO.
From Verif Require Import Spec_Params Spec_Mat.
From Verif Require Import Pf_Go Pf_Text Pf_Words Pf_XgBin Pf_Mat.
Local Open Scope Z_scope.

(** ** Deciding what a line says *)
Lemma svm_dec : forall p skip l, (exists es, libsvm_says p skip l es) \/ (forall es, ~ libsvm_says p skip l es).
Proof.
  intros p skip l. set (ts := split (trim_space l) [" "%byte]). assert (P : parts " "%byte (trim_space l) ts) by (apply parts_split; reflexivity).
  assert (U : forall es, libsvm_says p skip l es -> 2 <= zlen ts /\ says_entries p (if skip then tl ts else ts) es).
  { intros es (t & ts' & T & P' & L & H). apply trim_space_iff in T. subst t. apply parts_split in P'. fold ts in P'. subst ts'. auto. }
  destruct (Z_lt_le_dec (zlen ts) 2) as [L|L]; [right; intros es H; apply U in H; lia|].
  assert (D : forall us, (exists es, says_entries p us es) \/ (forall es, ~ says_entries p us es)).
  { induction us as [|t us IH]; [left; exists []; constructor|]. destruct t as [|c t]; [left; exists []; constructor|].
    destruct (svm_token_cases p (c :: t) ltac:(discriminate)) as [(e & E & _)|[B _]].
    - destruct IH as [[es H]|N]; [left; exists (e :: es); constructor; auto; discriminate|]. right. intros es H. inversion H; subst. eapply N; eauto.
    - right. intros es H. inversion H; subst. eapply B; eauto. }
  destruct (D (if skip then tl ts else ts)) as [[es H]|N]; [left; exists es, (trim_space l), ts; split; [apply trim_space_trimmed|auto]|]. right. intros es H. apply U in H. destruct H as [_ H]. eapply N; eauto.
Qed.
Lemma csv_dec : forall p skip c def l, (exists es, csv_says p skip c def l es) \/ (forall es, ~ csv_says p skip c def l es).
Proof.
  intros p skip c def l. set (ts := split (trim_space l) [c]). assert (P : parts c (trim_space l) ts) by (apply parts_split; reflexivity).
  assert (D : forall us, (exists vs, Forall2 (says_field p def) us vs) \/ (forall vs, ~ Forall2 (says_field p def) us vs)).
  { induction us as [|t us IH]; [left; exists []; constructor|].
    destruct (csv_field_cases p def t) as [(v & E & _)|[B _]].
    - destruct IH as [[vs H]|N]; [left; exists (v :: vs); constructor; auto|]. right. intros vs H. inversion H; subst. eapply N; eauto.
    - right. intros vs H. inversion H; subst. eapply B; eauto. }
  destruct (D (if skip then tl ts else ts)) as [[vs H]|N].
  - left. exists (number_from 0 vs), (trim_space l), ts, vs. split; [apply trim_space_trimmed|]. split; auto. split; auto. apply numbered_from. reflexivity.
  - right. intros es (t & ts' & vs & T & P' & F & _). apply trim_space_iff in T. subst t. apply parts_split in P'. fold ts in P'. subst ts'. eapply N; eauto.
Qed.

(** ** Sparse rows *)
Lemma csr_none : csr_holds (mkCSR [0] [] []) [].
Proof. unfold csr_holds. repeat match goal with |- _ /\ _ => split end; try reflexivity. intros i row H. rewrite zget_nil in H. discriminate. Qed.
Lemma csr_step : forall m rows row, csr_holds m rows -> exists m', recordsToCSRMat m row = Ok m' /\ csr_holds m' (rows ++ [row]).
Proof.
  intros m rows row (L & H0 & Hl & Lc & R). unfold recordsToCSRMat. eexists. split; [reflexivity|]. pose proof (zlen_nonneg _ rows) as N. pose proof (zlen_nonneg _ row) as N'.
  assert (Zr : zlen (map snd row) = zlen row) by (unfold zlen; rewrite map_length; reflexivity). assert (Zf : zlen (map fst row) = zlen row) by (unfold zlen; rewrite map_length; reflexivity).
  unfold csr_holds. cbn [cmRowHeaders cmColIndexes cmValues]. rewrite !zlen_app, Zr, Zf, !zlen_cons, !zlen_nil. repeat match goal with |- _ /\ _ => split end; try lia.
  - rewrite zget_app_l by lia. exact H0.
  - rewrite zget_app_r by lia. replace (zlen rows + (1 + 0) - zlen (cmRowHeaders m)) with 0 by lia. rewrite zget_cons_0. cbn. f_equal; try lia.
  - intros i r Hr. destruct (Z_lt_le_dec i (zlen rows)) as [C|C].
    + rewrite zget_app_l in Hr by lia. destruct (R i r Hr) as (s & S1 & S2 & S3). exists s. apply zget_range in S1 as Q1. apply zget_range in S2 as Q2. rewrite !zget_app_l by lia. split; auto. split; auto.
      intros k c v Hk. destruct (S3 k c v Hk) as [A B]. apply zget_range in A as QA. apply zget_range in B as QB. rewrite !zget_app_l by lia. auto.
    + rewrite zget_app_r in Hr by lia. apply zget_range in Hr as Q. rewrite zlen_cons, zlen_nil in Q. assert (i = zlen rows) by lia. subst i. replace (zlen rows - zlen rows) with 0 in Hr by lia. rewrite zget_cons_0 in Hr. injection Hr as <-.
      exists (zlen (cmValues m)). rewrite zget_app_l by lia. split; auto. rewrite zget_app_r by lia. replace (zlen rows + 1 - zlen (cmRowHeaders m)) with 0 by lia. rewrite zget_cons_0. split; auto.
      intros k c v Hk. apply zget_range in Hk as Qk. rewrite !zget_app_r by lia. replace (zlen (cmValues m) + k - zlen (cmColIndexes m)) with k by lia. replace (zlen (cmValues m) + k - zlen (cmValues m)) with k by lia.
      rewrite !zget_map, Hk. auto.
Qed.
Lemma csr_rows : forall rows m rows0, csr_holds m rows0 -> exists m', foldM recordsToCSRMat rows m = Ok m' /\ csr_holds m' (rows0 ++ rows).
Proof.
  induction rows as [|row rows IH]; intros m rows0 H; [exists m; rewrite app_nil_r; auto|]. cbn [foldM]. destruct (csr_step _ _ row H) as (m' & E & H'). rewrite E. cbn [bind].
  destruct (IH _ _ H') as (m'' & E' & H''). exists m''. rewrite <- app_assoc in H''. auto.
Qed.
Lemma csr_total : forall s es, (exists s', recordsToCSRMat s es = Ok s') \/ (exists m, recordsToCSRMat s es = Err m).
Proof. intros. left. eexists. reflexivity. Qed.

(** ** Dense rows *)
Definition full_from (i : Z) (row : list libsvmRecord) : Prop := forall k c v, zget row k = Some (c, v) -> c = i + k.
Lemma full_from_cons : forall i c v row, full_from i ((c, v) :: row) <-> c = i /\ full_from (i + 1) row.
Proof.
  intros i c v row. split.
  - intros H. split; [specialize (H 0 c v (zget_cons_0 _ _ _)); lia|]. intros k c' v' Hk. apply zget_range in Hk as Q. specialize (H (k + 1) c' v'). rewrite zget_cons in H by lia. replace (k + 1 - 1) with k in H by lia. specialize (H Hk). lia.
  - intros [-> H] k c' v' Hk. apply zget_range in Hk as Q. destruct (Z.eq_dec k 0) as [->|N]; [rewrite zget_cons_0 in Hk; injection Hk as <- <-; lia|]. rewrite zget_cons in Hk by lia. specialize (H _ _ _ Hk). lia.
Qed.
Lemma dense_values_ok : forall row i acc, full_from i row -> dense_values i acc row = Ok (acc ++ map snd row).
Proof.
  induction row as [|[c v] row IH]; intros i acc H; cbn [dense_values map snd]; [rewrite app_nil_r; reflexivity|]. apply full_from_cons in H. destruct H as [-> H]. rewrite Z.eqb_refl. cbn [negb]. rewrite IH by auto. rewrite <- app_assoc. reflexivity.
Qed.
Lemma dense_values_inv : forall row i acc, full_from i row \/ exists m, dense_values i acc row = Err m.
Proof.
  induction row as [|[c v] row IH]; intros i acc; cbn [dense_values]; [left; intros k c v H; rewrite zget_nil in H; discriminate|]. destruct (Z.eqb_spec i c) as [->|N]; cbn [negb]; [|right; eauto].
  destruct (IH (c + 1) (acc ++ [v])) as [H|H]; [left; apply full_from_cons; auto|right; exact H].
Qed.
Lemma full_full : forall cols row, full_row cols row <-> zlen row = cols /\ full_from 0 row.
Proof. intros cols row. unfold full_row, full_from. split; intros [A B]; (split; [exact A|]); intros k c v H; specialize (B k c v H); lia. Qed.
Lemma dense_total : forall s es, (exists s', recordsToDenseMat s es = Ok s') \/ (exists m, recordsToDenseMat s es = Err m).
Proof.
  intros s es. unfold recordsToDenseMat. destruct (dense_values_inv es 0 (dmValues s)) as [H|[m ->]]; [|right; cbn [bind]; eauto]. rewrite dense_values_ok by auto. cbn [bind].
  destruct (_ =? _); [left; eauto|]. destruct (negb _); [right|left]; eauto.
Qed.

(** the state of the loop: no rows yet, or some *)
Definition dense_state (cols : Z) (m : DenseMat) (rows : list (list entry)) : Prop :=
  (rows = [] /\ m = noDense) \/ (rows <> [] /\ dmCols m = cols /\ dense_holds m rows).
Lemma dense_step : forall cols m rows row, 0 < cols -> dense_state cols m rows -> full_row cols row ->
  exists m', recordsToDenseMat m row = Ok m' /\ dense_state cols m' (rows ++ [row]).
Proof.
  intros cols m rows row C St F. apply full_full in F as F'. destruct F' as [L Fr]. pose proof (dense_values_ok row 0 (dmValues m) Fr) as E. unfold recordsToDenseMat. rewrite E. cbn [bind].
  assert (Zr : zlen (map snd row) = zlen row) by (unfold zlen; rewrite map_length; reflexivity).
  destruct St as [[-> ->]|(N & D & (R1 & R2 & R3))].
  - cbn [noDense dmCols dmValues dmRows]. eexists. split; [reflexivity|]. right. split; [discriminate|]. cbn [dmCols]. split; [exact L|]. unfold dense_holds. cbn [dmCols dmValues dmRows app]. rewrite Zr, L. split; [reflexivity|]. split; [lia|].
    intros i r Hr. apply zget_range in Hr as Q. rewrite zlen_cons, zlen_nil in Q. assert (i = 0) by lia. subst i. rewrite zget_cons_0 in Hr. injection Hr as <-. split; auto. intros k c v Hk. cbn [app]. replace (0 * cols + k) with k by lia. rewrite zget_map, Hk. reflexivity.
  - replace (dmCols m =? 0) with false by lia. replace (dmCols m =? zlen row) with true by lia. cbn [negb]. eexists. split; [reflexivity|]. right. split; [destruct rows; discriminate|]. cbn [dmCols]. split; auto.
    unfold dense_holds. cbn [dmCols dmValues dmRows]. rewrite !zlen_app, Zr, !zlen_cons, !zlen_nil. split; [lia|]. split; [rewrite R2; nia|].
    intros i r Hr. destruct (Z_lt_le_dec i (zlen rows)) as [Q|Q].
    + rewrite zget_app_l in Hr by lia. destruct (R3 i r Hr) as [A B]. split; auto. intros k c v Hk. specialize (B k c v Hk). apply zget_range in B as QB. rewrite zget_app_l by lia. exact B.
    + rewrite zget_app_r in Hr by lia. apply zget_range in Hr as Qr. rewrite zlen_cons, zlen_nil in Qr. assert (i = zlen rows) by lia. subst i. replace (zlen rows - zlen rows) with 0 in Hr by lia. rewrite zget_cons_0 in Hr. injection Hr as <-.
      rewrite D. split; auto. intros k c v Hk. apply zget_range in Hk as Qk. rewrite zget_app_r by nia. replace (zlen rows * cols + k - zlen (dmValues m)) with k by nia. rewrite zget_map, Hk. reflexivity.
Qed.
Lemma dense_rows : forall cols, 0 < cols -> forall rows m rows0, dense_state cols m rows0 -> Forall (full_row cols) rows ->
  exists m', foldM recordsToDenseMat rows m = Ok m' /\ dense_state cols m' (rows0 ++ rows).
Proof.
  intros cols C. induction rows as [|row rows IH]; intros m rows0 H F; [exists m; rewrite app_nil_r; auto|]. cbn [foldM]. inversion F; subst. destruct (dense_step cols _ _ row C H) as (m' & E & H'); auto. rewrite E. cbn [bind].
  destruct (IH _ _ H') as (m'' & E' & H''); auto. exists m''. rewrite <- app_assoc in H''. auto.
Qed.
(** a row that does not fit ends the loop with an error *)
Lemma dense_misfit : forall cols m rows row, 0 < cols -> dense_state cols m rows -> rows <> [] -> ~ full_row cols row -> exists msg, recordsToDenseMat m row = Err msg.
Proof.
  intros cols m rows row C [[-> _]|(N & D & _)] N' F; [contradiction|]. unfold recordsToDenseMat. destruct (dense_values_inv row 0 (dmValues m)) as [H|[msg ->]]; [|cbn [bind]; eauto]. rewrite dense_values_ok by auto. cbn [bind].
  replace (dmCols m =? 0) with false by lia. replace (dmCols m =? zlen row) with false; [cbn [negb]; eauto|]. symmetry. apply Z.eqb_neq. intros E. apply F. apply full_full. split; [congruence|auto].
Qed.
Lemma dense_misfits : forall cols, 0 < cols -> forall rows m rows0, dense_state cols m rows0 -> rows0 <> [] -> ~ Forall (full_row cols) rows ->
  exists msg, foldM recordsToDenseMat rows m = Err msg.
Proof.
  intros cols C. induction rows as [|row rows IH]; intros m rows0 H N F; [elim F; constructor|]. cbn [foldM].
  destruct (Z.eq_dec (zlen row) cols) as [L|L]; [destruct (dense_values_inv row 0 []) as [G|[msg G]]|].
  - assert (R : full_row cols row) by (apply full_full; auto). destruct (dense_step cols _ _ row C H R) as (m' & E & H'). rewrite E. cbn [bind]. apply (IH m' (rows0 ++ [row])); [exact H'|destruct rows0; discriminate|]. intros X. apply F. constructor; auto.
  - destruct (dense_misfit cols m rows0 row C H N) as [msg' E]; [|rewrite E; cbn [bind]; eauto]. intros R. apply full_full in R. destruct R as [_ R]. rewrite dense_values_ok in G by auto. discriminate.
  - destruct (dense_misfit cols m rows0 row C H N) as [msg' E]; [|rewrite E; cbn [bind]; eauto]. intros [R _]. contradiction.
Qed.
Lemma dense_not_full : forall row rows, row <> [] -> (forall cols, ~ Forall (full_row cols) (row :: rows)) -> exists msg, foldM recordsToDenseMat (row :: rows) noDense = Err msg.
Proof.
  intros row rows N F. cbn [foldM]. assert (P : 0 < zlen row) by (destruct row; [contradiction|rewrite zlen_cons; pose proof (zlen_nonneg _ row); lia]).
  destruct (dense_values_inv row 0 []) as [G|[msg G]].
  - assert (R : full_row (zlen row) row) by (apply full_full; auto). destruct (dense_step (zlen row) noDense [] row P) as (m' & E & H'); auto; [left; auto|]. rewrite E. cbn [bind]. apply (dense_misfits (zlen row) P rows m' ([] ++ [row])); [exact H'|discriminate|]. intros X. apply (F (zlen row)). constructor; auto.
  - unfold recordsToDenseMat. cbn [noDense dmValues]. rewrite G. cbn [bind]. eauto.
Qed.

(** ** Matrices from arrays *)
Lemma zlen_map' : forall A B (f : A -> B) l, zlen (map f l) = zlen l.
Proof. intros. unfold zlen. rewrite map_length. reflexivity. Qed.
Lemma array_fold : forall cols (l : list Z) (h ix : list Z), 0 <= cols ->
  fold_left (fun acc (i : Z) => let (headers, indexes) := acc : list Z * list Z in (headers ++ [zlen indexes], indexes ++ zseq cols)) l (h, ix) =
  (h ++ map (fun k => zlen ix + k * cols) (zseq (zlen l)), ix ++ List.concat (map (fun _ => zseq cols) l)).
Proof.
  intros cols l. induction l as [|x l IH]; intros h ix C; [cbn [fold_left map List.concat]; rewrite zlen_nil; cbn; rewrite !app_nil_r; reflexivity|].
  cbn [fold_left map List.concat]. rewrite IH by auto. rewrite <- !app_assoc. f_equal. f_equal. apply zget_ext.
  - rewrite zlen_app, !zlen_map', !zseq_zlen, !zlen_cons, zlen_nil by apply zlen_nonneg. lia.
  - intros i Hi. rewrite zlen_app, zlen_map', zseq_zlen, zlen_cons, zlen_nil in Hi by apply zlen_nonneg.
    rewrite zget_map, zget_zseq by (rewrite zlen_cons; lia). cbn [option_map]. cbn [app]. destruct (Z.eq_dec i 0) as [->|N]; [rewrite zget_cons_0; f_equal; lia|]. rewrite zget_cons by lia. rewrite zget_map, zget_zseq by lia. cbn [option_map]. rewrite zlen_app, zseq_zlen by auto. f_equal. lia.
Qed.
Lemma concat_len : forall cols (l : list Z), 0 <= cols -> zlen (List.concat (map (fun _ => zseq cols) l)) = zlen l * cols.
Proof. intros cols l C. induction l as [|x l IH]; [reflexivity|]. cbn [map List.concat]. rewrite zlen_app, zseq_zlen, IH, zlen_cons by auto. lia. Qed.
Lemma concat_get : forall cols (l : list Z) i k, 0 <= k < cols -> 0 <= i < zlen l -> zget (List.concat (map (fun _ => zseq cols) l)) (i * cols + k) = Some k.
Proof.
  intros cols l. induction l as [|x l IH]; intros i k K I; [rewrite zlen_nil in I; lia|]. cbn [map List.concat]. rewrite zlen_cons in I. destruct (Z.eq_dec i 0) as [->|N].
  - rewrite zget_app_l by (rewrite zseq_zlen by lia; lia). rewrite zget_zseq by lia. f_equal; lia.
  - rewrite zget_app_r by (rewrite zseq_zlen by lia; nia). rewrite zseq_zlen by lia. replace (i * cols + k - cols) with ((i - 1) * cols + k) by lia. apply IH; lia.
Qed.

(** the rows of an array *)
Definition cut_rows (values : list f64) (rows cols : Z) : list (list entry) :=
  map (fun i => number_from 0 (firstn (Z.to_nat cols) (skipn (Z.to_nat (i * cols)) values))) (zseq rows).
Lemma cut_rows_get : forall values rows cols i row, 0 <= rows -> 0 <= cols -> zlen values = rows * cols -> zget (cut_rows values rows cols) i = Some row ->
  full_row cols row /\ 0 <= i < rows /\ forall k c v, zget row k = Some (c, v) -> zget values (i * cols + k) = Some v /\ c = k /\ 0 <= k < cols.
Proof.
  intros values rows cols i row R C L H. unfold cut_rows in H. rewrite zget_map in H. destruct (zget (zseq rows) i) as [j|] eqn:E; [|discriminate]. apply zget_range in E as Q. rewrite zseq_zlen in Q by auto. rewrite zget_zseq in E by auto. injection E as <-. cbn [option_map] in H. injection H as <-.
  assert (Lr : zlen (firstn (Z.to_nat cols) (skipn (Z.to_nat (i * cols)) values)) = cols).
  { unfold zlen. rewrite firstn_length, skipn_length. unfold zlen in L. nia. }
  assert (G : forall k c v, zget (number_from 0 (firstn (Z.to_nat cols) (skipn (Z.to_nat (i * cols)) values))) k = Some (c, v) -> zget values (i * cols + k) = Some v /\ c = k /\ 0 <= k < cols).
  { intros k c v Hk. rewrite number_from_get in Hk. destruct (zget (firstn _ _) k) as [w|] eqn:Ew; [|discriminate]. cbn [option_map] in Hk. injection Hk as <- <-. apply zget_range in Ew as Qk. rewrite Lr in Qk. split; [|lia].
    rewrite zget_nth in Ew by lia. rewrite nth_error_firstn_lt, nth_error_skipn_add in Ew by lia. rewrite zget_nth by nia. replace (Z.to_nat (i * cols + k)) with (Z.to_nat (i * cols) + Z.to_nat k)%nat by nia. exact Ew. }
  split; [|auto]. split; [rewrite number_from_len; auto|]. intros k c v Hk. apply (G k c v Hk).
Qed.
Lemma cut_rows_len : forall values rows cols, 0 <= rows -> zlen (cut_rows values rows cols) = rows.
Proof. intros. unfold cut_rows. rewrite zlen_map', zseq_zlen; auto. Qed.
Lemma dense_cut : forall values rows cols, 0 <= rows -> 0 <= cols -> zlen values = rows * cols -> dense_holds (mkDense values cols rows) (cut_rows values rows cols).
Proof.
  intros values rows cols R C L. unfold dense_holds. cbn [dmRows dmCols dmValues]. rewrite cut_rows_len by auto. split; auto. split; auto. intros i row H. destruct (cut_rows_get _ _ _ _ _ R C L H) as (A & B & G). split; auto. intros k c v Hk. apply (G k c v Hk).
Qed.
Lemma csr_cut : forall p values rows cols m, 0 <= rows -> 0 <= cols -> zlen values = rows * cols -> CSRMatFromArray p values rows cols = Ok m -> csr_holds m (cut_rows values rows cols).
Proof.
  intros p values rows cols m R C L H. unfold CSRMatFromArray in H. destruct (negb _); [discriminate|]. apply bind_ok in H. destruct H as (_ & _ & H). apply bind_ok in H. destruct H as (_ & _ & H).
  rewrite array_fold in H by auto. cbn [app] in H. rewrite zlen_nil in H. rewrite zseq_zlen in H by auto. injection H as <-. unfold csr_holds. cbn [cmRowHeaders cmColIndexes cmValues]. rewrite cut_rows_len by auto.
  rewrite concat_len, zseq_zlen by auto.
  assert (Lh : zlen (map (fun k => k * cols) (zseq rows)) = rows) by (rewrite zlen_map', zseq_zlen; auto).
  assert (Hh : forall i, 0 <= i <= rows -> zget (map (fun k => k * cols) (zseq rows) ++ [rows * cols]) i = Some (i * cols)).
  { intros i Hi. destruct (Z.eq_dec i rows) as [->|N].
    - rewrite zget_app_r by lia. replace (rows - zlen (map (fun k => k * cols) (zseq rows))) with 0 by lia. rewrite zget_cons_0. reflexivity.
    - rewrite zget_app_l by lia. rewrite zget_map, zget_zseq by lia. cbn [option_map]. f_equal; lia. }
  repeat match goal with |- _ /\ _ => split end.
  - rewrite zlen_app, Lh, zlen_cons, zlen_nil. lia.
  - rewrite Hh by lia. f_equal; lia.
  - rewrite Hh by lia. f_equal; lia.
  - lia.
  - intros i row Hr. destruct (cut_rows_get _ _ _ _ _ R C L Hr) as ([A _] & B & G). exists (i * cols). rewrite !Hh by lia. split; auto. split; [f_equal; lia|].
    intros k c v Hk. destruct (G k c v Hk) as (G1 & -> & G2). split; auto. apply concat_get; auto. rewrite zseq_zlen by auto. lia.
Qed.
Lemma csr_array_values : forall p values rows cols m, CSRMatFromArray p values rows cols = Ok m -> cmValues m = values.
Proof.
  intros p values rows cols m H. unfold CSRMatFromArray in H. destruct (negb _); [discriminate|]. apply bind_ok in H. destruct H as (_ & _ & H). apply bind_ok in H. destruct H as (_ & _ & H).
  destruct (fold_left _ _ _). injection H as <-. reflexivity.
Qed.
