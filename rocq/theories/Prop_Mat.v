(** * Properties of package mat: C48-C50, C55-C56 *)

From Coq Require Import ZArith List Bool String Lia ZifyBool.
From Verif Require Import Go GoFloat GoText Cmd LgTree Transformation Ensembles Leaves Parallel XgBin Mat MatIO.
From Verif Require Import Spec_Predict Spec_Params Spec_Mat.
From Verif Require Import Pf_Go Pf_Text Pf_Words Pf_Leaves Pf_Batch Pf_Calls Pf_Rows Pf_XgBin Pf_Mat Pf_MatRows Pf_MatWrite Pf_Extra.
From Verif Require Import Prop_Batch.
Local Open Scope Z_scope.

(** ** C55: feature values beyond those the model looks at change nothing *)
Theorem C55_extra_features_ignored :
  forall p e fvals more nEstimators predictions out,
  Predict p e fvals nEstimators predictions = Ok out ->
  Predict p e (fvals ++ more) nEstimators predictions = Ok out.
Proof. intros p e x y n m out H. apply (Predict_more p x y e n m out H). Qed.
Print Assumptions C55_extra_features_ignored.

(** ** C48 *)

(** both constructors accept exactly the arrays of the right length, and hold the same rows,
    which are those of the array *)
Theorem C48_from_array :
  forall p values rows cols, 0 <= rows -> 0 <= cols -> rows * cols <= MaxInt -> rows < MaxInt ->
  (zlen values = rows * cols -> zlen values <= pl_maxalloc p -> rows + 1 <= pl_maxalloc p ->
   exists d c rs, DenseMatFromArray values rows cols = Ok d /\ CSRMatFromArray p values rows cols = Ok c /\
     dense_holds d rs /\ csr_holds c rs /\ dmValues d = values /\ dmRows d = rows /\ dmCols d = cols /\ CSRMat_Rows c = rows) /\
  (zlen values <> rows * cols ->
   exists m1 m2, DenseMatFromArray values rows cols = Err m1 /\ CSRMatFromArray p values rows cols = Err m2).
Proof.
  intros p values rows cols R C M M1. assert (S : s64 (cols * rows) = rows * cols) by (rewrite Z.mul_comm; apply s64_id; unfold MaxInt, two63 in *; nia).
  unfold DenseMatFromArray. rewrite S. split.
  - intros L A1 A2. assert (E : exists c, CSRMatFromArray p values rows cols = Ok c).
    { unfold CSRMatFromArray. rewrite S, L, Z.eqb_refl. cbn [negb]. rewrite (s64_id (rows + 1)) by (unfold MaxInt, two63 in *; lia).
      pose proof (zlen_nonneg _ values). rewrite !make_check_ok by lia. cbn [bind]. destruct (fold_left _ _ _). eauto. }
    destruct E as [c E]. rewrite L, Z.eqb_refl. cbn [negb]. exists (mkDense values cols rows), c, (cut_rows values rows cols).
    pose proof (csr_cut _ _ _ _ _ R C L E) as H. repeat match goal with |- _ /\ _ => split end; auto.
    + apply dense_cut; auto.
    + destruct H as (H & _). unfold CSRMat_Rows. rewrite cut_rows_len in H by auto. rewrite H. replace (rows + 1 =? 0) with false by lia. lia.
  - intros N. unfold CSRMatFromArray. rewrite S. replace (zlen values =? rows * cols) with false by lia. cbn [negb]. eauto.
Qed.
Print Assumptions C48_from_array.

Lemma zlen_rep : forall A (x : A) n, 0 <= n -> zlen (repeat x (Z.to_nat n)) = n.
Proof. intros. unfold zlen. rewrite repeat_length. lia. Qed.

Section Agree.
Variables (p : platform) (e : Ensemble) (values : list f64) (rows cols : Z) (c : CSRMat) (nE : Z).
Hypotheses (Hwf : well_formed e) (Hacc : arity_accepted e) (Hs : sane_rows e rows) (Hv : zlen values <= MaxInt) (Hnc : 0 < cols <= MaxInt)
  (HL : zlen values = rows * cols) (HF : NFeatures e <= cols) (HC : CSRMatFromArray p values rows cols = Ok c).

Lemma csr_ptr : zlen (cmRowHeaders c) - 1 = rows.
Proof. destruct Hs as [Hs0 _]. destruct (csr_cut p values rows cols c ltac:(lia) ltac:(lia) HL HC) as (H & _). rewrite cut_rows_len in H by lia. lia. Qed.
(** a row of the CSR matrix is the beginning of that of the array *)
Lemma csr_prefix : forall i row srow, 0 <= i < rows -> is_dense_row values cols i row ->
  is_csr_row (cmRowHeaders c) (cmColIndexes c) (cmValues c) (NFeatures e) (missing_value e) i srow -> exists more, row = srow ++ more.
Proof.
  intros i row srow Hi [Lr Hr] (start & end_ & H1 & H2 & Ls & H3). destruct Hs as [Hrows _].
  destruct (csr_cut p values rows cols c ltac:(lia) ltac:(lia) HL HC) as (_ & _ & _ & _ & R).
  destruct (zget_some _ (cut_rows values rows cols) i) as [rw E]; [rewrite cut_rows_len by lia; lia|].
  destruct (R i rw E) as (s & S1 & S2 & S3). rewrite H1 in S1. injection S1 as <-. rewrite H2 in S2. injection S2 as ->.
  destruct (cut_rows_get values rows cols i rw ltac:(lia) ltac:(lia) HL E) as ([L _] & _ & G).
  assert (Q : forall k, 0 <= k < zlen srow -> zget srow k = zget row k).
  { intros k Hk. rewrite Ls in Hk. assert (get : forall q, 0 <= q < cols -> exists v, zget rw q = Some (q, v) /\ zget values (i * cols + q) = Some v /\ zget (cmColIndexes c) (start + q) = Some q /\ zget (cmValues c) (start + q) = Some v).
    { intros q Hq. destruct (zget_some _ rw q ltac:(lia)) as [[cc v] Ev]. destruct (G _ _ _ Ev) as (G1 & -> & G2). destruct (S3 _ _ _ Ev) as [T1 T2]. eauto. }
    destruct (get k ltac:(lia)) as (v & _ & K2 & K3 & K4). destruct (H3 k Hk) as [H3a _]. rewrite (H3a (start + k)); [rewrite K4, Hr by lia; auto|lia|exact K3|].
    intros j' Hj. destruct (get (j' - start) ltac:(lia)) as (v' & _ & _ & K3' & _). replace (start + (j' - start)) with j' in K3' by lia. rewrite K3'. intros X. injection X as X. lia. }
  exists (skipn (Z.to_nat (zlen srow)) row). rewrite <- (firstn_skipn (Z.to_nat (zlen srow)) row) at 1. f_equal.
  assert (Lf : zlen (firstn (Z.to_nat (zlen srow)) row) = zlen srow).
  { unfold zlen at 1. rewrite firstn_length. pose proof (zlen_nonneg _ srow). unfold zlen in *. lia. }
  apply zget_ext; [exact Lf|]. intros k Hk. rewrite Lf in Hk. rewrite Q by lia. rewrite !zget_nth by lia. apply nth_error_firstn_lt. lia.
Qed.
Lemma agree_results : forall predictions t1 t2 m1 m2,
  PredictDense p e values rows cols predictions nE t1 (Returns m1) ->
  PredictCSR p e (cmRowHeaders c) (cmColIndexes c) (cmValues c) predictions nE t2 (Returns m2) -> m1 = m2.
Proof.
  intros preds t1 t2 m1 m2 D K. assert (Hs' : sane_rows e (zlen (cmRowHeaders c) - 1)) by (rewrite csr_ptr; exact Hs).
  destruct (C07_dense_window _ _ _ _ _ _ _ _ _ Hwf Hs D) as (L1 & W1 & _). destruct (C07_csr_window _ _ _ _ _ _ _ _ _ Hwf Hs' K) as (L2 & W2 & _). rewrite csr_ptr in W2.
  destruct Hs as [Hr Hg]. pose proof (wf_NOG e Hwf) as Hn.
  assert (A : agree (rows * NOutputGroups e) m1 m2).
  { apply holds_agree; [lia|lia|]. intros i Hi. destruct (C05_dense_rows_equal_predict _ _ _ _ _ _ _ _ _ Hwf Hacc Hs Hv Hnc D i Hi) as (row & Hrow & P1).
    destruct (C06_csr_rows_equal_predict _ _ _ _ _ _ _ _ _ Hwf Hacc Hs' K i ltac:(rewrite csr_ptr; exact Hi)) as (srow & Hsrow & P2).
    destruct (csr_prefix i row srow Hi Hrow Hsrow) as (more & ->).
    destruct (P1 (repeat fzero (Z.to_nat (NOutputGroups e)))) as (o1 & E1 & H1); [rewrite zlen_rep by lia; nia|].
    destruct (P2 (repeat fzero (Z.to_nat (NOutputGroups e)))) as (o2 & E2 & H2); [rewrite zlen_rep by lia; nia|].
    rewrite (C55_extra_features_ignored _ _ _ more _ _ _ E2) in E1. injection E1 as <-. exists o2. auto. }
  apply zget_ext; [congruence|]. intros k Hk. destruct (Z_lt_le_dec k (rows * NOutputGroups e)) as [Q|Q]; [apply A; lia|]. rewrite W1, W2 by lia. reflexivity.
Qed.
Lemma csr_dense : forall predictions t m, 0 < rows -> 1 <= pl_gomaxprocs p ->
  PredictCSR p e (cmRowHeaders c) (cmColIndexes c) (cmValues c) predictions nE t (Returns m) ->
  forall t', PredictDense p e values rows cols predictions nE t' (Returns m) /\ forall r, PredictDense p e values rows cols predictions nE t' r -> r = Returns m.
Proof.
  intros preds t m Hpos Hg K t'. assert (Hs' : sane_rows e (zlen (cmRowHeaders c) - 1)) by (rewrite csr_ptr; exact Hs). pose proof (wf_NOG e Hwf) as Hn.
  assert (Hlen : NOutputGroups e * rows <= zlen preds).
  { destruct Hs as [Hr Hg']. assert (X : s64 (NOutputGroups e * rows) = NOutputGroups e * rows) by (apply s64_id; unfold MaxInt, two63 in *; nia).
    destruct (Z_lt_le_dec (zlen preds) (NOutputGroups e * rows)) as [Q|Q]; [|exact Q]. exfalso.
    assert (Y : csr_checks e (cmRowHeaders c) preds nE = Err "predictions slice too short") by (unfold csr_checks; rewrite csr_ptr, X; replace (zlen preds <? NOutputGroups e * rows) with true by lia; reflexivity).
    inversion K; congruence. }
  destruct (C03_dense_always_completes p e values rows cols preds nE t' Hwf Hs Hv Hg ltac:(lia) HF Hlen) as ((m' & D) & A & _); [|exact Hpos|].
  - intros i Hi. destruct (C06_csr_rows_equal_predict _ _ _ _ _ _ _ _ _ Hwf Hacc Hs' K i ltac:(rewrite csr_ptr; exact Hi)) as (srow & Hsrow & P2).
    destruct (P2 (repeat fzero (Z.to_nat (NOutputGroups e)))) as (o2 & E2 & H2); [destruct Hs; rewrite zlen_rep by lia; nia|].
    set (row := firstn (Z.to_nat cols) (skipn (Z.to_nat (i * cols)) values)).
    assert (Hrow : is_dense_row values cols i row).
    { unfold row. split; [unfold zlen; rewrite firstn_length, skipn_length; unfold zlen in HL; nia|]. intros k Hk. rewrite !zget_nth by nia. rewrite nth_error_firstn_lt, nth_error_skipn_add by lia. f_equal. nia. }
    destruct (csr_prefix i row srow Hi Hrow Hsrow) as (more & E). exists row. rewrite E. exists (repeat fzero (Z.to_nat (NOutputGroups e))), o2. split; [rewrite <- E; exact Hrow|]. apply C55_extra_features_ignored. exact E2.
  - assert (m' = m) by (eapply agree_results; eauto). subst m'. split; [exact D|]. intros r Hr. destruct (A r Hr) as [m'' ->]. f_equal. eapply agree_results; eauto.
Qed.
End Agree.

(** dense and sparse prediction on the same array store the same *)
Theorem C48_dense_csr_agree :
  forall p e values rows cols c predictions nEstimators nThreads1 nThreads2 m1 m2,
  well_formed e -> arity_accepted e -> sane_rows e rows -> zlen values <= MaxInt -> 0 < cols <= MaxInt -> zlen values = rows * cols ->
  CSRMatFromArray p values rows cols = Ok c ->
  PredictDense p e values rows cols predictions nEstimators nThreads1 (Returns m1) ->
  PredictCSR p e (cmRowHeaders c) (cmColIndexes c) (cmValues c) predictions nEstimators nThreads2 (Returns m2) ->
  m1 = m2.
Proof.
  intros p e values rows cols c preds nE t1 t2 m1 m2 Hwf Hacc Hs Hv Hnc HL HC D K.
  assert (HF : NFeatures e <= cols).
  { destruct Hs as [Hr Hg]. destruct (dense_seq p e values rows cols preds nE t1 m1 Hwf ltac:(lia) Hg D) as (n & Hc & _).
    unfold dense_checks in Hc. destruct (_ <? _) in Hc; [discriminate|]. destruct ((cols =? 0) || (cols <? NFeatures e)) eqn:E; [discriminate|]. lia. }
  eapply agree_results; eauto.
Qed.
Print Assumptions C48_dense_csr_agree.

(** if the sparse call returns, so does every dense call, with the same predictions *)
Theorem C48_dense_follows_csr :
  forall p e values rows cols c predictions nEstimators nThreads m,
  well_formed e -> arity_accepted e -> sane_rows e rows -> zlen values <= MaxInt -> 0 < cols <= MaxInt -> zlen values = rows * cols ->
  NFeatures e <= cols -> 0 < rows -> 1 <= pl_gomaxprocs p ->
  CSRMatFromArray p values rows cols = Ok c ->
  PredictCSR p e (cmRowHeaders c) (cmColIndexes c) (cmValues c) predictions nEstimators nThreads (Returns m) ->
  forall nThreads', PredictDense p e values rows cols predictions nEstimators nThreads' (Returns m) /\
    forall r, PredictDense p e values rows cols predictions nEstimators nThreads' r -> r = Returns m.
Proof. intros. eapply csr_dense; eauto. Qed.
Print Assumptions C48_dense_follows_csr.

(** ** C49 *)
Theorem C49_csr_libsvm :
  forall p skip limit eof text rows rest,
  rows_of (libsvm_says p skip) limit eof 0 text rows rest ->
  exists m, CSRMatFromLibsvm p (mkReader text eof) limit skip = Ok (m, mkReader rest eof) /\ csr_holds m rows /\ CSRMat_Rows m = zlen rows.
Proof.
  intros p skip limit eof text rows rest H. unfold CSRMatFromLibsvm.
  rewrite (read_rows_says _ _ recordsToCSRMat limit eof (svm_line_says p skip) _ _ _ _ H) by (unfold read_fuel; cbn [rd_bytes]; lia).
  destruct (csr_rows rows _ _ csr_none) as (m & E & Hm). rewrite E. cbn [bind]. exists m. split; auto. cbn [app] in Hm. split; auto.
  destruct Hm as (L & _). unfold CSRMat_Rows. rewrite L. pose proof (zlen_nonneg _ rows). replace (zlen rows + 1 =? 0) with false by lia. lia.
Qed.
Print Assumptions C49_csr_libsvm.
Theorem C49_csr_rejects :
  forall p skip limit eof text, rows_bad (libsvm_says p skip) limit eof 0 text ->
  exists msg, CSRMatFromLibsvm p (mkReader text eof) limit skip = Err msg.
Proof.
  intros p skip limit eof text H. unfold CSRMatFromLibsvm.
  apply (read_rows_bad _ _ recordsToCSRMat limit eof (svm_line_says p skip) (svm_line_bad p skip) csr_total _ _ H). unfold read_fuel; cbn [rd_bytes]; lia.
Qed.
Print Assumptions C49_csr_rejects.
(** every text is one or the other: loading never panics and always ends *)
Theorem C49_every_text :
  forall p skip limit eof text,
  (exists rows rest, rows_of (libsvm_says p skip) limit eof 0 text rows rest) \/ rows_bad (libsvm_says p skip) limit eof 0 text.
Proof. intros p skip limit eof text. apply rows_total. apply svm_dec. Qed.
Print Assumptions C49_every_text.

Theorem C49_dense_libsvm :
  forall p skip limit eof text rows rest cols,
  rows_of (libsvm_says p skip) limit eof 0 text rows rest -> 0 < cols -> Forall (full_row cols) rows ->
  exists m, DenseMatFromLibsvm p (mkReader text eof) limit skip = Ok (m, mkReader rest eof) /\ dense_holds m rows /\ (rows <> [] -> dmCols m = cols).
Proof.
  intros p skip limit eof text rows rest cols H C F. unfold DenseMatFromLibsvm.
  rewrite (read_rows_says _ _ recordsToDenseMat limit eof (svm_line_says p skip) _ _ _ _ H) by (unfold read_fuel; cbn [rd_bytes]; lia).
  destruct (dense_rows cols C rows noDense [] (or_introl (conj eq_refl eq_refl)) F) as (m & E & Hm). rewrite E. cbn [bind]. exists m. split; auto. cbn [app] in Hm.
  destruct Hm as [[-> ->]|(N & D & Hm)].
  - split; [|intros X; contradiction]. unfold dense_holds. cbn. split; auto. split; auto. intros i row X. rewrite zget_nil in X. discriminate.
  - auto.
Qed.
Print Assumptions C49_dense_libsvm.
(** errors, and rows that do not make a matrix *)
Theorem C49_dense_rejects :
  forall p skip limit eof text,
  (rows_bad (libsvm_says p skip) limit eof 0 text \/
   exists row rows rest, rows_of (libsvm_says p skip) limit eof 0 text (row :: rows) rest /\ row <> [] /\ forall cols, ~ Forall (full_row cols) (row :: rows)) ->
  exists msg, DenseMatFromLibsvm p (mkReader text eof) limit skip = Err msg.
Proof.
  intros p skip limit eof text [H|(row & rows & rest & H & N & F)]; unfold DenseMatFromLibsvm.
  - apply (read_rows_bad _ _ recordsToDenseMat limit eof (svm_line_says p skip) (svm_line_bad p skip) dense_total _ _ H). unfold read_fuel; cbn [rd_bytes]; lia.
  - rewrite (read_rows_says _ _ recordsToDenseMat limit eof (svm_line_says p skip) _ _ _ _ H) by (unfold read_fuel; cbn [rd_bytes]; lia).
    destruct (dense_not_full row rows N F) as [msg E]. rewrite E. cbn [bind]. eauto.
Qed.
Print Assumptions C49_dense_rejects.

(** ** C56: CSV *)
Lemma rows_of_says : forall says limit eof n text rows rest, rows_of says limit eof n text rows rest -> Forall (fun row => exists l, says l row) rows.
Proof. intros says limit eof n text rows rest H. induction H; [constructor| |]; constructor; eauto. Qed.
Theorem C56_csv :
  forall p skip c def limit eof text rows rest cols,
  rows_of (csv_says p skip c def) limit eof 0 text rows rest -> 0 < cols -> Forall (fun row => zlen row = cols) rows ->
  exists m, DenseMatFromCsv p (mkReader text eof) limit skip [c] def = Ok (m, mkReader rest eof) /\ dense_holds m rows /\ (rows <> [] -> dmCols m = cols).
Proof.
  intros p skip c def limit eof text rows rest cols H C L. unfold DenseMatFromCsv.
  rewrite (read_rows_says _ _ recordsToDenseMat limit eof (csv_line_says p skip c def) _ _ _ _ H) by (unfold read_fuel; cbn [rd_bytes]; lia).
  assert (N : Forall (fun row => exists vs, row = number_from 0 vs) rows).
  { eapply Forall_impl; [|exact (rows_of_says _ _ _ _ _ _ _ H)]. intros row (l & t & ts & vs & _ & _ & _ & N). apply numbered_from in N. eauto. }
  assert (F : Forall (full_row cols) rows).
  { clear H. induction L as [|row rows Hl L IH]; [constructor|]. inversion N as [|? ? [vs Ev] N']; subst. constructor; [|exact (IH N')]. split; auto. intros k cc v Hk. rewrite number_from_get in Hk. destruct (zget vs k); [|discriminate]. cbn [option_map] in Hk. injection Hk as <- <-. lia. }
  destruct (dense_rows cols C rows noDense [] (or_introl (conj eq_refl eq_refl)) F) as (m & E & Hm). rewrite E. cbn [bind]. exists m. split; auto. cbn [app] in Hm.
  destruct Hm as [[-> ->]|(Nn & D & Hm)].
  - split; [|intros X; contradiction]. unfold dense_holds. cbn. split; auto. split; auto. intros i row X. rewrite zget_nil in X. discriminate.
  - auto.
Qed.
Print Assumptions C56_csv.
Theorem C56_csv_rejects :
  forall p skip c def limit eof text,
  (rows_bad (csv_says p skip c def) limit eof 0 text \/
   exists row rows rest, rows_of (csv_says p skip c def) limit eof 0 text (row :: rows) rest /\ row <> [] /\ ~ Forall (fun r => zlen r = zlen row) rows) ->
  exists msg, DenseMatFromCsv p (mkReader text eof) limit skip [c] def = Err msg.
Proof.
  intros p skip c def limit eof text [H|(row & rows & rest & H & N & F)]; unfold DenseMatFromCsv.
  - apply (read_rows_bad _ _ recordsToDenseMat limit eof (csv_line_says p skip c def) (csv_line_bad p skip c def) dense_total _ _ H). unfold read_fuel; cbn [rd_bytes]; lia.
  - rewrite (read_rows_says _ _ recordsToDenseMat limit eof (csv_line_says p skip c def) _ _ _ _ H) by (unfold read_fuel; cbn [rd_bytes]; lia).
    destruct (dense_not_full row rows N) as [msg E]; [|rewrite E; cbn [bind]; eauto]. intros cols X. inversion X as [|? ? [L _] X']; subst. apply F. eapply Forall_impl; [|exact X']. intros a [La _]. exact La.
Qed.
Print Assumptions C56_csv_rejects.
Theorem C56_every_text :
  forall p skip c def limit eof text,
  (exists rows rest, rows_of (csv_says p skip c def) limit eof 0 text rows rest) \/ rows_bad (csv_says p skip c def) limit eof 0 text.
Proof. intros p skip c def limit eof text. apply rows_total. apply csv_dec. Qed.
Print Assumptions C56_every_text.

(** ** C50 *)
Theorem C50_csv_round_trip :
  forall p m delimiter def limit,
  0 < dmRows m -> 0 < dmCols m -> zlen (dmValues m) = dmRows m * dmCols m -> zlen (dmValues m) <= MaxInt ->
  delimiter <> [] -> ~ In nl delimiter -> Forall (prints_well p delimiter) (dmValues m) ->
  limit <= 0 \/ dmRows m <= limit ->
  exists text, WriteStr p m delimiter = Ok text /\
    DenseMatFromCsv p (mkReader text true) limit false delimiter def = Ok (m, mkReader [] true).
Proof.
  intros p [values cols rows] delimiter def limit R C L M N Nn W Hl. cbn [dmRows dmCols dmValues] in *. destruct delimiter as [|d ds]; [contradiction|].
  exists (text_of p d ds (map (cutv values cols) (zseq rows))). split; [apply write_ok; auto; lia|apply round_trip; auto; lia].
Qed.
Print Assumptions C50_csv_round_trip.
