(** * C82: a matrix read in pieces is the matrix read at once *)

From Coq Require Import ZArith List Bool String Lia ZifyBool.
From Verif Require Import Go GoFloat GoText XgBin Mat MatIO Spec_Params Spec_Mat Spec_Pieces.
From Verif Require Import Pf_Go Pf_Text Pf_XgBin Pf_Mat Pf_MatRows Pf_Pieces.
From Verif Require Import Demo DemoText Ex_Mat.
Local Open Scope Z_scope.

(** ** Sparse: reading at most [k] rows at a time, from the same stream, until fewer come *)
Theorem C82_csr_libsvm :
  forall p skip k text eof m r', 0 < k ->
  CSRMatFromLibsvm p (mkReader text eof) 0 skip = Ok (m, r') ->
  exists ms, in_pieces (fun r => CSRMatFromLibsvm p r k skip) CSRMat_Rows k (mkReader text eof) ms r' /\ csr_stacked ms m.
Proof.
  intros p skip k text eof m r' K H. apply read_rows_inv in H. destruct H as (rows & rest & Ro & Fo & ->).
  set (rd := fun r => CSRMatFromLibsvm p r k skip).
  assert (Hc : forall r c r'', in_pieces rd (fun m => zlen (cmRowHeaders m) - 1) k r c r'' -> in_pieces rd CSRMat_Rows k r c r'').
  { intros r c r'' X. induction X as [r m0 r1 E L|r m0 r1 ms r2 E L X IH].
    - apply ip_last; auto. unfold CSRMat_Rows. destruct (_ =? 0); lia.
    - eapply ip_more; eauto. unfold CSRMat_Rows. destruct (Z.eqb_spec (zlen (cmRowHeaders m0)) 0); lia. }
  destruct (rows_pieces (svm_line p skip) recordsToCSRMat eof csr_init (fun m => zlen (cmRowHeaders m) - 1) k K csr_count eq_refl
    (fun r1 r2 m _ => csr_fold_total r2 csr_init) text rows rest Ro m Fo) as (ms & Hms).
  exists ms. split; [apply Hc; exact Hms|].
  destruct (pieces_rows (svm_line p skip) recordsToCSRMat eof csr_init (fun m => zlen (cmRowHeaders m) - 1) k K csr_count eq_refl text ms _ Hms) as (parts & rest' & F2 & E & Ro').
  destruct (csr_stack _ _ F2) as (m' & E' & St).
  pose proof (read_rows_to (svm_line p skip) recordsToCSRMat eof 0 _ _ _ _ Ro (S (S (List.length text))) csr_init (le_n _)) as R1.
  pose proof (read_rows_to (svm_line p skip) recordsToCSRMat eof 0 _ _ _ _ Ro' (S (S (List.length text))) csr_init (le_n _)) as R2.
  rewrite R1, Fo, E' in R2. injection R2 as <- _. exact St.
Qed.
Print Assumptions C82_csr_libsvm.
(** and if the pieces can be read then so can the whole *)
Theorem C82_csr_libsvm_back :
  forall p skip k text eof ms r', 0 < k ->
  in_pieces (fun r => CSRMatFromLibsvm p r k skip) CSRMat_Rows k (mkReader text eof) ms r' ->
  exists m, CSRMatFromLibsvm p (mkReader text eof) 0 skip = Ok (m, r') /\ csr_stacked ms m.
Proof.
  intros p skip k text eof ms r' K H. set (rd := fun r => CSRMatFromLibsvm p r k skip) in *.
  assert (Hc : in_pieces rd (fun m => zlen (cmRowHeaders m) - 1) k (mkReader text eof) ms r').
  { revert H. generalize (mkReader text eof). intros r0 H. 
    assert (N : forall r m r1, rd r = Ok (m, r1) -> 0 < zlen (cmRowHeaders m)).
    { intros [s e] m r1 X. apply read_rows_inv in X. destruct X as (rows & rest & _ & Fo & _). apply csr_fold_init in Fo. destruct Fo as [_ Fo].
      destruct (cmRowHeaders m); [contradiction|]. rewrite zlen_cons. pose proof (zlen_nonneg _ l). lia. }
    induction H as [r m0 r1 E L|r m0 r1 ms r2 E L X IH]; pose proof (N _ _ _ E) as N0; unfold CSRMat_Rows in L; replace (zlen (cmRowHeaders m0) =? 0) with false in L by lia.
    - apply ip_last; auto.
    - eapply ip_more; eauto. }
  destruct (pieces_rows (svm_line p skip) recordsToCSRMat eof csr_init (fun m => zlen (cmRowHeaders m) - 1) k K csr_count eq_refl text ms _ Hc) as (parts & rest' & F2 & -> & Ro).
  destruct (csr_stack _ _ F2) as (m & E & St). exists m. split; [|exact St].
  unfold CSRMatFromLibsvm. rewrite (read_rows_to _ _ _ _ _ _ _ _ Ro) by (unfold read_fuel; cbn [rd_bytes]; lia). rewrite E. reflexivity.
Qed.
Print Assumptions C82_csr_libsvm_back.

(** ** Dense *)
Section Dense.
Variables (parse : bytes -> outcome (list libsvmRecord)).
Notation rd limit := (reading parse recordsToDenseMat noDense limit).
Lemma dense_pieces : forall k text eof m r', 0 < k -> rd 0 (mkReader text eof) = Ok (m, r') ->
  exists ms, in_pieces (rd k) dmRows k (mkReader text eof) ms r' /\ dense_stacked ms m.
Proof.
  intros k text eof m r' K H. apply read_rows_inv in H. destruct H as (rows & rest & Ro & Fo & ->).
  destruct (rows_pieces parse recordsToDenseMat eof noDense dmRows k K dense_count eq_refl dense_split text rows rest Ro m Fo) as (ms & Hms).
  exists ms. split; [exact Hms|].
  destruct (pieces_rows parse recordsToDenseMat eof noDense dmRows k K dense_count eq_refl text ms _ Hms) as (parts & rest' & F2 & E & Ro').
  apply (dense_stack _ _ F2).
  pose proof (read_rows_to parse recordsToDenseMat eof 0 _ _ _ _ Ro (S (S (List.length text))) noDense (le_n _)) as R1.
  pose proof (read_rows_to parse recordsToDenseMat eof 0 _ _ _ _ Ro' (S (S (List.length text))) noDense (le_n _)) as R2.
  rewrite R1, Fo in R2. cbn [bind] in R2. destruct (foldM recordsToDenseMat (List.concat parts) noDense) as [m'| | |]; cbn [bind] in R2; try discriminate. injection R2 as <- _. reflexivity.
Qed.
Lemma dense_pieces_back : forall k c text eof ms r', 0 < k -> 0 < c -> in_pieces (rd k) dmRows k (mkReader text eof) ms r' ->
  Forall (fun m => dmRows m = 0 \/ dmCols m = c /\ zlen (dmValues m) = dmRows m * c) ms ->
  exists m, rd 0 (mkReader text eof) = Ok (m, r') /\ dense_stacked ms m.
Proof.
  intros k c text eof ms r' K C H D.
  destruct (pieces_rows parse recordsToDenseMat eof noDense dmRows k K dense_count eq_refl text ms _ H) as (parts & rest' & F2 & -> & Ro).
  destruct (dense_whole c _ _ C F2 D) as (m & E). exists m. split; [|exact (dense_stack _ _ F2 m E)].
  unfold reading. rewrite (read_rows_to _ _ _ _ _ _ _ _ Ro) by (unfold read_fuel; cbn [rd_bytes]; lia). rewrite E. reflexivity.
Qed.
End Dense.

Theorem C82_dense_libsvm :
  forall p skip k text eof m r', 0 < k ->
  DenseMatFromLibsvm p (mkReader text eof) 0 skip = Ok (m, r') ->
  exists ms, in_pieces (fun r => DenseMatFromLibsvm p r k skip) dmRows k (mkReader text eof) ms r' /\ dense_stacked ms m.
Proof. intros p skip k text eof m r' K H. exact (dense_pieces (svm_line p skip) k text eof m r' K H). Qed.
Print Assumptions C82_dense_libsvm.
Theorem C82_csv :
  forall p skip delimiter def k text eof m r', 0 < k ->
  DenseMatFromCsv p (mkReader text eof) 0 skip delimiter def = Ok (m, r') ->
  exists ms, in_pieces (fun r => DenseMatFromCsv p r k skip delimiter def) dmRows k (mkReader text eof) ms r' /\ dense_stacked ms m.
Proof. intros p skip delimiter def k text eof m r' K H. exact (dense_pieces (csv_line p skip delimiter def) k text eof m r' K H). Qed.
Print Assumptions C82_csv.
(** back, when the pieces are consistent and have the same number of columns *)
Theorem C82_dense_libsvm_back :
  forall p skip k cols text eof ms r', 0 < k -> 0 < cols ->
  in_pieces (fun r => DenseMatFromLibsvm p r k skip) dmRows k (mkReader text eof) ms r' ->
  Forall (fun m => dmRows m = 0 \/ dmCols m = cols /\ zlen (dmValues m) = dmRows m * cols) ms ->
  exists m, DenseMatFromLibsvm p (mkReader text eof) 0 skip = Ok (m, r') /\ dense_stacked ms m.
Proof. intros p skip k c text eof ms r' K C H D. exact (dense_pieces_back (svm_line p skip) k c text eof ms r' K C H D). Qed.
Print Assumptions C82_dense_libsvm_back.
Theorem C82_csv_back :
  forall p skip delimiter def k cols text eof ms r', 0 < k -> 0 < cols ->
  in_pieces (fun r => DenseMatFromCsv p r k skip delimiter def) dmRows k (mkReader text eof) ms r' ->
  Forall (fun m => dmRows m = 0 \/ dmCols m = cols /\ zlen (dmValues m) = dmRows m * cols) ms ->
  exists m, DenseMatFromCsv p (mkReader text eof) 0 skip delimiter def = Ok (m, r') /\ dense_stacked ms m.
Proof. intros p skip delimiter def k c text eof ms r' K C H D. exact (dense_pieces_back (csv_line p skip delimiter def) k c text eof ms r' K C H D). Qed.
Print Assumptions C82_csv_back.

(** ** The hypotheses hold of files *)
Definition three_rows : bytes := file ["1,2"; "3,4"; "5,6"]%string.
Example C82_demo : exists m ms r',
  DenseMatFromCsv amd64_text (mkReader three_rows true) 0 false (bs ",") (fint 0) = Ok (m, r') /\ dmRows m = 3 /\
  in_pieces (fun r => DenseMatFromCsv amd64_text r 2 false (bs ",") (fint 0)) dmRows 2 (mkReader three_rows true) ms r' /\
  map dmRows ms = [2; 1] /\ Forall (fun m => dmRows m = 0 \/ dmCols m = 2 /\ zlen (dmValues m) = dmRows m * 2) ms.
Proof.
  eexists _, _, _. split; [vm_compute; reflexivity|]. split; [reflexivity|]. split.
  - eapply ip_more; [vm_compute; reflexivity|reflexivity|]. eapply ip_last; [vm_compute; reflexivity|reflexivity].
  - split; [reflexivity|]. constructor; [right; split; reflexivity|]. constructor; [right; split; reflexivity|constructor].
Qed.
Definition three_sparse : bytes := file ["1 0:5 2:7"; "0 1:3"; "0 2:4 3:1"]%string.
Example C82_csr_demo : exists m ms r',
  CSRMatFromLibsvm amd64_text (mkReader three_sparse true) 0 true = Ok (m, r') /\ cmRowHeaders m = [0; 2; 3; 5] /\
  in_pieces (fun r => CSRMatFromLibsvm amd64_text r 2 true) CSRMat_Rows 2 (mkReader three_sparse true) ms r' /\
  map cmRowHeaders ms = [[0; 2; 3]; [0; 2]].
Proof.
  eexists _, _, _. split; [vm_compute; reflexivity|]. split; [reflexivity|]. split.
  - eapply ip_more; [vm_compute; reflexivity|reflexivity|]. eapply ip_last; [vm_compute; reflexivity|reflexivity].
  - reflexivity.
Qed.

(** Without that condition it fails: rows of different lengths are noticed within a piece only,
    so that a file that cannot be read at once is read in pieces without an error. *)
Theorem C82_widths_refuted : exists text ms r',
  in_pieces (fun r => DenseMatFromCsv amd64_text r 1 false (bs ",") (fint 0)) dmRows 1 (mkReader text true) ms r' /\
  exists msg, DenseMatFromCsv amd64_text (mkReader text true) 0 false (bs ",") (fint 0) = Err msg.
Proof.
  exists (file ["1,2"; "3"]%string). eexists _, _. split; [|eexists; vm_compute; reflexivity].
  eapply ip_more; [vm_compute; reflexivity|reflexivity|]. eapply ip_more; [vm_compute; reflexivity|reflexivity|]. eapply ip_last; [vm_compute; reflexivity|reflexivity].
Qed.
Print Assumptions C82_widths_refuted.
