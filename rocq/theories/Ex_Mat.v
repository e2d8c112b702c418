(** * Concrete cases and refutations for Prop_Mat.v *)

From Coq Require Import ZArith List Bool String Lia ZifyBool.
From Verif Require Import Go GoFloat GoText Cmd LgTree Transformation Ensembles Leaves Parallel XgBin Mat MatIO.
From Verif Require Import Spec_Predict Spec_Params Spec_Mat Spec_Decimal Demo DemoText.
From Verif Require Import Pf_Go Pf_Text Pf_Words Pf_Mat Prop_Batch Ex_Batch Prop_Mat.
Local Open Scope Z_scope.

(** ** C55 *)
Example C55_demo : exists out, Predict amd64 demo_raw [fint 5; fint 6] 0 (zeros 3) = Ok out /\
  Predict amd64 demo_raw [fint 5; fint 6; fnan; fint 8] 0 (zeros 3) = Ok out.
Proof. eexists. split; vm_compute; reflexivity. Qed.

(** ** C48 *)
(** three rows with four columns, of which the model uses two *)
Definition m_vals : list f64 := map fint [0; 1; 2; 3; 5; 6; 7; 8; 1; 9; 4; 4].
Example C48_demo : exists c m, CSRMatFromArray amd64 m_vals 3 4 = Ok c /\ CSRMat_Rows c = 3 /\
  PredictCSR amd64 demo_raw (cmRowHeaders c) (cmColIndexes c) (cmValues c) (zeros 7) 0 4 (Returns m) /\
  forall t, PredictDense amd64 demo_raw m_vals 3 4 (zeros 7) 0 t (Returns m).
Proof.
  assert (E : exists c, CSRMatFromArray amd64 m_vals 3 4 = Ok c) by (eexists; vm_compute; reflexivity). destruct E as [c E].
  assert (K : exists m, PredictCSR amd64 demo_raw (cmRowHeaders c) (cmColIndexes c) (cmValues c) (zeros 7) 0 4 (Returns m)).
  { vm_compute in E. injection E as <-. eexists. eapply PC_single with (n := 2); vm_compute; reflexivity. }
  destruct K as [m K]. exists c, m. split; [exact E|]. split; [vm_compute in E; injection E as <-; reflexivity|]. split; [exact K|]. intros t.
  refine (proj1 (C48_dense_follows_csr amd64 demo_raw m_vals 3 4 c (zeros 7) 0 4 m demo_raw_wf _ _ _ _ _ _ _ _ E K t)); try (vm_compute; congruence).
  - apply demo_arities.
  - split; [split|]; vm_compute; congruence.
  - split; vm_compute; congruence.
Qed.
(** a model on the single feature 0 has NFeatures() = 0: the dense call works, the sparse one panics *)
Definition one_feature : Ensemble := mkEnsemble (BLg (mkLgEnsemble [stump 0 (fint 1) (fint 10) (fint 20)] 0 1 (bs "m") false)) (TransformRaw 1).
Theorem C48_single_feature_refuted : exists c m msg, CSRMatFromArray amd64 [fint 5; fint 0] 2 1 = Ok c /\
  PredictDense amd64 one_feature [fint 5; fint 0] 2 1 (zeros 2) 0 1 (Returns m) /\
  PredictCSR amd64 one_feature (cmRowHeaders c) (cmColIndexes c) (cmValues c) (zeros 2) 0 1 (Panics msg).
Proof.
  do 3 eexists. split; [vm_compute; reflexivity|]. split; [eapply PD_single with (n := 1); vm_compute; reflexivity|]. eapply PC_single_panic with (n := 1); vm_compute; reflexivity.
Qed.
(** the product of two negative dimensions is accepted, and one that wraps around *)
Theorem C48_negative_dimensions_refuted : exists d, DenseMatFromArray (map fint [1; 2; 3]) (-1) (-3) = Ok d /\ dmRows d < 0.
Proof. eexists. split; vm_compute; reflexivity. Qed.
Theorem C48_overflow_refuted : exists d, DenseMatFromArray [] (2 ^ 32) (2 ^ 32) = Ok d /\ zlen (dmValues d) <> dmRows d * dmCols d.
Proof. eexists. split; [vm_compute; reflexivity|]. vm_compute. discriminate. Qed.

(** ** C49 *)
Definition svm_text : bytes := file ["1 0:5 2:7"; " 0 1:3"; ""; "rest"]%string.
Lemma one_line_b : forall t, existsb (Byte.eqb nl) t = false -> one_line t.
Proof. intros t H I. assert (X : existsb (Byte.eqb nl) t = true) by (apply existsb_exists; exists nl; split; [exact I|apply byte_eqb_refl]). congruence. Qed.
Lemma svm_here : forall p skip line es, svm_line p skip (trim_space line) = Ok es -> libsvm_says p skip line es.
Proof.
  intros p skip line es H. destruct (Pf_MatRows.svm_dec p skip line) as [[es' H']|N].
  - pose proof (svm_line_says _ _ _ _ H'). congruence.
  - destruct (svm_line_bad p skip line N) as [m E]. congruence.
Qed.
Example C49_demo_rows : rows_of (libsvm_says amd64_text true) 0 true 0 svm_text [[(0, fint 5); (2, fint 7)]; [(1, fint 3)]] (file ["rest"]%string).
Proof.
  apply ro_more with (l := bs "1 0:5 2:7") (rest := file [" 0 1:3"; ""; "rest"]%string); [split; [apply one_line_b; reflexivity|left; reflexivity]|intros B; apply trim_blank in B; discriminate|apply svm_here; vm_compute; reflexivity|lia|].
  apply ro_more with (l := bs " 0 1:3") (rest := file [""; "rest"]%string); [split; [apply one_line_b; reflexivity|left; reflexivity]|intros B; apply trim_blank in B; discriminate|apply svm_here; vm_compute; reflexivity|lia|].
  apply ro_blank with (l := []); [split; [intros []|left; reflexivity]|apply blank_nil].
Qed.
Example C49_demo : exists m, CSRMatFromLibsvm amd64_text (mkReader svm_text true) 0 true = Ok (m, mkReader (file ["rest"]%string) true) /\
  cmRowHeaders m = [0; 2; 3] /\ cmColIndexes m = [0; 2; 1] /\ cmValues m = map fint [5; 7; 3].
Proof. eexists. vm_compute. auto. Qed.
(** two rows of records 0 1, dense *)
Example C49_dense_demo : exists m rest, DenseMatFromLibsvm amd64_text (mkReader (file ["1 0:5 1:7"; "0 0:3 1:4"]%string) true) 0 true = Ok (m, rest) /\
  m = mkDense (map fint [5; 7; 3; 4]) 2 2.
Proof. do 2 eexists. vm_compute. auto. Qed.
(** a first row without records leaves the number of columns open: Rows*Cols is not the
    number of values *)
Theorem C49_inconsistent_refuted : exists m rest, DenseMatFromLibsvm amd64_text (mkReader (file ["1  0:5"; "1 0:7"]%string) true) 0 true = Ok (m, rest) /\
  dmRows m = 2 /\ dmCols m = 1 /\ zlen (dmValues m) = 1.
Proof. do 2 eexists. vm_compute. auto. Qed.
(** two spaces in a row silently end the line *)
Theorem C49_double_space_refuted : exists m rest, CSRMatFromLibsvm amd64_text (mkReader (file ["1 0:5  1:7"]%string) true) 0 true = Ok (m, rest) /\
  cmColIndexes m = [0].
Proof. do 2 eexists. vm_compute. auto. Qed.
(** a wrong column, a short row, a malformed token *)
Example C49_rejects_demo :
  is_ok (DenseMatFromLibsvm amd64_text (mkReader (file ["1 1:5 0:7"]%string) true) 0 true) = false /\
  is_ok (DenseMatFromLibsvm amd64_text (mkReader (file ["1 0:5 1:7"; "1 0:5"]%string) true) 0 true) = false /\
  is_ok (CSRMatFromLibsvm amd64_text (mkReader (file ["1 0:5:1"]%string) true) 0 true) = false /\
  is_ok (CSRMatFromLibsvm amd64_text (mkReader (file ["1"]%string) true) 0 true) = false.
Proof. vm_compute. auto. Qed.

(** ** C56 *)
Example C56_demo : exists m rest, DenseMatFromCsv amd64_text (mkReader (file ["1,,3"; "4,5,"]%string) true) 0 false (bs ",") (fint 9) = Ok (m, rest) /\
  m = mkDense (map fint [1; 9; 3; 4; 5; 9]) 3 2.
Proof. do 2 eexists. vm_compute. auto. Qed.
(** an absent first value is lost if the delimiter is white space *)
Theorem C56_whitespace_delimiter_refuted : exists m rest,
  DenseMatFromCsv amd64_text (mkReader ("009"%byte :: bs "2" ++ [nl]) true) 0 false ["009"%byte] (fint 9) = Ok (m, rest) /\ dmCols m = 1.
Proof. do 2 eexists. vm_compute. auto. Qed.

(** ** C50 *)
(** printing whole numbers *)
Definition whole (x : f64) : Z :=
  match x with
  | SpecFloat.S754_finite s m e => let a := if 0 <=? e then Z.pos m * 2 ^ e else Z.pos m / 2 ^ (- e) in if s then - a else a
  | _ => 0
  end.
Definition printing : platform :=
  mkPlatform amd64_f2i32 amd64_f2u32 toy_exp 4 (2 ^ 40) dec_parse (fun x => decimal (whole x)) (fun c _ => 2 * c + 1).
Definition m_dense : DenseMat := mkDense (map fint [1; -2; 33; 0; 5; 600]) 3 2.
Lemma prints_b : forall p delimiter v, pl_print_float p v <> [] -> forallb (fun c => (32 <? byteZ c) && (byteZ c <? 127)) (pl_print_float p v) = true ->
  match delimiter with [] => true | d :: _ => negb (existsb (Byte.eqb d) (pl_print_float p v)) end = true -> pl_parse_float p (pl_print_float p v) = Some v -> prints_well p delimiter v.
Proof.
  intros p delimiter v H1 H2 H3 H4. split; [exact H1|]. split; [apply Forall_forall; intros c Hc; rewrite forallb_forall in H2; specialize (H2 c Hc); cbn beta in H2; lia|]. split; [|exact H4].
  intros d ds -> I. apply negb_true_iff in H3. assert (X : existsb (Byte.eqb d) (pl_print_float p v) = true) by (apply existsb_exists; exists d; split; [exact I|apply byte_eqb_refl]). congruence.
Qed.
Example C50_demo : exists text, WriteStr printing m_dense (bs ", ") = Ok text /\ text = file ["1, -2, 33"; "0, 5, 600"]%string /\
  Forall (prints_well printing (bs ", ")) (dmValues m_dense).
Proof.
  eexists. split; [vm_compute; reflexivity|]. split; [vm_compute; reflexivity|]. unfold m_dense. cbn [dmValues map]. repeat (apply Forall_cons; [apply prints_b; vm_compute; (reflexivity || discriminate)|]). apply Forall_nil.
Qed.
Example C50_demo_back : exists text, WriteStr printing m_dense (bs ",") = Ok text /\
  DenseMatFromCsv printing (mkReader text true) 0 false (bs ",") (fint 9) = Ok (m_dense, mkReader [] true).
Proof. exists (file ["1,-2,33"; "0,5,600"]%string). split; vm_compute; reflexivity. Qed.
(** a matrix without rows loses its number of columns *)
Theorem C50_empty_refuted : exists text m rest, WriteStr printing (mkDense [] 3 0) (bs ",") = Ok text /\
  DenseMatFromCsv printing (mkReader text true) 0 false (bs ",") (fint 9) = Ok (m, rest) /\ dmCols m <> 3.
Proof. exists [nl], noDense, (mkReader [] true). split; [vm_compute; reflexivity|]. split; [vm_compute; reflexivity|]. vm_compute. discriminate. Qed.
(** a delimiter that occurs in numbers, and a newline *)
Theorem C50_delimiter_refuted :
  (exists text m rest, WriteStr printing (mkDense (map fint [1; -2]) 2 1) (bs "-") = Ok text /\
     DenseMatFromCsv printing (mkReader text true) 0 false (bs "-") (fint 9) = Ok (m, rest) /\ dmCols m <> 2) /\
  (exists text m rest, WriteStr printing (mkDense (map fint [1; 2]) 2 1) [nl] = Ok text /\
     DenseMatFromCsv printing (mkReader text true) 0 false [nl] (fint 9) = Ok (m, rest) /\ dmCols m <> 2).
Proof.
  split.
  - exists (file ["1--2"]%string), (mkDense (map fint [1; 9; 2]) 3 1), (mkReader [] true). split; [vm_compute; reflexivity|]. split; [vm_compute; reflexivity|]. vm_compute. discriminate.
  - exists (file ["1"; "2"]%string), (mkDense (map fint [1; 2]) 1 2), (mkReader [] true). split; [vm_compute; reflexivity|]. split; [vm_compute; reflexivity|]. vm_compute. discriminate.
Qed.
