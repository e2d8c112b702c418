(** * C68: streams that stall for so long that bufio.Reader gives up *)

From Coq Require Import ZArith List Bool String Lia.
From Verif Require Import Go GoFloat GoText Ensembles Leaves LgTextIO Mat MatIO Stream Spec_Stream Spec_Tired Pf_Stream Pf_Tired.
From Verif Require Import Transformation Spec_Dump Demo DemoText Ex_LgText.
Local Open Scope Z_scope.

(** every stream either lasts, which is the case of Prop_Stream.v, or gives up *)
Theorem C68_stream_cases :
  forall s, (lasting 100 s \/ exists before, gives_up s before) /\ ~ (lasting 100 s /\ exists before, gives_up s before).
Proof.
  intros s. split; [apply lasts_or_not|]. intros [L (before & G)]. exact (gives_up_not s before G L).
Qed.
Print Assumptions C68_stream_cases.

(** a stream that gives up is to the readers of LightGBM text files one that fails there *)
Theorem C68_text_gives_up :
  forall p s before load, gives_up s before ->
  buf_LGEnsembleFromReader p (NewReader s) load = LGEnsembleFromReader p (mkReader (List.concat before) false) load.
Proof.
  intros p s before load H. rewrite <- LGEnsemble_flat. apply lg_tired. split; [now apply tired_new | reflexivity].
Qed.
Print Assumptions C68_text_gives_up.

Lemma batches_tired {A} (f : bufr -> outcome (A * bufr)) (g : reader -> outcome (A * reader)) :
  (forall b rest, tired b rest -> alike_tired (f b) (g (mkReader rest false))) ->
  forall n b r, tired b (rd_bytes r) /\ rd_eof r = false -> alike_tired (batches f n b) (batches g n r).
Proof.
  intros H n. induction n as [|n IH]; intros b r K; [split; auto|]. cbn [batches].
  apply alike_bind; [destruct r as [rest eof]; cbn in K; destruct K as [K ->]; now apply H|]. intros m b' r' K'.
  apply alike_bind; [apply IH; exact K'|]. intros ms b'' r'' K''. split; auto.
Qed.
Lemma tired_value {A} (x : outcome (A * bufr)) y : alike_tired x y -> same_value x y.
Proof.
  intros H. unfold same_value. destruct x as [[a b]| | |], y as [[a' r]| | |]; cbn in *; try contradiction; try congruence.
  destruct H as [-> _]. reflexivity.
Qed.
(** and to the matrix readers, also when they read in batches *)
Theorem C68_matrices_give_up :
  forall p s before limit skip delimiter def n, gives_up s before ->
  let b := NewReader s in let r := mkReader (List.concat before) false in
  same_value (batches (fun b => buf_DenseMatFromLibsvm p b limit skip) n b) (batches (fun r => DenseMatFromLibsvm p r limit skip) n r) /\
  same_value (batches (fun b => buf_CSRMatFromLibsvm p b limit skip) n b) (batches (fun r => CSRMatFromLibsvm p r limit skip) n r) /\
  same_value (batches (fun b => buf_DenseMatFromCsv p b limit skip delimiter def) n b)
             (batches (fun r => DenseMatFromCsv p r limit skip delimiter def) n r).
Proof.
  intros p s before limit skip delim def n H. cbv zeta.
  assert (K : tired (NewReader s) (rd_bytes (mkReader (List.concat before) false)) /\ rd_eof (mkReader (List.concat before) false) = false)
    by (split; [now apply tired_new | reflexivity]).
  split; [|split]; apply tired_value; refine (batches_tired _ _ _ n _ _ K); intros b rest T; pose proof (tired_left b rest T) as L.
  - rewrite <- DenseMatFromLibsvm_flat. apply rows_tired; [exact T|lia|unfold flat_size; cbn; lia].
  - rewrite <- CSRMatFromLibsvm_flat. apply rows_tired; [exact T|lia|unfold flat_size; cbn; lia].
  - rewrite <- DenseMatFromCsv_flat. apply rows_tired; [exact T|lia|unfold flat_size; cbn; lia].
Qed.
Print Assumptions C68_matrices_give_up.

(** ** Examples *)

(** the stream stalls after the first 40 bytes, or after the last byte, of a model file that ends
    in a blank line *)
Definition ex_cut (n : nat) : source := mkSource ([firstn n ex_file; []] ++ [skipn n ex_file] ++ repeat [] 100 ++ [bs "x"]) false true.
Definition ex_early : source := mkSource ([firstn 40 ex_file] ++ repeat [] 100 ++ [skipn 40 ex_file]) false true.
Lemma one_run n (c : bytes) (pre : list bytes) w e : c <> [] -> (List.length pre + 1 < 100)%nat -> (n < 100)%nat ->
  patient 100 (mkSource ((pre ++ [c]) ++ repeat [] n) w e).
Proof.
  intros Hc Hl Hn before after E. cbn [src_pieces] in E.
  assert (Q : nth_error (before ++ repeat [] 100 ++ after) (List.length pre) = Some c).
  { rewrite <- E, <- app_assoc, nth_error_app2, Nat.sub_diag by lia. reflexivity. }
  assert (L : (List.length before <= n)%nat).
  { apply (f_equal (@List.length bytes)) in E. rewrite !app_length, !repeat_length in E. cbn [List.length] in E. lia. }
  apply (f_equal (@List.length bytes)) in E. rewrite !app_length, !repeat_length in E. cbn [List.length] in E.
  destruct (Nat.lt_ge_cases (List.length pre) (List.length before)) as [A|A]; [lia|].
  rewrite nth_error_app2 in Q by lia. rewrite nth_error_app1 in Q by (rewrite repeat_length; lia).
  apply nth_error_In in Q. apply repeat_spec in Q. congruence.
Qed.
Example C68_demo_gives_up :
  gives_up ex_early [firstn 40 ex_file] /\ gives_up (ex_cut 40) [firstn 40 ex_file; []; skipn 40 ex_file] /\
  (exists m, buf_LGEnsembleFromReader amd64_text (NewReader ex_early) true = Err m) /\
  exists e, buf_LGEnsembleFromReader amd64_text (NewReader (ex_cut 40)) true = Ok e.
Proof.
  split; [|split; [|split]].
  - exists [skipn 40 ex_file]. split; [reflexivity|]. split; [|discriminate].
    apply (one_run 99 (firstn 40 ex_file) []); [vm_compute; discriminate | cbn; lia | lia].
  - exists [bs "x"]. split; [reflexivity|]. split; [|discriminate].
    apply (one_run 99 (skipn 40 ex_file) [firstn 40 ex_file; []]); [vm_compute; discriminate | cbn; lia | lia].
  - eexists. vm_compute. reflexivity.
  - eexists. vm_compute. reflexivity.
Qed.
(** the last of 100 empty reads brings the end of the file: the stream lasts *)
Example C68_demo_lasts : lasting 100 (mkSource (repeat [] 100) true true) /\ ~ patient 100 (mkSource (repeat [] 100) true true).
Proof.
  split.
  - intros before after E. cbn [src_pieces src_with_data] in *. split; [reflexivity|].
    apply (f_equal (@List.length bytes)) in E. rewrite !app_length, !repeat_length in E. destruct after; [reflexivity|]. cbn [List.length] in E. lia.
  - intros H. apply (H [] []). rewrite app_nil_r. reflexivity.
Qed.
