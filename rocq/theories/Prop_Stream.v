(** * C68: how a stream arrives does not matter *)

From Coq Require Import ZArith List Bool String Lia.
From Verif Require Import Go GoFloat GoText Ensembles Leaves LgTextIO XgBin XgIO SkIO Mat MatIO Stream Spec_Stream Pf_Stream Pf_Stall.
From Verif Require Import Transformation Spec_Dump Demo DemoText Ex_LgText Ex_Sk.
Local Open Scope Z_scope.

(** the readers of LightGBM text files, unless the stream stalls 100 times in a row; for those
    streams see Prop_Tired.v *)
Theorem C68_text_model :
  forall p s load, lasting 100 s ->
  buf_LGEnsembleFromReader p (NewReader s) load = LGEnsembleFromReader p (mkReader (delivers s) (src_eof s)) load.
Proof.
  intros p s load H. rewrite <- LGEnsemble_flat.
  apply (lg_alike (shows (lasting 100)) _ _ _ _ ReadString_shows (shows_left (lasting 100))). now apply shows_new.
Qed.
Print Assumptions C68_text_model.

(** the readers of XGBoost files, for every stream *)
Theorem C68_xgboost :
  forall p s load,
  buf_XGEnsembleFromReader p (NewReader s) load = XGEnsembleFromReader p (mkReader (delivers s) (src_eof s)) load /\
  buf_XGBLinearFromReader p (NewReader s) load = XGBLinearFromReader p (mkReader (delivers s) (src_eof s)) load.
Proof.
  intros p s load. rewrite <- XGEnsemble_flat, <- XGBLinear_flat.
  assert (K : forall n b r, shows (fun _ => True) b r -> alike (shows (fun _ => True)) (buf_ReadFull n b) (read_full n r))
    by (intros n b r; apply ReadFull_shows; apply stays_any).
  split.
  - apply (xg_alike (shows (fun _ => True)) _ _ K). now apply shows_new.
  - apply (xgblinear_alike (shows (fun _ => True)) _ _ K). now apply shows_new.
Qed.
Print Assumptions C68_xgboost.

(** the reader of scikit-learn files, if the stream never stalls *)
Theorem C68_sklearn :
  forall p s load, patient 1 s ->
  buf_SKEnsembleFromReader p (NewReader s) load = SKEnsembleFromReader p (mkReader (delivers s) (src_eof s)) load.
Proof.
  intros p s load H. rewrite <- SKEnsemble_flat.
  apply (sk_alike (shows (patient 1)) _ _ _ _ ReadOne_shows (shows_left (patient 1))). now apply shows_new.
Qed.
Print Assumptions C68_sklearn.

(** and for every stream: a read that returns nothing is to the pickle reader the end of the file *)
Theorem C68_sklearn_any_stream :
  forall p s load,
  same_verdict (buf_SKEnsembleFromReader p (NewReader s) load)
               (SKEnsembleFromReader p (mkReader (List.concat (until_stall (src_pieces s))) (src_eof s)) load).
Proof.
  intros p s load. rewrite <- SKEnsemble_flat. apply (sk_mim stalled _ _ ReadOne_stalled stalled_left).
  split; [|reflexivity]. split; [exact I|]. split; [cbn; lia|]. intros e E. discriminate E.
Qed.
Print Assumptions C68_sklearn_any_stream.

Lemma shows_same {A} (x : outcome (A * bufr)) y : alike (shows (lasting 100)) x y -> same_result x y.
Proof.
  intros H. destruct x as [[a b]| | |], y as [[a' r]| | |]; cbn in *; try contradiction; auto.
  destruct H as [-> (_ & H & _)]. auto.
Qed.
(** the matrix readers; they also leave the same text unread, which a caller that reads the
    matrix in batches reads next *)
Theorem C68_matrices :
  forall p s limit skip delimiter def, lasting 100 s ->
  let b := NewReader s in let r := mkReader (delivers s) (src_eof s) in
  same_result (buf_DenseMatFromLibsvm p b limit skip) (DenseMatFromLibsvm p r limit skip) /\
  same_result (buf_CSRMatFromLibsvm p b limit skip) (CSRMatFromLibsvm p r limit skip) /\
  same_result (buf_DenseMatFromCsv p b limit skip delimiter def) (DenseMatFromCsv p r limit skip delimiter def).
Proof.
  intros p s limit skip delim def H. cbv zeta.
  pose proof (shows_new (lasting 100) s H) as K. pose proof ReadString_shows as R. pose proof (shows_left (lasting 100)) as L.
  rewrite <- DenseMatFromLibsvm_flat, <- CSRMatFromLibsvm_flat, <- DenseMatFromCsv_flat.
  split; [|split]; apply shows_same.
  - exact (libsvm_alike (shows (lasting 100)) _ _ _ _ R L p _ _ limit skip K).
  - exact (csr_alike (shows (lasting 100)) _ _ _ _ R L p _ _ limit skip K).
  - exact (csv_alike (shows (lasting 100)) _ _ _ _ R L p _ _ limit skip delim def K).
Qed.
Print Assumptions C68_matrices.

Lemma batches_alike {A} (f : bufr -> outcome (A * bufr)) (g : reader -> outcome (A * reader)) :
  (forall b r, shows (lasting 100) b r -> alike (shows (lasting 100)) (f b) (g r)) ->
  forall n b r, shows (lasting 100) b r -> alike (shows (lasting 100)) (batches f n b) (batches g n r).
Proof.
  intros H n. induction n as [|n IH]; intros b r K; [split; auto|]. cbn [batches].
  apply alike_bind; [apply H; exact K|]. intros m b' r' K'. apply alike_bind; [apply IH; exact K'|]. intros ms b'' r'' K''. split; auto.
Qed.
(** reading goes on where it stopped, whatever state the bufio.Reader was left in *)
Theorem C68_batches :
  forall p s limit skip delimiter def n, lasting 100 s ->
  let b := NewReader s in let r := mkReader (delivers s) (src_eof s) in
  same_result (batches (fun b => buf_DenseMatFromLibsvm p b limit skip) n b) (batches (fun r => DenseMatFromLibsvm p r limit skip) n r) /\
  same_result (batches (fun b => buf_CSRMatFromLibsvm p b limit skip) n b) (batches (fun r => CSRMatFromLibsvm p r limit skip) n r) /\
  same_result (batches (fun b => buf_DenseMatFromCsv p b limit skip delimiter def) n b)
              (batches (fun r => DenseMatFromCsv p r limit skip delimiter def) n r).
Proof.
  intros p s limit skip delim def n H. cbv zeta.
  pose proof (shows_new (lasting 100) s H) as K. pose proof ReadString_shows as R. pose proof (shows_left (lasting 100)) as L.
  split; [|split]; apply shows_same; refine (batches_alike _ _ _ n _ _ K); intros b r Hb.
  - exact (libsvm_alike (shows (lasting 100)) _ _ _ _ R L p _ _ limit skip Hb).
  - exact (csr_alike (shows (lasting 100)) _ _ _ _ R L p _ _ limit skip Hb).
  - exact (csv_alike (shows (lasting 100)) _ _ _ _ R L p _ _ limit skip delim def Hb).
Qed.
Print Assumptions C68_batches.

(** so two streams that deliver the same bytes and end alike load the same model *)
Theorem C68_same_stream :
  forall p s1 s2 load, delivers s1 = delivers s2 -> src_eof s1 = src_eof s2 ->
  (lasting 100 s1 -> lasting 100 s2 -> buf_LGEnsembleFromReader p (NewReader s1) load = buf_LGEnsembleFromReader p (NewReader s2) load) /\
  buf_XGEnsembleFromReader p (NewReader s1) load = buf_XGEnsembleFromReader p (NewReader s2) load /\
  buf_XGBLinearFromReader p (NewReader s1) load = buf_XGBLinearFromReader p (NewReader s2) load /\
  (patient 1 s1 -> patient 1 s2 -> buf_SKEnsembleFromReader p (NewReader s1) load = buf_SKEnsembleFromReader p (NewReader s2) load).
Proof.
  intros p s1 s2 load D E. split; [|split; [|split]].
  - intros H1 H2. rewrite !C68_text_model by assumption. now rewrite D, E.
  - rewrite !(proj1 (C68_xgboost _ _ _)). now rewrite D, E.
  - rewrite !(proj2 (C68_xgboost _ _ _)). now rewrite D, E.
  - intros H1 H2. rewrite !C68_sklearn by assumption. now rewrite D, E.
Qed.
Print Assumptions C68_same_stream.

(** ** The conditions are needed *)

(** a stream that stalls 100 times is refused, although its bytes are a model *)
Theorem C68_text_stalls_refuted :
  exists p s load e, LGEnsembleFromReader p (mkReader (delivers s) (src_eof s)) load = Ok e /\
  exists m, buf_LGEnsembleFromReader p (NewReader s) load = Err m.
Proof.
  exists amd64_text, (mkSource (repeat [] 100 ++ [ex_file]) false true), true.
  eexists. split; [vm_compute; reflexivity|]. eexists. vm_compute. reflexivity.
Qed.
(** the pickle reader gives up at the first empty read *)
Theorem C68_sklearn_stalls_refuted :
  exists p s load e, SKEnsembleFromReader p (mkReader (delivers s) (src_eof s)) load = Ok e /\
  exists m, buf_SKEnsembleFromReader p (NewReader s) load = Err m.
Proof.
  exists amd64_text, (mkSource [[]; rd_bytes (k_file k_model)] false true), true.
  eexists. split; [vm_compute; reflexivity|]. eexists. vm_compute. reflexivity.
Qed.

(** ** Examples *)

(** a file that loads although the stream stalls after its last byte, and one that does not *)
Example C68_demo_stall :
  (exists e, buf_SKEnsembleFromReader amd64_text (NewReader (mkSource [rd_bytes (k_file k_model); []; bs "x"] false true)) true = Ok e) /\
  exists m, buf_SKEnsembleFromReader amd64_text (NewReader (mkSource [firstn 40 (rd_bytes (k_file k_model)); []; skipn 40 (rd_bytes (k_file k_model))] false true)) true = Err m.
Proof. split; eexists; vm_compute; reflexivity. Qed.

Definition stalls (c : bytes) : bool := match c with [] => true | _ => false end.
Lemma few_stalls n s : (List.length (filter stalls (src_pieces s)) < n)%nat -> patient n s.
Proof.
  intros H before after E. rewrite E, !filter_app, !app_length in H.
  assert (K : List.length (filter stalls (repeat [] n)) = n) by (clear; induction n; cbn; auto).
  unfold bytes in *. lia.
Qed.
Definition bytewise (b : bytes) : list bytes := map (fun c => [c]) b.
(** a text model that arrives byte by byte, with stalls, and the end together with the last byte *)
Definition ex_slow : source := mkSource (repeat [] 99 ++ bytewise ex_file) true true.
Example C68_demo_text : lasting 100 ex_slow /\ delivers ex_slow = ex_file /\
  match buf_LGEnsembleFromReader amd64_text (NewReader ex_slow) true with
  | Ok e => NEstimators e = Ok 2 /\ Transformation_ e = TransformLogistic
  | _ => False
  end.
Proof. split; [apply patient_lasting, few_stalls; vm_compute; repeat constructor|]. vm_compute. repeat split; reflexivity. Qed.
Definition ex_sk_slow : source := mkSource (bytewise (rd_bytes (k_file k_model))) true true.
Example C68_demo_sklearn : patient 1 ex_sk_slow /\
  exists e, buf_SKEnsembleFromReader amd64_text (NewReader ex_sk_slow) true = Ok e /\ NEstimators e = Ok 2.
Proof. split; [apply few_stalls; vm_compute; repeat constructor|]. eexists. split; vm_compute; reflexivity. Qed.
(** two batches of one row each, and a line longer than the buffer *)
Definition ex_long : source := mkSource [bs "1,2" ++ [nl] ++ bs "3,"; bs "4" ++ repeat x20 5000 ++ [nl] ++ bs "5,6"] false true.
Example C68_demo_batches : lasting 100 ex_long /\
  match batches (fun b => buf_DenseMatFromCsv amd64_text b 1 false (bs ",") fzero) 2 (NewReader ex_long) with
  | Ok (ms, b) => map dmValues ms = [[fint 1; fint 2]; [fint 3; fint 4]] /\ contents b = bs "5,6"
  | _ => False
  end.
Proof. split; [apply patient_lasting, few_stalls; vm_compute; repeat constructor|]. vm_compute. repeat split; reflexivity. Qed.
