(** * C67: loading from a file is loading from what the file contains *)

From Coq Require Import ZArith List Bool String Lia.
From Verif Require Import Go GoFloat GoText Leaves LgTextIO LgJsonIO XgIO SkIO Mat MatIO Files.
From Verif Require Import LgTree Transformation Ensembles Spec_Predict Spec_Tree Spec_LgFile Pf_Go Prop_LgText Demo DemoText Ex_LgText.
Local Open Scope Z_scope.

(** [f] on a file is [g] on its contents; a file that cannot be opened is an error *)
Definition from_file {A : Type} (f : filesystem -> bytes -> outcome A) (g : reader -> outcome A) : Prop :=
  forall fs name,
    match fs name with
    | Some r => f fs name = g r
    | None => exists msg, f fs name = Err msg
    end.
(** the matrix readers also return what is left of the text *)
Definition only_value {A : Type} (x : outcome (A * reader)) : outcome A :=
  match x with Ok (a, _) => Ok a | Err m => Err m | Panic m => Panic m | Hang => Hang end.

Lemma with_file_spec : forall A (g : reader -> outcome A), from_file (fun fs name => with_file fs name g) g.
Proof. intros A g fs name. unfold with_file. destruct (fs name); [reflexivity|eauto]. Qed.

Theorem C67_models_from_files :
  forall p load,
  from_file (fun fs name => LGEnsembleFromFile p fs name load) (fun r => LGEnsembleFromReader p r load) /\
  from_file (fun fs name => XGEnsembleFromFile p fs name load) (fun r => XGEnsembleFromReader p r load) /\
  from_file (fun fs name => XGBLinearFromFile p fs name load) (fun r => XGBLinearFromReader p r load) /\
  from_file (fun fs name => SKEnsembleFromFile p fs name load) (fun r => SKEnsembleFromReader p r load).
Proof. intros p load. repeat split; apply with_file_spec. Qed.
Print Assumptions C67_models_from_files.

Theorem C67_matrices_from_files :
  forall p limit skip delimiter def,
  from_file (fun fs name => DenseMatFromLibsvmFile p fs name limit skip) (fun r => only_value (DenseMatFromLibsvm p r limit skip)) /\
  from_file (fun fs name => CSRMatFromLibsvmFile p fs name limit skip) (fun r => only_value (CSRMatFromLibsvm p r limit skip)) /\
  from_file (fun fs name => DenseMatFromCsvFile p fs name limit skip delimiter def) (fun r => only_value (DenseMatFromCsv p r limit skip delimiter def)).
Proof.
  intros p limit skip delimiter def.
  assert (W : forall A (h : reader -> outcome (A * reader)), from_file (fun fs name => with_file fs name (fun r => let* (m, _) := h r in Ok m)) (fun r => only_value (h r))).
  { intros A h fs name. unfold with_file. destruct (fs name) as [r|]; [|eauto]. destruct (h r) as [[m r']|m|m|]; reflexivity. }
  split; [apply W|]. split; apply W.
Qed.
Print Assumptions C67_matrices_from_files.

(** so everything proved about the readers holds for files, for instance the predictions of a
    LightGBM text model *)
Theorem C67_text_model_file :
  forall p fs name eof text rest header kvss groups max_feature_idx average load tr ds,
  fs name = Some (mkReader text eof) ->
  file_says p eof text rest header kvss groups max_feature_idx average load tr ds -> zlen text <= MaxInt ->
  exists e, LGEnsembleFromFile p fs name load = Ok e /\
  forall x nEstimators predictions,
    Forall (fun d => exists r, walk d x = Some r) ds -> NFeatures e <= zlen x -> groups <= zlen predictions -> groups <= pl_maxalloc p ->
    exists out n, Predict p (EnsembleWithRawPredictions e) x nEstimators predictions = Ok out /\ used_estimators e nEstimators n /\
    forall k, 0 <= k < groups -> exists vs, walk_outputs ds groups k n x vs /\
      zget out k = Some (sum_from fzero (map (fun v => fmul v (if average then fdiv fone (f64_of_Z n) else fone)) vs)).
Proof.
  intros p fs name eof text rest header kvss g mf avg load tr ds E F M.
  pose proof (proj1 (C67_models_from_files p load) fs name) as H. cbv beta in H. rewrite E in H. rewrite H.
  exact (C28_text_predictions p eof text rest header kvss g mf avg load tr ds F M).
Qed.
Print Assumptions C67_text_model_file.

(** a file system with one file *)
Definition one_file : filesystem := fun name => if beqb name (bs "model.txt") then Some (mkReader ex_file true) else None.
Example C67_demo_hypotheses : exists rest header kvss,
  one_file (bs "model.txt") = Some (mkReader ex_file true) /\
  file_says amd64_text true ex_file rest header kvss 1 1 false true TransformLogistic [ex_tree; ex_const] /\ zlen ex_file <= MaxInt.
Proof. destruct ex_file_says as (rest & header & kvss & H). exists rest, header, kvss. split; [reflexivity|]. split; [exact H|]. vm_compute. discriminate. Qed.
Example C67_demo_loads : match LGEnsembleFromFile amd64_text one_file (bs "model.txt") true, LGEnsembleFromFile amd64_text one_file (bs "model") true with
  | Ok e, Err _ => NEstimators e = Ok 2 /\ Transformation_ e = TransformLogistic
  | _, _ => False
  end.
Proof. vm_compute. split; reflexivity. Qed.
