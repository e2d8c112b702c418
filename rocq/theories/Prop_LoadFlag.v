(** * C83: asking for the transformation changes nothing but the transformation *)

From Coq Require Import ZArith List Bool String Lia ZifyBool.
From Verif Require Import Go GoFloat GoText UtilText LgTree Transformation Ensembles Leaves XgBin XgIO LgTextIO LgJsonIO JsonText Pickle SkClasses SkIO Sequence.
From Verif Require Import Spec_XgFile Demo DemoText.
From Verif Require Import Pf_Go Prop_Values Prop_EndToEnd Prop_Xg Ex_LgText Ex_Xg.
Local Open Scope Z_scope.

Definition ok_or_err {A : Type} (o : outcome A) : Prop := match o with Ok _ | Err _ => True | _ => False end.
Lemma oe_bind : forall A B (x : outcome A) (f : A -> outcome B), ok_or_err x -> (forall a, ok_or_err (f a)) -> ok_or_err (let* a := x in f a).
Proof. intros A B [a|m|m|] f H1 H2; cbn in *; auto. Qed.
Lemma lg_transform_tame : forall ps load avg groups, ok_or_err (lg_transform ps load avg groups).
Proof.
  intros ps load avg groups. unfold lg_transform. destruct (_ && _); [|exact I]. apply oe_bind.
  { unfold ToString. destruct (UtilText.lookup ps (bs "objective")); exact I. }
  intros ob. destruct (_ || _); [exact I|]. destruct (negb _); [|exact I]. apply oe_bind.
  { unfold lgObjectiveParse. repeat (match goal with |- ok_or_err (match ?x with _ => _ end) => destruct x end; try exact I). }
  intros o. destruct (_ && _); [destruct (negb _); exact I|]. destruct (_ && _); [destruct (negb _); exact I|exact I].
Qed.
Lemma xg_transform_tame : forall n load g, ok_or_err (xg_transform n load g).
Proof. intros. unfold xg_transform. destruct load; [|exact I]. repeat (match goal with |- ok_or_err (if ?x then _ else _) => destruct x end; try exact I). Qed.

(** [e0] is [e] without its transformation: it behaves as the raw view of [e] *)
Definition raw_form (e0 e : Ensemble) : Prop := same_behaviour e0 (EnsembleWithRawPredictions e) /\ same_metadata e0 e.
Lemma raw_of_base : forall b t e, eBase e = b -> t = TransformRaw (NRawOutputGroups e) -> raw_form (mkEnsemble b t) e.
Proof. intros b t e <- ->. split; [apply core_behaviour; reflexivity|apply core_metadata; reflexivity]. Qed.

(** what the statement says of a loader *)
Definition flag_adds_transformation (load : bool -> outcome Ensemble) : Prop :=
  (forall e, load true = Ok e -> exists e0, load false = Ok e0 /\ raw_form e0 e) /\
  (forall e0, load false = Ok e0 -> raw_form e0 e0 /\ ((exists e, load true = Ok e /\ raw_form e0 e) \/ exists msg, load true = Err msg)).

Theorem C83_load_flag : forall p f r, flag_adds_transformation (fun load => load_one p f load r).
Proof.
  intros p f r. split.
  - intros e H. destruct f; cbn [load_one] in *.
    + unfold LGEnsembleFromReader in *. destruct (ReadParamsUntilBlank r) as [[ps r1]| | |]; cbn [bind] in *; try discriminate.
      destruct (lg_header ps) as [[h n]| | |]; cbn [bind] in *; try discriminate. apply bind_ok in H. destruct H as (tr & _ & H).
      unfold lg_transform at 1. cbn [andb bind]. destruct (lg_read_trees _ _ _) as [[ts r2]| | |]; cbn [bind] in *; try discriminate. injection H as <-. eexists. split; [reflexivity|]. apply raw_of_base; reflexivity.
    + destruct (xg_load_raw _ _ _ H) as (e0 & E & B & T). exists e0. split; [exact E|]. destruct e0 as [b t]. apply raw_of_base; [symmetry; exact B|exact T].
    + destruct (xgl_load_raw _ _ _ H) as (e0 & E & B & T). exists e0. split; [exact E|]. destruct e0 as [b t]. apply raw_of_base; [symmetry; exact B|exact T].
    + change (SKEnsembleFromReader p r false) with (SKEnsembleFromReader p r true). exists e. split; [exact H|]. unfold SKEnsembleFromReader in H.
      apply bind_ok in H. destruct H as ([[v h] r1] & _ & H). apply bind_ok in H. destruct H as (gb & _ & H). unfold SKEnsembleFromClass in H. cbv zeta in H.
      destruct (gbNEstimators gb =? 0); [discriminate|]. destruct (negb _); [discriminate|]. apply bind_ok in H. destruct H as (base & _ & H). apply bind_ok in H. destruct H as (u & _ & H).
      apply bind_ok in H. destruct H as (ts & _ & H). injection H as <-. apply raw_of_base; reflexivity.
  - intros e H. destruct f; cbn [load_one] in *.
    + unfold LGEnsembleFromReader in *. destruct (ReadParamsUntilBlank r) as [[ps r1]| | |]; cbn [bind] in *; try discriminate.
      destruct (lg_header ps) as [[h n]| | |]; cbn [bind] in *; try discriminate. unfold lg_transform at 1 in H. cbn [andb bind] in H.
      pose proof (lg_transform_tame ps true (lgAverageOutput h) (lgNRawOutputGroups h)) as T.
      destruct (lg_read_trees _ _ _) as [[ts r2]| | |]; cbn [bind] in *; try discriminate. injection H as <-. split; [apply raw_of_base; reflexivity|].
      destruct (lg_transform ps true (lgAverageOutput h) (lgNRawOutputGroups h)) as [tr|m|m|]; cbn [bind]; try contradiction; [left|right; eauto]. eexists. split; [reflexivity|apply raw_of_base; reflexivity].
    + unfold XGEnsembleFromReader in *. apply bind_ok in H. destruct H as ([e' r'] & H & K). injection K as ->.
      unfold xg_ensemble_and_rest in *. apply bind_ok in H. destruct H as ([hd r1] & E1 & H). rewrite E1. cbn [bind].
      apply bind_ok in H. destruct H as (name & E2 & H). rewrite E2. cbn [bind].
      cbv zeta in *. destruct (lmNumFeatures _ =? 0); [discriminate|]. apply bind_ok in H. destruct H as ([m r2] & Em & H). rewrite Em. cbn [bind].
      destruct (_ <? _); [discriminate|]. apply bind_ok in H. destruct H as ([w r3] & Ew & H). rewrite Ew. cbn [bind].
      destruct (negb _); [discriminate|]. destruct (negb _); [discriminate|]. destruct (negb _); [discriminate|]. cbn [xg_transform bind] in H.
      destruct (_ =? 0); [discriminate|]. apply bind_ok in H. destruct H as (ts & Ets & H). injection H as <- _. split; [apply raw_of_base; reflexivity|].
      match goal with |- context [xg_transform ?n true ?g] => pose proof (xg_transform_tame n true g) as T; destruct (xg_transform n true g) as [tr|x|x|] end; cbn [bind]; try contradiction; [|right; eauto].
      rewrite Ets. cbn [bind]. left. eexists. split; [reflexivity|apply raw_of_base; reflexivity].
    + unfold XGBLinearFromReader in *. apply bind_ok in H. destruct H as ([e' r'] & H & K). injection K as ->.
      unfold xgblinear_and_rest in *. apply bind_ok in H. destruct H as ([hd r1] & E1 & H). rewrite E1. cbn [bind].
      destruct (negb _); [discriminate|]. destruct (_ =? 0); [discriminate|]. apply bind_ok in H. destruct H as ([m r2] & Em & H). rewrite Em. cbn [bind]. cbv zeta in *.
      cbn [xg_transform bind] in H. injection H as <- _. split; [apply raw_of_base; reflexivity|].
      match goal with |- context [xg_transform ?n true ?g] => pose proof (xg_transform_tame n true g) as T; destruct (xg_transform n true g) as [tr|x|x|] end; cbn [bind]; try contradiction; [|right; eauto].
      left. eexists. split; [reflexivity|apply raw_of_base; reflexivity].
    + assert (E : raw_form e e).
      { unfold SKEnsembleFromReader in H. apply bind_ok in H. destruct H as ([[v h] r1] & _ & H). apply bind_ok in H. destruct H as (gb & _ & H). unfold SKEnsembleFromClass in H. cbv zeta in H.
        destruct (gbNEstimators gb =? 0); [discriminate|]. destruct (negb _); [discriminate|]. apply bind_ok in H. destruct H as (base & _ & H). apply bind_ok in H. destruct H as (u & _ & H).
        apply bind_ok in H. destruct H as (ts & _ & H). injection H as <-. apply raw_of_base; reflexivity. }
      split; [exact E|]. left. exists e. split; [exact H|exact E].
Qed.
Print Assumptions C83_load_flag.
(** JSON: the transformation is always refused, and without it the model is raw *)
Theorem C83_load_flag_json : forall p limit r, flag_adds_transformation (fun load => LGEnsembleFromJSONReader p limit r load) /\
  exists msg, LGEnsembleFromJSONReader p limit r true = Err msg.
Proof.
  intros p limit r. split; [split|].
  - intros e H. discriminate.
  - intros e H. split; [|right; eexists; reflexivity]. unfold LGEnsembleFromJSONReader, LGEnsembleFromJSON in H. destruct (first_value limit r) as [v|]; [|discriminate].
    apply bind_ok in H. destruct H as (data & _ & H). repeat (match type of H with (if ?c then _ else _) = _ => destruct c; [discriminate|] end). cbv zeta in H.
    repeat (match type of H with (if ?c then _ else _) = _ => destruct c; [discriminate|] end). apply bind_ok in H. destruct H as (ts & _ & H). injection H as <-. apply raw_of_base; reflexivity.
  - eexists. reflexivity.
Qed.
Print Assumptions C83_load_flag_json.
(** so that the raw scores do not depend on it *)
Theorem C83_same_raw_scores : forall p f r e e0 x nEstimators buf,
  load_one p f true r = Ok e -> load_one p f false r = Ok e0 ->
  Predict p e0 x nEstimators buf = Predict p (EnsembleWithRawPredictions e) x nEstimators buf.
Proof. intros p f r e e0 x n buf H H0. destruct (C83_load_flag p f r) as [C _]. destruct (C e H) as (e0' & E & B & _). rewrite H0 in E. injection E as <-. apply B. Qed.
Print Assumptions C83_same_raw_scores.

Example C83_demo : exists e e0, load_one amd64_text LightGBM true (mkReader ex_file true) = Ok e /\ load_one amd64_text LightGBM false (mkReader ex_file true) = Ok e0 /\
  Transformation_ e = TransformLogistic /\ Transformation_ e0 = TransformRaw 1.
Proof. eexists _, _. split; [vm_compute; reflexivity|]. split; [vm_compute; reflexivity|]. split; reflexivity. Qed.
(** an objective that the code does not know: with the transformation refused, without it loaded *)
Example C83_refused_demo :
  (exists msg, load_one amd64_text XGBoost true (mkReader (e_xg_file (x_header 2 (bs "rank:pairwise") (bs "dart")) ex_model [[]; []; []; []] ex_weights) true) = Err msg) /\
  exists e, load_one amd64_text XGBoost false (mkReader (e_xg_file (x_header 2 (bs "rank:pairwise") (bs "dart")) ex_model [[]; []; []; []] ex_weights) true) = Ok e.
Proof. split; eexists; vm_compute; reflexivity. Qed.
