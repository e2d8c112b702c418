(** * C81: models one after another in one stream *)

From Coq Require Import ZArith List Bool String Lia ZifyBool.
From Verif Require Import Go GoFloat GoText UtilText LgTree Transformation Ensembles Leaves XgBin XgIO LgTextIO Pickle SkClasses SkIO Sequence.
From Verif Require Import Spec_Params Spec_XgFile Spec_Sequence Demo DemoText.
From Verif Require Import Pf_Go Pf_XgBin Pf_Sequence Prop_Xg Ex_LgText Ex_Xg Ex_Sk.
Local Open Scope Z_scope.

(** [load_next] is the loader of the API, with the reader as it is left *)
Theorem C81_same_models : forall p f load r, load_one p f load r = (let* (e, _) := load_next p f load r in Ok e).
Proof.
  intros p [] load r; try reflexivity; cbn [load_one load_next].
  - unfold LGEnsembleFromReader, lg_ensemble_and_rest. destruct (ReadParamsUntilBlank r) as [[ps r1]| | |]; cbn [bind]; try reflexivity.
    destruct (lg_header ps) as [[e n]| | |]; cbn [bind]; try reflexivity. destruct (lg_transform _ _ _ _); cbn [bind]; try reflexivity.
    destruct (lg_read_trees _ _ _) as [[ts r2]| | |]; reflexivity.
  - unfold SKEnsembleFromReader, sk_ensemble_and_rest. destruct (Decode p r) as [[[v h] r1]| | |]; cbn [bind]; try reflexivity.
    destruct (ParseGradientBoosting p h v); cbn [bind]; try reflexivity. destruct (SKEnsembleFromClass p _); reflexivity.
Qed.
Print Assumptions C81_same_models.

(** The model that was read is a text at the front of the stream that ends itself; the stream is
    left right behind it.  A LightGBM text is ended by a blank line or by the end of the stream;
    only the former can be told from a text that goes on. *)
Theorem C81_stops_behind : forall p f load s eof e r,
  load_next p f load (mkReader s eof) = Ok (e, r) ->
  rd_eof r = eof /\ exists text, s = text ++ rd_bytes r /\ (f = LightGBM /\ rd_bytes r = [] \/ self_ended (load_next p f load) text e).
Proof.
  intros p f load s eof e r H.
  assert (L : local (match f with LightGBM => true | _ => false end) (load_next p f load)) by (destruct f; [apply local_lg|apply local_xg|apply local_linear|apply local_sk]).
  destruct (L _ _ _ _ H) as (t & E & Eo & D). split; [exact Eo|]. exists t. split; [exact E|]. destruct D as [[D1 D2]|D]; [left|right; exact D]. destruct f; try discriminate. auto.
Qed.
Print Assumptions C81_stops_behind.

(** Models in any formats written one after another are read one after another, each as if it was
    alone. *)
Theorem C81_one_after_another : forall p fs loads texts es rest eof,
  List.length loads = List.length fs -> List.length texts = List.length fs -> List.length es = List.length fs ->
  (forall i f l t e, nth_error fs i = Some f -> nth_error loads i = Some l -> nth_error texts i = Some t -> nth_error es i = Some e -> self_ended (load_next p f l) t e) ->
  in_turn (map (fun fl => load_next p (fst fl) (snd fl)) (combine fs loads)) (mkReader (List.concat texts ++ rest) eof) es (mkReader rest eof) /\
  forall i f l t e eof', nth_error fs i = Some f -> nth_error loads i = Some l -> nth_error texts i = Some t -> nth_error es i = Some e -> load_one p f l (mkReader t eof') = Ok e.
Proof.
  intros p fs loads texts es rest eof L1 L2 L3 H. split.
  - revert loads texts es L1 L2 L3 H. induction fs as [|f fs IH]; intros [|l loads] [|t texts] [|e es] L1 L2 L3 H; try discriminate; cbn [combine map List.concat app]; [constructor|].
    cbn [fst snd]. econstructor.
    + rewrite <- app_assoc. apply (H O f l t e); reflexivity.
    + apply IH; try (cbn [List.length] in *; lia). intros i f' l' t' e' H1 H2 H3 H4. apply (H (S i) f' l' t' e'); assumption.
  - intros i f l t e eof' H1 H2 H3 H4. rewrite C81_same_models. pose proof (H i f l t e H1 H2 H3 H4 [] eof') as E. rewrite app_nil_r in E. rewrite E. reflexivity.
Qed.
Print Assumptions C81_one_after_another.

(** And the other way round: models read in turn, with something left in the stream (or none of
    them a LightGBM text), come from texts one behind the other, each of which loads alone. *)
Theorem C81_came_from : forall p fls s eof es r,
  in_turn (map (fun fl => load_next p (fst fl) (snd fl)) fls) (mkReader s eof) es r ->
  rd_bytes r <> [] \/ (forall load, ~ In (LightGBM, load) fls) ->
  exists texts, s = List.concat texts ++ rd_bytes r /\ rd_eof r = eof /\
    Forall2 (fun fl te => self_ended (load_next p (fst fl) (snd fl)) (fst te) (snd te) /\ forall eof', load_one p (fst fl) (snd fl) (mkReader (fst te) eof') = Ok (snd te)) fls (combine texts es) /\
    List.length texts = List.length es.
Proof.
  intros p. induction fls as [|[f l] fls IH]; intros s eof es r H C; cbn [map fst snd] in H; inversion H as [r0 E1 E2 E3|ld lds r0 e r1 es' r2 Hl Ht E1 E2 E3]; subst; clear H.
  - exists []. cbn. repeat split; auto.
  - destruct (C81_stops_behind _ _ _ _ _ _ _ Hl) as (Eo & t & Es & D). destruct r1 as [s1 e1]. cbn [rd_bytes rd_eof] in *. subst e1.
    assert (C' : rd_bytes r <> [] \/ (forall load, ~ In (LightGBM, load) fls)) by (destruct C as [C|C]; [left; exact C|right; intros load I; apply (C load); right; exact I]).
    destruct (IH _ _ _ _ Ht C') as (texts & Es' & Eo & F & L).
    assert (Se : self_ended (load_next p f l) t e).
    { destruct D as [[-> D]|D]; [|exact D]. exfalso. destruct C as [C|C]; [|apply (C l); left; reflexivity]. subst s1. symmetry in Es'. apply app_eq_nil in Es'. tauto. }
    exists (t :: texts). cbn [List.concat combine]. split; [rewrite <- app_assoc, <- Es'; exact Es|]. split; [exact Eo|]. split; [|cbn; lia].
    constructor; [|exact F]. cbn [fst snd]. split; [exact Se|]. intros eof'. rewrite C81_same_models. pose proof (Se [] eof') as E. rewrite app_nil_r in E. rewrite E. reflexivity.
Qed.
Print Assumptions C81_came_from.

(** no such text continues another *)
Theorem C81_prefix_free : forall p f load text more e e',
  self_ended (load_next p f load) text e -> self_ended (load_next p f load) (text ++ more) e' -> more = [] /\ e = e'.
Proof.
  intros p f load text more e e' H1 H2. specialize (H2 [] true). rewrite <- app_assoc, app_nil_r in H2. rewrite H1 in H2. injection H2 as -> ->. auto.
Qed.
Print Assumptions C81_prefix_free.

(** ** A stream with models of all four formats *)
Definition q_lg : bytes := file ["tree"; "version=v3"; "num_class=1"; "num_tree_per_iteration=1"; "max_feature_idx=1"; "objective=regression"; "tree_sizes=100"; "";
  "Tree=0"; "num_leaves=1"; "num_cat=0"; "leaf_value=0.75"; ""]%string.
Definition q_stream : bytes :=
  q_lg ++ rd_bytes (k_file k_model) ++ e_xg_file ex_header ex_model [[]; []; []; []] ex_weights ++ e_xgl_file (x_header 2 [] (bs "gblinear")) ex_linear ++ q_lg ++ bs "rest".
Definition q_formats : list (format * bool) := [(LightGBM, true); (Sklearn, true); (XGBoost, false); (GBLinear, false); (LightGBM, false)].
Example C81_demo : exists es, in_turn (map (fun fl => load_next amd64_text (fst fl) (snd fl)) q_formats) (mkReader q_stream false) es (mkReader (bs "rest") false) /\ List.length es = 5%nat.
Proof.
  assert (G : exists es, in_turn (map (fun fl => load_next amd64_text (fst fl) (snd fl)) q_formats) (mkReader q_stream false) es (mkReader (bs "rest") false)).
  { unfold q_formats. cbn [map fst snd].
    eexists. repeat (eapply it_next; [vm_compute; reflexivity|]). constructor. }
  destruct G as [es H]. exists es. split; [exact H|]. clear - H. unfold q_formats in H. cbn [map] in H.
  repeat match goal with X : in_turn _ _ _ _ |- _ => inversion X; clear X; subst end. reflexivity.
Qed.

(** A LightGBM text that ends with the stream loads, but does not end itself: with another model
    behind it, the second cannot be loaded. *)
Definition q_open : bytes := file ["tree"; "version=v3"; "num_class=1"; "num_tree_per_iteration=1"; "max_feature_idx=1"; "objective=regression"; "tree_sizes=100"; "";
  "Tree=0"; "num_leaves=1"; "num_cat=0"; "leaf_value=0.75"]%string.
Theorem C81_end_of_stream_refuted :
  (exists e, load_one amd64_text LightGBM true (mkReader q_open true) = Ok e) /\
  exists e r, load_next amd64_text LightGBM true (mkReader (q_open ++ q_open) true) = Ok (e, r) /\
  exists m, load_next amd64_text LightGBM true r = Err m.
Proof. split; [eexists; vm_compute; reflexivity|]. eexists _, _. split; [vm_compute; reflexivity|]. eexists. vm_compute. reflexivity. Qed.
Print Assumptions C81_end_of_stream_refuted.
