(** * C64: the bytes of a LightGBM JSON model *)

From Coq Require Import ZArith List Bool String Lia ZifyBool.
From Verif Require Import Go GoFloat GoText UtilText UtilBits LgTree Transformation Ensembles Leaves LgJsonIO JsonText
  Spec_Predict Spec_Tree Spec_LgJson Spec_JsonText Spec_EndToEnd Pf_Go Pf_LgJson Pf_JsonText Prop_LgText Prop_LgJson Prop_EndToEnd.
Local Open Scope Z_scope.

Lemma not_num : forall v, structured v -> ~ is_num v.
Proof. intros v [(l & ->)|(l & ->)] (lit & E); discriminate. Qed.

Lemma first_value_complete : forall limit w t rest v eof, white w -> json_text true v t -> structured v -> nesting_within limit v ->
  first_value limit (mkReader (w ++ t ++ rest) eof) = Some v.
Proof.
  intros limit w t rest v eof B J St N. unfold first_value. cbn [rd_bytes].
  rewrite (proj1 (value_complete_all limit) v t J 0 _ w rest); auto.
  - replace (limit - 0) with limit by lia. exact N.
  - intros K. destruct (not_num _ St K).
Qed.

(** The text of an object, however it is laid out and whatever follows it, is read as the value it
    says. *)
Theorem C64_json_stream :
  forall p limit w t rest eof v load,
  white w -> json_text true v t -> structured v -> nesting_within limit v ->
  LGEnsembleFromJSONReader p limit (mkReader (w ++ t ++ rest) eof) load = LGEnsembleFromJSON p (Some v) load.
Proof. intros p limit w t rest eof v load B J St N. unfold LGEnsembleFromJSONReader. rewrite (first_value_complete limit w t rest v); auto. Qed.
Print Assumptions C64_json_stream.

(** Two streams that say the same object load alike: white space, the spelling of strings and what
    comes after the object make no difference. *)
Theorem C64_layout_irrelevant :
  forall p limit w t rest eof w' t' rest' eof' v load,
  white w -> json_text true v t -> white w' -> json_text true v t' -> structured v -> nesting_within limit v ->
  LGEnsembleFromJSONReader p limit (mkReader (w ++ t ++ rest) eof) load = LGEnsembleFromJSONReader p limit (mkReader (w' ++ t' ++ rest') eof') load.
Proof.
  intros p limit w t rest eof w' t' rest' eof' v load B J B' J' St N.
  rewrite (C64_json_stream p limit w t rest eof v load), (C64_json_stream p limit w' t' rest' eof' v load); auto.
Qed.
Print Assumptions C64_layout_irrelevant.

Lemma nesting_exists : forall v, exists n, forall m, n <= m -> nesting_within m v.
Proof.
  intros v. enough (exists n, 0 <= n /\ forall m, n <= m -> nesting_within m v) as (n & _ & M) by eauto.
  induction v as [|b|x|x|l IH|l IH] using json_ind'; [exists 0; split; [lia|intros q Hq; constructor]..| |].
  - enough (exists n, 0 <= n /\ forall m, n <= m -> Forall (nesting_within m) l) as (n & Hn & F).
    { exists (n + 1). split; [lia|]. intros q Hq. constructor; [lia|apply F; lia]. }
    induction IH as [|v l (n & Hn & M) _ (n' & Hn' & M')]; [exists 0; split; [lia|intros q Hq; constructor]|].
    exists (Z.max n n'). split; [lia|]. intros q Hq. constructor; [apply M|apply M']; lia.
  - enough (exists n, 0 <= n /\ forall m, n <= m -> Forall (fun kv => nesting_within m (snd kv)) l) as (n & Hn & F).
    { exists (n + 1). split; [lia|]. intros q Hq. constructor; [lia|apply F; lia]. }
    induction IH as [|v l (n & Hn & M) _ (n' & Hn' & M')]; [exists 0; split; [lia|intros q Hq; constructor]|].
    exists (Z.max n n'). split; [lia|]. intros q Hq. constructor; [apply M|apply M']; lia.
Qed.

(** A text says one value only. *)
Theorem C64_one_meaning :
  forall t v v', json_text true v t -> json_text true v' t -> structured v -> structured v' -> v = v'.
Proof.
  intros t v v' J J' St St'. destruct (nesting_exists v) as (n & M). destruct (nesting_exists v') as (n' & M').
  pose proof (first_value_complete (Z.max n n') [] t [] v true ltac:(intros c []) J St (M (Z.max n n') ltac:(lia))) as E.
  pose proof (first_value_complete (Z.max n n') [] t [] v' true ltac:(intros c []) J' St' (M' (Z.max n n') ltac:(lia))) as E'. congruence.
Qed.
Print Assumptions C64_one_meaning.

(** A stream that does not begin with a JSON value is refused, not misread. *)
Theorem C64_not_json :
  forall p limit s eof load,
  (forall v, ~ stream_says false v s) -> exists msg, LGEnsembleFromJSONReader p limit (mkReader s eof) load = Err msg.
Proof.
  intros p limit s eof load H. unfold LGEnsembleFromJSONReader, LGEnsembleFromJSON. destruct load; [eauto|].
  destruct (first_value limit (mkReader s eof)) as [v|] eqn:E; [|eauto]. exfalso. unfold first_value in E. cbn [rd_bytes] in E.
  destruct (value limit _ 0 s) as [[v' r]|] eqn:V; [|discriminate]. destruct (proj1 (value_sound_all _ _) _ _ _ _ V) as (w & t & -> & B & J & _).
  apply (H v'). exists w, t, r. auto.
Qed.
Print Assumptions C64_not_json.

(** A model comes only from the object at the start of the stream. *)
Theorem C64_accepted :
  forall p limit s eof load e,
  LGEnsembleFromJSONReader p limit (mkReader s eof) load = Ok e ->
  exists l, stream_says false (JObj l) s /\ nesting_within limit (JObj l) /\ LGEnsembleFromJSON p (Some (JObj l)) load = Ok e.
Proof.
  intros p limit s eof load e H. unfold LGEnsembleFromJSONReader in H. destruct (first_value limit (mkReader s eof)) as [v|] eqn:E.
  2:{ unfold LGEnsembleFromJSON in H. destruct load; discriminate. }
  unfold first_value in E. cbn [rd_bytes] in E. destruct (value limit _ 0 s) as [[v' r]|] eqn:V; [|discriminate]. injection E as ->.
  destruct (proj1 (value_sound_all _ _) _ _ _ _ V) as (w & t & -> & B & J & N). replace (limit - 0) with limit in N by lia.
  destruct v as [| | | | |l]; try (unfold LGEnsembleFromJSON in H; destruct load; discriminate).
  exists l. split; [exists w, t, r; auto|]. auto.
Qed.
Print Assumptions C64_accepted.

(** A stream that breaks off inside the object is refused, wherever it breaks off and whether the
    break is an end of file or a read error. *)
Theorem C64_truncated :
  forall p limit w t v s cut eof load,
  white w -> json_text true v t -> structured v -> w ++ t = s ++ cut -> cut <> [] ->
  exists msg, LGEnsembleFromJSONReader p limit (mkReader s eof) load = Err msg.
Proof.
  intros p limit w t v s cut eof load B J St E Hc. unfold LGEnsembleFromJSONReader, LGEnsembleFromJSON. destruct load; [eauto|].
  unfold first_value. cbn [rd_bytes]. destruct (value limit _ 0 s) as [[v' r]|] eqn:V; [|cbn [option_map]; eauto]. exfalso.
  destruct (nesting_exists v) as (n & M).
  assert (Nn : ~ is_num v').
  { intros (lit & ->). destruct (proj1 (value_sound_all _ _) _ _ _ _ V) as (w1 & t1 & Es & B1 & J1 & _).
    assert (E1 : skip_ws (w ++ t ++ []) = skip_ws (w1 ++ t1 ++ r ++ cut)) by (rewrite app_nil_r, E, Es, <- !app_assoc; reflexivity).
    rewrite skip_complete in E1 by (auto; apply (no_ws_text _ _ _ _ J)). rewrite skip_complete in E1 by (auto; apply (no_ws_text _ _ _ _ J1)).
    inversion J1; subst. destruct (number_start _ H0) as (c & t2 & -> & D). unfold digit in D.
    destruct St as [(l & ->)|(l & ->)]; inversion J; subst; injection E1 as <- _; vm_compute in D; destruct D as [[D1 D2]|D]; congruence. }
  pose proof (proj1 (value_ext_all limit (Z.max limit n) cut ltac:(lia) (S (2 * List.length s))) (S (2 * List.length (s ++ cut))) _ _ _ _ ltac:(rewrite app_length; lia) V (or_intror (or_intror Nn))) as X.
  pose proof (proj1 (value_complete_all (Z.max limit n)) v t J 0 (S (2 * List.length (s ++ cut))) w [] B) as C.
  rewrite app_nil_r, E, X in C. specialize (C (M (Z.max limit n - 0) ltac:(lia)) ltac:(intros K; destruct (not_num _ St K)) ltac:(lia)).
  injection C as _ C. apply app_eq_nil in C. tauto.
Qed.
Print Assumptions C64_truncated.

(** A text nested deeper than the package allows is refused. *)
Theorem C64_too_deep :
  forall p limit w t rest v eof load,
  white w -> json_text true v t -> structured v -> ~ nesting_within limit v ->
  exists msg, LGEnsembleFromJSONReader p limit (mkReader (w ++ t ++ rest) eof) load = Err msg.
Proof.
  intros p limit w t rest v eof load B J St H. unfold LGEnsembleFromJSONReader, LGEnsembleFromJSON. destruct load; [eauto|].
  unfold first_value. cbn [rd_bytes]. destruct (value limit _ 0 (w ++ t ++ rest)) as [[v' r]|] eqn:V; [|cbn [option_map]; eauto]. exfalso.
  destruct (nesting_exists v) as (n & M). destruct (proj1 (value_sound_all _ _) _ _ _ _ V) as (_ & _ & _ & _ & _ & N).
  pose proof (proj1 (value_ext_all limit (Z.max limit n) [] ltac:(lia) _) _ _ _ _ _ (le_n _) V (or_introl eq_refl)) as X.
  rewrite app_nil_r in X. rewrite (proj1 (value_complete_all (Z.max limit n)) v t J 0 _ w rest B) in X; auto.
  - injection X as <- _. apply H. replace limit with (limit - 0) by lia. exact N.
  - apply M. lia.
  - intros K. destruct (not_num _ St K).
Qed.
Print Assumptions C64_too_deep.

(** Loading returns, whatever the bytes. *)
Theorem C64_returns : forall p limit r load, LGEnsembleFromJSONReader p limit r load <> Hang.
Proof. intros p limit r load. apply C29_json_load_returns. Qed.
Print Assumptions C64_returns.

(** From the bytes to the predictions: single rows, and every cell of a batch. *)
Theorem C64_predictions :
  forall p limit w t rest eof v groups max_feature_idx trees ds,
  white w -> json_text true v t -> nesting_within limit v ->
  json_model_says p v groups max_feature_idx trees ds -> 2 ^ 26 <= pl_maxalloc p -> zlen trees <= MaxInt ->
  exists e, LGEnsembleFromJSONReader p limit (mkReader (w ++ t ++ rest) eof) false = Ok e /\ NRawOutputGroups e = groups /\
  (forall x nEstimators predictions,
     Forall (fun d => exists r, walk d x = Some r) ds -> NFeatures e <= zlen x -> groups <= zlen predictions -> groups <= pl_maxalloc p ->
     exists out n, Predict p e x nEstimators predictions = Ok out /\ used_estimators e nEstimators n /\
     forall k, 0 <= k < groups -> exists vs, walk_outputs ds groups k n x vs /\ zget out k = Some (sum_from fzero (map (fun v => fmul v fone) vs))) /\
  (forall vals nrows ncols predictions nEstimators nThreads,
     Forall (features_below ncols) ds -> dense_input p e vals nrows ncols predictions ->
     dense_scores p e vals nrows ncols predictions nEstimators nThreads (lgb_score e ds false nEstimators)) /\
  (forall indptr cols vals predictions nEstimators nThreads,
     Forall (features_below (NFeatures e)) ds -> csr_input p e indptr cols vals predictions ->
     csr_scores p e indptr cols vals predictions nEstimators nThreads (lgb_score e ds false nEstimators)).
Proof.
  intros p limit w t rest eof v g mf trees ds B J N H Ha Ht.
  assert (St : structured v) by (destruct H as ((l & _ & _ & _ & -> & _) & _); right; eauto).
  destruct (C63_lightgbm_json _ _ _ _ _ _ H Ha Ht) as (e & E & G & D & C). destruct (C34_json_predictions _ _ _ _ _ _ H Ha Ht) as (e' & E' & P).
  assert (e' = e) by congruence. subst e'. exists e. rewrite (C64_json_stream p limit w t rest eof v false) by auto. auto.
Qed.
Print Assumptions C64_predictions.
