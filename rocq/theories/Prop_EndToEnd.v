(** * C63: from a model file to the scores of a whole matrix

    The loader theorems (C28, C34, C39, C40, C47) joined with the theorems about batch calls (C03,
    C05, C06): what the file says is what every cell of the output holds, whatever the matrix, the
    number of threads and the schedule. *)

From Coq Require Import ZArith List Bool String Lia ZifyBool.
From Verif Require Import Go GoFloat GoText UtilText LgTree TreeBuild Transformation Ensembles Leaves LgTextIO LgJsonIO XgBin XgIO Pickle SkClasses SkIO Parallel
  Spec_Predict Spec_Transform Spec_Tree Spec_Params Spec_LgFile Spec_LgText Spec_Walk Spec_LgJson Spec_XgBin Spec_XgTree Spec_XgFile Spec_SkTree Spec_SkFile Spec_Pickle Spec_EndToEnd
  Pf_Go Pf_Calls Pf_Returns Pf_LgFile Pf_Rows Pf_Leaves Pf_Placed
  Prop_Batch Prop_Values Prop_Transform Prop_LgText Prop_Xg Prop_Sk Prop_LgJson Prop_Loaded.
Local Open Scope Z_scope.

(** ** From single predictions to a batch *)

(** [n] zero values *)
Definition blank (n : Z) : list f64 := repeat fzero (Z.to_nat n).

Lemma dense_row_exists : forall vals nrows ncols i, 0 <= ncols -> nrows * ncols <= zlen vals -> 0 <= i < nrows ->
  exists row, is_dense_row vals ncols i row.
Proof.
  intros vals nrows ncols i Hc Hv Hi. exists (firstn (Z.to_nat ncols) (skipn (Z.to_nat (i * ncols)) vals)).
  assert (L : i * ncols + ncols <= zlen vals) by nia. unfold zlen in L.
  split.
  - unfold zlen. rewrite firstn_length, skipn_length. lia.
  - intros k Hk. rewrite !zget_nth by nia. rewrite nth_error_firstn_lt by lia. rewrite nth_error_skipn_add. f_equal. nia.
Qed.

Lemma csr_row_exists : forall e indptr cols vals i, 0 <= NFeatures e -> csr_row_readable indptr cols vals i ->
  exists row, is_csr_row indptr cols vals (NFeatures e) (missing_value e) i row.
Proof.
  intros e indptr cols vals i Hf (start & end_ & Hs & He & Hj).
  destruct (csr_fill_succeeds indptr cols vals (zrange start end_) (csr_fresh e)) as [fv Hfv]. { intros j H. apply in_zrange in H. auto. }
  exists fv. apply (csr_row_filled e indptr cols vals i start end_ fv Hf Hs He Hfv).
Qed.

Theorem C63_dense_from_rows :
  forall p e vals nrows ncols predictions nEstimators nThreads score,
  usable e -> dense_input p e vals nrows ncols predictions ->
  (forall x out, zlen x = ncols -> NOutputGroups e <= zlen out <= MaxInt -> exists out', Predict p e x nEstimators out = Ok out' /\
     forall k, 0 <= k < NOutputGroups e -> exists v, score x k v /\ zget out' k = Some v) ->
  dense_scores p e vals nrows ncols predictions nEstimators nThreads score.
Proof.
  intros p e vals nrows ncols preds nE t score (W & A & _) [Hr Hc Hv Hf Ho Hp Hm Hs] H.
  pose proof (wf_NOG e W) as G.
  destruct (C03_dense_always_completes p e vals nrows ncols preds nE t W Hs ltac:(lia) Hp ltac:(lia) Hf ltac:(lia)) as (D1 & D2 & _); [|lia|].
  { intros i Hi. destruct (dense_row_exists vals nrows ncols i ltac:(lia) ltac:(lia) Hi) as (row & Hrow).
    destruct (H row (blank (NOutputGroups e)) (proj1 Hrow)) as (out' & E & _). { unfold blank. rewrite zlen_repeat. nia. }
    eauto. }
  split; [exact D1|]. intros r Hcall. destruct (D2 r Hcall) as (m & ->). exists m. split; [reflexivity|].
  destruct (C07_dense_window p e vals nrows ncols preds nE t m W Hs Hcall) as (Lm & _). split; [exact Lm|].
  intros i Hi. destruct (C05_dense_rows_equal_predict p e vals nrows ncols preds nE t m W A Hs ltac:(lia) Hc Hcall i Hi) as (row & Hrow & Hout).
  exists row. split; [exact Hrow|]. intros k Hk.
  destruct (Hout (blank (NOutputGroups e))) as (out' & E & Hh). { unfold blank. rewrite zlen_repeat. nia. }
  destruct (H row (blank (NOutputGroups e)) (proj1 Hrow)) as (out2 & E2 & Sc). { unfold blank. rewrite zlen_repeat. nia. }
  assert (out2 = out') by congruence. subst out2. destruct (Sc k Hk) as (v & Sv & Ev). exists v. split; [exact Sv|]. rewrite (Hh k Hk). exact Ev.
Qed.
Print Assumptions C63_dense_from_rows.

Theorem C63_csr_from_rows :
  forall p e indptr cols vals predictions nEstimators nThreads score,
  usable e -> csr_input p e indptr cols vals predictions ->
  (forall x out, zlen x = NFeatures e -> NOutputGroups e <= zlen out <= MaxInt -> exists out', Predict p e x nEstimators out = Ok out' /\
     forall k, 0 <= k < NOutputGroups e -> exists v, score x k v /\ zget out' k = Some v) ->
  csr_scores p e indptr cols vals predictions nEstimators nThreads score.
Proof.
  intros p e indptr cols vals preds nE t score (W & A & _) [Hr Hc Hf Ho Hp Hm Hs] H.
  pose proof (wf_NOG e W) as G.
  assert (X : forall row, zlen row = NFeatures e -> exists out', Predict p e row nE (blank (NOutputGroups e)) = Ok out' /\
     forall k, 0 <= k < NOutputGroups e -> exists v, score row k v /\ zget out' k = Some v).
  { intros row Hrow. apply H; [exact Hrow|]. unfold blank. rewrite zlen_repeat. nia. }
  destruct (C03_csr_always_completes p e indptr cols vals preds nE t W Hs Hp Hf ltac:(lia)) as (D1 & D2 & _); [|lia|].
  { intros i Hi. split; [auto|]. destruct (csr_row_exists e indptr cols vals i (proj1 Hf) (Hc i Hi)) as (row & Hrow).
    destruct (X row) as (out' & E & _). { destruct Hrow as (? & ? & ? & ? & L & _). exact L. } eauto. }
  split; [exact D1|]. intros r Hcall. destruct (D2 r Hcall) as (m & ->). exists m. split; [reflexivity|].
  destruct (C07_csr_window p e indptr cols vals preds nE t m W Hs Hcall) as (Lm & _). split; [exact Lm|].
  intros i Hi. destruct (C06_csr_rows_equal_predict p e indptr cols vals preds nE t m W A Hs Hcall i Hi) as (row & Hrow & Hout).
  exists row. split; [exact Hrow|]. intros k Hk.
  destruct (Hout (blank (NOutputGroups e))) as (out' & E & Hh). { unfold blank. rewrite zlen_repeat. nia. }
  destruct (X row) as (out2 & E2 & Sc). { destruct Hrow as (? & ? & ? & ? & L & _). exact L. }
  assert (out2 = out') by congruence. subst out2. destruct (Sc k Hk) as (v & Sv & Ev). exists v. split; [exact Sv|]. rewrite (Hh k Hk). exact Ev.
Qed.
Print Assumptions C63_csr_from_rows.

(** ** Outputs after the transformation *)

(** what the model puts out for group [k], given the raw scores of the row *)
Definition output_score (p : platform) (t : transform) (groups : Z) (raw : list f64 -> Z -> f64 -> Prop) (x : list f64) (k : Z) (v : f64) : Prop :=
  match t with
  | TransformRaw _ => raw x k v
  | TransformLogistic => exists r, raw x 0 r /\ v = logistic_of p r
  | TransformExponential => exists r, raw x 0 r /\ v = pl_exp p r
  | TransformSoftmax _ => exists rs r, zlen rs = groups /\ (forall j, 0 <= j < groups -> exists rj, zget rs j = Some rj /\ raw x j rj) /\
                          zget rs k = Some r /\ v = softmax_of p rs r
  | TransformLeafIndex _ => False
  end.

Lemma raw_is_raw : forall p e x nE buf, eTransform e = TransformRaw (NRawOutputGroups e) ->
  Predict p (EnsembleWithRawPredictions e) x nE buf = Predict p e x nE buf.
Proof.
  intros p e x nE buf T. unfold Predict.
  assert (N : NOutputGroups e = NOutputGroups (EnsembleWithRawPredictions e)) by (unfold NOutputGroups; rewrite T; reflexivity).
  rewrite N. change (NFeatures (EnsembleWithRawPredictions e)) with (NFeatures e).
  change (b_adjustNEstimators (eBase (EnsembleWithRawPredictions e)) nE) with (b_adjustNEstimators (eBase e) nE).
  destruct (_ <? _); [reflexivity|]. destruct (_ <? _); [reflexivity|]. destruct (b_adjustNEstimators (eBase e) nE); try reflexivity. cbn [bind].
  unfold checkNEstimators. rewrite T. cbn [eTransform EnsembleWithRawPredictions Type_t]. 
  unfold predictInnerAndTransform. rewrite T. reflexivity.
Qed.

Lemma transformed_from_raw : forall p e x nE out out' score,
  usable e -> zlen out <= MaxInt -> Predict p e x nE out = Ok out' ->
  (exists rawbuf raw, Predict p (EnsembleWithRawPredictions e) x nE rawbuf = Ok raw /\
    forall k, 0 <= k < NRawOutputGroups e -> exists v, score x k v /\ zget raw k = Some v) ->
  forall k, 0 <= k < NOutputGroups e -> exists v, output_score p (Transformation_ e) (NRawOutputGroups e) score x k v /\ zget out' k = Some v.
Proof.
  intros p e x nE out out' score (W & A & NL) Lo H (rawbuf & raw & Hr & Hs) k Hk. pose proof W as ([G1 _] & _).
  unfold Transformation_, arity_accepted, NOutputGroups in *. destruct (eTransform e) as [n| |n|n|] eqn:T; cbn [NOutputGroups_t] in Hk.
  - pose proof W as (_ & _ & W3). rewrite T in W3. subst n. destruct (Hs k Hk) as (v & Sv & Ev). exists v. split; [exact Sv|].
    rewrite <- Ev.
    rewrite (raw_is_raw p e x nE rawbuf T) in Hr. symmetry.
    destruct (C07_predict_window p e x nE out out' W Lo ltac:(pose proof W as ([_ ?] & _); unfold NOutputGroups; rewrite T; auto) H) as (_ & _ & C).
    assert (Ac : arity_accepted e) by (unfold arity_accepted; rewrite T; exact I).
    apply (C Ac rawbuf raw Hr k). unfold NOutputGroups. rewrite T. exact Hk.
  - destruct (C54_logistic _ _ _ _ _ _ _ _ W T A H Hr) as (r & Er & Eo). replace k with 0 by lia.
    destruct (Hs 0 ltac:(lia)) as (v & Sv & Ev). assert (v = r) by congruence. subst v. eexists. split; [|exact Eo]. exists r. auto.
  - subst n. destruct (C54_softmax _ _ _ _ _ _ _ _ W T H Hr k Hk) as (r & Er & Eo).
    eexists. split; [|exact Eo]. exists (firstn (Z.to_nat (NRawOutputGroups e)) raw), r.
    assert (Lr : NRawOutputGroups e <= zlen raw).
    { destruct (Hs (NRawOutputGroups e - 1) ltac:(lia)) as (v & _ & Ev). apply zget_range in Ev. lia. }
    assert (F : forall j, 0 <= j < NRawOutputGroups e -> zget (firstn (Z.to_nat (NRawOutputGroups e)) raw) j = zget raw j).
    { intros j Hj. rewrite !zget_nth by lia. apply nth_error_firstn_lt. lia. }
    split. { unfold zlen in *. rewrite firstn_length. lia. }
    split; [|split; [rewrite F by lia; exact Er|reflexivity]].
    intros j Hj. destruct (Hs j Hj) as (v & Sv & Ev). exists v. rewrite F by lia. auto.
  - exfalso. apply NL. exists n. exact T.
  - destruct (C54_exponential _ _ _ _ _ _ _ _ W T A H Hr) as (r & Er & Eo). replace k with 0 by lia.
    destruct (Hs 0 ltac:(lia)) as (v & Sv & Ev). assert (v = r) by congruence. subst v. eexists. split; [|exact Eo]. exists r. auto.
Qed.

(** both kinds of matrix at once *)
Lemma batch_from_rows : forall p e (below : Z -> Prop) (score : Z -> list f64 -> Z -> f64 -> Prop), usable e ->
  (forall nE x out, below (zlen x) -> x <> [] \/ zlen x = NFeatures e -> NFeatures e <= zlen x -> NOutputGroups e <= zlen out -> NRawOutputGroups e <= pl_maxalloc p ->
     exists out', Predict p e x nE out = Ok out') ->
  (forall nE x rawbuf, below (zlen x) -> NFeatures e <= zlen x -> NRawOutputGroups e <= zlen rawbuf -> NRawOutputGroups e <= pl_maxalloc p ->
     exists raw, Predict p (EnsembleWithRawPredictions e) x nE rawbuf = Ok raw /\
     forall k, 0 <= k < NRawOutputGroups e -> exists v, score nE x k v /\ zget raw k = Some v) ->
  (forall vals nrows ncols predictions nEstimators nThreads,
     below ncols -> dense_input p e vals nrows ncols predictions ->
     dense_scores p e vals nrows ncols predictions nEstimators nThreads (output_score p (Transformation_ e) (NRawOutputGroups e) (score nEstimators))) /\
  (forall indptr cols vals predictions nEstimators nThreads,
     below (NFeatures e) -> csr_input p e indptr cols vals predictions ->
     csr_scores p e indptr cols vals predictions nEstimators nThreads (output_score p (Transformation_ e) (NRawOutputGroups e) (score nEstimators))).
Proof.
  intros p e below score U P R.
  assert (X : forall nE x out, below (zlen x) -> x <> [] \/ zlen x = NFeatures e -> NFeatures e <= zlen x -> NOutputGroups e <= zlen out <= MaxInt -> NRawOutputGroups e <= pl_maxalloc p ->
    exists out', Predict p e x nE out = Ok out' /\
    forall k, 0 <= k < NOutputGroups e -> exists v, output_score p (Transformation_ e) (NRawOutputGroups e) (score nE) x k v /\ zget out' k = Some v).
  { intros nE x out B Ne F Lo M. destruct (P nE x out B Ne F ltac:(lia) M) as (out' & E). exists out'. split; [exact E|].
    apply (transformed_from_raw p e x nE out out' (score nE) U ltac:(lia) E).
    exists (blank (NRawOutputGroups e)). apply R; auto. unfold blank. rewrite zlen_repeat. destruct U as (([? _] & _) & _). lia. }
  split.
  - intros vals nrows ncols preds nE t B D. apply C63_dense_from_rows; auto.
    intros x out Lx Lo. destruct D as [_ Dc _ Df _ _ Dm _]. apply X; auto; try (rewrite Lx; auto).
    left. intros ->. cbn in Lx. lia.
  - intros indptr cols vals preds nE t B D. apply C63_csr_from_rows; auto.
    intros x out Lx Lo. destruct D as [_ _ Df _ _ Dm _]. apply X; auto; [rewrite Lx; auto|lia].
Qed.

(** ** LightGBM text *)

(** the raw score of group [k] for the row [x], by the trees of the file *)
Definition lgb_score (e : Ensemble) (ds : list dtree) (average : bool) (nEstimators : Z) (x : list f64) (k : Z) (v : f64) : Prop :=
  exists n vs, used_estimators e nEstimators n /\ walk_outputs ds (NRawOutputGroups e) k n x vs /\
    v = sum_from fzero (map (fun v => fmul v (if average then fdiv fone (f64_of_Z n) else fone)) vs).

Lemma walks : forall ds n x, Forall (features_below n) ds -> zlen x = n -> Forall (fun d => exists r, walk d x = Some r) ds.
Proof. intros ds n x H L. eapply Forall_impl; [|exact H]. intros d Hd. eapply walk_defined; eauto. Qed.

Theorem C63_lightgbm_text :
  forall p eof text rest header kvss groups max_feature_idx average load tr ds,
  file_says p eof text rest header kvss groups max_feature_idx average load tr ds -> zlen text <= MaxInt ->
  (* a transformation of one score goes with one group *)
  (tr = TransformLogistic \/ tr = TransformExponential -> groups = 1) ->
  exists e, LGEnsembleFromReader p (mkReader text eof) load = Ok e /\ NRawOutputGroups e = groups /\ Transformation_ e = tr /\
  (forall vals nrows ncols predictions nEstimators nThreads,
     Forall (features_below ncols) ds -> dense_input p e vals nrows ncols predictions ->
     dense_scores p e vals nrows ncols predictions nEstimators nThreads (output_score p tr groups (lgb_score e ds average nEstimators))) /\
  (forall indptr cols vals predictions nEstimators nThreads,
     Forall (features_below (NFeatures e)) ds -> csr_input p e indptr cols vals predictions ->
     csr_scores p e indptr cols vals predictions nEstimators nThreads (output_score p tr groups (lgb_score e ds average nEstimators))).
Proof.
  intros p eof text rest header kvss g mf avg load tr ds H Hm Hfit.
  destruct (C28_text_predictions _ _ _ _ _ _ _ _ _ _ _ _ H Hm) as (e & E & P). exists e. split; [exact E|].
  destruct (file_loads _ _ _ _ _ _ _ _ _ _ _ _ H) as (ts & E' & F).
  assert (Ee : e = mkEnsemble (BLg (mkLgEnsemble ts mf g (model_name avg) avg)) tr) by congruence.
  assert (G : NRawOutputGroups e = g) by (rewrite Ee; reflexivity). assert (T : Transformation_ e = tr) by (rewrite Ee; reflexivity).
  split; [exact G|]. split; [exact T|].
  destruct (loaded_wf text _ _ _ _ E eq_refl Hm) as (Wf & Ho & _ & Nl).
  assert (U : usable e).
  { destruct (C62_lightgbm_text p text eof load e Hm E) as ([U|(_ & M & Q)] & _); [exact U|]. exfalso. apply M. rewrite G. apply Hfit. rewrite <- T. exact Q. }
  rewrite <- T, <- G. apply (batch_from_rows p e (fun n => Forall (features_below n) ds) (lgb_score e ds avg) U).
  - intros nE x out Hd _ Hx Lo Ha. apply (Predict_returns p e x nE out Wf); auto.
    + unfold evaluable. rewrite Ee. cbn. rewrite Forall_forall. intros t It. apply in_zget in It. destruct It as (i & Hi).
      destruct (Forall2_zget _ _ _ _ _ F _ _ Hi) as (d & Hdi & _ & Hb).
      rewrite Forall_forall in Hd. destruct (walk_defined d (zlen x) x (Hd d (zget_in _ _ _ _ Hdi)) eq_refl) as ([v leaf] & Hw). exists (v, leaf). apply Hb. exact Hw.
    + intros [K _]. contradiction.
  - intros nE x rawbuf Hd Hx Lo Ha. rewrite G in *. destruct (P x nE rawbuf (walks _ _ _ Hd eq_refl) Hx Lo Ha) as (out' & n & Eo & Hn & Hk).
    exists out'. split; [exact Eo|]. intros k Kk. destruct (Hk k Kk) as (vs & Hvs & Hv). eexists. split; [|exact Hv]. exists n, vs. rewrite G. auto.
Qed.
Print Assumptions C63_lightgbm_text.

(** ** LightGBM JSON *)

Lemma Forall2_len : forall A B (R : A -> B -> Prop) a b, Forall2 R a b -> List.length a = List.length b.
Proof. intros A B R a b H. induction H; cbn; congruence. Qed.

Theorem C63_lightgbm_json :
  forall p v groups max_feature_idx trees ds,
  json_model_says p v groups max_feature_idx trees ds -> 2 ^ 26 <= pl_maxalloc p -> zlen trees <= MaxInt ->
  exists e, LGEnsembleFromJSON p (Some v) false = Ok e /\ NRawOutputGroups e = groups /\
  (forall vals nrows ncols predictions nEstimators nThreads,
     Forall (features_below ncols) ds -> dense_input p e vals nrows ncols predictions ->
     dense_scores p e vals nrows ncols predictions nEstimators nThreads (lgb_score e ds false nEstimators)) /\
  (forall indptr cols vals predictions nEstimators nThreads,
     Forall (features_below (NFeatures e)) ds -> csr_input p e indptr cols vals predictions ->
     csr_scores p e indptr cols vals predictions nEstimators nThreads (lgb_score e ds false nEstimators)).
Proof.
  intros p v g mf trees ds H Ha Ht.
  destruct (C34_json_predictions _ _ _ _ _ _ H Ha Ht) as (e & E & P). exists e. split; [exact E|].
  destruct (C34_json_file _ _ _ _ _ _ H Ha) as (e' & E' & G & T & _ & F). assert (e' = e) by congruence. subst e'. split; [exact G|].
  assert (Lt : zlen (model_trees e) <= MaxInt).
  { destruct H as (_ & Ft). unfold zlen in *. apply Forall2_len in F. apply Forall2_len in Ft. rewrite F, <- Ft. exact Ht. }
  pose proof (C62_lightgbm_json p _ _ e E Lt) as U.
  assert (RG : eTransform e = TransformRaw (NRawOutputGroups e)) by (rewrite G; exact T).
  assert (NO : NOutputGroups e = g) by (unfold NOutputGroups; rewrite RG; exact G).
  destruct (batch_from_rows p e (fun n => Forall (features_below n) ds) (lgb_score e ds false) U) as (D & C).
  - intros nE x out Hd _ Hx Lo Hal. rewrite NO, G in *. destruct (P x nE out (walks _ _ _ Hd eq_refl) Hx Lo Hal) as (out' & n & Eo & _). eauto.
  - intros nE x rawbuf Hd Hx Lo Hal. rewrite G in *. destruct (P x nE rawbuf (walks _ _ _ Hd eq_refl) Hx Lo Hal) as (out' & n & Eo & Hn & Hk).
    exists out'. rewrite raw_is_raw by (rewrite G; exact T). split; [exact Eo|]. intros k Kk. destruct (Hk k Kk) as (vs & Hvs & Hv). eexists. split; [|exact Hv]. exists n, vs. rewrite G. auto.
  - rewrite T in D, C. cbn [output_score] in D, C. split; [exact D|exact C].
Qed.
Print Assumptions C63_lightgbm_json.

(** ** XGBoost *)

(** asking for the transformation changes nothing but the transformation *)
Lemma xg_load_raw : forall p r e, XGEnsembleFromReader p r true = Ok e ->
  exists e0, XGEnsembleFromReader p r false = Ok e0 /\ eBase e0 = eBase e /\ eTransform e0 = TransformRaw (NRawOutputGroups e).
Proof.
  intros p r e H. unfold XGEnsembleFromReader in *. apply bind_ok in H. destruct H as ([e' r'] & H & K). injection K as ->.
  unfold xg_ensemble_and_rest in *. apply bind_ok in H. destruct H as ([hd r1] & E1 & H). rewrite E1. cbn [bind].
  apply bind_ok in H. destruct H as (name & E2 & H). rewrite E2. cbn [bind].
  cbv zeta in *. destruct (lmNumFeatures _ =? 0); [discriminate|]. apply bind_ok in H. destruct H as ([m r2] & Em & H). rewrite Em. cbn [bind].
  destruct (_ <? _); [discriminate|]. apply bind_ok in H. destruct H as ([w r3] & Ew & H). rewrite Ew. cbn [bind].
  destruct (negb _); [discriminate|]. destruct (negb _); [discriminate|]. destruct (negb _); [discriminate|].
  apply bind_ok in H. destruct H as (t & Et & H). destruct (_ =? 0); [discriminate|]. cbn [xg_transform bind].
  apply bind_ok in H. destruct H as (ts & Ets & H). rewrite Ets. cbn [bind]. injection H as <- _. eexists. split; [reflexivity|]. split; reflexivity.
Qed.

Lemma xgl_load_raw : forall p r e, XGBLinearFromReader p r true = Ok e ->
  exists e0, XGBLinearFromReader p r false = Ok e0 /\ eBase e0 = eBase e /\ eTransform e0 = TransformRaw (NRawOutputGroups e).
Proof.
  intros p r e H. unfold XGBLinearFromReader in *. apply bind_ok in H. destruct H as ([e' r'] & H & K). injection K as ->.
  unfold xgblinear_and_rest in *. apply bind_ok in H. destruct H as ([hd r1] & E1 & H). rewrite E1. cbn [bind].
  destruct (negb _); [discriminate|]. destruct (_ =? 0); [discriminate|]. apply bind_ok in H. destruct H as ([m r2] & Em & H). rewrite Em. cbn [bind]. cbv zeta in *.
  apply bind_ok in H. destruct H as (t & Et & H). injection H as <- _. cbn [xg_transform bind]. eexists. split; [reflexivity|]. split; reflexivity.
Qed.

(** a raw model and the raw view of the transformed one predict the same *)
Lemma same_raw : forall p e e0 x nE buf, eBase e0 = eBase e -> eTransform e0 = TransformRaw (NRawOutputGroups e) ->
  Predict p (EnsembleWithRawPredictions e) x nE buf = Predict p e0 x nE buf.
Proof.
  intros p e e0 x nE buf B T. unfold Predict.
  assert (N : NOutputGroups e0 = NOutputGroups (EnsembleWithRawPredictions e)) by (unfold NOutputGroups; rewrite T; reflexivity).
  rewrite N. replace (NFeatures e0) with (NFeatures e) by (unfold NFeatures; rewrite B; reflexivity).
  change (NFeatures (EnsembleWithRawPredictions e)) with (NFeatures e). rewrite B.
  change (b_adjustNEstimators (eBase (EnsembleWithRawPredictions e)) nE) with (b_adjustNEstimators (eBase e) nE).
  destruct (_ <? _); [reflexivity|]. destruct (_ <? _); [reflexivity|]. destruct (b_adjustNEstimators (eBase e) nE); try reflexivity. cbn [bind].
  unfold checkNEstimators. rewrite T. cbn [eTransform EnsembleWithRawPredictions Type_t].
  unfold predictInnerAndTransform. rewrite T, B. reflexivity.
Qed.

(** the raw score of group [k]: the base score plus the weighted outputs of the trees *)
Definition xgb_score (e : Ensemble) (h : ModelHeader) (weights : list Z) (xts : list xtree) (nEstimators : Z) (x : list f64) (k : Z) (v : f64) : Prop :=
  exists n vs ws, used_estimators e nEstimators n /\
    reference_outputs (map (reference fle) xts) (NRawOutputGroups e) k n x vs /\
    zlen ws = n /\ (forall i, 0 <= i < n -> zget ws i = weight h weights (i * NRawOutputGroups e + k)) /\
    v = sum_from (f64_of_f32bits (lmBaseScore (mhParam h))) (map (fun vw => fmul (fst vw) (snd vw)) (combine vs ws)).

Theorem C63_xgboost :
  forall p h m leaf_vectors weights load xts rest eof,
  xg_file_ok (pl_maxalloc p) h m leaf_vectors weights -> xg_says h m weights load xts ->
  let g := gpNumOutputGroup (gmParam m) in
  (load = true -> g = 1) ->
  exists e, XGEnsembleFromReader p (mkReader (e_xg_file h m leaf_vectors weights ++ rest) eof) load = Ok e /\ NRawOutputGroups e = g /\
  let tr := if load then TransformLogistic else TransformRaw g in
  (forall vals nrows ncols predictions nEstimators nThreads,
     Forall (fun t => features_below ncols (reference fle t)) xts -> dense_input p e vals nrows ncols predictions ->
     dense_scores p e vals nrows ncols predictions nEstimators nThreads (output_score p tr g (xgb_score e h weights xts nEstimators))) /\
  (forall indptr cols vals predictions nEstimators nThreads,
     Forall (fun t => features_below (NFeatures e) (reference fle t)) xts -> csr_input p e indptr cols vals predictions ->
     csr_scores p e indptr cols vals predictions nEstimators nThreads (output_score p tr g (xgb_score e h weights xts nEstimators))).
Proof.
  intros p h m lv ws load xts rest eof Hok Hsays g Hg.
  destruct (C39_xgboost_file p h m lv ws load xts rest eof Hok Hsays) as (e & E & G & Ne & Nf & _ & T & P). fold g in G, P, T. exists e. split; [exact E|]. split; [exact G|].
  assert (G1 : 1 <= g) by (destruct Hsays; assumption).
  assert (U : usable e). { apply (proj1 (C62_xgboost p _ load e E)). rewrite G. auto. }
  assert (R : exists e0, XGEnsembleFromReader p (mkReader (e_xg_file h m lv ws ++ rest) eof) false = Ok e0 /\ eBase e0 = eBase e /\ eTransform e0 = TransformRaw (NRawOutputGroups e)).
  { destruct load; [apply xg_load_raw; exact E|]. exists e. split; [exact E|]. split; [reflexivity|]. rewrite G. exact T. }
  destruct R as (e0 & E0 & B & T0).
  assert (S0 : xg_says h m ws false xts) by (destruct Hsays; constructor; auto; discriminate).
  destruct (C39_xgboost_file p h m lv ws false xts rest eof Hok S0) as (e1 & E1 & G0 & _ & _ & _ & _ & P0). assert (e1 = e0) by congruence. subst e1. fold g in G0, P0.
  assert (N0 : NEstimators e0 = NEstimators e) by (unfold NEstimators; rewrite B; reflexivity).
  assert (F0 : NFeatures e0 = NFeatures e) by (unfold NFeatures; rewrite B; reflexivity).
  assert (O0 : NOutputGroups e0 = g) by (unfold NOutputGroups; rewrite T0; exact G).
  cbv zeta. rewrite <- T, <- G.
  apply (batch_from_rows p e (fun n => Forall (fun t => features_below n (reference fle t)) xts) (xgb_score e h ws xts) U).
  - intros nE x out Hd _ Hx Lo Ha. rewrite G in Ha. destruct (P x nE out Hd Hx Lo Ha) as (out' & Eo & _). eauto.
  - intros nE x rawbuf Hd Hx Lo Ha. rewrite G in *. rewrite (same_raw p e e0 x nE rawbuf B ltac:(rewrite G; exact T0)).
    destruct (P0 x nE rawbuf Hd ltac:(lia) ltac:(lia) Ha) as (out' & Eo & Hv). exists out'. split; [exact Eo|].
    destruct (Hv eq_refl) as (n & Hn & Hk). intros k Kk. destruct (Hk k Kk) as (vs & w & H1 & H2 & H3 & H4). eexists. split; [|exact H4].
    exists n, vs, w. rewrite G. unfold used_estimators in *. rewrite N0 in Hn. auto.
Qed.
Print Assumptions C63_xgboost.

(** the raw score of group [k] of a linear model *)
Definition linear_score (h : ModelHeader) (m : GBLinearModel) (nEstimators : Z) (x : list f64) (k : Z) (v : f64) : Prop :=
  let g := glNumOutputGroup (blParam m) in
  let nf := glNumFeature (blParam m) in
  exists bias terms, zget (blWeights m) (nf * g + k) = Some bias /\ zlen terms = nf /\
    (forall i, 0 <= i < nf -> exists a w, zget x i = Some a /\ zget (blWeights m) (i * g + k) = Some w /\ zget terms i = Some (fmul a (f64_of_f32bits w))) /\
    v = sum_from (fadd (f64_of_f32bits (lmBaseScore (mhParam h))) (f64_of_f32bits bias)) terms.

Theorem C63_gblinear :
  forall p h m load rest eof,
  xgl_file_ok (pl_maxalloc p) h m -> mhNameGbm h = bs "gblinear" -> 1 <= lmNumFeatures (mhParam h) ->
  (load = true -> mhNameObj h = bs "binary:logistic") ->
  let g := glNumOutputGroup (blParam m) in
  let nf := glNumFeature (blParam m) in
  1 <= g -> (load = true -> g = 1) -> zlen (blWeights m) = (nf + 1) * g ->
  exists e, XGBLinearFromReader p (mkReader (e_xgl_file h m ++ rest) eof) load = Ok e /\ NRawOutputGroups e = g /\ NFeatures e = nf /\
  let tr := if load then TransformLogistic else TransformRaw g in
  (forall vals nrows ncols predictions nEstimators nThreads,
     dense_input p e vals nrows ncols predictions ->
     dense_scores p e vals nrows ncols predictions nEstimators nThreads (output_score p tr g (linear_score h m nEstimators))) /\
  (forall indptr cols vals predictions nEstimators nThreads,
     csr_input p e indptr cols vals predictions ->
     csr_scores p e indptr cols vals predictions nEstimators nThreads (output_score p tr g (linear_score h m nEstimators))).
Proof.
  intros p h m load rest eof Hok Hn H1 Hobj g nf G1 Hg Hw.
  destruct (C40_gblinear_file p h m load rest eof Hok Hn H1 Hobj G1 Hw) as (e & E & G & Ne & Nf & _ & T & P). fold g in G, T, P. fold nf in Nf, P. exists e. split; [exact E|]. split; [exact G|]. split; [exact Nf|].
  assert (U : usable e). { apply (proj1 (C62_gblinear p _ load e E)). rewrite G. auto. }
  assert (R : exists e0, XGBLinearFromReader p (mkReader (e_xgl_file h m ++ rest) eof) false = Ok e0 /\ eBase e0 = eBase e /\ eTransform e0 = TransformRaw (NRawOutputGroups e)).
  { destruct load; [apply xgl_load_raw; exact E|]. exists e. split; [exact E|]. split; [reflexivity|]. rewrite G. exact T. }
  destruct R as (e0 & E0 & B & T0).
  destruct (C40_gblinear_file p h m false rest eof Hok Hn H1 ltac:(discriminate) G1 Hw) as (e1 & E1 & G0 & _ & _ & _ & _ & P0). assert (e1 = e0) by congruence. subst e1. fold g in G0, P0. fold nf in P0.
  assert (O0 : NOutputGroups e0 = g) by (unfold NOutputGroups; rewrite T0; exact G).
  cbv zeta. rewrite <- T, <- G.
  destruct (batch_from_rows p e (fun _ => True) (linear_score h m) U) as (D & C).
  - intros nE x out _ _ Hx Lo Ha. rewrite G, Nf in *. destruct (P x nE out Hx Lo Ha) as (out' & Eo & _). eauto.
  - intros nE x rawbuf _ Hx Lo Ha. rewrite G, Nf in *. rewrite (same_raw p e e0 x nE rawbuf B ltac:(rewrite G; exact T0)).
    destruct (P0 x nE rawbuf Hx ltac:(lia) Ha) as (out' & Eo & Hv). exists out'. split; [exact Eo|].
    intros k Kk. destruct (Hv eq_refl k Kk) as (bias & terms & A1 & A2 & A3 & A4). eexists. split; [|exact A4]. exists bias, terms. auto.
  - split; intros; [apply D|apply C]; auto.
Qed.
Print Assumptions C63_gblinear.

(** ** scikit-learn *)

Definition sk_score (e : Ensemble) (g : SklearnGradientBoosting) (sts : list sktree) (nEstimators : Z) (x : list f64) (k : Z) (v : f64) : Prop :=
  exists n vs prior, used_estimators e nEstimators n /\ sk_outputs sts (NRawOutputGroups e) k n x vs /\
    prior_of (gbInit g) k = Some prior /\ v = sum_from fzero (sk_terms (gbLearningRate g) prior vs).

Theorem C63_sklearn :
  forall p o s mu g sts rest eof loadTransformation,
  enc p true [] o s mu -> gb_is g o -> sk_says g sts -> sk_fits (pl_maxalloc p) g -> pl_maxalloc p <= MaxInt ->
  let groups := score_groups (gbNClasses g) in
  exists e, SKEnsembleFromReader p (mkReader (s ++ "."%byte :: rest) eof) loadTransformation = Ok e /\ NRawOutputGroups e = groups /\
  (forall vals nrows ncols predictions nEstimators nThreads,
     Forall (sk_features_below ncols) sts -> dense_input p e vals nrows ncols predictions ->
     dense_scores p e vals nrows ncols predictions nEstimators nThreads (sk_score e g sts nEstimators)) /\
  (forall indptr cols vals predictions nEstimators nThreads,
     1 <= NFeatures e -> Forall (sk_features_below (NFeatures e)) sts -> csr_input p e indptr cols vals predictions ->
     csr_scores p e indptr cols vals predictions nEstimators nThreads (sk_score e g sts nEstimators)).
Proof.
  intros p o s mu g sts rest eof load He Hi Hs Hf Ha groups.
  destruct (C47_sklearn_file p o s mu g sts rest eof load He Hi Hs Hf) as (e & E & G & _ & _ & _ & T & P). fold groups in G, T, P. exists e. split; [exact E|]. split; [exact G|].
  assert (G1 : groups <> 0).
  { destruct Hs. unfold groups, score_groups in *. destruct (gbNClasses g =? 2) eqn:Q; lia. }
  assert (U : usable e). { apply (proj1 (C62_sklearn p _ load e Ha E)). rewrite G. exact G1. }
  assert (RG : eTransform e = TransformRaw (NRawOutputGroups e)) by (rewrite G; exact T).
  assert (NO : NOutputGroups e = groups) by (unfold NOutputGroups; rewrite RG; exact G).
  destruct (batch_from_rows p e (fun n => Forall (sk_features_below n) sts /\ 1 <= n) (sk_score e g sts) U) as (D & C).
  - intros nE x out (Hd & Hl) _ Hx Lo _. rewrite NO in *. destruct (P x nE out Hd ltac:(intros ->; cbn in Hl; lia) Hx Lo) as (out' & Eo & _). eauto.
  - intros nE x rawbuf (Hd & Hl) Hx Lo _. rewrite G in *. destruct (P x nE rawbuf Hd ltac:(intros ->; cbn in Hl; lia) Hx Lo) as (out' & Eo & n & Hn & Hk).
    exists out'. rewrite raw_is_raw by (rewrite G; exact T). split; [exact Eo|]. intros k Kk. destruct (Hk k Kk) as (vs & prior & A1 & A2 & A3). eexists. split; [|exact A3]. exists n, vs, prior. rewrite G. auto.
  - rewrite T in D, C. cbn [output_score] in D, C. split.
    + intros vals nrows ncols preds nE t Hd Di. apply D; [split; [exact Hd|destruct Di; lia]|exact Di].
    + intros indptr cols vals preds nE t H1 Hd Di. apply C; [split; [exact Hd|exact H1]|exact Di].
Qed.
Print Assumptions C63_sklearn.
