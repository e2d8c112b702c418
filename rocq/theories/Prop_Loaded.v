(** * C62: what a loader accepts is a consistent model

    The theorems about prediction (C01 ...) assume [well_formed] and some [arity_accepted]
    (Spec_Predict.v).  Here: which loaders guarantee this, for every input they accept, and which
    accept inputs that break it. *)

From Coq Require Import ZArith List Bool String Lia ZifyBool.
From Verif Require Import Go GoFloat GoText UtilText LgTree TreeBuild Transformation Ensembles Leaves LgTextIO LgJsonIO XgBin XgIO Pickle SkClasses SkIO Parallel
  Spec_Predict Spec_Params Spec_LgFile Spec_XgFile Spec_SkFile Pf_Go Pf_Leaves Pf_Text Pf_LgFile Pf_LgJson
  Prop_Batch Prop_Values Prop_LgText Prop_Xg Prop_Sk Prop_LgJson Demo DemoText Ex_Sk Ex_LgText Ex_LgJson.
Local Open Scope Z_scope.

(** the model gives raw scores, or applies a transformation that fits the number of raw scores *)
Definition usable (e : Ensemble) : Prop := well_formed e /\ arity_accepted e /\ ~ wants_leaves e.
(** a transformation of one score on top of a model with another number of scores *)
Definition misfit (e : Ensemble) : Prop :=
  NRawOutputGroups e <> 1 /\ (Transformation_ e = TransformLogistic \/ Transformation_ e = TransformExponential).

Theorem C62_lightgbm_text :
  forall p text eof load e, zlen text <= MaxInt -> LGEnsembleFromReader p (mkReader text eof) load = Ok e ->
  (usable e \/ load = true /\ misfit e) /\ usable (EnsembleWithRawPredictions e).
Proof.
  intros p text eof load e Hs H.
  destruct (loaded_wf text p _ load e H eq_refl Hs) as (W & _ & _ & NL).
  assert (R : usable (EnsembleWithRawPredictions e)).
  { split; [|split].
    - destruct W as (W1 & W2 & _). split; [exact W1|]. split; [exact W2|reflexivity].
    - exact I.
    - intros (k & K). discriminate. }
  split; [|exact R].
  assert (T : exists kvs avg, transform_says kvs load avg (NRawOutputGroups e) (Transformation_ e)).
  { unfold LGEnsembleFromReader in H.
    apply bind_ok in H. destruct H as ([ps r1] & Er & H). destruct (read_block_inv _ _ _ _ Er) as (kvs & Hb & _ & L).
    apply bind_ok in H. destruct H as ([m n] & Eh & H). apply (header_ok ps kvs m n L) in Eh. destruct Eh as (g & mf & avg & Hh & ->).
    apply bind_ok in H. destruct H as (tr & Et & H). cbn [lgAverageOutput lgNRawOutputGroups lgMaxFeatureIdx lgName] in *.
    apply bind_ok in H. destruct H as ([ts r2] & Ets & H). injection H as <-.
    exists kvs, avg. apply (lg_transform_ok ps kvs load avg g tr L). auto. }
  destruct T as (kvs & avg & T).
  unfold transform_says in T. destruct (load && negb avg) eqn:E.
  - destruct load; [|discriminate]. destruct T as (o & _ & M).
    unfold usable, misfit, arity_accepted. unfold Transformation_ in *.
    destruct (Z.eq_dec (NRawOutputGroups e) 1) as [E1|E1]; inversion M; auto.
  - left. split; [exact W|]. split; [|exact NL]. unfold arity_accepted. unfold Transformation_ in T. rewrite T. exact I.
Qed.
Print Assumptions C62_lightgbm_text.

Theorem C62_lightgbm_json :
  forall p doc load e, LGEnsembleFromJSON p doc load = Ok e -> zlen (model_trees e) <= MaxInt -> usable e.
Proof.
  intros p doc load e H Hl. unfold LGEnsembleFromJSON in H. destruct load; [discriminate|]. destruct doc as [v|]; [|discriminate].
  apply bind_ok in H. destruct H as (data & _ & H).
  destruct (negb _); [discriminate|]. destruct (negb _); [discriminate|]. destruct (negb _); [discriminate|].
  destruct (ej_NumClasses data <? 1) eqn:E1; [discriminate|]. destruct (ej_NumTreesPerIteration data <? 1); [discriminate|].
  destruct (zlen (ej_Trees data) =? 0) eqn:E2; [discriminate|]. destruct (Z.rem (zlen (ej_Trees data)) (ej_NumClasses data) =? 0) eqn:E3; [|discriminate]. cbn [negb] in H.
  apply bind_ok in H. destruct H as (ts & Em & H). injection H as <-. pose proof (mapM_ok_length _ _ _ _ _ Em) as L.
  cbn in Hl. unfold usable, well_formed, arity_accepted, wants_leaves. cbn.
  pose proof (zlen_nonneg _ (ej_Trees data)). assert (zlen ts = zlen (ej_Trees data)) by (unfold zlen; lia).
  assert (ej_NumClasses data <= zlen (ej_Trees data)).
  { destruct (Z.le_gt_cases (ej_NumClasses data) (zlen (ej_Trees data))); [auto|]. rewrite Z.rem_small in E3 by lia. lia. }
  repeat split; try lia. intros (k & K). discriminate.
Qed.
Print Assumptions C62_lightgbm_json.

Lemma s32_range : forall z, - two31 <= s32 z < two31.
Proof.
  intros z. unfold s32. pose proof (Z.mod_pos_bound z two32 eq_refl). cbv zeta. unfold two31, two32 in *. destruct (_ <? _) eqn:E; lia.
Qed.

Lemma s64_range : forall z, - two63 <= s64 z < two63.
Proof.
  intros z. unfold s64. pose proof (Z.mod_pos_bound z two64 eq_refl). cbv zeta. unfold two63, two64 in *. destruct (_ <? _) eqn:E; lia.
Qed.

Lemma mapM_in : forall A B (f : A -> outcome B) l ys, mapM f l = Ok ys -> forall x, In x l -> exists y, f x = Ok y.
Proof.
  intros A B f l. induction l as [|a l IH]; intros ys H x Hx; [destruct Hx|]. cbn [mapM] in H.
  apply bind_ok in H. destruct H as (y & E & H). apply bind_ok in H. destruct H as (ys' & E' & _). destruct Hx as [<-|Hx]; eauto.
Qed.

Theorem C62_xgboost :
  forall p r load e, XGEnsembleFromReader p r load = Ok e ->
  (usable e <-> 1 <= NRawOutputGroups e /\ (load = true -> NRawOutputGroups e = 1)) /\
  (load = true -> usable e \/ misfit e \/ NRawOutputGroups e < 1).
Proof.
  intros p r load e H. unfold XGEnsembleFromReader in H. apply bind_ok in H. destruct H as ([e' r'] & H & K). injection K as ->.
  unfold xg_ensemble_and_rest in H. apply bind_ok in H. destruct H as ([hd r1] & _ & H). apply bind_ok in H. destruct H as (name & _ & H).
  cbv zeta in H. destruct (lmNumFeatures _ =? 0); [discriminate|]. apply bind_ok in H. destruct H as ([m r2] & Em & H).
  destruct (_ <? _); [discriminate|]. apply bind_ok in H. destruct H as ([w r3] & Ew & H).
  destruct (negb _); [discriminate|]. destruct (negb _); [discriminate|]. destruct (negb _); [discriminate|].
  apply bind_ok in H. destruct H as (t & Et & H). destruct (_ =? 0); [discriminate|].
  apply bind_ok in H. destruct H as (ts & Ets & H). injection H as <- _. pose proof (mapM_ok_length _ _ _ _ _ Ets) as L.
  assert (G : - two31 <= gpNumTrees (gmParam m) < two31 /\ - two31 <= gpNumOutputGroup (gmParam m) < two31).
  { unfold ReadGBTreeModel in Em. apply bind_ok in Em. destruct Em as ([pa ra] & Ep & Em). apply bind_ok in Em. destruct Em as ([tm rb] & _ & Em).
    assert (G : - two31 <= gpNumTrees pa < two31 /\ - two31 <= gpNumOutputGroup pa < two31).
    { unfold ReadStruct_GBTreeParam in Ep. apply bind_ok in Ep. destruct Ep as ([b rc] & _ & Ep). cbn [dec_i32 dec_i64] in Ep.
      destruct (dec_list dec_i32 32 _) in Ep. injection Ep as <- _. cbn [gpNumTrees gpNumOutputGroup]. split; apply s32_range. }
    destruct (0 <? _).
    - apply bind_ok in Em. destruct Em as (_ & _ & Em). apply bind_ok in Em. destruct Em as ([b rc] & _ & Em). injection Em as <- _. exact G.
    - injection Em as <- _. exact G. }
  assert (T : zlen ts <= MaxInt).
  { unfold zlen. rewrite L. fold (zlen (zseq (gpNumTrees (gmParam m)))). 
    destruct (Z.lt_ge_cases (gpNumTrees (gmParam m)) 0).
    - unfold zseq. replace (Z.to_nat (gpNumTrees (gmParam m))) with 0%nat by lia. cbn. unfold MaxInt; lia.
    - unfold zlen. rewrite zseq_length. unfold MaxInt, two63, two31 in *. lia. }
  unfold usable, misfit, well_formed, arity_accepted, wants_leaves, Transformation_, xg_transform in *.
  destruct load.
  - destruct (beqb (mhNameObj hd) _); [|discriminate Et]. injection Et as <-. cbn. unfold MaxInt, two63, two31 in *.
    assert (NL : ~ exists n : Z, TransformLogistic = TransformLeafIndex n) by (intros (k & K); discriminate).
    split; [split|intros _].
    { intros ((? & ?) & ? & ?). split; [lia|auto]. }
    { intros (? & Q). specialize (Q eq_refl). repeat split; auto; lia. }
    destruct (Z.lt_ge_cases (gpNumOutputGroup (gmParam m)) 1); [auto|]. destruct (Z.eq_dec (gpNumOutputGroup (gmParam m)) 1); [left; repeat split; auto; lia|auto].
  - injection Et as <-. cbn. unfold MaxInt, two63, two31 in *.
    split; [|intros K; discriminate K]. split; [intros ((? & ?) & ? & ?); split; [lia|intros K; discriminate K]|intros (? & _)]. repeat split; auto; try lia. intros (k & K). discriminate.
Qed.
Print Assumptions C62_xgboost.

Theorem C62_gblinear :
  forall p r load e, XGBLinearFromReader p r load = Ok e ->
  (usable e <-> 1 <= NRawOutputGroups e /\ (load = true -> NRawOutputGroups e = 1)) /\
  (load = true -> usable e \/ misfit e \/ NRawOutputGroups e < 1).
Proof.
  intros p r load e H. unfold XGBLinearFromReader in H. apply bind_ok in H. destruct H as ([e' r'] & H & K). injection K as ->.
  unfold xgblinear_and_rest in H. apply bind_ok in H. destruct H as ([hd r1] & _ & H).
  destruct (negb _); [discriminate|]. destruct (_ =? 0); [discriminate|]. apply bind_ok in H. destruct H as ([m r2] & Em & H). cbv zeta in H.
  apply bind_ok in H. destruct H as (t & Et & H). injection H as <- _.
  assert (G : - two31 <= glNumOutputGroup (blParam m) < two31).
  { unfold ReadGBLinearModel in Em. apply bind_ok in Em. destruct Em as ([pa ra] & Ep & Em). apply bind_ok in Em. destruct Em as ([tm rb] & _ & Em). injection Em as <- _.
    unfold ReadStruct_GBLinearParam in Ep. apply bind_ok in Ep. destruct Ep as ([b rc] & _ & Ep). cbn [dec_i32 dec_u32] in Ep.
    destruct (dec_list dec_i32 32 _) in Ep. injection Ep as <- _. apply s32_range. }
  unfold usable, misfit, well_formed, arity_accepted, wants_leaves, Transformation_, xg_transform in *.
  assert (T : zlen (@nil lgTree) <= MaxInt) by (cbn; unfold MaxInt; lia).
  destruct load.
  - destruct (beqb (mhNameObj hd) _); [|discriminate Et]. injection Et as <-. cbn in *. unfold MaxInt, two63, two31 in *.
    assert (NL : ~ exists n : Z, TransformLogistic = TransformLeafIndex n) by (intros (k & K); discriminate).
    split; [split|intros _].
    { intros ((? & ?) & ? & ?). split; [lia|auto]. }
    { intros (? & Q). specialize (Q eq_refl). repeat split; auto; lia. }
    destruct (Z.lt_ge_cases (glNumOutputGroup (blParam m)) 1); [auto|]. destruct (Z.eq_dec (glNumOutputGroup (blParam m)) 1); [left; repeat split; auto; lia|auto].
  - injection Et as <-. cbn in *. unfold MaxInt, two63, two31 in *.
    split; [|intros K; discriminate K]. split; [intros ((? & ?) & ? & ?); split; [lia|intros K; discriminate K]|intros (? & _)]. repeat split; auto; try lia. intros (k & K). discriminate.
Qed.
Print Assumptions C62_gblinear.

Lemma foldM_trees : forall (f : list f64 -> Z -> outcome (list lgTree)) l acc base groups out base',
  0 <= groups -> (forall b i new, f b i = Ok new -> zlen new = groups) ->
  foldM (fun acc i => let (trees, base) := acc : list lgTree * list f64 in let* new := f base i in Ok (trees ++ new, map (fun _ => fzero) base)) l (acc, base) = Ok (out, base') ->
  zlen out = zlen acc + groups * zlen l.
Proof.
  intros f l. induction l as [|i l IH]; intros acc base g out base' Hg Hf H; cbn [foldM] in H.
  - injection H as <- _. change (zlen (@nil Z)) with 0. lia.
  - apply bind_ok in H. destruct H as ([a b] & E & H). apply bind_ok in E. destruct E as (new & En & E). injection E as <- <-.
    rewrite (IH _ _ _ _ _ Hg Hf H). rewrite zlen_app, (Hf _ _ _ En). replace (zlen (i :: l)) with (zlen l + 1) by (unfold zlen; cbn [List.length]; lia). lia.
Qed.

Lemma last_step : forall A S (f : S -> A -> outcome S) l x s s', foldM f (l ++ [x]) s = Ok s' -> exists s1, f s1 x = Ok s'.
Proof.
  intros A S f l x. induction l as [|a l IH]; intros s s' H; cbn [app foldM] in H; apply bind_ok in H; destruct H as (s1 & E & H).
  - cbn in H. injection H as <-. eauto.
  - eauto.
Qed.

(** [pl_maxalloc p]: the largest slice that can be made *)
Theorem C62_sklearn :
  forall p r load e, pl_maxalloc p <= MaxInt -> SKEnsembleFromReader p r load = Ok e ->
  (usable e <-> NRawOutputGroups e <> 0) /\ 0 <= NRawOutputGroups e.
Proof.
  intros p r load e Ha H. unfold SKEnsembleFromReader in H. apply bind_ok in H. destruct H as ([[v h] r'] & _ & H).
  apply bind_ok in H. destruct H as (gb & _ & H). unfold SKEnsembleFromClass in H. cbv zeta in H.
  set (g := if gbNClasses gb =? 2 then 1 else gbNClasses gb) in *.
  destruct (_ =? 0); [discriminate|]. destruct (s64 (gbNEstimators gb * g) =? zlen (gbEstimators gb)) eqn:E1; [|discriminate]. cbn [negb] in H.
  apply bind_ok in H. destruct H as (base & Eb & H). apply bind_ok in H. destruct H as (_ & _ & H).
  apply bind_ok in H. destruct H as (ts & Et & H). injection H as <-.
  assert (G : 0 <= g <= pl_maxalloc p).
  { unfold sk_base in Eb. apply bind_ok in Eb. destruct Eb as (b0 & Em & _). unfold make_f64 in Em.
    destruct ((g <? 0) || (pl_maxalloc p <? g)) eqn:E; [discriminate|lia]. }
  assert (T : zlen ts <= MaxInt).
  { unfold sk_trees in Et. apply bind_ok in Et. destruct Et as ([ts' b'] & Ef & Et). injection Et as ->.
    assert (L : zlen ts = 0 + g * zlen (zseq (gbNEstimators gb))).
    { refine (foldM_trees (fun base i => mapM _ (zseq g)) _ [] base g ts b' (proj1 G) _ Ef).
      intros b i new Hn. apply mapM_ok_length in Hn. rewrite zseq_length in Hn. unfold zlen. lia. }
    rewrite L. clear L. unfold zlen at 1. rewrite zseq_length.
    pose proof (s64_range (gbNEstimators gb * g)) as R.
    destruct (Z.le_gt_cases (gbNEstimators gb) 0) as [N|N]. { replace (Z.to_nat (gbNEstimators gb)) with 0%nat by lia. unfold MaxInt; lia. }
    destruct (Z.eq_dec g 0) as [G0|G0]. { rewrite G0. unfold MaxInt. lia. }
    rewrite Z2Nat.id by lia.
    replace (gbNEstimators gb) with (gbNEstimators gb - 1 + 1) in Ef by lia. rewrite zseq_succ in Ef by lia.
    apply last_step in Ef. destruct Ef as ([t1 b1] & Ef). apply bind_ok in Ef. destruct Ef as (nw & En & Ef'). clear Ef'.
    assert (Il : In (g - 1) (zseq g)).
    { apply in_zseq. lia. }
    destruct (mapM_in _ _ _ _ _ En (g - 1) Il) as (y & Hy). cbv beta in Hy. apply bind_ok in Hy. destruct Hy as (est & Hest & _).
    apply at_ok in Hest. apply zget_range in Hest. unfold MaxInt, two63 in *. lia. }
  unfold usable, well_formed, arity_accepted, wants_leaves. cbn. unfold MaxInt, two63 in *.
  split; [|lia]. split; [intros ((? & ?) & _); lia|intros N]. repeat split; auto; try lia. intros (k & K). discriminate.
Qed.
Print Assumptions C62_sklearn.

(** ** Inputs that are accepted although the model they give is not usable *)

Definition misfit_file : bytes := file
  (["tree"; "version=v3"; "num_class=2"; "num_tree_per_iteration=2"; "max_feature_idx=1"; "objective=binary sigmoid:1"; "tree_sizes=100 100"; "";
    "Tree=0"; "num_leaves=2"; "num_cat=0"; "split_feature=0"; "threshold=5"; "decision_type=0"; "left_child=-1"; "right_child=-2"; "leaf_value=1 2"; "";
    "Tree=1"; "num_leaves=1"; "num_cat=0"; "leaf_value=3"; ""]%string).

(** A binary objective on a file with two groups loads: prediction then reports success and
    writes nothing. *)
Theorem C62_text_misfit_refuted :
  exists e, LGEnsembleFromReader amd64_text (mkReader misfit_file true) true = Ok e /\ misfit e /\ ~ usable e /\
    NFeatures e = 2 /\ NOutputGroups e = 1 /\ Predict amd64_text e [fint 0; fint 0] 0 [fint 7] = Ok [fint 7].
Proof.
  eexists. split; [vm_compute; reflexivity|]. split. { split; [discriminate|left; reflexivity]. }
  split. { intros (_ & A & _). discriminate A. }
  split; [vm_compute; reflexivity|]. split; vm_compute; reflexivity.
Qed.
Print Assumptions C62_text_misfit_refuted.

(** The same for XGBoost: objective binary:logistic with two output groups. *)
Definition x_misfit_file : bytes :=
  e_xg_file (x_header 2 (bs "binary:logistic") (bs "gbtree")) (x_model 2 2 [x_tree 2 x_stump; x_tree 2 x_stump]) [[]; []] [].
Theorem C62_xgb_misfit_refuted :
  exists e, XGEnsembleFromReader amd64 (mkReader x_misfit_file true) true = Ok e /\ misfit e /\ ~ usable e /\
    NFeatures e = 2 /\ NOutputGroups e = 1 /\ Predict amd64 e [fint 0; fint 0] 0 [fint 7] = Ok [fint 7].
Proof.
  eexists. split; [vm_compute; reflexivity|]. split. { split; [discriminate|left; reflexivity]. }
  split. { intros (_ & A & _). discriminate A. }
  split; [vm_compute; reflexivity|]. split; vm_compute; reflexivity.
Qed.
Print Assumptions C62_xgb_misfit_refuted.

(** A scikit-learn file that announces no classes and holds no trees loads; the model divides by
    zero when asked for its number of estimators, and in every prediction. *)
Definition k_empty : SklearnGradientBoosting := mkSkGB 0 [0; 1] 3 2 [] (fint 2) (mkInit (bs "LogOddsEstimator") [fint 10]).
Theorem C62_sklearn_no_groups_refuted :
  exists e, SKEnsembleFromReader amd64_text (k_file k_empty) false = Ok e /\ NRawOutputGroups e = 0 /\ ~ usable e /\
    (exists m, NEstimators e = Panic m) /\ exists m, Predict amd64_text e [fint 0; fint 0] 0 [fint 7] = Panic m.
Proof.
  eexists. split; [vm_compute; reflexivity|]. split; [reflexivity|].
  split. { intros ((A & _) & _). vm_compute in A. destruct A as (A & _). apply A. reflexivity. }
  split; eexists; vm_compute; reflexivity.
Qed.
Print Assumptions C62_sklearn_no_groups_refuted.

(** ** Concrete models that load and are usable *)

Example loaded_text : exists e, LGEnsembleFromReader amd64_text (mkReader ex_file true) true = Ok e /\ zlen ex_file <= MaxInt /\ usable e.
Proof.
  eexists. split; [vm_compute; reflexivity|]. split; [vm_compute; discriminate|].
  destruct (C62_lightgbm_text amd64_text ex_file true true _ ltac:(vm_compute; discriminate) ltac:(vm_compute; reflexivity)) as ([U|(_ & M & _)] & _); [exact U|].
  exfalso. apply M. vm_compute. reflexivity.
Qed.
Example loaded_xg : exists e, XGEnsembleFromReader amd64 (mkReader (x_file 2 2 [x_tree 2 x_stump; x_tree 2 x_stump]) true) false = Ok e /\ usable e.
Proof.
  eexists. split; [vm_compute; reflexivity|].
  destruct (C62_xgboost amd64 (mkReader (x_file 2 2 [x_tree 2 x_stump; x_tree 2 x_stump]) true) false _ ltac:(vm_compute; reflexivity)) as (U & _).
  apply U. split; [vm_compute; discriminate|intros K; discriminate K].
Qed.
Example loaded_sk : exists e, SKEnsembleFromReader amd64_text (k_file k_model) true = Ok e /\ pl_maxalloc amd64_text <= MaxInt /\ usable e.
Proof.
  eexists. split; [vm_compute; reflexivity|]. split; [vm_compute; discriminate|].
  destruct (C62_sklearn amd64_text (k_file k_model) true _ ltac:(vm_compute; discriminate) ltac:(vm_compute; reflexivity)) as (U & _).
  apply U. vm_compute. discriminate.
Qed.
Example loaded_json : exists e, LGEnsembleFromJSON amd64_text (Some ex_json) false = Ok e /\ zlen (model_trees e) <= MaxInt /\ usable e.
Proof.
  eexists. split; [vm_compute; reflexivity|]. split; [vm_compute; discriminate|].
  apply (C62_lightgbm_json amd64_text (Some ex_json) false); [vm_compute; reflexivity|vm_compute; discriminate].
Qed.
