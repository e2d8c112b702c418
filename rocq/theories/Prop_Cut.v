(** * C72: model files that are cut short, and what follows a model *)

From Coq Require Import ZArith List Bool String Lia ZifyBool.
From Verif Require Import Go GoFloat GoText UtilBits UtilText Cmd LgTree Transformation Ensembles Leaves LgTextIO LgJsonIO JsonText XgBin XgIO Pickle Pf_Fmt SkClasses SkIO
  Spec_Predict Spec_Params Demo DemoText Pf_Go Pf_Leaves Pf_Calls Pf_JsonText Pf_XgBin Pf_Stream Prop_Params Prop_LgText Prop_Xg Ex_LgText Ex_Sk.
Local Open Scope Z_scope.

(** ** XGBoost, JSON, pickle: the loader stops reading by itself *)

(** A file that loads, loads as the same model when more bytes follow.  So of a file that is cut
    short either nothing was needed that is missing, or the loader refuses it. *)
Theorem C72_xgboost :
  forall p part more eof eof' load,
  (forall e, XGEnsembleFromReader p (mkReader part eof) load = Ok e -> XGEnsembleFromReader p (mkReader (part ++ more) eof') load = Ok e) /\
  (forall e, XGBLinearFromReader p (mkReader part eof) load = Ok e -> XGBLinearFromReader p (mkReader (part ++ more) eof') load = Ok e).
Proof.
  intros p part more eof eof' load. split; intros e H.
  - unfold XGEnsembleFromReader in *. pose proof (ext_ensemble p load part eof more eof') as X. cbv beta in X.
    destruct (xg_ensemble_and_rest p (mkReader part eof) load) as [[e' r]| | |]; try discriminate. rewrite X. exact H.
  - unfold XGBLinearFromReader in *. pose proof (ext_linear p load part eof more eof') as X. cbv beta in X.
    destruct (xgblinear_and_rest p (mkReader part eof) load) as [[e' r]| | |]; try discriminate. rewrite X. exact H.
Qed.
Print Assumptions C72_xgboost.

Theorem C72_json :
  forall p limit part more eof eof' load e,
  LGEnsembleFromJSONReader p limit (mkReader part eof) load = Ok e -> LGEnsembleFromJSONReader p limit (mkReader (part ++ more) eof') load = Ok e.
Proof.
  intros p limit part more eof eof' load e H. unfold LGEnsembleFromJSONReader, first_value in *. cbn [rd_bytes] in *.
  destruct (value limit (S (2 * List.length part)) 0 part) as [[v r]|] eqn:V; [|unfold LGEnsembleFromJSON in H; destruct load; discriminate].
  cbn [option_map fst] in H. assert (N : ~ is_num v).
  { intros (lit & ->). unfold LGEnsembleFromJSON in H. destruct load; discriminate. }
  rewrite (proj1 (value_ext_all limit limit more (Z.le_refl _) (S (2 * List.length part))) (S (2 * List.length (part ++ more))) 0 part v r); [exact H| |exact V|auto].
  rewrite app_length. lia.
Qed.
Print Assumptions C72_json.

Lemma readLine_ext : forall a more eof eof' line r, readLine (mkReader a eof) = Ok (line, r) -> exists a', r = mkReader a' eof /\ readLine (mkReader (a ++ more) eof') = Ok (line, mkReader (a' ++ more) eof').
Proof.
  intros a more eof eof' line r. unfold readLine. cbn [rd_bytes rd_eof]. destruct (cut_line a) as [[l rest]|] eqn:E; [|discriminate].
  rewrite (cut_line_app a more l rest E). intros H. injection H as <- <-. eauto.
Qed.
Lemma step_ext : forall p op m a more eof eof' o, step p op m (mkReader a eof) = Ok o ->
  match o with
  | None => step p op m (mkReader (a ++ more) eof') = Ok None
  | Some (m', r') => exists a', r' = mkReader a' eof /\ step p op m (mkReader (a ++ more) eof') = Ok (Some (m', mkReader (a' ++ more) eof'))
  end.
Proof.
  intros p op m a more eof eof' o H. unfold step in *.
  assert (L : forall b line r, readLine (mkReader b eof) = Ok (line, r) -> exists a', r = mkReader a' eof /\ readLine (mkReader (b ++ more) eof') = Ok (line, mkReader (a' ++ more) eof'))
    by (intros b line r; apply readLine_ext).
  destruct op; try discriminate H;
  (repeat match type of H with
  | bind ?x _ = Ok _ => let q := fresh "q" in let E := fresh "E" in destruct x as [q| | |] eqn:E; try discriminate H; cbn [bind] in H |- *
  | (let (_, _) := ?q in _) = Ok _ => destruct q
  | (match ?x with _ => _ end) = Ok _ => destruct x eqn:?; try discriminate H
  end);
  (repeat match goal with
  | E : readLine _ = Ok (_, _) |- _ =>
      let a' := fresh "a'" in let R := fresh "R" in apply L in E; destruct E as (a' & -> & R); rewrite ?R; cbn [bind]
  end);
  (repeat match goal with E : ?x = _ |- context [?x] => rewrite E; cbn [bind] end);
  try (exfalso; exact (Errorf_ok _ _ _ _ _ H));
  try (injection H as <-; eauto).
Qed.
Lemma decode_ext : forall p fuel fuel' m a more eof eof' v h r, (fuel <= fuel')%nat -> decode_loop p fuel m (mkReader a eof) = Ok (v, h, r) ->
  exists r', decode_loop p fuel' m (mkReader (a ++ more) eof') = Ok (v, h, r').
Proof.
  intros p fuel. induction fuel as [|fuel IH]; intros [|fuel'] m a more eof eof' v h r L H; try discriminate; try lia. cbn [decode_loop rd_bytes rd_eof] in *.
  destruct a as [|op a]; [discriminate|]. cbn [app]. destruct (step p op m (mkReader a eof)) as [o| | |] eqn:E; try discriminate. cbn [bind] in H.
  pose proof (step_ext p op m a more eof eof' o E) as X. destruct o as [[m' r']|].
  - destruct X as (a' & -> & ->). cbn [bind]. eapply IH; [lia|exact H].
  - rewrite X. cbn [bind]. destruct (back m); try discriminate. cbn [bind] in *. injection H as <- <- <-. eauto.
Qed.
Theorem C72_sklearn :
  forall p part more eof eof' load e,
  SKEnsembleFromReader p (mkReader part eof) load = Ok e -> SKEnsembleFromReader p (mkReader (part ++ more) eof') load = Ok e.
Proof.
  intros p part more eof eof' load e H. unfold SKEnsembleFromReader, Decode in *. cbn [rd_bytes] in *.
  destruct (decode_loop p (S (List.length part)) newPickleMachine (mkReader part eof)) as [[[v h] r]| | |] eqn:E; try discriminate. cbn [bind] in H.
  assert (L : (S (List.length part) <= S (List.length (part ++ more)))%nat) by (rewrite app_length; lia).
  destruct (decode_ext p _ _ _ part more eof eof' v h r L E) as (r' & ->). exact H.
Qed.
Print Assumptions C72_sklearn.

(** ** LightGBM text: the loader takes the end of the file for the end of the last tree *)

(** A text that loads from a stream that breaks off with an error at its end was read to the blank
    line after its last tree.  What follows there does not matter. *)
Lemma params_loop_ext : forall fuel fuel' ps line a more eof' ps' r, (fuel <= fuel')%nat -> params_loop fuel ps line (mkReader a false) = Ok (ps', r) ->
  exists a', r = mkReader a' false /\ params_loop fuel' ps line (mkReader (a ++ more) eof') = Ok (ps', mkReader (a' ++ more) eof').
Proof.
  induction fuel as [|fuel IH]; intros [|fuel'] ps line a more eof' ps' r L H; try discriminate; try lia. cbn [params_loop] in *.
  destruct (params_line ps line) as [ps1| | |]; try discriminate. cbn [bind] in *. unfold read_string in *. cbn [rd_bytes rd_eof] in *.
  destruct (cut_line a) as [[l rest]|] eqn:E; [|discriminate]. rewrite (cut_line_app a more l rest E).
  destruct (beqb (trim_space l) []); [injection H as <- <-; eauto|]. eapply IH; [lia|exact H].
Qed.
Lemma ReadParams_ext : forall a more eof' ps r, ReadParamsUntilBlank (mkReader a false) = Ok (ps, r) ->
  exists a', r = mkReader a' false /\ ReadParamsUntilBlank (mkReader (a ++ more) eof') = Ok (ps, mkReader (a' ++ more) eof').
Proof.
  intros a more eof' ps r H. unfold ReadParamsUntilBlank, read_string in *. cbn [rd_bytes rd_eof] in *.
  destruct (cut_line a) as [[l rest]|] eqn:E; [|discriminate]. rewrite (cut_line_app a more l rest E). eapply params_loop_ext; [|exact H]. rewrite app_length. lia.
Qed.
Lemma read_trees_ext : forall p n a more eof' ts r, lg_read_trees p n (mkReader a false) = Ok (ts, r) ->
  exists a', r = mkReader a' false /\ lg_read_trees p n (mkReader (a ++ more) eof') = Ok (ts, mkReader (a' ++ more) eof').
Proof.
  intros p n. induction n as [|n IH]; intros a more eof' ts r H; cbn [lg_read_trees] in *; [injection H as <- <-; eauto|].
  unfold lgTreeFromReader in *. destruct (ReadParamsUntilBlank (mkReader a false)) as [[ps r1]| | |] eqn:E; try discriminate. destruct (ReadParams_ext a more eof' ps r1 E) as (a1 & -> & ->). cbn [bind] in *.
  destruct (lgTreeFromParams p ps) as [t| | |]; try discriminate. cbn [bind] in *. destruct (lg_read_trees p n (mkReader a1 false)) as [[ts' r2]| | |] eqn:E2; try discriminate.
  destruct (IH a1 more eof' ts' r2 E2) as (a2 & -> & ->). cbn [bind] in *. injection H as <- <-. eauto.
Qed.
Theorem C72_text_complete :
  forall p part more eof' load e,
  LGEnsembleFromReader p (mkReader part false) load = Ok e -> LGEnsembleFromReader p (mkReader (part ++ more) eof') load = Ok e.
Proof.
  intros p part more eof' load e H. unfold LGEnsembleFromReader in *.
  destruct (ReadParamsUntilBlank (mkReader part false)) as [[ps r1]| | |] eqn:E; try discriminate. destruct (ReadParams_ext part more eof' ps r1 E) as (a1 & -> & ->). cbn [bind] in *.
  destruct (lg_header ps) as [[m n]| | |]; try discriminate. cbn [bind] in *. destruct (lg_transform _ _ _ _) as [tr| | |]; try discriminate. cbn [bind] in *.
  destruct (lg_read_trees p (Z.to_nat n) (mkReader a1 false)) as [[ts r2]| | |] eqn:E2; try discriminate. destruct (read_trees_ext p _ a1 more eof' ts r2 E2) as (a2 & -> & ->). cbn [bind] in *. exact H.
Qed.
Print Assumptions C72_text_complete.

(** the blocks of a part of a file and of the whole file: the same, or the part ends here *)
Lemma params_loop_cut : forall fuel fuel' ps line a more eof ps1 r1 ps2 r2,
  params_loop fuel ps line (mkReader a true) = Ok (ps1, r1) -> params_loop fuel' ps line (mkReader (a ++ more) eof) = Ok (ps2, r2) ->
  (exists a', r1 = mkReader a' true /\ r2 = mkReader (a' ++ more) eof /\ ps2 = ps1) \/ r1 = mkReader [] true.
Proof.
  induction fuel as [|fuel IH]; intros [|fuel'] ps line a more eof ps1 r1 ps2 r2 H1 H2; try discriminate. cbn [params_loop] in *.
  destruct (params_line ps line) as [ps0| | |]; try discriminate. cbn [bind] in *. unfold read_string in *. cbn [rd_bytes rd_eof] in *.
  destruct (cut_line a) as [[l rest]|] eqn:E.
  - rewrite (cut_line_app a more l rest E) in H2. destruct (beqb (trim_space l) []); [|eapply IH; eauto].
    injection H1 as <- <-. injection H2 as <- <-. left. eauto.
  - right. destruct (beqb (trim_space a) []); [injection H1 as <- <-; reflexivity|]. clear - H1. destruct fuel as [|fuel]; [discriminate|]. cbn [params_loop] in H1.
    destruct (params_line ps0 (trim_space a)); try discriminate. cbn in H1. injection H1 as <- <-. reflexivity.
Qed.
Lemma ReadParams_cut : forall a more eof ps1 r1 ps2 r2,
  ReadParamsUntilBlank (mkReader a true) = Ok (ps1, r1) -> ReadParamsUntilBlank (mkReader (a ++ more) eof) = Ok (ps2, r2) ->
  (exists a', r1 = mkReader a' true /\ r2 = mkReader (a' ++ more) eof /\ ps2 = ps1) \/ r1 = mkReader [] true.
Proof.
  intros a more eof ps1 r1 ps2 r2 H1 H2. unfold ReadParamsUntilBlank, read_string in *. cbn [rd_bytes rd_eof] in *.
  destruct (cut_line a) as [[l rest]|] eqn:E; [|discriminate]. rewrite (cut_line_app a more l rest E) in H2. eapply params_loop_cut; eauto.
Qed.
Lemma trees_at_end : forall p n x, lg_read_trees p n (mkReader [] true) = Ok x -> n = O.
Proof. intros p [|n] x H; [reflexivity|discriminate]. Qed.
Lemma read_trees_cut : forall p n a more eof ts1 r1 ts2 r2,
  lg_read_trees p n (mkReader a true) = Ok (ts1, r1) -> lg_read_trees p n (mkReader (a ++ more) eof) = Ok (ts2, r2) ->
  List.length ts1 = List.length ts2 /\ removelast ts1 = removelast ts2.
Proof.
  intros p n. induction n as [|n IH]; intros a more eof ts1 r1 ts2 r2 H1 H2; cbn [lg_read_trees] in *; [injection H1 as <- <-; injection H2 as <- <-; auto|].
  unfold lgTreeFromReader in *.
  destruct (ReadParamsUntilBlank (mkReader a true)) as [[ps s1]| | |] eqn:E1; try discriminate. destruct (ReadParamsUntilBlank (mkReader (a ++ more) eof)) as [[qs s2]| | |] eqn:E2; try discriminate. cbn [bind] in *.
  destruct (lgTreeFromParams p ps) as [t1| | |] eqn:T1; try discriminate. destruct (lgTreeFromParams p qs) as [t2| | |] eqn:T2; try discriminate. cbn [bind] in *.
  destruct (lg_read_trees p n s1) as [[us1 v1]| | |] eqn:F1; try discriminate. destruct (lg_read_trees p n s2) as [[us2 v2]| | |] eqn:F2; try discriminate. cbn [bind] in *.
  injection H1 as <- <-. injection H2 as <- <-. destruct (ReadParams_cut _ _ _ _ _ _ _ E1 E2) as [(a' & -> & -> & ->)| ->].
  - destruct (IH _ _ _ _ _ _ _ F1 F2) as [L R]. split; [cbn; congruence|]. assert (t2 = t1) by congruence. subst t2.
    destruct us1, us2; try discriminate; cbn in *; congruence.
  - apply trees_at_end in F1 as Hn. subst n. cbn in F1, F2. injection F1 as <- <-. injection F2 as <- <-. auto.
Qed.

Lemma text_cut : forall p part more eof load e e',
  LGEnsembleFromReader p (mkReader part true) load = Ok e' -> LGEnsembleFromReader p (mkReader (part ++ more) eof) load = Ok e ->
  exists us1 us2 mf g nm avg tr, e' = mkEnsemble (BLg (mkLgEnsemble us1 mf g nm avg)) tr /\ e = mkEnsemble (BLg (mkLgEnsemble us2 mf g nm avg)) tr /\
    zlen us1 = zlen us2 /\ removelast us1 = removelast us2.
Proof.
  intros p part more eof load e e' H1 H2. pose proof (C31_header p part true load e' H1) as (hd & rest0 & g & mfi & trees & avg & k & Hb0 & Hh & Lt & Ek & K1 & Ne0 & Ng0 & Nm0).
  assert (G1 : 1 <= g) by (destruct Hh; assumption).
  unfold LGEnsembleFromReader in *.
  destruct (ReadParamsUntilBlank (mkReader part true)) as [[ps s1]| | |] eqn:E1; try discriminate. destruct (ReadParamsUntilBlank (mkReader (part ++ more) eof)) as [[qs s2]| | |] eqn:E2; try discriminate. cbn [bind] in *.
  destruct (lg_header ps) as [[m1 n1]| | |] eqn:A1; try discriminate. destruct (lg_header qs) as [[m2 n2]| | |] eqn:A2; try discriminate. cbn [bind] in *.
  destruct (lg_transform ps _ _ _) as [tr1| | |] eqn:B1; try discriminate. destruct (lg_transform qs _ _ _) as [tr2| | |] eqn:B2; try discriminate. cbn [bind] in *.
  destruct (lg_read_trees p (Z.to_nat n1) s1) as [[us1 v1]| | |] eqn:F1; try discriminate. destruct (lg_read_trees p (Z.to_nat n2) s2) as [[us2 v2]| | |] eqn:F2; try discriminate. cbn [bind] in *.
  injection H1 as <-. injection H2 as <-.
  destruct (ReadParams_cut _ _ _ _ _ _ _ E1 E2) as [(a' & -> & -> & ->)| ->].
  - assert (m2 = m1) by congruence. assert (n2 = n1) by congruence. assert (tr2 = tr1) by congruence. subst m2 n2 tr2.
    destruct (read_trees_cut _ _ _ _ _ _ _ _ _ F1 F2) as [L R]. assert (Lz : zlen us1 = zlen us2) by (unfold zlen; congruence).
    exists us1, us2. do 5 eexists. split; [reflexivity|]. split; [reflexivity|]. auto.
  - apply trees_at_end in F1 as Hn. exfalso. rewrite Hn in F1. cbn in F1. injection F1 as <- <-. cbn in Lt. nia.
Qed.
Lemma zget_removelast : forall A (l : list A) i, i < zlen l - 1 -> zget (removelast l) i = zget l i.
Proof.
  intros A l i H. destruct l as [|a l]; [reflexivity|]. set (f := a :: l) in *. assert (N : f <> []) by discriminate. clearbody f.
  rewrite (app_removelast_last a N) at 2. symmetry. apply zget_app_l. rewrite (app_removelast_last a N) in H. rewrite zlen_app, zlen_cons in H. change (zlen (@nil A)) with 0 in H. lia.
Qed.

(** A part of a LightGBM text file that loads gives a model that differs from the model in the file
    in the last tree at most (a part that ends within the header or an earlier tree is refused).
    Whatever is asked of fewer than all its estimators is answered as the whole model would. *)
Theorem C72_text_partial :
  forall p part more eof load e e',
  LGEnsembleFromReader p (mkReader part true) load = Ok e' -> LGEnsembleFromReader p (mkReader (part ++ more) eof) load = Ok e ->
  zlen (model_trees e') = zlen (model_trees e) /\ removelast (model_trees e') = removelast (model_trees e) /\
  NEstimators e' = NEstimators e /\ NRawOutputGroups e' = NRawOutputGroups e /\ NFeatures e' = NFeatures e /\ Transformation_ e' = Transformation_ e /\ Name e' = Name e /\
  (forall k n x predictions, NEstimators e = Ok k -> 0 < n < k -> Predict p e' x n predictions = Predict p e x n predictions).
Proof.
  intros p part more eof load e e' H1 H2. pose proof (C31_header p part true load e' H1) as (hd & rest0 & g' & mfi & trees & avg' & k' & Hb0 & Hh & Lt & Ek & K1 & Ne0 & Ng0 & Nm0).
  assert (G1 : 1 <= g') by (destruct Hh; assumption).
  destruct (text_cut p part more eof load e e' H1 H2) as (us1 & us2 & mf & g & nm & avg & tr & -> & -> & Lz & R). clear H1 H2.
  unfold model_trees, NEstimators, NRawOutputGroups, NFeatures, Name, Transformation_ in *. cbn [core eBase eTransform lgTrees lgNRawOutputGroups b_NEstimators b_NRawOutputGroups b_NFeatures b_Name] in *. subst g'.
  split; [exact Lz|]. split; [exact R|]. unfold trees_NEstimators. rewrite Lz. do 5 (split; [reflexivity|]).
  intros k n x preds Hk Hn. assert (Ekk : k = k') by (unfold trees_NEstimators in Ne0; rewrite Lz in Ne0; congruence). subst k'.
  assert (I : forall s, b_predictInner p (BLg (mkLgEnsemble us1 mf g nm avg)) x n s = b_predictInner p (BLg (mkLgEnsemble us2 mf g nm avg)) x n s).
  { intros s. cbn [b_predictInner]. unfold lg_predictInner. cbv zeta. cbn [lgTrees lgNRawOutputGroups lgAverageOutput]. f_equal. rewrite !flat_map_concat_map. f_equal. apply map_ext_in. intros i Hi. apply map_ext_in. intros j Hj. apply in_zseq in Hi. apply in_zseq in Hj.
    unfold at_. rewrite <- (zget_removelast _ us1), <- (zget_removelast _ us2), R by nia. reflexivity. }
  unfold Predict, NOutputGroups, NFeatures. cbn [eBase eTransform b_NFeatures lgMaxFeatureIdx b_adjustNEstimators lgTrees lgNRawOutputGroups]. unfold trees_adjustNEstimators, trees_NEstimators. rewrite Lz, Hk. cbn [bind].
  replace (0 <? n) with true by lia. unfold UtilBits.MinInt. replace (if n <? k then n else k) with n by (destruct (n <? k) eqn:?; lia).
  destruct (_ <? _); [reflexivity|]. destruct (_ <? _); [reflexivity|]. unfold checkNEstimators, predictInnerAndTransform, NEstimators, NRawOutputGroups. cbn [eBase eTransform b_NEstimators b_NRawOutputGroups lgTrees lgNRawOutputGroups]. unfold trees_NEstimators. rewrite Lz, Hk. cbn [bind].
  destruct (Type_t tr =? TypeLeafIndex); [replace (n =? k) with false by lia; reflexivity|]. rewrite !I. reflexivity.
Qed.
Print Assumptions C72_text_partial.

(** the claim itself fails for the last tree: the file of [Ex_LgText], cut within the number 0.75
    of its last leaf, loads, and its predictions are others *)
Definition cut_file : bytes := file
  (["tree"; "version=v2"; "num_class=1"; "num_tree_per_iteration=1"; "max_feature_idx=1"; "objective=binary sigmoid:1"; "tree_sizes=100 200"; "";
    "Tree=0"; "num_leaves=3"; "num_cat=1"; "split_feature=0 1"; "threshold=0 2.5"; "decision_type=1 10";
    "left_child=1 -1"; "right_child=-3 -2"; "leaf_value=0.5 -1.25 3"; "cat_boundaries=0 2"; "cat_threshold=1 4"; "shrinkage=1"; ""; "";
    "Tree=1"; "num_leaves=1"; "num_cat=0"])%string ++ bs "leaf_value=0.7".
Theorem C72_text_refuted : exists part more e e' x out out',
  LGEnsembleFromReader amd64_text (mkReader part true) false = Ok e' /\ LGEnsembleFromReader amd64_text (mkReader (part ++ more) true) false = Ok e /\
  Predict amd64_text e' x 0 [fzero] = Ok out' /\ Predict amd64_text e x 0 [fzero] = Ok out /\ out' <> out.
Proof.
  exists cut_file, (skipn (List.length cut_file) ex_file).
  eexists _, _, [fint 33; fint 2], _, _. split; [vm_compute; reflexivity|]. split; [vm_compute; reflexivity|]. split; [vm_compute; reflexivity|]. split; [vm_compute; reflexivity|]. discriminate.
Qed.

(** the hypotheses are met: a complete text on a stream that breaks off at its end, a pickle, and
    each of them cut one byte short of what is needed *)
Example C72_demo :
  is_ok (LGEnsembleFromReader amd64_text (mkReader ex_file false) true) = true /\ is_ok (LGEnsembleFromReader amd64_text (mkReader cut_file false) true) = false /\
  is_ok (LGEnsembleFromReader amd64_text (mkReader cut_file true) true) = true /\ is_ok (LGEnsembleFromReader amd64_text (mkReader (firstn 300 ex_file) true) true) = false /\
  is_ok (SKEnsembleFromReader amd64_text (k_file k_model) false) = true /\
  is_ok (SKEnsembleFromReader amd64_text (mkReader (removelast (rd_bytes (k_file k_model))) true) false) = false.
Proof. vm_compute. repeat split. Qed.
