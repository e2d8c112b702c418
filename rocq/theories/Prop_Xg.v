(** * Loading XGBoost models (C36-C40, XGBoost part of C29, C30, C41) *)

From Coq Require Import ZArith List Bool String Lia ZifyBool.
From Verif Require Import Go GoFloat GoText LgTree TreeBuild Transformation Ensembles Leaves XgBin XgIO Parallel.
From Verif Require Import Spec_Predict Spec_Split Spec_Tree Spec_XgBin Spec_XgTree Spec_XgFile.
From Verif Require Import Pf_Go Pf_Leaves Pf_Build Pf_Placed Pf_Append Pf_XgBin Pf_XgTree Pf_Rows Prop_Batch Prop_Values Pf_Returns Prop_LgText.

(** ** C36: round trips.  Every reader gives back the encoded value and stops behind it. *)
Definition reads {A : Type} (rd : reader -> outcome (A * reader)) (enc : bytes) (x : A) : Prop :=
  forall rest eof, rd (mkReader (enc ++ rest) eof) = Ok (x, mkReader rest eof).

Theorem C36_header_round_trip : forall p h, header_ok_x (pl_maxalloc p) h -> reads (ReadModelHeader p) (e_header h) h.
Proof. exact rt_header. Qed.
Theorem C36_gbtree_round_trip : forall p m leaf_vectors, gbtree_ok (pl_maxalloc p) m leaf_vectors ->
  reads (ReadGBTreeModel p) (e_gbtree m leaf_vectors) m.
Proof. exact rt_gbtree. Qed.
Theorem C36_tree_round_trip : forall p t leaf_vector, tree_ok_x (pl_maxalloc p) t leaf_vector ->
  reads (ReadTreeModel p) (e_tree t leaf_vector) t.
Proof. exact rt_tree. Qed.
Theorem C36_gblinear_round_trip : forall p m, gblinear_ok (pl_maxalloc p) m -> reads (ReadGBLinearModel p) (e_gblinear m) m.
Proof. exact rt_gblinear. Qed.
Theorem C36_string_and_slice_round_trip : forall p,
  (forall s, vector_ok (pl_maxalloc p) (zlen s) -> reads (ReadString p) (e_string s) s) /\
  (forall l, Forall uint32 l -> vector_ok (pl_maxalloc p) (zlen l) -> reads (ReadFloat32Slice p) (e_vector l) l) /\
  (forall l, Forall int32 l -> vector_ok (pl_maxalloc p) (zlen l) -> reads (ReadInt32Slice p) (e_vector l) l).
Proof. intros p. split; [|split]; intros; [apply rt_string|apply rt_floats|apply rt_ints]; auto. Qed.
Print Assumptions C36_header_round_trip.
Print Assumptions C36_gbtree_round_trip.
Print Assumptions C36_tree_round_trip.
Print Assumptions C36_gblinear_round_trip.
Print Assumptions C36_string_and_slice_round_trip.

(** ** C29 *)
Lemma mapM_not_hang : forall A B (f : A -> outcome B) l, (forall x, f x <> Hang) -> mapM f l <> Hang.
Proof.
  intros A B f l H. induction l as [|x l IH]; cbn [mapM]; [discriminate|]. apply bind_not_hang; auto. intros y _. apply bind_not_hang; auto. discriminate.
Qed.

(** a tree built from any node array, cyclic or not, terminates; the number of iterations is
    bounded by C29_loop_bounded *)
Theorem C29_xgb_source_returns : forall nodes, source_returns (xg_source nodes).
Proof. exact xg_source_returns. Qed.
Theorem C29_xgb_tree_returns : forall p m numFeatures, xgTreeFromTreeModel p m numFeatures <> Hang.
Proof.
  intros p m nf. unfold xgTreeFromTreeModel. destruct (_ <? _); [discriminate|]. destruct (negb _); [discriminate|]. destruct (_ =? 0); [discriminate|].
  destruct (_ =? 1).
  - apply bind_not_hang; [apply at_not_hang|]. discriminate.
  - apply bind_not_hang; [apply make_check_not_hang|]. intros _ _. apply build_returns. apply xg_source_returns.
Qed.
Print Assumptions C29_xgb_tree_returns.

(** ** Reading past the end *)
Lemma ext_weights : forall p dart n, extends (xg_weights p dart n).
Proof.
  intros p dart n. unfold xg_weights. apply ext_pure; [apply make_check_not_hang|]. intros _. apply ext_if.
  - apply (ext_bind _ _ (ReadFloat32Slice p)); [apply ext_floats|]. intros w. apply ext_if; [apply ext_err|apply ext_ret].
  - apply ext_ret.
Qed.
Lemma transform_not_hang : forall n load g, xg_transform n load g <> Hang.
Proof. intros. unfold xg_transform. destruct load; [|discriminate]. destruct (beqb _ _); discriminate. Qed.

Lemma ext_ensemble : forall p load, extends (fun r => xg_ensemble_and_rest p r load).
Proof.
  intros p load. unfold xg_ensemble_and_rest. apply (ext_bind _ _ (ReadModelHeader p)); [apply ext_header|]. intros h.
  apply ext_pure. { destruct (beqb _ _); [discriminate|]. destruct (beqb _ _); discriminate. }
  intros name. cbv zeta. apply ext_if; [apply ext_err|]. apply (ext_bind _ _ (ReadGBTreeModel p)); [apply ext_gbtree|]. intros m.
  apply ext_if; [apply ext_err|]. apply (ext_bind _ _ (xg_weights p _ _)); [apply ext_weights|]. intros w.
  apply ext_if; [apply ext_err|]. apply ext_if; [apply ext_err|]. apply ext_if; [apply ext_err|].
  apply ext_pure; [apply transform_not_hang|]. intros tr. apply ext_if; [apply ext_err|]. apply ext_pure.
  { apply mapM_not_hang. intros i. apply bind_not_hang; [apply at_not_hang|]. intros t _. apply C29_xgb_tree_returns. }
  intros ts. apply ext_ret.
Qed.
Lemma ext_linear : forall p load, extends (fun r => xgblinear_and_rest p r load).
Proof.
  intros p load. unfold xgblinear_and_rest. apply (ext_bind _ _ (ReadModelHeader p)); [apply ext_header|]. intros h.
  apply ext_if; [apply ext_err|]. apply ext_if; [apply ext_err|]. apply (ext_bind _ _ (ReadGBLinearModel p)); [apply ext_gblinear|]. intros m. cbv zeta.
  apply ext_pure; [apply transform_not_hang|]. intros tr. apply ext_ret.
Qed.

(** loading any byte stream terminates *)
Theorem C29_xgb_load_returns : forall p r load, XGEnsembleFromReader p r load <> Hang /\ XGBLinearFromReader p r load <> Hang.
Proof.
  intros p [s eof] load. split.
  - pose proof (ext_ensemble p load s eof [] eof) as H. unfold XGEnsembleFromReader. apply bind_not_hang; [|intros [e r] _; discriminate].
    intros K. cbv beta in H. rewrite K in H. contradiction.
  - pose proof (ext_linear p load s eof [] eof) as H. unfold XGBLinearFromReader. apply bind_not_hang; [|intros [e r] _; discriminate].
    intros K. cbv beta in H. rewrite K in H. contradiction.
Qed.
Print Assumptions C29_xgb_load_returns.

(** the outcome with another rest of the stream *)
Definition with_rest {A : Type} (x : outcome (A * reader)) (r : reader) : outcome (A * reader) := let* (a, _) := x in Ok (a, r).

(** the loaders stop behind the model and do not look at what follows *)
Lemma xg_weights_rest : forall p h weights n r eof, Forall uint32 weights -> vector_ok (pl_maxalloc p) (zlen weights) ->
  xg_weights p (is_dart h) n (mkReader ((if is_dart h then e_vector weights else []) ++ r) eof) =
  let* w := (let* _ := make_check p n in
             if is_dart h then if negb (zlen weights =? n) then Err "unexpected len(weightDrop) for 'dart'" else Ok (map f64_of_f32bits weights)
             else Ok (repeat fone (Z.to_nat n))) in Ok (w, mkReader r eof).
Proof.
  intros p h weights n r eof F V. unfold xg_weights. destruct (make_check p n) as [[]|s|s|]; cbn [bind]; auto. destruct (is_dart h).
  - rewrite rt_floats by auto. cbn [bind]. destruct (negb _); reflexivity.
  - reflexivity.
Qed.
Lemma ensemble_rest : forall p h m vs ws rest rest' eof eof' load, xg_file_ok (pl_maxalloc p) h m vs ws ->
  xg_ensemble_and_rest p (mkReader (e_xg_file h m vs ws ++ rest) eof) load =
  with_rest (xg_ensemble_and_rest p (mkReader (e_xg_file h m vs ws ++ rest') eof') load) (mkReader rest eof).
Proof.
  intros p h m vs ws rest rest' eof eof' load (H1 & H2 & H3 & H4). unfold xg_ensemble_and_rest, e_xg_file.
  rewrite <- !app_assoc. rewrite !rt_header by auto. cbn [bind]. destruct (if beqb (mhNameGbm h) _ then _ else _) as [name|s|s|]; cbn [bind]; try reflexivity.
  cbv zeta. destruct (_ =? 0); [reflexivity|]. rewrite !(rt_gbtree _ _ _ H2). cbn [bind]. destruct (_ <? _); [reflexivity|].
  fold (is_dart h). rewrite !xg_weights_rest by auto. destruct (let* _ := make_check _ _ in _) as [w|s|s|]; cbn [bind]; try reflexivity.
  destruct (negb _); [reflexivity|]. destruct (negb _); [reflexivity|]. destruct (negb _); [reflexivity|].
  destruct (xg_transform _ _ _) as [tr|s|s|]; cbn [bind]; try reflexivity. destruct (_ =? 0); [reflexivity|].
  destruct (mapM _ _) as [ts|s|s|]; reflexivity.
Qed.
Lemma linear_rest : forall p h m rest rest' eof eof' load, xgl_file_ok (pl_maxalloc p) h m ->
  xgblinear_and_rest p (mkReader (e_xgl_file h m ++ rest) eof) load =
  with_rest (xgblinear_and_rest p (mkReader (e_xgl_file h m ++ rest') eof') load) (mkReader rest eof).
Proof.
  intros p h m rest rest' eof eof' load (H1 & H2). unfold xgblinear_and_rest, e_xgl_file. rewrite <- !app_assoc. rewrite !rt_header by auto. cbn [bind].
  destruct (negb _); [reflexivity|]. destruct (_ =? 0); [reflexivity|]. rewrite !rt_gblinear by auto. cbn [bind]. cbv zeta.
  destruct (xg_transform _ _ _) as [tr|s|s|]; reflexivity.
Qed.
Lemma with_rest_ok : forall A (x : outcome (A * reader)) r e r', with_rest x r = Ok (e, r') -> r' = r.
Proof. intros A [[a b]|m|m|] r e r' H; cbn in H; try discriminate. injection H as _ <-. auto. Qed.

Lemma prefix_not_ok : forall A (rd : reader -> outcome (A * reader)) s, extends rd ->
  (forall eof e r, rd (mkReader s eof) = Ok (e, r) -> r = mkReader [] eof) ->
  forall pre more eof, s = pre ++ more -> more <> [] ->
  (forall e r, rd (mkReader pre eof) <> Ok (e, r)) /\
  ((exists e r, rd (mkReader s eof) = Ok (e, r)) -> exists msg, rd (mkReader pre eof) = Err msg).
Proof.
  intros A rd s H R pre more eof -> N. specialize (H pre eof more eof). split.
  - intros e r E. rewrite E in H. apply R in H. injection H as H. destruct (rd_bytes r); [|discriminate]. contradiction.
  - intros (e & r & E). destruct (rd (mkReader pre eof)) as [[a r']|msg|msg|]; eauto; [|rewrite E in H; discriminate|contradiction].
    rewrite H in E. assert (K := R _ _ _ H). injection K as K. destruct (rd_bytes r'); [contradiction|discriminate].
Qed.

(** ** C37: no proper prefix of an encoded model loads; if the whole loads, a prefix is
    rejected with an error (not a panic) *)
Theorem C37_truncated_trees :
  forall p h m leaf_vectors weights load pre more eof,
  xg_file_ok (pl_maxalloc p) h m leaf_vectors weights ->
  e_xg_file h m leaf_vectors weights = pre ++ more -> more <> [] ->
  (forall e, XGEnsembleFromReader p (mkReader pre eof) load <> Ok e) /\
  ((exists e, XGEnsembleFromReader p (mkReader (pre ++ more) eof) load = Ok e) ->
   exists msg, XGEnsembleFromReader p (mkReader pre eof) load = Err msg).
Proof.
  intros p h m vs ws load pre more eof Hok E N.
  destruct (prefix_not_ok _ _ (e_xg_file h m vs ws) (ext_ensemble p load)
    ltac:(intros eof0 e r K; rewrite <- (app_nil_r (e_xg_file h m vs ws)), (ensemble_rest p h m vs ws [] [] eof0 eof0) in K by auto; eapply with_rest_ok; eauto) pre more eof E N) as [A B].
  unfold XGEnsembleFromReader. split.
  - intros e K. apply bind_ok in K. destruct K as ([e' r] & K & _). exact (A _ _ K).
  - intros [e K]. apply bind_ok in K. destruct K as ([e' r] & K & _). rewrite <- E in K. destruct B as [msg ->]; [eauto|]. eexists. reflexivity.
Qed.
Print Assumptions C37_truncated_trees.

Theorem C37_truncated_linear :
  forall p h m load pre more eof,
  xgl_file_ok (pl_maxalloc p) h m -> e_xgl_file h m = pre ++ more -> more <> [] ->
  (forall e, XGBLinearFromReader p (mkReader pre eof) load <> Ok e) /\
  ((exists e, XGBLinearFromReader p (mkReader (pre ++ more) eof) load = Ok e) ->
   exists msg, XGBLinearFromReader p (mkReader pre eof) load = Err msg).
Proof.
  intros p h m load pre more eof Hok E N.
  destruct (prefix_not_ok _ _ (e_xgl_file h m) (ext_linear p load)
    ltac:(intros eof0 e r K; rewrite <- (app_nil_r (e_xgl_file h m)), (linear_rest p h m [] [] eof0 eof0) in K by auto; eapply with_rest_ok; eauto) pre more eof E N) as [A B].
  unfold XGBLinearFromReader. split.
  - intros e K. apply bind_ok in K. destruct K as ([e' r] & K & _). exact (A _ _ K).
  - intros [e K]. apply bind_ok in K. destruct K as ([e' r] & K & _). rewrite <- E in K. destruct B as [msg ->]; [eauto|]. eexists. reflexivity.
Qed.
Print Assumptions C37_truncated_linear.

(** what follows the model in the file has no influence *)
Theorem C37_trailing_bytes_ignored :
  forall p load rest eof eof',
  (forall h m leaf_vectors weights, xg_file_ok (pl_maxalloc p) h m leaf_vectors weights ->
     XGEnsembleFromReader p (mkReader (e_xg_file h m leaf_vectors weights ++ rest) eof) load =
     XGEnsembleFromReader p (mkReader (e_xg_file h m leaf_vectors weights) eof') load) /\
  (forall h m, xgl_file_ok (pl_maxalloc p) h m ->
     XGBLinearFromReader p (mkReader (e_xgl_file h m ++ rest) eof) load = XGBLinearFromReader p (mkReader (e_xgl_file h m) eof') load).
Proof.
  intros p load rest eof eof'. split.
  - intros h m vs ws H. unfold XGEnsembleFromReader. rewrite (ensemble_rest p h m vs ws rest [] eof eof' load H), app_nil_r.
    destruct (xg_ensemble_and_rest p _ load) as [[e r]|s|s|]; reflexivity.
  - intros h m H. unfold XGBLinearFromReader. rewrite (linear_rest p h m rest [] eof eof' load H), app_nil_r.
    destruct (xgblinear_and_rest p _ load) as [[e r]|s|s|]; reflexivity.
Qed.
Print Assumptions C37_trailing_bytes_ignored.

(** ** C38 *)
Theorem C38_tree_partial :
  forall p numFeatures m t, xtree_says numFeatures m t ->
  Forall (fun n => uint32 (xSIndex n)) (tmNodes m) -> zlen (tmNodes m) < 2 ^ 31 -> zlen (tmNodes m) <= pl_maxalloc p -> 0 <= numFeatures < 2 ^ 31 ->
  exists T ren, xgTreeFromTreeModel p m numFeatures = Ok T /\
    nLeaves T = zlen (leaves_of (reference flt t)) /\ renumbers (reference flt t) ren /\
    (* comparing with <= instead of <, the loaded tree is the tree of the file *)
    (forall x v id, walk (reference fle t) x = Some (v, id) -> predict p T x = Ok (v, ren id)) /\
    (* hence as XGBoost walks it, unless a feature on the way equals the split condition *)
    (forall x v id, no_ties t x -> walk (reference flt t) x = Some (v, id) -> predict p T x = Ok (v, ren id)).
Proof.
  intros p nf m t H Hu Hz Ha Hn. destruct (xg_tree_loads p nf m t H Hu Hz Ha Hn) as (T & ren & E & L & R & W).
  assert (LV : forall t, leaves_of (reference fle t) = leaves_of (reference flt t)).
  { induction t0; cbn [reference leaves_of]; congruence. }
  unfold renumbers in *. rewrite LV in *. exists T, ren. split; [exact E|]. split; [exact L|]. split; [exact R|]. split; [exact W|].
  intros x v id NT Hw. apply W. rewrite no_ties_walk; auto.
Qed.
Print Assumptions C38_tree_partial.

(** ** C39 *)
Lemma info_pattern : forall g l c, 1 <= g -> 0 <= c < g -> (forall i, 0 <= i < zlen l -> zget l i = Some ((c + i) mod g)) -> check_tree_info g c l = true.
Proof.
  intros g l. induction l as [|a l IH]; intros c Hg Hc H; cbn [check_tree_info]; auto. rewrite zlen_cons in H. pose proof (zlen_nonneg _ l).
  pose proof (H 0 ltac:(lia)) as HH. rewrite zget_cons_0 in HH. injection HH as ->. rewrite Z.add_0_r, Z.mod_small by lia. rewrite Z.eqb_refl. cbn [andb].
  apply IH; auto.
  - destruct (Z.leb_spec g (c + 1)); lia.
  - intros i Hi. specialize (H (1 + i) ltac:(lia)). rewrite zget_cons in H by lia. replace (1 + i - 1) with i in H by lia. rewrite H. f_equal.
    destruct (Z.leb_spec g (c + 1)).
    + replace (c + (1 + i)) with (i + 1 * g) by lia. rewrite Z_mod_plus_full. f_equal; lia.
    + f_equal. lia.
Qed.

Lemma mapM_Forall2 : forall A B C (f : A -> outcome B) (R : B -> C -> Prop) l cs,
  Forall2 (fun x c => exists y, f x = Ok y /\ R y c) l cs -> exists ys, mapM f l = Ok ys /\ Forall2 R ys cs.
Proof.
  intros A B C f R l cs H. induction H as [|x c l cs (y & E & Hr) H (ys & Es & Hs)]; cbn [mapM]; [exists []; split; auto|].
  rewrite E. cbn [bind]. rewrite Es. cbn [bind]. exists (y :: ys). split; auto.
Qed.

Lemma mapM_app : forall A B (f : A -> outcome B) a b, mapM f (a ++ b) = let* x := mapM f a in let* y := mapM f b in Ok (x ++ y).
Proof.
  intros A B f a b. induction a as [|x a IH]; cbn [app mapM bind]; [destruct (mapM f b); reflexivity|]. destruct (f x); cbn [bind]; auto. rewrite IH.
  destruct (mapM f a); cbn [bind]; auto. destruct (mapM f b); reflexivity.
Qed.
Lemma mapM_ext_in : forall A B (f g : A -> outcome B) l, (forall x, In x l -> f x = g x) -> mapM f l = mapM g l.
Proof.
  intros A B f g l H. induction l as [|x l IH]; cbn [mapM]; auto. rewrite (H x) by (cbn; auto). destruct (g x); cbn [bind]; auto. rewrite IH by (cbn in H; auto). reflexivity.
Qed.
Lemma mapM_index : forall A B (f : A -> outcome B) (l : list A), mapM (fun i => let* t := at_ l i in f t) (zseq (zlen l)) = mapM f l.
Proof.
  intros A B f l. induction l as [|x l IH] using rev_ind; [reflexivity|]. rewrite zlen_app, (zlen_cons _ x), zlen_nil, Z.add_0_r.
  pose proof (zlen_nonneg _ l). rewrite zseq_succ, !mapM_app by lia. rewrite <- IH.
  rewrite (mapM_ext_in _ _ (fun i => let* t := at_ (l ++ [x]) i in f t) (fun i => let* t := at_ l i in f t) (zseq (zlen l))).
  - destruct (mapM _ (zseq (zlen l))); cbn [bind]; auto. cbn [mapM]. assert (E : at_ (l ++ [x]) (zlen l) = Ok x) by (apply at_ok, zget_mid). rewrite E. cbn [bind]. reflexivity.
  - intros i Hi. apply in_zseq in Hi. unfold at_. rewrite zget_app_l by lia. reflexivity.
Qed.

(** the loaded tree behaves like the reference *)
Definition behaves_x (p : platform) (T : lgTree) (t : xtree) : Prop :=
  exists ren, nLeaves T = zlen (leaves_of (reference fle t)) /\ renumbers (reference fle t) ren /\
    forall x v id, walk (reference fle t) x = Some (v, id) -> predict p T x = Ok (v, ren id).

Lemma xg_file_loads : forall p h m vs ws load xts rest eof, xg_file_ok (pl_maxalloc p) h m vs ws -> xg_says h m ws load xts ->
  let q := gmParam m in
  exists trees wd, XGEnsembleFromReader p (mkReader (e_xg_file h m vs ws ++ rest) eof) load =
    Ok (mkEnsemble (BXg (mkXgEnsemble trees (lmNumFeatures (mhParam h) - 1) (gpNumOutputGroup q) (f64_of_f32bits (lmBaseScore (mhParam h))) wd (xg_model_name h)))
                   (if load then TransformLogistic else TransformRaw (gpNumOutputGroup q))) /\
    Forall2 (behaves_x p) trees xts /\ zlen trees = gpNumTrees q /\
    zlen wd = gpNumTrees q /\ forall i, 0 <= i < gpNumTrees q -> zget wd i = weight h ws i.
Proof.
  intros p h m vs ws load xts rest eof (H1 & H2 & H3 & H4) [B F1 F2 NT RT G IN WT OB EA] q. unfold q in *. clear q.
  pose proof H2 as (Q1 & Q2 & Q3 & Q4 & Q5 & Q6). unfold XGEnsembleFromReader, xg_ensemble_and_rest, e_xg_file. rewrite <- !app_assoc, rt_header by auto. cbn [bind].
  assert (En : (if beqb (mhNameGbm h) (bs "gbtree") then Ok (bs "xgboost.gbtree") else if beqb (mhNameGbm h) (bs "dart") then Ok (bs "xgboost.dart") else Err "only 'gbtree' or 'dart' is supported") = Ok (xg_model_name h)).
  { unfold xg_model_name, is_dart. destruct B as [-> | ->]; reflexivity. }
  rewrite En. cbn [bind]. cbv zeta. replace (lmNumFeatures (mhParam h) =? 0) with false by lia. rewrite (rt_gbtree _ _ _ H2). cbn [bind].
  rewrite s32_id by (change (2 ^ 31) with two31 in F1; unfold two31 in *; lia). replace (lmNumFeatures (mhParam h) <? gpNumFeature (gmParam m)) with false by lia.
  fold (is_dart h). rewrite xg_weights_rest by auto. rewrite make_check_ok by lia. cbn [bind].
  set (wd := if is_dart h then map f64_of_f32bits ws else repeat fone (Z.to_nat (gpNumTrees (gmParam m)))).
  assert (Ew : (if is_dart h then if negb (zlen ws =? gpNumTrees (gmParam m)) then Err "unexpected len(weightDrop) for 'dart'" else Ok (map f64_of_f32bits ws) else Ok (repeat fone (Z.to_nat (gpNumTrees (gmParam m))))) = Ok wd).
  { unfold wd. destruct (is_dart h) eqn:D; [|reflexivity]. rewrite (WT eq_refl), Z.eqb_refl. reflexivity. }
  rewrite Ew. cbn [bind]. rewrite RT. change (negb (1 =? 1)) with false. cbv iota. rewrite Q4, Z.eqb_refl. cbn [negb].
  rewrite info_pattern by (auto; try lia; intros i Hi; rewrite Z.add_0_l; apply IN; lia). cbn [negb].
  assert (Et : xg_transform (mhNameObj h) load (gpNumOutputGroup (gmParam m)) = Ok (if load then TransformLogistic else TransformRaw (gpNumOutputGroup (gmParam m)))).
  { unfold xg_transform. destruct load; [rewrite OB by auto|]; reflexivity. }
  rewrite Et. cbn [bind]. replace (gpNumTrees (gmParam m) =? 0) with false by lia.
  rewrite <- Q3, mapM_index.
  assert (L : exists trees, mapM (fun t => xgTreeFromTreeModel p t (lmNumFeatures (mhParam h))) (gmTrees m) = Ok trees /\ Forall2 (behaves_x p) trees xts).
  { apply mapM_Forall2. clear - Q2 EA F1 H1. revert xts EA. induction Q2 as [|t v ts vs Ht Q2 IH]; intros xts EA; inversion EA; subst; constructor; auto.
    destruct Ht as (P1 & P2 & P3 & P4 & P5 & P6 & P7 & P8).
    destruct (xg_tree_loads p (lmNumFeatures (mhParam h)) t y) as (T & ren & E & R1 & R2 & R3); auto.
    - rewrite Forall_forall in *. intros n Hn. destruct (P2 n Hn) as (_ & _ & _ & U & _). auto.
    - rewrite P4. destruct P1 as (_ & [_ U] & _). auto.
    - lia.
    - lia.
    - exists T. split; auto. exists ren. auto. }
  destruct L as (trees & -> & FB). cbn [bind]. exists trees, wd. split; [reflexivity|]. split; [auto|].
  assert (LT : zlen trees = zlen (gmTrees m)).
  { clear - FB EA. assert (A : forall X Y (R : X -> Y -> Prop) a b, Forall2 R a b -> zlen a = zlen b) by (intros X Y R a b K; induction K; [reflexivity|rewrite (zlen_cons _ x), (zlen_cons _ y); lia]).
    rewrite (A _ _ _ _ _ FB), (A _ _ _ _ _ EA). auto. }
  split; [auto|]. unfold wd, weight. destruct (is_dart h) eqn:D.
  - rewrite Q3, <- (WT eq_refl). split; [unfold zlen; rewrite map_length; auto|]. intros i Hi. apply zget_map.
  - rewrite Q3. split; [rewrite zlen_repeat; lia|]. intros i Hi. apply zget_repeat. lia.
Qed.

Theorem C39_xgboost_file :
  forall p h m leaf_vectors weights load xts rest eof,
  xg_file_ok (pl_maxalloc p) h m leaf_vectors weights -> xg_says h m weights load xts ->
  let g := gpNumOutputGroup (gmParam m) in
  let nf := lmNumFeatures (mhParam h) in
  exists e, XGEnsembleFromReader p (mkReader (e_xg_file h m leaf_vectors weights ++ rest) eof) load = Ok e /\
    (* metadata; a model with one feature reports none (see C41) *)
    NRawOutputGroups e = g /\ NEstimators e = Ok (gpNumTrees (gmParam m) / g) /\
    NFeatures e = (if nf =? 1 then 0 else nf) /\ Name e = xg_model_name h /\
    Transformation_ e = (if load then TransformLogistic else TransformRaw g) /\
    (* Predict returns whenever the features asked for are there *)
    forall x nEstimators predictions,
      Forall (fun t => features_below (zlen x) (reference fle t)) xts -> NFeatures e <= zlen x ->
      NOutputGroups e <= zlen predictions -> g <= pl_maxalloc p ->
      exists out, Predict p e x nEstimators predictions = Ok out /\
      (* and the raw scores are base_score plus the weighted sum of what the trees give *)
      (load = false -> exists n, used_estimators e nEstimators n /\
       forall k, 0 <= k < g -> exists vs ws,
         reference_outputs (map (reference fle) xts) g k n x vs /\
         zlen ws = n /\ (forall i, 0 <= i < n -> zget ws i = weight h weights (i * g + k)) /\
         zget out k = Some (sum_from (f64_of_f32bits (lmBaseScore (mhParam h))) (map (fun vw => fmul (fst vw) (snd vw)) (combine vs ws)))).
Proof.
  intros p h m vs ws load xts rest eof Hok Hs g nf. destruct (xg_file_loads p h m vs ws load xts rest eof Hok Hs) as (trees & wd & E & FB & LT & LW & GW).
  destruct Hs as [B F1 F2 NT RT G IN WT OB EA]. destruct Hok as (_ & (Q1 & _) & _). pose proof Q1 as ([_ I1] & _ & _ & _ & _ & [_ I2] & _).
  fold g in E, G, I2, IN. fold nf in E, F1. change (2 ^ 31) with 2147483648 in *.
  eexists. split; [exact E|]. set (e := mkEnsemble _ _) in *. set (x0 := mkXgEnsemble trees (nf - 1) g _ wd (xg_model_name h)) in *.
  assert (NE : NEstimators e = Ok (gpNumTrees (gmParam m) / g)).
  { unfold NEstimators, e. cbn [eBase b_NEstimators xgTrees xgNRawOutputGroups x0]. unfold trees_NEstimators, go_div. rewrite LT. replace (g =? 0) with false by lia.
    f_equal. apply Z.quot_div_nonneg; lia. }
  assert (NF : NFeatures e = (if nf =? 1 then 0 else nf)).
  { unfold NFeatures, e. cbn [eBase b_NFeatures xgMaxFeatureIdx x0]. unfold trees_NFeatures. destruct (Z.eqb_spec nf 1) as [->|]; [reflexivity|].
    replace (0 <? nf - 1) with true by lia. replace (nf - 1 + 1) with nf by lia. apply s64_id. unfold two63. lia. }
  split; [reflexivity|]. split; [exact NE|]. split; [exact NF|]. split; [reflexivity|]. split; [reflexivity|].
  assert (WF : well_formed e).
  { split; [|split].
    - change (1 <= g <= MaxInt). unfold MaxInt, two63. lia.
    - change (zlen trees <= MaxInt). unfold MaxInt, two63. lia.
    - unfold e. cbn [eTransform]. destruct load; [exact I|reflexivity]. }
  intros x nE preds Hfb Hx Hp Ha.
  assert (EV : evaluable p e x).
  { unfold evaluable. change (core (eBase e)) with (BXg x0). cbn [xgTrees xgWeightDrop x0]. split; [|lia]. apply Forall_forall. intros T HT. apply in_zget in HT. destruct HT as [i Hi].
    destruct (Forall2_zget _ _ _ _ _ FB _ _ Hi) as (t & Ht & ren & _ & _ & W). rewrite Forall_forall in Hfb.
    destruct (walk_defined _ (zlen x) x (Hfb t (zget_in _ _ _ _ Ht)) eq_refl) as ([v id] & Hw). exists (v, ren id). auto. }
  assert (NO : NOutputGroups e <= MaxInt). { unfold NOutputGroups, e. cbn [eTransform]. destruct load; cbn [NOutputGroups_t]; unfold MaxInt, two63; lia. }
  destruct (Predict_returns p e x nE preds WF EV NO Hp Hx Ha) as [out Ho].
  { intros [[k K] _]. unfold e in K. cbn [eTransform] in K. destruct load; discriminate. }
  exists out. split; auto. intros ->.
  destruct (C13_xgboost_score p e x0 x nE preds out WF ltac:(eexists; reflexivity) eq_refl Ho) as (n & Hu & Hv). exists n. split; auto.
  intros k Hk. destruct (Hv k Hk) as (vs' & ws' & (Lv & T1) & T2 & T3 & T4). change (NRawOutputGroups e) with g in *. exists vs', ws'.
  assert (Hn : 0 <= n /\ n * g <= gpNumTrees (gmParam m)).
  { destruct Hu as (k0 & Ek & C). rewrite NE in Ek. injection Ek as <-. pose proof (Z.mul_div_le (gpNumTrees (gmParam m)) g ltac:(lia)).
    pose proof (Z.div_pos (gpNumTrees (gmParam m)) g ltac:(lia) ltac:(lia)). destruct C as [[C ->]|[C ->]]; nia. }
  split; [|split; [auto|split; [|exact T4]]].
  - split; auto. intros i Hi. destruct (T1 i Hi) as (T & v & leaf & GT & PT & GV). cbn [xgTrees x0] in GT.
    destruct (Forall2_zget _ _ _ _ _ FB _ _ GT) as (t & Ht & ren & _ & _ & W). rewrite Forall_forall in Hfb.
    destruct (walk_defined _ (zlen x) x (Hfb t (zget_in _ _ _ _ Ht)) eq_refl) as ([v' id] & Hw). specialize (W _ _ _ Hw). rewrite W in PT. injection PT as <- _.
    exists (reference fle t), v', id. split; [rewrite zget_map, Ht; reflexivity|auto].
  - intros i Hi. rewrite T3 by auto. cbn [xgWeightDrop x0]. apply GW. nia.
Qed.
Print Assumptions C39_xgboost_file.

(** ** C40 *)
Theorem C40_gblinear_file :
  forall p h m load rest eof,
  xgl_file_ok (pl_maxalloc p) h m -> mhNameGbm h = bs "gblinear" -> 1 <= lmNumFeatures (mhParam h) ->
  (load = true -> mhNameObj h = bs "binary:logistic") ->
  let g := glNumOutputGroup (blParam m) in
  let nf := glNumFeature (blParam m) in
  1 <= g -> zlen (blWeights m) = (nf + 1) * g ->
  exists e, XGBLinearFromReader p (mkReader (e_xgl_file h m ++ rest) eof) load = Ok e /\
    NRawOutputGroups e = g /\ NEstimators e = Ok 1 /\ NFeatures e = nf /\ Name e = bs "xgboost.gblinear" /\
    Transformation_ e = (if load then TransformLogistic else TransformRaw g) /\
    forall x nEstimators predictions, nf <= zlen x -> NOutputGroups e <= zlen predictions -> g <= pl_maxalloc p ->
      exists out, Predict p e x nEstimators predictions = Ok out /\
      (load = false -> forall k, 0 <= k < g -> exists bias terms,
         zget (blWeights m) (nf * g + k) = Some bias /\ zlen terms = nf /\
         (forall i, 0 <= i < nf -> exists v w, zget x i = Some v /\ zget (blWeights m) (i * g + k) = Some w /\
            zget terms i = Some (fmul v (f64_of_f32bits w))) /\
         zget out k = Some (sum_from (fadd (f64_of_f32bits (lmBaseScore (mhParam h))) (f64_of_f32bits bias)) terms)).
Proof.
  intros p h m load rest eof (H1 & H2) Hb Hf Ho g nf Hg Hw. pose proof H2 as ([U0 U1] & [_ U2] & _ & _ & _ & [V1 V2]).
  fold g in U2. fold nf in U0, U1. change (2 ^ 31) with 2147483648 in *. change (2 ^ 32) with 4294967296 in *.
  assert (Et : xg_transform (mhNameObj h) load g = Ok (if load then TransformLogistic else TransformRaw g)).
  { unfold xg_transform. destruct load; [rewrite Ho by auto|]; reflexivity. }
  set (x0 := mkXgLinear nf g (f64_of_f32bits (lmBaseScore (mhParam h))) (blWeights m)).
  set (e := mkEnsemble (BLinear x0) (if load then TransformLogistic else TransformRaw g)).
  assert (E : XGBLinearFromReader p (mkReader (e_xgl_file h m ++ rest) eof) load = Ok e).
  { unfold XGBLinearFromReader, xgblinear_and_rest, e_xgl_file. rewrite <- app_assoc, rt_header by auto. cbn [bind]. rewrite Hb. change (negb (beqb (bs "gblinear") (bs "gblinear"))) with false. cbv iota.
    replace (lmNumFeatures (mhParam h) =? 0) with false by lia. rewrite rt_gblinear by auto. cbn [bind]. cbv zeta. fold g. rewrite Et. reflexivity. }
  exists e. split; [exact E|]. split; [reflexivity|]. split; [reflexivity|]. split; [reflexivity|]. split; [reflexivity|]. split; [reflexivity|].
  assert (Mx : g * (nf + 1) <= MaxInt) by (unfold MaxInt, two63; nia).
  assert (WF : well_formed e).
  { split; [|split].
    - change (1 <= g <= MaxInt). unfold MaxInt, two63. lia.
    - change (zlen (@nil lgTree) <= MaxInt). unfold MaxInt, two63, zlen. cbn. lia.
    - unfold e. cbn [eTransform]. destruct load; [exact I|reflexivity]. }
  intros x nE preds Hx Hp Ha.
  assert (EV : evaluable p e x). { unfold evaluable. change (core (eBase e)) with (BLinear x0). cbn [xlNumFeature xlNRawOutputGroups xlWeights x0]. lia. }
  assert (NO : NOutputGroups e <= MaxInt). { unfold NOutputGroups, e. cbn [eTransform]. destruct load; cbn [NOutputGroups_t]; unfold MaxInt, two63; lia. }
  destruct (Predict_returns p e x nE preds WF EV NO Hp ltac:(change (NFeatures e) with nf; lia) Ha) as [out Hout].
  { intros [[k K] _]. unfold e in K. cbn [eTransform] in K. destruct load; discriminate. }
  exists out. split; auto. intros ->.
  apply (C14_gblinear_score p e x0 x nE preds out WF ltac:(eexists; reflexivity) eq_refl U0 Mx Hout).
Qed.
Print Assumptions C40_gblinear_file.

(** ** What goes wrong *)
From Verif Require Import Demo.

Definition f32_half := 1056964608.
Definition f32_one := 1065353216.
Definition f32_two := 1073741824.
Definition f32_three := 1077936128.
Definition x_split (feature : Z) (default_left : bool) (cond l r : Z) : xNode := mkXNode (-1) l r (feature + (if default_left then 2 ^ 31 else 0)) cond.
Definition x_leaf (value : Z) : xNode := mkXNode 0 (-1) (-1) 0 value.
Definition x_tree (features : Z) (ns : list xNode) : TreeModel :=
  mkTreeModel ns (map (fun _ => mkXStat 0 0 0 0) ns) (mkTreeParam 1 (zlen ns) 0 0 features 0 (repeat 0 31)).
Definition x_header (features : Z) (obj gbm : bytes) : ModelHeader := mkHeader (mkLearner f32_half features 0 0 0 (repeat 0 29)) obj gbm.
Definition x_model (features groups : Z) (ts : list TreeModel) : GBTreeModel :=
  mkGBTreeModel (mkGBTreeParam (zlen ts) 1 features 0 0 groups 0 (repeat 0 32)) ts (map (fun i => if groups =? 0 then 0 else i mod groups) (zseq (zlen ts))).
Definition x_file (features groups : Z) (ts : list TreeModel) : bytes :=
  e_xg_file (x_header features [] (bs "gbtree")) (x_model features groups ts) (map (fun _ => []) ts) [].

Definition x_stump : list xNode := [x_split 0 false f32_one 1 2; x_leaf f32_two; x_leaf f32_three].

(** A feature equal to the split condition goes left instead of right. *)
Theorem C38_tie_refuted :
  exists t T, xtree_says 1 (x_tree 1 x_stump) t /\ xgTreeFromTreeModel amd64 (x_tree 1 x_stump) 1 = Ok T /\
    walk (reference flt t) [fint 1] = Some (fint 3, 2) /\ predict amd64 T [fint 1] = Ok (fint 2, 0).
Proof.
  exists (XNode 0 (fint 1) false (XLeaf 1 (fint 2)) (XLeaf 2 (fint 3))). eexists. split; [|split; [vm_compute; reflexivity|split; vm_compute; reflexivity]].
  split; [reflexivity|]. split; [cbn; lia|]. split; [reflexivity|]. exists [0; 1; 2]. split; [|split].
  - apply (xd_node x_stump 0 (x_split 0 false f32_one 1 2) _ _ [1] [2]); [reflexivity| |].
    + apply (xd_leaf x_stump 1 (x_leaf f32_two)); reflexivity.
    + apply (xd_leaf x_stump 2 (x_leaf f32_three)); reflexivity.
  - repeat constructor; cbn; intuition; discriminate.
  - discriminate.
Qed.
Print Assumptions C38_tie_refuted.

(** A tree pruned back to its root, whose deleted nodes are still stored, is rejected. *)
Definition x_pruned : list xNode := [x_leaf f32_two; x_leaf f32_one; x_leaf f32_three].
Theorem C38_pruned_root_refuted :
  xdescribes x_pruned 0 (XLeaf 0 (fint 2)) [0] /\
  exists m, xgTreeFromTreeModel amd64 (x_tree 1 x_pruned) 1 = Err m.
Proof.
  split; [|eexists; vm_compute; reflexivity]. apply (xd_leaf x_pruned 0 (x_leaf f32_two)); reflexivity.
Qed.
Print Assumptions C38_pruned_root_refuted.

(** A node that is its own child, and a node shared by both sides of the root. *)
Theorem C30_xgb_cyclic_refuted :
  (exists e, XGEnsembleFromReader amd64 (mkReader (x_file 2 1 [x_tree 2 [x_split 0 false f32_one 0 1; x_leaf f32_two]]) true) false = Ok e /\ NFeatures e = 2 /\
    Predict amd64 e [fint 0; fint 0] 0 [fzero] = Hang) /\
  (exists e, XGEnsembleFromReader amd64 (mkReader (x_file 2 1 [x_tree 2 [x_split 0 false f32_one 1 1; x_split 1 false f32_one 2 2; x_leaf f32_two]]) true) false = Ok e /\ NFeatures e = 2 /\
    Predict amd64 e [fint 0; fint 0] 0 [fzero] = Hang).
Proof. split; eexists; (split; [vm_compute; reflexivity|split; vm_compute; reflexivity]). Qed.
Print Assumptions C30_xgb_cyclic_refuted.

(** A file that announces no output group loads; every prediction divides by zero. *)
Theorem C30_xgb_no_groups_refuted :
  exists e, XGEnsembleFromReader amd64 (mkReader (x_file 2 0 [x_tree 2 x_stump]) true) false = Ok e /\
    exists m, Predict amd64 e [fint 0; fint 0] 0 [fzero] = Panic m.
Proof. eexists. split; [vm_compute; reflexivity|]. eexists. vm_compute. reflexivity. Qed.
Print Assumptions C30_xgb_no_groups_refuted.

(** One feature: NFeatures() is 0 and the empty vector is accepted and makes Predict panic.
    The same happens when a node asks for a feature beyond the number of features. *)
Theorem C41_xgb_refuted :
  (exists e, XGEnsembleFromReader amd64 (mkReader (x_file 1 1 [x_tree 1 x_stump]) true) false = Ok e /\ NFeatures e = 0 /\
    exists m, Predict amd64 e [] 0 [fzero] = Panic m) /\
  (exists e, XGEnsembleFromReader amd64 (mkReader (x_file 2 1 [x_tree 2 [x_split 7 false f32_one 1 2; x_leaf f32_two; x_leaf f32_three]]) true) false = Ok e /\ NFeatures e = 2 /\
    exists m, Predict amd64 e [fint 0; fint 0] 0 [fzero] = Panic m).
Proof.
  split; eexists; (split; [vm_compute; reflexivity|split; [vm_compute; reflexivity|eexists; vm_compute; reflexivity]]).
Qed.
Print Assumptions C41_xgb_refuted.

(** A gblinear model with too few weights loads; prediction panics. *)
Theorem C40_short_weights_refuted :
  exists e, XGBLinearFromReader amd64 (mkReader (e_xgl_file (x_header 2 [] (bs "gblinear")) (mkGBLinear (mkGBLinearParam 2 1 (repeat 0 32)) [f32_one; f32_two])) true) false = Ok e /\
    NFeatures e = 2 /\ exists m, Predict amd64 e [fint 0; fint 0] 0 [fzero] = Panic m.
Proof. eexists. split; [vm_compute; reflexivity|]. split; [vm_compute; reflexivity|]. eexists. vm_compute. reflexivity. Qed.
Print Assumptions C40_short_weights_refuted.
