(** * C87: the same predictions on every machine *)

From Coq Require Import ZArith List Bool Lia String.
From Verif Require Import Go GoFloat GoText Cmd UtilMath UtilBits LgTree Transformation Ensembles Leaves Parallel Spec_Predict Spec_Machine Demo
  GoText UtilText LgTextIO LgJsonIO JsonText TreeBuild XgBin XgIO Pickle SkClasses SkIO Sequence
  Pf_Go Prop_Batch Prop_Rows Ex_Batch DemoText.

(** ** One tree *)

Lemma f2i32_defined : forall p q v, fits_int32 v -> f2i32 p v = f2i32 q v.
Proof.
  intros p q v (z & T & L). unfold f2i32. rewrite T.
  destruct (Z.leb_spec (- two31) z), (Z.ltb_spec z two31); cbn [andb]; try reflexivity; lia.
Qed.
Lemma f2u32_defined : forall p q v, fits_uint32 v -> f2u32 p v = f2u32 q v.
Proof.
  intros p q v (z & T & L). unfold f2u32. rewrite T.
  destruct (Z.leb_spec 0 z), (Z.ltb_spec z two32); cbn [andb]; try reflexivity; lia.
Qed.

Lemma decision_machine : forall p q t n v, defined_split n v -> decision p t n v = decision q t n v.
Proof.
  intros p q t n v D. unfold decision. destruct (has (nFlags n) categorical) eqn:C; [|reflexivity]. destruct (D C) as [V T].
  unfold categoricalDecision.
  assert (K : (if has (nFlags n) catOneHot then fun i => Ok (f2i32 p (nThreshold n) =? i)
               else if has (nFlags n) catSmall then fun i => Ok (FindInBitsetUint32 (f2u32 p (nThreshold n)) (u32 i))
               else fun i => findInBitset t (f2u32 p (nThreshold n)) (u32 i)) =
              (if has (nFlags n) catOneHot then fun i => Ok (f2i32 q (nThreshold n) =? i)
               else if has (nFlags n) catSmall then fun i => Ok (FindInBitsetUint32 (f2u32 q (nThreshold n)) (u32 i))
               else fun i => findInBitset t (f2u32 q (nThreshold n)) (u32 i))).
  { destruct (has (nFlags n) catOneHot); [rewrite (f2i32_defined p q) by exact T; reflexivity|rewrite (f2u32_defined p q) by exact T; reflexivity]. }
  destruct V as [V|[N M]].
  - rewrite (f2i32_defined p q v V). destruct (has (nFlags n) catOneHot); [rewrite (f2i32_defined p q (nThreshold n)) by exact T; reflexivity|rewrite (f2u32_defined p q) by exact T; reflexivity].
  - rewrite N, M. destruct (_ <? 0), (_ <? 0); reflexivity.
Qed.

Lemma predict_machine : forall p q t fvals, Forall (fun n => forall v, zget fvals (nFeature n) = Some v -> defined_split n v) (tNodes t) ->
  predict p t fvals = predict q t fvals.
Proof.
  intros p q t fvals D.
  assert (S : forall i, predict_step p t fvals i = predict_step q t fvals i).
  { intros i. unfold predict_step, at_. destruct (zget (tNodes t) i) as [n|] eqn:En; [|reflexivity]. cbn [bind].
    destruct (zget fvals (nFeature n)) as [v|] eqn:Ev; [|reflexivity]. cbn [bind].
    rewrite Forall_forall in D. rewrite (decision_machine p q t n v (D n (zget_in _ _ _ _ En) v Ev)). reflexivity. }
  assert (L : forall fuel i, predict_loop p t fvals fuel i = predict_loop q t fvals fuel i).
  { induction fuel as [|fuel IH]; intros i; [reflexivity|]. cbn [predict_loop]. rewrite S. destruct (predict_step q t fvals i) as [[r|j]|m|m|]; try reflexivity. cbn [bind]. apply IH. }
  unfold predict. destruct (tNodes t); [reflexivity|apply L].
Qed.

(** ** The ensembles *)

Lemma at_machine : forall (A : Type) p q ts i fvals (k : f64 * Z -> outcome A),
  Forall (fun t => predict p t fvals = predict q t fvals) ts ->
  (let* t := at_ ts i in let* r := predict p t fvals in k r) = (let* t := at_ ts i in let* r := predict q t fvals in k r).
Proof.
  intros A p q ts i fvals k F. unfold at_. destruct (zget ts i) as [t|] eqn:E; [|reflexivity]. cbn [bind].
  rewrite Forall_forall in F. rewrite (F t (zget_in _ _ _ _ E)). reflexivity.
Qed.
Lemma at_machine' : forall p q ts i fvals, Forall (fun t => predict p t fvals = predict q t fvals) ts ->
  (let* t := at_ ts i in predict p t fvals) = (let* t := at_ ts i in predict q t fvals).
Proof.
  intros p q ts i fvals F. unfold at_. destruct (zget ts i) as [t|] eqn:E; [|reflexivity]. cbn [bind].
  rewrite Forall_forall in F. exact (F t (zget_in _ _ _ _ E)).
Qed.

Lemma base_trees : forall (P : lgTree -> Prop) b tr, Forall P (model_trees (mkEnsemble (BEnsemble b tr) tr)) -> Forall P (model_trees (mkEnsemble b tr)).
Proof. intros P b tr F. exact F. Qed.

Lemma inner_machine : forall p q b tr fvals nE s, Forall (fun t => predict p t fvals = predict q t fvals) (model_trees (mkEnsemble b tr)) ->
  b_predictInner p b fvals nE s = b_predictInner q b fvals nE s /\ b_predictLeafIndicesInner p b fvals nE s = b_predictLeafIndicesInner q b fvals nE s.
Proof.
  intros p q b tr fvals nE s. induction b as [m|m|m|b IH tr']; intros F; cbn [b_predictInner b_predictLeafIndicesInner].
  - unfold model_trees in F. cbn [core eBase] in F. split; unfold lg_predictInner, trees_predictLeafIndicesInner; f_equal; apply flat_map_ext; intros i; apply map_ext; intros k; rewrite (at_machine' p q) by exact F; reflexivity.
  - unfold model_trees in F. cbn [core eBase] in F. split; unfold xg_predictInner, trees_predictLeafIndicesInner; f_equal; apply flat_map_ext; intros i; apply map_ext; intros k.
    + cbv zeta. rewrite (at_machine f64 p q) by exact F. reflexivity.
    + rewrite (at_machine' p q) by exact F. reflexivity.
  - split; reflexivity.
  - apply IH. exact F.
Qed.

Lemma Transform_machine : forall p q t raw s, (forall x, pl_exp p x = pl_exp q x) -> Transform_t p t raw s = Transform_t q t raw s.
Proof.
  intros p q t raw s E. assert (Sg : forall x, Sigmoid p x = Sigmoid q x) by (intros x; unfold Sigmoid; rewrite E; reflexivity).
  assert (Sm : SoftmaxFloat64Slice p raw s = SoftmaxFloat64Slice q raw s).
  { unfold SoftmaxFloat64Slice. assert (S : softmax_sum p raw = softmax_sum q raw).
    { unfold softmax_sum. generalize fzero. induction raw as [|v raw IH]; intros z; [reflexivity|]. cbn [fold_left]. rewrite E. apply IH. }
    rewrite S. f_equal. apply map_ext. intros iv. rewrite E. reflexivity. }
  destruct t; cbn [Transform_t]; try reflexivity.
  - destruct (negb _); [reflexivity|]. destruct (at_ raw 0) as [r| | |]; [|reflexivity|reflexivity|reflexivity]. cbn [bind]. rewrite Sg. reflexivity.
  - rewrite Sm. reflexivity.
  - destruct (negb _); [reflexivity|]. destruct (at_ raw 0) as [r| | |]; [|reflexivity|reflexivity|reflexivity]. cbn [bind]. rewrite E. reflexivity.
Qed.

Lemma row_machine : forall p q e fvals nE s, defined_splits e fvals -> machines_alike p q e ->
  predictInnerAndTransform p e fvals nE s = predictInnerAndTransform q e fvals nE s.
Proof.
  intros p q e fvals nE s D [E A].
  assert (F : Forall (fun t => predict p t fvals = predict q t fvals) (model_trees e)).
  { eapply Forall_impl; [|exact D]. intros t Ht. apply predict_machine. exact Ht. }
  destruct e as [b tr]. pose proof (fun n s => inner_machine p q b tr fvals n s F) as I. unfold predictInnerAndTransform. cbn [eBase eTransform] in *.
  destruct (Type_t tr =? TypeRaw) eqn:T1; [exact (proj1 (I _ _))|]. destruct (Type_t tr =? TypeLeafIndex) eqn:T2; [exact (proj2 (I _ _))|].
  assert (U : uses_exp (mkEnsemble b tr)) by (destruct tr; cbn in *; try discriminate; exact Logic.I).
  destruct (A U) as [A1 A2]. assert (M : make_f64 p (NRawOutputGroups (mkEnsemble b tr)) = make_f64 q (NRawOutputGroups (mkEnsemble b tr))).
  { unfold make_f64. destruct (Z.ltb_spec (pl_maxalloc p) (NRawOutputGroups (mkEnsemble b tr))); [lia|].
    destruct (Z.ltb_spec (pl_maxalloc q) (NRawOutputGroups (mkEnsemble b tr))); [lia|]. reflexivity. }
  rewrite M. destruct (make_f64 q _) as [raw| | |]; try reflexivity. cbn [bind]. rewrite (proj1 (I nE 0)).
  destruct (exec _ raw) as [raw'| | |]; try reflexivity. cbn [cmds_of]. rewrite (Transform_machine p q tr raw' s (E U)). reflexivity.
Qed.

(** ** The calls *)

(** Predict and PredictSingle: the whole outcome, errors and panics included *)
Theorem C87_predict : forall p q e fvals nEstimators predictions,
  defined_splits e fvals -> machines_alike p q e ->
  Predict p e fvals nEstimators predictions = Predict q e fvals nEstimators predictions /\
  PredictSingle p e fvals nEstimators = PredictSingle q e fvals nEstimators.
Proof.
  intros p q e fvals nE preds D M. unfold Predict, PredictSingle. split.
  - destruct (_ <? _); [reflexivity|]. destruct (_ <? _); [reflexivity|].
    destruct (b_adjustNEstimators (eBase e) nE) as [n| | |]; try reflexivity. cbn [bind].
    rewrite (row_machine p q e fvals n 0 D M). reflexivity.
  - destruct (negb _); [reflexivity|]. destruct (_ <? _); [reflexivity|].
    destruct (b_adjustNEstimators (eBase e) nE) as [n| | |]; try reflexivity. cbn [bind].
    rewrite (row_machine p q e fvals n 0 D M). reflexivity.
Qed.
Print Assumptions C87_predict.

(** the splits of a numerical model are defined for every vector, NaN and infinities included *)
Theorem C87_numerical : forall e fvals, numerical_model e -> defined_splits e fvals.
Proof.
  intros e fvals N. eapply Forall_impl; [|exact N]. intros t Ht. eapply Forall_impl; [|exact Ht]. intros n Hn v _ C. cbn in Hn. rewrite Hn in C. discriminate.
Qed.
Print Assumptions C87_numerical.


(** two batch calls, dense or sparse, on two machines, with any numbers of threads and any
    schedules: rows with the same features get the same outputs *)
Theorem C87_batch : forall p q e nEstimators n rows m n' rows' m' i j x,
  well_formed e -> arity_accepted e -> NOutputGroups e <= MaxInt -> machines_alike p q e ->
  batch_call p e nEstimators n rows m -> batch_call q e nEstimators n' rows' m' ->
  0 <= i < n -> 0 <= j < n' -> rows i x -> rows' j x -> defined_splits e x ->
  forall k, 0 <= k < NOutputGroups e -> zget m (i * NOutputGroups e + k) = zget m' (j * NOutputGroups e + k).
Proof.
  intros p q e nE n rows m n' rows' m' i j x W A G M B B' Hi Hj Hx Hx' D k Hk.
  set (out := zeros (NOutputGroups e)).
  assert (Lo : zlen out = NOutputGroups e) by (unfold out, zeros, zlen; rewrite repeat_length; lia).
  destruct (batch_predicts _ _ _ _ _ _ W A B i x Hi Hx out ltac:(lia)) as (o1 & P1 & R1).
  destruct (batch_predicts _ _ _ _ _ _ W A B' j x Hj Hx' out ltac:(lia)) as (o2 & P2 & R2).
  rewrite (proj1 (C87_predict p q e x nE out D M)) in P1. assert (o2 = o1) by congruence. subst o2.
  rewrite (R1 k Hk), (R2 k Hk). reflexivity.
Qed.
Print Assumptions C87_batch.

(** ** Loading *)


Lemma uc_refl : forall A (a : outcome A), unless_crash a a.
Proof. intros. right. reflexivity. Qed.
Lemma uc_eq : forall A (a b : outcome A), b = a -> unless_crash a b.
Proof. intros. right. assumption. Qed.
Lemma uc_bind : forall A B (a a' : outcome A) (k k' : A -> outcome B), unless_crash a a' -> (forall x, a = Ok x -> unless_crash (k x) (k' x)) ->
  unless_crash (bind a k) (bind a' k').
Proof.
  intros A B a a' k k' U K. destruct U as [E|E].
  - destruct E as [msg E]. rewrite E. left. exists msg. reflexivity.
  - subst a'. destruct a as [x|m|m|]; cbn [bind]; [apply K; reflexivity|right; reflexivity|left; eauto|right; reflexivity].
Qed.
Lemma uc_mapM : forall A B (f g : A -> outcome B) l, (forall x, unless_crash (f x) (g x)) -> unless_crash (mapM f l) (mapM g l).
Proof.
  induction l as [|x l IH]; intros H; cbn [mapM]; [apply uc_refl|]. apply uc_bind; [apply H|]. intros y _.
  apply uc_bind; [apply IH; exact H|]. intros; apply uc_refl.
Qed.
Lemma uc_foldM : forall A S (f g : S -> A -> outcome S) l s, (forall s x, unless_crash (f s x) (g s x)) -> unless_crash (foldM f l s) (foldM g l s).
Proof.
  induction l as [|x l IH]; intros s H; cbn [foldM]; [apply uc_refl|]. apply uc_bind; [apply H|]. intros y _. apply IH. exact H.
Qed.

Section Load.
Variables (p q : platform).
Hypothesis (Room : pl_maxalloc p <= pl_maxalloc q).
Hypothesis (Rel : same_release p q).

Lemma pf_same : forall s, pl_parse_float q s = pl_parse_float p s.
Proof. intros s. symmetry. apply Rel. Qed.
Lemma grow_same : forall c n, pl_grow q c n = pl_grow p c n.
Proof. intros c n. symmetry. apply Rel. Qed.

Lemma uc_make_check : forall n, unless_crash (make_check p n) (make_check q n).
Proof.
  intros n. unfold make_check. destruct (Z.ltb_spec n 0); cbn [orb]; [apply uc_refl|]. destruct (Z.ltb_spec (pl_maxalloc p) n); [left; eauto|].
  destruct (Z.ltb_spec (pl_maxalloc q) n); [lia|apply uc_refl].
Qed.
Lemma uc_make_f64 : forall n, unless_crash (make_f64 p n) (make_f64 q n).
Proof.
  intros n. unfold make_f64. destruct (Z.ltb_spec n 0); cbn [orb]; [apply uc_refl|]. destruct (Z.ltb_spec (pl_maxalloc p) n); [left; eauto|].
  destruct (Z.ltb_spec (pl_maxalloc q) n); [lia|apply uc_refl].
Qed.
Lemma uc_room : forall A n msg (a b : outcome A), unless_crash a b ->
  unless_crash (if pl_maxalloc p <? n then Panic msg else a) (if pl_maxalloc q <? n then Panic msg else b).
Proof.
  intros A n msg a b U. destruct (Z.ltb_spec (pl_maxalloc p) n); [left; eauto|]. destruct (Z.ltb_spec (pl_maxalloc q) n); [lia|exact U].
Qed.

Ltac uc := repeat first
  [ match goal with
    | |- unless_crash ?a ?b => constr_eq a b; apply uc_refl
    | |- unless_crash (make_check _ _) _ => apply uc_make_check
    | |- unless_crash (make_f64 _ _) _ => apply uc_make_f64
    | |- unless_crash (if pl_maxalloc _ <? _ then _ else _) _ => apply uc_room
    | |- unless_crash (bind _ _) (bind _ _) => apply uc_bind; [|intros ? _]
    | |- unless_crash (let (_, _) := ?x in _) (let (_, _) := ?x in _) => destruct x
    | |- unless_crash (if ?x then _ else _) (if ?x then _ else _) => destruct x
    | |- unless_crash (match ?x with _ => _ end) (match ?x with _ => _ end) => destruct x
    | |- unless_crash (mapM _ _) (mapM _ _) => apply uc_mapM; intros ?
    | |- unless_crash (foldM _ _ _) (foldM _ _ _) => apply uc_foldM; intros ? ?
    end ].

(** *** XGBoost *)
Lemma uc_ReadString : forall r, unless_crash (ReadString p r) (ReadString q r).
Proof. intros r. unfold ReadString. uc. Qed.
Lemma uc_ReadFloat32Slice : forall r, unless_crash (ReadFloat32Slice p r) (ReadFloat32Slice q r).
Proof. intros r. unfold ReadFloat32Slice. uc. Qed.
Lemma uc_ReadModelHeader : forall r, unless_crash (ReadModelHeader p r) (ReadModelHeader q r).
Proof. intros r. unfold ReadModelHeader. repeat (uc; try match goal with |- unless_crash (ReadString _ _) _ => apply uc_ReadString end). Qed.
Lemma uc_ReadTreeModel : forall r, unless_crash (ReadTreeModel p r) (ReadTreeModel q r).
Proof. intros r. unfold ReadTreeModel. repeat (uc; try match goal with |- unless_crash (ReadFloat32Slice _ _) _ => apply uc_ReadFloat32Slice end). Qed.
Lemma uc_read_n : forall A (f g : reader -> outcome (A * reader)) n r, (forall r, unless_crash (f r) (g r)) -> unless_crash (read_n f n r) (read_n g n r).
Proof.
  induction n as [|n IH]; intros r H; cbn [read_n]; [apply uc_refl|]. apply uc_bind; [apply H|]. intros [x r1] _.
  apply uc_bind; [apply IH; exact H|]. intros; apply uc_refl.
Qed.
Lemma uc_ReadGBTreeModel : forall r, unless_crash (ReadGBTreeModel p r) (ReadGBTreeModel q r).
Proof. intros r. unfold ReadGBTreeModel. repeat (uc; try match goal with |- unless_crash (read_n (ReadTreeModel _) _ _) _ => apply uc_read_n; intros; apply uc_ReadTreeModel end). Qed.
Lemma uc_xgTree : forall m n, unless_crash (xgTreeFromTreeModel p m n) (xgTreeFromTreeModel q m n).
Proof. intros m n. unfold xgTreeFromTreeModel. uc. Qed.
Lemma uc_xg : forall r load, unless_crash (xg_ensemble_and_rest p r load) (xg_ensemble_and_rest q r load).
Proof.
  intros r load. unfold xg_ensemble_and_rest, xg_weights.
  repeat (uc; try first [match goal with |- unless_crash (ReadModelHeader _ _) _ => apply uc_ReadModelHeader end | match goal with |- unless_crash (ReadGBTreeModel _ _) _ => apply uc_ReadGBTreeModel end | match goal with |- unless_crash (ReadFloat32Slice _ _) _ => apply uc_ReadFloat32Slice end | match goal with |- unless_crash (xgTreeFromTreeModel _ _ _) _ => apply uc_xgTree end]).
Qed.
Lemma uc_xgblinear : forall r load, unless_crash (xgblinear_and_rest p r load) (xgblinear_and_rest q r load).
Proof.
  intros r load. unfold xgblinear_and_rest, ReadGBLinearModel.
  repeat (uc; try first [match goal with |- unless_crash (ReadModelHeader _ _) _ => apply uc_ReadModelHeader end | match goal with |- unless_crash (ReadFloat32Slice _ _) _ => apply uc_ReadFloat32Slice end]).
Qed.

(** *** sklearn *)
Lemma step_same : forall op m r, step q op m r = step p op m r.
Proof.
  intros op m r. unfold step, new_list, append_list.
  destruct op; try reflexivity.
  - destruct (readLine r) as [[? ?]|?|?|]; cbn [bind]; try reflexivity. rewrite pf_same. reflexivity.
  - destruct (pop m) as [[? ?]|?|?|]; cbn [bind]; try reflexivity. destruct (pop m0) as [[? ?]|?|?|]; cbn [bind]; try reflexivity.
    destruct (toList v0) as [[[? ?] ?]|?|?|]; cbn [bind]; try reflexivity. rewrite grow_same. reflexivity.
  - destruct (popMark m) as [[? ?]|?|?|]; cbn [bind]; try reflexivity. rewrite grow_same. reflexivity.
Qed.
Lemma decode_same : forall fuel m r, decode_loop q fuel m r = decode_loop p fuel m r.
Proof.
  induction fuel as [|n IH]; intros m r; cbn [decode_loop]; [reflexivity|]. destruct (rd_bytes r) as [|b l]; [reflexivity|]. rewrite step_same.
  destruct (step p b m (mkReader l (rd_eof r))) as [[[? ?]|]|?|?|]; cbn [bind]; try reflexivity. apply IH.
Qed.
Lemma uc_ParseClass : forall A (r1 r2 : A -> val -> list val -> outcome A) (b1 b2 : A -> val -> outcome A) x v,
  (forall x c a, unless_crash (r1 x c a) (r2 x c a)) -> (forall x a, unless_crash (b1 x a) (b2 x a)) ->
  unless_crash (ParseClass r1 b1 x v) (ParseClass r2 b2 x v).
Proof.
  intros A r1 r2 b1 b2 x v R B. unfold ParseClass. repeat (uc; try first [apply R | apply B]).
Qed.
Lemma uc_int_array : forall h n o, unless_crash (int_array p h n o) (int_array q h n o).
Proof. intros h n o. unfold int_array. uc. Qed.
Lemma uc_tree_Reduce : forall h t c a, unless_crash (tree_Reduce p h t c a) (tree_Reduce q h t c a).
Proof. intros h t c a. unfold tree_Reduce. repeat (uc; try match goal with |- unless_crash (int_array _ _ _ _) _ => apply uc_int_array end). Qed.
Lemma uc_reg_Build : forall h t a, unless_crash (reg_Build p h t a) (reg_Build q h t a).
Proof.
  intros h t a. unfold reg_Build.
  repeat (uc; try match goal with |- unless_crash (ParseClass _ _ _ _) _ => apply uc_ParseClass; [intros; apply uc_tree_Reduce|intros; apply uc_refl] end).
Qed.
Lemma uc_gb_Build : forall h t a, unless_crash (gb_Build p h t a) (gb_Build q h t a).
Proof.
  intros h t a. unfold gb_Build.
  repeat (uc; try first [match goal with |- unless_crash (int_array _ _ _ _) _ => apply uc_int_array end | match goal with |- unless_crash (ParseClass _ _ _ _) _ => apply uc_ParseClass; [intros; apply uc_refl|intros; apply uc_reg_Build] end]).
Qed.
Lemma uc_skTree : forall t s b, unless_crash (lgTreeFromSklearnDecisionTreeRegressor p t s b) (lgTreeFromSklearnDecisionTreeRegressor q t s b).
Proof. intros t s b. unfold lgTreeFromSklearnDecisionTreeRegressor. cbv zeta. uc. Qed.
Lemma uc_skClass : forall gb, unless_crash (SKEnsembleFromClass p gb) (SKEnsembleFromClass q gb).
Proof.
  intros gb. unfold SKEnsembleFromClass, sk_base, sk_trees. cbv zeta. repeat (uc; try match goal with |- unless_crash (lgTreeFromSklearnDecisionTreeRegressor _ _ _ _) _ => apply uc_skTree end).
Qed.
Lemma uc_sk : forall r load, unless_crash (sk_ensemble_and_rest p r load) (sk_ensemble_and_rest q r load).
Proof.
  intros r load. unfold sk_ensemble_and_rest, ParseGradientBoosting, Decode. rewrite decode_same.
  repeat (uc; try first [match goal with |- unless_crash (SKEnsembleFromClass _ _) _ => apply uc_skClass end | match goal with |- unless_crash (ParseClass _ _ _ _) _ => apply uc_ParseClass; [intros; apply uc_refl|intros; apply uc_gb_Build] end]).
Qed.

(** *** LightGBM, text *)
Lemma floats_same : forall ps key, ToFloat64Slice q ps key = ToFloat64Slice p ps key.
Proof.
  intros ps key. unfold ToFloat64Slice, convert_tokens. destruct (UtilText.lookup ps key) as [s|]; [|reflexivity].
  induction (split s [sp]) as [|tok l IH]; cbn [mapM]; [reflexivity|]. rewrite pf_same, IH. reflexivity.
Qed.
Lemma lg_create_same : forall a t i, same_conversions p q -> lg_createNode q a t i = lg_createNode p a t i.
Proof.
  intros a t i F. unfold lg_createNode, lg_createCategoricalNode. destruct (at_ (a_decision a) i) as [d|?|?|]; cbn [bind]; try reflexivity.
  destruct (has d 1); [|reflexivity]. destruct (convertMissingType d); cbn [bind]; try reflexivity.
  destruct (at_ (a_threshold a) i) as [th|?|?|]; cbn [bind]; try reflexivity.
  assert (E : f2u32 q th = f2u32 p th) by (unfold f2u32; destruct th; rewrite ?F; reflexivity). rewrite E. reflexivity.
Qed.
Lemma uc_build : forall s1 s2 n t,
  (forall t i, src_create s2 t i = src_create s1 t i) -> (forall i, src_left s2 i = src_left s1 i) -> (forall i, src_right s2 i = src_right s1 i) ->
  build s2 n t = build s1 n t.
Proof.
  intros s1 s2 n t C L R. unfold build. rewrite C. destruct (src_create s1 t 0) as [[node t1]|?|?|]; cbn [bind]; try reflexivity.
  generalize (2 * Datatypes.length (repeat false (Z.to_nat n)) + 2)%nat as fuel.
  generalize (mkB [0] [0] (repeat false (Z.to_nat n)) (tree_set_nodes t1 (tNodes t1 ++ [node]))) as b. intros b fuel. revert b.
  induction fuel as [|k IH]; intros b; cbn [build_loop]; [reflexivity|].
  assert (P : forall set i j b, push_child s2 set i j b = push_child s1 set i j b) by (intros; unfold push_child; rewrite C; reflexivity).
  assert (BL : forall o i b pop, build_left s2 o i b pop = build_left s1 o i b pop).
  { intros. unfold build_left. destruct (at_ (tNodes (b_tree b0)) i); cbn [bind]; try reflexivity. destruct (has (nFlags a) leftLeaf); [reflexivity|].
    rewrite L. destruct (src_left s1 o); cbn [bind]; try reflexivity. destruct (at_ (b_visited b0) a0) as [[|]|?|?|]; cbn [bind]; try reflexivity.
    rewrite P. reflexivity. }
  assert (E : build_step s2 b = build_step s1 b).
  { unfold build_step. destruct (b_orig b) as [|o ?]; [reflexivity|]. destruct (b_conv b) as [|c ?]; [reflexivity|].
    destruct (at_ (tNodes (b_tree b)) c); cbn [bind]; try reflexivity. destruct (has (nFlags a) rightLeaf); [apply BL|].
    rewrite R. destruct (src_right s1 o); cbn [bind]; try reflexivity. destruct (at_ (b_visited b) a0) as [[|]|?|?|]; cbn [bind]; try reflexivity; [apply BL|].
    rewrite P. reflexivity. }
  rewrite E. destruct (build_step s1 b) as [[b'|]|?|?|]; cbn [bind]; try reflexivity. apply IH.
Qed.
Lemma uc_lgParams : forall ps, same_conversions p q -> unless_crash (lgTreeFromParams p ps) (lgTreeFromParams q ps).
Proof.
  intros ps F. unfold lgTreeFromParams. cbv zeta. uc; rewrite ?floats_same; uc.
  apply uc_eq. apply uc_build; cbn [lg_source src_create src_left src_right]; intros; [apply lg_create_same; exact F|reflexivity|reflexivity].
Qed.
Lemma uc_lg_trees : forall n r, same_conversions p q -> unless_crash (lg_read_trees p n r) (lg_read_trees q n r).
Proof.
  induction n as [|n IH]; intros r F; cbn [lg_read_trees]; [apply uc_refl|]. unfold lgTreeFromReader.
  uc; [|apply IH; exact F]. apply uc_lgParams. exact F.
Qed.

(** *** LightGBM, JSON *)
Lemma numbers_same : forall v, numbers_fit q v = numbers_fit p v.
Proof.
  fix IH 1. intros [| b | lit | s | l | l]; cbn [numbers_fit]; try reflexivity.
  - rewrite pf_same. reflexivity.
  - induction l as [|x l IHl]; [reflexivity|]. rewrite (IH x). f_equal. exact IHl.
  - induction l as [|[k x] l IHl]; [reflexivity|]. rewrite (IH x). f_equal. exact IHl.
Qed.
Lemma iface_same : forall v, dec_iface q v = dec_iface p v.
Proof. intros v. unfold dec_iface. rewrite numbers_same. destruct v; try reflexivity. rewrite pf_same. reflexivity. Qed.
Lemma foldM_same : forall A S (f g : S -> A -> outcome S) l s, (forall s x, g s x = f s x) -> foldM g l s = foldM f l s.
Proof.
  induction l as [|x l IH]; intros s H; cbn [foldM]; [reflexivity|]. rewrite H. destruct (f s x); cbn [bind]; try reflexivity. apply IH. exact H.
Qed.
Lemma node_same : forall fuel raw, unmarshal_node q fuel raw = unmarshal_node p fuel raw.
Proof.
  induction fuel as [|n IH]; intros raw; cbn [unmarshal_node]; [reflexivity|]. destruct raw as [v|]; [|reflexivity].
  assert (E : dec_struct (store_node q) node_zero v = dec_struct (store_node p) node_zero v).
  { unfold dec_struct. destruct v; try reflexivity. apply foldM_same. intros [? ? ? ? ? ? ? ?] [k w]. unfold store_node. rewrite iface_same. reflexivity. }
  rewrite E. destruct (dec_struct (store_node p) node_zero v) as [nd|?|?|]; cbn [bind]; try reflexivity. destruct (beqb (nj_MissingType nd) []).
  - assert (E2 : leaf_value q v = leaf_value p v); [|rewrite E2; reflexivity].
    unfold leaf_value. rewrite numbers_same. destruct v as [| | | | |members]; try reflexivity. destruct (map_value members (bs "leaf_value")); [|reflexivity]. rewrite iface_same. reflexivity.
  - rewrite IH. destruct (unmarshal_node p n (nj_LeftChildRaw nd)); cbn [bind]; try reflexivity. rewrite IH. reflexivity.
Qed.
Lemma uc_bitset : forall l, unless_crash (ConstructBitset p l) (ConstructBitset q l).
Proof.
  intros [|v l]; [apply uc_refl|]. unfold ConstructBitset. cbv zeta.
  match goal with |- unless_crash (if (?n <? 0) || _ then _ else _) _ => set (nb := n) end.
  destruct (Z.ltb_spec nb 0); cbn [orb]; [apply uc_refl|]. apply uc_room. apply uc_refl.
Qed.
Lemma uc_json_create : forall t n l r, unless_crash (json_createNode p t n l r) (json_createNode q t n l r).
Proof.
  intros t n l r. unfold json_createNode, json_createCategoricalNode, json_category.
  repeat (uc; try match goal with |- unless_crash (ConstructBitset _ _) _ => apply uc_bitset end).
Qed.
Lemma append_same : forall n s, LgJsonIO.append_node q n s = LgJsonIO.append_node p n s.
Proof. intros n s. unfold LgJsonIO.append_node. rewrite grow_same. reflexivity. Qed.
Lemma uc_json_loop : forall fuel st s, unless_crash (json_loop p fuel st s) (json_loop q fuel st s).
Proof.
  induction fuel as [|k IH]; intros st s; cbn [json_loop]; [apply uc_refl|]. destruct st as [|[ptr [v|n l r]] st]; [apply uc_refl|apply uc_refl|].
  apply uc_bind; [apply uc_json_create|]. intros [nd t] _. apply uc_bind; [apply uc_refl|]. intros s1 _. cbv zeta. rewrite append_same. apply IH.
Qed.
Lemma uc_json_tree : forall v, unless_crash (unmarshalTree p v) (unmarshalTree q v).
Proof.
  intros v. unfold unmarshalTree, unmarshalNode, json_build.
  assert (E : forall z, dec_struct (store_tree q) z v = dec_struct (store_tree p) z v).
  { intros z. unfold dec_struct. destruct v; try reflexivity. apply foldM_same. intros [? ? ?] [k w]. unfold store_tree. rewrite iface_same. reflexivity. }
  rewrite E. apply uc_bind; [apply uc_refl|]. intros tj _. cbv zeta. rewrite node_same. uc. apply uc_json_loop.
Qed.
End Load.

(** Every loader, on every stream: the machine with more memory returns the same model or the same
    error as the one with less, unless the latter crashed.  Only the text format of LightGBM
    converts numbers (the threshold of a categorical split). *)
Theorem C87_load : forall p q f loadTransformation r,
  same_release p q -> pl_maxalloc p <= pl_maxalloc q -> (f = LightGBM -> same_conversions p q) ->
  unless_crash (load_next p f loadTransformation r) (load_next q f loadTransformation r) /\
  unless_crash (load_one p f loadTransformation r) (load_one q f loadTransformation r).
Proof.
  intros p q f load r R M F.
  assert (N : unless_crash (load_next p f load r) (load_next q f load r)).
  { destruct f; cbn [load_next].
    - unfold lg_ensemble_and_rest. do 3 (apply uc_bind; [apply uc_refl|]; intros [? ?] _ || intros ? _).
      apply uc_bind; [apply uc_lg_trees; auto|]. intros; apply uc_refl.
    - apply uc_xg; auto.
    - apply uc_xgblinear; auto.
    - apply uc_sk; auto. }
  split; [exact N|]. destruct f; cbn [load_one load_next] in *.
  - unfold LGEnsembleFromReader. do 3 (apply uc_bind; [apply uc_refl|]; intros [? ?] _ || intros ? _).
    apply uc_bind; [apply uc_lg_trees; auto|]. intros; apply uc_refl.
  - apply uc_bind; [exact N|]. intros; apply uc_refl.
  - apply uc_bind; [exact N|]. intros; apply uc_refl.
  - unfold SKEnsembleFromReader. unfold sk_ensemble_and_rest in N.
    unfold Decode. rewrite (decode_same p q R). apply uc_bind; [apply uc_refl|]. intros [[v h] r1] _. unfold ParseGradientBoosting.
    apply uc_bind; [apply uc_ParseClass; [intros; apply uc_refl|intros; apply uc_gb_Build; auto]|]. intros gb _. apply uc_skClass; auto.
Qed.
Print Assumptions C87_load.

Theorem C87_load_json : forall p q limit r loadTransformation,
  same_release p q -> pl_maxalloc p <= pl_maxalloc q ->
  unless_crash (LGEnsembleFromJSONReader p limit r loadTransformation) (LGEnsembleFromJSONReader q limit r loadTransformation).
Proof.
  intros p q limit r load R M. unfold LGEnsembleFromJSONReader, LGEnsembleFromJSON.
  destruct load; [apply uc_refl|]. destruct (first_value limit r); [|apply uc_refl]. apply uc_bind; [apply uc_refl|]. intros d _. cbv zeta.
  repeat match goal with |- unless_crash (if ?x then _ else _) _ => destruct x; [apply uc_refl|] end.
  apply uc_bind; [apply uc_mapM; intros; apply uc_json_tree; auto|]. intros; apply uc_refl.
Qed.
Print Assumptions C87_load_json.

(** ** The hypotheses can be met *)

Example C87_case_machines : machines_alike amd64 arm64 demo_raw /\ machines_alike amd64 arm64 demo_softmax /\ machines_alike amd64 arm64 demo_logistic /\
  numerical_model demo_softmax /\ ~ same_conversions amd64 arm64 /\ pl_f2i32 amd64 fnan <> pl_f2i32 arm64 fnan.
Proof.
  assert (M : forall e, NRawOutputGroups e <= 2 -> machines_alike amd64 arm64 e).
  { intros e H. split; intros _; [reflexivity|]. cbn [pl_maxalloc amd64 arm64]. lia. }
  repeat match goal with |- _ /\ _ => split end; try (apply M; vm_compute; discriminate).
  - repeat constructor.
  - intros F. generalize (F (fint (-1))). vm_compute. discriminate.
  - vm_compute. discriminate.
Qed.

(** a model with a categorical split on {3, 40} and a numerical one: defined for a row with a
    category, and the same outputs follow *)
Definition machine_tree : lgTree :=
  mkTree [mkNode (f64_of_bits 0) 0 1 0 (Z.lor categorical leftLeaf); mkNode (fint 5) 1 2 1 (Z.lor leftLeaf rightLeaf)]
         [fint 1; fint 2; fint 3] [0; 2] [8; 256] 1.
Definition machine_model : Ensemble := mkEnsemble (BLg (mkLgEnsemble [machine_tree] 1 1 (bs "lightgbm.gbdt") false)) (TransformRaw 1).
Example C87_case_categorical :
  defined_splits machine_model (map fint [40; 7]) /\ ~ defined_splits machine_model [fnan; fint 7] /\
  Predict amd64 machine_model (map fint [40; 7]) 0 [fzero] = Ok [fint 1] /\
  Predict arm64 machine_model (map fint [40; 7]) 0 [fzero] = Ok [fint 1] /\
  Predict arm64 machine_model (map fint [41; 7]) 0 [fzero] = Ok [fint 3].
Proof.
  split; [|split; [|repeat split; vm_compute; reflexivity]].
  - unfold defined_splits. apply Forall_cons; [|apply Forall_nil]. apply Forall_cons; [|apply Forall_cons; [|apply Forall_nil]].
    + intros v E. change (Some (fint 40) = Some v) in E. injection E as <-. intros _.
      change (has (nFlags (mkNode (f64_of_bits 0) 0 1 0 (Z.lor categorical leftLeaf))) catOneHot) with false. cbv iota.
      split; [left; exists 40|exists 0]; (split; [vm_compute; reflexivity|unfold two31, two32; lia]).
    + intros v _ C. discriminate C.
  - intros D. unfold defined_splits in D. apply Forall_inv in D. apply Forall_inv in D. specialize (D fnan eq_refl eq_refl). destruct D as [[(z & T & _)|[_ H]] _]; discriminate.
Qed.

(** NaN at a categorical split that does not treat NaN as missing: int32(NaN) is up to the machine *)
Theorem C87_nan_refuted : exists e fvals, machines_alike amd64 arm64 e /\ well_formed e /\
  Predict amd64 e fvals 0 [fzero] <> Predict arm64 e fvals 0 [fzero].
Proof.
  exists (mkEnsemble (BLg (mkLgEnsemble [mkTree [node_set_right (node_or_flags (node_or_flags (categoricalNode 0 0 0 catOneHot) leftLeaf) rightLeaf) 1]
    [fint 1; fint 2] [] [] 0] 0 1 (bs "lightgbm.gbdt") false)) (TransformRaw 1)), [fnan].
  split; [split; intros [] | split; [vm_compute; repeat split; discriminate || reflexivity|vm_compute; discriminate]].
Qed.
Print Assumptions C87_nan_refuted.

(** the same release of Go on a machine with less memory *)
Definition small_text : platform :=
  mkPlatform (pl_f2i32 amd64) (pl_f2u32 amd64) (pl_exp amd64) 1 1 dec_parse (pl_print_float amd64) (pl_grow amd64).
Definition machine_text (threshold : string) : reader := mkReader (file
  ["tree"; "version=v2"; "num_class=1"; "num_tree_per_iteration=1"; "max_feature_idx=1"; "objective=regression"; "tree_sizes=400"; "";
   "Tree=0"; "num_leaves=3"; "num_cat=1"; "split_feature=0 1"; "threshold=" ++ threshold ++ " 2.5"; "decision_type=1 10";
   "left_child=1 -1"; "right_child=-3 -2"; "leaf_value=0.5 -1.25 3"; "cat_boundaries=0 2"; "cat_threshold=8 256"; ""]%string) true.
Example C87_case_load :
  same_release small_text amd64_text /\ same_release amd64_text (with_parse arm64) /\ pl_maxalloc small_text <= pl_maxalloc amd64_text /\
  same_conversions small_text amd64_text /\
  load_one small_text LightGBM true (machine_text "0") = Panic "makeslice: cap out of range" /\
  (exists e, load_one amd64_text LightGBM true (machine_text "0") = Ok e) /\
  load_one small_text LightGBM true (machine_text "x") = Err "can't convert" /\ load_one amd64_text LightGBM true (machine_text "x") = Err "can't convert".
Proof.
  split; [split; reflexivity|]. split; [split; reflexivity|]. split; [cbn; lia|]. split; [intros x; reflexivity|].
  split; [vm_compute; reflexivity|]. split; [eexists; vm_compute; reflexivity|]. split; vm_compute; reflexivity.
Qed.

(** the threshold of a categorical split is -1: the conversion to uint32 is up to the machine,
    and one loads the file while the other crashes *)
Theorem C87_text_conversions_refuted : exists e msg,
  load_one amd64_text LightGBM true (machine_text "-1") = Panic msg /\ load_one (with_parse arm64) LightGBM true (machine_text "-1") = Ok e.
Proof. do 2 eexists. split; vm_compute; reflexivity. Qed.
Print Assumptions C87_text_conversions_refuted.
