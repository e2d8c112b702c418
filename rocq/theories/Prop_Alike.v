(** * C70: leaf indices determine the prediction.  C71: how a sparse row is written down *)

From Coq Require Import ZArith List Bool String Lia ZifyBool Permutation.
From Coq Require Import Floats.SpecFloat.
From Verif Require Import Go GoFloat GoText Cmd LgTree Transformation Ensembles Leaves Parallel Mat
  Spec_Predict Spec_Mat Demo Pf_Go Pf_Float Pf_Cmd Pf_Leaves Pf_Calls Pf_Tree Pf_Rows Pf_Values Prop_Values Prop_Batch Prop_Mat Prop_Rows Ex_Batch.
Local Open Scope Z_scope.

(** ** C70 *)
Lemma leaf_view_wf : forall e l, well_formed e -> EnsembleWithLeafPredictions e = Ok l ->
  well_formed l /\ wants_leaves l /\ core (eBase l) = core (eBase e) /\ NEstimators l = NEstimators e.
Proof.
  intros e l W H. unfold EnsembleWithLeafPredictions in H. apply bind_ok in H. destruct H as (k & Hk & H). injection H as <-.
  destruct (wf_NEst e W) as (k' & Hk' & K0 & K1 & _). assert (k' = k) by congruence. subst k'. destruct W as (W1 & W2 & _).
  split; [|split; [eexists; reflexivity|split; reflexivity]]. split; [exact W1|]. split; [exact W2|]. cbn [eTransform].
  exists k. split; [exact Hk|]. rewrite s64_id by (unfold MaxInt, two63 in *; nia). reflexivity.
Qed.

Lemma leaf_outputs : forall p l k x o out, well_formed l -> wants_leaves l -> is_tree_model l -> NEstimators l = Ok k ->
  Predict p l x 0 o = Ok out -> NFeatures l <= zlen x /\
  forall g i, 0 <= g < NRawOutputGroups l -> 0 <= i < k -> exists t v leaf,
    zget (model_trees l) (i * NRawOutputGroups l + g) = Some t /\ predict p t x = Ok (v, leaf) /\ zget out (g * k + i) = Some (f64_of_Z leaf).
Proof.
  intros p e k fv preds out Hwf Hl Ht Hk H.
  pose proof (wf_trees_NEst e k Hwf Ht Hk) as [Hk0 Hb]. pose proof Hwf as ([Hg1 _] & Hm & _).
  destruct (Predict_inv _ _ _ _ _ _ Hwf H) as (n & Had & Hc & Hf & _ & E). split; [exact Hf|]. intros g i Hg Hi.
  destruct (adjust_usable _ _ _ Hwf Had Hc) as (k' & Hk' & _ & Hn).
  assert (k' = k) by congruence. subst k'. specialize (Hn Hl). subst n.
  assert (El : exec (trees_predictLeafIndicesInner p (model_trees e) (NRawOutputGroups e) fv k 0) preds = Ok out).
  { rewrite <- E. f_equal. unfold predictInnerAndTransform. destruct Hl as [q Hq]. rewrite Hq. cbn [Type_t].
    change (TypeLeafIndex =? TypeRaw) with false. rewrite Z.eqb_refl. cbv iota.
    rewrite core_leafs. unfold model_trees, NRawOutputGroups. rewrite core_NRaw. unfold is_tree_model in Ht.
    destruct (core_cases (eBase e)) as [[m Hcc]|[[m Hcc]|[m Hcc]]]; rewrite Hcc in *; simpl; tauto. }
  apply (leafs_values p (model_trees e) (NRawOutputGroups e) fv k preds out ltac:(lia) Hk0 ltac:(nia) El g i Hg Hi).
Qed.

(** the trees used give the same results for both vectors: so do the accumulating loops *)
Lemma inner_alike : forall p e x y k n s, well_formed e -> is_tree_model e -> NEstimators e = Ok k -> n <= k ->
  (forall i t, 0 <= i < NRawOutputGroups e * k -> zget (model_trees e) i = Some t -> predict p t x = predict p t y) ->
  b_predictInner p (eBase e) x n s = b_predictInner p (eBase e) y n s /\
  b_predictLeafIndicesInner p (eBase e) x n s = b_predictLeafIndicesInner p (eBase e) y n s.
Proof.
  intros p e x y k n s W T Hk Hn H.
  assert (A : forall i g, 0 <= i < n -> 0 <= g < NRawOutputGroups e ->
    (let* t := at_ (model_trees e) (i * NRawOutputGroups e + g) in predict p t x) = (let* t := at_ (model_trees e) (i * NRawOutputGroups e + g) in predict p t y)).
  { intros i g Hi Hg. unfold at_. destruct (zget (model_trees e) (i * NRawOutputGroups e + g)) as [t|] eqn:E; cbn [bind]; [|reflexivity]. apply (H (i * NRawOutputGroups e + g) t); [nia|exact E]. }
  rewrite (core_inner p (eBase e) x), (core_inner p (eBase e) y), (core_leafs p (eBase e) x), (core_leafs p (eBase e) y). unfold NRawOutputGroups in A. rewrite core_NRaw in A. unfold is_tree_model in T. unfold model_trees in A.
  destruct (core_cases (eBase e)) as [[m Hc]|[[m Hc]|[m Hc]]]; rewrite Hc in *; cbn [b_predictInner b_predictLeafIndicesInner b_NRawOutputGroups] in *; try contradiction; split.
  - unfold lg_predictInner. cbv zeta. f_equal. rewrite !flat_map_concat_map. f_equal. apply map_ext_in. intros i Hi. apply map_ext_in. intros g Hg. apply in_zseq in Hi. apply in_zseq in Hg. rewrite A by lia. reflexivity.
  - unfold trees_predictLeafIndicesInner. cbv zeta. f_equal. rewrite !flat_map_concat_map. f_equal. apply map_ext_in. intros i Hi. apply map_ext_in. intros g Hg. apply in_zseq in Hi. apply in_zseq in Hg. rewrite A by lia. reflexivity.
  - unfold xg_predictInner. cbv zeta. f_equal. rewrite !flat_map_concat_map. f_equal. apply map_ext_in. intros i Hi. apply map_ext_in. intros g Hg. apply in_zseq in Hi. apply in_zseq in Hg. specialize (A i g ltac:(lia) ltac:(lia)).
    unfold at_ in *. destruct (zget (xgTrees m) (i * xgNRawOutputGroups m + g)) as [t|]; cbn [bind] in *; [rewrite A|]; reflexivity.
  - unfold trees_predictLeafIndicesInner. cbv zeta. f_equal. rewrite !flat_map_concat_map. f_equal. apply map_ext_in. intros i Hi. apply map_ext_in. intros g Hg. apply in_zseq in Hi. apply in_zseq in Hg. rewrite A by lia. reflexivity.
Qed.

(** Two feature vectors that reach the same leaves, as the leaf-index view tells, get the same
    output from the model in every other respect: raw or transformed, from any number of its
    estimators. *)
Theorem C70_leaves_determine_prediction :
  forall p e l x y ox oy lx ly,
  well_formed e -> is_tree_model e -> EnsembleWithLeafPredictions e = Ok l ->
  Forall (fun t => zlen (tLeafValues t) <= 2 ^ 53) (model_trees e) ->
  Predict p l x 0 ox = Ok lx -> Predict p l y 0 oy = Ok ly ->
  (forall k, 0 <= k < NOutputGroups l -> zget lx k = zget ly k) ->
  forall nEstimators predictions, Predict p e x nEstimators predictions = Predict p e y nEstimators predictions.
Proof.
  intros p e l x y ox oy lx ly W T HL V Px Py Eq nE preds.
  destruct (leaf_view_wf e l W HL) as (Wl & Ll & Cl & Nl). destruct (wf_NEst e W) as (k & Hk & K0 & K1 & _).
  assert (Tl : is_tree_model l) by (unfold is_tree_model in *; rewrite Cl; exact T).
  assert (Ml : model_trees l = model_trees e) by (unfold model_trees; rewrite Cl; reflexivity).
  assert (Rl : NRawOutputGroups l = NRawOutputGroups e) by (unfold NRawOutputGroups; rewrite core_NRaw, Cl, <- core_NRaw; reflexivity).
  assert (Fl : NFeatures l = NFeatures e) by (unfold NFeatures; rewrite core_NFeat, Cl, <- core_NFeat; reflexivity).
  assert (Gl : NOutputGroups l = NRawOutputGroups e * k).
  { destruct Wl as (_ & _ & Wl). destruct Ll as [q Hq]. rewrite Hq in Wl. destruct Wl as (k' & Hk' & ->). assert (k' = k) by congruence. subst k'. unfold NOutputGroups. rewrite Hq. cbn. rewrite Rl. reflexivity. }
  destruct (leaf_outputs p l k x ox lx Wl Ll Tl ltac:(congruence) Px) as (Fx & Lx). destruct (leaf_outputs p l k y oy ly Wl Ll Tl ltac:(congruence) Py) as (Fy & Ly).
  rewrite Ml, Rl in Lx, Ly. pose proof W as ([G1 _] & _).
  assert (A : forall i t, 0 <= i < NRawOutputGroups e * k -> zget (model_trees e) i = Some t -> predict p t x = predict p t y).
  { intros j t Hj Et. set (g := j mod NRawOutputGroups e). set (i := j / NRawOutputGroups e).
    assert (Hg : 0 <= g < NRawOutputGroups e) by (apply Z.mod_pos_bound; lia).
    assert (Hi : 0 <= i < k) by (unfold i; split; [apply Z.div_pos; lia|apply Z.div_lt_upper_bound; lia]).
    assert (Hj' : j = i * NRawOutputGroups e + g) by (unfold i, g; rewrite (Z.div_mod j (NRawOutputGroups e)) at 1 by lia; lia).
    destruct (Lx g i Hg Hi) as (t1 & v1 & f1 & T1 & P1 & O1). destruct (Ly g i Hg Hi) as (t2 & v2 & f2 & T2 & P2 & O2).
    rewrite Hj' in Et. assert (t1 = t) by congruence. assert (t2 = t) by congruence. subst t1 t2.
    assert (F : f64_of_Z f1 = f64_of_Z f2) by (specialize (Eq (g * k + i) ltac:(rewrite Gl; nia)); congruence).
    pose proof (predict_leaf _ _ _ _ _ P1) as Q1. pose proof (predict_leaf _ _ _ _ _ P2) as Q2.
    pose proof (zget_range _ _ _ _ Q1). pose proof (zget_range _ _ _ _ Q2).
    rewrite Forall_forall in V. specialize (V t (zget_in _ _ _ _ Et)).
    assert (f1 = f2).
    { pose proof (trunc_f64_of_Z f1 ltac:(lia)) as U1. pose proof (trunc_f64_of_Z f2 ltac:(lia)) as U2. rewrite F in U1. congruence. }
    subst f2. rewrite P1, P2. congruence. }
  unfold Predict. destruct (_ <? _); [reflexivity|]. replace (zlen x <? NFeatures e) with false by lia. replace (zlen y <? NFeatures e) with false by lia.
  destruct (wf_adjust e nE W) as (k' & Hk' & ->). assert (k' = k) by congruence. subst k'. cbn [bind].
  set (n := if (0 <? nE) && (nE <? k) then nE else k). assert (Hn : n <= k) by (unfold n; destruct (Z.ltb_spec 0 nE), (Z.ltb_spec nE k); simpl; lia).
  destruct (checkNEstimators e n) as [[]| | |]; cbn [bind]; try reflexivity. f_equal. unfold predictInnerAndTransform.
  destruct (inner_alike p e x y k n 0 W T Hk Hn A) as [-> ->]. reflexivity.
Qed.
Print Assumptions C70_leaves_determine_prediction.

(** two different vectors in the same leaves of the softmax model *)
Example C70_demo_hypotheses : exists l lx,
  EnsembleWithLeafPredictions demo_softmax = Ok l /\ well_formed demo_softmax /\ is_tree_model demo_softmax /\
  Forall (fun t => zlen (tLeafValues t) <= 2 ^ 53) (model_trees demo_softmax) /\
  Predict amd64 l (map fint [5; 6]) 0 (zeros 4) = Ok lx /\ Predict amd64 l (map fint [7; 9]) 0 (zeros 4) = Ok lx /\
  NOutputGroups l = 4 /\ lx <> zeros 4 /\ is_ok (Predict amd64 demo_softmax (map fint [5; 6]) 1 (zeros 2)) = true.
Proof.
  eexists _, _. split; [reflexivity|]. split; [exact demo_softmax_wf|]. split; [exact I|].
  split; [repeat constructor; vm_compute; discriminate|]. split; [vm_compute; reflexivity|]. split; [vm_compute; reflexivity|]. split; [reflexivity|]. split; [discriminate|]. vm_compute; reflexivity.
Qed.

(** ** C71 *)

(** What a stored row says of column [c]: the last entry of the column counts; without one
    the column holds the missing value. *)
Definition cell (missing : f64) (row : list entry) (c : Z) (v : f64) : Prop :=
  (exists before after, row = before ++ (c, v) :: after /\ ~ In c (map fst after)) \/
  (~ In c (map fst row) /\ v = missing).
(** the rows say the same of the first [n] columns *)
Definition same_cells (n : Z) (missing : f64) (r1 r2 : list entry) : Prop :=
  forall c v, 0 <= c < n -> cell missing r1 c v -> cell missing r2 c v.

Lemma cell_exists : forall missing row c, exists v, cell missing row c v.
Proof.
  intros missing row c. induction row as [|[c' v'] row (v & [(b & a & -> & N)|(N & ->)])].
  - exists missing. right. split; [intros []|reflexivity].
  - exists v. left. exists ((c', v') :: b), a. split; [reflexivity|exact N].
  - destruct (Z.eq_dec c' c) as [->|Hc].
    + exists v'. left. exists [], row. split; [reflexivity|exact N].
    + exists missing. right. split; [|reflexivity]. cbn. tauto.
Qed.

Lemma cell_unique : forall missing row c v v', cell missing row c v -> cell missing row c v' -> v = v'.
Proof.
  intros missing row c v v' [(b & a & -> & N)|(N & ->)] [(b' & a' & E & N')|(N' & ->)]; try reflexivity.
  - revert b' E. induction b as [|x b IH]; intros [|x' b'] E; cbn in E.
    + congruence.
    + injection E as _ E. exfalso. apply N. rewrite E, map_app. apply in_or_app. right. left. reflexivity.
    + injection E as _ E. exfalso. apply N'. rewrite <- E, map_app. apply in_or_app. right. left. reflexivity.
    + injection E as _ E. eauto.
  - exfalso. apply N'. rewrite map_app. apply in_or_app. right. left. reflexivity.
  - exfalso. apply N. rewrite E, map_app. apply in_or_app. right. left. reflexivity.
Qed.
Lemma zget_split : forall A (l : list A) i x, zget l i = Some x -> exists b a, l = b ++ x :: a /\ zlen b = i.
Proof.
  intros A l i x E. pose proof (zget_range _ _ _ _ E). rewrite zget_nth in E by lia. apply nth_error_split in E. destruct E as (b & a & -> & L). exists b, a. unfold zlen. split; [reflexivity|lia].
Qed.

Section Holds.
Variables (m : CSRMat) (rows : list (list entry)) (H : csr_holds m rows) (n : Z) (missing : f64).

Lemma row_bounds : forall i r, zget rows i = Some r -> exists start,
  zget (cmRowHeaders m) i = Some start /\ zget (cmRowHeaders m) (i + 1) = Some (start + zlen r) /\
  forall j, start <= j < start + zlen r -> exists c v, zget r (j - start) = Some (c, v) /\ zget (cmColIndexes m) j = Some c /\ zget (cmValues m) j = Some v.
Proof.
  intros i r Hr. destruct H as (_ & _ & _ & _ & K). destruct (K i r Hr) as (start & A & B & C). exists start. split; [exact A|]. split; [exact B|].
  intros j Hj. destruct (zget r (j - start)) as [[c v]|] eqn:E.
  - exists c, v. split; [reflexivity|]. destruct (C _ _ _ E) as [C1 C2]. replace (start + (j - start)) with j in * by lia. auto.
  - exfalso. destruct (zget_some _ r (j - start) ltac:(lia)) as [x Hx]. congruence.
Qed.

Lemma no_later : forall before c v (after : list entry) k c' v', ~ In c (map fst after) ->
  zget (before ++ (c, v) :: after) k = Some (c', v') -> zlen before < k -> c' <> c.
Proof.
  intros before c v after k c' v' N E Hk ->. rewrite zget_app_r, zget_cons in E by lia. apply N. apply zget_in in E. apply (in_map fst) in E. exact E.
Qed.

(** the row as the model sees it holds what the stored row says *)
Lemma row_cell : forall i r x, zget rows i = Some r -> is_csr_row (cmRowHeaders m) (cmColIndexes m) (cmValues m) n missing i x ->
  forall c v, 0 <= c < n -> cell missing r c v -> zget x c = Some v.
Proof.
  intros i r x Hr (s & t & Es & Et & Lx & Hx) c v Hc Hv. destruct (row_bounds i r Hr) as (start & A & B & C).
  assert (s = start) by congruence. assert (t = start + zlen r) by congruence. subst s t. destruct (Hx c Hc) as (X1 & X2). destruct Hv as [(b & a & -> & N)|(N & ->)].
  - pose proof (zlen_nonneg _ b). pose proof (zlen_nonneg _ a). rewrite zlen_app, zlen_cons in *.
    destruct (C (start + zlen b) ltac:(lia)) as (c1 & v1 & E1 & E2 & E3). replace (start + zlen b - start) with (zlen b) in E1 by lia.
    rewrite zget_app_r, Z.sub_diag, zget_cons_0 in E1 by lia. injection E1 as <- <-. rewrite (X1 (start + zlen b)); auto; [lia|].
    intros j' Hj' E. destruct (C j' ltac:(lia)) as (c2 & v2 & F1 & F2 & F3). apply (no_later _ _ _ _ _ _ _ N F1); [lia|congruence].
  - apply X2. intros j Hj E. destruct (C j Hj) as (c2 & v2 & F1 & F2 & F3). apply N. apply zget_in in F1. apply (in_map fst) in F1. cbn in F1. congruence.
Qed.

Lemma cell_row : forall i r x, zget rows i = Some r -> zlen x = n -> (forall c v, 0 <= c < n -> cell missing r c v -> zget x c = Some v) ->
  is_csr_row (cmRowHeaders m) (cmColIndexes m) (cmValues m) n missing i x.
Proof.
  intros i r x Hr Lx Hx. destruct (row_bounds i r Hr) as (start & A & B & C). exists start, (start + zlen r). repeat (split; [assumption|]). intros c Hc. split.
  - intros j Hj E L. destruct (C j Hj) as (c' & v & F1 & F2 & F3). assert (c' = c) by congruence. subst c'. rewrite F3. apply (Hx c v Hc). left.
    destruct (zget_split _ _ _ _ F1) as (b & a & -> & Lb). exists b, a. split; [reflexivity|]. intros N. apply in_map_iff in N. destruct N as ([c' v'] & Q & N). cbn in Q. subst c'.
    apply in_zget in N. destruct N as [k N]. pose proof (zget_range _ _ _ _ N). pose proof (zlen_nonneg _ b). rewrite zlen_app, zlen_cons in *.
    destruct (C (start + zlen b + 1 + k) ltac:(lia)) as (c2 & v2 & G1 & G2 & G3). rewrite zget_app_r, zget_cons in G1 by lia.
    replace (start + zlen b + 1 + k - start - zlen b - 1) with k in G1 by lia. apply (L (start + zlen b + 1 + k)); [lia|]. congruence.
  - intros N. apply (Hx c missing Hc). right. split; [|reflexivity]. intros Q. apply in_map_iff in Q. destruct Q as ([c' v'] & Q & I). cbn in Q. subst c'.
    apply in_zget in I. destruct I as [k I]. pose proof (zget_range _ _ _ _ I). destruct (C (start + k) ltac:(lia)) as (c2 & v2 & G1 & G2 & G3).
    replace (start + k - start) with k in G1 by lia. apply (N (start + k)); [lia|congruence].
Qed.

Lemma row_readable : forall i r, zget rows i = Some r -> Forall (fun e => 0 <= fst e) r -> csr_row_readable (cmRowHeaders m) (cmColIndexes m) (cmValues m) i.
Proof.
  intros i r Hr F. destruct (row_bounds i r Hr) as (start & A & B & C). exists start, (start + zlen r). repeat (split; [assumption|]).
  intros j Hj. destruct (C j Hj) as (c & v & F1 & F2 & F3). split; [exact (zget_range _ _ _ _ F3)|]. exists c. split; [exact F2|]. rewrite Forall_forall in F. exact (F _ (zget_in _ _ _ _ F1)).
Qed.
End Holds.

(** Two CSR matrices whose rows say the same of the columns the model has, whatever the order
    of the entries, whether missing values are stored or left out, and whatever is stored in
    further columns: if one call returns, so does the other, with the same result. *)
Theorem C71_same_cells_same_result :
  forall p e m1 rows1 m2 rows2 predictions nEstimators nThreads m,
  well_formed e -> arity_accepted e -> sane_rows e (zlen rows1) -> 0 < zlen rows1 ->
  1 <= pl_gomaxprocs p -> 0 <= NFeatures e <= pl_maxalloc p ->
  csr_holds m1 rows1 -> csr_holds m2 rows2 -> Forall2 (same_cells (NFeatures e) (missing_value e)) rows1 rows2 ->
  Forall (Forall (fun en => 0 <= fst en)) rows2 ->
  PredictCSR p e (cmRowHeaders m1) (cmColIndexes m1) (cmValues m1) predictions nEstimators nThreads (Returns m) ->
  forall nThreads',
  PredictCSR p e (cmRowHeaders m2) (cmColIndexes m2) (cmValues m2) predictions nEstimators nThreads' (Returns m) /\
  forall r, PredictCSR p e (cmRowHeaders m2) (cmColIndexes m2) (cmValues m2) predictions nEstimators nThreads' r -> r = Returns m.
Proof.
  intros p e m1 rows1 m2 rows2 preds nE t m W A HS Hpos G F H1 H2 Q C2 P t'.
  assert (L : List.length rows1 = List.length rows2) by (clear - Q; induction Q; cbn; congruence). pose proof H1 as (L1 & _). pose proof H2 as (L2 & _).
  assert (L1' : zlen (cmRowHeaders m1) - 1 = zlen rows1) by lia. assert (L2' : zlen (cmRowHeaders m2) - 1 = zlen rows1) by (unfold zlen in *; lia).
  assert (S1 : sane_rows e (zlen (cmRowHeaders m1) - 1)) by (rewrite L1'; exact HS). assert (S2 : sane_rows e (zlen (cmRowHeaders m2) - 1)) by (rewrite L2'; exact HS).
  assert (R : forall i x, is_csr_row (cmRowHeaders m1) (cmColIndexes m1) (cmValues m1) (NFeatures e) (missing_value e) i x -> 0 <= i < zlen rows1 ->
    is_csr_row (cmRowHeaders m2) (cmColIndexes m2) (cmValues m2) (NFeatures e) (missing_value e) i x /\ csr_row_readable (cmRowHeaders m2) (cmColIndexes m2) (cmValues m2) i).
  { intros i x Hx Hi. destruct (zget_some _ rows1 i Hi) as [r1 E1]. destruct (zget_some _ rows2 i ltac:(unfold zlen in *; lia)) as [r2 E2].
    assert (SC : same_cells (NFeatures e) (missing_value e) r1 r2).
    { rewrite zget_nth in E1, E2 by lia. clear - Q E1 E2. revert E1 E2. generalize (Z.to_nat i). induction Q; intros [|k] E1 E2; cbn in *; try discriminate; [|eauto]. inversion E1; inversion E2; subst; assumption. }
    split.
    - apply (cell_row m2 rows2 H2 _ _ i r2 x E2); [destruct Hx as (? & ? & _ & _ & Lx & _); exact Lx|]. intros c v Hc Hv. apply (row_cell m1 rows1 H1 _ _ i r1 x E1 Hx c v Hc).
      destruct (cell_exists (missing_value e) r1 c) as [v' Hv']. pose proof (SC c v' Hc Hv') as Hv2. assert (v' = v) by (eapply cell_unique; eauto). congruence.
    - apply (row_readable m2 rows2 H2 i r2 E2). rewrite Forall_forall in C2. exact (C2 _ (zget_in _ _ _ _ E2)). }
  destruct (C07_csr_window p e _ _ _ preds nE t m W S1 P) as (Lm & Fm & _).
  assert (Kp : NOutputGroups e * (zlen (cmRowHeaders m1) - 1) <= zlen preds).
  { destruct (csr_seq p e (cmRowHeaders m1) (cmColIndexes m1) (cmValues m1) preds nE t m W ltac:(destruct S1; lia) ltac:(destruct S1; assumption) P) as (n & Hc & _). unfold csr_checks in Hc. cbv zeta in Hc.
    rewrite s64_id in Hc by (destruct S1 as [? ?]; pose proof (wf_NOG e W); unfold MaxInt, two63 in *; nia).
    destruct (Z.ltb_spec (zlen preds) (NOutputGroups e * (zlen (cmRowHeaders m1) - 1))); [|lia]. discriminate Hc. }
  destruct (C03_csr_always_completes p e (cmRowHeaders m2) (cmColIndexes m2) (cmValues m2) preds nE t' W S2 G F ltac:(rewrite L2', <- L1'; exact Kp)) as ((m' & P') & All & _).
  { intros i Hi. rewrite L2' in Hi. destruct (C06_csr_rows_equal_predict p e (cmRowHeaders m1) (cmColIndexes m1) (cmValues m1) preds nE t m W A S1 P i ltac:(lia)) as (x & Hx & K).
    destruct (R i x Hx Hi) as (Hx2 & Rd). split; [exact Rd|]. pose proof (wf_NOG e W).
    destruct (K (zeros (NOutputGroups e))) as (o & Po & _); [unfold zeros, zlen; rewrite repeat_length; destruct HS; unfold MaxInt in *; nia|]. eauto. }
  { lia. }
  assert (Eq : forall m'', PredictCSR p e (cmRowHeaders m2) (cmColIndexes m2) (cmValues m2) preds nE t' (Returns m'') -> m'' = m).
  { intros m'' P''. destruct (C07_csr_window p e _ _ _ preds nE t' m'' W S2 P'') as (Lm' & Fm' & _). pose proof (wf_NOG e W).
    apply zget_ext; [congruence|]. intros k Hk. destruct (Z_lt_le_dec k (zlen rows1 * NOutputGroups e)) as [Lt|Ge].
    - set (i := k / NOutputGroups e). set (g := k mod NOutputGroups e). assert (Hg : 0 <= g < NOutputGroups e) by (apply Z.mod_pos_bound; lia).
      assert (Hi : 0 <= i < zlen rows1) by (unfold i; split; [apply Z.div_pos; lia|apply Z.div_lt_upper_bound; lia]).
      assert (Ek : k = i * NOutputGroups e + g) by (unfold i, g; rewrite (Z.div_mod k (NOutputGroups e)) at 1 by lia; lia).
      destruct (C06_csr_rows_equal_predict p e (cmRowHeaders m1) (cmColIndexes m1) (cmValues m1) preds nE t m W A S1 P i ltac:(lia)) as (x & Hx & _). destruct (R i x Hx Hi) as (Hx2 & _). rewrite Ek.
      apply (C69_rows_independent p e nE _ _ m'' _ _ m i i x [] W A ltac:(destruct HS; nia) (csr_batch p e nE _ _ _ preds t' m'' S2 P'') (csr_batch p e nE _ _ _ preds t m S1 P)); try lia; rewrite ?app_nil_r; assumption.
    - rewrite Fm, Fm' by lia. reflexivity. }
  split.
  - rewrite <- (Eq m' P'). exact P'.
  - intros r Hr. destruct (All r Hr) as [m'' ->]. rewrite (Eq m'' Hr). reflexivity.
Qed.
Print Assumptions C71_same_cells_same_result.

(** the special case of rows that have at most one entry per column: the entries of the model's
    columns, apart from missing values, are the same in any order *)
Definition same_entries (n : Z) (missing : f64) (r1 r2 : list entry) : Prop :=
  NoDup (map fst r1) /\ NoDup (map fst r2) /\
  forall c v, 0 <= c < n -> v <> missing -> (In (c, v) r1 <-> In (c, v) r2).
Lemma f64_eq_dec : forall a b : f64, {a = b} + {a <> b}.
Proof. decide equality; try apply Bool.bool_dec; try apply Z.eq_dec; apply Pos.eq_dec. Qed.
Lemma cell_in : forall missing r c v, NoDup (map fst r) -> In (c, v) r -> cell missing r c v.
Proof.
  intros missing r c v N I. left. apply in_split in I. destruct I as (b & a & ->). exists b, a. split; [reflexivity|].
  rewrite map_app in N. cbn in N. apply NoDup_remove_2 in N. intros I. apply N. apply in_or_app. right. exact I.
Qed.
Lemma in_cell : forall missing r c v, cell missing r c v -> v <> missing -> In (c, v) r.
Proof. intros missing r c v [(b & a & -> & _)|(_ & ->)] D; [apply in_or_app; right; left; reflexivity|congruence]. Qed.
Lemma same_entries_cells : forall n missing r1 r2, same_entries n missing r1 r2 -> same_cells n missing r1 r2.
Proof.
  intros n missing r1 r2 (N1 & N2 & K) c v Hc Hv. destruct (f64_eq_dec v missing) as [->|D].
  - destruct (cell_exists missing r2 c) as [w Hw]. destruct (f64_eq_dec w missing) as [->|D]; [exact Hw|].
    pose proof (proj2 (K c w Hc D) (in_cell _ _ _ _ Hw D)) as I. exfalso. apply D. exact (cell_unique missing r1 c w missing (cell_in _ _ _ _ N1 I) Hv).
  - apply cell_in; [exact N2|]. apply (K c v Hc D). eapply in_cell; eassumption.
Qed.
Lemma same_entries_order : forall n missing r1 r2, NoDup (map fst r1) -> Permutation r1 r2 -> same_entries n missing r1 r2.
Proof.
  intros n missing r1 r2 N P. split; [exact N|]. split; [eapply Permutation_NoDup; [apply Permutation_map; exact P|exact N]|].
  intros c v _ _. split; intros I; (eapply Permutation_in; [|exact I]); [exact P|apply Permutation_sym; exact P].
Qed.

(** The order in which the entries of a row are stored does not matter. *)
Theorem C71_order_of_entries :
  forall p e m1 rows1 m2 rows2 predictions nEstimators nThreads m,
  well_formed e -> arity_accepted e -> sane_rows e (zlen rows1) -> 0 < zlen rows1 ->
  1 <= pl_gomaxprocs p -> 0 <= NFeatures e <= pl_maxalloc p ->
  csr_holds m1 rows1 -> csr_holds m2 rows2 -> Forall2 (@Permutation entry) rows1 rows2 ->
  Forall (fun row => NoDup (map fst row) /\ Forall (fun en => 0 <= fst en) row) rows1 ->
  PredictCSR p e (cmRowHeaders m1) (cmColIndexes m1) (cmValues m1) predictions nEstimators nThreads (Returns m) ->
  forall nThreads',
  PredictCSR p e (cmRowHeaders m2) (cmColIndexes m2) (cmValues m2) predictions nEstimators nThreads' (Returns m) /\
  forall r, PredictCSR p e (cmRowHeaders m2) (cmColIndexes m2) (cmValues m2) predictions nEstimators nThreads' r -> r = Returns m.
Proof.
  intros p e m1 rows1 m2 rows2 preds nE t m W A HS Hpos G F H1 H2 Q C P.
  apply (C71_same_cells_same_result p e m1 rows1 m2 rows2 preds nE t m W A HS Hpos G F H1 H2); [| |exact P].
  - clear - Q C. induction Q as [|r1 r2 l1 l2 Pm Q IH]; [constructor|]. inversion C as [|? ? (N & _) C']; subst. constructor; [|apply IH; exact C'].
    apply same_entries_cells, same_entries_order; assumption.
  - clear - Q C. induction Q as [|r1 r2 l1 l2 Pm Q IH]; [constructor|]. inversion C as [|? ? (_ & N) C']; subst. constructor; [|apply IH; exact C'].
    rewrite Forall_forall in *. intros en Hen. apply N. eapply Permutation_in; [apply Permutation_sym; exact Pm|exact Hen].
Qed.
Print Assumptions C71_order_of_entries.

(** Missing values may be stored or left out, and so may columns the model does not have. *)
Theorem C71_missing_values :
  forall p e m1 rows1 m2 rows2 predictions nEstimators nThreads m,
  well_formed e -> arity_accepted e -> sane_rows e (zlen rows1) -> 0 < zlen rows1 ->
  1 <= pl_gomaxprocs p -> 0 <= NFeatures e <= pl_maxalloc p ->
  csr_holds m1 rows1 -> csr_holds m2 rows2 -> Forall2 (same_entries (NFeatures e) (missing_value e)) rows1 rows2 ->
  Forall (Forall (fun en => 0 <= fst en)) rows2 ->
  PredictCSR p e (cmRowHeaders m1) (cmColIndexes m1) (cmValues m1) predictions nEstimators nThreads (Returns m) ->
  forall nThreads',
  PredictCSR p e (cmRowHeaders m2) (cmColIndexes m2) (cmValues m2) predictions nEstimators nThreads' (Returns m) /\
  forall r, PredictCSR p e (cmRowHeaders m2) (cmColIndexes m2) (cmValues m2) predictions nEstimators nThreads' r -> r = Returns m.
Proof.
  intros p e m1 rows1 m2 rows2 preds nE t m W A HS Hpos G F H1 H2 Q C P.
  apply (C71_same_cells_same_result p e m1 rows1 m2 rows2 preds nE t m W A HS Hpos G F H1 H2); [|exact C|exact P].
  clear - Q. induction Q; constructor; [apply same_entries_cells; assumption|assumption].
Qed.
Print Assumptions C71_missing_values.

(** two rows, written in two ways: entries swapped, and a stored zero and a seventh column left
    out *)
Definition ex_alike_1 := mkCSR [0; 2; 5] [1; 0; 0; 1; 7] (map fint [6; 5; 0; 9; 3]).
Definition ex_alike_2 := mkCSR [0; 2; 3] [0; 1; 1] (map fint [5; 6; 9]).
Definition ex_rows_1 : list (list entry) := [[(1, fint 6); (0, fint 5)]; [(0, fint 0); (1, fint 9); (7, fint 3)]].
Definition ex_rows_2 : list (list entry) := [[(0, fint 5); (1, fint 6)]; [(1, fint 9)]].
Ltac holds_rows := repeat (split; [reflexivity|]); intros i row Hr; pose proof (zget_range _ _ _ _ Hr) as B; cbn in B;
  let go j n := (assert (i = j) by lia; subst i; injection Hr as <-; exists n; repeat (split; [reflexivity|]);
    intros k c v Hk; pose proof (zget_range _ _ _ _ Hk) as Bk; cbn in Bk; 
    assert (k = 0 \/ k = 1 \/ k = 2) as [ -> | [ -> | -> ] ] by lia; cbn in Hk; try discriminate; injection Hk as <- <-; split; reflexivity) in
  assert (i = 0 \/ i = 1) as [D|D] by lia; [go 0 0|go 1 2].
Example C71_demo_hypotheses :
  csr_holds ex_alike_1 ex_rows_1 /\ csr_holds ex_alike_2 ex_rows_2 /\
  Forall2 (same_entries (NFeatures demo_raw) (missing_value demo_raw)) ex_rows_1 ex_rows_2 /\
  Forall (Forall (fun en => 0 <= fst en)) ex_rows_2 /\ sane_rows demo_raw (zlen ex_rows_1) /\
  PredictCSR amd64 demo_raw [0; 2; 5] [1; 0; 0; 1; 7] (map fint [6; 5; 0; 9; 3]) (zeros 4) 0 8 (Returns (map fint [26; 11; 14; 9])).
Proof.
  split; [holds_rows|]. split; [holds_rows|]. split; [|split; [repeat constructor; discriminate|split; [repeat split; vm_compute; discriminate|]]].
  - change (NFeatures demo_raw) with 2. change (missing_value demo_raw) with fzero.
    assert (D : forall r1 r2 : list entry, NoDup (map fst r1) -> NoDup (map fst r2) -> (forall c v, In (c, v) r1 -> 0 <= c < 2 -> v <> fzero -> In (c, v) r2) ->
      (forall c v, In (c, v) r2 -> In (c, v) r1) -> same_entries 2 fzero r1 r2) by (intros r1 r2 A B C C'; split; [exact A|]; split; [exact B|]; intros c v Hc Hv; split; auto).
    repeat apply Forall2_cons; [| |constructor]; apply D; try (repeat constructor; cbn; intuition discriminate).
    + intros c v Hq _ _. cbn in *. tauto.
    + intros c v Hq. cbn in *. tauto.
    + intros c v Hq Hc Hv. cbn in *. destruct Hq as [Hq|[Hq|[Hq|[]]]]; injection Hq as <- <-; [elim Hv; reflexivity|auto|lia].
    + intros c v Hq. cbn in *. tauto.
  - eapply PC_single with (n := 2); vm_compute; reflexivity.
Qed.
(** one row with its two entries swapped *)
Example C71_demo_order :
  csr_holds (mkCSR [0; 2] [1; 0] (map fint [6; 5])) [[(1, fint 6); (0, fint 5)]] /\
  csr_holds (mkCSR [0; 2] [0; 1] (map fint [5; 6])) [[(0, fint 5); (1, fint 6)]] /\
  Forall2 (@Permutation entry) [[(1, fint 6); (0, fint 5)]] [[(0, fint 5); (1, fint 6)]] /\
  Forall (fun row => NoDup (map fst row) /\ Forall (fun en : entry => 0 <= fst en) row) [[(1, fint 6); (0, fint 5)]] /\
  PredictCSR amd64 demo_raw [0; 2] [1; 0] (map fint [6; 5]) (zeros 4) 0 8 (Returns (map fint [26; 11; 0; 0])).
Proof.
  assert (K : forall (P : Z -> entry -> Prop) a b k c v, P 0 a -> P 1 b -> zget [a; b] k = Some (c, v) -> P k (c, v)).
  { intros P a b k c v Pa Pb Hk. pose proof (zget_range _ _ _ _ Hk) as B. cbn in B. assert (k = 0 \/ k = 1) as [-> | ->] by lia; cbn in Hk; injection Hk as ->; assumption. }
  assert (O : forall (rows : list (list entry)) i row, zlen rows = 1 -> zget rows i = Some row -> i = 0).
  { intros rows i row L Hr. pose proof (zget_range _ _ _ _ Hr). lia. }
  split; [|split; [|split; [repeat constructor|split; [constructor; [|constructor]; split; repeat constructor; cbn; intuition discriminate|]]]].
  - repeat (split; [reflexivity|]). intros i row Hr. assert (i = 0) by (eapply O; [|exact Hr]; reflexivity). subst i. injection Hr as <-. exists 0. repeat (split; [reflexivity|]). intros k c v Hk.
    apply (K (fun k en => zget [1; 0] (0 + k) = Some (fst en) /\ zget (map fint [6; 5]) (0 + k) = Some (snd en)) _ _ k c v) in Hk; [exact Hk|split; reflexivity|split; reflexivity].
  - repeat (split; [reflexivity|]). intros i row Hr. assert (i = 0) by (eapply O; [|exact Hr]; reflexivity). subst i. injection Hr as <-. exists 0. repeat (split; [reflexivity|]). intros k c v Hk.
    apply (K (fun k en => zget [0; 1] (0 + k) = Some (fst en) /\ zget (map fint [5; 6]) (0 + k) = Some (snd en)) _ _ k c v) in Hk; [exact Hk|split; reflexivity|split; reflexivity].
  - eapply PC_single with (n := 2); vm_compute; reflexivity.
Qed.
