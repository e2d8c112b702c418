(** * Rows of batch calls against single predictions *)

From Coq Require Import ZArith List Bool String Lia ZifyBool.
From Verif Require Import Go GoFloat GoText Cmd UtilBits UtilMath LgTree Transformation Ensembles Leaves
  Parallel Spec_Predict Pf_Go Pf_Cmd Pf_Exec Pf_Leaves Pf_Parallel Pf_Batch Pf_Calls.

(** ** GOMAXPROCS does not influence row computations *)
Section Gom.
Variables (p : platform) (g : Z).
Let p' := with_gomaxprocs p g.

Lemma gom_loop : forall t fv fuel idx, predict_loop p' t fv fuel idx = predict_loop p t fv fuel idx.
Proof.
  intros t fv fuel. induction fuel as [|fuel IH]; intros idx; auto.
  cbn [predict_loop]. change (predict_step p' t fv idx) with (predict_step p t fv idx).
  destruct (predict_step p t fv idx) as [[r|i]|s|s|]; simpl; auto.
Qed.

Lemma gom_predict : forall t fv, predict p' t fv = predict p t fv.
Proof. intros t fv. unfold predict. destruct (tNodes t); auto. apply gom_loop. Qed.

Lemma bind_ext : forall A B (x : outcome A) (f h : A -> outcome B),
  (forall a, f a = h a) -> bind x f = bind x h.
Proof. intros A B [a|s|s|] f h H; simpl; auto. Qed.

Lemma cmd_of_eq : forall A (x y : outcome A) k, x = y -> cmd_of x k = cmd_of y k.
Proof. intros; subst; auto. Qed.

Lemma flat_map_ext' : forall A B (f h : A -> list B) l, (forall x, f x = h x) -> flat_map f l = flat_map h l.
Proof. intros A B f h l H. induction l; simpl; auto. rewrite H, IHl. auto. Qed.

Lemma gom_inner : forall b fv n s, b_predictInner p' b fv n s = b_predictInner p b fv n s.
Proof.
  intros b fv n s. induction b as [e|e|e|b IH t]; simpl; auto.
  - unfold lg_predictInner. f_equal. apply flat_map_ext'. intros i. apply map_ext. intros k.
    apply cmd_of_eq. apply bind_ext. intros t. apply gom_predict.
  - unfold xg_predictInner. f_equal. apply flat_map_ext'. intros i. apply map_ext. intros k.
    apply cmd_of_eq. apply bind_ext. intros t. rewrite gom_predict. auto.
Qed.

Lemma gom_leafs : forall b fv n s,
  b_predictLeafIndicesInner p' b fv n s = b_predictLeafIndicesInner p b fv n s.
Proof.
  intros b fv n s. induction b as [e|e|e|b IH t]; simpl; auto.
  - unfold trees_predictLeafIndicesInner. f_equal. apply flat_map_ext'. intros i. apply map_ext. intros k.
    apply cmd_of_eq. apply bind_ext. intros t. apply gom_predict.
  - unfold trees_predictLeafIndicesInner. f_equal. apply flat_map_ext'. intros i. apply map_ext. intros k.
    apply cmd_of_eq. apply bind_ext. intros t. apply gom_predict.
Qed.

Lemma gom_piat : forall e fv n s,
  predictInnerAndTransform p' e fv n s = predictInnerAndTransform p e fv n s.
Proof.
  intros e fv n s. unfold predictInnerAndTransform. rewrite gom_inner, gom_inner, gom_leafs. reflexivity.
Qed.

Lemma exec_rows_ext : forall L (row row' : L -> Z -> list cmd * L), (forall l i, row l i = row' l i) ->
  forall rows l m, exec_rows row rows l m = exec_rows row' rows l m.
Proof.
  intros L row row' H rows. induction rows as [|r rows IH]; intros l m; simpl; auto.
  rewrite H. apply bind_ext. intros m'. apply IH.
Qed.

Lemma gom_dense : forall e vals nrows ncols m n,
  dense_single p' e vals nrows ncols m n = dense_single p e vals nrows ncols m n.
Proof.
  intros. unfold dense_single. apply exec_rows_ext. intros _ i. f_equal. unfold dense_row.
  apply cmds_of_ext. intros fv. apply gom_piat.
Qed.

Lemma gom_csr : forall e indptr cols vals m n,
  csr_single p' e indptr cols vals m n = csr_single p e indptr cols vals m n.
Proof.
  intros. unfold csr_single. change (csr_buffer p' e) with (csr_buffer p e).
  apply bind_ext. intros fv. apply exec_rows_ext. intros l i. unfold csr_row.
  destruct (let* start := at_ indptr i in _); auto. rewrite gom_piat. auto.
Qed.
End Gom.

(** ** One row *)
Lemma runs_weaken : forall n n' c, n <= n' -> runs n c -> runs n' c.
Proof. intros n n' c H (i & f & Hu & Hi). exists i, f. split; auto. lia. Qed.

Lemma row_result : forall cs d w m1 m2 out, 0 <= d -> 0 <= w -> d + w <= zlen m1 ->
  within 0 w cs -> exec (shift d cs) m1 = Ok m2 -> w <= zlen out ->
  exists out', exec cs out = Ok out' /\
    (defined (fun _ => False) cs -> (forall k, 0 <= k < w -> assigned cs k) ->
     forall k, 0 <= k < w -> zget m2 (d + k) = zget out' k).
Proof.
  intros cs d w m1 m2 out Hd Hw Hl Hin H Hout.
  set (win := firstn (Z.to_nat w) (skipn (Z.to_nat d) m1)).
  assert (Hlen : zlen win = w) by (apply zlen_sub; auto).
  assert (Hwin : window_eq d m1 win).
  { intros k Hk. rewrite Hlen in Hk. unfold win. rewrite zget_sub by lia. auto. }
  destruct (unshift_exec d cs m1 win m2 Hwin) as (win' & E & Hw'); auto.
  { rewrite Hlen. auto. }
  assert (Hr : Forall (runs (zlen out)) cs).
  { assert (Hr0 : Forall (runs (zlen win)) cs) by (apply exec_runs; eauto).
    eapply Forall_impl; [|exact Hr0]. intros c. apply runs_weaken. lia. }
  apply exec_runs in Hr. destruct Hr as [out' Eo]. exists out'. split; auto.
  intros Hdef Hall k Hk.
  rewrite Hw' by (rewrite (exec_len _ _ _ E), Hlen; auto).
  apply (exec_det cs (fun _ => False) win out win' out'); auto. tauto.
Qed.

(** ** Dense rows *)
Lemma s64_wrap : forall z, two63 <= z < two64 -> s64 z = z - two64.
Proof.
  intros z Hz. unfold s64, two63, two64 in *. rewrite Z.mod_small by lia.
  destruct (Z.ltb_spec z 9223372036854775808); lia.
Qed.

(** when all rows of a dense call run, the matrix has all its elements *)
Lemma dense_rows_inside : forall p e vals ncols n nrows m m',
  zlen vals <= MaxInt -> 0 < ncols <= MaxInt ->
  exec (flat_map (dense_row p e vals ncols n) (zseq nrows)) m = Ok m' ->
  forall r, 0 <= r < nrows -> (r + 1) * ncols <= zlen vals.
Proof.
  intros p e vals ncols n nrows m m' Hv Hc H.
  assert (Hrow : forall r, 0 <= r < nrows -> exists fv,
            slice vals (s64 (r * ncols)) (s64 ((r + 1) * ncols)) = Ok fv).
  { intros r Hr.
    assert (Hin : forall c, In c (dense_row p e vals ncols n r) ->
              In c (flat_map (dense_row p e vals ncols n) (zseq nrows))).
    { intros c Hin. apply in_flat_map. exists r. split; auto. apply in_zseq. auto. }
    unfold dense_row at 1 in Hin.
    destruct (slice vals (s64 (r * ncols)) (s64 ((r + 1) * ncols))) as [fv|s|s|]; simpl in Hin; eauto;
      destruct (exec_ok_no_panic _ _ _ _ H (Hin _ (or_introl eq_refl))) as (? & ? & Hu); discriminate. }
  intros r Hr. destruct Hr as [Hr0 Hr]. revert Hr. pattern r. apply natlike_ind; auto.
  - intros H0. destruct (Hrow 0) as [fv Hfv]; [lia|]. apply slice_ok in Hfv.
    rewrite !s64_id in Hfv by (unfold MaxInt, two63 in *; lia). lia.
  - clear r Hr0. intros r Hr IH Hs. specialize (IH ltac:(lia)).
    destruct (Hrow (Z.succ r)) as [fv Hfv]; [lia|]. apply slice_ok in Hfv.
    unfold Z.succ in *. rewrite (s64_id ((r + 1) * ncols)) in Hfv by (unfold MaxInt, two63 in *; nia).
    assert (Hq : 0 <= (r + 1) * ncols) by nia.
    replace ((r + 1 + 1) * ncols) with ((r + 1) * ncols + ncols) in * by lia.
    generalize dependent ((r + 1) * ncols). intros q IH Hfv Hq.
    destruct (Z_lt_le_dec (q + ncols) two63) as [Hlt|Hge].
    + rewrite s64_id in Hfv by (unfold two63 in *; lia). lia.
    + rewrite s64_wrap in Hfv by (unfold MaxInt, two63, two64 in *; lia).
      unfold MaxInt, two63, two64 in *. lia.
Qed.

Lemma dense_slice : forall (vals : list f64) ncols r, zlen vals <= MaxInt -> 0 < ncols -> 0 <= r ->
  (r + 1) * ncols <= zlen vals ->
  exists row, slice vals (s64 (r * ncols)) (s64 ((r + 1) * ncols)) = Ok row /\
    is_dense_row vals ncols r row.
Proof.
  intros vals ncols r Hv Hc Hr H.
  rewrite !s64_id by (unfold MaxInt, two63 in *; nia).
  unfold slice. replace ((r * ncols <? 0) || ((r + 1) * ncols <? r * ncols) || (zlen vals <? (r + 1) * ncols))
    with false by nia.
  eexists. split; [reflexivity|]. replace ((r + 1) * ncols - r * ncols) with ncols by lia.
  split; [apply zlen_sub; nia|]. intros k Hk. apply zget_sub; nia.
Qed.

Lemma dense_row_unique : forall vals ncols r row1 row2,
  is_dense_row vals ncols r row1 -> is_dense_row vals ncols r row2 -> row1 = row2.
Proof.
  intros vals ncols r row1 row2 [L1 H1] [L2 H2]. apply zget_ext; [congruence|].
  intros k ?. destruct (Z_lt_le_dec k 0) as [Hk|Hk]; [rewrite !zget_neg by auto; auto|].
  destruct (Z_lt_le_dec k ncols) as [Hk2|Hk2].
  - rewrite H1, H2 by lia. auto.
  - rewrite !zget_none by lia. auto.
Qed.

Lemma dense_row_inside : forall vals ncols r row, is_dense_row vals ncols r row -> 0 < ncols ->
  (r + 1) * ncols <= zlen vals.
Proof.
  intros vals ncols r row [L H] Hc.
  destruct (zget_some _ row (ncols - 1)) as [x Hx]; [lia|]. rewrite H in Hx by lia.
  apply zget_range in Hx. lia.
Qed.

(** Predict once its checks are known *)
Lemma Predict_eq : forall p e fv nE n preds, well_formed e ->
  b_adjustNEstimators (eBase e) nE = Ok n -> checkNEstimators e n = Ok tt ->
  NFeatures e <= zlen fv -> NOutputGroups e <= zlen preds -> zlen preds <= MaxInt ->
  Predict p e fv nE preds = exec (predictInnerAndTransform p e fv n 0) preds.
Proof.
  intros p e fv nE n preds Hwf Ha Hc Hf Hp Hm. pose proof (wf_NOG e Hwf).
  unfold Predict. rewrite Z.mul_1_r. rewrite s64_id by (unfold MaxInt, two63 in *; lia).
  destruct (Z.ltb_spec (zlen preds) (NOutputGroups e)); [lia|].
  destruct (Z.ltb_spec (zlen fv) (NFeatures e)); [lia|].
  rewrite Ha. simpl. rewrite Hc. reflexivity.
Qed.

Lemma Predict_inv : forall p e fv nE preds out, well_formed e ->
  Predict p e fv nE preds = Ok out ->
  exists n, b_adjustNEstimators (eBase e) nE = Ok n /\ checkNEstimators e n = Ok tt /\
    NFeatures e <= zlen fv /\ s64 (NOutputGroups e) <= zlen preds /\
    exec (predictInnerAndTransform p e fv n 0) preds = Ok out.
Proof.
  intros p e fv nE preds out Hwf H. unfold Predict in H. rewrite Z.mul_1_r in H.
  destruct (Z.ltb_spec (zlen preds) (s64 (NOutputGroups e))); [discriminate|].
  destruct (Z.ltb_spec (zlen fv) (NFeatures e)); [discriminate|].
  bind_inv. rewrite (unit_eq a0) in *. eauto 8.
Qed.

(** ** All rows succeed *)
Lemma rows_succeed : forall w (cmds : Z -> list cmd) nrows m, 0 <= w -> nrows * w <= zlen m ->
  (forall r, 0 <= r < nrows -> within 0 w (cmds r) /\ exists out out', exec (cmds r) out = Ok out') ->
  exists m', exec (flat_map (fun r => shift (r * w) (cmds r)) (zseq nrows)) m = Ok m'.
Proof.
  intros w cmds nrows m Hw Hl H. apply exec_runs. apply Forall_forall. intros c Hc.
  apply in_flat_map in Hc. destruct Hc as (r & Hr & Hc). apply in_zseq in Hr.
  destruct (H r Hr) as (Hin & out & out' & E).
  unfold shift in Hc. apply in_map_iff in Hc. destruct Hc as (c0 & <- & Hc0).
  destruct (exec_ok_no_panic _ _ _ _ E Hc0) as (i & f & Hu).
  pose proof (proj1 (Forall_forall _ _) Hin c0 Hc0) as Hcell. unfold cell_in in Hcell. rewrite Hu in Hcell.
  exists (r * w + i), f. split; [|nia].
  destruct c0; simpl in *; inversion Hu; subst; auto.
Qed.

Lemma flat_map_ext_in : forall A B (f h : A -> list B) l,
  (forall x, In x l -> f x = h x) -> flat_map f l = flat_map h l.
Proof.
  intros A B f h l H. induction l as [|x l IH]; simpl; auto.
  rewrite H by (left; auto). rewrite IH; auto. intros; apply H; right; auto.
Qed.

Section DenseRows.
Variables (p : platform) (e : Ensemble) (vals : list f64) (nrows ncols nE n : Z) (preds : list f64).
Hypothesis Hwf : well_formed e.
Hypothesis Hv : zlen vals <= MaxInt.
Hypothesis Hprod : NOutputGroups e * nrows <= MaxInt.
Hypothesis Hnr : 0 <= nrows.
Hypothesis Hck : dense_checks e nrows ncols preds nE = Ok n.

Lemma dense_preds_len : NOutputGroups e * nrows <= zlen preds.
Proof.
  destruct (dense_checks_ok _ _ _ _ _ _ Hwf Hck) as (Hu & Hf & Hc0 & Hl & Ha & Hc).
  pose proof (wf_NOG e Hwf). rewrite s64_id in Hl by (unfold MaxInt, two63 in *; nia). auto.
Qed.

(** the result of the sequential loop, row by row *)
Lemma dense_row_result : forall m i, 0 < ncols <= MaxInt ->
  dense_single p e vals nrows ncols preds n = Ok m -> 0 <= i < nrows ->
  exists row, is_dense_row vals ncols i row /\
    forall out, NOutputGroups e <= zlen out <= MaxInt ->
      exists out', Predict p e row nE out = Ok out' /\
        (arity_accepted e -> holds_row m (NOutputGroups e) i out').
Proof.
  intros m i Hnc H Hi.
  destruct (dense_checks_ok _ _ _ _ _ _ Hwf Hck) as (Hu & Hf & Hc0 & Hl & Ha & Hc).
  pose proof dense_preds_len as Hpl. pose proof (wf_NOG e Hwf) as Hg.
  rewrite dense_single_flat in H.
  pose proof (dense_rows_inside _ _ _ _ _ _ _ _ Hv Hnc H i Hi) as Hin.
  destruct (dense_slice vals ncols i Hv ltac:(lia) ltac:(lia) Hin) as (row & Hs & Hrow).
  exists row. split; auto. intros out Hout.
  destruct (exec_rows_at _ _ _ _ _ i Hg (dense_row_within p e vals nrows ncols n Hwf Hu Hprod) H Hi)
    as (m1 & m2 & E & L1 & W1 & W2).
  unfold dense_row in E. rewrite Hs in E. cbn [cmds_of] in E.
  rewrite (row_start e nrows Hwf Hprod i Hi), piat_shift in E.
  pose proof (piat_within p e row n Hwf Hu) as Hwin.
  destruct (row_result _ (i * NOutputGroups e) (NOutputGroups e) m1 m2 out ltac:(nia) Hg ltac:(rewrite L1; nia) Hwin E ltac:(lia)) as (out' & Eo & Hdet).
  exists out'. destruct Hrow as [Hrl _]. split.
  - rewrite (Predict_eq p e row nE n out Hwf Ha Hc ltac:(lia) ltac:(lia) ltac:(lia)). auto.
  - intros Hacc k Hk. rewrite W2 by lia.
    destruct (piat_defined _ _ _ _ _ _ Hwf Hu Hacc Eo) as [Hd Has]. apply Hdet; auto.
Qed.

(** every row predicts, then the sequential loop succeeds *)
Lemma dense_single_succeeds : 0 < ncols ->
  (forall i, 0 <= i < nrows -> exists row out out',
     is_dense_row vals ncols i row /\ Predict p e row nE out = Ok out') ->
  exists m, dense_single p e vals nrows ncols preds n = Ok m.
Proof.
  intros Hnc H. destruct (dense_checks_ok _ _ _ _ _ _ Hwf Hck) as (Hu & Hf & Hc0 & Hl & Ha & Hc).
  pose proof dense_preds_len as Hpl. pose proof (wf_NOG e Hwf) as Hg.
  rewrite dense_single_flat.
  set (rowof := fun i => match slice vals (s64 (i * ncols)) (s64 ((i + 1) * ncols)) with Ok r => r | _ => [] end).
  rewrite (flat_map_ext_in _ _ _ (fun r => shift (r * NOutputGroups e)
     (predictInnerAndTransform p e (rowof r) n 0))).
  - apply rows_succeed; auto; [nia|]. intros i Hi. split; [apply piat_within; auto|].
    destruct (H i Hi) as (row & out & out' & Hrow & Ho).
    destruct (dense_slice vals ncols i Hv Hnc ltac:(lia) (dense_row_inside _ _ _ _ Hrow Hnc)) as (row' & Hs & Hrow').
    rewrite (dense_row_unique _ _ _ _ _ Hrow Hrow') in Ho.
    destruct (Predict_inv _ _ _ _ _ _ Hwf Ho) as (n' & Ha' & _ & _ & _ & Hx).
    assert (n' = n) by congruence. subst n'.
    unfold rowof. rewrite Hs. eauto.
  - intros i Hi. apply in_zseq in Hi. destruct (H i Hi) as (row & out & out' & Hrow & Ho).
    destruct (dense_slice vals ncols i Hv Hnc ltac:(lia) (dense_row_inside _ _ _ _ Hrow Hnc)) as (row' & Hs & Hrow').
    unfold dense_row, rowof. rewrite Hs. cbn [cmds_of].
    rewrite (row_start e nrows Hwf Hprod i Hi). apply piat_shift.
Qed.
End DenseRows.

Section CsrRows.
Variables (p : platform) (e : Ensemble) (indptr cols : list Z) (vals : list f64) (nE n : Z) (preds : list f64).
Let nrows := zlen indptr - 1.
Hypothesis Hwf : well_formed e.
Hypothesis Hprod : NOutputGroups e * nrows <= MaxInt.
Hypothesis Hnr : 0 <= nrows.
Hypothesis Hck : csr_checks e indptr preds nE = Ok n.

Lemma csr_preds_len : NOutputGroups e * nrows <= zlen preds.
Proof.
  destruct (csr_checks_ok _ _ _ _ _ Hwf Hck) as (Hu & Hl & Ha & Hc).
  pose proof (wf_NOG e Hwf). fold nrows in Hl. rewrite s64_id in Hl by (unfold MaxInt, two63 in *; nia). auto.
Qed.

Lemma csr_fresh_get : forall c, 0 <= c < NFeatures e -> zget (csr_fresh e) c = Some (missing_value e).
Proof.
  intros c Hc. unfold csr_fresh. rewrite zget_nth by lia. rewrite nth_error_repeat; auto. lia.
Qed.

Lemma csr_fresh_len : 0 <= NFeatures e -> zlen (csr_fresh e) = NFeatures e.
Proof. intros H. unfold csr_fresh. rewrite zlen_repeat. lia. Qed.

Lemma csr_row_filled : forall i start end_ fv, 0 <= NFeatures e ->
  zget indptr i = Some start -> zget indptr (i + 1) = Some end_ ->
  csr_fill cols vals start end_ (csr_fresh e) = Ok fv ->
  is_csr_row indptr cols vals (NFeatures e) (missing_value e) i fv.
Proof.
  intros i start end_ fv Hf Hs He H. exists start, end_. split; auto. split; auto.
  pose proof (csr_fresh_len Hf) as Hlen. unfold csr_fill in H. pose proof (csr_fill_len _ _ _ _ _ H) as Hl.
  split; [lia|]. intros c Hc.
  destruct (csr_fill_row cols vals start end_ _ _ c H ltac:(lia)) as [H1 H2]. split; auto.
  intros Hno. rewrite (H2 Hno). apply csr_fresh_get. auto.
Qed.

Lemma csr_row_unique : forall i r1 r2,
  is_csr_row indptr cols vals (NFeatures e) (missing_value e) i r1 ->
  is_csr_row indptr cols vals (NFeatures e) (missing_value e) i r2 -> r1 = r2.
Proof.
  intros i r1 r2 (s1 & e1 & Hs1 & He1 & L1 & H1) (s2 & e2 & Hs2 & He2 & L2 & H2).
  rewrite Hs1 in Hs2. rewrite He1 in He2. inversion Hs2; inversion He2; subst s2 e2.
  apply zget_ext; [congruence|]. intros c Hc. rewrite L1 in Hc.
  destruct (H1 c Hc) as [A1 B1]. destruct (H2 c Hc) as [A2 B2].
  (* the last entry of column c, if any *)
  assert (Hlast : (exists j, s1 <= j < e1 /\ zget cols j = Some c /\
             forall j', j < j' < e1 -> zget cols j' <> Some c) \/
           (forall j, s1 <= j < e1 -> zget cols j <> Some c)).
  { clear. destruct (Z_le_gt_dec e1 s1) as [Hle|Hgt]; [right; intros; lia|].
    assert (G : forall k, 0 <= k -> k <= e1 - s1 ->
       (exists j, e1 - k <= j < e1 /\ zget cols j = Some c /\ forall j', j < j' < e1 -> zget cols j' <> Some c) \/
       (forall j, e1 - k <= j < e1 -> zget cols j <> Some c)).
    { intros k Hk. pattern k. apply natlike_ind; auto.
      - intros _. right. intros; lia.
      - clear k Hk. intros k Hk IH Hle. destruct (IH ltac:(lia)) as [(j & Hj & A & B)|Hno].
        + left. exists j. split; [lia|auto].
        + destruct (zget cols (e1 - Z.succ k)) as [x|] eqn:Ex.
          * destruct (Z.eq_dec x c) as [->|N].
            -- left. exists (e1 - Z.succ k). split; [lia|]. split; auto. intros j' Hj'. apply Hno. lia.
            -- right. intros j Hj. destruct (Z.eq_dec j (e1 - Z.succ k)) as [->|N2]; [congruence|apply Hno; lia].
          * right. intros j Hj. destruct (Z.eq_dec j (e1 - Z.succ k)) as [->|N2]; [congruence|apply Hno; lia]. }
    destruct (G (e1 - s1)) as [(j & Hj & A & B)|Hno]; try lia.
    - left. exists j. split; [lia|auto].
    - right. intros j Hj. apply Hno. lia. }
  destruct Hlast as [(j & Hj & A & B)|Hno].
  - rewrite (A1 j Hj A B), (A2 j Hj A B). auto.
  - rewrite B1, B2; auto.
Qed.

Lemma csr_row_result : forall m i,
  csr_single p e indptr cols vals preds n = Ok m -> 0 <= i < nrows ->
  exists row, is_csr_row indptr cols vals (NFeatures e) (missing_value e) i row /\
    forall out, NOutputGroups e <= zlen out <= MaxInt ->
      exists out', Predict p e row nE out = Ok out' /\
        (arity_accepted e -> holds_row m (NOutputGroups e) i out').
Proof.
  intros m i H Hi.
  destruct (csr_checks_ok _ _ _ _ _ Hwf Hck) as (Hu & Hl & Ha & Hc).
  pose proof csr_preds_len as Hpl. pose proof (wf_NOG e Hwf) as Hg.
  rewrite csr_single_flat in H. apply bind_ok in H. destruct H as (buf & Hbuf & H).
  assert (Hf : 0 <= NFeatures e).
  { unfold csr_buffer in Hbuf. apply bind_ok in Hbuf. destruct Hbuf as (f0 & Hf0 & _). apply make_ok in Hf0. tauto. }
  destruct (exec_rows_at _ _ _ _ _ i Hg (csr_row_within p e indptr cols vals n Hwf Hu Hprod) H Hi)
    as (m1 & m2 & E & L1 & W1 & W2).
  unfold csr_row in E.
  destruct (let* start := at_ indptr i in _) as [row|s|s|] eqn:Er; simpl in E; try discriminate.
  apply bind_ok in Er. destruct Er as (start & Hs & Er). apply bind_ok in Er. destruct Er as (end_ & He & Er).
  apply at_ok in Hs. apply at_ok in He.
  pose proof (csr_row_filled i start end_ row Hf Hs He Er) as Hrow.
  exists row. split; auto. intros out Hout.
  rewrite (row_start e nrows Hwf Hprod i Hi), piat_shift in E.
  pose proof (piat_within p e row n Hwf Hu) as Hwin.
  destruct (row_result _ (i * NOutputGroups e) (NOutputGroups e) m1 m2 out ltac:(nia) Hg ltac:(rewrite L1; nia) Hwin E ltac:(lia)) as (out' & Eo & Hdet).
  exists out'. destruct Hrow as (? & ? & _ & _ & Hrl & _). split.
  - rewrite (Predict_eq p e row nE n out Hwf Ha Hc ltac:(lia) ltac:(lia) ltac:(lia)). auto.
  - intros Hacc k Hk. rewrite W2 by lia.
    destruct (piat_defined _ _ _ _ _ _ Hwf Hu Hacc Eo) as [Hd Has]. apply Hdet; auto.
Qed.

Lemma csr_fill_succeeds : forall js (fv : list f64),
  (forall j, In j js -> 0 <= j < zlen vals /\ exists c, zget cols j = Some c /\ 0 <= c) ->
  exists fv', foldM (fun (fvals : list f64) j => let* c := at_ cols j in
     if c <? zlen fvals then let* v := at_ vals j in set_at fvals c v else Ok fvals) js fv = Ok fv'.
Proof.
  induction js as [|j js IH]; intros fv H; simpl; eauto.
  destruct (H j (or_introl eq_refl)) as (Hj & c & Hc & Hc0). unfold at_ at 1. rewrite Hc. simpl.
  assert (Ht : forall j', In j' js -> 0 <= j' < zlen vals /\ exists c, zget cols j' = Some c /\ 0 <= c).
  { intros j' Hj'. apply H. right. auto. }
  destruct (Z.ltb_spec c (zlen fv)) as [Hlt|Hge]; simpl; auto.
  destruct (zget_some _ vals j Hj) as [v Hv]. unfold at_. rewrite Hv. simpl.
  destruct (zset_some _ fv c v) as [fv1 Hset]; [lia|]. unfold set_at. rewrite Hset. simpl. auto.
Qed.

Lemma csr_single_succeeds : 0 <= NFeatures e <= pl_maxalloc p ->
  (forall i, 0 <= i < nrows -> csr_row_readable indptr cols vals i /\ exists row out out',
     is_csr_row indptr cols vals (NFeatures e) (missing_value e) i row /\
     Predict p e row nE out = Ok out') ->
  (exists l, csr_buffer p e = Ok l) /\ exists m, csr_single p e indptr cols vals preds n = Ok m.
Proof.
  intros Hf H. destruct (csr_checks_ok _ _ _ _ _ Hwf Hck) as (Hu & Hl & Ha & Hc).
  pose proof csr_preds_len as Hpl. pose proof (wf_NOG e Hwf) as Hg.
  assert (Hbuf : exists l, csr_buffer p e = Ok l).
  { unfold csr_buffer, make_f64. replace ((NFeatures e <? 0) || (pl_maxalloc p <? NFeatures e)) with false by lia.
    simpl. eauto. }
  split; auto. rewrite csr_single_flat. destruct Hbuf as [l ->]. simpl.
  set (filled := fun i => let* start := at_ indptr i in let* end_ := at_ indptr (i + 1) in
         csr_fill cols vals start end_ (csr_fresh e)).
  set (rowof := fun i => match filled i with Ok r => r | _ => [] end).
  assert (Hfill : forall i, 0 <= i < nrows -> exists row out out', filled i = Ok row /\ Predict p e row nE out = Ok out').
  { intros i Hi. destruct (H i Hi) as ((start & end_ & Hs & He & Hj) & row & out & out' & Hrow & Ho).
    destruct (csr_fill_succeeds (zrange start end_) (csr_fresh e)) as [fv Hfv].
    { intros j Hjj. apply in_zrange in Hjj. auto. }
    pose proof (csr_row_filled i start end_ fv ltac:(lia) Hs He Hfv) as Hrow'.
    rewrite (csr_row_unique i row fv Hrow Hrow') in Ho.
    exists fv, out, out'. split; auto. unfold filled, at_. rewrite Hs, He. exact Hfv. }
  rewrite (flat_map_ext_in _ _ _ (fun r => shift (r * NOutputGroups e)
     (predictInnerAndTransform p e (rowof r) n 0))).
  - apply rows_succeed; auto; [fold nrows; nia|]. intros i Hi. split; [apply piat_within; auto|].
    destruct (Hfill i Hi) as (row & out & out' & Er & Ho).
    destruct (Predict_inv _ _ _ _ _ _ Hwf Ho) as (n' & Ha' & _ & _ & _ & Hx).
    assert (n' = n) by congruence. subst n'.
    unfold rowof. rewrite Er. eauto.
  - intros i Hi. apply in_zseq in Hi. destruct (Hfill i Hi) as (row & out & out' & Er & Ho).
    unfold csr_row, rowof. fold (filled i). rewrite Er. cbn [fst].
    rewrite (row_start e nrows Hwf Hprod i Hi). apply piat_shift.
Qed.
End CsrRows.
