(** * What the transformations write *)

From Coq Require Import ZArith List Bool Lia ZifyBool.
From Verif Require Import Go GoFloat Cmd UtilMath Transformation Ensembles Leaves Parallel Spec_Predict
  Spec_Transform Pf_Go Pf_Cmd Pf_Exec Pf_Leaves Pf_Calls Pf_Rows.

Lemma combine_seq_map : forall A B (F : Z -> A -> B) (l : list A) a (d : A),
  map (fun iv => F (fst iv) (snd iv)) (combine (map Z.of_nat (seq a (List.length l))) l) =
  map (fun k => F k (nth (Z.to_nat k - a) l d)) (map Z.of_nat (seq a (List.length l))).
Proof.
  intros A B F l. induction l as [|x l IH]; intros a d; auto.
  cbn [List.length seq map combine fst snd]. f_equal.
  - rewrite Nat2Z.id, Nat.sub_diag. reflexivity.
  - rewrite (IH (S a) d). apply map_ext_in. intros k Hk. apply in_map_iff in Hk. destruct Hk as (j & <- & Hj).
    apply in_seq in Hj. rewrite Nat2Z.id. replace (j - a)%nat with (S (j - S a)) by lia. reflexivity.
Qed.

Lemma combine_zseq_map : forall A B (F : Z -> A -> B) (l : list A) (d : A),
  map (fun iv => F (fst iv) (snd iv)) (combine (zseq (zlen l)) l) =
  map (fun k => F k (nth (Z.to_nat k) l d)) (zseq (zlen l)).
Proof.
  intros A B F l d. unfold zseq, zlen. rewrite Nat2Z.id.
  rewrite (combine_seq_map A B F l 0 d). apply map_ext. intros k. rewrite Nat.sub_0_r. auto.
Qed.

Lemma zget_nth_default : forall A (l : list A) k d, 0 <= k < zlen l -> zget l k = Some (nth (Z.to_nat k) l d).
Proof.
  intros A l k d Hk. rewrite zget_nth by lia. apply nth_error_nth'. unfold zlen in Hk. lia.
Qed.

Lemma exec_muls : forall g c m, 0 <= g <= zlen m ->
  exists m', exec (map (fun k => CMul k c) (zseq g)) m = Ok m' /\
    zlen m' = zlen m /\
    (forall k x, 0 <= k < g -> zget m k = Some x -> zget m' k = Some (fmul x c)) /\
    (forall k, g <= k -> zget m' k = zget m k).
Proof.
  intros g c m Hg. pose proof Hg as Hg0. revert Hg0.
  assert (H0 : 0 <= g) by lia. pattern g. apply natlike_ind; auto; clear.
  - intros _. exists m. repeat split; intros; auto; lia.
  - intros g Hg IH Hle. destruct IH as (m' & E & Hl & Hin & Hout); [lia|].
    unfold Z.succ. rewrite zseq_succ by lia. rewrite map_app, exec_app, E. simpl.
    destruct (zget_some _ m' g) as [x Hx]; [lia|].
    destruct (zset_some _ m' g (fmul x c)) as [m2 Hm2]; [lia|].
    unfold at_, set_at. rewrite Hx. simpl. rewrite Hm2. simpl. exists m2. repeat split.
    + rewrite (zset_len _ _ _ _ _ Hm2). auto.
    + intros k y Hk Hy. destruct (Z.eq_dec k g) as [->|N].
      * rewrite (zset_get_same _ _ _ _ _ Hm2). rewrite Hout in Hx by lia. congruence.
      * rewrite (zset_get_other _ _ _ _ _ k Hm2) by auto. apply Hin; auto. lia.
    + intros k Hk. rewrite (zset_get_other _ _ _ _ _ k Hm2) by lia. apply Hout. lia.
Qed.

Lemma softmax_sum_spec : forall p raw, softmax_sum p raw = exp_sum p raw.
Proof.
  intros p raw. unfold softmax_sum, exp_sum, sum_from. generalize fzero.
  induction raw as [|r raw IH]; intros s; simpl; auto.
Qed.

Lemma softmax_writes : forall p raw m m', zlen raw <= zlen m ->
  exec (SoftmaxFloat64Slice p raw 0) m = Ok m' ->
  forall k, 0 <= k < zlen raw -> exists r, zget raw k = Some r /\ zget m' k = Some (softmax_of p raw r).
Proof.
  intros p raw m m' Hl H k Hk. unfold SoftmaxFloat64Slice in H. cbv zeta in H.
  rewrite exec_app in H. apply bind_ok in H. destruct H as (m1 & H1 & H2).
  assert (E1 : map (fun iv => CSet (0 + fst iv) (pl_exp p (snd iv))) (combine (zseq (zlen raw)) raw) =
               map (fun k => CSet k (pl_exp p (nth (Z.to_nat k) raw fzero))) (zseq (zlen raw))).
  { rewrite <- (combine_zseq_map f64 cmd (fun k v => CSet k (pl_exp p v)) raw fzero).
    apply map_ext. intros [i v]. reflexivity. }
  rewrite E1 in H1.
  destruct (exec_sets_prefix (zlen raw) (fun k => pl_exp p (nth (Z.to_nat k) raw fzero)) m ltac:(lia)) as (m1' & X1 & L1 & G1 & _).
  assert (m1' = m1) by congruence. subst m1'.
  exists (nth (Z.to_nat k) raw fzero). split; [apply zget_nth_default; auto|].
  unfold softmax_of. rewrite softmax_sum_spec in H2. destruct (feq (exp_sum p raw) fzero); simpl negb in H2; cbv iota in H2.
  - simpl in H2. injection H2 as <-. auto.
  - rewrite Z.add_0_l, zrange_zseq in H2.
    destruct (exec_muls (zlen raw) (fdiv fone (exp_sum p raw)) m1 ltac:(lia)) as (m2 & X2 & L2 & G2 & _).
    assert (m2 = m') by congruence. subst m2. apply G2; auto.
Qed.

(** the raw scores computed in the temporary buffer are those of the raw view *)
Lemma raw_view_wf : forall e, well_formed e -> well_formed (EnsembleWithRawPredictions e) /\
  arity_accepted (EnsembleWithRawPredictions e).
Proof. intros e (Hg & Hl & _). split; [|exact I]. split; [exact Hg|]. split; [exact Hl|]. reflexivity. Qed.

Lemma raw_scores_same : forall p e fv nE rawbuf raw n tmp tmp',
  well_formed e -> Predict p (EnsembleWithRawPredictions e) fv nE rawbuf = Ok raw ->
  b_adjustNEstimators (eBase e) nE = Ok n ->
  exec (b_predictInner p (eBase e) fv n 0) tmp = Ok tmp' ->
  forall k, 0 <= k < NRawOutputGroups e -> zget raw k = zget tmp' k.
Proof.
  intros p e fv nE rawbuf raw n tmp tmp' Hwf H Ha E k Hk.
  destruct (raw_view_wf e Hwf) as [Hwf' Hacc].
  destruct (Predict_inv _ _ _ _ _ _ Hwf' H) as (n' & Ha' & Hc' & _ & _ & E').
  assert (n' = n) by (simpl in Ha'; congruence). subst n'.
  pose proof (adjust_usable _ _ _ Hwf' Ha' Hc') as Hu.
  destruct (piat_defined _ _ _ _ _ _ Hwf' Hu Hacc E') as [Hd Has].
  change (predictInnerAndTransform p (EnsembleWithRawPredictions e) fv n 0) with (b_predictInner p (eBase e) fv n 0) in *.
  apply (exec_det _ _ _ _ _ _ Hd (fun k (F : False) => match F with end) E' E k).
  right. apply Has. exact Hk.
Qed.

Lemma predict_transform : forall p e fv nE preds out rawbuf raw, well_formed e ->
  (match eTransform e with TransformLogistic | TransformExponential | TransformSoftmax _ => True | _ => False end) ->
  Predict p e fv nE preds = Ok out ->
  Predict p (EnsembleWithRawPredictions e) fv nE rawbuf = Ok raw ->
  exists tmp, zlen tmp = NRawOutputGroups e /\ (forall k, 0 <= k < NRawOutputGroups e -> zget tmp k = zget raw k) /\
    exec (match Transform_t p (eTransform e) tmp 0 with
          | Ok cs => cs | Err _ => [] | Panic m => [CPanic m] | Hang => [CHang] end) preds = Ok out /\
    s64 (NOutputGroups e) <= zlen preds.
Proof.
  intros p e fv nE preds out rawbuf raw Hwf Ht H Hraw.
  destruct (Predict_inv _ _ _ _ _ _ Hwf H) as (n & Ha & Hc & _ & Hl & E).
  assert (E' : exec (cmds_of (let* raw := make_f64 p (NRawOutputGroups e) in
             exec (b_predictInner p (eBase e) fv n 0) raw)
      (fun raw =>
         match Transform_t p (eTransform e) raw 0 with
         | Ok cs => cs | Err _ => [] | Panic m => [CPanic m] | Hang => [CHang] end)) preds = Ok out).
  { rewrite <- E. unfold predictInnerAndTransform. destruct (eTransform e); try contradiction; reflexivity. }
  destruct (let* raw := make_f64 p (NRawOutputGroups e) in exec (b_predictInner p (eBase e) fv n 0) raw) as [tmp|s|s|] eqn:Er;
    simpl in E'; try discriminate.
  apply bind_ok in Er. destruct Er as (z & Hz & Er). apply make_ok in Hz.
  exists tmp. split; [rewrite (exec_len _ _ _ Er); lia|]. split; [|split; auto].
  intros k Hk. symmetry. eapply raw_scores_same; eauto.
Qed.
