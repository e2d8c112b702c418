(** * Row commands of an ensemble: translation, window, coverage *)

From Coq Require Import ZArith List Bool String Lia ZifyBool.
From Verif Require Import Go GoFloat GoText Cmd UtilBits UtilMath LgTree Transformation Ensembles Leaves
  Parallel Spec_Predict Pf_Go Pf_Cmd Pf_Exec.

(** ** Views delegate to the wrapped model *)
Lemma core_NRaw : forall b, b_NRawOutputGroups b = b_NRawOutputGroups (core b).
Proof. induction b; simpl; auto. Qed.
Lemma core_NEst : forall b, b_NEstimators b = b_NEstimators (core b).
Proof. induction b; simpl; auto. Qed.
Lemma core_NFeat : forall b, b_NFeatures b = b_NFeatures (core b).
Proof. induction b; simpl; auto. Qed.
Lemma core_NLeaves : forall p b, b_NLeaves p b = b_NLeaves p (core b).
Proof. induction b; simpl; auto. Qed.
Lemma core_Name : forall b, b_Name b = b_Name (core b).
Proof. induction b; simpl; auto. Qed.
Lemma core_adjust : forall b n, b_adjustNEstimators b n = b_adjustNEstimators (core b) n.
Proof. induction b; simpl; auto. Qed.
Lemma core_inner : forall p b fv n s, b_predictInner p b fv n s = b_predictInner p (core b) fv n s.
Proof. induction b; simpl; auto. Qed.
Lemma core_leafs : forall p b fv n s,
  b_predictLeafIndicesInner p b fv n s = b_predictLeafIndicesInner p (core b) fv n s.
Proof. induction b; simpl; auto. Qed.
Lemma core_reset : forall b fv, b_resetFVals b fv = b_resetFVals (core b) fv.
Proof. induction b; simpl; auto. Qed.
Lemma core_core : forall b, core (core b) = core b.
Proof. induction b; simpl; auto. Qed.
Lemma core_cases : forall b, (exists e, core b = BLg e) \/ (exists e, core b = BXg e) \/
  (exists e, core b = BLinear e).
Proof. induction b; simpl; eauto. Qed.

(** ** Translation *)
Lemma map_shift_ext : forall A d (f g : A -> cmd) l,
  (forall x, f x = shift_cmd d (g x)) -> map f l = shift d (map g l).
Proof. intros A d f g l H. unfold shift. rewrite map_map. apply map_ext. auto. Qed.

Lemma flat_map_shift_ext : forall A d (f g : A -> list cmd) l,
  (forall x, f x = shift d (g x)) -> flat_map f l = shift d (flat_map g l).
Proof.
  intros A d f g l H. induction l; simpl; auto. rewrite shift_app, H, IHl. auto.
Qed.

Lemma cmd_of_ext : forall A (x : outcome A) f g, (forall a, f a = g a) -> cmd_of x f = cmd_of x g.
Proof. intros A [a|m|m|] f g H; simpl; auto. Qed.
Lemma cmds_of_ext : forall A (x : outcome A) f g, (forall a, f a = g a) -> cmds_of x f = cmds_of x g.
Proof. intros A [a|m|m|] f g H; simpl; auto. Qed.

Lemma inner_shift : forall p b fv n s, b_predictInner p b fv n s = shift s (b_predictInner p b fv n 0).
Proof.
  intros p b fv n s. induction b as [e|e|e|b IH t]; simpl.
  - unfold lg_predictInner. rewrite shift_app. f_equal.
    + apply map_shift_ext. intros; simpl; f_equal; lia.
    + apply flat_map_shift_ext. intros i. apply map_shift_ext. intros k.
      rewrite shift_cmd_of. apply cmd_of_ext. intros a. simpl. f_equal; lia.
  - unfold xg_predictInner. rewrite shift_app. f_equal.
    + apply map_shift_ext. intros; simpl; f_equal; lia.
    + apply flat_map_shift_ext. intros i. apply map_shift_ext. intros k.
      rewrite shift_cmd_of. apply cmd_of_ext. intros a. simpl. f_equal; lia.
  - unfold xl_predictInner. apply flat_map_shift_ext. intros k.
    cbn [shift map]. f_equal.
    + rewrite shift_cmd_of. apply cmd_of_ext. intros a. simpl. f_equal; lia.
    + apply map_shift_ext. intros i. rewrite shift_cmd_of. apply cmd_of_ext. intros a. simpl. f_equal; lia.
  - auto.
Qed.

Lemma leafs_shift : forall p b fv n s,
  b_predictLeafIndicesInner p b fv n s = shift s (b_predictLeafIndicesInner p b fv n 0).
Proof.
  intros p b fv n s. induction b as [e|e|e|b IH t]; simpl; auto.
  - unfold trees_predictLeafIndicesInner. rewrite shift_app. f_equal.
    + apply map_shift_ext. intros; simpl; f_equal; lia.
    + apply flat_map_shift_ext. intros i. apply map_shift_ext. intros k.
      rewrite shift_cmd_of. apply cmd_of_ext. intros a. simpl. f_equal; lia.
  - unfold trees_predictLeafIndicesInner. rewrite shift_app. f_equal.
    + apply map_shift_ext. intros; simpl; f_equal; lia.
    + apply flat_map_shift_ext. intros i. apply map_shift_ext. intros k.
      rewrite shift_cmd_of. apply cmd_of_ext. intros a. simpl. f_equal; lia.
Qed.

Lemma zrange_shift : forall s n, zrange s (s + n) = map (fun k => s + k) (zseq n).
Proof. intros s n. unfold zrange. do 2 f_equal. lia. Qed.

Lemma softmax_shift : forall p raw s, SoftmaxFloat64Slice p raw s = shift s (SoftmaxFloat64Slice p raw 0).
Proof.
  intros p raw s. unfold SoftmaxFloat64Slice. rewrite shift_app. f_equal.
  - apply map_shift_ext. intros; simpl; f_equal; lia.
  - destruct (negb _); auto. rewrite zrange_shift, zrange_shift. rewrite !map_map.
    unfold shift. rewrite map_map. apply map_ext. intros; simpl; f_equal; lia.
Qed.

Lemma transform_shift : forall p t raw s,
  match Transform_t p t raw s, Transform_t p t raw 0 with
  | Ok a, Ok b => a = shift s b
  | Err _, Err _ => True
  | Panic a, Panic b => a = b
  | Hang, Hang => True
  | _, _ => False
  end.
Proof.
  intros p t raw s. destruct t as [n| |n|n|]; simpl.
  - apply map_shift_ext. intros; simpl; f_equal; lia.
  - destruct (negb _); auto. destruct (at_cases _ raw 0) as [(x & H & _)|(m0 & H)]; rewrite H; simpl; auto.
    rewrite Z.add_0_r. auto.
  - destruct (negb _); auto. apply softmax_shift.
  - apply map_shift_ext. intros; simpl; f_equal; lia.
  - destruct (negb _); auto. destruct (at_cases _ raw 0) as [(x & H & _)|(m0 & H)]; rewrite H; simpl; auto.
    rewrite Z.add_0_r. auto.
Qed.

Lemma piat_shift : forall p e fv n s,
  predictInnerAndTransform p e fv n s = shift s (predictInnerAndTransform p e fv n 0).
Proof.
  intros p e fv n s. unfold predictInnerAndTransform.
  destruct (_ =? TypeRaw); [apply inner_shift|].
  destruct (_ =? TypeLeafIndex); [apply leafs_shift|].
  rewrite shift_cmds_of. apply cmds_of_ext. intros raw.
  pose proof (transform_shift p (eTransform e) raw s) as H.
  destruct (Transform_t p (eTransform e) raw s), (Transform_t p (eTransform e) raw 0); simpl; try tauto.
  congruence.
Qed.

(** ** Window *)
Lemma cell_in_cmd_of : forall A lo hi (x : outcome A) k,
  (forall a, cell_in lo hi (k a)) -> cell_in lo hi (cmd_of x k).
Proof. intros A lo hi [a|m|m|] k H; simpl; auto; exact I. Qed.

Lemma within_cmds_of : forall A lo hi (x : outcome A) k,
  (forall a, x = Ok a -> within lo hi (k a)) -> within lo hi (cmds_of x k).
Proof.
  intros A lo hi [a|m|m|] k H; simpl; auto; repeat constructor.
Qed.

Lemma within_map : forall A lo hi (f : A -> cmd) l,
  (forall x, In x l -> cell_in lo hi (f x)) -> within lo hi (map f l).
Proof.
  intros A lo hi f l H. apply Forall_forall. intros c Hc. apply in_map_iff in Hc.
  destruct Hc as (x & <- & Hx). auto.
Qed.

Lemma within_flat_map : forall A lo hi (f : A -> list cmd) l,
  (forall x, In x l -> within lo hi (f x)) -> within lo hi (flat_map f l).
Proof.
  intros A lo hi f l H. apply Forall_forall. intros c Hc. apply in_flat_map in Hc.
  destruct Hc as (x & Hx & Hc). exact (proj1 (Forall_forall _ _) (H x Hx) c Hc).
Qed.

Lemma inner_within : forall p b fv n, within 0 (b_NRawOutputGroups b) (b_predictInner p b fv n 0).
Proof.
  intros p b fv n. induction b as [e|e|e|b IH t]; simpl; auto.
  - unfold lg_predictInner. apply within_app. split.
    + apply within_map. intros k Hk. apply in_zseq in Hk. unfold cell_in. simpl. lia.
    + apply within_flat_map. intros i _. apply within_map. intros k Hk. apply in_zseq in Hk.
      apply cell_in_cmd_of. intros a. unfold cell_in. simpl. lia.
  - unfold xg_predictInner. apply within_app. split.
    + apply within_map. intros k Hk. apply in_zseq in Hk. unfold cell_in. simpl. lia.
    + apply within_flat_map. intros i _. apply within_map. intros k Hk. apply in_zseq in Hk.
      apply cell_in_cmd_of. intros a. unfold cell_in. simpl. lia.
  - unfold xl_predictInner. apply within_flat_map. intros k Hk. apply in_zseq in Hk.
    constructor.
    + apply cell_in_cmd_of. intros a. unfold cell_in. simpl. lia.
    + apply within_map. intros i _. apply cell_in_cmd_of. intros a. unfold cell_in. simpl. lia.
Qed.

Lemma leafs_trees_within : forall p trees g fv n, 0 <= n -> g * n <= MaxInt -> 0 <= g ->
  within 0 (g * n) (trees_predictLeafIndicesInner p trees g fv n 0).
Proof.
  intros p trees g fv n Hn Hm Hg. unfold trees_predictLeafIndicesInner.
  rewrite s64_id by (unfold MaxInt, two63 in *; nia).
  apply within_app. split.
  - apply within_map. intros k Hk. apply in_zseq in Hk. unfold cell_in. simpl. lia.
  - apply within_flat_map. intros i Hi. apply in_zseq in Hi.
    apply within_map. intros k Hk. apply in_zseq in Hk.
    apply cell_in_cmd_of. intros a. unfold cell_in. simpl. nia.
Qed.

Lemma NEst_trees : forall trees g k, 1 <= g -> trees_NEstimators trees g = Ok k ->
  0 <= k /\ g * k <= zlen trees /\ zlen trees < g * k + g.
Proof.
  intros trees g k Hg H. unfold trees_NEstimators, go_div in H.
  destruct (Z.eqb_spec g 0); [lia|]. injection H as <-.
  pose proof (zlen_nonneg _ trees). rewrite Z.quot_div_nonneg by lia.
  pose proof (Z_div_mod_eq_full (zlen trees) g). pose proof (Z.mod_pos_bound (zlen trees) g ltac:(lia)).
  pose proof (Z.div_pos (zlen trees) g). lia.
Qed.

(** estimator counts of a well formed ensemble *)
Lemma wf_NEst : forall e, well_formed e -> exists k, NEstimators e = Ok k /\ 0 <= k /\
  NRawOutputGroups e * k <= MaxInt /\
  (is_tree_model e -> NRawOutputGroups e * k <= zlen (model_trees e) < NRawOutputGroups e * k + NRawOutputGroups e).
Proof.
  intros e (Hg & Ht & _). unfold NEstimators, NRawOutputGroups, model_trees, is_tree_model in *.
  rewrite core_NEst, core_NRaw in *.
  assert (Hgen : forall trees g, 1 <= g -> zlen trees <= MaxInt ->
     exists k, trees_NEstimators trees g = Ok k /\ 0 <= k /\ g * k <= MaxInt /\
       (True -> g * k <= zlen trees < g * k + g)).
  { intros trees g H1 H2.
    assert (exists k, trees_NEstimators trees g = Ok k) as [k Hk].
    { unfold trees_NEstimators, go_div. destruct (Z.eqb_spec g 0); [lia|eauto]. }
    exists k. pose proof (NEst_trees _ _ _ H1 Hk). repeat split; auto; lia. }
  destruct (core_cases (eBase e)) as [[m E]|[[m E]|[m E]]]; rewrite E in *; simpl in *; auto.
  - apply Hgen; auto; lia.
  - apply Hgen; auto; lia.
  - exists 1. repeat split; try lia; tauto.
Qed.

Lemma wf_adjust : forall e n, well_formed e -> exists k, NEstimators e = Ok k /\
  b_adjustNEstimators (eBase e) n = Ok (if (0 <? n) && (n <? k) then n else k).
Proof.
  intros e n H. destruct (wf_NEst e H) as (k & Hk & Hk0 & _ & _). exists k. split; auto.
  unfold NEstimators in Hk. rewrite core_NEst in Hk. rewrite core_adjust.
  destruct (core_cases (eBase e)) as [[m E]|[[m E]|[m E]]]; rewrite E in *; simpl in *.
  - unfold trees_adjustNEstimators. rewrite Hk. simpl. f_equal.
    destruct (0 <? n) eqn:E1; simpl; auto.
  - unfold trees_adjustNEstimators. rewrite Hk. simpl. f_equal.
    destruct (0 <? n) eqn:E1; simpl; auto.
  - injection Hk as <-. f_equal. destruct (Z.ltb_spec 0 n), (Z.ltb_spec n 1); simpl; auto; lia.
Qed.

Lemma make_ok : forall p n l, make_f64 p n = Ok l -> 0 <= n /\ l = repeat fzero (Z.to_nat n) /\ zlen l = n.
Proof.
  intros p n l H. unfold make_f64 in H.
  destruct ((n <? 0) || (pl_maxalloc p <? n)) eqn:E; [discriminate|].
  injection H as <-. rewrite zlen_repeat. repeat split; lia.
Qed.

Lemma in_combine_zseq : forall A (l : list A) iv, In iv (combine (zseq (zlen l)) l) ->
  0 <= fst iv < zlen l /\ zget l (fst iv) = Some (snd iv).
Proof.
  intros A l iv H. destruct iv as [i v]. simpl.
  apply In_nth_error in H. destruct H as [k Hk].
  assert (Hc : forall (a : list Z) (b : list A) k i v, nth_error (combine a b) k = Some (i, v) ->
     nth_error a k = Some i /\ nth_error b k = Some v).
  { clear. induction a as [|x a IH]; intros [|y b] k i v H; simpl in *;
      try (destruct k; discriminate). destruct k; simpl in *; [inversion H; auto|]. apply IH; auto. }
  destruct (Hc _ _ _ _ _ Hk) as [Ha Hb].
  assert (Hkl : (k < List.length l)%nat) by (apply nth_error_Some; congruence).
  assert (i = Z.of_nat k).
  { unfold zseq in Ha. rewrite nth_error_map in Ha.
    destruct (nth_error (seq 0 (Z.to_nat (zlen l))) k) eqn:E; simpl in Ha; [|discriminate].
    injection Ha as <-. f_equal.
    assert (k < List.length (seq 0 (Z.to_nat (zlen l))))%nat by (apply nth_error_Some; congruence).
    rewrite seq_length in H. rewrite (nth_error_nth' _ O) in E by (rewrite seq_length; auto).
    rewrite seq_nth in E by auto. inversion E. auto. }
  subst i. unfold zlen. split; [lia|]. rewrite zget_nth by lia. rewrite Nat2Z.id. auto.
Qed.

(** the adjusted estimator count that passes checkNEstimators *)
Definition usable (e : Ensemble) (n : Z) : Prop :=
  exists k, NEstimators e = Ok k /\ 0 <= n <= k /\ (wants_leaves e -> n = k).

Lemma piat_within : forall p e fv n, well_formed e -> usable e n ->
  within 0 (NOutputGroups e) (predictInnerAndTransform p e fv n 0).
Proof.
  intros p e fv n Hwf (k & Hk & Hn & Hall).
  pose proof (wf_NEst e Hwf) as (k' & Hk' & Hk0 & Hmax & _). rewrite Hk in Hk'. injection Hk' as <-.
  destruct Hwf as (Hg & Ht & Hx). unfold predictInnerAndTransform, NOutputGroups.
  destruct (eTransform e) as [m| |m|m|] eqn:E; cbn [Type_t NOutputGroups_t] in *.
  - simpl. subst m. apply inner_within.
  - simpl. apply within_cmds_of. intros raw Hraw. simpl.
    destruct (negb _); [constructor|].
    destruct (at_cases _ raw 0) as [(x & H & _)|(m0 & H)]; rewrite H; simpl.
    + repeat constructor; unfold cell_in; simpl; lia.
    + repeat constructor.
  - simpl. apply within_cmds_of. intros raw Hraw. simpl.
    destruct (negb (zlen raw =? m)) eqn:El; [constructor|].
    unfold SoftmaxFloat64Slice. apply within_app. split.
    + apply within_map. intros iv Hiv. apply in_combine_zseq in Hiv. unfold cell_in. simpl. lia.
    + destruct (negb (feq _ _)); [|constructor]. apply within_map. intros i Hi. apply in_zrange in Hi.
      unfold cell_in. simpl. lia.
  - destruct Hx as (k' & Hk' & ->). rewrite Hk in Hk'. injection Hk' as <-.
    rewrite (Hall ltac:(eexists; eauto)). simpl.
    rewrite core_leafs. unfold NRawOutputGroups in *. rewrite core_NRaw in *.
    destruct (core_cases (eBase e)) as [[q Eq]|[[q Eq]|[q Eq]]]; rewrite Eq in *; simpl in *.
    + apply leafs_trees_within; lia.
    + apply leafs_trees_within; lia.
    + constructor.
  - simpl. apply within_cmds_of. intros raw Hraw. simpl.
    destruct (negb _); [constructor|].
    destruct (at_cases _ raw 0) as [(x & H & _)|(m0 & H)]; rewrite H; simpl.
    + repeat constructor; unfold cell_in; simpl; lia.
    + repeat constructor.
Qed.

(** ** Coverage *)
Lemma defined_sets : forall A (f : A -> Z * f64) l S,
  defined S (map (fun x => CSet (fst (f x)) (snd (f x))) l).
Proof. intros A f l. induction l; intros S; simpl; auto. Qed.

Lemma defined_all : forall cs (S : Z -> Prop),
  (forall c, In c cs -> match c with CAdd i _ | CMul i _ => S i | _ => True end) -> defined S cs.
Proof.
  induction cs as [|c cs IH]; intros S H; simpl; auto.
  pose proof (H c (or_introl eq_refl)) as Hc.
  assert (Ht : forall c', In c' cs -> match c' with CAdd i _ | CMul i _ => S i | _ => True end).
  { intros c' Hc'. apply H. right. auto. }
  destruct c as [i v|i v|i v|s|]; simpl in *; auto.
  eapply defined_weaken; [|apply IH; eauto]. auto.
Qed.

Lemma sets_assigned : forall (g : Z) (f : Z -> f64) k, 0 <= k < g ->
  assigned (map (fun k => CSet (0 + k) (f k)) (zseq g)) k.
Proof.
  intros g f k Hk. exists (f k). apply in_map_iff. exists k. split; auto. apply in_zseq. lia.
Qed.

Lemma assigned_app_l : forall a b i, assigned a i -> assigned (a ++ b) i.
Proof. intros a b i [v H]. exists v. apply in_or_app. auto. Qed.

Lemma exec_ok_no_panic : forall cs m m' c, exec cs m = Ok m' -> In c cs ->
  exists i f, cmd_upd c = Some (i, f).
Proof.
  intros cs m m' c H Hc.
  assert (Hr : Forall (runs (zlen m)) cs) by (apply exec_runs; eauto).
  destruct (proj1 (Forall_forall _ _) Hr c Hc) as (i & f & Hu & _). eauto.
Qed.

Lemma cmd_of_upd : forall A (x : outcome A) k r, cmd_upd (cmd_of x k) = Some r ->
  exists a, x = Ok a /\ cmd_of x k = k a.
Proof. intros A [a|m|m|] k r H; simpl in *; try discriminate; eauto. Qed.

Lemma inner_defined : forall p b fv n m m',
  exec (b_predictInner p b fv n 0) m = Ok m' ->
  defined (fun _ => False) (b_predictInner p b fv n 0) /\
  forall k, 0 <= k < b_NRawOutputGroups b -> assigned (b_predictInner p b fv n 0) k.
Proof.
  intros p b fv n m m'. induction b as [e|e|e|b IH t]; simpl; auto; intros H.
  - split.
    + unfold lg_predictInner. apply defined_app.
      * apply (defined_sets _ (fun k => (0 + k, fzero))).
      * apply defined_all. intros c Hc. apply in_flat_map in Hc. destruct Hc as (i & _ & Hc).
        apply in_map_iff in Hc. destruct Hc as (k & <- & Hk). apply in_zseq in Hk.
        destruct (let* t := _ in predict p t fv); simpl; auto. left. apply sets_assigned with (f := fun _ => fzero). lia.
    + intros k Hk. unfold lg_predictInner. apply assigned_app_l. apply sets_assigned with (f := fun _ => fzero). lia.
  - split.
    + unfold xg_predictInner. apply defined_app.
      * apply (defined_sets _ (fun k => (0 + k, xgBaseScore e))).
      * apply defined_all. intros c Hc. apply in_flat_map in Hc. destruct Hc as (i & _ & Hc).
        apply in_map_iff in Hc. destruct Hc as (k & <- & Hk). apply in_zseq in Hk.
        destruct (let* t := _ in _); simpl; auto. left. apply sets_assigned with (f := fun _ => xgBaseScore e). lia.
    + intros k Hk. unfold xg_predictInner. apply assigned_app_l. apply sets_assigned with (f := fun _ => xgBaseScore e). lia.
  - unfold xl_predictInner in *.
    set (blk := fun k => cmd_of (at_ (xlWeights e) (s64 (xlNRawOutputGroups e * xlNumFeature e + k)))
           (fun w => CSet (0 + k) (fadd (xlBaseScore e) (f64_of_f32bits w)))
       :: map (fun i => cmd_of (let* x := at_ fv i in
                      let* w := at_ (xlWeights e) (s64 (xlNRawOutputGroups e * i + k)) in
                      Ok (fmul x (f64_of_f32bits w)))
                     (fun v => CAdd (0 + k) v)) (zseq (xlNumFeature e))) in *.
    split.
    + assert (Hg : forall ks S m m', exec (flat_map blk ks) m = Ok m' -> defined S (flat_map blk ks)).
      { clear H. induction ks as [|k ks IHk]; intros S m1 m1' H; [exact I|].
        cbn [flat_map] in *. apply exec_app_ok in H. destruct H as (m2 & H1 & H2).
        apply defined_app; [|eapply IHk; eauto].
        unfold blk in *. simpl in H1. bind_inv.
        destruct (exec_ok_no_panic _ _ _ _ H1 (or_introl eq_refl)) || idtac.
        destruct (at_ (xlWeights e) (s64 (xlNRawOutputGroups e * xlNumFeature e + k))) eqn:Ew;
          simpl in Hb; try discriminate.
        cbn [cmd_of defined]. apply defined_all. intros c Hc. apply in_map_iff in Hc.
        destruct Hc as (i & <- & _). destruct (let* x := _ in _); simpl; auto. }
      eapply Hg; eauto.
    + intros k Hk.
      assert (Hin : In (cmd_of (at_ (xlWeights e) (s64 (xlNRawOutputGroups e * xlNumFeature e + k)))
           (fun w => CSet (0 + k) (fadd (xlBaseScore e) (f64_of_f32bits w)))) (flat_map blk (zseq (xlNRawOutputGroups e)))).
      { apply in_flat_map. exists k. split; [apply in_zseq; lia|]. left. auto. }
      destruct (exec_ok_no_panic _ _ _ _ H Hin) as (i & f & Hu).
      apply cmd_of_upd in Hu. destruct Hu as (w & Hw & Hc). rewrite Hc in Hin.
      exists (fadd (xlBaseScore e) (f64_of_f32bits w)). exact Hin.
Qed.

Lemma combine_assigned : forall (raw : list f64) (f : f64 -> f64) k, 0 <= k < zlen raw ->
  assigned (map (fun iv => CSet (0 + fst iv) (f (snd iv))) (combine (zseq (zlen raw)) raw)) k.
Proof.
  intros raw f k Hk. destruct (zget_some _ raw k Hk) as [x Hx]. exists (f x).
  apply in_map_iff. exists (k, x). split; auto.
  assert (Hc : forall (a : list Z) (b : list f64) n i v, nth_error a n = Some i -> nth_error b n = Some v ->
     In (i, v) (combine a b)).
  { clear. induction a as [|y a IH]; intros [|z b] n i v H1 H2; try (destruct n; discriminate).
    destruct n; simpl in *; [left; congruence|right; eauto]. }
  apply (Hc _ _ (Z.to_nat k)).
  - rewrite <- zget_nth by lia. apply zget_zseq. auto.
  - rewrite <- zget_nth by lia. auto.
Qed.

Lemma leafs_trees_defined : forall p trees g fv n, 0 <= g * n <= MaxInt ->
  defined (fun _ => False) (trees_predictLeafIndicesInner p trees g fv n 0) /\
  forall k, 0 <= k < g * n -> assigned (trees_predictLeafIndicesInner p trees g fv n 0) k.
Proof.
  intros p trees g fv n Hm. unfold trees_predictLeafIndicesInner.
  rewrite s64_id by (unfold MaxInt, two63 in *; lia). split.
  - apply defined_app.
    + apply (defined_sets _ (fun k => (0 + k, fzero))).
    + apply defined_all. intros c Hc. apply in_flat_map in Hc. destruct Hc as (i & _ & Hc).
      apply in_map_iff in Hc. destruct Hc as (k & <- & Hk).
      destruct (let* t := _ in predict p t fv); simpl; auto.
  - intros k Hk. apply assigned_app_l. apply sets_assigned with (f := fun _ => fzero). lia.
Qed.

Lemma piat_defined : forall p e fv n m m', well_formed e -> usable e n -> arity_accepted e ->
  exec (predictInnerAndTransform p e fv n 0) m = Ok m' ->
  defined (fun _ => False) (predictInnerAndTransform p e fv n 0) /\
  forall k, 0 <= k < NOutputGroups e -> assigned (predictInnerAndTransform p e fv n 0) k.
Proof.
  intros p e fv n m m' Hwf (k & Hk & Hn & Hall) Hacc H.
  pose proof (wf_NEst e Hwf) as (k' & Hk' & Hk0 & Hmax & _). rewrite Hk in Hk'. injection Hk' as <-.
  destruct Hwf as (Hg & Ht & Hx). unfold arity_accepted in Hacc.
  unfold predictInnerAndTransform, NOutputGroups in *.
  destruct (eTransform e) as [q| |q|q|] eqn:E; cbn [Type_t NOutputGroups_t] in *; simpl in H |- *.
  - subst q. eapply inner_defined; eauto.
  - destruct (let* raw := make_f64 p (NRawOutputGroups e) in _) as [raw|s|s|] eqn:Er;
      simpl in H |- *; try discriminate.
    bind_inv. apply make_ok in Hb. apply exec_len in Er.
    replace (zlen raw) with 1 in * by lia. simpl in *.
    destruct (at_cases _ raw 0) as [(x & Hx0 & _)|(m0 & Hx0)]; rewrite Hx0 in *; simpl in *; [|discriminate].
    split; auto. intros i Hi. exists (Sigmoid p x). left. f_equal. lia.
  - destruct (let* raw := make_f64 p (NRawOutputGroups e) in _) as [raw|s|s|] eqn:Er;
      simpl in H |- *; try discriminate.
    bind_inv. apply make_ok in Hb. apply exec_len in Er.
    assert (El : zlen raw =? q = true) by lia. rewrite El in *. simpl in *.
    unfold SoftmaxFloat64Slice in *. split.
    + apply defined_app.
      * apply (defined_sets _ (fun iv => (0 + fst iv, pl_exp p (snd iv)))).
      * destruct (negb (feq _ _)); [|exact I]. apply defined_all. intros c Hc. apply in_map_iff in Hc.
        destruct Hc as (i & <- & Hi). apply in_zrange in Hi. left. apply combine_assigned with (f := pl_exp p). lia.
    + intros i Hi. apply assigned_app_l. apply combine_assigned with (f := pl_exp p). lia.
  - destruct Hx as (k' & Hk' & ->). rewrite Hk in Hk'. injection Hk' as <-.
    rewrite (Hall ltac:(eexists; eauto)) in *.
    unfold is_tree_model in Hacc.
    rewrite core_leafs. unfold NRawOutputGroups in *. rewrite core_NRaw in *.
    destruct (core_cases (eBase e)) as [[r Eq]|[[r Eq]|[r Eq]]]; rewrite Eq in *; simpl in *.
    + apply leafs_trees_defined; nia.
    + apply leafs_trees_defined; nia.
    + tauto.
  - destruct (let* raw := make_f64 p (NRawOutputGroups e) in _) as [raw|s|s|] eqn:Er;
      simpl in H |- *; try discriminate.
    bind_inv. apply make_ok in Hb. apply exec_len in Er.
    replace (zlen raw) with 1 in * by lia. simpl in *.
    destruct (at_cases _ raw 0) as [(x & Hx0 & _)|(m0 & Hx0)]; rewrite Hx0 in *; simpl in *; [|discriminate].
    split; auto. intros i Hi. exists (pl_exp p x). left. f_equal. lia.
Qed.
