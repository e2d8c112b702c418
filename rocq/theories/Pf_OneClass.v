(** * Proofs about single classes of a model *)

From Coq Require Import ZArith List Bool String Lia ZifyBool.
From Verif Require Import Go GoFloat Cmd LgTree Transformation Ensembles Leaves
  Spec_Predict Spec_OneClass Pf_Go Pf_Cmd Pf_Exec Pf_Leaves Pf_Rows Pf_Values Prop_Values.

(** what the model adds up in one cell: a first value and then terms *)
Definition first_of (b : base) (k : Z) : outcome f64 :=
  match b with
  | BLg _ => Ok fzero
  | BXg m => Ok (xgBaseScore m)
  | BLinear m =>
      let* w := at_ (xlWeights m) (s64 (xlNRawOutputGroups m * xlNumFeature m + k)) in
      Ok (fadd (xlBaseScore m) (f64_of_f32bits w))
  | BEnsemble _ _ => Ok fzero
  end.

Definition term_of (p : platform) (b : base) (fv : list f64) (n i k : Z) : outcome f64 :=
  match b with
  | BLg m =>
      let* r := (let* t := at_ (lgTrees m) (i * lgNRawOutputGroups m + k) in predict p t fv) in
      Ok (fmul (fst r) (if lgAverageOutput m then fdiv fone (f64_of_Z n) else fone))
  | BXg m =>
      let* t := at_ (xgTrees m) (i * xgNRawOutputGroups m + k) in
      let* r := predict p t fv in
      let* w := at_ (xgWeightDrop m) (i * xgNRawOutputGroups m + k) in
      Ok (fmul (fst r) w)
  | BLinear m =>
      let* x := at_ fv i in
      let* w := at_ (xlWeights m) (s64 (xlNRawOutputGroups m * i + k)) in
      Ok (fmul x (f64_of_f32bits w))
  | BEnsemble _ _ => Ok fzero
  end.

Definition count_of (b : base) (n : Z) : Z := match b with BLinear m => xlNumFeature m | _ => n end.

Definition flat (b : base) : Prop := match b with BEnsemble _ _ => False | _ => True end.

Definition got (o : outcome f64) : f64 := match o with Ok v => v | _ => fzero end.

Definition score_of p b fv n k : f64 :=
  fold_left (fun acc i => fadd acc (got (term_of p b fv n i k))) (zseq (count_of b n)) (got (first_of b k)).

Definition cell_fine p b fv n k : Prop :=
  (exists v, first_of b k = Ok v) /\ forall i, 0 <= i < count_of b n -> exists v, term_of p b fv n i k = Ok v.

Lemma lg_shape : forall p m fv n, lg_predictInner p m fv n 0 =
  map (fun k => CSet (0 + k) fzero) (zseq (lgNRawOutputGroups m)) ++
  flat_map (fun i => map (fun k => cmd_of (term_of p (BLg m) fv n i k) (fun v => CAdd (0 + k) v)) (zseq (lgNRawOutputGroups m))) (zseq n).
Proof.
  intros. unfold lg_predictInner. cbv zeta. f_equal. rewrite !flat_map_concat_map. f_equal. apply map_ext. intros i.
  apply map_ext. intros k. unfold term_of.
  exact (cmd_of_bind_ok _ _ _ (fun r => fmul (fst r) _) (fun v => CAdd (0 + k) v)).
Qed.

Lemma sets_adds_runs : forall g init (x : Z -> Z -> outcome f64) n (m : list f64), g <= zlen m ->
  (forall i k, 0 <= i < n -> 0 <= k < g -> exists v, x i k = Ok v) ->
  exists m', exec (map (fun k => CSet (0 + k) init) (zseq g) ++
        flat_map (fun i => map (fun k => cmd_of (x i k) (fun v => CAdd (0 + k) v)) (zseq g)) (zseq n)) m = Ok m'.
Proof.
  intros g init x n m L H. apply exec_runs. apply Forall_app. split.
  - apply Forall_map, Forall_forall. intros k Hk. apply in_zseq in Hk. exists k, (fun _ => init). split; [reflexivity|lia].
  - apply Forall_flat_map, Forall_forall. intros i Hi. apply in_zseq in Hi. apply Forall_map, Forall_forall. intros k Hk. apply in_zseq in Hk.
    destruct (H i k Hi Hk) as [v ->]. exists k, (fun y => fadd y v). split; [reflexivity|lia].
Qed.

Lemma fold_ext_in : forall A (f g : f64 -> A -> f64) l x, (forall a i, In i l -> f a i = g a i) -> fold_left f l x = fold_left g l x.
Proof.
  induction l as [|a l IH]; intros x H; [reflexivity|]. cbn [fold_left]. rewrite (H x a (or_introl eq_refl)). apply IH.
  intros; apply H; right; assumption.
Qed.

Lemma sets_adds_score : forall g init (x : Z -> Z -> outcome f64) n (m m' : list f64), 0 <= g ->
  exec (map (fun k => CSet (0 + k) init) (zseq g) ++
        flat_map (fun i => map (fun k => cmd_of (x i k) (fun v => CAdd (0 + k) v)) (zseq g)) (zseq n)) m = Ok m' ->
  forall k, 0 <= k < g -> (forall i, 0 <= i < n -> exists v, x i k = Ok v) /\
    zget m' k = Some (fold_left (fun acc i => fadd acc (got (x i k))) (zseq n) init).
Proof.
  intros g init x n m m' Hg H k Hk. destruct (sets_adds g init x n m m' Hg H) as (val & Hv & G). split.
  - intros i Hi. eauto.
  - rewrite G by assumption. f_equal. apply fold_ext_in. intros a i Hi. apply in_zseq in Hi. rewrite (Hv i k Hi Hk). reflexivity.
Qed.

Lemma inner_score : forall p b fv n m m', flat b -> 0 <= b_NRawOutputGroups b ->
  exec (b_predictInner p b fv n 0) m = Ok m' ->
  forall k, 0 <= k < b_NRawOutputGroups b -> cell_fine p b fv n k /\ zget m' k = Some (score_of p b fv n k).
Proof.
  intros p b fv n m m' F Hg H k Hk. destruct b as [e|e|e|]; [| | |destruct F]; cbn [b_predictInner b_NRawOutputGroups] in *.
  - rewrite lg_shape in H. destruct (sets_adds_score _ _ _ _ _ _ Hg H k Hk) as [A B]. split; [split; [eexists; reflexivity|exact A]|exact B].
  - destruct (sets_adds_score _ _ (fun i k => term_of p (BXg e) fv n i k) n _ _ Hg H k Hk) as [A B]. split; [split; [eexists; reflexivity|exact A]|exact B].
  - unfold xl_predictInner in H. cbv zeta in H.
    set (g := xlNRawOutputGroups e) in *. set (nf := xlNumFeature e) in *.
    set (FF := fun k => _) in H.
    assert (Es : zseq g = zseq k ++ k :: zrange (k + 1) g).
    { rewrite <- !zrange_zseq. rewrite (zrange_app 0 k g) by lia. f_equal. apply zrange_cons. lia. }
    rewrite Es, flat_map_app in H. cbn [flat_map] in H.
    rewrite exec_app in H. apply bind_ok in H. destruct H as (m1 & H1 & H).
    rewrite exec_app in H. apply bind_ok in H. destruct H as (m2 & H2 & H3).
    assert (W : forall j, within j (j + 1) (FF j)).
    { intros j. unfold FF. constructor.
      - apply cell_in_cmd_of. intros a. unfold cell_in. simpl. lia.
      - apply within_map. intros i _. apply cell_in_cmd_of. intros a. unfold cell_in. simpl. lia. }
    assert (G3 : zget m' k = zget m2 k).
    { eapply exec_frame with (lo := k + 1) (hi := g); [|exact H3|lia].
      apply within_flat_map. intros j Hj. apply in_zrange in Hj. eapply within_weaken; [apply W|lia|lia]. }
    unfold FF in H2. unfold cell_fine, score_of. cbn [first_of count_of]. fold g nf.
    destruct (at_ (xlWeights e) (s64 (g * nf + k))) as [b| | |] eqn:Eb; try (simpl in H2; discriminate).
    cbn [cmd_of] in H2. apply (lin_group k) in H2. destruct H2 as (val & Hv & G2). cbn [bind]. split; [split|].
    + eexists; reflexivity.
    + intros i Hi. exists (val i). exact (Hv i Hi).
    + rewrite G3, G2. f_equal. rewrite <- fold_map. cbn [got]. apply fold_ext_in. intros a i Hi. apply in_zseq in Hi.
      change (term_of p (BLinear e) fv n i k) with (let* x := at_ fv i in let* w := at_ (xlWeights e) (s64 (g * i + k)) in Ok (fmul x (f64_of_f32bits w))).
      rewrite (Hv i Hi). reflexivity.
Qed.

Lemma inner_runs : forall p b fv n (m : list f64), flat b -> b_NRawOutputGroups b <= zlen m ->
  (forall k, 0 <= k < b_NRawOutputGroups b -> cell_fine p b fv n k) ->
  exists m', exec (b_predictInner p b fv n 0) m = Ok m'.
Proof.
  intros p b fv n m F L H. destruct b as [e|e|e|]; [| | |destruct F]; cbn [b_predictInner b_NRawOutputGroups] in *.
  - rewrite lg_shape. apply sets_adds_runs; auto. intros i k Hi Hk. exact (proj2 (H k Hk) i Hi).
  - apply (sets_adds_runs _ _ (fun i k => term_of p (BXg e) fv n i k) n); auto. intros i k Hi Hk. exact (proj2 (H k Hk) i Hi).
  - apply exec_runs. unfold xl_predictInner. cbv zeta. apply Forall_flat_map, Forall_forall. intros k Hk. apply in_zseq in Hk.
    destruct (H k Hk) as [[v0 H0] Ht]. cbn [first_of count_of] in *. constructor.
    + destruct (at_ (xlWeights e) (s64 (xlNRawOutputGroups e * xlNumFeature e + k))) as [w| | |]; try discriminate H0.
      exists k, (fun _ => fadd (xlBaseScore e) (f64_of_f32bits w)). split; [reflexivity|lia].
    + apply Forall_map, Forall_forall. intros i Hi. apply in_zseq in Hi. destruct (Ht i Hi) as [v Hv]. cbn [term_of] in Hv. rewrite Hv.
      exists k, (fun y => fadd y v). split; [reflexivity|lia].
Qed.

(** a class alone has the cell it had *)
Lemma at_same : forall A (l l' : list A) i j, zget l i = zget l' j -> at_ l i = at_ l' j.
Proof. intros A l l' i j H. unfold at_. rewrite H. reflexivity. Qed.

Lemma class_cell : forall p e k e1 fv n N, one_class e k e1 -> table_fits e -> NEstimators e = Ok N -> n <= N ->
  count_of (core (eBase e1)) n = count_of (core (eBase e)) n /\
  first_of (core (eBase e1)) 0 = first_of (core (eBase e)) k /\
  forall i, 0 <= i < count_of (core (eBase e)) n ->
    term_of p (core (eBase e1)) fv n i 0 = term_of p (core (eBase e)) fv n i k.
Proof.
  intros p e k e1 fv n N (Hk & G1 & _ & _ & NF & M) T HN L. unfold table_fits in T.
  unfold NRawOutputGroups in *. unfold NFeatures in NF. rewrite (core_NRaw (eBase e)) in *. rewrite (core_NRaw (eBase e1)) in G1.
  rewrite (core_NFeat (eBase e)), (core_NFeat (eBase e1)) in NF.
  destruct (core (eBase e)) as [m|m|m|] eqn:E; destruct (core (eBase e1)) as [m1|m1|m1|] eqn:E1; try contradiction;
    cbn [count_of first_of term_of b_NRawOutputGroups b_NFeatures] in *.
  - destruct M as [A M]. split; [reflexivity|]. split; [reflexivity|]. intros i Hi. rewrite G1, A.
    rewrite (at_same _ (lgTrees m1) (lgTrees m) (i * 1 + 0) (i * lgNRawOutputGroups m + k)); [reflexivity|].
    replace (i * 1 + 0) with i by lia. apply (M N); auto. lia.
  - destruct M as [A M]. split; [reflexivity|]. split; [congruence|]. intros i Hi. rewrite G1.
    replace (i * 1 + 0) with i by lia. destruct (M N i HN ltac:(lia)) as [M1 M2].
    rewrite (at_same _ _ _ _ _ M1), (at_same _ _ _ _ _ M2). reflexivity.
  - destruct M as [A M]. rewrite NF, G1, A.
    assert (R : forall i, 0 <= i <= xlNumFeature m -> s64 (xlNRawOutputGroups m * i + k) = xlNRawOutputGroups m * i + k /\ s64 (1 * i + 0) = i).
    { intros i Hi. unfold MaxInt, two63 in *. split; rewrite s64_id; unfold two63; nia. }
    split; [reflexivity|]. split; [|intros i Hi]; destruct (R (xlNumFeature m)) as [Ra Rb]; try lia.
    + rewrite Ra, Rb. rewrite (at_same _ (xlWeights m1) (xlWeights m) _ (xlNRawOutputGroups m * xlNumFeature m + k)); [reflexivity|].
      rewrite M by lia. f_equal. lia.
    + destruct (R i ltac:(lia)) as [Rc Rd]. rewrite Rc, Rd.
      rewrite (at_same _ (xlWeights m1) (xlWeights m) _ (xlNRawOutputGroups m * i + k)); [reflexivity|].
      rewrite M by lia. f_equal. lia.
Qed.

Lemma class_fine : forall p e k e1 fv n N, one_class e k e1 -> table_fits e -> NEstimators e = Ok N -> n <= N ->
  (cell_fine p (core (eBase e1)) fv n 0 <-> cell_fine p (core (eBase e)) fv n k) /\
  score_of p (core (eBase e1)) fv n 0 = score_of p (core (eBase e)) fv n k.
Proof.
  intros p e k e1 fv n N O T HN L. destruct (class_cell p e k e1 fv n N O T HN L) as (A & B & C). split.
  - unfold cell_fine. rewrite A, B. split; intros [X Y]; (split; [exact X|]); intros i Hi; specialize (Y i Hi); rewrite (C i Hi) in *; exact Y.
  - unfold score_of. rewrite A, B. apply fold_ext_in. intros a i Hi. apply in_zseq in Hi. rewrite C by assumption. reflexivity.
Qed.

Lemma flat_core : forall b, flat (core b).
Proof. intros b. destruct (core_cases b) as [[m E]|[[m E]|[m E]]]; rewrite E; exact I. Qed.

(** Predict on a raw view *)
Lemma Predict_raw : forall p e fv nE preds, well_formed e -> raw_output e ->
  exists n N, NEstimators e = Ok N /\ n = (if (0 <? nE) && (nE <? N) then nE else N) /\ n <= N /\
  Predict p e fv nE preds =
    (if zlen preds <? NRawOutputGroups e then Err "predictions slice too short"
     else if zlen fv <? NFeatures e then Err "incorrect number of features"
     else exec (b_predictInner p (core (eBase e)) fv n 0) preds).
Proof.
  intros p e fv nE preds Wf R. destruct (wf_adjust e nE Wf) as (N & HN & HA).
  exists (if (0 <? nE) && (nE <? N) then nE else N), N. split; [exact HN|]. split; [reflexivity|]. split.
  { destruct (Z.ltb_spec 0 nE), (Z.ltb_spec nE N); cbn [andb]; lia. }
  unfold Predict. cbv zeta. rewrite HA. pose proof R as R0. destruct R as [g R].
  assert (Eg : s64 (NOutputGroups e * 1) = NRawOutputGroups e).
  { unfold NOutputGroups. rewrite R. cbn [NOutputGroups_t]. destruct Wf as (W1 & _ & W3). rewrite R in W3. subst g. rewrite Z.mul_1_r.
    apply s64_id. unfold MaxInt, two63 in *. lia. }
  rewrite Eg. unfold checkNEstimators. rewrite R. cbn [Type_t bind]. rewrite raw_piat by assumption. reflexivity.
Qed.
