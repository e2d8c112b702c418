(** * Loading LightGBM text models (C28-C31, C33, C41) *)

From Coq Require Import ZArith List Bool String Lia ZifyBool.
From Verif Require Import Go GoFloat GoText UtilText LgTree TreeBuild Transformation Ensembles Leaves LgTextIO Parallel
  Spec_Predict Spec_Split Spec_Tree Spec_LgText Spec_Params Spec_LgFile Pf_Go Pf_Leaves Pf_Build Pf_Placed Pf_LgTree Pf_Text Pf_Words Prop_Params Pf_LgFile
  Pf_Rows Prop_Batch Prop_Values Pf_Returns Demo DemoText.

(** ** C28: one tree *)
Theorem C28_text_tree :
  forall p eof text kvs rest num_leaves d,
  block eof text kvs rest ->
  tree_says (pl_parse_float p) (f2i32 p) kvs num_leaves d -> num_leaves - 1 <= pl_maxalloc p ->
  exists T, lgTreeFromReader p (mkReader text eof) = Ok (T, mkReader rest eof) /\
    nLeaves T = zlen (leaves_of d) /\
    (* same leaf number, same value, for every feature vector that has the features asked for *)
    forall x v leaf, walk d x = Some (v, leaf) -> predict p T x = Ok (v, leaf).
Proof.
  intros p eof text kvs rest nl d Hb Hs Ha. destruct (read_block _ _ _ _ Hb) as (ps & Er & L).
  destruct (params_tree p ps kvs nl d L Hs Ha) as (T & ET & H1 & H2). exists T. split; auto.
  unfold lgTreeFromReader. rewrite Er. cbn [bind]. rewrite ET. reflexivity.
Qed.
Print Assumptions C28_text_tree.

(** ** C28: a whole file *)
Section File.
Variables (p : platform) (eof : bool) (text rest : bytes) (header : list (bytes * bytes)) (kvss : list (list (bytes * bytes)))
  (groups max_feature_idx : Z) (average load : bool) (tr : transform) (ds : list dtree).
(** the file: a header, then the blocks of the trees [ds] *)
Definition file_says : Prop :=
  block eof text header rest /\
  header_says header groups max_feature_idx (zlen kvss) average /\
  transform_says header load average groups tr /\
  blocks eof rest kvss /\
  Forall2 (fun kvs d => exists num_leaves, tree_says (pl_parse_float p) (f2i32 p) kvs num_leaves d /\ num_leaves - 1 <= pl_maxalloc p) kvss ds.

Lemma file_loads : file_says -> exists trees,
  LGEnsembleFromReader p (mkReader text eof) load =
    Ok (mkEnsemble (BLg (mkLgEnsemble trees max_feature_idx groups (model_name average) average)) tr) /\
  Forall2 (behaves p) trees ds.
Proof.
  intros (Hb & Hh & Ht & Hbs & Hds). destruct (read_block _ _ _ _ Hb) as (ps & Er & L).
  destruct (trees_read p eof kvss rest ds Hbs Hds) as (ts & r & Ets & Hts).
  exists ts. split; auto. unfold LGEnsembleFromReader. rewrite Er. cbn [bind].
  assert (Eh : lg_header ps = Ok (mkLgEnsemble [] max_feature_idx groups (model_name average) average, zlen kvss)).
  { apply (header_ok ps header _ _ L). eauto 6. }
  rewrite Eh. cbn [bind lgAverageOutput lgNRawOutputGroups]. rewrite (proj2 (lg_transform_ok ps header load average groups tr L) Ht). cbn [bind].
  unfold zlen. rewrite Nat2Z.id, Ets. reflexivity.
Qed.
End File.

Theorem C28_text_file :
  forall p eof text rest header kvss groups max_feature_idx average load tr ds,
  file_says p eof text rest header kvss groups max_feature_idx average load tr ds ->
  exists e, LGEnsembleFromReader p (mkReader text eof) load = Ok e /\
    NRawOutputGroups e = groups /\ Transformation_ e = tr /\
    Forall2 (fun T d => nLeaves T = zlen (leaves_of d) /\ forall x v leaf, walk d x = Some (v, leaf) -> predict p T x = Ok (v, leaf))
            (model_trees e) ds.
Proof.
  intros p eof text rest header kvss g mf avg load tr ds H. destruct (file_loads _ _ _ _ _ _ _ _ _ _ _ _ H) as (ts & E & F).
  eexists. split; [exact E|]. repeat split; auto.
Qed.
Print Assumptions C28_text_file.

(** ** Prediction with a loaded file *)

(** [vs] are the values the trees of group [k] among the first [n] estimators give for [x] *)
Definition walk_outputs (ds : list dtree) (g k n : Z) (x : list f64) (vs : list f64) : Prop :=
  zlen vs = n /\ forall i, 0 <= i < n -> exists d v leaf,
    zget ds (i * g + k) = Some d /\ walk d x = Some (v, leaf) /\ zget vs i = Some v.

Lemma Forall2_zget : forall A B (R : A -> B -> Prop) a b, Forall2 R a b -> forall i x, zget a i = Some x -> exists y, zget b i = Some y /\ R x y.
Proof.
  intros A B R a b H. induction H as [|x0 y0 a b H0 H IH]; intros i x Hx.
  - apply zget_range in Hx. rewrite zlen_nil in Hx. lia.
  - destruct (Z.eq_dec i 0) as [->|].
    + rewrite zget_cons_0 in *. injection Hx as <-. eauto.
    + pose proof (zget_range _ _ _ _ Hx). rewrite zget_cons in * by lia. eauto.
Qed.
Lemma behaves_outputs : forall p ts ds g k n x vs, Forall2 (behaves p) ts ds -> Forall (fun d => exists r, walk d x = Some r) ds ->
  tree_outputs p ts g k n x vs -> walk_outputs ds g k n x vs.
Proof.
  intros p ts ds g k n x vs F W (Hl & H). split; auto. intros i Hi. destruct (H i Hi) as (t & v & leaf & Ht & Hp & Hv).
  destruct (Forall2_zget _ _ _ _ _ F _ _ Ht) as (d & Hd & _ & Hb). rewrite Forall_forall in W. destruct (W d (zget_in _ _ _ _ Hd)) as ([v' leaf'] & Hw).
  specialize (Hb x v' leaf' Hw). rewrite Hb in Hp. injection Hp as -> ->. eauto 8.
Qed.

Lemma loaded_wf : forall text p r load e, LGEnsembleFromReader p r load = Ok e -> rd_bytes r = text -> zlen text <= MaxInt ->
  well_formed e /\ NOutputGroups e <= MaxInt /\ (exists m, core (eBase e) = BLg m /\ eBase e = BLg m) /\ ~ wants_leaves e.
Proof.
  intros text p [s eof] load e H Es Hs. cbn [rd_bytes] in Es. subst s. unfold LGEnsembleFromReader in H.
  apply bind_ok in H. destruct H as ([ps r1] & Er & H). destruct (read_block_inv _ _ _ _ Er) as (kvs & Hb & _ & L).
  apply bind_ok in H. destruct H as ([m n] & Eh & H). apply (header_ok ps kvs m n L) in Eh. destruct Eh as (g & mf & avg & Hh & ->).
  apply bind_ok in H. destruct H as (tr & Et & H). cbn [lgAverageOutput lgNRawOutputGroups lgMaxFeatureIdx lgName] in *.
  apply (lg_transform_ok ps kvs load avg g tr L) in Et.
  apply bind_ok in H. destruct H as ([ts r2] & Ets & H). injection H as <-. pose proof (trees_read_length _ _ _ _ _ Ets) as Len.
  destruct Hh as [V (v1 & _ & A1) H2 G H3 (v & sizes & Ev & Ep & En) Hk Ha]. apply atoi_range in A1. apply parts_split in Ep. subst sizes.
  assert (Ln : 0 <= n <= MaxInt).
  { split; [rewrite En; apply zlen_nonneg|]. rewrite En. pose proof (split_tokens sp v) as (_ & J & _).
    assert (JL : forall l, zlen l <= zlen (join sp l) + 1).
    { induction l as [|a l IH]; [cbn [join]; unfold zlen; cbn [List.length]; lia|]. destruct l as [|b l].
      - cbn [join]. rewrite zlen_cons, zlen_nil. pose proof (zlen_nonneg _ a). lia.
      - cbn [join] in *. rewrite zlen_cons, zlen_app. rewrite (zlen_cons _ sp). pose proof (zlen_nonneg _ a). lia. }
    specialize (JL (split v [sp])). rewrite J in JL.
    assert (Lv : zlen v + 1 <= zlen text).
    { assert (LV : forall kvs k v, last_value kvs k = Some v -> exists kv, In kv kvs /\ snd kv = v).
      { induction kvs0 as [|[k' w] kvs0 IH]; intros k0 v0 Hv0; cbn [last_value] in Hv0; [discriminate|].
        destruct (last_value kvs0 k0) eqn:E0; [injection Hv0 as <-; destruct (IH _ _ E0) as (kv & I & E); exists kv; split; cbn; auto|].
        destruct (beqb k' k0); [|discriminate]. injection Hv0 as <-. exists (k', w). cbn. auto. }
      destruct (LV _ _ _ Ev) as ([k0 v0] & I0 & E0). cbn in E0. subst v0.
      assert (LS : forall l kv, line_says l kv -> zlen (snd kv) <= zlen l).
      { intros l kv Hl. pose proof (trim_space_shorter l). destruct Hl as [k v' E _ _|k E _]; apply trim_space_iff in E; cbn [snd].
        - rewrite E, zlen_app, zlen_cons in *. pose proof (zlen_nonneg _ k). lia.
        - rewrite zlen_nil. pose proof (zlen_nonneg _ l). lia. }
      assert (UL : forall ls kvs, Forall2 line_says ls kvs -> forall kv, In kv kvs -> zlen (snd kv) + 1 <= zlen (unlines ls)).
      { intros ls kvs0 F. induction F as [|l kv ls kvs0 F0 F IH]; intros kv0 I; [contradiction|]. rewrite unlines_cons, zlen_app, zlen_cons.
        destruct I as [<-|I]; [pose proof (LS _ _ F0); pose proof (zlen_nonneg _ (unlines ls)); lia|]. specialize (IH _ I). pose proof (zlen_nonneg _ l). lia. }
      destruct Hb as [lines kvs b rest N Ho Hbl Hsays Hnb Hbb|lines kvs last _ N Ho Hl Hnb C].
      - rewrite zlen_app. specialize (UL _ _ Hsays _ I0). cbn [snd] in UL. pose proof (zlen_nonneg _ (b ++ nl :: rest)). lia.
      - rewrite zlen_app. destruct C as [[_ C]|[B C]].
        + specialize (UL _ _ C _ I0). cbn [snd] in UL. pose proof (zlen_nonneg _ last). lia.
        + (* a value on the last line, which has no newline: the first line makes up for it *)
          apply Forall2_app_inv_l in C. destruct C as (k1 & k2 & C1 & C2 & ->). inversion C2 as [|? kv ? ? Hkv C3]; subst. inversion C3; subst.
          apply in_app_or in I0. destruct I0 as [I0|[I0|[]]]; [|subst kv].
          * assert (U1 : zlen v + 1 <= zlen (unlines lines)).
            { clear - C1 I0 LS. revert C1 I0. induction 1 as [|l kv' ls ks F0 F IH]; intros I; [contradiction|]. rewrite unlines_cons, zlen_app, zlen_cons.
              destruct I as [->|I]; [pose proof (LS _ _ F0); cbn [snd] in *; pose proof (zlen_nonneg _ (unlines ls)); lia|]. specialize (IH I). pose proof (zlen_nonneg _ l). lia. }
            pose proof (zlen_nonneg _ last). lia.
          * pose proof (LS _ _ Hkv) as K. cbn [snd] in K.
            destruct lines as [|l0 ls]; [contradiction|]. rewrite unlines_cons, zlen_app, zlen_cons. pose proof (zlen_nonneg _ l0). pose proof (zlen_nonneg _ (unlines ls)). lia. }
    lia. }
  assert (Lt : zlen ts = n) by (unfold zlen; lia).
  assert (W : well_formed (mkEnsemble (BLg (mkLgEnsemble ts mf g (model_name avg) avg)) tr)).
  { split; [|split].
    - change (1 <= g <= MaxInt). unfold MaxInt. lia.
    - change (zlen ts <= MaxInt). lia.
    - cbn [eTransform]. unfold transform_says in Et. destruct (load && negb avg).
      + destruct Et as (o & _ & M). destruct M; auto. lia.
      + subst tr. reflexivity. }
  split; [exact W|]. split; [|split].
  - unfold NOutputGroups. cbn [eTransform]. unfold transform_says in Et. unfold MaxInt. destruct (load && negb avg).
    + destruct Et as (o & _ & M). destruct M; cbn [NOutputGroups_t]; unfold two63 in *; lia.
    + subst tr. cbn [NOutputGroups_t]. lia.
  - eexists. split; reflexivity.
  - intros [k Hk']. cbn [eTransform] in Hk'. subst tr. unfold transform_says in Et. destruct (load && negb avg); [destruct Et as (o & _ & M); inversion M|discriminate].
Qed.

(** the predictions of a loaded file are those of the trees it describes *)
Theorem C28_text_predictions :
  forall p eof text rest header kvss groups max_feature_idx average load tr ds,
  file_says p eof text rest header kvss groups max_feature_idx average load tr ds -> zlen text <= MaxInt ->
  exists e, LGEnsembleFromReader p (mkReader text eof) load = Ok e /\
  forall x nEstimators predictions,
    Forall (fun d => exists r, walk d x = Some r) ds -> NFeatures e <= zlen x -> groups <= zlen predictions -> groups <= pl_maxalloc p ->
    exists out n, Predict p (EnsembleWithRawPredictions e) x nEstimators predictions = Ok out /\ used_estimators e nEstimators n /\
    forall k, 0 <= k < groups -> exists vs, walk_outputs ds groups k n x vs /\
      zget out k = Some (sum_from fzero (map (fun v => fmul v (if average then fdiv fone (f64_of_Z n) else fone)) vs)).
Proof.
  intros p eof text rest header kvss g mf avg load tr ds H Hm. destruct (file_loads _ _ _ _ _ _ _ _ _ _ _ _ H) as (ts & E & F).
  eexists. split; [exact E|]. intros x nE preds W Hf Hp Ha.
  set (e := mkEnsemble (BLg (mkLgEnsemble ts mf g (model_name avg) avg)) tr) in *.
  destruct (loaded_wf text _ _ _ _ E eq_refl Hm) as (Wf & _ & _ & _). set (e' := EnsembleWithRawPredictions e).
  assert (Wf' : well_formed e') by (destruct Wf as (W1 & W2 & _); split; [exact W1|split; [exact W2|reflexivity]]).
  destruct (Predict_returns p e' x nE preds Wf') as (out & Eo).
  - unfold evaluable. cbn. rewrite Forall_forall in W |- *. intros t It. apply in_zget in It. destruct It as (i & Hi).
    destruct (Forall2_zget _ _ _ _ _ F _ _ Hi) as (d & Hd & _ & Hb). destruct (W d (zget_in _ _ _ _ Hd)) as ([v leaf] & Hw). exists (v, leaf). apply Hb. exact Hw.
  - change (NOutputGroups e') with g. destruct Wf as ([_ W1] & _). exact W1.
  - exact Hp.
  - exact Hf.
  - exact Ha.
  - intros ([k K] & _). discriminate.
  - assert (R : raw_output e') by (exists g; reflexivity).
    assert (U : forall n, used_estimators e' nE n -> used_estimators e nE n) by (intros n U; exact U).
    exists out. destruct avg.
    + destruct (C12_average_output p e' _ x nE preds out Wf' R eq_refl eq_refl Eo) as (n & Hu & K). exists n. split; [exact Eo|]. split; [exact (U _ Hu)|].
      intros k Hk. destruct (K k Hk) as (vs & Ho & Hg). exists vs. split; [|exact Hg]. eapply behaves_outputs; eauto.
    + destruct (C11_raw_score_is_sum p e' _ x nE preds out Wf' R eq_refl eq_refl Eo) as (n & Hu & K). exists n. split; [exact Eo|]. split; [exact (U _ Hu)|].
      intros k Hk. destruct (K k Hk) as (vs & Ho & Hg). exists vs. split; [|exact Hg]. eapply behaves_outputs; eauto.
Qed.
Print Assumptions C28_text_predictions.

(** ** C29 *)

(** [n] iterations of the conversion loop *)
Inductive iterates (s : source) : nat -> bstate -> bstate -> Prop :=
| iter_O : forall b, iterates s O b b
| iter_S : forall n b b1 b2, build_step s b = Ok (Some b1) -> iterates s n b1 b2 -> iterates s (S n) b b2.

Lemma iterates_measure : forall s n b b', source_returns s -> iterates s n b b' -> (n + measure b' <= measure b)%nat.
Proof.
  intros s n b b' Hs H. induction H as [|n b b1 b2 Hst H IH]; [lia|]. destruct (step_measure s b Hs) as [_ K]. specialize (K _ Hst). lia.
Qed.

(** Whatever the child arrays hold, the loop makes at most twice as many iterations as there
    are declared nodes, plus one. *)
Theorem C29_loop_bounded :
  forall s declared root t n b, source_returns s -> 0 <= declared ->
  iterates s n (mkB [0] [0] (repeat false (Z.to_nat declared)) (tree_set_nodes t (tNodes t ++ [root]))) b ->
  Z.of_nat n <= 2 * declared + 1.
Proof.
  intros s dn root t n b Hs Hd H. apply iterates_measure in H; auto. unfold measure in H. cbn [b_orig b_visited] in H. rewrite falses_repeat in H. cbn in H. lia.
Qed.
Print Assumptions C29_loop_bounded.

(** the sources of the text loader return *)
Theorem C29_text_source_returns : forall p a, source_returns (lg_source p a).
Proof. exact lg_source_returns. Qed.

Lemma lgTreeFromParams_returns : forall p ps, lgTreeFromParams p ps <> Hang.
Proof.
  intros p ps. unfold lgTreeFromParams. apply bind_not_hang; [apply ToInt_not_hang|]. intros nc _. cbv zeta. apply bind_not_hang; [apply ToInt_not_hang|]. intros nl _.
  destruct (nl <? 1); [discriminate|]. apply bind_not_hang; [apply convert_not_hang|]. intros lv _. destruct (nl =? 1); [discriminate|].
  do 5 (apply bind_not_hang; [apply convert_not_hang|]; intros ? _).
  apply bind_not_hang.
  - destruct (0 <? nc); [|discriminate]. do 2 (apply bind_not_hang; [apply convert_not_hang|]; intros ? _). discriminate.
  - intros [[t ct] cb] _. destruct (_ <? _); [discriminate|]. apply build_returns. apply lg_source_returns.
Qed.

(** Loading any byte stream terminates. *)
Theorem C29_text_load_returns : forall p r load, LGEnsembleFromReader p r load <> Hang.
Proof.
  intros p r load. unfold LGEnsembleFromReader. apply bind_not_hang; [apply ReadParams_no_hang|]. intros [ps r1] _.
  apply bind_not_hang.
  { unfold lg_header. apply bind_not_hang.
    { unfold Compare. destruct (lookup ps (bs "version")); [|discriminate]. destruct (beqb b (bs "v2")); [discriminate|]. destruct (beqb b (bs "v3")); discriminate. }
    intros _ _. do 2 (apply bind_not_hang; [apply ToInt_not_hang|]; intros ? _). repeat (destruct (_ =? _) || destruct (_ <? _); cbn [negb]; try discriminate).
    all: apply bind_not_hang; [apply ToInt_not_hang|]; intros ? _; cbv zeta; destruct (lookup ps (bs "tree_sizes")); try discriminate; destruct (_ =? 0); try discriminate; destruct (_ =? 0); discriminate. }
  intros [e n] _. apply bind_not_hang.
  { unfold lg_transform. destruct (load && _); [|discriminate]. apply bind_not_hang; [unfold ToString; destruct (lookup _ _); discriminate|]. intros o _.
    destruct (_ || _); [discriminate|]. destruct (negb _); [|discriminate]. apply bind_not_hang.
    - unfold lgObjectiveParse. destruct (split o [sp]) as [|? [|p0 [|]]]; try discriminate. destruct (split p0 _) as [|? [|v0 [|]]]; try discriminate. destruct (atoi v0); discriminate.
    - intros ob _. destruct (_ && _); [destruct (negb _); discriminate|]. destruct (_ && _); [destruct (negb _); discriminate|discriminate]. }
  intros tr _. apply bind_not_hang.
  { generalize (Z.to_nat n). intros k. revert r1. induction k as [|k IH]; intros r1; cbn [lg_read_trees]; [discriminate|].
    apply bind_not_hang. { unfold lgTreeFromReader. apply bind_not_hang; [apply ReadParams_no_hang|]. intros [ps' r'] _. apply bind_not_hang; [apply lgTreeFromParams_returns|]. discriminate. }
    intros [t r'] _. apply bind_not_hang; [apply IH|]. intros [ts r''] _. discriminate. }
  intros [ts r2] _. discriminate.
Qed.
Print Assumptions C29_text_load_returns.

(** ** C31 and C33: what a successful load implies *)
Theorem C31_header :
  forall p text eof load e, LGEnsembleFromReader p (mkReader text eof) load = Ok e ->
  exists header rest groups max_feature_idx trees average k,
    block eof text header rest /\ header_says header groups max_feature_idx trees average /\
    zlen (model_trees e) = trees /\ trees = k * groups /\ 1 <= k /\
    NEstimators e = Ok k /\ NRawOutputGroups e = groups /\
    Name e = (if average then bs "lightgbm.rf" else bs "lightgbm.gbdt").
Proof.
  intros p text eof load e H. unfold LGEnsembleFromReader in H.
  apply bind_ok in H. destruct H as ([ps r1] & Er & H). destruct (read_block_inv _ _ _ _ Er) as (kvs & Hb & _ & L).
  apply bind_ok in H. destruct H as ([m n] & Eh & H). apply (header_ok ps kvs m n L) in Eh. destruct Eh as (g & mf & avg & Hh & ->).
  apply bind_ok in H. destruct H as (tr & Et & H). cbn [lgAverageOutput lgNRawOutputGroups lgMaxFeatureIdx lgName] in *.
  apply bind_ok in H. destruct H as ([ts r2] & Ets & H). injection H as <-. pose proof (trees_read_length _ _ _ _ _ Ets) as Len.
  pose proof Hh as [V H1 H2 G H3 (v & sizes & Ev & Ps & En) (k & Ek) Ha]. apply parts_split in Ps. pose proof (split_pos v sp) as Hp. rewrite Ps in Hp.
  assert (Lt : zlen ts = n) by (unfold zlen; lia).
  assert (Hk : 1 <= k) by nia.
  exists kvs, (rd_bytes r1), g, mf, n, avg, k. split; [auto|]. split; [exact Hh|]. split; [exact Lt|]. split; [auto|]. split; [auto|]. split; [|split; reflexivity].
  unfold NEstimators. cbn [eBase b_NEstimators lgTrees lgNRawOutputGroups]. unfold trees_NEstimators, go_div. replace (g =? 0) with false by lia. f_equal.
  rewrite Lt, Ek. rewrite Z.quot_div_nonneg by nia. apply Z.div_mul. lia.
Qed.
Print Assumptions C31_header.

(** conversely a bad header is an error, whatever follows *)
Theorem C31_bad_header :
  forall p text eof load header rest, block eof text header rest ->
  (forall groups max_feature_idx trees average, ~ header_says header groups max_feature_idx trees average) ->
  exists msg, LGEnsembleFromReader p (mkReader text eof) load = Err msg.
Proof.
  intros p text eof load header rest Hb Hn. destruct (read_block _ _ _ _ Hb) as (ps & Er & L). unfold LGEnsembleFromReader. rewrite Er. cbn [bind].
  destruct (lg_header ps) as [[m n]|s|s|] eqn:Eh.
  - apply (header_ok ps header m n L) in Eh. destruct Eh as (g & mf & avg & Hh & _). exfalso. eapply Hn; eauto.
  - cbn [bind]. eauto.
  - exfalso. revert Eh. unfold lg_header. clear.
    assert (TI : forall ps k s, ToInt ps k <> Panic s) by (intros ps' k s'; unfold ToInt; destruct (lookup ps' k) as [w|]; [destruct (atoi w)|]; discriminate).
    assert (BP : forall A B (x : outcome A) (f : A -> outcome B) s, (forall s, x <> Panic s) -> (forall a s, f a <> Panic s) -> bind x f <> Panic s).
    { intros A B x f s' Hx Hf. destruct x; cbn [bind]; auto; try discriminate. exfalso. eapply Hx; eauto. }
    apply BP.
    { intros s'. unfold Compare. destruct (lookup ps (bs "version")); [|discriminate]. destruct (beqb b (bs "v2")); [discriminate|]. destruct (beqb b (bs "v3")); discriminate. }
    intros _ s1. apply BP; [auto|]. intros g s2. apply BP; [auto|]. intros g' s3. repeat (destruct (_ =? _) || destruct (_ <? _); cbn [negb]; try discriminate).
    all: apply BP; [auto|]; intros mf s4; cbv zeta; destruct (lookup ps (bs "tree_sizes")); try discriminate; destruct (_ =? 0); try discriminate; destruct (_ =? 0); discriminate.
  - exfalso. revert Eh. unfold lg_header. apply bind_not_hang.
    { unfold Compare. destruct (lookup ps (bs "version")); [|discriminate]. destruct (beqb b (bs "v2")); [discriminate|]. destruct (beqb b (bs "v3")); discriminate. }
    intros _ _. do 2 (apply bind_not_hang; [apply ToInt_not_hang|]; intros ? _). repeat (destruct (_ =? _) || destruct (_ <? _); cbn [negb]; try discriminate).
    all: apply bind_not_hang; [apply ToInt_not_hang|]; intros ? _; cbv zeta; destruct (lookup ps (bs "tree_sizes")); try discriminate; destruct (_ =? 0); try discriminate; destruct (_ =? 0); discriminate.
Qed.
Print Assumptions C31_bad_header.

Theorem C33_objective :
  forall p text eof load e, LGEnsembleFromReader p (mkReader text eof) load = Ok e ->
  exists header rest groups max_feature_idx trees average,
    block eof text header rest /\ header_says header groups max_feature_idx trees average /\
    transform_says header load average groups (Transformation_ e).
Proof.
  intros p text eof load e H. unfold LGEnsembleFromReader in H.
  apply bind_ok in H. destruct H as ([ps r1] & Er & H). destruct (read_block_inv _ _ _ _ Er) as (kvs & Hb & _ & L).
  apply bind_ok in H. destruct H as ([m n] & Eh & H). apply (header_ok ps kvs m n L) in Eh. destruct Eh as (g & mf & avg & Hh & ->).
  apply bind_ok in H. destruct H as (tr & Et & H). cbn [lgAverageOutput lgNRawOutputGroups lgMaxFeatureIdx lgName] in *.
  apply bind_ok in H. destruct H as ([ts r2] & Ets & H). injection H as <-.
  exists kvs, (rd_bytes r1), g, mf, n, avg. split; [auto|]. split; [auto|]. apply (lg_transform_ok ps kvs load avg g tr L). auto.
Qed.
Print Assumptions C33_objective.

Theorem C33_unknown_objective :
  forall p text eof header rest groups max_feature_idx trees,
  block eof text header rest -> header_says header groups max_feature_idx trees false ->
  (forall o t, last_value header (bs "objective") = Some o -> ~ objective_means groups o t) ->
  exists msg, LGEnsembleFromReader p (mkReader text eof) true = Err msg.
Proof.
  intros p text eof header rest g mf n Hb Hh Hn. destruct (read_block _ _ _ _ Hb) as (ps & Er & L). unfold LGEnsembleFromReader. rewrite Er. cbn [bind].
  assert (Eh : lg_header ps = Ok (mkLgEnsemble [] mf g (model_name false) false, n)) by (apply (header_ok ps header _ _ L); eauto 6).
  rewrite Eh. cbn [bind lgAverageOutput lgNRawOutputGroups].
  destruct (lg_transform ps true false g) as [t|s|s|] eqn:Et.
  - apply (lg_transform_ok ps header true false g t L) in Et. destruct Et as (o & Ho & M). exfalso. eapply Hn; eauto.
  - cbn [bind]. eauto.
  - exfalso. revert Et. unfold lg_transform, ToString. cbn [andb negb]. destruct (lookup ps (bs "objective")) as [o|]; [|discriminate]. cbn [bind]. destruct (_ || _); [discriminate|]. destruct (negb _); [|discriminate].
    unfold lgObjectiveParse. destruct (split o [sp]) as [|? [|p0 [|]]]; try discriminate. destruct (split p0 _) as [|? [|v0 [|]]]; try discriminate. destruct (atoi v0); [|discriminate]. cbn [bind].
    destruct (_ && _); [destruct (negb _); discriminate|]. destruct (_ && _); [destruct (negb _); discriminate|discriminate].
  - exfalso. revert Et. unfold lg_transform, ToString. cbn [andb negb]. destruct (lookup ps (bs "objective")) as [o|]; [|discriminate]. cbn [bind]. destruct (_ || _); [discriminate|]. destruct (negb _); [|discriminate].
    unfold lgObjectiveParse. destruct (split o [sp]) as [|? [|p0 [|]]]; try discriminate. destruct (split p0 _) as [|? [|v0 [|]]]; try discriminate. destruct (atoi v0); [|discriminate]. cbn [bind].
    destruct (_ && _); [destruct (negb _); discriminate|]. destruct (_ && _); [destruct (negb _); discriminate|discriminate].
Qed.
Print Assumptions C33_unknown_objective.

(** ** C30 and C41: evaluating what was loaded *)

(** For files of proper trees whose features are numbered up to max_feature_idx >= 1, a
    vector of NFeatures() values suffices and prediction returns. *)
Theorem C30_proper_file_predicts_partial :
  forall p eof text rest header kvss groups max_feature_idx average load tr ds,
  file_says p eof text rest header kvss groups max_feature_idx average load tr ds -> zlen text <= MaxInt ->
  1 <= max_feature_idx < MaxInt -> Forall (features_below (max_feature_idx + 1)) ds ->
  exists e, LGEnsembleFromReader p (mkReader text eof) load = Ok e /\ NFeatures e = max_feature_idx + 1 /\
  forall x nEstimators predictions,
    NFeatures e <= zlen x -> NOutputGroups e <= zlen predictions -> groups <= pl_maxalloc p ->
    exists out, Predict p e x nEstimators predictions = Ok out.
Proof.
  intros p eof text rest header kvss g mf avg load tr ds H Hm Hmf Hds. destruct (file_loads _ _ _ _ _ _ _ _ _ _ _ _ H) as (ts & E & F).
  eexists. split; [exact E|]. set (e := mkEnsemble (BLg (mkLgEnsemble ts mf g (model_name avg) avg)) tr) in *.
  assert (Nf : NFeatures e = mf + 1).
  { unfold NFeatures. cbn [eBase e b_NFeatures lgMaxFeatureIdx]. unfold trees_NFeatures. replace (0 <? mf) with true by lia. apply s64_id. unfold MaxInt, two63 in *. lia. }
  split; [exact Nf|]. intros x nE preds Hx Hp Ha. destruct (loaded_wf text _ _ _ _ E eq_refl Hm) as (Wf & Ho & _ & Nl).
  apply (Predict_returns p e x nE preds Wf); auto.
  - unfold evaluable. cbn. rewrite Forall_forall in Hds |- *. intros t It. apply in_zget in It. destruct It as (i & Hi).
    destruct (Forall2_zget _ _ _ _ _ F _ _ Hi) as (d & Hd & _ & Hb).
    assert (Fb : features_below (zlen x) d).
    { specialize (Hds d (zget_in _ _ _ _ Hd)). rewrite Nf in Hx. clear - Hds Hx. induction d as [|f ts l IHl r IHr]; cbn [features_below] in *; auto. destruct Hds as (? & ? & ?). repeat split; auto; lia. }
    destruct (walk_defined d (zlen x) x Fb eq_refl) as ([v leaf] & Hw). exists (v, leaf). apply Hb. exact Hw.
  - intros [K _]. contradiction.
Qed.
Print Assumptions C30_proper_file_predicts_partial.

Definition lg_head (max_feature_idx : string) : list string :=
  ["tree"; "version=v3"; "num_class=1"; "num_tree_per_iteration=1"; String.append "max_feature_idx=" max_feature_idx; "objective=regression"; "tree_sizes=100"; ""]%string.
Definition cyclic_file : bytes := file (lg_head "1" ++
  ["Tree=0"; "num_leaves=2"; "num_cat=0"; "split_feature=0"; "threshold=5"; "decision_type=0"; "left_child=0"; "right_child=-1"; "leaf_value=1 2"; ""]%string).
Definition shared_file : bytes := file (lg_head "1" ++
  ["Tree=0"; "num_leaves=4"; "num_cat=0"; "split_feature=0 1 1"; "threshold=5 1 2"; "decision_type=0 0 0"; "left_child=1 2 -1"; "right_child=1 -2 -3"; "leaf_value=1 2 3 4"; ""]%string).
Definition wide_file : bytes := file (lg_head "1" ++
  ["Tree=0"; "num_leaves=2"; "num_cat=0"; "split_feature=7"; "threshold=5"; "decision_type=0"; "left_child=-1"; "right_child=-2"; "leaf_value=1 2"; ""]%string).
Definition one_feature_file : bytes := file (lg_head "0" ++
  ["Tree=0"; "num_leaves=2"; "num_cat=0"; "split_feature=0"; "threshold=5"; "decision_type=0"; "left_child=-1"; "right_child=-2"; "leaf_value=1 2"; ""]%string).

(** A node that is its own left child loads without error; prediction never returns. *)
Theorem C30_cyclic_refuted :
  exists e, LGEnsembleFromReader amd64_text (mkReader cyclic_file true) false = Ok e /\ NFeatures e = 2 /\
    Predict amd64_text e [fint 0; fint 0] 0 [fzero] = Hang.
Proof. eexists. split; [vm_compute; reflexivity|]. split; vm_compute; reflexivity. Qed.
Print Assumptions C30_cyclic_refuted.

(** A node shared by two parents loads without error; prediction does not return either:
    the left link of the root is never filled in and leads back to the root. *)
Theorem C30_shared_refuted :
  exists e, LGEnsembleFromReader amd64_text (mkReader shared_file true) false = Ok e /\ NFeatures e = 2 /\
    Predict amd64_text e [fint 0; fint 0] 0 [fzero] = Hang.
Proof. eexists. split; [vm_compute; reflexivity|]. split; vm_compute; reflexivity. Qed.
Print Assumptions C30_shared_refuted.

(** A feature number above max_feature_idx is not noticed by the loader; prediction panics. *)
Theorem C41_feature_above_max_refuted :
  exists e, LGEnsembleFromReader amd64_text (mkReader wide_file true) false = Ok e /\ NFeatures e = 2 /\
    exists m, Predict amd64_text e [fint 0; fint 0] 0 [fzero] = Panic m.
Proof. eexists. split; [vm_compute; reflexivity|]. split; [vm_compute; reflexivity|]. eexists. vm_compute. reflexivity. Qed.
Print Assumptions C41_feature_above_max_refuted.

(** A model with one feature reports none: Predict accepts an empty vector and panics, and
    the CSR loop, which allocates NFeatures() values per row, panics on every input. *)
Theorem C41_single_feature_refuted :
  exists e, LGEnsembleFromReader amd64_text (mkReader one_feature_file true) false = Ok e /\ NFeatures e = 0 /\
    (exists m, Predict amd64_text e [] 0 [fzero] = Panic m) /\
    (exists m, csr_single amd64_text e [0; 1] [0] [fint 3] [fzero] 1 = Panic m) /\
    exists out, Predict amd64_text e [fint 3] 0 [fzero] = Ok out.
Proof. eexists. split; [vm_compute; reflexivity|]. split; [vm_compute; reflexivity|]. split; [eexists; vm_compute; reflexivity|]. split; eexists; vm_compute; reflexivity. Qed.
Print Assumptions C41_single_feature_refuted.
