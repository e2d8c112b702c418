(** * Loading LightGBM JSON models (C29, C34, C35, C57) *)

From Coq Require Import ZArith List Bool String Lia ZifyBool.
From Verif Require Import Go GoFloat GoText UtilBits UtilText LgTree TreeBuild Transformation Ensembles Leaves LgTextIO LgJsonIO Parallel
  Spec_Predict Spec_Split Spec_Tree Spec_LgText Spec_Params Spec_LgFile Spec_LgJson
  Pf_Go Pf_Bits Pf_Leaves Pf_Build Pf_Placed Pf_Append Pf_Text Pf_Words Pf_LgFile Pf_LgJson Pf_LgJsonTree
  Pf_Rows Prop_Batch Prop_Values Pf_Returns Prop_LgText Prop_Xg Prop_Sk.
Local Open Scope Z_scope.

(** ** C34: one tree *)
Theorem C34_json_tree :
  forall p v num_leaves d,
  json_tree_says (pl_parse_float p) (f2i32 p) v num_leaves d -> num_leaves - 1 <= pl_maxalloc p -> 2 ^ 26 <= pl_maxalloc p ->
  exists T ren, unmarshalTree p v = Ok T /\ nLeaves T = zlen (leaves_of d) /\ renumbers d ren /\
    forall x value leaf, walk d x = Some (value, leaf) -> predict p T x = Ok (value, ren leaf).
Proof.
  intros p v nl d H Ha Hb. destruct (json_tree_loads p v nl d H Ha Hb) as (T & ET & L & ren & R & W). exists T, ren. auto.
Qed.
Print Assumptions C34_json_tree.

(** ** The header *)
Section Header.
  Lemma keep_name : forall n n' k w, forallb plain_char k = true -> k <> bs "name" -> store_ensemble n (k, w) = Ok n' -> ej_Name n' = ej_Name n.
  Proof. keep_tac. Qed.
  Lemma keep_version : forall n n' k w, forallb plain_char k = true -> k <> bs "version" -> store_ensemble n (k, w) = Ok n' -> ej_Version n' = ej_Version n.
  Proof. keep_tac. Qed.
  Lemma keep_class : forall n n' k w, forallb plain_char k = true -> k <> bs "num_class" -> store_ensemble n (k, w) = Ok n' -> ej_NumClasses n' = ej_NumClasses n.
  Proof. keep_tac. Qed.
  Lemma keep_per : forall n n' k w, forallb plain_char k = true -> k <> bs "num_tree_per_iteration" -> store_ensemble n (k, w) = Ok n' -> ej_NumTreesPerIteration n' = ej_NumTreesPerIteration n.
  Proof. keep_tac. Qed.
  Lemma keep_max : forall n n' k w, forallb plain_char k = true -> k <> bs "max_feature_idx" -> store_ensemble n (k, w) = Ok n' -> ej_MaxFeatureIdx n' = ej_MaxFeatureIdx n.
  Proof. keep_tac. Qed.
  Lemma keep_trees : forall n n' k w, forallb plain_char k = true -> k <> bs "tree_info" -> store_ensemble n (k, w) = Ok n' -> ej_Trees n' = ej_Trees n.
  Proof. keep_tac. Qed.
End Header.

Definition ej_zero : lgEnsembleJSON := mkEnsembleJSON [] [] 0 0 0 [].

Lemma decode_header : forall v g mf trees, json_header_says v g mf trees ->
  dec_struct store_ensemble ej_zero v = Ok (mkEnsembleJSON (bs "tree") (bs "v2") g g mf trees).
Proof.
  intros v g mf trees (l & lit1 & lit2 & lit3 & -> & P & I1 & I2 & I3 & E3 & I4 & E4 & I5 & E5 & I6 & _). apply int64_iff in E3, E4, E5.
  assert (OK : exists n, foldM store_ensemble l ej_zero = Ok n).
  { apply (foldM_ok _ _ store_ensemble (fun kv => In kv l)); [|apply Forall_forall; auto].
    intros [a b c d e f] [k v] I. destruct P as [ND Pc]. pose proof (Pc k v I) as Hk. unfold store_ensemble. cbv beta iota zeta.
    repeat match goal with |- context [if key_is k ?nm then _ else _] => destruct (key_is k nm) eqn:? end;
      try match goal with K : key_is k _ = true |- _ => rewrite key_is_plain in K by (auto || reflexivity); apply beqb_eq in K; subst k end; eauto.
    - rewrite (plain_unique _ l _ v _ (conj ND Pc) I I1). cbn [dec_string bind]. eauto.
    - rewrite (plain_unique _ l _ v _ (conj ND Pc) I I2). cbn [dec_string bind]. eauto.
    - rewrite (plain_unique _ l _ v _ (conj ND Pc) I I3). unfold dec_num. rewrite E3. cbn [bind]. eauto.
    - rewrite (plain_unique _ l _ v _ (conj ND Pc) I I4). unfold dec_num. rewrite E4. cbn [bind]. eauto.
    - rewrite (plain_unique _ l _ v _ (conj ND Pc) I I5). unfold dec_num. rewrite E5. cbn [bind]. eauto.
    - rewrite (plain_unique _ l _ v _ (conj ND Pc) I I6). cbn [dec_slice bind]. eauto. }
  destruct OK as [[a b c d e f] E]. unfold dec_struct. rewrite E. f_equal.
  pose proof (fold_field _ _ _ ej_Name _ keep_name l _ ej_zero (mkEnsembleJSON a b c d e f) (fun z => z = bs "tree") P I1) as F1.
  pose proof (fold_field _ _ _ ej_Version _ keep_version l _ ej_zero (mkEnsembleJSON a b c d e f) (fun z => z = bs "v2") P I2) as F2.
  pose proof (fold_field _ _ _ ej_NumClasses _ keep_class l _ ej_zero (mkEnsembleJSON a b c d e f) (fun z => z = g) P I3) as F3.
  pose proof (fold_field _ _ _ ej_NumTreesPerIteration _ keep_per l _ ej_zero (mkEnsembleJSON a b c d e f) (fun z => z = g) P I4) as F4.
  pose proof (fold_field _ _ _ ej_MaxFeatureIdx _ keep_max l _ ej_zero (mkEnsembleJSON a b c d e f) (fun z => z = mf) P I5) as F5.
  pose proof (fold_field _ _ _ ej_Trees _ keep_trees l _ ej_zero (mkEnsembleJSON a b c d e f) (fun z => z = trees) P I6) as F6.
  specialize (fun H => F1 H E). specialize (fun H => F2 H E). specialize (fun H => F3 H E). specialize (fun H => F4 H E). specialize (fun H => F5 H E). specialize (fun H => F6 H E).
  cbn [ej_Name ej_Version ej_NumClasses ej_NumTreesPerIteration ej_MaxFeatureIdx ej_Trees] in *.
  rewrite F1, F2, F3, F4, F5, F6; auto; intros [? ? ? ? ? ?] n1 S; cbn in S; rewrite ?E3, ?E4, ?E5 in S; injection S as <-; reflexivity.
Qed.

(** ** C34: a whole model *)
Section File.
Variables (p : platform) (v : json) (groups max_feature_idx : Z) (trees : list json) (ds : list dtree).
(** the model: a proper header and the trees [ds] *)
Definition json_model_says : Prop :=
  json_header_says v groups max_feature_idx trees /\
  Forall2 (fun t d => exists num_leaves, json_tree_says (pl_parse_float p) (f2i32 p) t num_leaves d /\ num_leaves - 1 <= pl_maxalloc p) trees ds.

Lemma json_model_loads : json_model_says -> 2 ^ 26 <= pl_maxalloc p -> exists ts,
  LGEnsembleFromJSON p (Some v) false = Ok (mkEnsemble (BLg (mkLgEnsemble ts max_feature_idx groups (bs "lightgbm.gbdt") false)) (TransformRaw groups)) /\
  Forall2 (behaves_upto p) ts ds.
Proof.
  intros [H F] Hb. unfold LGEnsembleFromJSON. change (mkEnsembleJSON [] [] 0 0 0 []) with ej_zero. rewrite (decode_header _ _ _ _ H).
  cbn [bind ej_Name ej_Version ej_NumClasses ej_NumTreesPerIteration ej_MaxFeatureIdx ej_Trees]. rewrite !beqb_refl. cbn [negb]. rewrite Z.eqb_refl. cbn [negb].
  destruct H as (l & lit1 & lit2 & lit3 & _ & _ & _ & _ & _ & _ & _ & _ & _ & _ & _ & G & N & M).
  replace (groups <? 1) with false by lia. cbv zeta. replace (zlen trees =? 0) with false by lia.
  rewrite Z.rem_mod_nonneg by lia. rewrite M. cbn [Z.eqb negb].
  destruct (mapM_Forall2 _ _ _ (unmarshalTree p) (behaves_upto p) trees ds) as (ts & Ets & Hts).
  { clear -F Hb. induction F as [|t d trees ds (nl & Ht & Ha) F IH]; constructor; auto. eapply json_tree_loads; eauto. }
  rewrite Ets. cbn [bind]. exists ts. auto.
Qed.
End File.

Theorem C34_json_file :
  forall p v groups max_feature_idx trees ds,
  json_model_says p v groups max_feature_idx trees ds -> 2 ^ 26 <= pl_maxalloc p ->
  exists e, LGEnsembleFromJSON p (Some v) false = Ok e /\
    NRawOutputGroups e = groups /\ Transformation_ e = TransformRaw groups /\ NEstimators e = Ok (zlen trees / groups) /\
    Forall2 (fun T d => nLeaves T = zlen (leaves_of d) /\
                        exists ren, renumbers d ren /\ forall x value leaf, walk d x = Some (value, leaf) -> predict p T x = Ok (value, ren leaf))
            (model_trees e) ds.
Proof.
  intros p v g mf trees ds H Hb. destruct (json_model_loads _ _ _ _ _ _ H Hb) as (ts & E & F).
  eexists. split; [exact E|]. split; [reflexivity|]. split; [reflexivity|]. split; [|exact F].
  destruct H as ((l & lit1 & lit2 & lit3 & _ & _ & _ & _ & _ & _ & _ & _ & _ & _ & _ & G & N & M) & Ft).
  unfold NEstimators. cbn [eBase b_NEstimators lgTrees lgNRawOutputGroups]. unfold trees_NEstimators, go_div. replace (g =? 0) with false by lia.
  assert (A : forall X Y (R : X -> Y -> Prop) a b, Forall2 R a b -> zlen a = zlen b) by (intros X Y R a b K; induction K; [reflexivity|rewrite (zlen_cons _ x), (zlen_cons _ y); lia]).
  rewrite (A _ _ _ _ _ F), <- (A _ _ _ _ _ Ft). f_equal. apply Z.quot_div_nonneg; lia.
Qed.
Print Assumptions C34_json_file.

Lemma upto_outputs : forall p ts ds g k n x vs, Forall2 (behaves_upto p) ts ds -> Forall (fun d => exists r, walk d x = Some r) ds ->
  tree_outputs p ts g k n x vs -> walk_outputs ds g k n x vs.
Proof.
  intros p ts ds g k n x vs F W (Hl & H). split; auto. intros i Hi. destruct (H i Hi) as (t & v & leaf & Ht & Hp & Hv).
  destruct (Forall2_zget _ _ _ _ _ F _ _ Ht) as (d & Hd & _ & ren & _ & Hb). rewrite Forall_forall in W. destruct (W d (zget_in _ _ _ _ Hd)) as ([v' leaf'] & Hw).
  specialize (Hb x v' leaf' Hw). rewrite Hb in Hp. injection Hp as -> <-. eauto 8.
Qed.

(** the raw scores are the sums of what the trees give *)
Theorem C34_json_predictions :
  forall p v groups max_feature_idx trees ds,
  json_model_says p v groups max_feature_idx trees ds -> 2 ^ 26 <= pl_maxalloc p -> zlen trees <= MaxInt ->
  exists e, LGEnsembleFromJSON p (Some v) false = Ok e /\
  forall x nEstimators predictions,
    Forall (fun d => exists r, walk d x = Some r) ds -> NFeatures e <= zlen x -> groups <= zlen predictions -> groups <= pl_maxalloc p ->
    exists out n, Predict p e x nEstimators predictions = Ok out /\ used_estimators e nEstimators n /\
    forall k, 0 <= k < groups -> exists vs, walk_outputs ds groups k n x vs /\ zget out k = Some (sum_from fzero (map (fun v => fmul v fone) vs)).
Proof.
  intros p v g mf trees ds H Hb Hm. destruct (json_model_loads _ _ _ _ _ _ H Hb) as (ts & E & F).
  eexists. split; [exact E|]. intros x nE preds W Hf Hp Ha.
  set (e := mkEnsemble _ _) in *.
  destruct H as ((l & lit1 & lit2 & lit3 & _ & _ & _ & _ & _ & AT & _ & _ & _ & _ & _ & G & N & M) & Ft). apply atoi_range in AT.
  assert (A : forall X Y (R : X -> Y -> Prop) a b, Forall2 R a b -> zlen a = zlen b) by (intros X Y R a b K; induction K; [reflexivity|rewrite (zlen_cons _ x0), (zlen_cons _ y); lia]).
  assert (Wf : well_formed e).
  { split; [|split].
    - change (1 <= g <= MaxInt). unfold MaxInt. lia.
    - change (zlen ts <= MaxInt). rewrite (A _ _ _ _ _ F), <- (A _ _ _ _ _ Ft). auto.
    - reflexivity. }
  destruct (Predict_returns p e x nE preds Wf) as (out & Eo); auto.
  - unfold evaluable. cbn. rewrite Forall_forall in W |- *. intros t It. apply in_zget in It. destruct It as (i & Hi).
    destruct (Forall2_zget _ _ _ _ _ F _ _ Hi) as (d & Hd & _ & ren & _ & Hbv). destruct (W d (zget_in _ _ _ _ Hd)) as ([v' leaf] & Hw). exists (v', ren leaf). apply Hbv. exact Hw.
  - change (g <= MaxInt). unfold MaxInt. lia.
  - intros ([k K] & _). discriminate.
  - assert (R : raw_output e) by (exists g; reflexivity). exists out.
    destruct (C11_raw_score_is_sum p e _ x nE preds out Wf R eq_refl eq_refl Eo) as (n & Hu & K). exists n. split; [exact Eo|]. split; [exact Hu|].
    intros k Hk. destruct (K k Hk) as (vs & Ho & Hg). exists vs. split; [|exact Hg]. eapply upto_outputs; eauto.
Qed.
Print Assumptions C34_json_predictions.

(** ** C29: every load returns *)
Lemma dec_iface_not_hang : forall p v, dec_iface p v <> Hang.
Proof. intros p v. unfold dec_iface. destruct (negb _); [discriminate|]. destruct v; try discriminate. destruct (pl_parse_float p literal); discriminate. Qed.
Lemma dec_num_not_hang : forall parse v old, dec_num parse v old <> Hang.
Proof. intros parse v old. destruct v; cbn; try discriminate. destruct (parse literal); discriminate. Qed.
Lemma store_node_not_hang : forall p n kv, store_node p n kv <> Hang.
Proof.
  intros p [a b c d e f g h] [k v]. unfold store_node.
  repeat match goal with |- context [if key_is k ?nm then _ else _] => destruct (key_is k nm) end; try discriminate;
    apply bind_not_hang; try (intros; discriminate); try apply dec_iface_not_hang; try apply dec_num_not_hang; destruct v; discriminate.
Qed.
Lemma dec_struct_not_hang : forall A (store : A -> bytes * json -> outcome A) zero v, (forall n kv, store n kv <> Hang) -> dec_struct store zero v <> Hang.
Proof. intros A store zero v H. destruct v; cbn [dec_struct]; try discriminate. apply foldM_not_hang. auto. Qed.
Lemma leaf_value_not_hang : forall p v, leaf_value p v <> Hang.
Proof.
  intros p v. unfold leaf_value. destruct (negb _); [discriminate|]. destruct v; try discriminate. destruct (map_value members _); [|discriminate].
  apply bind_not_hang; [apply dec_iface_not_hang|]. intros [|?|?|]; discriminate.
Qed.

Lemma children_members : forall p l n n', foldM (store_node p) l n = Ok n' ->
  (forall c, nj_LeftChildRaw n' = Some c -> nj_LeftChildRaw n = Some c \/ exists k, In (k, c) l) /\
  (forall c, nj_RightChildRaw n' = Some c -> nj_RightChildRaw n = Some c \/ exists k, In (k, c) l).
Proof.
  intros p l. induction l as [|[k v] l IH]; intros n n' E; cbn [foldM] in E; [injection E as <-; auto|].
  apply bind_ok in E. destruct E as (n1 & E1 & E). destruct (IH _ _ E) as [HL HR].
  assert (S : (nj_LeftChildRaw n1 = nj_LeftChildRaw n \/ nj_LeftChildRaw n1 = Some v) /\ (nj_RightChildRaw n1 = nj_RightChildRaw n \/ nj_RightChildRaw n1 = Some v)).
  { destruct n as [a b c d e f g h]. unfold store_node in E1.
    repeat match type of E1 with (if key_is k ?nm then _ else _) = _ => destruct (key_is k nm) end;
      repeat (apply bind_ok in E1; destruct E1 as (? & ? & E1)); injection E1 as <-; cbn; auto. }
  destruct S as [S1 S2]. split; intros c Hc; [destruct (HL c Hc) as [Q|[k' Q]]|destruct (HR c Hc) as [Q|[k' Q]]]; try (right; exists k'; right; exact Q).
  - destruct S1 as [S1|S1]; rewrite S1 in Q; auto. injection Q as <-. right. exists k. left. reflexivity.
  - destruct S2 as [S2|S2]; rewrite S2 in Q; auto. injection Q as <-. right. exists k. left. reflexivity.
Qed.

Lemma unmarshal_node_returns : forall p fuel raw, (match raw with Some v => S (jdepth v) | None => O end < fuel)%nat -> unmarshal_node p fuel raw <> Hang.
Proof.
  intros p. induction fuel as [|fuel IH]; intros raw Hf; [lia|]. cbn [unmarshal_node]. destruct raw as [v|]; [|discriminate].
  destruct (dec_struct (store_node p) node_zero v) as [n|m|m|] eqn:E; cbn [bind]; try discriminate.
  - destruct (beqb (nj_MissingType n) []) eqn:B; [apply bind_not_hang; [apply leaf_value_not_hang|discriminate]|].
    assert (C : forall c, nj_LeftChildRaw n = Some c \/ nj_RightChildRaw n = Some c -> (jdepth c < jdepth v)%nat).
    { intros c Hc. destruct v as [| | | | |l]; cbn [dec_struct] in E; try discriminate.
      - injection E as <-. discriminate.
      - destruct (children_members _ _ _ _ E) as [HL HR]. destruct Hc as [Hc|Hc]; [destruct (HL c Hc) as [Q|[k Q]]|destruct (HR c Hc) as [Q|[k Q]]]; try discriminate; eapply jdepth_member; eauto. }
    apply bind_not_hang; [|intros lc _; apply bind_not_hang; [|discriminate]].
    + apply IH. destruct (nj_LeftChildRaw n) as [c|]; [specialize (C c (or_introl eq_refl))|]; lia.
    + apply IH. destruct (nj_RightChildRaw n) as [c|]; [specialize (C c (or_intror eq_refl))|]; lia.
  - exfalso. apply (dec_struct_not_hang _ (store_node p) node_zero v (store_node_not_hang p) E).
Qed.

Lemma json_createNode_not_hang : forall p t n l r, json_createNode p t n l r <> Hang.
Proof.
  intros p t n l r. unfold json_createNode. destruct (beqb _ _); [|destruct (beqb _ _); [|discriminate]].
  - unfold json_createCategoricalNode. destruct (stringToMissingType _); [|discriminate]. destruct (nj_Threshold n); try discriminate.
    apply bind_not_hang; [|intros [[? ?] ?]; discriminate]. unfold json_category. destruct (split s (bs "||")) as [|a [|b rest]]; [discriminate|destruct (atoi a); discriminate|].
    apply bind_not_hang; [apply mapM_not_hang; intros x; destruct (atoi x); discriminate|]. intros values _. apply bind_not_hang.
    + unfold ConstructBitset. destruct values as [|v0 vs]; [discriminate|]. cbv zeta. destruct (_ || _); [discriminate|].
      apply foldM_not_hang. intros b0 v. cbv zeta. apply bind_not_hang; [apply at_not_hang|]. intros w _. apply set_at_not_hang.
    + intros [|w [|w' ws]]; discriminate.
  - unfold json_createNumericalNode. destruct (stringToMissingType _); [|discriminate]. destruct (nj_Threshold n); discriminate.
Qed.

Definition stack_size (stack : list (option parentPtr * jnode)) : nat := fold_right (fun x n => (jsize (snd x) + n)%nat) O stack.
Lemma json_loop_returns : forall p fuel stack s, (stack_size stack < fuel)%nat -> json_loop p fuel stack s <> Hang.
Proof.
  intros p. induction fuel as [|fuel IH]; intros stack s Hf; [lia|]. cbn [json_loop]. destruct stack as [|[ptr [v|n l r]] stack]; try discriminate.
  apply bind_not_hang; [apply json_createNode_not_hang|]. intros [node t] _. apply bind_not_hang.
  - unfold write_ptr. destruct ptr as [q|]; [|discriminate]. destruct (_ =? _); [|discriminate]. cbv zeta.
    apply bind_not_hang; [apply at_not_hang|]. intros par _. apply bind_not_hang; [apply set_at_not_hang|discriminate].
  - intros s1 _. cbv zeta. apply IH. cbn [stack_size fold_right snd jsize] in Hf. fold (stack_size stack) in Hf.
    assert (P : forall b c s' st, (stack_size (push_json b c s' st) <= jsize c + stack_size st)%nat) by (intros b [?|? ? ?] s' st; cbn [push_json]; unfold stack_size; cbn [fold_right snd]; lia).
    destruct (has _ leftLeaf), (has _ rightLeaf);
      [|eapply Nat.le_lt_trans; [apply P|]|eapply Nat.le_lt_trans; [apply P|]|
        eapply Nat.le_lt_trans; [apply P|]; eapply Nat.le_lt_trans; [apply Nat.add_le_mono_l, P|]]; lia.
Qed.

Theorem C29_json_load_returns : forall p doc load, LGEnsembleFromJSON p doc load <> Hang.
Proof.
  intros p doc load. unfold LGEnsembleFromJSON. destruct load; [discriminate|]. destruct doc as [v|]; [|discriminate].
  apply bind_not_hang.
  - apply dec_struct_not_hang. intros [a b c d e f] [k w]. unfold store_ensemble.
    repeat match goal with |- context [if key_is k ?nm then _ else _] => destruct (key_is k nm) end; try discriminate;
      apply bind_not_hang; try (intros; discriminate); try apply dec_num_not_hang; destruct w; discriminate.
  - intros data _. repeat match goal with |- context [if ?c then Err _ else _] => destruct c; [discriminate|] end. cbv zeta.
    repeat match goal with |- context [if ?c then Err _ else _] => destruct c; [discriminate|] end.
    apply bind_not_hang; [|discriminate]. apply mapM_not_hang. intros t. unfold unmarshalTree. apply bind_not_hang.
    + apply dec_struct_not_hang. intros [a b c] [k w]. unfold store_tree.
      repeat match goal with |- context [if key_is k ?nm then _ else _] => destruct (key_is k nm) end; try discriminate;
        apply bind_not_hang; try (intros; discriminate); try apply dec_num_not_hang; apply dec_iface_not_hang.
    + intros tj _. cbv zeta. destruct (_ <? 1); [discriminate|]. apply bind_not_hang.
      * apply unmarshal_node_returns. destruct (tj_RootRaw tj); lia.
      * intros [value|n l r] _; [discriminate|]. unfold json_build. destruct (_ <? _); [discriminate|]. apply json_loop_returns. cbn. lia.
Qed.
Print Assumptions C29_json_load_returns.

(** ** C57: headers *)
Section Source.
  Variables (A B : Type) (store : A -> bytes * json -> outcome A) (proj : A -> B) (name : bytes).
  Hypothesis keeps : forall n n' k w, forallb plain_char k = true -> k <> name -> store n (k, w) = Ok n' -> proj n' = proj n.
  Lemma fold_source : forall l n n', plain l -> foldM store l n = Ok n' ->
    proj n' = proj n \/ exists v n1 n2, In (name, v) l /\ proj n1 = proj n /\ store n1 (name, v) = Ok n2 /\ proj n' = proj n2.
  Proof.
    intros l n n' [ND Hp] E. destruct (in_dec (list_eq_dec Byte.byte_eq_dec) name (map fst l)) as [I|I].
    - right. apply in_map_iff in I. destruct I as ([k v] & Ek & I). cbn [fst] in Ek. subst k. exists v. apply in_split in I. destruct I as (a & b & ->).
      rewrite foldM_app in E. apply bind_ok in E. destruct E as (n1 & E1 & E). cbn [foldM] in E. apply bind_ok in E. destruct E as (n2 & E2 & E).
      rewrite map_app in ND. cbn [map fst] in ND. apply NoDup_remove_2 in ND. exists n1, n2. split; [apply in_or_app; right; left; reflexivity|].
      split; [|split; [exact E2|]].
      + eapply (fold_keeps _ _ store proj name keeps a n n1); auto.
        * intros k w I. apply (Hp k w). apply in_or_app. auto.
        * intros k w I ->. apply ND. apply in_or_app. left. apply in_map_iff. exists (name, w). auto.
      + eapply (fold_keeps _ _ store proj name keeps b n2 n'); auto.
        * intros k w I. apply (Hp k w). apply in_or_app. right. right. auto.
        * intros k w I ->. apply ND. apply in_or_app. right. apply in_map_iff. exists (name, w). auto.
    - left. eapply (fold_keeps _ _ store proj name keeps l n n'); auto. intros k w J ->. apply I. apply in_map_iff. exists (name, w). auto.
  Qed.
End Source.

Lemma header_source : forall l data, plain l -> foldM store_ensemble l ej_zero = Ok data ->
  ej_Name data = bs "tree" -> ej_Version data = bs "v2" -> ej_NumClasses data = ej_NumTreesPerIteration data -> 1 <= ej_NumClasses data ->
  1 <= zlen (ej_Trees data) -> zlen (ej_Trees data) mod ej_NumClasses data = 0 -> json_header_ok l (ej_NumClasses data) (ej_Trees data).
Proof.
  intros l data P E H1 H2 H3 H4 H5 H6. unfold json_header_ok. 
  split; [|split; [|split; [|split; [|split]]]]; auto.
  - destruct (fold_source _ _ _ ej_Name _ keep_name l _ _ P E) as [Q|(v & [a b c d e f] & n2 & I & Q & S & R)]; [rewrite Q in H1; discriminate|].
    cbn in S, Q. rewrite H1 in R. destruct v; cbn in S; try discriminate; injection S as <-; cbn in R; subst; [discriminate|auto].
  - destruct (fold_source _ _ _ ej_Version _ keep_version l _ _ P E) as [Q|(v & [a b c d e f] & n2 & I & Q & S & R)]; [rewrite Q in H2; discriminate|].
    cbn in S, Q. rewrite H2 in R. destruct v; cbn in S; try discriminate; injection S as <-; cbn in R; subst; [discriminate|auto].
  - destruct (fold_source _ _ _ ej_NumClasses _ keep_class l _ _ P E) as [Q|(v & [a b c d e f] & n2 & I & Q & S & R)]; [rewrite Q in H4; cbn in H4; lia|].
    cbn in S, Q. destruct v; cbn in S; try discriminate.
    + injection S as <-. cbn in R. lia.
    + destruct (atoi literal) eqn:Ea; [|discriminate]. injection S as <-. cbn in R. subst z. apply int64_iff in Ea. eauto.
  - destruct (fold_source _ _ _ ej_NumTreesPerIteration _ keep_per l _ _ P E) as [Q|(v & [a b c d e f] & n2 & I & Q & S & R)]; [rewrite Q in H3; cbn in H3; lia|].
    cbn in S, Q. destruct v; cbn in S; try discriminate.
    + injection S as <-. cbn in R. lia.
    + destruct (atoi literal) eqn:Ea; [|discriminate]. injection S as <-. cbn in R. rewrite H3, R. apply int64_iff in Ea. eauto.
  - destruct (fold_source _ _ _ ej_Trees _ keep_trees l _ _ P E) as [Q|(v & [a b c d e f] & n2 & I & Q & S & R)]; [exfalso; rewrite Q in H5; change (1 <= 0) in H5; lia|].
    cbn in S, Q. destruct v; cbn in S; try discriminate; injection S as <-; cbn in R; rewrite R in *; [exfalso; change (1 <= 0) in H5; lia|auto].
Qed.

(** a loaded model has a proper header, and reports what it says *)
Theorem C57_json_header :
  forall p l load e, plain l -> LGEnsembleFromJSON p (Some (JObj l)) load = Ok e ->
  load = false /\ exists groups trees, json_header_ok l groups trees /\
    NRawOutputGroups e = groups /\ Transformation_ e = TransformRaw groups /\ zlen (model_trees e) = zlen trees /\
    NEstimators e = Ok (zlen trees / groups).
Proof.
  intros p l load e P E. unfold LGEnsembleFromJSON in E. destruct load; [discriminate|]. split; [reflexivity|].
  cbn [dec_struct] in E. apply bind_ok in E. destruct E as (data & Ed & E).
  destruct (beqb (ej_Name data) (bs "tree")) eqn:B1; cbn [negb] in E; [|discriminate]. destruct (beqb (ej_Version data) (bs "v2")) eqn:B2; cbn [negb] in E; [|discriminate].
  destruct (ej_NumClasses data =? ej_NumTreesPerIteration data) eqn:B3; cbn [negb] in E; [|discriminate].
  destruct (ej_NumClasses data <? 1) eqn:B4; [discriminate|]. destruct (ej_NumTreesPerIteration data <? 1) eqn:B5; [discriminate|]. cbv zeta in E.
  destruct (zlen (ej_Trees data) =? 0) eqn:B6; [discriminate|]. destruct (Z.rem (zlen (ej_Trees data)) (ej_NumClasses data) =? 0) eqn:B7; cbn [negb] in E; [|discriminate].
  apply bind_ok in E. destruct E as (ts & Et & E). injection E as <-. apply beqb_eq in B1, B2. pose proof (zlen_nonneg _ (ej_Trees data)).
  exists (ej_NumClasses data), (ej_Trees data). split; [|split; [reflexivity|split; [reflexivity|]]].
  - apply header_source; auto; try lia. rewrite Z.rem_mod_nonneg in B7 by lia. lia.
  - assert (L : zlen ts = zlen (ej_Trees data)) by (pose proof (mapM_ok_length _ _ _ _ _ Et); unfold zlen; lia).
    split; [exact L|]. unfold NEstimators. cbn [eBase b_NEstimators lgTrees lgNRawOutputGroups]. unfold trees_NEstimators, go_div.
    replace (ej_NumClasses data =? 0) with false by lia. rewrite L. f_equal. apply Z.quot_div_nonneg; lia.
Qed.
Print Assumptions C57_json_header.

(** everything else is refused with an error: never a panic, never a model *)
Theorem C57_bad_json_header :
  forall p doc load,
  match doc with
  | Some (JObj l) => plain l /\ (load = false -> forall groups trees, ~ json_header_ok l groups trees)
  | _ => True
  end -> exists msg, LGEnsembleFromJSON p doc load = Err msg.
Proof.
  intros p doc load H. unfold LGEnsembleFromJSON. destruct load; [eauto|]. destruct doc as [v|]; [|eauto]. destruct v as [| | | | |l]; try (cbn; eauto; fail).
  destruct H as [P H]. cbn [dec_struct]. destruct (foldM store_ensemble l (mkEnsembleJSON [] [] 0 0 0 [])) as [data|m|m|] eqn:Ed.
  - cbn [bind].
    destruct (beqb (ej_Name data) (bs "tree")) eqn:B1; cbn [negb]; [|eauto]. destruct (beqb (ej_Version data) (bs "v2")) eqn:B2; cbn [negb]; [|eauto].
    destruct (ej_NumClasses data =? ej_NumTreesPerIteration data) eqn:B3; cbn [negb]; [|eauto].
    destruct (ej_NumClasses data <? 1) eqn:B4; [eauto|]. destruct (ej_NumTreesPerIteration data <? 1) eqn:B5; [eauto|]. cbv zeta.
    destruct (zlen (ej_Trees data) =? 0) eqn:B6; [eauto|]. destruct (Z.rem (zlen (ej_Trees data)) (ej_NumClasses data) =? 0) eqn:B7; cbn [negb]; [|eauto].
    exfalso. apply beqb_eq in B1, B2. pose proof (zlen_nonneg _ (ej_Trees data)). apply (H eq_refl (ej_NumClasses data) (ej_Trees data)).
    apply header_source; auto; try lia. rewrite Z.rem_mod_nonneg in B7 by lia. lia.
  - cbn [bind]. eauto.
  - exfalso. assert (NP : forall l n m, foldM store_ensemble l n <> Panic m).
    { clear. induction l as [|[k v] l IH]; intros n m; cbn [foldM]; [discriminate|]. destruct (store_ensemble n (k, v)) as [n1|?|?|] eqn:E; cbn [bind]; try discriminate; auto.
      exfalso. destruct n as [a b c d e f]. unfold store_ensemble in E. cbv beta iota zeta in E.
      repeat match type of E with (if key_is k ?nm then _ else _) = _ => destruct (key_is k nm) end; try discriminate;
        destruct v; cbn in E; try discriminate; destruct (atoi literal); discriminate. }
    eapply NP; eauto.
  - exfalso. assert (NP : forall l n, foldM store_ensemble l n <> Hang).
    { clear. intros l n. apply foldM_not_hang. intros [a b c d e f] [k v] E. unfold store_ensemble in E. cbv beta iota zeta in E.
      repeat match type of E with (if key_is k ?nm then _ else _) = _ => destruct (key_is k nm) end; try discriminate;
        destruct v; cbn in E; try discriminate; destruct (atoi literal); discriminate. }
    eapply NP; eauto.
Qed.
Print Assumptions C57_bad_json_header.

(** ** C35: text and JSON *)
Lemma alike_walk : forall d d', alike d d' -> forall x v id, walk d x = Some (v, id) -> exists id', walk d' x = Some (v, id').
Proof.
  intros d d' H. induction H as [i i' v|f t t' l r l' r' Ht Hl IHl Hr IHr]; intros x w id W; cbn [walk] in *.
  - injection W as <- <-. eauto.
  - destruct (zget x f); [|discriminate]. rewrite <- Ht. destruct (t f0); eauto.
Qed.

Theorem C35_tree :
  forall p eof text kvs rest num_leaves d v num_leaves' d',
  block eof text kvs rest -> tree_says (pl_parse_float p) (f2i32 p) kvs num_leaves d -> num_leaves - 1 <= pl_maxalloc p ->
  json_tree_says (pl_parse_float p) (f2i32 p) v num_leaves' d' -> num_leaves' - 1 <= pl_maxalloc p -> 2 ^ 26 <= pl_maxalloc p ->
  alike d d' ->
  exists T T', lgTreeFromReader p (mkReader text eof) = Ok (T, mkReader rest eof) /\ unmarshalTree p v = Ok T' /\
    forall x value leaf, walk d x = Some (value, leaf) -> exists leaf', predict p T x = Ok (value, leaf) /\ predict p T' x = Ok (value, leaf').
Proof.
  intros p eof text kvs rest nl d v nl' d' B S Ha J Ha' Hb AL.
  destruct (C28_text_tree p eof text kvs rest nl d B S Ha) as (T & ET & _ & W). destruct (C34_json_tree p v nl' d' J Ha' Hb) as (T' & ren & ET' & _ & _ & W').
  exists T, T'. split; [exact ET|]. split; [exact ET'|]. intros x value leaf Hw. destruct (alike_walk _ _ AL _ _ _ Hw) as [id' Hw']. eauto.
Qed.
Print Assumptions C35_tree.

Lemma walk_outputs_eq : forall ds ds' g k n x vs vs', Forall2 alike ds ds' -> walk_outputs ds g k n x vs -> walk_outputs ds' g k n x vs' -> vs = vs'.
Proof.
  intros ds ds' g k n x vs vs' F [L H] [L' H']. apply zget_ext; [lia|]. intros i Hi. rewrite L in Hi.
  destruct (H i Hi) as (d & v & leaf & Gd & W & ->). destruct (H' i Hi) as (d' & v' & leaf' & Gd' & W' & ->).
  destruct (Forall2_zget _ _ _ _ _ F _ _ Gd) as (d0 & G0 & AL). rewrite Gd' in G0. injection G0 as <-. destruct (alike_walk _ _ AL _ _ _ W) as [id Wid]. congruence.
Qed.

(** a model that does not average, in both forms: Predict gives exactly the same *)
Theorem C35_models :
  forall p eof text rest header kvss groups max_feature_idx load tr ds v trees ds',
  file_says p eof text rest header kvss groups max_feature_idx false load tr ds -> zlen text <= MaxInt ->
  json_model_says p v groups max_feature_idx trees ds' -> zlen trees <= MaxInt -> 2 ^ 26 <= pl_maxalloc p ->
  Forall2 alike ds ds' ->
  exists e e', LGEnsembleFromReader p (mkReader text eof) load = Ok e /\ LGEnsembleFromJSON p (Some v) false = Ok e' /\
  NEstimators e = NEstimators e' /\ NFeatures e = NFeatures e' /\ NRawOutputGroups e = NRawOutputGroups e' /\
  forall x nEstimators predictions,
    Forall (fun d => exists r, walk d x = Some r) ds -> NFeatures e <= zlen x -> groups <= zlen predictions <= MaxInt -> groups <= pl_maxalloc p ->
    exists out, Predict p (EnsembleWithRawPredictions e) x nEstimators predictions = Ok out /\ Predict p e' x nEstimators predictions = Ok out.
Proof.
  intros p eof text rest header kvss g mf load tr ds v trees ds' HT Ht HJ Hj Hb AL.
  destruct (C28_text_predictions _ _ _ _ _ _ _ _ _ _ _ _ HT Ht) as (e & Ee & PT). destruct (C34_json_predictions _ _ _ _ _ _ HJ Hb Hj) as (e' & Ee' & PJ).
  exists e, e'. split; [exact Ee|]. split; [exact Ee'|].
  destruct (file_loads _ _ _ _ _ _ _ _ _ _ _ _ HT) as (ts & E1 & F1). destruct (json_model_loads _ _ _ _ _ _ HJ Hb) as (ts' & E2 & F2).
  assert (Q : e = mkEnsemble (BLg (mkLgEnsemble ts mf g (model_name false) false)) tr) by congruence.
  assert (Q' : e' = mkEnsemble (BLg (mkLgEnsemble ts' mf g (bs "lightgbm.gbdt") false)) (TransformRaw g)) by congruence.
  assert (A : forall X Y (R : X -> Y -> Prop) a b, Forall2 R a b -> zlen a = zlen b) by (intros X Y R a b K; induction K; [reflexivity|rewrite (zlen_cons _ x), (zlen_cons _ y); lia]).
  assert (L : zlen ts = zlen ts') by (rewrite (A _ _ _ _ _ F1), (A _ _ _ _ _ AL), (A _ _ _ _ _ F2); reflexivity).
  assert (NE : NEstimators e = NEstimators e') by (rewrite Q, Q'; unfold NEstimators; cbn [eBase b_NEstimators lgTrees lgNRawOutputGroups]; unfold trees_NEstimators; rewrite L; reflexivity).
  assert (NF : NFeatures e = NFeatures e') by (rewrite Q, Q'; reflexivity).
  split; [exact NE|]. split; [exact NF|]. split; [rewrite Q, Q'; reflexivity|].
  intros x nE preds W Hf Hp Ha. destruct Hp as [Hp Hp'].
  destruct (PT x nE preds W Hf Hp Ha) as (out & n & Po & Un & K).
  assert (W' : Forall (fun d => exists r, walk d x = Some r) ds').
  { apply Forall_forall. intros d' I. apply in_zget in I. destruct I as [i Hi].
    assert (Fl : forall a b, Forall2 alike a b -> forall i d', zget b i = Some d' -> exists d, zget a i = Some d /\ alike d d').
    { clear. intros a b F. induction F as [|x y a b H F IH]; intros i d' Hi; [apply zget_range in Hi; rewrite zlen_nil in Hi; lia|].
      destruct (Z.eq_dec i 0) as [->|]; [rewrite zget_cons_0 in *; injection Hi as <-; eauto|]. pose proof (zget_range _ _ _ _ Hi). rewrite zget_cons in * by lia. eauto. }
    destruct (Fl _ _ AL _ _ Hi) as (d & Gd & Ald). rewrite Forall_forall in W. destruct (W d (zget_in _ _ _ _ Gd)) as ([v' id] & Wd). destruct (alike_walk _ _ Ald _ _ _ Wd). eauto. }
  destruct (PJ x nE preds W' ltac:(lia) Hp Ha) as (out' & n' & Po' & Un' & K').
  exists out. split; [exact Po|]. rewrite Po'. f_equal.
  assert (En : n' = n).
  { destruct Un as (k & Ek & C). destruct Un' as (k' & Ek' & C'). rewrite NE, Ek' in Ek. injection Ek as ->. lia. }
  subst n'.
  destruct (loaded_wf text _ _ _ _ Ee eq_refl Ht) as (Wf & _ & _ & _).
  assert (Wr : well_formed (EnsembleWithRawPredictions e)) by (destruct Wf as (W1 & W2 & _); split; [exact W1|split; [exact W2|reflexivity]]).
  assert (Wf' : well_formed e').
  { rewrite Q in Wf. rewrite Q'. destruct Wf as (W1 & W2 & _). split; [exact W1|]. split; [|reflexivity]. change (zlen ts' <= MaxInt). rewrite <- L. exact W2. }
  assert (Gg : 1 <= g <= MaxInt) by (rewrite Q in Wf; exact (proj1 Wf)).
  assert (Ng : NOutputGroups (EnsembleWithRawPredictions e) = g) by (rewrite Q; reflexivity). assert (Ng' : NOutputGroups e' = g) by (rewrite Q'; reflexivity).
  destruct (C07_predict_window p _ x nE preds out Wr Hp' ltac:(lia) Po) as (La & Fa & _). destruct (C07_predict_window p _ x nE preds out' Wf' Hp' ltac:(lia) Po') as (Lb & Fb & _).
  apply zget_ext; [lia|]. intros k Hk. destruct (Z_lt_le_dec k g) as [C|C].
  - destruct (K k ltac:(lia)) as (vs & O & ->). destruct (K' k ltac:(lia)) as (vs' & O' & ->). rewrite (walk_outputs_eq _ _ _ _ _ _ _ _ AL O O'). reflexivity.
  - rewrite Fa, Fb by lia. reflexivity.
Qed.
Print Assumptions C35_models.
