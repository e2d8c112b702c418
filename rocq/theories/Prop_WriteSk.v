(** * C80 for scikit-learn models *)

From Coq Require Import ZArith List Bool String Lia ZifyBool.
From Verif Require Import Go GoFloat GoText LgTree Transformation Ensembles Leaves XgBin Pickle SkClasses SkIO
  Spec_Predict Spec_Tree Spec_XgBin Spec_Numpy Spec_Pickle Spec_Dump Spec_SkTree Spec_SkFile Spec_Write
  Pf_Go Pf_Dump Pf_SkTree Prop_Pickle Prop_Sk Prop_Write Ex_Sk.
Local Open Scope Z_scope.

(** a rule is its threshold *)
Fixpoint s_nodes (t : tree f64 f64) (c : Z) : list SklearnNode :=
  match t with
  | Leaf _ => [k_leaf]
  | Split f thr l r => k_split f (c + 1) (c + 1 + nodes_in l) thr :: s_nodes l (c + 1) ++ s_nodes r (c + 1 + nodes_in l)
  end.
Fixpoint s_values (t : tree f64 f64) : list f64 := match t with Leaf v => [v] | Split _ _ l r => fzero :: s_values l ++ s_values r end.
Fixpoint s_numbered (t : tree f64 f64) (c : Z) : sktree :=
  match t with Leaf v => KLeaf c v | Split f thr l r => KNode f thr (s_numbered l (c + 1)) (s_numbered r (c + 1 + nodes_in l)) end.
Lemma s_nodes_len : forall t c, zlen (s_nodes t c) = nodes_in t.
Proof. induction t as [v|f thr l IHl r IHr]; intros c; cbn [s_nodes nodes_in]; [reflexivity|]. rewrite zlen_cons, zlen_app, IHl, IHr. lia. Qed.
Lemma s_values_len : forall t, zlen (s_values t) = nodes_in t.
Proof. induction t as [v|f thr l IHl r IHr]; cbn [s_values nodes_in]; [reflexivity|]. rewrite zlen_cons, zlen_app, IHl, IHr. lia. Qed.
Lemma s_described : forall t c pre post vpre vpost, zlen pre = c -> zlen vpre = c ->
  exists ids, kdescribes (pre ++ s_nodes t c ++ post) (vpre ++ s_values t ++ vpost) c (s_numbered t c) ids /\ NoDup ids /\ zlen ids = nodes_in t /\ forall i, In i ids -> c <= i < c + nodes_in t.
Proof.
  induction t as [v|f thr l IHl r IHr]; intros c pre post vpre vpost Hc Hv; cbn [s_nodes s_values s_numbered nodes_in] in *.
  - exists [c]. split; [|split; [repeat constructor; intros []|split; [reflexivity|intros i [<-|[]]; lia]]].
    apply (kd_leaf _ _ c k_leaf); [rewrite <- Hc; apply zget_middle|reflexivity|rewrite <- Hv; apply zget_middle].
  - pose proof (nodes_pos _ _ l) as Pl. pose proof (nodes_pos _ _ r) as Pr. set (n := k_split f (c + 1) (c + 1 + nodes_in l) thr).
    destruct (IHl (c + 1) (pre ++ [n]) (s_nodes r (c + 1 + nodes_in l) ++ post) (vpre ++ [fzero]) (s_values r ++ vpost)) as (il & Dl & Nl & Ll & Rl); [rewrite zlen_app, Hc; reflexivity|rewrite zlen_app, Hv; reflexivity|].
    destruct (IHr (c + 1 + nodes_in l) (pre ++ n :: s_nodes l (c + 1)) post (vpre ++ fzero :: s_values l) vpost) as (ir & Dr & Nr & Lr & Rr); [rewrite zlen_app, zlen_cons, s_nodes_len; lia|rewrite zlen_app, zlen_cons, s_values_len; lia|].
    exists (c :: il ++ ir). split; [|split; [|split]].
    + set (W := (pre ++ [n]) ++ s_nodes l (c + 1) ++ s_nodes r (c + 1 + nodes_in l) ++ post) in *. set (Y := (vpre ++ [fzero]) ++ s_values l ++ s_values r ++ vpost) in *.
      assert (E1 : pre ++ (n :: s_nodes l (c + 1) ++ s_nodes r (c + 1 + nodes_in l)) ++ post = W) by (unfold W; cbn [app]; rewrite <- !app_assoc; reflexivity).
      assert (E2 : (pre ++ n :: s_nodes l (c + 1)) ++ s_nodes r (c + 1 + nodes_in l) ++ post = W) by (unfold W; rewrite <- !app_assoc; reflexivity).
      assert (F1 : vpre ++ (fzero :: s_values l ++ s_values r) ++ vpost = Y) by (unfold Y; cbn [app]; rewrite <- !app_assoc; reflexivity).
      assert (F2 : (vpre ++ fzero :: s_values l) ++ s_values r ++ vpost = Y) by (unfold Y; rewrite <- !app_assoc; reflexivity).
      rewrite E2, F2 in Dr. rewrite E1, F1.
      assert (G : zget W c = Some n) by (rewrite <- E1, <- Hc; apply (zget_middle _ pre n)).
      exact (kd_node W Y c n _ _ il ir G Dl Dr).
    + constructor.
      * intros I. apply in_app_or in I. destruct I as [I|I]; [apply Rl in I|apply Rr in I]; lia.
      * apply nodup_join; auto. intros i I J. apply Rl in I. apply Rr in J. lia.
    + rewrite zlen_cons, zlen_app. lia.
    + intros i [<-|I]; [lia|]. apply in_app_or in I. destruct I as [I|I]; [apply Rl in I|apply Rr in I]; lia.
Qed.
Lemma s_walks : forall t c x, exists id, walk (sk_reference (fun v => v) (s_numbered t c)) x = option_map (fun v => (v, id)) (value_of sk_left (fun v => v) t x).
Proof.
  induction t as [v|f thr l IHl r IHr]; intros c x; cbn [s_numbered sk_reference walk value_of]; [exists c; reflexivity|].
  destruct (zget x f) as [z|]; [|exists 0; reflexivity]. destruct (sk_left thr z); auto.
Qed.
Lemma s_below : forall P Q n m t c, made_of n P Q t -> n <= m -> sk_features_below m (s_numbered t c).
Proof. induction t as [v|f thr l IHl r IHr]; intros c M L; cbn [s_numbered sk_features_below made_of] in *; [exact I|]. destruct M as (Hf & _ & Ml & Mr). split; [lia|auto]. Qed.

Definition valid (x : f64) : Prop := valid64 x = true.
Lemma s_nodes_ok : forall n t c, n <= 2 ^ 32 -> 0 <= c -> c + nodes_in t <= 2 ^ 32 -> made_of n valid valid t -> Forall sknode_ok (s_nodes t c).
Proof.
  induction t as [v|f thr l IHl r IHr]; intros c N C L M; cbn [s_nodes nodes_in made_of] in *.
  - constructor; [|constructor]. unfold sknode_ok, k_leaf, int64. cbn [skLeftChild skRightChild skFeature skNNodeSamples skThreshold skImpurity skWeightedNNodeSamples]. repeat (split; [lia|]). repeat split; vm_compute; reflexivity.
  - destruct M as (Mf & Mr & Ml & Mr'). pose proof (nodes_pos _ _ l). pose proof (nodes_pos _ _ r). constructor; [|apply Forall_app; split; [apply IHl|apply IHr]; auto; lia].
    unfold sknode_ok, k_split, int64. cbn [skLeftChild skRightChild skFeature skNNodeSamples skThreshold skImpurity skWeightedNNodeSamples]. repeat (split; [lia|]). split; [exact Mr|]. split; vm_compute; reflexivity.
Qed.
Lemma s_values_ok : forall n t, made_of n valid valid t -> Forall (fun x => valid64 x = true) (s_values t).
Proof.
  induction t as [v|f thr l IHl r IHr]; intros M; cbn [s_values made_of] in *; [constructor; [exact M|constructor]|]. destruct M as (_ & _ & Ml & Mr).
  constructor; [reflexivity|]. apply Forall_app. auto.
Qed.

Definition s_reg (features : Z) (t : tree f64 f64) : SklearnDecisionTreeRegressor :=
  mkSkReg (mkSkTree 1 [1] (nodes_in t) (s_nodes t 0) (s_values t)) 1 features 1.
(** two classes have a log odds prior, otherwise there is one prior per class *)
Definition s_init (classes : Z) (priors : list f64) : SKlearnInitEstimator :=
  mkInit (if classes =? 2 then bs "LogOddsEstimator" else bs "PriorProbabilityEstimator") priors.
Definition s_model (features classes n : Z) (labels : list Z) (rate : f64) (priors : list f64) (ts : list (tree f64 f64)) : SklearnGradientBoosting :=
  mkSkGB classes labels n features (map (s_reg features) ts) rate (s_init classes priors).

Section Sk.
  Variables (p : platform) (features classes n : Z) (labels : list Z) (rate : f64) (rate_text : bytes) (priors : list f64) (ts : list (tree f64 f64)).
  Hypothesis Hf : 1 <= features <= 2 ^ 32.
  Hypothesis Hc : 1 <= classes.
  Hypothesis Hn : 1 <= n.
  Hypothesis Hl : Forall int64 labels.
  Hypothesis Hr : valid64 rate = true /\ one_line rate_text /\ pl_parse_float p rate_text = Some rate.
  Hypothesis Hp : zlen priors = score_groups classes /\ Forall (fun x => valid64 x = true) priors.
  Hypothesis Ht : zlen ts = n * score_groups classes.
  Hypothesis Ha : 1 <= classes <= pl_maxalloc p /\ n * classes <= pl_maxalloc p /\ pl_maxalloc p < 2 ^ 63.
  Hypothesis Hts : Forall (fun t => made_of features valid valid t /\ nodes_in t < 2 ^ 32 /\ nodes_in t <= pl_maxalloc p) ts.
  Let g := s_model features classes n labels rate priors ts.

  Lemma s_says : sk_says g (map (fun t => s_numbered t 0) ts).
  Proof.
    split; cbn [g s_model gbNClasses gbNEstimators gbEstimators gbMaxFeatures gbLearningRate gbInit s_init ieName iePrior]; auto.
    - unfold zlen. rewrite map_length. exact Ht.
    - pose proof Hts as K. clear - K. induction K as [|t ts (M & L & _) _ IH]; cbn [map]; constructor; [|exact IH].
      cbn [s_reg srTree]. split; [cbn [stNNodes stNodes]; rewrite s_nodes_len; reflexivity|]. cbn [stNodes stValues]. rewrite s_nodes_len. split; [exact L|].
      destruct (s_described t 0 [] [] [] [] eq_refl eq_refl) as (ids & D & N & Li & _). rewrite !app_nil_r in D. exists ids. auto.
    - apply Forall_forall. intros st I. apply in_map_iff in I. destruct I as (t & <- & I). rewrite Forall_forall in Hts. destruct (Hts t I) as (M & _). eapply s_below; [exact M|lia].
    - lia.
    - apply Hr.
    - destruct (Z.eqb_spec classes 2) as [->|N2]; [left|right]; split; try reflexivity; apply Hp.
  Qed.
  Lemma s_fits : sk_fits (pl_maxalloc p) g.
  Proof.
    split; cbn [g s_model gbNClasses gbNEstimators gbEstimators]; try lia.
    - apply Forall_forall. intros r I. apply in_map_iff in I. destruct I as (t & <- & I). cbn [s_reg srTree stNOutputs]. lia.
    - apply Forall_forall. intros r I. apply in_map_iff in I. destruct I as (t & <- & I). cbn [s_reg srTree stNNodes]. rewrite Forall_forall in Hts. apply (Hts t I).
  Qed.
  Lemma s_is : gb_is g (py_gb g).
  Proof.
    apply py_gb_is; cbn [g s_model gbEstimators gbClasses gbInit s_init ieName iePrior].
    - apply Forall_forall. intros r I. apply in_map_iff in I. destruct I as (t & <- & I). rewrite Forall_forall in Hts. destruct (Hts t I) as (M & L & _).
      unfold py_reg_ok. cbn [s_reg srTree srNClasses stClasses stNodes stValues]. split; [unfold int64; lia|]. split; [constructor; [unfold int64; lia|constructor]|].
      split; [eapply s_nodes_ok; [|lia| |exact M]; lia|eapply s_values_ok; exact M].
    - exact Hl.
    - apply Hp.
    - destruct (Z.eqb_spec classes 2) as [->|N2]; [left; split; [reflexivity|apply Hp]|right; reflexivity].
  Qed.
  Let repr (_ : f64) : bytes := rate_text.
  Lemma reg_dumpable : forall t, nodes_in t < 2 ^ 32 -> dumpable repr p (py_reg (s_reg features t)).
  Proof.
    intros t L. pose proof (nodes_pos _ _ t). unfold py_reg, py_instance, py_tree, py_array, py_scalar, py_dtype, py_raw, s_reg. cbn [srTree stNOutputs stNNodes srMaxFeatures srNOutputs srNClasses map].
    repeat first
      [ apply dumpable_kv; [apply nodup_keys_ok; vm_compute; reflexivity|cbn [map snd]]
      | apply du_build | apply du_reduce | apply du_tuple | apply du_list | apply du_global; apply one_line_check; reflexivity
      | apply du_str | apply du_none | apply du_int; lia | apply Forall_cons | apply Forall_nil ].
  Qed.
  Lemma s_dumpable : dumpable repr p (py_gb g).
  Proof.
    assert (R : Forall (dumpable repr p) (map py_reg (gbEstimators g))).
    { cbn [g s_model gbEstimators]. apply Forall_forall. intros o I. apply in_map_iff in I. destruct I as (r & <- & I). apply in_map_iff in I. destruct I as (t & <- & I).
      rewrite Forall_forall in Hts. apply reg_dumpable. apply (Hts t I). }
    assert (G : 1 <= score_groups classes <= classes) by (unfold score_groups; destruct (Z.eqb_spec classes 2); lia).
    assert (N : n < 2 ^ 63) by nia.
    assert (F : dumpable repr p (PFloat rate)) by (apply du_float; apply Hr).
    assert (I : dumpable repr p (py_init (s_init classes priors))).
    { unfold py_init, s_init. cbn [ieName iePrior]. destruct (Z.eqb_spec classes 2) as [->|N2].
      - replace (beqb _ _) with true by (vm_compute; reflexivity). unfold py_instance, py_scalar, py_dtype, py_raw. dumpable_tac.
      - replace (beqb _ _) with false by (vm_compute; reflexivity). unfold py_instance, py_array, py_dtype, py_raw. cbn [map]. rewrite (proj1 Hp).
        repeat first
          [ apply dumpable_kv; [apply nodup_keys_ok; vm_compute; reflexivity|cbn [map snd]]
          | apply du_build | apply du_reduce | apply du_tuple | apply du_list | apply du_global; apply one_line_check; reflexivity
          | apply du_str | apply du_none | apply du_int; lia | apply Forall_cons | apply Forall_nil ]. }
    unfold py_gb, py_instance, py_array, py_dtype, py_raw in *. cbn [g s_model gbNClasses gbLearningRate gbClasses gbMaxFeatures gbNEstimators gbInit map] in *.
    repeat first
      [ exact I | exact F
      | apply dumpable_kv; [apply nodup_keys_ok; vm_compute; reflexivity|cbn [map snd]]
      | apply du_build | apply du_reduce | apply du_tuple | apply du_list; exact R | apply du_global; apply one_line_check; reflexivity
      | apply du_str | apply du_none | apply du_int; lia | apply Forall_cons | apply Forall_nil ].
  Qed.
End Sk.

(** Whatever the shapes of the trees, their thresholds and their leaf values: there is a pickle that loads as the ensemble, and its
    scores are the sums of what the trees say, times the learning rate, the prior added once. *)
Theorem C80_sklearn :
  forall p features classes n labels rate rate_text priors trees,
  1 <= features <= 2 ^ 32 -> 1 <= n -> Forall int64 labels ->
  valid64 rate = true -> one_line rate_text -> pl_parse_float p rate_text = Some rate ->
  zlen priors = score_groups classes -> Forall (fun x => valid64 x = true) priors ->
  zlen trees = n * score_groups classes ->
  1 <= classes <= pl_maxalloc p -> n * classes <= pl_maxalloc p -> pl_maxalloc p < 2 ^ 63 ->
  Forall (fun t => made_of features (fun thr => valid64 thr = true) (fun v => valid64 v = true) t /\ nodes_in t < 2 ^ 32 /\ nodes_in t <= pl_maxalloc p) trees ->
  let groups := score_groups classes in
  exists text, forall rest eof load, exists e,
    SKEnsembleFromReader p (mkReader (text ++ rest) eof) load = Ok e /\ NRawOutputGroups e = groups /\ NEstimators e = Ok n /\
    NFeatures e = (if features =? 1 then 0 else features) /\ Transformation_ e = TransformRaw groups /\
    forall x nEstimators predictions, features <= zlen x -> groups <= zlen predictions ->
    exists out m, Predict p e x nEstimators predictions = Ok out /\ used_estimators e nEstimators m /\
    forall k, 0 <= k < groups -> exists vs prior,
      values_of sk_left (fun v => v) trees groups k m x vs /\ zget priors (if classes =? 2 then 0 else k) = Some prior /\
      zget out k = Some (sum_from fzero (sk_terms rate prior vs)).
Proof.
  intros p features classes n labels rate rate_text priors ts Hf Hn Hl Hr1 Hr2 Hr3 Hp1 Hp2 Ht Ha1 Ha2 Ha3 Hts groups.
  set (g := s_model features classes n labels rate priors ts). set (repr := fun _ : f64 => rate_text).
  assert (Hr : valid64 rate = true /\ one_line rate_text /\ pl_parse_float p rate_text = Some rate) by auto.
  assert (Says : sk_says g (map (fun t => s_numbered t 0) ts)) by (eapply s_says with (p := p) (rate_text := rate_text); eauto; lia).
  assert (Fits : sk_fits (pl_maxalloc p) g) by (eapply s_fits; eauto; lia).
  assert (Is : gb_is g (py_gb g)) by (eapply s_is with (p := p); eauto; lia).
  assert (Du : dumpable repr p (py_gb g)) by (subst repr; eapply s_dumpable; eauto; lia).
  destruct (works_all repr p true (py_gb g) [] 0 Du) as (mu & E & _). { split; [lia|intros k []]. }
  exists (fst (dump repr (py_gb g) 0) ++ ["."%byte]). intros rest eof load. rewrite <- app_assoc. cbn [app].
  destruct (C47_sklearn_file p (py_gb g) _ mu g _ rest eof load E Is Says Fits) as (e & Le & G & N & NF & _ & T & P). exists e.
  split; [exact Le|]. split; [exact G|]. split; [exact N|].
  assert (NF2 : NFeatures e = (if features =? 1 then 0 else features)) by (rewrite NF; cbn [g s_model gbMaxFeatures]; destruct (Z.leb_spec features 1), (Z.eqb_spec features 1); lia).
  split; [exact NF2|]. split; [exact T|]. intros x nE preds Hx Hpr. destruct (P x nE preds) as (out & EP & m & U & K).
  - apply Forall_forall. intros st I. apply in_map_iff in I. destruct I as (t & <- & I). rewrite Forall_forall in Hts. destruct (Hts t I) as (M & _). eapply s_below; [exact M|exact Hx].
  - intros ->. rewrite zlen_nil in Hx. lia.
  - rewrite NF2. destruct (features =? 1); [pose proof (zlen_nonneg _ x); lia|exact Hx].
  - exact Hpr.
  - exists out, m. split; [exact EP|]. split; [exact U|]. intros k Hk. destruct (K k Hk) as (vs & prior & [L1 T1] & Pk & Z). exists vs, prior.
    split; [|split; [|exact Z]].
    + split; [exact L1|]. intros i Hi. destruct (T1 i Hi) as (d & v & leaf & Zd & Wd & Zv). rewrite zget_map in Zd. cbn [g s_model gbNClasses] in Zd. fold groups in Zd.
      destruct (zget ts (i * groups + k)) as [t|] eqn:Zt; [|discriminate]. injection Zd as <-. exists t, v. split; [reflexivity|]. split; [|exact Zv].
      destruct (s_walks t 0 x) as (id & E'). rewrite E' in Wd. destruct (value_of _ _ t x); [injection Wd as -> _; reflexivity|discriminate].
    + cbn [g s_model gbInit s_init] in Pk. unfold prior_of, s_init in Pk. cbn [ieName iePrior] in Pk. destruct (classes =? 2); exact Pk.
Qed.
Print Assumptions C80_sklearn.
