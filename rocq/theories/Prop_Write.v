(** * C80: every ensemble of trees can be written to a file that loads as it *)

From Coq Require Import ZArith List Bool String Lia ZifyBool.
From Verif Require Import Go GoFloat GoText LgTree Transformation Ensembles Leaves XgBin XgIO Spec_Predict Spec_Tree Spec_XgBin Spec_XgTree Spec_XgFile Spec_Write
  Pf_Go Pf_Float Pf_SkTree Prop_Round Prop_Xg Demo.
Local Open Scope Z_scope.

Lemma zget_middle : forall A (pre : list A) x post, zget (pre ++ x :: post) (zlen pre) = Some x.
Proof. intros A pre x post. rewrite zget_app_r by lia. rewrite Z.sub_diag. apply zget_cons_0. Qed.

(** ** XGBoost *)

(** threshold and leaf values are float32 patterns; NaN goes to the default side *)
Inductive xrule : Type := XRule (threshold : Z) (default_left : bool).
Definition xr_threshold (r : xrule) : Z := match r with XRule t _ => t end.
Definition xrule_left (cmp : f64 -> f64 -> bool) (r : xrule) (v : f64) : bool := 
  match r with XRule thr dl => if is_nan v then dl else cmp v (f64_of_f32bits thr) end.

(** the nodes in preorder, the first at [c] *)
Fixpoint x_nodes (t : tree xrule Z) (c : Z) : list xNode :=
  match t with
  | Leaf v => [x_leaf v]
  | Split f (XRule thr dl) l r => x_split f dl thr (c + 1) (c + 1 + nodes_in l) :: x_nodes l (c + 1) ++ x_nodes r (c + 1 + nodes_in l)
  end.
Fixpoint x_numbered (t : tree xrule Z) (c : Z) : xtree :=
  match t with
  | Leaf v => XLeaf c (f64_of_f32bits v)
  | Split f (XRule thr dl) l r => XNode f (f64_of_f32bits thr) dl (x_numbered l (c + 1)) (x_numbered r (c + 1 + nodes_in l))
  end.
Lemma nodes_pos : forall R V (t : tree R V), 1 <= nodes_in t.
Proof. induction t; cbn [nodes_in]; lia. Qed.
Lemma x_nodes_len : forall t c, zlen (x_nodes t c) = nodes_in t.
Proof. induction t as [v|f [thr dl] l IHl r IHr]; intros c; cbn [x_nodes nodes_in]; [reflexivity|]. rewrite zlen_cons, zlen_app, IHl, IHr. lia. Qed.
Lemma x_described : forall t c pre post, zlen pre = c -> made_of (2 ^ 31) (fun _ => True) (fun _ => True) t ->
  exists ids, xdescribes (pre ++ x_nodes t c ++ post) c (x_numbered t c) ids /\ NoDup ids /\ forall i, In i ids -> c <= i < c + nodes_in t.
Proof.
  induction t as [v|f [thr dl] l IHl r IHr]; intros c pre post Hc M; cbn [x_nodes x_numbered nodes_in] in *.
  - exists [c]. split; [|split; [repeat constructor; intros []|intros i [<-|[]]; lia]].
    change (f64_of_f32bits v) with (f64_of_f32bits (xInfo (x_leaf v))). constructor; [|reflexivity]. subst c. apply zget_middle.
  - destruct M as (Hf & _ & Ml & Mr). pose proof (nodes_pos _ _ l) as Pl. pose proof (nodes_pos _ _ r) as Pr.
    set (n := x_split f dl thr (c + 1) (c + 1 + nodes_in l)).
    destruct (IHl (c + 1) (pre ++ [n]) (x_nodes r (c + 1 + nodes_in l) ++ post)) as (il & Dl & Nl & Rl); [rewrite zlen_app, Hc; reflexivity|auto|].
    destruct (IHr (c + 1 + nodes_in l) (pre ++ n :: x_nodes l (c + 1)) post) as (ir & Dr & Nr & Rr); [rewrite zlen_app, zlen_cons, x_nodes_len; lia|auto|].
    exists (c :: il ++ ir). split; [|split].
    + set (W := (pre ++ [n]) ++ x_nodes l (c + 1) ++ x_nodes r (c + 1 + nodes_in l) ++ post) in *.
      assert (E1 : pre ++ (n :: x_nodes l (c + 1) ++ x_nodes r (c + 1 + nodes_in l)) ++ post = W) by (unfold W; cbn [app]; rewrite <- !app_assoc; reflexivity).
      assert (E2 : (pre ++ n :: x_nodes l (c + 1)) ++ x_nodes r (c + 1 + nodes_in l) ++ post = W) by (unfold W; rewrite <- !app_assoc; reflexivity).
      rewrite E2 in Dr. rewrite E1.
      assert (Ef : f = xSIndex n mod 2 ^ 31) by (unfold n, x_split; cbn [xSIndex]; destruct dl; [rewrite <- (Z.mul_1_l (2 ^ 31)) at 1; rewrite Z_mod_plus_full|rewrite Z.add_0_r]; symmetry; apply Z.mod_small; exact Hf).
      assert (Ed : dl = (2 ^ 31 <=? xSIndex n)) by (unfold n, x_split; cbn [xSIndex]; destruct dl; lia).
      assert (G : zget W c = Some n) by (rewrite <- E1; subst c; apply (zget_middle _ pre n)).
      pose proof (xd_node W c n _ _ il ir G Dl Dr) as D. rewrite <- Ef, <- Ed in D. exact D.
    + constructor.
      * intros I. apply in_app_or in I. destruct I as [I|I]; [apply Rl in I|apply Rr in I]; lia.
      * apply nodup_join; auto. intros i I J. apply Rl in I. apply Rr in J. lia.
    + intros i [<-|I]; [lia|]. apply in_app_or in I. destruct I as [I|I]; [apply Rl in I|apply Rr in I]; lia.
Qed.
Lemma x_walks : forall t c x, exists id, walk (reference fle (x_numbered t c)) x = option_map (fun v => (v, id)) (value_of (xrule_left fle) f64_of_f32bits t x).
Proof.
  induction t as [v|f [thr dl] l IHl r IHr]; intros c x; cbn [x_numbered reference walk value_of]; [exists c; reflexivity|].
  destruct (zget x f) as [z|]; [|exists 0; reflexivity]. change (xrule_left fle (XRule thr dl) z) with (xg_left fle (f64_of_f32bits thr) dl z). destruct (xg_left _ _ _ _); auto.
Qed.
Lemma x_below : forall P Q n t c, made_of n P Q t -> features_below n (reference fle (x_numbered t c)).
Proof. induction t as [v|f [thr dl] l IHl r IHr]; intros c M; cbn [x_numbered reference features_below made_of] in *; [exact I|]. destruct M as (Hf & _ & Ml & Mr). auto. Qed.
Lemma below_more : forall d n m, features_below n d -> n <= m -> features_below m d.
Proof. induction d as [|f t l IHl r IHr]; intros n m H L; cbn [features_below] in *; [exact I|]. destruct H as (A & B & C). split; [lia|]. eauto. Qed.
Lemma made_more : forall R V (P P' : R -> Prop) (Q Q' : V -> Prop) n m (t : tree R V), made_of n P Q t -> n <= m -> (forall r, P r -> P' r) -> (forall v, Q v -> Q' v) -> made_of m P' Q' t.
Proof. induction t as [v|f rl l IHl r IHr]; intros M L HP HQ; cbn [made_of] in *; [auto|]. destruct M as (A & B & C & D). split; [lia|]. auto. Qed.

Definition x_write (features groups base : Z) (weights : option (list Z)) (trees : list (tree xrule Z)) : ModelHeader * GBTreeModel :=
  (mkHeader (mkLearner base features 0 0 0 (repeat 0 29)) (bs "binary:logistic") (match weights with Some _ => bs "dart" | None => bs "gbtree" end),
   x_model features groups (map (fun t => x_tree features (x_nodes t 0)) trees)).
Definition x_text (features groups base : Z) (weights : option (list Z)) (trees : list (tree xrule Z)) : bytes :=
  let hm := x_write features groups base weights trees in
  e_xg_file (fst hm) (snd hm) (map (fun _ => []) trees) (match weights with Some ws => ws | None => [] end).
(** the weight of tree [i] *)
Definition weight_at (weights : option (list Z)) (i : Z) : option f64 :=
  match weights with Some ws => option_map f64_of_f32bits (zget ws i) | None => Some fone end.

Section Xg.
  Variables (p : platform) (features groups base : Z) (weights : option (list Z)) (trees : list (tree xrule Z)).
  Hypothesis Hf : 1 <= features < 2 ^ 31.
  Hypothesis Hg : 1 <= groups < 2 ^ 31.
  Hypothesis Hn : 1 <= zlen trees < 2 ^ 31.
  Hypothesis Hb : uint32 base.
  Hypothesis Ha : 15 <= pl_maxalloc p /\ groups <= pl_maxalloc p /\ zlen trees <= pl_maxalloc p.
  Hypothesis Hw : match weights with Some ws => zlen ws = zlen trees /\ Forall uint32 ws | None => True end.
  Hypothesis Ht : Forall (fun t => made_of features (fun r => uint32 (xr_threshold r)) uint32 t /\ nodes_in t < 2 ^ 31 /\ nodes_in t <= pl_maxalloc p) trees.
  Let h := fst (x_write features groups base weights trees).
  Let m := snd (x_write features groups base weights trees).

  Lemma zeros_ok : forall n, Forall int32 (repeat 0 n).
  Proof. intros n. apply Forall_forall. intros z I. apply repeat_spec in I. subst z. unfold int32. lia. Qed.
  Lemma x_nodes_ok : forall t c, 0 <= c -> c + nodes_in t <= 2 ^ 31 -> made_of features (fun r => uint32 (xr_threshold r)) uint32 t -> Forall node_ok (x_nodes t c).
  Proof.
    clear Ht Hw Ha Hb Hn. change (2 ^ 31) with 2147483648 in *. induction t as [v|f [thr dl] l IHl r IHr]; intros c C N M; cbn [x_nodes nodes_in made_of] in *.
    - constructor; [|constructor]. unfold node_ok, x_leaf, int32, uint32 in *. cbn. lia.
    - destruct M as (Mf & Mr & Ml & Mr'). pose proof (nodes_pos _ _ l). pose proof (nodes_pos _ _ r). constructor; [|apply Forall_app; split; [apply IHl|apply IHr]; auto; lia].
      unfold node_ok, x_split, int32, uint32 in *. cbn [xParent xCLeft xCRight xSIndex xInfo xr_threshold] in *. change (2 ^ 31) with 2147483648 in *. change (2 ^ 32) with 4294967296 in *. destruct dl; lia.
  Qed.
  Lemma x_file_ok : xg_file_ok (pl_maxalloc p) h m (map (fun _ => []) trees) (match weights with Some ws => ws | None => [] end).
  Proof.
    change (2 ^ 31) with 2147483648 in *. unfold xg_file_ok. split; [|split; [|split]].
    - split; [|split].
      + unfold learner_ok, h, x_write. cbn [fst mhParam lmBaseScore lmNumFeatures lmNumClass lmContainExtraAttrs lmContainEvalMetrics lmReserved].
        split; [exact Hb|]. split; [unfold uint32; lia|]. do 3 (split; [unfold int32; lia|]). split; [apply zeros_ok|apply repeat_length].
      + unfold h, x_write. cbn [fst mhNameObj]. change (zlen (bs "binary:logistic")) with 15. split; lia.
      + unfold h, x_write. cbn [fst mhNameGbm]. destruct weights; [change (zlen (bs "dart")) with 4|change (zlen (bs "gbtree")) with 6]; split; lia.
    - assert (L : zlen (map (fun t => x_tree features (x_nodes t 0)) trees) = zlen trees) by (unfold zlen; rewrite map_length; reflexivity).
      unfold m, x_write, x_model. cbn [snd]. unfold gbtree_ok. cbn [gmParam gmTrees gmTreeInfo gpNumTrees]. rewrite L. split; [|split; [|split; [|split; [|split]]]].
      + unfold gbtree_param_ok. cbn [gpNumTrees gpNumRoots gpNumFeature gpPad32bit gpNumPbufferDeprecated gpNumOutputGroup gpSizeLeafVector gpReserved]. unfold int32, int64.
        repeat (split; [lia|]). split; [apply zeros_ok|apply repeat_length].
      + pose proof Ht as K. clear - K Hf. induction K as [|t ts (M & N & A) _ IH]; cbn [map]; constructor; auto.
        unfold tree_ok_x, x_tree. cbn [tmParam tmNodes tmStats tpNumNodes]. rewrite x_nodes_len. pose proof (nodes_pos _ _ t). split; [|split; [|split; [|split; [|split; [|split; [|split]]]]]].
        * unfold tree_param_ok. cbn [tpNumRoots tpNumNodes tpNumDeleted tpMaxDepth tpNumFeature tpSizeLeafVector tpReserved]. unfold int32. repeat (split; [lia|]). split; [apply zeros_ok|apply repeat_length].
        * apply x_nodes_ok; auto; lia.
        * apply Forall_forall. intros s I. apply in_map_iff in I. destruct I as (n & <- & _). unfold stat_ok, uint32, int32. cbn. lia.
        * reflexivity.
        * unfold zlen. rewrite map_length. apply x_nodes_len.
        * exact A.
        * constructor.
        * split; [reflexivity|]. change (zlen (@nil Z)) with 0. lia.

      + reflexivity.
      + unfold zlen at 1. rewrite map_length. fold (zlen (zseq (zlen trees))). apply zseq_zlen. lia.
      + apply Forall_forall. intros z I. apply in_map_iff in I. destruct I as (i & <- & _). destruct (Z.eqb_spec groups 0); [unfold int32; lia|]. pose proof (Z.mod_pos_bound i groups). unfold int32. lia.
      + lia.
    - destruct weights as [ws|]; [apply Hw|constructor].
    - destruct weights as [ws|]; unfold vector_ok; [destruct Hw as [E _]; lia|]. change (zlen (@nil Z)) with 0. split; lia.
  Qed.
  Lemma x_file_says : forall load, xg_says h m (match weights with Some ws => ws | None => [] end) load (map (fun t => x_numbered t 0) trees).
  Proof.
    intros load. change (2 ^ 31) with 2147483648 in *. assert (L : zlen (map (fun t => x_tree features (x_nodes t 0)) trees) = zlen trees) by (unfold zlen; rewrite map_length; reflexivity).
    split.
    - unfold h, x_write. cbn [fst mhNameGbm]. destruct weights; auto.
    - exact Hf.
    - cbn. lia.
    - cbn. rewrite L. lia.
    - reflexivity.
    - apply Hg.
    - intros i Hi. unfold m, x_write, x_model in *. cbn [snd gmParam gpNumTrees gmTreeInfo gpNumOutputGroup] in *. rewrite L in *. rewrite zget_map, zget_zseq by lia. cbn [option_map]. replace (groups =? 0) with false by lia. reflexivity.
    - unfold h, x_write, is_dart. cbn [fst mhNameGbm snd gmParam m]. destruct weights as [ws|]; [intros _|discriminate]. unfold x_model. cbn. rewrite L. apply Hw.
    - reflexivity.
    - unfold m, x_write, x_model. cbn [snd gmTrees]. unfold h, x_write. cbn [fst mhParam lmNumFeatures]. pose proof Ht as K. clear - K Hf. induction K as [|t ts (M & N & A) _ IH]; cbn [map]; constructor; auto.
      split; [reflexivity|]. split; [cbn; lia|]. split; [reflexivity|]. cbn [x_tree tmNodes].
      destruct (x_described t 0 [] [] eq_refl) as (ids & D & ND & _). { apply (made_more _ _ _ _ _ _ features _ t M); auto. lia. }
      exists ids. rewrite app_nil_r in D. split; [exact D|]. split; [exact ND|]. destruct t as [v|f [thr dl] l r]; [reflexivity|discriminate].
  Qed.
End Xg.

(** Whatever the shapes and depths of the trees, their rules and their leaf values, there is a file that loads as the ensemble,
    and its scores are the weighted sums of what the trees say. *)
Theorem C80_xgboost :
  forall p features groups base weights trees,
  1 <= features < 2 ^ 31 -> 1 <= groups < 2 ^ 31 -> 1 <= zlen trees < 2 ^ 31 -> uint32 base ->
  15 <= pl_maxalloc p /\ groups <= pl_maxalloc p /\ zlen trees <= pl_maxalloc p ->
  match weights with Some ws => zlen ws = zlen trees /\ Forall uint32 ws | None => True end ->
  Forall (fun t => made_of features (fun r => uint32 (xr_threshold r)) uint32 t /\ nodes_in t < 2 ^ 31 /\ nodes_in t <= pl_maxalloc p) trees ->
  exists text, forall rest eof load, exists e,
    XGEnsembleFromReader p (mkReader (text ++ rest) eof) load = Ok e /\ NRawOutputGroups e = groups /\ NEstimators e = Ok (zlen trees / groups) /\ NFeatures e = (if features =? 1 then 0 else features) /\
    Transformation_ e = (if load then TransformLogistic else TransformRaw groups) /\
    forall x nEstimators predictions, features <= zlen x -> NOutputGroups e <= zlen predictions ->
    exists out, Predict p e x nEstimators predictions = Ok out /\
    (load = false -> exists n, used_estimators e nEstimators n /\
     forall k, 0 <= k < groups -> exists vs ws,
       values_of (xrule_left fle) f64_of_f32bits trees groups k n x vs /\
       zlen ws = n /\ (forall i, 0 <= i < n -> zget ws i = weight_at weights (i * groups + k)) /\
       zget out k = Some (sum_from (f64_of_f32bits base) (map (fun vw => fmul (fst vw) (snd vw)) (combine vs ws)))).
Proof.
  intros p features groups base weights trees Hf Hg Hn Hb Ha Hw Ht. exists (x_text features groups base weights trees). intros rest eof load.
  pose proof (x_file_ok p features groups base weights trees Hf Hg Hn Hb Ha Hw Ht) as Ok1. pose proof (x_file_says p features groups base weights trees Hf Hg Hn Hw Ht load) as Says.
  destruct (C39_xgboost_file _ _ _ _ _ _ _ rest eof Ok1 Says) as (e & E & G & N & NF & _ & T & P). exists e. split; [exact E|].
  assert (L : zlen (map (fun t => x_tree features (x_nodes t 0)) trees) = zlen trees) by (unfold zlen; rewrite map_length; reflexivity).
  split; [exact G|]. split; [rewrite N; cbn; rewrite L; reflexivity|]. split; [exact NF|]. split; [exact T|]. intros x nE preds Hx Hp.
  destruct (P x nE preds) as (out & EP & S).
  - apply Forall_forall. intros xt I. apply in_map_iff in I. destruct I as (t & <- & I). rewrite Forall_forall in Ht. destruct (Ht t I) as (M & _). eapply below_more; [eapply x_below; exact M|exact Hx].
  - rewrite NF. cbn [x_write fst mhParam lmNumFeatures]. destruct (_ =? 1); pose proof (zlen_nonneg _ x); lia.
  - exact Hp.
  - cbn [x_write snd x_model gmParam gpNumOutputGroup]. lia.
  - exists out. split; [exact EP|]. intros HL. destruct (S HL) as (n & U & K). exists n. split; [exact U|]. intros k Hk. destruct (K k Hk) as (vs & ws & [L1 T1] & L2 & W & Z).
    exists vs, ws. split; [|split; [exact L2|split; [|exact Z]]].
    + split; [exact L1|]. intros i Hi. destruct (T1 i Hi) as (d & v & leaf & Zd & Wd & Zv). rewrite map_map, zget_map in Zd.
      change (gpNumOutputGroup (gmParam (snd (x_write features groups base weights trees)))) with groups in Zd.
      destruct (zget trees (i * groups + k)) as [t|] eqn:Zt; [|discriminate]. injection Zd as <-. exists t, v. split; [reflexivity|]. split; [|exact Zv].
      destruct (x_walks t 0 x) as (id & E'). rewrite E' in Wd. destruct (value_of _ _ t x); [injection Wd as -> _; reflexivity|discriminate].
    + intros i Hi. rewrite (W i Hi). unfold weight, weight_at, is_dart. cbn [x_write fst mhNameGbm]. destruct weights; reflexivity.
Qed.
Print Assumptions C80_xgboost.

(** ** Linear models *)
Definition lin_file (features groups base : Z) (weight : Z -> Z -> Z) (bias : Z -> Z) : ModelHeader * GBLinearModel :=
  (mkHeader (mkLearner base features 0 0 0 (repeat 0 29)) (bs "binary:logistic") (bs "gblinear"),
   mkGBLinear (mkGBLinearParam features groups (repeat 0 32))
     (map (fun j => if j <? features * groups then weight (j / groups) (j mod groups) else bias (j - features * groups)) (zseq ((features + 1) * groups)))).
(** Whatever the weights and biases (the bits of float32 numbers): there is a file, and its scores are the affine function. *)
Theorem C80_gblinear :
  forall p features groups base weight bias,
  1 <= features < 2 ^ 31 -> 1 <= groups < 2 ^ 31 -> uint32 base ->
  (forall i k, 0 <= i < features -> 0 <= k < groups -> uint32 (weight i k)) -> (forall k, 0 <= k < groups -> uint32 (bias k)) ->
  15 <= pl_maxalloc p -> (features + 1) * groups <= pl_maxalloc p ->
  exists text, forall rest eof load, exists e,
    XGBLinearFromReader p (mkReader (text ++ rest) eof) load = Ok e /\ NRawOutputGroups e = groups /\ NEstimators e = Ok 1 /\ NFeatures e = features /\
    Transformation_ e = (if load then TransformLogistic else TransformRaw groups) /\
    forall x nEstimators predictions, features <= zlen x -> NOutputGroups e <= zlen predictions ->
    exists out, Predict p e x nEstimators predictions = Ok out /\
    (load = false -> forall k, 0 <= k < groups -> exists terms,
       zlen terms = features /\
       (forall i, 0 <= i < features -> exists v, zget x i = Some v /\ zget terms i = Some (fmul v (f64_of_f32bits (weight i k)))) /\
       zget out k = Some (sum_from (fadd (f64_of_f32bits base) (f64_of_f32bits (bias k))) terms)).
Proof.
  intros p nf g base weight bias Hf Hg Hb Hw Hi Ha Hal. set (h := fst (lin_file nf g base weight bias)). set (m := snd (lin_file nf g base weight bias)).
  assert (L : zlen (blWeights m) = (nf + 1) * g) by (unfold m, lin_file; cbn [snd blWeights]; unfold zlen at 1; rewrite map_length; fold (zlen (zseq ((nf + 1) * g))); apply zseq_zlen; nia).
  assert (G : forall j, 0 <= j < (nf + 1) * g -> zget (blWeights m) j = Some (if j <? nf * g then weight (j / g) (j mod g) else bias (j - nf * g))).
  { intros j Hj. unfold m, lin_file. cbn [snd blWeights]. rewrite zget_map, zget_zseq by exact Hj. reflexivity. }
  assert (Gw : forall i k, 0 <= i < nf -> 0 <= k < g -> zget (blWeights m) (i * g + k) = Some (weight i k)).
  { intros i k H1 H2. rewrite G by nia. replace (i * g + k <? nf * g) with true by nia. rewrite Z.div_add_l, Z.div_small, Z.add_0_r, Z.add_comm, Z.mod_add, Z.mod_small by lia. reflexivity. }
  assert (Gb : forall k, 0 <= k < g -> zget (blWeights m) (nf * g + k) = Some (bias k)).
  { intros k H. rewrite G by nia. replace (nf * g + k <? nf * g) with false by lia. do 2 f_equal. lia. }
  assert (Ok1 : xgl_file_ok (pl_maxalloc p) h m).
  { split.
    - unfold header_ok_x, h, lin_file. cbn [fst mhParam mhNameObj mhNameGbm]. change (zlen (bs "binary:logistic")) with 15. change (zlen (bs "gblinear")) with 8. split; [|split; split; lia].
      unfold learner_ok. cbn [lmBaseScore lmNumFeatures lmNumClass lmContainExtraAttrs lmContainEvalMetrics lmReserved].
      split; [exact Hb|]. split; [unfold uint32; lia|]. do 3 (split; [unfold int32; lia|]). split; [apply zeros_ok|apply repeat_length].
    - unfold gblinear_ok. split; [change (uint32 nf); unfold uint32; lia|]. split; [change (int32 g); unfold int32; lia|]. split; [apply zeros_ok|]. split; [apply repeat_length|]. split; [|split; [rewrite L; nia|lia]].
      apply Forall_forall. intros w I. apply in_zget in I. destruct I as (j & Ij). pose proof (zget_range _ _ _ _ Ij) as Rj. rewrite L in Rj. rewrite (G j Rj) in Ij. injection Ij as <-.
      destruct (Z.ltb_spec j (nf * g)); [apply Hw; [split; [apply Z.div_pos; lia|apply Z.div_lt_upper_bound; nia]|apply Z.mod_pos_bound; lia]|apply Hi; nia]. }
  exists (e_xgl_file h m). intros rest eof load.
  destruct (C40_gblinear_file p h m load rest eof Ok1 eq_refl) as (e & E & G1 & N & NF & _ & T & P); [apply Hf|reflexivity|apply Hg|exact L|].
  exists e. split; [exact E|]. split; [exact G1|]. split; [exact N|]. split; [exact NF|]. split; [exact T|]. intros x nE preds Hx Hp.
  destruct (P x nE preds Hx Hp) as (out & EP & S). { change (g <= pl_maxalloc p). nia. }
  exists out. split; [exact EP|]. intros HL k Hk. destruct (S HL k Hk) as (b & terms & B & Lt & Tt & Zo). change (zget (blWeights m) (nf * g + k) = Some b) in B. rewrite (Gb k Hk) in B. injection B as <-.
  exists terms. split; [exact Lt|]. split; [|exact Zo]. intros i Hi2. destruct (Tt i Hi2) as (v & w & V & W & X). change (zget (blWeights m) (i * g + k) = Some w) in W. rewrite (Gw i k Hi2 Hk) in W. injection W as <-. eauto.
Qed.
Print Assumptions C80_gblinear.
