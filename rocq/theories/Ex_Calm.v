(** * C66: files that meet the hypotheses, and files on which loading does crash *)

From Coq Require Import ZArith List Bool String Lia ZifyBool.
From Verif Require Import Go GoFloat GoText UtilText LgTree Transformation Ensembles Leaves LgTextIO LgJsonIO JsonText XgBin XgIO Pickle SkClasses SkIO.
From Verif Require Import Spec_Tree Spec_LgText Spec_Params Spec_LgFile Spec_LgJson Spec_JsonText Spec_XgFile Spec_SkFile Spec_Calm.
From Verif Require Import Pf_Go Pf_Words Pf_LgFile Pf_LgJson Pf_JsonText Prop_LgText Prop_JsonText Prop_Xg Prop_Sk Prop_Calm Prop_CalmJson Prop_CalmSk.
From Verif Require Import Demo DemoText Ex_LgText Ex_LgJson Ex_JsonText Ex_Xg Ex_Sk.
Local Open Scope Z_scope.

(** ** LightGBM text: the file of Ex_LgText.v meets the hypothesis *)
Lemma eta_text : forall a, a = mkText (tt_left a) (tt_right a) (tt_decision a) (tt_feature a) (tt_threshold a) (tt_cat_threshold a) (tt_cat_boundaries a) (tt_leaf_value a).
Proof. intros []; reflexivity. Qed.
Lemma text_unique : forall kvs kvs' pf nl nc a nl' nc' a', (forall key, last_value kvs key = last_value kvs' key) ->
  2 <= nl -> text_block pf kvs nl nc a -> text_block pf kvs' nl' nc' a' -> nl' = nl /\ a' = a.
Proof.
  assert (Ls : forall A kvs kvs' key (reads : bytes -> A -> Prop) (f : bytes -> option A) l l', (forall s x, reads s x <-> f s = Some x) -> (forall key, last_value kvs key = last_value kvs' key) -> lists kvs key reads l -> lists kvs' key reads l' -> l' = l).
  { intros A kvs kvs' key reads f l l' R L (v & ts & E & Ps & M) (v' & ts' & E' & Ps' & M'). rewrite L in E. rewrite E in E'. injection E' as <-. apply parts_split in Ps, Ps'. subst ts ts'. apply (reads_map _ _ _ R) in M, M'. rewrite M in M'. clear - M'. revert l' M'. induction l as [|x l IH]; intros [|y l'] M; try discriminate; [reflexivity|]. injection M as -> M. rewrite (IH l' M). reflexivity. }
  assert (Sy : forall kvs kvs' key z z', (forall key, last_value kvs key = last_value kvs' key) -> says kvs key z -> says kvs' key z' -> z' = z).
  { intros kvs kvs' key z z' L (v & E & M) (v' & E' & M'). rewrite L in E. apply int64_iff in M, M'. congruence. }
  intros kvs kvs' pf nl nc a nl' nc' a' L N (H1 & H2 & H3 & H4) (K1 & K2 & K3 & K4). pose proof (Sy _ _ _ _ _ L H1 K1) as ->. pose proof (Sy _ _ _ _ _ L H2 K2) as ->. split; [reflexivity|].
  destruct (H4 N) as (A1 & A2 & A3 & A4 & A5 & A6). destruct (K4 N) as (B1 & B2 & B3 & B4 & B5 & B6).
  assert (C : tt_cat_threshold a' = tt_cat_threshold a /\ tt_cat_boundaries a' = tt_cat_boundaries a).
  { destruct (0 <? nc); [destruct A6, B6; split; eapply Ls; eauto; apply uint32_iff|]. destruct A6, B6; split; congruence. }
  destruct C as (C1 & C2). rewrite (eta_text a), (eta_text a'), C1, C2. f_equal; eapply Ls; eauto; first [apply int32_iff|apply uint32_iff|apply (float_iff pf)].
Qed.

Lemma read_same : forall text kvs rest, block true text kvs rest -> is_ok (ReadParamsUntilBlank (mkReader text true)) = true /\ rest = rest_of text /\ forall key, last_value kvs key = UtilText.lookup (params_of text) key.
Proof. intros text kvs rest B. destruct (read_block _ _ _ _ B) as (ps & E & L). unfold rest_of, params_of. rewrite E. cbn [is_ok rd_bytes]. split; [reflexivity|]. split; [reflexivity|]. intros key. symmetry. apply L. Qed.
Lemma blocks_empty : forall kvss, blocks true [] kvss -> kvss = [].
Proof. intros kvss B. inversion B as [|text kvs rest kvss' B1 B2]; subst; [reflexivity|]. destruct (read_same _ _ _ B1) as (K & _). vm_compute in K. discriminate. Qed.

Definition block_fits (p : platform) (kvs : list (bytes * bytes)) : Prop :=
  forall num_leaves num_cat a, 2 <= num_leaves -> text_block (pl_parse_float p) kvs num_leaves num_cat a -> text_fits (pl_maxalloc p) num_leaves a.

Example ex_arrays_fit : text_fits (pl_maxalloc amd64_text) 3 ex_arrays.
Proof.
  split; try (vm_compute; discriminate); try (vm_compute; reflexivity).
  - intros i c Hi H. assert (Hc : i = 0 \/ i = 1) by lia. destruct Hc as [-> | ->]; vm_compute in H; destruct H as [[= <-]|[= <-]]; vm_compute; reflexivity.
  - intros i d thr Hi Hd Hc Ht. assert (K : i = 0 \/ i = 1) by lia. destruct K as [-> | ->].
    + exists 0, 0, 2. vm_compute in Ht. injection Ht as <-. split; [reflexivity|]. split; [reflexivity|]. split; [reflexivity|]. change (zlen (tt_cat_threshold ex_arrays)) with 2. lia.
    + vm_compute in Hd. injection Hd as <-. vm_compute in Hc. discriminate.
Qed.

Example C66_text_hypothesis :
  forall header blocks_before kvs num_leaves num_cat a,
  blocks true ex_file (header :: blocks_before ++ [kvs]) -> 2 <= num_leaves ->
  text_block (pl_parse_float amd64_text) kvs num_leaves num_cat a -> text_fits (pl_maxalloc amd64_text) num_leaves a.
Proof.
  assert (T0 : exists kvs, block true (rest_of ex_file) kvs (rest_of (rest_of ex_file)) /\ text_block (pl_parse_float amd64_text) kvs 3 1 ex_arrays).
  { destruct (block_of (rest_of ex_file) eq_refl) as (kvs & B & L). exists kvs. split; [exact B|]. split; [value L|]. split; [value L|]. split; [value L|]. intros _. do 5 (split; [value L|]). change (0 <? 1) with true. cbv iota. split; value L. }
  destruct T0 as (kvs0 & B0 & Tb). destruct (read_same _ _ _ B0) as (_ & _ & L0).
  intros header before kvs nl nc a B N Ht. inversion B as [|? ? ? ? B1 B2]; subst. destruct (read_same _ _ _ B1) as (_ & -> & _). clear B B1.
  assert (One : forall text kvs' tail, blocks true text (kvs' :: tail) -> blocks true (rest_of text) tail /\ forall key, last_value kvs' key = UtilText.lookup (params_of text) key).
  { intros text kvs' tail K. inversion K as [|? ? ? ? K1 K2]; subst. destruct (read_same _ _ _ K1) as (_ & -> & L). auto. }
  assert (NoNl : forall text key v, (forall key, last_value kvs key = UtilText.lookup (params_of text) key) -> UtilText.lookup (params_of text) (bs "num_leaves") = v -> key = bs "num_leaves" -> (v = None \/ v = Some (bs "1")) -> False).
  { intros text key v L Ev _ Hv. destruct Ht as ((w & E1 & E2) & _). rewrite L, Ev in E1. destruct Hv as [->| ->]; [discriminate|]. injection E1 as <-. apply int64_iff in E2. vm_compute in E2. injection E2 as <-. lia. }
  destruct before as [|b1 before].
  - cbn [app] in B2. destruct (One _ _ _ B2) as (_ & L). destruct (text_unique kvs0 kvs _ 3 1 ex_arrays _ _ _ (fun k => eq_trans (L0 k) (eq_sym (L k))) ltac:(lia) Tb Ht) as (-> & ->). exact ex_arrays_fit.
  - cbn [app] in B2. destruct (One _ _ _ B2) as (B3 & _). clear B2. destruct before as [|b2 before].
    + cbn [app] in B3. destruct (One _ _ _ B3) as (_ & L). exfalso. eapply NoNl; [exact L|reflexivity|reflexivity|]. right. vm_compute. reflexivity.
    + cbn [app] in B3. destruct (One _ _ _ B3) as (B4 & _). clear B3. destruct before as [|b3 before].
      * cbn [app] in B4. destruct (One _ _ _ B4) as (_ & L). exfalso. eapply NoNl; [exact L|reflexivity|reflexivity|]. left. vm_compute. reflexivity.
      * cbn [app] in B4. destruct (One _ _ _ B4) as (B5 & _). exfalso. change (rest_of (rest_of (rest_of (rest_of ex_file)))) with (rest_of (rest_of (rest_of (rest_of ex_file)))) in B5.
        assert (E5 : rest_of (rest_of (rest_of (rest_of ex_file))) = []) by (vm_compute; reflexivity). rewrite E5 in B5. apply blocks_empty in B5. destruct before; discriminate.
Qed.

(** the left_child array of the first tree is one entry short; or it names node 7 *)
Definition lg_file (left : string) : bytes := file
  (["tree"; "version=v2"; "num_class=1"; "num_tree_per_iteration=1"; "max_feature_idx=1"; "objective=binary sigmoid:1"; "tree_sizes=100"; "";
    "Tree=0"; "num_leaves=3"; "num_cat=0"; "split_feature=0 1"; "threshold=0 2.5"; "decision_type=2 10"; left; "right_child=-3 -2"; "leaf_value=0.5 -1.25 3"; ""; "";
    "feature importances:"])%string.
Theorem C66_text_short_array_refuted :
  came_back (LGEnsembleFromReader amd64_text (mkReader (lg_file "left_child=1 -1") true) false) /\
  exists m, LGEnsembleFromReader amd64_text (mkReader (lg_file "left_child=1") true) false = Panic m.
Proof. split; [left; eexists|eexists]; vm_compute; reflexivity. Qed.
Theorem C66_text_missing_child_refuted :
  exists m, LGEnsembleFromReader amd64_text (mkReader (lg_file "left_child=7 -1") true) false = Panic m.
Proof. eexists; vm_compute; reflexivity. Qed.

(** ** XGBoost *)
Example C66_xg_hypotheses : xg_file_ok 1000 ex_header ex_model [[]; []; []; []] ex_weights /\ Forall children_exist (gmTrees ex_model) /\ 1000 <= pl_maxalloc amd64.
Proof. split; [exact ex_file_ok|]. split; [|exact ex_alloc]. repeat constructor; vm_compute; reflexivity. Qed.
Theorem C66_xg_missing_child_refuted :
  exists m, XGEnsembleFromReader amd64 (mkReader (x_file 2 1 [x_tree 2 [x_split 0 false f32_one 1 3; x_leaf f32_two; x_leaf f32_three]]) true) false = Panic m.
Proof. eexists; vm_compute; reflexivity. Qed.
Example C66_gblinear_hypotheses : xgl_file_ok 1000 (x_header 2 [] (bs "gblinear")) ex_linear /\ exists text text',
  e_xgl_file (x_header 2 [] (bs "gblinear")) ex_linear ++ bs "more" = text ++ text' /\ (100 < List.length text)%nat.
Proof. split; [apply ex_linear_ok|]. exists (firstn 120 (e_xgl_file (x_header 2 [] (bs "gblinear")) ex_linear ++ bs "more")). eexists. split; [symmetry; apply firstn_skipn|vm_compute; repeat constructor]. Qed.

(** ** scikit-learn *)
Example C66_sk_hypotheses : exists s mu,
  Spec_Pickle.enc amd64_text true [] (py_gb k_model) s mu /\ gb_is k_model (py_gb k_model) /\ 0 <= gbNClasses k_model /\
  zlen (gbEstimators k_model) = gbNEstimators k_model * score_groups (gbNClasses k_model) /\ sk_fits (pl_maxalloc amd64_text) k_model /\
  Forall (fun r => sk_tree_fits (pl_maxalloc amd64_text) (srTree r)) (gbEstimators k_model).
Proof.
  destruct C47_demo_hypotheses as (s & mu & H1 & H2 & H3 & H4 & _). exists s, mu. repeat (split; [assumption||(vm_compute; congruence)|]). 
  constructor; [|constructor; [|constructor]].
  - split; [split; vm_compute; congruence|vm_compute; reflexivity|vm_compute; congruence| |].
    + cbn [srTree k_tree stNodes k_nodes]. repeat (apply Forall_cons; [intros H; first [exfalso; apply H; reflexivity|vm_compute; repeat split; congruence]|]). apply Forall_nil.
    + intros _ root E. vm_compute in E. injection E as <-. vm_compute. congruence.
  - split; [split; vm_compute; congruence|vm_compute; reflexivity|vm_compute; congruence| |].
    + apply Forall_cons; [intros H; exfalso; apply H; reflexivity|apply Forall_nil].
    + intros H. vm_compute in H. discriminate.
Qed.
(** a child number beyond the nodes; a file that ends before anything was pushed *)
Theorem C66_sk_missing_child_refuted :
  exists m, SKEnsembleFromReader amd64_text (k_file (k_gb 1 2 [k_tree [k_split 1 1 9 (fint 5); k_leaf; k_leaf] [fint 0; fint 3; fint 4]])) true = Panic m.
Proof. eexists; vm_compute; reflexivity. Qed.
Theorem C66_sk_empty_stack_refuted :
  exists m, SKEnsembleFromReader amd64_text (mkReader (bs ".") true) true = Panic m.
Proof. eexists; vm_compute; reflexivity. Qed.

(** ** LightGBM JSON *)
(** in a text of ASCII characters other than the backslash nothing is improper *)
Definition plain_text (t : bytes) : Prop := Forall (fun c => byteZ c < 128 /\ byteZ c <> 92) t.
Lemma plain_app : forall s t, plain_text (s ++ t) -> plain_text s /\ plain_text t.
Proof. intros s t H. apply Forall_app in H. exact H. Qed.
Lemma plain_cons : forall c t, plain_text (c :: t) -> plain_text t.
Proof. intros c t H. inversion H; auto. Qed.
Lemma chars_proper : forall o t, json_chars false o t -> plain_text t -> json_chars true o t.
Proof.
  intros o t H. induction H as [|o t o' t' H1 H2 IH]; intros P; [constructor|]. apply plain_app in P. destruct P as (P1 & P2). constructor; [|auto].
  inversion H1; subst; try (econstructor; eauto; fail); exfalso; inversion P1 as [|? ? (Q1 & Q2) _]; subst; try lia; apply Q2; reflexivity.
Qed.
Lemma text_proper_all :
  (forall v t, json_text false v t -> plain_text t -> json_text true v t) /\ (forall l t, elements_text false l t -> plain_text t -> elements_text true l t) /\
  (forall l t, members_text false l t -> plain_text t -> members_text true l t) /\ (forall k v t, member_text false k v t -> plain_text t -> member_text true k v t).
Proof.
  apply json_text_mutind; intros; repeat match goal with
    | H : plain_text (_ :: _) |- _ => apply plain_cons in H
    | H : plain_text (_ ++ _) |- _ => apply plain_app in H; destruct H
    end; try (constructor; auto using chars_proper; fail).
Qed.
Lemma plain_stream : forall s v doc c t, plain_text s -> skip_ws s = c :: t -> byteZ c = 123 ->
  (forall limit, 10 <= limit -> first_value limit (mkReader s true) = Some v) -> stream_says false doc s -> doc = v.
Proof.
  intros s v doc c t P K C V (w & t' & rest & -> & W & J). apply plain_app in P. destruct P as (_ & P). apply plain_app in P. destruct P as (P & _).
  apply (proj1 text_proper_all) in J; [|exact P]. rewrite skip_complete in K by (auto; eapply no_ws_text; eauto).
  assert (St : structured doc).
  { destruct J; try (injection K as <- _; vm_compute in C; discriminate); try (left; eexists; reflexivity); try (right; eexists; reflexivity).
    destruct (number_start _ H) as (d & t2 & -> & D). injection K as -> _. rewrite C in D. destruct D as [[_ D]|D]; [lia|lia]. }
  destruct (nesting_exists doc) as (n & M). pose proof (first_value_complete (Z.max n 10) w t' rest doc true W J St (M (Z.max n 10) ltac:(lia))) as E.
  rewrite (V (Z.max n 10) ltac:(lia)) in E. congruence.
Qed.

(** all members anywhere in a value *)
Fixpoint every_member (v : json) : list (bytes * json) :=
  match v with
  | JArr l => (fix go (l : list json) : list (bytes * json) := match l with [] => [] | x :: l => every_member x ++ go l end) l
  | JObj l => (fix go (l : list (bytes * json)) : list (bytes * json) := match l with [] => [] | (k, x) :: l => (k, x) :: every_member x ++ go l end) l
  | _ => []
  end.
Lemma member_in : forall k v doc, member k v doc -> In (k, v) (every_member doc).
Proof.
  intros k v doc H. induction H as [l I|l w I H IH|l k' w I H IH]; cbn [every_member].
  - induction l as [|[k0 x] l IHl]; [destruct I|]. destruct I as [[= -> ->]|I]; [left; reflexivity|]. right. apply in_or_app. right. auto.
  - clear H. induction l as [|x l IHl]; [destruct I|]. apply in_or_app. destruct I as [->|I]; [left; exact IH|right; auto].
  - clear H. induction l as [|[k0 x] l IHl]; [destruct I|]. right. apply in_or_app. destruct I as [[= -> ->]|I]; [left; exact IH|right; auto].
Qed.
Definition fits_b (alloc : Z) (kv : bytes * json) : bool :=
  match kv with
  | (k, JNum lit) => negb (key_is k (bs "num_leaves")) || match atoi lit with Some z => z - 1 <=? alloc | None => true end
  | (k, JStr s) => negb (key_is k (bs "threshold")) ||
      forallb (fun t => match atoi t with Some c => (0 <=? c) && (c <? 2 ^ 63 - 1) && (c / 32 <? alloc) | None => true end) (split s (bs "||"))
  | _ => true
  end.
Lemma fits_check : forall alloc doc, forallb (fits_b alloc) (every_member doc) = true -> json_fits alloc doc.
Proof.
  intros alloc doc H. rewrite forallb_forall in H. split.
  - intros k lit z M K E. apply member_in in M. specialize (H _ M). cbn [fits_b] in H. apply key_is_spells in K; [|reflexivity]. apply int64_iff in E. rewrite K, E in H. cbn [negb orb] in H. lia.
  - intros k s tokens token c M K Ps T E. apply pieces_split in Ps; [|discriminate]. subst tokens. apply member_in in M. specialize (H _ M). cbn [fits_b] in H. apply key_is_spells in K; [|reflexivity]. apply int64_iff in E. rewrite K in H. cbn [negb orb] in H. rewrite forallb_forall in H. specialize (H _ T). rewrite E in H. lia.
Qed.
Example ex_nesting_10 : forall n, 10 <= n -> nesting_within n ex_json.
Proof. intros n Hn. repeat (constructor; [lia|]; repeat (apply Forall_cons || apply Forall_nil; cbn [snd])); repeat constructor; lia. Qed.
Example C66_json_hypothesis : forall doc, stream_says false doc ([sp; nl] ++ ex_text) -> json_fits (pl_maxalloc amd64_text) doc.
Proof.
  intros doc H. assert (E : doc = ex_json).
  { refine (plain_stream ([sp; nl] ++ ex_text) ex_json doc _ _ _ _ _ _ H).
    - apply Forall_forall. intros c I. assert (K : forallb (fun c => (byteZ c <? 128) && negb (byteZ c =? 92)) ([sp; nl] ++ ex_text) = true) by (vm_compute; reflexivity). rewrite forallb_forall in K. specialize (K c I). lia.
    - vm_compute. reflexivity.
    - reflexivity.
    - intros limit L. destruct C64_demo_hypotheses as (B & J & St & _). rewrite <- (app_nil_r ex_text). apply first_value_complete; auto. apply ex_nesting_10; auto. }
  subst doc. apply fits_check. vm_compute. reflexivity.
Qed.
(** a negative category *)
Theorem C66_json_category_refuted :
  came_back (LGEnsembleFromJSONReader amd64_text 10000 (mkReader (write (cat_stump "3||40" "1")) true) false) /\
  exists m, LGEnsembleFromJSONReader amd64_text 10000 (mkReader (write (cat_stump "3||-40" "1")) true) false = Panic m.
Proof. split; [left; eexists|eexists]; vm_compute; reflexivity. Qed.

(** ** Matrix files: a matrix and an error *)
Example C66_matrix_demo :
  (exists m r, MatIO.DenseMatFromCsv amd64_text (mkReader (file ["1,2"; "3,4"]%string) true) 0 false (bs ",") fzero = Ok (m, r) /\ Mat.dmRows m = 2) /\
  (exists msg, MatIO.DenseMatFromCsv amd64_text (mkReader (file ["1,2"; "3"]%string) true) 0 false (bs ",") fzero = Err msg).
Proof. split; [do 2 eexists; split|eexists]; vm_compute; reflexivity. Qed.
