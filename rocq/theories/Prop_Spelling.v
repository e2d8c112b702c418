(** * C73: how a LightGBM text model is spelled does not matter *)

From Coq Require Import ZArith List Bool String Lia Permutation.
From Verif Require Import Go GoFloat GoText UtilText LgTree Transformation Ensembles Leaves LgTextIO
  Spec_Predict Spec_LgText Spec_Params Pf_Go Pf_Text Pf_LgFile Prop_Params Prop_LgText Demo DemoText Ex_LgText.
Local Open Scope Z_scope.

(** the parameters that mean something in the header and in a tree *)
Definition header_keys : list bytes :=
  map bs ["version"; "num_class"; "num_tree_per_iteration"; "max_feature_idx"; "tree_sizes"; "average_output"; "objective"]%string.
Definition tree_keys : list bytes :=
  map bs ["num_leaves"; "num_cat"; "leaf_value"; "left_child"; "right_child"; "decision_type"; "split_feature"; "threshold"; "cat_threshold"; "cat_boundaries"]%string.

(** two blocks say the same about these parameters (the last line with a key counts) *)
Definition say_the_same (keys : list bytes) (kvs kvs' : list (bytes * bytes)) : Prop :=
  forall key, In key keys -> last_value kvs key = last_value kvs' key.

Lemma key_eq : forall keys kvs kvs' ps ps', say_the_same keys kvs kvs' ->
  (forall key, lookup ps key = last_value kvs key) -> (forall key, lookup ps' key = last_value kvs' key) -> forall key, In key keys -> lookup ps key = lookup ps' key.
Proof. intros keys kvs kvs' ps ps' H L L' key K. rewrite L, L'. apply H, K. Qed.
Ltac known := unfold header_keys, tree_keys; cbn [map In]; tauto.
Lemma tree_same : forall p ps ps', (forall key, In key tree_keys -> lookup ps key = lookup ps' key) -> lgTreeFromParams p ps = lgTreeFromParams p ps'.
Proof.
  intros p ps ps' H. unfold lgTreeFromParams, ToInt, ToFloat64Slice, ToInt32Slice, ToUint32Slice, convert_tokens.
  rewrite (H (bs "num_cat")) by known. rewrite (H (bs "num_leaves")) by known. rewrite (H (bs "leaf_value")) by known. rewrite (H (bs "left_child")) by known. rewrite (H (bs "right_child")) by known.
  rewrite (H (bs "decision_type")) by known. rewrite (H (bs "split_feature")) by known. rewrite (H (bs "threshold")) by known. rewrite (H (bs "cat_threshold")) by known. rewrite (H (bs "cat_boundaries")) by known. reflexivity.
Qed.
Lemma header_same : forall ps ps', (forall key, In key header_keys -> lookup ps key = lookup ps' key) ->
  lg_header ps = lg_header ps' /\ forall load avg g, lg_transform ps load avg g = lg_transform ps' load avg g.
Proof.
  intros ps ps' H. unfold lg_header, lg_transform, Compare, ToInt, ToString, Contains.
  rewrite (H (bs "version")) by known. rewrite (H (bs "num_class")) by known. rewrite (H (bs "num_tree_per_iteration")) by known. rewrite (H (bs "max_feature_idx")) by known.
  rewrite (H (bs "average_output")) by known. rewrite (H (bs "tree_sizes")) by known. rewrite (H (bs "objective")) by known. auto.
Qed.
Lemma trees_same : forall p n eof eof' a b kas kbs, blocks eof a kas -> blocks eof' b kbs -> n = List.length kas -> Forall2 (say_the_same tree_keys) kas kbs ->
  forall ts r, lg_read_trees p n (mkReader a eof) = Ok (ts, r) -> exists r', lg_read_trees p n (mkReader b eof') = Ok (ts, r').
Proof.
  intros p n. induction n as [|n IH]; intros eof eof' a b kas kbs Ha Hb L F ts r H; cbn [lg_read_trees] in *; [injection H as <- <-; eauto|].
  destruct Ha as [|a ka ra kas Ba Ha]; [discriminate|]. inversion F as [|? kb ? kbs' S0 F']; subst. inversion Hb as [|? ? rb ? Bb Hb']; subst.
  destruct (read_block _ _ _ _ Ba) as (ps & Ea & La). destruct (read_block _ _ _ _ Bb) as (ps' & Eb & Lb). unfold lgTreeFromReader in *. rewrite Ea in H. rewrite Eb. cbn [bind] in *.
  rewrite <- (tree_same p ps ps') by (eapply key_eq; eauto). destruct (lgTreeFromParams p ps) as [t| | |]; try discriminate. cbn [bind] in *.
  destruct (lg_read_trees p n (mkReader ra eof)) as [[us s]| | |] eqn:E; try discriminate. cbn [bind] in H. injection H as <- <-.
  destruct (IH eof eof' ra rb kas kbs' Ha Hb' ltac:(cbn in L; lia) F' us s E) as (r' & ->). cbn [bind]. eauto.
Qed.

(** A text that loads, written in another way: its blocks say the same about the parameters
    the loader knows.  Then the other text loads as the same model.  Nothing else matters: not the
    order of the lines, nor lines with other keys, nor earlier lines with the same key, nor
    white space at the ends of lines, nor what follows the last tree. *)
Theorem C73_spelling :
  forall p text text' eof eof' load e header trees header' trees',
  LGEnsembleFromReader p (mkReader text eof) load = Ok e ->
  blocks eof text (header :: trees) -> blocks eof' text' (header' :: trees') ->
  zlen trees = zlen (model_trees e) ->
  say_the_same header_keys header header' -> Forall2 (say_the_same tree_keys) trees trees' ->
  LGEnsembleFromReader p (mkReader text' eof') load = Ok e.
Proof.
  intros p a b eof eof' load e ha tas hb tbs H Ba Bb L Sh F. inversion Ba as [|? ? ra ? Bha Bta]; subst. inversion Bb as [|? ? rb ? Bhb Btb]; subst.
  destruct (read_block _ _ _ _ Bha) as (ps & Ea & La). destruct (read_block _ _ _ _ Bhb) as (ps' & Eb & Lb). unfold LGEnsembleFromReader in *. rewrite Ea in H. rewrite Eb. cbn [bind] in *.
  destruct (header_same ps ps') as [H1 H2]; [eapply key_eq; eauto|]. rewrite <- H1. destruct (lg_header ps) as [[m n]| | |]; try discriminate. cbn [bind] in *.
  rewrite <- H2. destruct (lg_transform _ _ _ _) as [tr| | |]; try discriminate. cbn [bind] in *.
  destruct (lg_read_trees p (Z.to_nat n) (mkReader ra eof)) as [[ts r]| | |] eqn:E; try discriminate. cbn [bind] in H. injection H as <-.
  pose proof (trees_read_length _ _ _ _ _ E) as Len. unfold model_trees in L. cbn [core eBase lgTrees] in L.
  destruct (trees_same p (Z.to_nat n) eof eof' ra rb tas tbs Bta Btb ltac:(unfold zlen in L; lia) F ts r E) as (r' & ->). reflexivity.
Qed.
Print Assumptions C73_spelling.

(** in particular the lines of a block may come in any order if no key is repeated *)
Lemma last_value_in : forall kvs key v, NoDup (map fst kvs) -> In (key, v) kvs -> last_value kvs key = Some v.
Proof.
  induction kvs as [|[k w] kvs IH]; intros key v N I; [destruct I|]. inversion N as [|? ? Hn N']; subst. cbn [last_value]. destruct I as [E|I].
  - injection E as -> ->. assert (last_value kvs key = None) as ->.
    { clear - Hn. induction kvs as [|[k w] kvs IH]; [reflexivity|]. cbn [last_value]. rewrite IH by (intros X; apply Hn; right; exact X).
      destruct (beqb k key) eqn:E; [|reflexivity]. apply beqb_eq in E. exfalso. apply Hn. left. exact E. }
    rewrite (proj2 (beqb_eq key key) eq_refl). reflexivity.
  - rewrite (IH key v N' I). reflexivity.
Qed.
Lemma last_value_some : forall kvs key v, last_value kvs key = Some v -> In (key, v) kvs.
Proof.
  induction kvs as [|[k w] kvs IH]; intros key v H; [discriminate|]. cbn [last_value] in H. destruct (last_value kvs key) as [u|] eqn:E; [injection H as ->; right; auto|].
  destruct (beqb k key) eqn:Ek; [|discriminate]. apply beqb_eq in Ek. injection H as ->. subst. left. reflexivity.
Qed.
Theorem C73_line_order :
  forall keys kvs kvs', NoDup (map fst kvs) -> Permutation kvs kvs' -> say_the_same keys kvs kvs'.
Proof.
  intros keys kvs kvs' N P key _.
  assert (N' : NoDup (map fst kvs')) by (eapply Permutation_NoDup; [apply Permutation_map; exact P|exact N]).
  destruct (last_value kvs key) as [v|] eqn:E.
  - symmetry. apply last_value_in; [exact N'|]. eapply Permutation_in; [exact P|]. apply last_value_some. exact E.
  - destruct (last_value kvs' key) as [v|] eqn:E'; [|reflexivity]. apply last_value_some in E'. rewrite (last_value_in kvs key v N) in E; [discriminate|]. eapply Permutation_in; [apply Permutation_sym; exact P|exact E'].
Qed.
Print Assumptions C73_line_order.

(** the file of [Ex_LgText] with carriage returns, other lines and another order *)
Definition ex_other : bytes := List.concat (map (fun l => bs l ++ ["013"%byte; nl])
  (["tree"; "num_tree_per_iteration=1"; "num_class=7"; "num_class=1"; "version=v3"; "feature_names=a b"; "version=v2"; "objective=binary sigmoid:1"; " max_feature_idx=1 "; "tree_sizes=100 200"; " ";
    "Tree=0"; "num_cat=1"; "num_leaves=3"; "leaf_value=0.5 -1.25 3"; "leaf_count=1 2 3"; "threshold=0 2.5"; "split_feature=0 1"; "decision_type=1 10";
    "right_child=-3 -2"; "left_child=1 -1"; "cat_threshold=1 4"; "cat_boundaries=0 2"; ""; "";
    "Tree=1"; "leaf_value=0.75"; "num_cat=0"; "num_leaves=1"; ""; "pandas_categorical:null"])%string).
Example C73_demo_hypotheses : exists e header trees header' trees',
  LGEnsembleFromReader amd64_text (mkReader ex_file true) true = Ok e /\
  blocks true ex_file (header :: trees) /\ blocks false ex_other (header' :: trees') /\ zlen trees = zlen (model_trees e) /\
  say_the_same header_keys header header' /\ Forall2 (say_the_same tree_keys) trees trees' /\ header <> header'.
Proof.
  destruct (block_of ex_file eq_refl) as (k0 & B0 & L0). destruct (block_of (rest_of ex_file) eq_refl) as (k1 & B1 & L1). destruct (block_of (rest_of (rest_of ex_file)) eq_refl) as (k2 & B2 & L2).
  assert (X : forall text, is_ok (ReadParamsUntilBlank (mkReader text false)) = true -> rest_of text = match ReadParamsUntilBlank (mkReader text false) with Ok (_, r) => rd_bytes r | _ => [] end ->
    params_of text = match ReadParamsUntilBlank (mkReader text false) with Ok (ps, _) => ps | _ => [] end ->
    exists kvs, block false text kvs (rest_of text) /\ forall key, lookup (params_of text) key = last_value kvs key).
  { intros text H -> ->. destruct (ReadParamsUntilBlank (mkReader text false)) as [[ps r]|m|m|] eqn:E; try discriminate. destruct (read_block_inv _ _ _ _ E) as (kvs & B & _ & L). eauto. }
  destruct (X ex_other eq_refl eq_refl eq_refl) as (h0 & C0 & M0). destruct (X (rest_of ex_other) eq_refl eq_refl eq_refl) as (h1 & C1 & M1). destruct (X (rest_of (rest_of ex_other)) eq_refl eq_refl eq_refl) as (h2 & C2 & M2).
  assert (K : forall keys t t' k k', (forall key, lookup (params_of t) key = last_value k key) -> (forall key, lookup (params_of t') key = last_value k' key) ->
    map (lookup (params_of t)) keys = map (lookup (params_of t')) keys -> say_the_same keys k k').
  { intros keys t t' k k' L L' E key I. rewrite <- L, <- L'. clear - E I. induction keys as [|a keys IH]; [destruct I|]. cbn in E. injection E as E1 E2. destruct I as [->|I]; auto. }
  eexists _, k0, [k1; k2], h0, [h1; h2]. split; [vm_compute; reflexivity|].
  split; [econstructor; [exact B0|]; econstructor; [exact B1|]; econstructor; [exact B2|constructor]|].
  split; [econstructor; [exact C0|]; econstructor; [exact C1|]; econstructor; [exact C2|constructor]|]. split; [reflexivity|].
  split; [apply (K _ _ _ _ _ L0 M0); vm_compute; reflexivity|].
  split; [constructor; [apply (K _ _ _ _ _ L1 M1); vm_compute; reflexivity|]; constructor; [apply (K _ _ _ _ _ L2 M2); vm_compute; reflexivity|constructor]|].
  intros E. subst h0. pose proof (L0 (bs "feature_names")) as E1. rewrite <- M0 in E1. vm_compute in E1. discriminate.
Qed.
