(** * JSON models that meet the hypotheses of C34, C35 and C57, and models that break them *)

From Coq Require Import ZArith List Bool String Lia ZifyBool.
From Verif Require Import Go GoFloat GoText UtilText UtilBits LgTree Transformation Ensembles Leaves LgTextIO LgJsonIO
  Spec_Predict Spec_Bits Spec_Split Spec_Tree Spec_LgText Spec_Params Spec_LgFile Spec_LgJson
  Pf_Go Pf_Text Pf_Words Pf_LgFile Pf_LgJson Prop_LgText Prop_LgJson Ex_LgText Demo DemoText.
Local Open Scope Z_scope.

(** ** Writing JSON values *)
Definition num (s : string) : json := JNum (bs s).
Definition str (s : string) : json := JStr (bs s).
Definition obj (l : list (string * json)) : json := JObj (map (fun kv => (bs (fst kv), snd kv)) l).
Definition j_leaf (i v : string) : json := obj [("leaf_index", num i); ("leaf_value", num v)]%string.
Definition j_split (i f op missing : string) (dl : bool) (thr l r : json) : json :=
  obj [("split_index", num i); ("split_feature", num f); ("split_gain", num "1.5"); ("threshold", thr); ("decision_type", str op);
       ("default_left", JBool dl); ("missing_type", str missing); ("internal_value", num "0"); ("left_child", l); ("right_child", r)]%string.
Definition j_tree (i leaves cats : string) (root : json) : json :=
  obj [("tree_index", num i); ("num_leaves", num leaves); ("num_cat", num cats); ("shrinkage", num "0.1"); ("tree_structure", root)]%string.
Definition j_model (classes max_feature_idx : string) (trees : list json) : json :=
  obj [("name", str "tree"); ("version", str "v2"); ("num_class", num classes); ("num_tree_per_iteration", num classes); ("label_index", num "0");
       ("max_feature_idx", num max_feature_idx); ("feature_names", JArr [str "a"; str "b"]); ("tree_info", JArr trees)]%string.

(** ** Checks *)
Fixpoint distinct (l : list bytes) : bool := match l with [] => true | k :: l' => negb (existsb (beqb k) l') && distinct l' end.
Definition plain_b (l : list (bytes * json)) : bool := distinct (map fst l) && forallb (fun kv => forallb plain_char (fst kv)) l.
Lemma plain_check : forall l, plain_b l = true -> plain l.
Proof.
  intros l H. unfold plain_b in H. apply andb_prop in H. destruct H as [H1 H2]. split.
  - induction (map fst l) as [|k ks IH]; [constructor|]. cbn [distinct] in H1. apply andb_prop in H1. destruct H1 as [A B]. constructor; auto.
    intros I. destruct (existsb (beqb k) ks) eqn:E; [discriminate|]. assert (existsb (beqb k) ks = true) by (apply existsb_exists; exists k; split; [auto|apply beqb_refl]). congruence.
  - intros k v I. rewrite forallb_forall in H2. apply (H2 (k, v) I).
Qed.
Lemma numeric_check : forall p v, numbers_fit p v = true -> numeric (pl_parse_float p) v.
Proof.
  intros p v. induction v as [| | x | | l IH | l IH] using json_ind'; intros H lit O; inversion O; subst.
  - cbn [numbers_fit] in H. destruct (pl_parse_float p x); [eauto|discriminate].
  - rewrite numbers_fit_arr, forallb_forall in H. rewrite Forall_forall in IH. eapply IH; eauto.
  - rewrite numbers_fit_obj, forallb_forall in H. rewrite Forall_forall in IH. apply (IH (k, v) H1); auto.
Qed.

(** the trees of [ex_file] in JSON *)
Definition ex_json_inner : json := j_split "1" "1" "<=" "NaN" true (num "2.5") (j_leaf "0" "0.5") (j_leaf "1" "-1.25").
Definition ex_json_tree : json := j_tree "0" "3" "1" (j_split "0" "0" "==" "None" false (str "0||34") ex_json_inner (j_leaf "2" "3")).
Definition ex_json_const : json := j_tree "1" "1" "0" (obj [("leaf_value", num "0.75")]%string).
Definition ex_json : json := j_model "1" "1" [ex_json_tree; ex_json_const].

Definition ex_tree' : dtree := DNode 0 (category_left (f2i32 amd64_text) MNone (fun k => existsb (Z.eqb k) [0; 34])) ex_inner (DLeaf 2 (fint 3)).

Ltac member := cbn; repeat (first [left; reflexivity|right]).
Ltac leaf_tac lit := apply (jd_leaf _ _ _ _ (bs lit)); [apply plain_check; reflexivity|member|vm_compute; reflexivity|
  intros k x I K; cbn in I; repeat (destruct I as [I|I]; [injection I as <- <-; cbn in K; repeat (destruct K as [K|K]; [discriminate|]); exact K|]); exact I].
Ltac index_tac := intros v I; cbn in I; repeat (destruct I as [I|I]; [first [discriminate I|injection I as <-; eexists; eexists; split; [reflexivity|apply uint32_iff; reflexivity]]|]); destruct I.
Ltac split_tac := split; [apply plain_check; reflexivity|split; [index_tac|split; [left; eexists; split; [member|apply uint32_iff; vm_compute; reflexivity]|split; [member|split; [member|split; member]]]]].

Lemma ex_json_tree_says : json_tree_says (pl_parse_float amd64_text) (f2i32 amd64_text) ex_json_tree 3 ex_tree'.
Proof.
  eexists _, (bs "3"), (bs "1"), 1, _, 2. split; [reflexivity|]. split; [apply plain_check; vm_compute; reflexivity|]. split; [apply (numeric_check amd64_text); vm_compute; reflexivity|].
  split; [member|]. split; [apply int64_iff; reflexivity|]. split; [member|]. split; [apply uint32_iff; reflexivity|]. split; [member|]. split; [|repeat match goal with |- _ /\ _ => split end; vm_compute; try reflexivity; discriminate].
  apply (jd_categorical (pl_parse_float amd64_text) (f2i32 amd64_text) _ 0 0 MNone false (bs "0||34") [bs "0"; bs "34"] [0; 34] ex_json_inner (j_leaf "2" "3") ex_inner (DLeaf 2 (fint 3)) 0 0).
  - split_tac.
  - left. member.
  - member.
  - apply pieces_split; [discriminate|reflexivity].
  - repeat apply Forall2_cons; try apply Forall2_nil; apply int64_iff; reflexivity.
  - repeat constructor; lia.
  - apply (jd_numerical _ _ _ 0 1 MNan true (bs "2.5") (fdiv (fint 5) (fint 2)) (j_leaf "0" "0.5") (j_leaf "1" "-1.25") (DLeaf 0 (fdiv (fint 1) (fint 2))) (DLeaf 1 (fdiv (fint (-5)) (fint 4))) 0 0).
    + split_tac.
    + left. member.
    + member.
    + vm_compute. reflexivity.
    + leaf_tac "0.5"%string.
    + leaf_tac "-1.25"%string.
  - leaf_tac "3"%string.
Qed.

Lemma ex_json_says : json_model_says amd64_text ex_json 1 1 [ex_json_tree; ex_json_const] [ex_tree'; ex_const].
Proof.
  split.
  - eexists _, (bs "1"), (bs "1"), (bs "1"). split; [reflexivity|]. split; [apply plain_check; vm_compute; reflexivity|].
    split; [member|]. split; [member|]. split; [member|]. split; [apply int64_iff; reflexivity|]. split; [member|]. split; [apply int64_iff; reflexivity|]. split; [member|]. split; [apply int64_iff; reflexivity|]. split; [member|].
    repeat match goal with |- _ /\ _ => split end; vm_compute; try reflexivity; discriminate.
  - constructor; [|constructor; [|constructor]].
    + exists 3. split; [apply ex_json_tree_says|vm_compute; discriminate].
    + exists 1. split; [|vm_compute; discriminate].
      eexists _, (bs "1"), (bs "0"), 0, _, 0. split; [reflexivity|]. split; [apply plain_check; vm_compute; reflexivity|]. split; [apply (numeric_check amd64_text); vm_compute; reflexivity|].
      split; [member|]. split; [apply int64_iff; reflexivity|]. split; [member|]. split; [apply uint32_iff; reflexivity|]. split; [member|]. split; [leaf_tac "0.75"%string|repeat match goal with |- _ /\ _ => split end; vm_compute; try reflexivity; discriminate].
Qed.

(** the text form and the JSON form of the same model *)
Example ex_alike : Forall2 alike [ex_tree; ex_const] [ex_tree'; ex_const].
Proof.
  assert (I : alike ex_inner ex_inner) by (repeat constructor).
  constructor; [|repeat constructor]. constructor; [|exact I|constructor]. intros x. unfold category_left.
  assert (B : forall k, bit [1; 4] k = existsb (Z.eqb k) [0; 34]).
  { intros k. unfold bit. pose proof (Z.div_mod k 32 ltac:(lia)) as D. pose proof (Z.mod_pos_bound k 32 ltac:(lia)) as M.
    destruct (zget [1; 4] (k / 32)) as [w|] eqn:G.
    - assert (R : 0 <= k / 32 < 2) by (pose proof (zget_range _ _ _ _ G) as R; exact R).
      assert (C : k / 32 = 0 \/ k / 32 = 1) by lia. cbn [existsb]. destruct C as [C|C]; rewrite C in *; injection G as <-.
      + destruct (Z.eq_dec (k mod 32) 0) as [E|E]; [rewrite E; replace k with 0 by lia; reflexivity|].
        change 1 with (2 ^ 0). rewrite Z.pow2_bits_false by lia. lia.
      + destruct (Z.eq_dec (k mod 32) 2) as [E|E]; [rewrite E; replace k with 34 by lia; reflexivity|].
        change 4 with (2 ^ 2). rewrite Z.pow2_bits_false by lia. lia.
    - cbn [existsb]. destruct (Z.eqb_spec k 0) as [->|]; [discriminate|]. destruct (Z.eqb_spec k 34) as [->|]; [discriminate|]. reflexivity. }
  rewrite !B. reflexivity.
Qed.

Example ex_both_forms :
  match LGEnsembleFromReader amd64_text (mkReader ex_file true) true, LGEnsembleFromJSON amd64_text (Some ex_json) false with
  | Ok e, Ok e' =>
      map (fun x => Predict amd64_text (EnsembleWithRawPredictions e) x 0 [fzero; fone]) [[fint 34; fint 2]; [fint 34; fint 3]; [fint 33; fint 2]; [fnan; fnan]] =
      map (fun x => Predict amd64_text e' x 0 [fzero; fone]) [[fint 34; fint 2]; [fint 34; fint 3]; [fint 33; fint 2]; [fnan; fnan]] /\
      Predict amd64_text e' [fint 34; fint 3] 0 [fzero; fone] = Ok [fdiv (fint (-1)) (fint 2); fone]
  | _, _ => False
  end.
Proof. vm_compute. split; reflexivity. Qed.

(** headers: accepted, and refused *)
Definition members_of (v : json) : list (bytes * json) := match v with JObj l => l | _ => [] end.
Example ex_header : plain (members_of ex_json) /\ json_header_ok (members_of ex_json) 1 [ex_json_tree; ex_json_const].
Proof.
  split; [apply plain_check; vm_compute; reflexivity|]. split; [member|]. split; [member|]. split; [exists (bs "1"); split; [member|apply int64_iff; reflexivity]|].
  split; [exists (bs "1"); split; [member|apply int64_iff; reflexivity]|]. split; [member|]. repeat match goal with |- _ /\ _ => split end; vm_compute; try reflexivity; discriminate.
Qed.
Example ex_bad_header : plain (members_of (j_model "2" "1" [ex_json_const])) /\
  forall groups trees, ~ json_header_ok (members_of (j_model "2" "1" [ex_json_const])) groups trees.
Proof.
  split; [apply plain_check; vm_compute; reflexivity|]. intros g trees (_ & _ & (lit & I & E) & _ & I2 & G & _ & M). apply int64_iff in E.
  cbn in I. repeat (destruct I as [I|I]; [try discriminate I; injection I as <-|]); [|destruct I].
  cbn in I2. repeat (destruct I2 as [I2|I2]; [try discriminate I2; injection I2 as <-|]); [|destruct I2].
  injection E as <-. vm_compute in M. discriminate.
Qed.

(** ** What breaks *)

(** a split that names neither its feature nor its default side *)
Definition bare_tree : json :=
  j_tree "0" "2" "0" (obj [("threshold", num "5"); ("decision_type", str "<="); ("missing_type", str "None");
    ("left_child", j_leaf "0" "1"); ("right_child", j_leaf "1" "2")]%string).
Example bare_tree_says : json_tree_says (pl_parse_float amd64_text) (f2i32 amd64_text) bare_tree 2
  (DNode 0 (numeric_left MNone false (fint 5)) (DLeaf 0 (fint 1)) (DLeaf 1 (fint 2))).
Proof.
  eexists _, (bs "2"), (bs "0"), 0, _, 0. split; [reflexivity|]. split; [apply plain_check; vm_compute; reflexivity|]. split; [apply (numeric_check amd64_text); vm_compute; reflexivity|].
  split; [member|]. split; [apply int64_iff; reflexivity|]. split; [member|]. split; [apply uint32_iff; reflexivity|]. split; [member|]. split; [|repeat match goal with |- _ /\ _ => split end; vm_compute; try reflexivity; discriminate].
  apply (jd_numerical _ _ _ 0 0 MNone false (bs "5") (fint 5) (j_leaf "0" "1") (j_leaf "1" "2") (DLeaf 0 (fint 1)) (DLeaf 1 (fint 2)) 0 0);
    [|right; split; [reflexivity|index_tac]|member|vm_compute; reflexivity|leaf_tac "1"%string|leaf_tac "2"%string].
  split; [apply plain_check; reflexivity|split; [index_tac|split; [right; split; [reflexivity|index_tac]|split; [member|split; [member|split; member]]]]].
Qed.

(** num_leaves smaller than the number of leaves is accepted: appending the nodes moves them,
    the links to children met later are written into the old copy, and prediction does not
    return *)
Definition short_tree : json :=
  j_tree "0" "2" "0" (j_split "0" "0" "<=" "None" true (num "5")
    (j_split "1" "1" "<=" "None" true (num "1") (j_leaf "0" "1") (j_leaf "1" "2"))
    (j_split "2" "1" "<=" "None" true (num "2") (j_leaf "2" "3") (j_leaf "3" "4"))).
Definition short_dtree : dtree :=
  DNode 0 (numeric_left MNone true (fint 5))
    (DNode 1 (numeric_left MNone true (fint 1)) (DLeaf 0 (fint 1)) (DLeaf 1 (fint 2)))
    (DNode 1 (numeric_left MNone true (fint 2)) (DLeaf 2 (fint 3)) (DLeaf 3 (fint 4))).
Theorem C34_understated_leaves_refuted :
  jdescribes (pl_parse_float amd64_text) (f2i32 amd64_text)
    (j_split "0" "0" "<=" "None" true (num "5")
      (j_split "1" "1" "<=" "None" true (num "1") (j_leaf "0" "1") (j_leaf "1" "2"))
      (j_split "2" "1" "<=" "None" true (num "2") (j_leaf "2" "3") (j_leaf "3" "4"))) 0 short_dtree 0 /\
  walk short_dtree [fint 0; fint 0] = Some (fint 1, 0) /\
  exists T, unmarshalTree amd64_text short_tree = Ok T /\ predict amd64_text T [fint 0; fint 0] = Hang.
Proof.
  split; [|split; [vm_compute; reflexivity|eexists; split; [vm_compute; reflexivity|vm_compute; reflexivity]]].
  apply (jd_numerical _ _ _ 0 0 MNone true (bs "5") (fint 5) (j_split "1" "1" "<=" "None" true (num "1") (j_leaf "0" "1") (j_leaf "1" "2"))
           (j_split "2" "1" "<=" "None" true (num "2") (j_leaf "2" "3") (j_leaf "3" "4"))
           (DNode 1 (numeric_left MNone true (fint 1)) (DLeaf 0 (fint 1)) (DLeaf 1 (fint 2)))
           (DNode 1 (numeric_left MNone true (fint 2)) (DLeaf 2 (fint 3)) (DLeaf 3 (fint 4))) 0 0); [split_tac|left; member|member|vm_compute; reflexivity| |].
  - apply (jd_numerical _ _ _ 0 1 MNone true (bs "1") (fint 1) (j_leaf "0" "1") (j_leaf "1" "2") (DLeaf 0 (fint 1)) (DLeaf 1 (fint 2)) 0 0);
      [split_tac|left; member|member|vm_compute; reflexivity|leaf_tac "1"%string|leaf_tac "2"%string].
  - apply (jd_numerical _ _ _ 2 1 MNone true (bs "2") (fint 2) (j_leaf "2" "3") (j_leaf "3" "4") (DLeaf 2 (fint 3)) (DLeaf 3 (fint 4)) 0 0);
      [split_tac|left; member|member|vm_compute; reflexivity|leaf_tac "3"%string|leaf_tac "4"%string].
Qed.
Print Assumptions C34_understated_leaves_refuted.

(** num_cat = 0 together with a set that needs two words: the model loads and prediction
    panics *)
Definition cat_stump (cats num_cat : string) : json :=
  j_model "1" "1" [j_tree "0" "2" num_cat (j_split "0" "0" "==" "None" false (str cats) (j_leaf "0" "1") (j_leaf "1" "2"))].
Theorem C34_no_num_cat_refuted :
  exists e, LGEnsembleFromJSON amd64_text (Some (cat_stump "1||40" "0")) false = Ok e /\ NFeatures e = 2 /\
    exists m, Predict amd64_text e [fint 40; fint 0] 0 [fzero] = Panic m.
Proof. eexists. split; [vm_compute; reflexivity|]. split; [vm_compute; reflexivity|]. eexists. vm_compute. reflexivity. Qed.
Print Assumptions C34_no_num_cat_refuted.

(** a single category is cut to 32 bits: 4294967296 matches the feature value 0 *)
Theorem C34_wide_category_refuted :
  exists e, LGEnsembleFromJSON amd64_text (Some (cat_stump "4294967296" "1")) false = Ok e /\
    Predict amd64_text e [fint 0; fint 0] 0 [fzero] = Ok [fint 1].
Proof. eexists. split; [vm_compute; reflexivity|]. vm_compute. reflexivity. Qed.
Print Assumptions C34_wide_category_refuted.

(** a negative category in a list makes the loader panic *)
Theorem C34_negative_category_refuted :
  exists m, LGEnsembleFromJSON amd64_text (Some (cat_stump "-40||3" "1")) false = Panic m.
Proof. eexists. vm_compute. reflexivity. Qed.
Print Assumptions C34_negative_category_refuted.

(** so does a num_leaves that cannot be allocated *)
Theorem C34_huge_num_leaves_refuted :
  exists m, LGEnsembleFromJSON amd64_text
    (Some (j_model "1" "1" [j_tree "0" "1099511627778" "0" (j_split "0" "0" "<=" "None" false (num "1") (j_leaf "0" "1") (j_leaf "1" "2"))])) false = Panic m.
Proof. eexists. vm_compute. reflexivity. Qed.
Print Assumptions C34_huge_num_leaves_refuted.

(** the JSON loader does not know about averaging: a random forest gives the mean when loaded
    from text and the sum when loaded from JSON *)
Definition rf_file : bytes := file
  (["tree"; "version=v2"; "num_class=1"; "num_tree_per_iteration=1"; "max_feature_idx=1"; "objective=regression"; "average_output"; "tree_sizes=100 200"; "";
    "Tree=0"; "num_leaves=1"; "num_cat=0"; "leaf_value=1"; ""; ""; "Tree=1"; "num_leaves=1"; "num_cat=0"; "leaf_value=3"; ""])%string.
Definition rf_json : json :=
  match j_model "1" "1" [j_tree "0" "1" "0" (obj [("leaf_value", num "1")]%string); j_tree "1" "1" "0" (obj [("leaf_value", num "3")]%string)] with
  | JObj l => JObj (l ++ [(bs "average_output", JBool true)])
  | v => v
  end.
Theorem C35_random_forest_refuted :
  exists e e', LGEnsembleFromReader amd64_text (mkReader rf_file true) false = Ok e /\ LGEnsembleFromJSON amd64_text (Some rf_json) false = Ok e' /\
    model_trees e = model_trees e' /\
    Predict amd64_text e [fint 0; fint 0] 0 [fzero] = Ok [fint 2] /\ Predict amd64_text e' [fint 0; fint 0] 0 [fzero] = Ok [fint 4].
Proof. eexists _, _. split; [vm_compute; reflexivity|]. split; [vm_compute; reflexivity|]. split; [vm_compute; reflexivity|]. split; vm_compute; reflexivity. Qed.
Print Assumptions C35_random_forest_refuted.
