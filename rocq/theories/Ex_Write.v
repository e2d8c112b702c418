(** * Ensembles that meet the hypotheses of C80 *)

From Coq Require Import ZArith List Bool String Lia ZifyBool.
From Verif Require Import Go GoFloat GoText LgTree Transformation Ensembles Leaves LgTextIO LgJsonIO JsonText XgBin XgIO Pickle SkClasses SkIO
  Spec_Predict Spec_Split Spec_Tree Spec_XgBin Spec_LgText Spec_LgFile Spec_Decimal Spec_JsonText Spec_SkTree Spec_SkFile Spec_Write
  Pf_Go Pf_Float Pf_Words Pf_Decimal Pf_JsonText Prop_Write Prop_WriteJson Prop_WriteSk Prop_WriteText Prop_WriteBoth Ex_JsonText Ex_Sk Demo DemoText.
Local Open Scope Z_scope.

Local Ltac conj := repeat match goal with |- _ /\ _ => split end.

(** ** The decimal reader of the examples reads integers *)
Lemma take_digits_all : forall s acc n v, digits s acc = Some v -> take_digits s acc n = (v, n + zlen s, []).
Proof.
  induction s as [|c s IH]; intros acc n v H; cbn [digits take_digits] in *; [injection H as <-; rewrite zlen_nil, Z.add_0_r; reflexivity|].
  destruct (GoText.digit c) as [d|]; [|discriminate]. rewrite (IH _ _ _ H), zlen_cons. do 2 f_equal. lia.
Qed.
Lemma dec_decimal : forall z, 0 <= z -> dec_parse (decimal z) = Some (f64_of_Z z).
Proof.
  intros z Hz. pose proof (parse_decimal_nat z Hz) as P. unfold decimal. replace (z <? 0) with false by lia.
  assert (U : dec_unsigned (decimal_nat z) = Some (f64_of_Z z)).
  { unfold parse_nat in P. destruct (decimal_nat z) as [|c s] eqn:E; [discriminate|]. unfold dec_unsigned. rewrite (take_digits_all _ _ 0 _ P). cbv iota. rewrite zlen_cons. pose proof (zlen_nonneg _ s).
    replace (0 + (1 + zlen s) + 0 =? 0) with false by lia. change (- 0) with 0. unfold dec_round. destruct (Z.eqb_spec z 0) as [->|N]; [reflexivity|]. cbn [Z.leb Z.compare]. change (10 ^ 0) with 1. rewrite Z.mul_1_r. reflexivity. }
  destruct (decimal_nat z) as [|c s] eqn:E; [discriminate|]. destruct (decimal_nat_bytes z c Hz) as (d & D & ->); [rewrite E; left; reflexivity|].
  clear P E. revert d D U. refine (digit_cases _ _ _ _ _ _ _ _ _ _ _); intros U; exact U.
Qed.
Lemma amd64_integers : reads_integers amd64_text.
Proof. intros z Hz. exists (f64_of_Z z). apply dec_decimal. lia. Qed.
Lemma amd64_indices : reads_indices amd64_text.
Proof. intros z Hz. exists (f64_of_Z z). split; [apply dec_decimal; lia|]. apply trunc_f64_of_Z. lia. Qed.

(** ** LightGBM: categories above a numerical split, and a constant *)
Definition w_trees : list (tree lrule bytes) :=
  [Split 0 (LCategories MNone [34; 1]) (Split 1 (LNumber MNan true (bs "2.5")) (Leaf (bs "0.5")) (Leaf (bs "-1.25"))) (Leaf (bs "3")); Leaf (bs "0.75")].
Definition is_some {A} (o : option A) : bool := match o with Some _ => true | None => false end.
Lemma w_token : forall lit, match lit with [] => false | _ => forallb visibleb lit end = true -> is_some (dec_parse lit) = true -> token_ok amd64_text lit.
Proof.
  intros lit H1 H2. destruct (key_check lit H1) as [A B]. split; [exact A|]. split; [exact B|]. change (pl_parse_float amd64_text lit) with (dec_parse lit). destruct (dec_parse lit) as [v|]; [exists v; reflexivity|discriminate].
Qed.
Lemma w_number : forall lit, writable (JNum lit) = true -> is_some (dec_parse lit) = true -> lit_ok amd64_text lit.
Proof.
  intros lit H1 H2. split.
  - cbn [writable] in H1. destruct (scan_number lit) as [[l [|]]|] eqn:E; try discriminate. destruct (scan_number_sound _ _ _ E) as (-> & N). rewrite app_nil_r. exact N.
  - change (pl_parse_float amd64_text lit) with (dec_parse lit). destruct (dec_parse lit) as [v|]; [exists v; reflexivity|discriminate].
Qed.
Example C80_text_hypotheses :
  reads_indices amd64_text /\ zlen w_trees mod 1 = 0 /\ value_ok (bs "regression") /\ objective_means 1 (bs "regression") (TransformRaw 1) /\
  Forall (fun t => made_of 2 (trule_ok amd64_text) (token_ok amd64_text) t /\ leaves_in t <= 2 ^ 31 /\ leaves_in t - 1 <= pl_maxalloc amd64_text /\ words_in t < 2 ^ 32) w_trees.
Proof.
  split; [apply amd64_indices|]. split; [reflexivity|]. split; [|split; [apply (om_regression 1 [])|]].
  - pose proof (sjoin_ok [bs "regression"]) as K. cbn [sjoin flat_map] in K. rewrite app_nil_r in K. apply K. constructor; [|constructor]. destruct (key_check (bs "regression") eq_refl). split; assumption.
  - change (pl_maxalloc amd64_text) with (2 ^ 40). unfold w_trees. repeat (apply Forall_cons || apply Forall_nil); cbn [made_of trule_ok leaves_in words_in fold_right].
    + conj; try lia; try discriminate; try (apply w_token; reflexivity); try (repeat constructor; lia).
    + conj; try lia. apply w_token; reflexivity.
Qed.
(** the file, its trees, and what it predicts *)
Example C80_text_demo :
  let text := t_file 2 1 false (bs "regression") w_trees in
  exists e, LGEnsembleFromReader amd64_text (mkReader (text ++ bs "feature importances:") true) false = Ok e /\ NFeatures e = 2 /\
  map (fun x => Predict amd64_text e x 0 [fzero]) [[fint 34; fint 2]; [fint 1; fint 3]; [fint 34; fnan]; [fint 2; fint 3]] =
  map (fun v => Ok [v]) [fdiv (fint 5) (fint 4); fdiv (fint (-1)) (fint 2); fdiv (fint 5) (fint 4); fdiv (fint 15) (fint 4)].
Proof. eexists. split; [vm_compute; reflexivity|]. split; vm_compute; reflexivity. Qed.

Example C80_json_hypotheses :
  reads_integers amd64_text /\
  Forall (fun t => made_of 2 (lrule_ok amd64_text) (lit_ok amd64_text) t /\ leaves_in t < 2 ^ 32 /\ leaves_in t - 1 <= pl_maxalloc amd64_text /\ words_in t < 2 ^ 32 /\ 3 + depth_of t <= 10000) w_trees.
Proof.
  split; [apply amd64_integers|]. change (pl_maxalloc amd64_text) with (2 ^ 40). unfold w_trees. repeat (apply Forall_cons || apply Forall_nil); cbn [made_of lrule_ok leaves_in words_in fold_right depth_of].
  - conj; try lia; try discriminate; try (apply w_number; reflexivity); try (repeat constructor; lia).
  - conj; try lia. apply w_number; reflexivity.
Qed.
Example C80_json_demo :
  let text := write (l_model 2 1 w_trees) in
  exists e, LGEnsembleFromJSONReader amd64_text 10000 (mkReader (text ++ bs "rest") true) false = Ok e /\
  map (fun x => Predict amd64_text e x 0 [fzero]) [[fint 34; fint 2]; [fint 1; fint 3]; [fint 34; fnan]; [fint 2; fint 3]] =
  map (fun v => Ok [v]) [fdiv (fint 5) (fint 4); fdiv (fint (-1)) (fint 2); fdiv (fint 5) (fint 4); fdiv (fint 15) (fint 4)].
Proof. eexists. split; [vm_compute; reflexivity|]. vm_compute; reflexivity. Qed.

Example C80_both_hypotheses :
  Forall (fun t => made_of 2 (fun r => trule_ok amd64_text r /\ lrule_ok amd64_text r) (fun v => token_ok amd64_text v /\ lit_ok amd64_text v) t /\
                   leaves_in t <= 2 ^ 31 /\ leaves_in t - 1 <= pl_maxalloc amd64_text /\ words_in t < 2 ^ 32 /\ 3 + depth_of t <= 10000) w_trees.
Proof.
  change (pl_maxalloc amd64_text) with (2 ^ 40). unfold w_trees. repeat (apply Forall_cons || apply Forall_nil); cbn [made_of trule_ok lrule_ok leaves_in words_in fold_right depth_of];
    conj; try lia; try discriminate; try (apply w_number; reflexivity); try (apply w_token; reflexivity); try (repeat constructor; lia).
Qed.

(** ** XGBoost: thresholds 2.0 and 0.5, leaves 1.0, 3.0 and 0.5, two groups *)
Definition x_trees : list (tree xrule Z) :=
  [Split 1 (XRule 1073741824 true) (Leaf 1065353216) (Split 0 (XRule 1056964608 false) (Leaf 1077936128) (Leaf 1056964608)); Leaf 1056964608].
Example C80_xgboost_hypotheses :
  Forall (fun t => made_of 2 (fun r => uint32 (xr_threshold r)) uint32 t /\ nodes_in t < 2 ^ 31 /\ nodes_in t <= pl_maxalloc amd64_text) x_trees.
Proof.
  change (pl_maxalloc amd64_text) with (2 ^ 40). unfold x_trees, uint32. repeat (apply Forall_cons || apply Forall_nil); cbn [made_of xr_threshold nodes_in]; conj; lia.
Qed.
Example C80_xgboost_demo :
  let text := x_text 2 2 0 None x_trees in
  exists e, XGEnsembleFromReader amd64_text (mkReader (text ++ bs "rest") false) false = Ok e /\
  map (fun x => Predict amd64_text e x 0 [fzero; fzero]) [[fzero; fnan]; [fzero; fint 3]; [fone; fint 3]] =
  map (fun v => Ok [v; fdiv fone (fint 2)]) [fone; fint 3; fdiv fone (fint 2)].
Proof. eexists. split; [vm_compute; reflexivity|]. vm_compute. reflexivity. Qed.

(** ** A linear model of two features and two groups: weights 1.0, 2.0 and 0.5, 3.0; biases 2.0 and 1.0 *)
Definition l_weight (i k : Z) : Z := if i =? 0 then if k =? 0 then 1065353216 else 1073741824 else if k =? 0 then 1056964608 else 1077936128.
Definition l_bias (k : Z) : Z := if k =? 0 then 1073741824 else 1065353216.
Example C80_gblinear_hypotheses : (forall i k, 0 <= i < 2 -> 0 <= k < 2 -> uint32 (l_weight i k)) /\ (forall k, 0 <= k < 2 -> uint32 (l_bias k)) /\ (2 + 1) * 2 <= pl_maxalloc amd64.
Proof.
  change (pl_maxalloc amd64) with (2 ^ 40). unfold l_weight, l_bias, uint32. split; [|split; [|lia]]; intros.
  - destruct (i =? 0), (k =? 0); lia.
  - destruct (k =? 0); lia.
Qed.
Example C80_gblinear_demo :
  let hm := lin_file 2 2 0 l_weight l_bias in
  exists e, XGBLinearFromReader amd64 (mkReader (Spec_XgFile.e_xgl_file (fst hm) (snd hm) ++ bs "rest") false) false = Ok e /\
  map (fun x => Predict amd64 e x 0 [fzero; fzero]) [[fint 4; fint 2]; [fint 1; fint 4]] = [Ok [fint 7; fint 15]; Ok [fint 5; fint 15]].
Proof. eexists. split; [vm_compute; reflexivity|]. vm_compute. reflexivity. Qed.

(** ** scikit-learn: three classes with one tree each *)
Definition s_trees : list (tree f64 f64) := [Split 1 (fint 2) (Leaf (fint 1)) (Split 0 (fint 5) (Leaf (fint 3)) (Leaf (fint 4))); Leaf (fint 7); Split 0 fzero (Leaf (fint 1)) (Leaf (fint 2))].
Example C80_sklearn_hypotheses :
  zlen s_trees = 1 * score_groups 3 /\
  Forall (fun t => made_of 2 (fun thr => valid64 thr = true) (fun v => valid64 v = true) t /\ nodes_in t < 2 ^ 32 /\ nodes_in t <= pl_maxalloc amd64_text) s_trees.
Proof.
  split; [reflexivity|]. change (pl_maxalloc amd64_text) with (2 ^ 40). unfold s_trees. repeat (apply Forall_cons || apply Forall_nil); cbn [made_of nodes_in]; conj; try lia; vm_compute; reflexivity.
Qed.
Example C80_sklearn_demo :
  let text := Spec_Dump.dumps (fun _ => bs "2.0") (py_gb (s_model 2 3 1 [0; 1; 2] (fint 2) [fint 10; fint 20; fint 30] s_trees)) in
  exists e, SKEnsembleFromReader amd64_text (mkReader text true) false = Ok e /\
  map (fun x => Predict amd64_text e x 0 [fzero; fzero; fzero]) [[fint 6; fint 1]; [fint 6; fint 3]; [fint (-1); fint 3]] =
  [Ok [fint 12; fint 34; fint 34]; Ok [fint 18; fint 34; fint 34]; Ok [fint 16; fint 34; fint 32]].
Proof. eexists. split; [vm_compute; reflexivity|]. vm_compute. reflexivity. Qed.
