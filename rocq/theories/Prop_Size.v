(** * C78: a loaded model is not larger than its file *)

From Coq Require Import ZArith List Bool String Lia ZifyBool.
From Verif Require Import Go GoFloat GoText LgTree TreeBuild Transformation Ensembles Leaves LgTextIO LgJsonIO JsonText XgBin XgIO Pickle SkClasses SkIO.
From Verif Require Import Spec_XgBin Spec_XgFile Spec_Dump Spec_Size Spec_Decimal Pf_Go Pf_Size Pf_SizeJson Pf_SizeSk Demo DemoText Prop_Xg Ex_LgText Ex_LgJson Ex_JsonText Ex_Xg Ex_Sk.
Local Open Scope Z_scope.

(** LightGBM text: not more nodes and leaf values than bytes, whatever num_leaves, left_child and right_child say *)
Theorem C78_lightgbm_text : forall p r load e, LGEnsembleFromReader p r load = Ok e -> model_size e <= zlen (rd_bytes r).
Proof. exact lg_file_size. Qed.
Print Assumptions C78_lightgbm_text.

Theorem C78_lightgbm_json : forall p limit r load e, LGEnsembleFromJSONReader p limit r load = Ok e -> model_size e <= zlen (rd_bytes r).
Proof. exact json_file_size. Qed.
Print Assumptions C78_lightgbm_json.

(** XGBoost: at least twelve bytes for every node or leaf value, however often the nodes name each other as children *)
Theorem C78_xgboost : forall p r load e, XGEnsembleFromReader p r load = Ok e -> 12 * model_size e <= zlen (rd_bytes r).
Proof. exact xg_file_size. Qed.
Print Assumptions C78_xgboost.

Theorem C78_gblinear : forall p r load e, XGBLinearFromReader p r load = Ok e -> 4 * model_size e <= zlen (rd_bytes r).
Proof. exact xgblinear_file_size. Qed.
Print Assumptions C78_gblinear.

(** sklearn: a pickle may name one tree many times, and every mention is a tree of the model: the bound is quadratic *)
Theorem C78_sklearn : forall p r load e, SKEnsembleFromReader p r load = Ok e -> model_size e <= zlen (rd_bytes r) * zlen (rd_bytes r).
Proof. exact sk_file_size. Qed.
Print Assumptions C78_sklearn.

(** ** The sizes of the example models *)
Definition size_of (r : outcome Ensemble) : option Z := match r with Ok e => Some (model_size e) | _ => None end.
Example C78_demo :
  size_of (LGEnsembleFromReader amd64_text (mkReader ex_file true) true) = Some 6 /\
  size_of (LGEnsembleFromJSONReader amd64_text 10000 (mkReader ex_text true) false) = Some 6 /\
  size_of (XGEnsembleFromReader amd64 (mkReader (e_xg_file ex_header ex_model [[]; []; []; []] ex_weights) true) false) = Some 12 /\
  size_of (XGBLinearFromReader amd64 (mkReader (e_xgl_file (x_header 2 [] (bs "gblinear")) ex_linear) true) false) = Some 6 /\
  size_of (SKEnsembleFromReader amd64_text (k_file k_model) true) = Some 7.
Proof. repeat split; vm_compute; reflexivity. Qed.

(** ** What is not bounded by the size of the file *)

(** a chain of twenty splits *)
Definition chain_nodes : list SklearnNode :=
  flat_map (fun i => [k_split 0 (2 * i + 1) (2 * i + 2) (fint i); k_leaf]) (zseq 20) ++ [k_leaf].
Definition chain : SklearnDecisionTreeRegressor := k_tree chain_nodes (map fint (zseq 41)).
(** a pickle of a model that says it has [n] trees and holds one of them; the one is stored in the memo and fetched again [n - 1]
    times before the list is finished *)
Definition shared_pickle (n : nat) : bytes :=
  let f := dumps k_repr (py_gb (k_gb (Z.of_nat n) 2 [chain])) in
  let k := (List.length f - 11)%nat in
  firstn k f ++ bs "pk" ++ nl :: bs "a" ++ List.concat (repeat (bs "gk" ++ nl :: bs "a") (pred n)) ++ skipn (S k) f.
Lemma size_some : forall r n, size_of r = Some n -> exists e, r = Ok e /\ model_size e = n.
Proof. intros [e|m|m|] n H; try discriminate. injection H as <-. eauto. Qed.
Theorem C78_sklearn_linear_refuted : exists e,
  SKEnsembleFromReader amd64_text (mkReader (shared_pickle 200) true) true = Ok e /\ model_size e = 8200 /\ zlen (shared_pickle 200) = 5823.
Proof.
  destruct (size_some (SKEnsembleFromReader amd64_text (mkReader (shared_pickle 200) true) true) 8200) as (e & E & S); [vm_compute; reflexivity|].
  exists e. split; [exact E|]. split; [exact S|vm_compute; reflexivity].
Qed.
Print Assumptions C78_sklearn_linear_refuted.

(** The words of categorical splits are not counted by [model_size], and are not bounded by the file.  A JSON model that names one
    large category has a bitset up to it: 3126 words from 502 bytes; LightGBM itself stores the same model in a few bytes. *)
Definition base_words (b : base) : Z := match b with BLg e => fold_right (fun t n => zlen (tCatThresholds t) + n) 0 (lgTrees e) | _ => 0 end.
Definition words_of (r : outcome Ensemble) : option Z := match r with Ok e => Some (base_words (eBase e)) | _ => None end.
Lemma words_some : forall r n, words_of r = Some n -> exists e, r = Ok e /\ base_words (eBase e) = n.
Proof. intros [e|m|m|] n H; try discriminate. injection H as <-. eauto. Qed.
Theorem C78_json_words_refuted : exists e,
  LGEnsembleFromJSONReader amd64_text 10000 (mkReader (write (cat_stump "0||100000" "1")) true) false = Ok e /\
  base_words (eBase e) = 3126 /\ zlen (write (cat_stump "0||100000" "1")) = 502.
Proof.
  destruct (words_some (LGEnsembleFromJSONReader amd64_text 10000 (mkReader (write (cat_stump "0||100000" "1")) true) false) 3126) as (e & E & W); [vm_compute; reflexivity|].
  exists e. split; [exact E|]. split; [exact W|vm_compute; reflexivity].
Qed.
Print Assumptions C78_json_words_refuted.

(** In a text model every categorical node copies the words of its set.  Sixty nodes may share one set of sixty words. *)
Definition spaced (l : list bytes) : bytes := List.concat (map (fun s => s ++ [sp]) l).
Definition line (key : string) (l : list bytes) : bytes := bs key ++ removelast (spaced l) ++ [nl].
Definition shared_words (n : nat) : bytes :=
  let z := Z.of_nat n in
  file ["tree"; "version=v2"; "num_class=1"; "num_tree_per_iteration=1"; "max_feature_idx=0"; "tree_sizes=1"; ""; "Tree=0"; "num_cat=1"]%string ++
  line "num_leaves=" [decimal (z + 1)] ++ line "split_feature=" (repeat (bs "0") n) ++ line "threshold=" (repeat (bs "0") n) ++
  line "decision_type=" (repeat (bs "1") n) ++ line "left_child=" (map (fun i => decimal (- i - 1)) (zseq z)) ++
  line "right_child=" (map (fun i => if i =? z - 1 then decimal (- z - 1) else decimal (i + 1)) (zseq z)) ++
  line "leaf_value=" (repeat (bs "1") (S n)) ++ line "cat_boundaries=" [bs "0"; decimal z] ++ line "cat_threshold=" (repeat (bs "3") n) ++ [nl].
Theorem C78_text_words_refuted : exists e,
  LGEnsembleFromReader amd64_text (mkReader (shared_words 60) true) false = Ok e /\
  base_words (eBase e) = 3600 /\ zlen (shared_words 60) = 1228.
Proof.
  destruct (words_some (LGEnsembleFromReader amd64_text (mkReader (shared_words 60) true) false) 3600) as (e & E & W); [vm_compute; reflexivity|].
  exists e. split; [exact E|]. split; [exact W|vm_compute; reflexivity].
Qed.
Print Assumptions C78_text_words_refuted.
