(** * A LightGBM text file that meets the hypotheses of C28 and C30 *)

From Coq Require Import ZArith List Bool String Lia.
From Verif Require Import Go GoFloat GoText UtilText LgTree Transformation Ensembles Leaves LgTextIO
  Spec_Predict Spec_Bits Spec_Split Spec_Tree Spec_LgText Spec_Params Spec_LgFile Pf_Go Pf_Words Pf_LgFile Prop_LgText Demo DemoText.

(** two trees: a categorical split with two bitset words above a numerical one, and a
    single leaf *)
Definition ex_file : bytes := file
  (["tree"; "version=v2"; "num_class=1"; "num_tree_per_iteration=1"; "max_feature_idx=1"; "objective=binary sigmoid:1"; "tree_sizes=100 200"; "";
    "Tree=0"; "num_leaves=3"; "num_cat=1"; "split_feature=0 1"; "threshold=0 2.5"; "decision_type=1 10";
    "left_child=1 -1"; "right_child=-3 -2"; "leaf_value=0.5 -1.25 3"; "cat_boundaries=0 2"; "cat_threshold=1 4"; "shrinkage=1"; ""; "";
    "Tree=1"; "num_leaves=1"; "num_cat=0"; "leaf_value=0.75"; ""; "feature importances:"])%string.

Definition ex_arrays : text_tree :=
  mkText [1; -1] [-3; -2] [1; 10] [0; 1] [fzero; fdiv (fint 5) (fint 2)] [1; 4] [0; 2] [fdiv (fint 1) (fint 2); fdiv (fint (-5)) (fint 4); fint 3].
Definition ex_inner : dtree :=
  DNode 1 (numeric_left MNan true (fdiv (fint 5) (fint 2))) (DLeaf 0 (fdiv (fint 1) (fint 2))) (DLeaf 1 (fdiv (fint (-5)) (fint 4))).
Definition ex_tree : dtree := DNode 0 (category_left (f2i32 amd64_text) MNone (bit [1; 4])) ex_inner (DLeaf 2 (fint 3)).
Definition ex_const : dtree := DLeaf 0 (fdiv (fint 3) (fint 4)).

Definition params_of (text : bytes) : stringParams :=
  match ReadParamsUntilBlank (mkReader text true) with Ok (ps, _) => ps | _ => [] end.
Definition rest_of (text : bytes) : bytes :=
  match ReadParamsUntilBlank (mkReader text true) with Ok (_, r) => rd_bytes r | _ => [] end.
Lemma block_of : forall text, is_ok (ReadParamsUntilBlank (mkReader text true)) = true ->
  exists kvs, block true text kvs (rest_of text) /\ forall key, lookup (params_of text) key = last_value kvs key.
Proof.
  intros text H. unfold rest_of, params_of. destruct (ReadParamsUntilBlank (mkReader text true)) as [[ps r]|m|m|] eqn:E; try discriminate.
  destruct (read_block_inv _ _ _ _ E) as (kvs & B & _ & L). eauto.
Qed.

Ltac tokens L I := apply (proj2 (lists_tokens _ _ L _ _ _ _ _ I)); vm_compute; reflexivity.
Ltac value L := first
  [ eexists; split; [rewrite <- L; vm_compute; reflexivity|apply int64_iff; vm_compute; reflexivity]
  | tokens L int32_iff | tokens L uint32_iff | tokens L (float_iff (pl_parse_float amd64_text)) ].

Example ex_file_says : exists rest header kvss,
  file_says amd64_text true ex_file rest header kvss 1 1 false true TransformLogistic [ex_tree; ex_const].
Proof.
  destruct (block_of ex_file eq_refl) as (kvs & B & L).
  destruct (block_of (rest_of ex_file) eq_refl) as (kvs1 & B1 & L1).
  destruct (block_of (rest_of (rest_of ex_file)) eq_refl) as (kvs2 & B2 & L2).
  eexists _, kvs, [kvs1; kvs2]. split; [exact B|]. split; [|split; [|split]].
  - split.
    + left. rewrite <- L. reflexivity.
    + value L.
    + value L.
    + lia.
    + value L.
    + eexists. eexists. split; [rewrite <- L; vm_compute; reflexivity|]. split; [apply parts_split; reflexivity|]. reflexivity.
    + exists 2. reflexivity.
    + split; [discriminate|]. intros [v Hv]. rewrite <- L in Hv. discriminate.
  - exists (bs "binary sigmoid:1"). split; [rewrite <- L; reflexivity|]. apply (om_binary 1 (bs "1")). apply int64_iff. reflexivity.
  - econstructor; [exact B1|]. econstructor; [exact B2|]. constructor.
  - constructor; [|constructor; [|constructor]].
    + exists 3. split; [|vm_compute; discriminate]. exists 1, ex_arrays. split.
      * split; [value L1|]. split; [value L1|]. split; [value L1|]. intros _. do 5 (split; [value L1|]). change (0 <? 1) with true. cbv iota. split; value L1.
      * right. split; [lia|]. exists [0; 1], 2. split; [|split; [|split; [|split; [|split]]]].
        -- apply (desc_categorical (f2i32 amd64_text) ex_arrays 0 1 MNone 0 fzero 0 0 2 [] [1; 4] [] 1 (-3) ex_inner (DLeaf 2 (fint 3)) [1] [] 0 0); try reflexivity.
           ++ exists 0. split; [lia|reflexivity].
           ++ vm_compute. discriminate.
           ++ apply (desc_numerical _ ex_arrays 1 10 MNan 1 (fdiv (fint 5) (fint 2)) (-1) (-2) (DLeaf 0 _) (DLeaf 1 _) [] [] 0 0); try reflexivity.
              ** apply (desc_leaf _ ex_arrays 0). reflexivity.
              ** apply (desc_leaf _ ex_arrays 1). reflexivity.
           ++ apply (desc_leaf _ ex_arrays 2). reflexivity.
        -- constructor; [intros [?|[]]; discriminate|]. constructor; [intros []|constructor].
        -- intros i [<-|[<-|[]]]; lia.
        -- vm_compute; reflexivity.
        -- vm_compute; discriminate.
        -- vm_compute; discriminate.
    + exists 1. split; [|vm_compute; discriminate]. exists 0, (mkText [] [] [] [] [] [] [] [fdiv (fint 3) (fint 4)]). split.
      * split; [value L2|]. split; [value L2|]. split; [value L2|]. intros H. lia.
      * left. split; [reflexivity|]. eexists _, _. split; reflexivity.
Qed.

(** the reference trees tell the inputs apart, and the loaded model agrees *)
Example ex_walks :
  map (walk ex_tree) [[fint 34; fint 2]; [fint 34; fint 3]; [fint 34; fnan]; [fint 33; fint 2]; [fnan; fint 9]] =
  [Some (fdiv (fint 1) (fint 2), 0); Some (fdiv (fint (-5)) (fint 4), 1); Some (fdiv (fint 1) (fint 2), 0); Some (fint 3, 2); Some (fint 3, 2)] /\
  match LGEnsembleFromReader amd64_text (mkReader ex_file true) true with
  | Ok e => map (fun T => map (predict amd64_text T) [[fint 34; fint 2]; [fint 34; fint 3]; [fint 33; fint 2]]) (model_trees e) =
            [[Ok (fdiv (fint 1) (fint 2), 0); Ok (fdiv (fint (-5)) (fint 4), 1); Ok (fint 3, 2)];
             [Ok (fdiv (fint 3) (fint 4), 0); Ok (fdiv (fint 3) (fint 4), 0); Ok (fdiv (fint 3) (fint 4), 0)]]
  | _ => False
  end /\
  Forall (features_below 2) [ex_tree; ex_const].
Proof. split; [vm_compute; reflexivity|]. split; [vm_compute; reflexivity|]. repeat constructor; cbn; lia. Qed.
