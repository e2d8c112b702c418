(** * Properties of single split decisions (C23, C24) *)

From Coq Require Import ZArith List Bool String Lia ZifyBool.
From Verif Require Import Go GoFloat UtilBits LgTree Spec_Bits Spec_Split Pf_Go Pf_Split Demo.

(** ** C23 *)
(** A node built by the library for a numerical split ([numericalNode] plus the flags that
    mark leaf children) decides by the rule of Spec_Split, for every float64 value. *)
Theorem C23_numerical_split :
  forall p t feature m default_left threshold v leaves,
  valid64 threshold = true -> valid64 v = true -> leaf_bits leaves ->
  exists goes_left,
    decision p t (node_or_flags (numericalNode feature (missing_flag m) threshold (default_flag default_left)) leaves) v
      = Ok goes_left /\
    numeric_rule m default_left threshold v goes_left.
Proof.
  intros p t f m dl thr v b Ht Hv Hb. exists (numeric_left m dl thr v). split; [|apply numeric_left_rule; auto].
  apply (numerical_decides p t (node_or_flags (numericalNode f (missing_flag m) thr (default_flag dl)) b) m dl v b Hb). reflexivity.
Qed.
Print Assumptions C23_numerical_split.

Example C23_case_missing :
  is_missing MZero fnan /\
  decision amd64 emptyTree (node_or_flags (numericalNode 0 (missing_flag MZero) (fint 5) (default_flag false)) leftLeaf) fnan = Ok false /\
  decision amd64 emptyTree (node_or_flags (numericalNode 0 (missing_flag MNone) (fint 5) (default_flag false)) leftLeaf) fnan = Ok true /\
  decision amd64 emptyTree (node_or_flags (numericalNode 0 (missing_flag MNan) (fint 5) (default_flag true)) 0) (fint 6) = Ok false.
Proof.
  split; [|repeat split].
  apply (proj1 (zero_range fzero eq_refl eq_refl)). reflexivity.
Qed.

(** ** C24 *)
(** [stores t node m cats]: the set of categories kept in any of the three encodings.
    For every float64 with an integer part in the int32 range the node goes left exactly
    for the members of the set, whichever encoding is used and on every platform. *)
Theorem C24_categorical_split :
  forall p t node m cats v z,
  stores t node m cats ->
  trunc v = Some z -> - two31 <= z < two31 ->
  exists goes_left, decision p t node v = Ok goes_left /\
  (goes_left = true <-> 0 <= z /\ cats z = true).
Proof.
  intros p t node m cats v z Hs Hz Hr. eexists. split; [apply categorical_decides; exact Hs|].
  unfold category_left, f2i32. rewrite Hz. replace ((- two31 <=? z) && (z <? two31)) with true by lia.
  assert (Hn : is_nan v = false) by (destruct v; auto; discriminate). rewrite Hn.
  destruct (Z.ltb_spec z 0); split; intros H'; try discriminate; try lia; auto; try tauto.
Qed.
Print Assumptions C24_categorical_split.

(** The rest of the values: NaN, infinities and integer parts outside int32. *)
Theorem C24_other_values :
  forall p t node m cats v,
  stores t node m cats -> decision p t node v = Ok (category_left (f2i32 p) m cats v).
Proof. intros. apply categorical_decides. auto. Qed.
Print Assumptions C24_other_values.

(** On amd64 all of those go right. *)
Theorem C24_amd64_other_values_go_right :
  forall t node m cats v,
  stores t node m cats ->
  (trunc v = None \/ exists z, trunc v = Some z /\ (z < - two31 \/ two31 <= z)) ->
  decision amd64 t node v = Ok false.
Proof.
  intros t node m cats v Hs Hv. rewrite (categorical_decides _ _ _ _ _ _ Hs). f_equal.
  assert (E : f2i32 amd64 v = - two31).
  { unfold f2i32. destruct Hv as [-> | (z & -> & Hz)]; [reflexivity|].
    replace ((- two31 <=? z) && (z <? two31)) with false by lia. reflexivity. }
  unfold category_left. rewrite E. reflexivity.
Qed.
Print Assumptions C24_amd64_other_values_go_right.

(** The treatment of NaN does depend on the platform: int32(NaN) is negative on amd64 and
    0 on arm64, and the sign is tested before NaN. *)
Theorem C24_nan_platform_independent_refuted :
  exists t node m cats, stores t node m cats /\
    decision amd64 t node fnan = Ok false /\ decision arm64 t node fnan = Ok true.
Proof.
  exists emptyTree, (categoricalNode 0 0 0 catOneHot), MNone, (fun k => k =? 0).
  split; [|split; vm_compute; reflexivity].
  apply (stores_one _ _ _ _ 0 0); try reflexivity.
  - left. reflexivity.
  - unfold two31. lia.
Qed.
Print Assumptions C24_nan_platform_independent_refuted.

(** the three encodings of a set, on the same values *)
Example C24_case_small : stores emptyTree (categoricalNode 0 32 10 catSmall) MNan (bit [10]).
Proof.
  apply (stores_small _ _ _ _ 0 10); try reflexivity; [left; reflexivity|split; [lia|reflexivity]].
Qed.
Example C24_case_large :
  stores (tree_set_cats emptyTree [0; 1; 3] [5; 0; 6]) (node_or_flags (categoricalNode 0 0 1 0) leftLeaf) MNone (bit [0; 6]).
Proof.
  apply (stores_large _ _ _ _ leftLeaf 1 1 3 [0; 6]); try reflexivity; [right; left; reflexivity|unfold two32; lia].
Qed.
Example C24_case_values :
  bit [0; 6] 33 = true /\ bit [0; 6] 1 = false /\
  decision amd64 (tree_set_cats emptyTree [0; 1; 3] [5; 0; 6]) (categoricalNode 0 0 1 0) (fint 33) = Ok true /\
  decision amd64 (tree_set_cats emptyTree [0; 1; 3] [5; 0; 6]) (categoricalNode 0 0 1 0) (fint 2) = Ok false.
Proof. repeat split; vm_compute; reflexivity. Qed.
