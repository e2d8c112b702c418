(** * Model of the LightGBM text loader (/repo/lgensemble_io.go:52-391) *)

From Coq Require Import ZArith List Bool String.
From Coq Require Import Floats.SpecFloat.
From Verif Require Import Go GoFloat GoText UtilText UtilBits LgTree TreeBuild Transformation Ensembles Leaves.

(** lgensemble_io.go:55-59 lgObjective *)
Record lgObjective : Type := mkObjective { ob_name : bytes; ob_param : bytes; ob_value : Z }.

(** lgensemble_io.go:61-80 lgObjectiveParse *)
Definition lgObjectiveParse (objective : bytes) : outcome lgObjective :=
  match split objective [sp] with
  | [name; param] =>
      match split param [":"%byte] with
      | [key; value] =>
          match atoi value with
          | Some v => Ok (mkObjective name key v)
          | None => Err "unexpected objective field"
          end
      | _ => Err "unexpected objective field"
      end
  | _ => Err "unexpected objective field"
  end.

(** lgensemble_io.go:82-95 convertMissingType *)
Definition convertMissingType (decisionType : Z) : outcome Z :=
  let missingTypeOrig := Z.land (Z.shiftr decisionType 2) 3 in
  if missingTypeOrig =? 0 then Ok 0
  else if missingTypeOrig =? 1 then Ok missingZero
  else if missingTypeOrig =? 2 then Ok missingNan
  else Err "unknown missing type".

(** the arrays of a text tree, lgensemble_io.go:135-169 *)
Record lgArrays : Type := mkArrays {
  a_left : list Z; a_right : list Z; a_decision : list Z; a_feature : list Z;
  a_threshold : list f64; a_catThreshold : list Z; a_catBoundaries : list Z }.

(** lgensemble_io.go:183-190 and 225-232: mark leaf children; [^x] is [-x-1] on int32 *)
Definition mark_leaves (a : lgArrays) (idx : Z) (node : lgNode) : outcome lgNode :=
  let* l := at_ (a_left a) idx in
  let node := if l <? 0 then node_set_left (node_or_flags node leftLeaf) (u32 (- l - 1)) else node in
  let* r := at_ (a_right a) idx in
  Ok (if r <? 0 then node_set_right (node_or_flags node rightLeaf) (u32 (- r - 1)) else node).

(** lgensemble_io.go:171-191 createNumericalNode *)
Definition lg_createNumericalNode (a : lgArrays) (idx : Z) : outcome lgNode :=
  let* d := at_ (a_decision a) idx in
  let* missingType := convertMissingType d in
  let defaultType := if has d 2 then defaultLeft else 0 in
  let* f := at_ (a_feature a) idx in
  let* thr := at_ (a_threshold a) idx in
  mark_leaves a idx (numericalNode f missingType thr defaultType).

(** lgensemble_io.go:193-234 createCategoricalNode; returns the tree with the thresholds
    appended (lines 217-222) *)
Definition lg_createCategoricalNode (p : platform) (a : lgArrays) (t : lgTree) (idx : Z)
  : outcome (lgNode * lgTree) :=
  let* d := at_ (a_decision a) idx in
  let* missingType := convertMissingType d in
  let* thr := at_ (a_threshold a) idx in
  let catIdx := f2u32 p thr in
  let* hi := at_ (a_catBoundaries a) (u32 (catIdx + 1)) in
  let* lo := at_ (a_catBoundaries a) catIdx in
  let bitsetSize := u32 (hi - lo) in
  let* thresholdSlice := slice (a_catThreshold a) lo hi in
  let nBits := NumberOfSetBits thresholdSlice in
  let* (catIdx, catType, t) :=
    if nBits =? 0 then Err "no bits set"
    else if nBits =? 1 then
      match FirstNonZeroBit thresholdSlice with
      | Ok i => Ok (i, catOneHot, t)
      | Err _ => Err "not reached error"
      | Panic m => Panic m
      | Hang => Hang
      end
    else if bitsetSize =? 1 then
      let* w := at_ (a_catThreshold a) lo in
      Ok (w, catSmall, t)
    else
      let thresholds := tCatThresholds t ++ thresholdSlice in
      Ok (u32 (zlen (tCatBoundaries t) - 1), 0,
          tree_set_cats t (tCatBoundaries t ++ [u32 (zlen thresholds)]) thresholds) in
  let* f := at_ (a_feature a) idx in
  let* node := mark_leaves a idx (categoricalNode f missingType catIdx catType) in
  Ok (node, t).

(** lgensemble_io.go:235-240 createNode *)
Definition lg_createNode (p : platform) (a : lgArrays) (t : lgTree) (idx : Z) : outcome (lgNode * lgTree) :=
  let* d := at_ (a_decision a) idx in
  if has d 1 then lg_createCategoricalNode p a t idx
  else let* n := lg_createNumericalNode a idx in Ok (n, t).

Definition lg_source (p : platform) (a : lgArrays) : source :=
  mkSource (lg_createNode p a) (at_ (a_left a)) (at_ (a_right a)).

(** lgensemble_io.go:109-289: the tree described by a parameter block.  The [make] calls of
    lines 241-244 panic when numNodes cannot be allocated. *)
Definition lgTreeFromParams (p : platform) (params : stringParams) : outcome lgTree :=
  let* numCategorical := ToInt params (bs "num_cat") in
  let t := tree_set_ncat emptyTree (u32 numCategorical) in
  let* numLeaves := ToInt params (bs "num_leaves") in
  if numLeaves <? 1 then Err "num_leaves < 1" else
  let numNodes := numLeaves - 1 in
  let* leafValues := ToFloat64Slice p params (bs "leaf_value") in
  let t := tree_set_leaves t leafValues in
  if numLeaves =? 1 then Ok t else
  let* leftChilds := ToInt32Slice params (bs "left_child") in
  let* rightChilds := ToInt32Slice params (bs "right_child") in
  let* decisionTypes := ToUint32Slice params (bs "decision_type") in
  let* splitFeatures := ToUint32Slice params (bs "split_feature") in
  let* thresholds := ToFloat64Slice p params (bs "threshold") in
  let* (t, catThresholds, catBoundaries) :=
    if 0 <? numCategorical then
      let t := tree_set_cats t [0] [] in
      let* catThresholds := ToUint32Slice params (bs "cat_threshold") in
      let* catBoundaries := ToUint32Slice params (bs "cat_boundaries") in
      Ok (t, catThresholds, catBoundaries)
    else Ok (t, [], []) in
  if pl_maxalloc p <? numNodes then Panic "makeslice: cap out of range" else
  build (lg_source p (mkArrays leftChilds rightChilds decisionTypes splitFeatures thresholds
                        catThresholds catBoundaries))
        numNodes t.

(** lgensemble_io.go:103-290 lgTreeFromReader *)
Definition lgTreeFromReader (p : platform) (r : reader) : outcome (lgTree * reader) :=
  let* (params, r) := ReadParamsUntilBlank r in
  let* t := lgTreeFromParams p params in
  Ok (t, r).

(** lgensemble_io.go:382-389: the loop over the trees *)
Fixpoint lg_read_trees (p : platform) (n : nat) (r : reader) : outcome (list lgTree * reader) :=
  match n with
  | O => Ok ([], r)
  | S n' =>
      let* (t, r) := lgTreeFromReader p r in
      let* (ts, r) := lg_read_trees p n' r in
      Ok (t :: ts, r)
  end.

(** lgensemble_io.go:348-380: the choice of the transformation *)
Definition lg_transform (params : stringParams) (loadTransformation averageOutput : bool) (groups : Z)
  : outcome transform :=
  if loadTransformation && negb averageOutput then
    let* objective := ToString params (bs "objective") in
    if beqb objective (bs "poisson") || beqb objective (bs "gamma") || beqb objective (bs "tweedie")
    then Ok TransformExponential
    else if negb (has_prefix objective (bs "regression")) then
      let* ob := lgObjectiveParse objective in
      if beqb (ob_name ob) (bs "binary") && beqb (ob_param ob) (bs "sigmoid") then
        if negb (ob_value ob =? 1) then Err "got sigmoid with value != 1" else Ok TransformLogistic
      else if beqb (ob_name ob) (bs "multiclass") && beqb (ob_param ob) (bs "num_class") then
        if negb (ob_value ob =? groups) then Err "got multiclass num_class" else Ok (TransformSoftmax (ob_value ob))
      else Err "unknown transformation function"
    else Ok (TransformRaw groups)
  else Ok (TransformRaw groups).

(** lgensemble_io.go:301-346: header checks; the ensemble without trees and the number of
    trees to read *)
Definition lg_header (params : stringParams) : outcome (lgEnsemble * Z) :=
  let* _ := match Compare params (bs "version") (bs "v2") with
            | Err _ => Compare params (bs "version") (bs "v3")
            | r => r
            end in
  let* nClasses := ToInt params (bs "num_class") in
  let* nTreePerIteration := ToInt params (bs "num_tree_per_iteration") in
  if negb (nClasses =? nTreePerIteration) then Err "num_class != num_tree_per_iteration"
  else if nClasses <? 1 then Err "num_class should be > 0"
  else if nTreePerIteration <? 1 then Err "num_tree_per_iteration should be > 0" else
  let* maxFeatureIdx := ToInt params (bs "max_feature_idx") in
  let averageOutput := Contains params (bs "average_output") in
  let name := if averageOutput then bs "lightgbm.rf" else bs "lightgbm.gbdt" in
  match lookup params (bs "tree_sizes") with
  | None => Err "no tree_sizes field"
  | Some s =>
      let nTrees := zlen (split s [sp]) in
      if nTrees =? 0 then Err "no trees in file"
      else if negb (Z.rem nTrees nClasses =? 0) then Err "wrong number of trees"
      else Ok (mkLgEnsemble [] maxFeatureIdx nClasses name averageOutput, nTrees)
  end.

(** lgensemble_io.go:293-391 LGEnsembleFromReader *)
Definition LGEnsembleFromReader (p : platform) (r : reader) (loadTransformation : bool) : outcome Ensemble :=
  let* (params, r) := ReadParamsUntilBlank r in
  let* (e, nTrees) := lg_header params in
  let* transform := lg_transform params loadTransformation (lgAverageOutput e) (lgNRawOutputGroups e) in
  let* (trees, _) := lg_read_trees p (Z.to_nat nTrees) r in
  Ok (mkEnsemble (BLg (mkLgEnsemble trees (lgMaxFeatureIdx e) (lgNRawOutputGroups e) (lgName e)
                         (lgAverageOutput e))) transform).
