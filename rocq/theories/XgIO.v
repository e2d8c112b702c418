(** * Model of the XGBoost loaders (/repo/xgensemble_io.go and /repo/xgblinear_io.go) *)

From Coq Require Import ZArith List Bool String.
From Verif Require Import Go GoFloat GoText LgTree TreeBuild Transformation Ensembles Leaves XgBin.

(** xgensemble_io.go:12-14 *)
Definition xgSplitIndex (n : xNode) : Z := Z.land (xSIndex n) (two31 - 1).
(** xgensemble_io.go:16-18 *)
Definition xgDefaultLeft (n : xNode) : bool := negb (Z.shiftr (xSIndex n) 31 =? 0).
(** xgensemble_io.go:20-22 *)
Definition xgIsLeaf (n : xNode) : bool := xCLeft n =? -1.

(** xgensemble_io.go:53-82 createNode *)
Definition xg_createNode (nodes : list xNode) (t : lgTree) (idx : Z) : outcome (lgNode * lgTree) :=
  let* origNode := at_ nodes idx in
  let defaultType := if xgDefaultLeft origNode then defaultLeft else 0 in
  let node := numericalNode (xgSplitIndex origNode) missingNan (f64_of_f32bits (xInfo origNode)) defaultType in
  if xCLeft origNode <? 0 then Err "logic error: got origNode.CLeft < 0"
  else if xCRight origNode <? 0 then Err "logic error: got origNode.CRight < 0" else
  let* l := at_ nodes (xCLeft origNode) in
  let (node, t) := if xgIsLeaf l then leaf_left (node, t) (f64_of_f32bits (xInfo l)) else (node, t) in
  let* r := at_ nodes (xCRight origNode) in
  Ok (if xgIsLeaf r then leaf_right (node, t) (f64_of_f32bits (xInfo r)) else (node, t)).

Definition xg_source (nodes : list xNode) : source :=
  mkSource (xg_createNode nodes)
           (fun i => let* n := at_ nodes i in Ok (xCLeft n))
           (fun i => let* n := at_ nodes i in Ok (xCRight n)).

(** xgensemble_io.go:24-133 xgTreeFromTreeModel; [numFeatures] is a uint32 *)
Definition xgTreeFromTreeModel (p : platform) (m : TreeModel) (numFeatures : Z) : outcome lgTree :=
  if s32 numFeatures <? tpNumFeature (tmParam m) then Err "tree number of features"
  else if negb (tpNumRoots (tmParam m) =? 1) then Err "support only trees with 1 root"
  else if tpNumNodes (tmParam m) =? 0 then Err "tree with zero number of nodes"
  else if tpNumNodes (tmParam m) =? 1 then
    let* n := at_ (tmNodes m) 0 in
    Ok (tree_set_leaves emptyTree [f64_of_f32bits (xInfo n)])
  else
    let* _ := make_check p (tpNumNodes (tmParam m)) in
    build (xg_source (tmNodes m)) (tpNumNodes (tmParam m)) emptyTree.

(** xgensemble_io.go:211-222: the pattern 0 1 .. groups-1 0 1 .. of the tree info *)
Fixpoint check_tree_info (groups curID : Z) (info : list Z) : bool :=
  match info with
  | [] => true
  | i :: info' =>
      (i =? curID) && check_tree_info groups (if groups <=? curID + 1 then 0 else curID + 1) info'
  end.

(** xgensemble_io.go:224-232 and xgblinear_io.go:38-46 *)
Definition xg_transform (nameObj : bytes) (loadTransformation : bool) (groups : Z) : outcome transform :=
  if loadTransformation then
    if beqb nameObj (bs "binary:logistic") then Ok TransformLogistic
    else Err "unknown transformation function"
  else Ok (TransformRaw groups).

(** xgensemble_io.go:171-195: the weights of the trees.  The loop at line 190 does not run for
    a negative count, but [make] has already panicked. *)
Definition xg_weights (p : platform) (dart : bool) (numTrees : Z) (r : reader) : outcome (list f64 * reader) :=
  let* _ := make_check p numTrees in
  if dart then
    let* (w, r) := ReadFloat32Slice p r in
    if negb (zlen w =? numTrees) then Err "unexpected len(weightDrop) for 'dart'"
    else Ok (map f64_of_f32bits w, r)
  else Ok (repeat fone (Z.to_nat numTrees), r).

(** xgensemble_io.go:136-249: as XGEnsembleFromReader, also returning the reader *)
Definition xg_ensemble_and_rest (p : platform) (r : reader) (loadTransformation : bool)
  : outcome (Ensemble * reader) :=
  let* (header, r) := ReadModelHeader p r in
  let* name := if beqb (mhNameGbm header) (bs "gbtree") then Ok (bs "xgboost.gbtree")
               else if beqb (mhNameGbm header) (bs "dart") then Ok (bs "xgboost.dart")
               else Err "only 'gbtree' or 'dart' is supported" in
  let numFeatures := lmNumFeatures (mhParam header) in
  if numFeatures =? 0 then Err "zero number of features" else
  let* (model, r) := ReadGBTreeModel p r in
  if s32 numFeatures <? gpNumFeature (gmParam model) then Err "gbtee number of features" else
  let nTrees := gpNumTrees (gmParam model) in
  let* (weightDrop, r) := xg_weights p (beqb (mhNameGbm header) (bs "dart")) nTrees r in
  let groups := gpNumOutputGroup (gmParam model) in
  if negb (gpNumRoots (gmParam model) =? 1) then Err "support only trees with 1 root"
  else if negb (zlen (gmTreeInfo model) =? nTrees) then Err "TreeInfo size"
  else if negb (check_tree_info groups 0 (gmTreeInfo model)) then Err "TreeInfo expected to have pattern" else
  let* transform := xg_transform (mhNameObj header) loadTransformation groups in
  if nTrees =? 0 then Err "no trees in model" else
  let* trees := mapM (fun i => let* t := at_ (gmTrees model) i in xgTreeFromTreeModel p t numFeatures) (zseq nTrees) in
  Ok (mkEnsemble (BXg (mkXgEnsemble trees (numFeatures - 1) groups (f64_of_f32bits (lmBaseScore (mhParam header)))
                         weightDrop name)) transform, r).

(** xgensemble_io.go:136-249 XGEnsembleFromReader *)
Definition XGEnsembleFromReader (p : platform) (r : reader) (loadTransformation : bool) : outcome Ensemble :=
  let* (e, _) := xg_ensemble_and_rest p r loadTransformation in Ok e.

(** xgblinear_io.go:13-48: as XGBLinearFromReader, also returning the reader *)
Definition xgblinear_and_rest (p : platform) (r : reader) (loadTransformation : bool)
  : outcome (Ensemble * reader) :=
  let* (header, r) := ReadModelHeader p r in
  if negb (beqb (mhNameGbm header) (bs "gblinear")) then Err "only gblinear is supported"
  else if lmNumFeatures (mhParam header) =? 0 then Err "zero number of features" else
  let* (model, r) := ReadGBLinearModel p r in
  let groups := glNumOutputGroup (blParam model) in
  let* transform := xg_transform (mhNameObj header) loadTransformation groups in
  Ok (mkEnsemble (BLinear (mkXgLinear (glNumFeature (blParam model)) groups
                             (f64_of_f32bits (lmBaseScore (mhParam header))) (blWeights model))) transform, r).

(** xgblinear_io.go:13-48 XGBLinearFromReader *)
Definition XGBLinearFromReader (p : platform) (r : reader) (loadTransformation : bool) : outcome Ensemble :=
  let* (e, _) := xgblinear_and_rest p r loadTransformation in Ok e.
