(** * Model of the sklearn loader (/repo/skensemble_io.go) *)

From Coq Require Import ZArith List Bool String.
From Verif Require Import Go GoFloat GoText LgTree TreeBuild Transformation Ensembles Leaves XgBin Pickle SkClasses.

(** skensemble_io.go:46-63 createNode; [vals] holds one value per node.  [values[i]*scale+base]
    is two roundings (no fused multiply-add, as on amd64). *)
Definition sk_value (values : list f64) (scale base : f64) (i : Z) : outcome f64 :=
  let* v := at_ values i in Ok (fadd (fmul v scale) base).
Definition sk_createNode (nodes : list SklearnNode) (values : list f64) (scale base : f64) (t : lgTree) (idx : Z)
  : outcome (lgNode * lgTree) :=
  let* refNode := at_ nodes idx in
  let node := numericalNode (u32 (skFeature refNode)) 0 (skThreshold refNode) 0 in
  let* l := at_ nodes (skLeftChild refNode) in
  let* (node, t) := if skLeftChild l <? 0 then let* v := sk_value values scale base (skLeftChild refNode) in Ok (leaf_left (node, t) v)
                    else Ok (node, t) in
  let* r := at_ nodes (skRightChild refNode) in
  if skLeftChild r <? 0 then let* v := sk_value values scale base (skRightChild refNode) in Ok (leaf_right (node, t) v)
  else Ok (node, t).

(** skensemble_io.go:79 and 95 *)
Definition sk_source (nodes : list SklearnNode) (values : list f64) (scale base : f64) : source :=
  mkSource (sk_createNode nodes values scale base)
           (fun i => let* n := at_ nodes i in Ok (skLeftChild n))
           (fun i => let* n := at_ nodes i in Ok (skRightChild n)).

(** skensemble_io.go:12-114 *)
Definition lgTreeFromSklearnDecisionTreeRegressor (p : platform) (tree : SklearnDecisionTreeRegressor) (scale base : f64)
  : outcome lgTree :=
  let nodes := stNodes (srTree tree) in
  let values := stValues (srTree tree) in
  let numLeaves := zlen (filter (fun n => skLeftChild n <? 0) nodes) in
  let numNodes := zlen nodes - numLeaves in
  if negb (numLeaves - 1 =? numNodes) then Err "unexpected number of leaves and nodes"
  else if numNodes =? 0 then
    let node := node_set_right (node_set_left (node_or_flags (node_or_flags (numericalNode 0 0 fzero 0) leftLeaf) rightLeaf) 0) 0 in
    let* v := sk_value values scale base 0 in
    Ok (tree_set_leaves (tree_set_nodes emptyTree [node]) [v])
  else
    let* _ := make_check p (stNNodes (srTree tree)) in
    build (sk_source nodes values scale base) (stNNodes (srTree tree)) emptyTree.

(** skensemble_io.go:147-159: the initial values of the output groups *)
Definition sk_base (p : platform) (init : SKlearnInitEstimator) (groups : Z) : outcome (list f64) :=
  let* base := make_f64 p groups in
  if beqb (ieName init) (bs "LogOddsEstimator") then
    mapM (fun _ => at_ (iePrior init) 0) base
  else if beqb (ieName init) (bs "PriorProbabilityEstimator") then
    if negb (zlen (iePrior init) =? zlen base) then Err "len(gbdt.InitEstimator.Prior) != len(base)"
    else Ok (iePrior init)
  else Err "unknown initial estimator".

(** skensemble_io.go:162-174: the trees; after the first estimator the base is zero *)
Definition sk_trees (p : platform) (gb : SklearnGradientBoosting) (groups : Z) (base : list f64) : outcome (list lgTree) :=
  let* (trees, _) :=
    foldM (fun acc i =>
      let (trees, base) := acc : list lgTree * list f64 in
      let* new := mapM (fun j =>
                    let* est := at_ (gbEstimators gb) (i * groups + j) in
                    let* b := at_ base j in
                    lgTreeFromSklearnDecisionTreeRegressor p est (gbLearningRate gb) b) (zseq groups) in
      Ok (trees ++ new, map (fun _ => fzero) base))
    (zseq (gbNEstimators gb)) ([], base) in
  Ok trees.

(** skensemble_io.go:130-175, after the class has been read *)
Definition SKEnsembleFromClass (p : platform) (gb : SklearnGradientBoosting) : outcome Ensemble :=
  let groups := if gbNClasses gb =? 2 then 1 else gbNClasses gb in
  if gbNEstimators gb =? 0 then Err "no trees in file"
  else if negb (s64 (gbNEstimators gb * groups) =? zlen (gbEstimators gb)) then Err "unexpected number of trees" else
  let* base := sk_base p (gbInit gb) groups in
  let* _ := make_check p (s64 (gbNEstimators gb * gbNClasses gb)) in
  let* trees := sk_trees p gb groups base in
  Ok (mkEnsemble (BLg (mkLgEnsemble trees (s64 (gbMaxFeatures gb - 1)) groups
                         (bs "sklearn.ensemble.GradientBoostingClassifier") false)) (TransformRaw groups)).

(** skensemble_io.go:117-176; [loadTransformation] is not used *)
Definition SKEnsembleFromReader (p : platform) (r : reader) (loadTransformation : bool) : outcome Ensemble :=
  let* (vh, _) := Decode p r in
  let (v, h) := vh : val * heap in
  let* gb := ParseGradientBoosting p h v in
  SKEnsembleFromClass p gb.
