(** * Model of /repo/lgtree.go *)

From Coq Require Import ZArith List Bool.
From Verif Require Import Go GoFloat UtilBits.

(** lgtree.go:9-18 flag bits *)
Definition categorical : Z := 1.
Definition defaultLeft : Z := 2.
Definition leftLeaf : Z := 4.
Definition rightLeaf : Z := 8.
Definition missingZero : Z := 16.
Definition missingNan : Z := 32.
Definition catOneHot : Z := 64.
Definition catSmall : Z := 128.

(** lgtree.go:20 zeroThreshold = 1e-35 as the nearest float64
    (7482888383134223 * 2^-169) *)
Definition zeroThreshold : f64 := SpecFloat.S754_finite false 7482888383134223 (-169).

(** lgtree.go:22-28 lgNode *)
Record lgNode : Type := mkNode {
  nThreshold : f64; nLeft : Z; nRight : Z; nFeature : Z; nFlags : Z }.

(** lgtree.go:30-36 lgTree *)
Record lgTree : Type := mkTree {
  tNodes : list lgNode;
  tLeafValues : list f64;
  tCatBoundaries : list Z;
  tCatThresholds : list Z;
  tNCategorical : Z }.

(** Go zero value [lgTree{}] *)
Definition emptyTree : lgTree := mkTree [] [] [] [] 0.

(** lgtree.go:115-117 isZero *)
Definition isZero (fval : f64) : bool :=
  fgt fval (fneg zeroThreshold) && fle fval zeroThreshold.

(** lgtree.go:38-47 numericalDecision *)
Definition numericalDecision (node : lgNode) (fval : f64) : bool :=
  let fval := if is_nan fval && (Z.land (nFlags node) missingNan =? 0) then fzero else fval in
  if (has (nFlags node) missingZero && isZero fval)
     || (has (nFlags node) missingNan && is_nan fval)
  then has (nFlags node) defaultLeft
  else fle fval (nThreshold node).

(** lgtree.go:96-105 findInBitset; uint32 arithmetic wraps, slice accesses are
    bounds-checked *)
Definition findInBitset (t : lgTree) (idx pos : Z) : outcome bool :=
  let i1 := pos / 32 in
  let* idxS := at_ (tCatBoundaries t) idx in
  let* idxE := at_ (tCatBoundaries t) (u32 (idx + 1)) in
  if u32 (idxE - idxS) <=? i1 then Ok false
  else
    let i2 := pos mod 32 in
    let* w := at_ (tCatThresholds t) (u32 (idxS + i1)) in
    Ok (0 <? Z.land (Z.shiftr w i2) 1).

(** lgtree.go:49-65 categoricalDecision *)
Definition categoricalDecision (p : platform) (t : lgTree) (node : lgNode) (fval : f64)
  : outcome bool :=
  let ifval := f2i32 p fval in
  if ifval <? 0 then Ok false
  else
    let continue_ (ifval : Z) :=
      if has (nFlags node) catOneHot then Ok (f2i32 p (nThreshold node) =? ifval)
      else if has (nFlags node) catSmall then
        Ok (FindInBitsetUint32 (f2u32 p (nThreshold node)) (u32 ifval))
      else findInBitset t (f2u32 p (nThreshold node)) (u32 ifval) in
    if is_nan fval then
      if has (nFlags node) missingNan then Ok false else continue_ 0
    else continue_ ifval.

(** lgtree.go:67-72 decision *)
Definition decision (p : platform) (t : lgTree) (node : lgNode) (fval : f64) : outcome bool :=
  if has (nFlags node) categorical then categoricalDecision p t node fval
  else Ok (numericalDecision node fval).

(** lgtree.go:79-93: one iteration of the loop, yielding either the result
    (leaf value, leaf index) or the next node index *)
Definition predict_step (p : platform) (t : lgTree) (fvals : list f64) (idx : Z)
  : outcome ((f64 * Z) + Z) :=
  let* node := at_ (tNodes t) idx in
  let* fval := at_ fvals (nFeature node) in
  let* goLeft := decision p t node fval in
  if goLeft then
    if has (nFlags node) leftLeaf then
      let* v := at_ (tLeafValues t) (nLeft node) in Ok (inl (v, nLeft node))
    else Ok (inr (nLeft node))
  else
    if has (nFlags node) rightLeaf then
      let* v := at_ (tLeafValues t) (nRight node) in Ok (inl (v, nRight node))
    else Ok (inr (u32 (idx + 1))).

(** lgtree.go:79 the unbounded [for], on fuel; exhausted fuel is [Hang] *)
Fixpoint predict_loop (p : platform) (t : lgTree) (fvals : list f64) (fuel : nat) (idx : Z)
  : outcome (f64 * Z) :=
  match fuel with
  | O => Hang
  | S fuel' =>
      let* s := predict_step p t fvals idx in
      match s with
      | inl r => Ok r
      | inr idx' => predict_loop p t fvals fuel' idx'
      end
  end.

(** lgtree.go:74-94 predict.  Fuel: one visit per node plus one; theorem
    [predict_hang_is_divergence] shows that exhausting it means the Go loop never ends. *)
Definition predict (p : platform) (t : lgTree) (fvals : list f64) : outcome (f64 * Z) :=
  match tNodes t with
  | [] => let* v := at_ (tLeafValues t) 0 in Ok (v, 0)
  | _ => predict_loop p t fvals (S (List.length (tNodes t))) 0
  end.

(** lgtree.go:107-109 nLeaves *)
Definition nLeaves (t : lgTree) : Z := zlen (tNodes t) + 1.
(** lgtree.go:111-113 nNodes *)
Definition nNodes (t : lgTree) : Z := zlen (tNodes t).

(** misc.go:3-10 GetNLeaves *)
Definition GetNLeaves (trees : list lgTree) : list Z := map nLeaves trees.

(** lgtree.go:119-125 categoricalNode *)
Definition categoricalNode (feature missingType threshold catType : Z) : lgNode :=
  mkNode (f64_of_Z threshold) 0 0 feature (Z.lor (Z.lor categorical missingType) catType).

(** lgtree.go:127-133 numericalNode *)
Definition numericalNode (feature missingType : Z) (threshold : f64) (defaultType : Z) : lgNode :=
  mkNode threshold 0 0 feature (Z.lor missingType defaultType).

(** field updates *)
Definition node_set_left (n : lgNode) (v : Z) : lgNode :=
  mkNode (nThreshold n) v (nRight n) (nFeature n) (nFlags n).
Definition node_set_right (n : lgNode) (v : Z) : lgNode :=
  mkNode (nThreshold n) (nLeft n) v (nFeature n) (nFlags n).
Definition node_or_flags (n : lgNode) (m : Z) : lgNode :=
  mkNode (nThreshold n) (nLeft n) (nRight n) (nFeature n) (Z.lor (nFlags n) m).

Definition tree_set_nodes (t : lgTree) (ns : list lgNode) : lgTree :=
  mkTree ns (tLeafValues t) (tCatBoundaries t) (tCatThresholds t) (tNCategorical t).
Definition tree_set_leaves (t : lgTree) (vs : list f64) : lgTree :=
  mkTree (tNodes t) vs (tCatBoundaries t) (tCatThresholds t) (tNCategorical t).
Definition tree_set_cats (t : lgTree) (bnd thr : list Z) : lgTree :=
  mkTree (tNodes t) (tLeafValues t) bnd thr (tNCategorical t).
Definition tree_set_ncat (t : lgTree) (n : Z) : lgTree :=
  mkTree (tNodes t) (tLeafValues t) (tCatBoundaries t) (tCatThresholds t) n.
