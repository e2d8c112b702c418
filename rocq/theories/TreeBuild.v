(** * The depth-first conversion loop shared by the three tree loaders

    lgensemble_io.go:241-289, xgensemble_io.go:84-132 and skensemble_io.go:65-113 contain the
    same loop; they differ in how a node is created and where child indices come from. *)

From Coq Require Import ZArith List Bool String.
From Verif Require Import Go GoFloat LgTree.

(** What the loop is parametrised with.  [src_create t idx] is createNode: it may append
    leaf values and categorical thresholds to the tree under construction.  [src_left] and
    [src_right] read a child index of an original node. *)
Record source : Type := mkSource {
  src_create : lgTree -> Z -> outcome (lgNode * lgTree);
  src_left : Z -> outcome Z;
  src_right : Z -> outcome Z }.

(** A leaf child found while creating a node: xgensemble_io.go:71-75 and 76-80,
    skensemble_io.go:52-56 and 57-61, lgensemble_io.go:486-490 and 491-495 *)
Definition leaf_left (nt : lgNode * lgTree) (v : f64) : lgNode * lgTree :=
  let (n, t) := nt in
  (node_set_left (node_or_flags n leftLeaf) (u32 (zlen (tLeafValues t))), tree_set_leaves t (tLeafValues t ++ [v])).
Definition leaf_right (nt : lgNode * lgTree) (v : f64) : lgNode * lgTree :=
  let (n, t) := nt in
  (node_set_right (node_or_flags n rightLeaf) (u32 (zlen (tLeafValues t))), tree_set_leaves t (tLeafValues t ++ [v])).

(** Loop state: the two index stacks (top first), the visited array, the tree *)
Record bstate : Type := mkB {
  b_orig : list Z; b_conv : list Z; b_visited : list bool; b_tree : lgTree }.

(** lgensemble_io.go:257-266 and 273-282: append the new node for [origIdx], push it, mark it
    visited and store its index in the parent at [convIdx] ([set] is node_set_right or
    node_set_left) *)
Definition push_child (s : source) (set : lgNode -> Z -> lgNode) (origIdx convIdx : Z) (b : bstate)
  : outcome bstate :=
  let* (node, t) := src_create s (b_tree b) origIdx in
  let nodes := tNodes t ++ [node] in
  let convNewIdx := zlen nodes - 1 in
  let* visited := set_at (b_visited b) origIdx true in
  let* parent := at_ nodes convIdx in
  let* nodes := set_at nodes convIdx (set parent (u32 convNewIdx)) in
  Ok (mkB (u32 origIdx :: b_orig b) (u32 convNewIdx :: b_conv b) visited (tree_set_nodes t nodes)).

(** lgensemble_io.go:270-287: descend into the left child if it is an inner node not yet
    visited, otherwise pop the stacks ([pop] is the popped state) *)
Definition build_left (s : source) (o convIdx : Z) (b pop : bstate) : outcome (option bstate) :=
  let* n := at_ (tNodes (b_tree b)) convIdx in
  if has (nFlags n) leftLeaf then Ok (Some pop)
  else
    let* origIdx := src_left s o in
    let* v := at_ (b_visited b) origIdx in
    if v then Ok (Some pop)
    else let* b' := push_child s node_set_left origIdx convIdx b in Ok (Some b').

(** lgensemble_io.go:252-288: one iteration, [None] when the stack is empty *)
Definition build_step (s : source) (b : bstate) : outcome (option bstate) :=
  match b_orig b, b_conv b with
  | o :: orig', convIdx :: conv' =>
      let pop := mkB orig' conv' (b_visited b) (b_tree b) in
      let* n := at_ (tNodes (b_tree b)) convIdx in
      if has (nFlags n) rightLeaf then build_left s o convIdx b pop
      else
        let* origIdx := src_right s o in
        let* v := at_ (b_visited b) origIdx in
        if v then build_left s o convIdx b pop
        else let* b' := push_child s node_set_right origIdx convIdx b in Ok (Some b')
  | [], _ => Ok None
  | _, [] => Panic "index out of range"
  end.

(** the loop, on fuel.  Theorem C29_loop_bounded shows that the fuel given by [build] is
    never exhausted. *)
Fixpoint build_loop (s : source) (fuel : nat) (b : bstate) : outcome lgTree :=
  match fuel with
  | O => Hang
  | S fuel' =>
      let* r := build_step s b in
      match r with
      | None => Ok (b_tree b)
      | Some b' => build_loop s fuel' b'
      end
  end.

(** lgensemble_io.go:241-289: creation of the root and the loop.  [numVisited] is the length
    of the visited array.  visited[0] is not set for the root. *)
Definition build (s : source) (numVisited : Z) (t : lgTree) : outcome lgTree :=
  let visited := repeat false (Z.to_nat numVisited) in
  let* (node, t) := src_create s t 0 in
  build_loop s (2 * List.length visited + 2)
    (mkB [0] [0] visited (tree_set_nodes t (tNodes t ++ [node]))).
