(** * Model of the LightGBM JSON loader (/repo/lgensemble_io.go:16-50, 97-101, 404-669)

    The text of the stream is taken as already parsed: [json] is a JSON value as package
    encoding/json sees it, with number literals kept as text.  How encoding/json stores such a
    value into Go structs (field lookup, null, type mismatches, ranges) is modelled here. *)

From Coq Require Import ZArith List Bool String.
From Coq Require Import Floats.SpecFloat.
From Verif Require Import Go GoFloat GoText UtilBits LgTree TreeBuild Transformation Ensembles Leaves.

(** ** encoding/json *)

Inductive json : Type :=
| JNull
| JBool (b : bool)
| JNum (literal : bytes)
| JStr (s : bytes)
| JArr (elems : list json)
| JObj (members : list (bytes * json)).

(** encoding/json/fold.go: keys match field names up to ASCII case, and the letters long s
    (C5 BF) and Kelvin sign (E2 84 AA) count as s and k *)
Definition lower (b : byte) : byte :=
  let z := byteZ b in if (65 <=? z) && (z <=? 90) then byte_of_Z (z + 32) else b.
Fixpoint fold_key (k : bytes) : bytes :=
  match k with
  | "197"%byte :: (("191"%byte :: k') as rest) => "s"%byte :: fold_key k'
  | "226"%byte :: (("132"%byte :: (("170"%byte :: k') as rest')) as rest) => "k"%byte :: fold_key k'
  | c :: k' => lower c :: fold_key k'
  | [] => []
  end.
(** a key of the input selects the field with the given name *)
Definition key_is (key name : bytes) : bool := beqb (fold_key key) (fold_key name).

(** a value stored into interface{}; only the cases the loader tells apart *)
Inductive iface : Type := INil | IFloat (f : f64) | IString (s : bytes) | IOther.

(** every number literal inside the value is a float64: otherwise decoding into interface{}
    fails (encoding/json/decode.go convertNumber) *)
Fixpoint numbers_fit (p : platform) (v : json) : bool :=
  match v with
  | JNum lit => match pl_parse_float p lit with Some _ => true | None => false end
  | JArr l => (fix all (l : list json) : bool := match l with [] => true | x :: l' => numbers_fit p x && all l' end) l
  | JObj l => (fix all (l : list (bytes * json)) : bool := match l with [] => true | (_, x) :: l' => numbers_fit p x && all l' end) l
  | _ => true
  end.

Definition dec_iface (p : platform) (v : json) : outcome iface :=
  if negb (numbers_fit p v) then Err "json: cannot unmarshal number" else
  match v with
  | JNull => Ok INil
  | JNum lit => match pl_parse_float p lit with Some f => Ok (IFloat f) | None => Err "json: cannot unmarshal number" end
  | JStr s => Ok (IString s)
  | _ => Ok IOther
  end.

(** null leaves a scalar field as it is; a value of another type is an error *)
Definition dec_string (v : json) (old : bytes) : outcome bytes :=
  match v with JNull => Ok old | JStr s => Ok s | _ => Err "json: cannot unmarshal" end.
Definition dec_bool (v : json) (old : bool) : outcome bool :=
  match v with JNull => Ok old | JBool b => Ok b | _ => Err "json: cannot unmarshal" end.
Definition dec_num (parse : bytes -> option Z) (v : json) (old : Z) : outcome Z :=
  match v with
  | JNull => Ok old
  | JNum lit => match parse lit with Some z => Ok z | None => Err "json: cannot unmarshal number" end
  | _ => Err "json: cannot unmarshal"
  end.

(** a struct: the members are stored one after the other, unknown keys are skipped; null
    changes nothing; anything but an object is an error *)
Definition dec_struct {A : Type} (store : A -> bytes * json -> outcome A) (zero : A) (v : json) : outcome A :=
  match v with
  | JNull => Ok zero
  | JObj l => foldM store l zero
  | _ => Err "json: cannot unmarshal"
  end.

(** ** lgensemble_io.go:38-50 lgNodeJSON.  A json.RawMessage is [None] when empty.  The fields
    LeftChild and RightChild without tag can also be addressed by input keys; they are
    overwritten before use, so only a failure to store them is observable. *)
Record lgNodeJSON : Type := mkNodeJSON {
  nj_SplitIndex : Z; nj_SplitFeature : Z; nj_Threshold : iface; nj_DecisionType : bytes;
  nj_DefaultLeft : bool; nj_MissingType : bytes; nj_LeftChildRaw : option json; nj_RightChildRaw : option json }.

Definition node_zero : lgNodeJSON := mkNodeJSON 0 0 INil [] false [] None None.

(** lgensemble_io.go:38-50, the tags *)
Definition store_node (p : platform) (n : lgNodeJSON) (kv : bytes * json) : outcome lgNodeJSON :=
  let '(mkNodeJSON si sf th dt dl mt lc rc) := n in
  let (k, v) := kv in
  if key_is k (bs "split_index") then let* si := dec_num parse_uint32 v si in Ok (mkNodeJSON si sf th dt dl mt lc rc)
  else if key_is k (bs "split_feature") then let* sf := dec_num parse_uint32 v sf in Ok (mkNodeJSON si sf th dt dl mt lc rc)
  else if key_is k (bs "threshold") then let* th := dec_iface p v in Ok (mkNodeJSON si sf th dt dl mt lc rc)
  else if key_is k (bs "decision_type") then let* dt := dec_string v dt in Ok (mkNodeJSON si sf th dt dl mt lc rc)
  else if key_is k (bs "default_left") then let* dl := dec_bool v dl in Ok (mkNodeJSON si sf th dt dl mt lc rc)
  else if key_is k (bs "missing_type") then let* mt := dec_string v mt in Ok (mkNodeJSON si sf th dt dl mt lc rc)
  else if key_is k (bs "left_child") then Ok (mkNodeJSON si sf th dt dl mt (Some v) rc)
  else if key_is k (bs "right_child") then Ok (mkNodeJSON si sf th dt dl mt lc (Some v))
  else if key_is k (bs "LeftChild") then let* _ := dec_iface p v in Ok n
  else if key_is k (bs "RightChild") then let* _ := dec_iface p v in Ok n
  else Ok n.

(** the value stored last under exactly this key of a map[string]interface{} *)
Fixpoint map_value (l : list (bytes * json)) (key : bytes) : option json :=
  match l with
  | [] => None
  | (k, v) :: l' => match map_value l' key with Some w => Some w | None => if beqb k key then Some v else None end
  end.

(** lgensemble_io.go:416-426: the value of a leaf *)
Definition leaf_value (p : platform) (v : json) : outcome f64 :=
  if negb (numbers_fit p v) then Err "json: cannot unmarshal number" else
  match v with
  | JObj l =>
      match map_value l (bs "leaf_value") with
      | Some w => let* i := dec_iface p w in match i with IFloat f => Ok f | _ => Err "unknown tree" end
      | None => Err "unknown tree"
      end
  | JNull => Err "unknown tree"
  | _ => Err "json: cannot unmarshal"
  end.

(** what unmarshalNode returns: a float64 or a *lgNodeJSON with both children filled in *)
Inductive jnode : Type := NLeaf (v : f64) | NNode (n : lgNodeJSON) (l r : jnode).

(** nesting depth of a value, used as fuel for the recursion *)
Fixpoint jdepth (v : json) : nat :=
  match v with
  | JArr l => S ((fix mx (l : list json) : nat := match l with [] => O | x :: l' => Nat.max (jdepth x) (mx l') end) l)
  | JObj l => S ((fix mx (l : list (bytes * json)) : nat := match l with [] => O | (_, x) :: l' => Nat.max (jdepth x) (mx l') end) l)
  | _ => O
  end.

(** lgensemble_io.go:407-437 unmarshalNode.  The children are values inside [raw], so the
    recursion is bounded by its depth: lemma unmarshal_node_returns. *)
Fixpoint unmarshal_node (p : platform) (fuel : nat) (raw : option json) : outcome jnode :=
  match fuel with
  | O => Hang
  | S fuel' =>
      match raw with
      | None => Err "unexpected end of JSON input"
      | Some v =>
          let* node := dec_struct (store_node p) node_zero v in
          if beqb (nj_MissingType node) [] then
            let* value := leaf_value p v in Ok (NLeaf value)
          else
            let* lc := unmarshal_node p fuel' (nj_LeftChildRaw node) in
            let* rc := unmarshal_node p fuel' (nj_RightChildRaw node) in
            Ok (NNode node lc rc)
      end
  end.
Definition unmarshalNode (p : platform) (raw : option json) : outcome jnode :=
  unmarshal_node p (2 + match raw with Some v => jdepth v | None => O end) raw.

(** ** lgensemble_io.go:97-101 stringToMissingType *)
Definition stringToMissingType (s : bytes) : option Z :=
  if beqb s (bs "None") then Some 0
  else if beqb s (bs "Zero") then Some missingZero
  else if beqb s (bs "NaN") then Some missingNan
  else None.

(** lgensemble_io.go:486-495 and 547-556: leaf children *)
Definition json_leaves (l r : jnode) (nt : lgNode * lgTree) : lgNode * lgTree :=
  let nt := match l with NLeaf v => leaf_left nt v | NNode _ _ _ => nt end in
  match r with NLeaf v => leaf_right nt v | NNode _ _ _ => nt end.

(** lgensemble_io.go:471-497 createNumericalNode *)
Definition json_createNumericalNode (t : lgTree) (n : lgNodeJSON) (l r : jnode) : outcome (lgNode * lgTree) :=
  match stringToMissingType (nj_MissingType n) with
  | None => Err "unknown missing_type"
  | Some missingType =>
      let defaultType := if nj_DefaultLeft n then defaultLeft else 0 in
      match nj_Threshold n with
      | IFloat threshold => Ok (json_leaves l r (numericalNode (nj_SplitFeature n) missingType threshold defaultType, t))
      | _ => Err "unexpected Threshold type"
      end
  end.

(** lgensemble_io.go:510-544: index and kind of the category set; strings.Split never returns
    an empty slice here *)
Definition json_category (p : platform) (t : lgTree) (thresholdString : bytes) : outcome (Z * Z * lgTree) :=
  match split thresholdString (bs "||") with
  | [] => Err "no bits set"
  | [token] =>
      match atoi token with
      | None => Err "can't convert"
      | Some value => Ok (u32 value, catOneHot, t)
      end
  | tokens =>
      let* values := mapM (fun s => match atoi s with Some v => Ok v | None => Err "can't convert" end) tokens in
      let* bitset := ConstructBitset p values in
      match bitset with
      | [w] => Ok (w, catSmall, t)
      | _ =>
          let thresholds := tCatThresholds t ++ bitset in
          Ok (u32 (zlen (tCatBoundaries t) - 1), 0,
              tree_set_cats t (tCatBoundaries t ++ [u32 (zlen thresholds)]) thresholds)
      end
  end.

(** lgensemble_io.go:499-558 createCategoricalNode *)
Definition json_createCategoricalNode (p : platform) (t : lgTree) (n : lgNodeJSON) (l r : jnode) : outcome (lgNode * lgTree) :=
  match stringToMissingType (nj_MissingType n) with
  | None => Err "unknown missing_type"
  | Some missingType =>
      match nj_Threshold n with
      | IString thresholdString =>
          let* (catIdx, catType, t) := json_category p t thresholdString in
          Ok (json_leaves l r (categoricalNode (nj_SplitFeature n) missingType catIdx catType, t))
      | _ => Err "unexpected Threshold type"
      end
  end.

(** lgensemble_io.go:559-567 createNode *)
Definition json_createNode (p : platform) (t : lgTree) (n : lgNodeJSON) (l r : jnode) : outcome (lgNode * lgTree) :=
  if beqb (nj_DecisionType n) (bs "==") then json_createCategoricalNode p t n l r
  else if beqb (nj_DecisionType n) (bs "<=") then json_createNumericalNode t n l r
  else Err "unknown decision type".

(** ** lgensemble_io.go:569-611: the stack loop.

    [parentPtr] points into the backing array of t.nodes at the time it was made.  Appending
    beyond the capacity moves the nodes to a new array; [js_gen] counts these moves, and a write
    through a pointer into an older array does not reach t.nodes. *)
Record parentPtr : Type := mkPtr { pp_gen : Z; pp_index : Z; pp_left : bool }.
Record jstate : Type := mkJ { js_tree : lgTree; js_gen : Z; js_cap : Z }.

(** lgensemble_io.go:590-592 *)
Definition write_ptr (ptr : option parentPtr) (s : jstate) : outcome jstate :=
  match ptr with
  | None => Ok s
  | Some q =>
      if pp_gen q =? js_gen s then
        let nodes := tNodes (js_tree s) in
        let v := u32 (zlen nodes) in
        let* par := at_ nodes (pp_index q) in
        let* nodes := set_at nodes (pp_index q) (if pp_left q then node_set_left par v else node_set_right par v) in
        Ok (mkJ (tree_set_nodes (js_tree s) nodes) (js_gen s) (js_cap s))
      else Ok s
  end.

(** lgensemble_io.go:593 append(t.nodes, node) *)
Definition append_node (p : platform) (node : lgNode) (s : jstate) : jstate :=
  let nodes := tNodes (js_tree s) in
  let t := tree_set_nodes (js_tree s) (nodes ++ [node]) in
  if zlen nodes + 1 <=? js_cap s then mkJ t (js_gen s) (js_cap s)
  else mkJ t (js_gen s + 1) (Z.max (zlen nodes + 1) (pl_grow p (js_cap s) (zlen nodes + 1))).

(** lgensemble_io.go:594-601 and 602-609: a child that is an inner node is pushed *)
Definition push_json (isLeft : bool) (child : jnode) (s : jstate) (stack : list (option parentPtr * jnode))
  : list (option parentPtr * jnode) :=
  match child with
  | NNode _ _ _ => (Some (mkPtr (js_gen s) (zlen (tNodes (js_tree s)) - 1) isLeft), child) :: stack
  | NLeaf _ => stack
  end.

(** lgensemble_io.go:583-610; the stack's top is the head of the list.  Every iteration removes
    a node from the trees on the stack, so the fuel given by [json_build] suffices: lemma
    json_loop_returns. *)
Fixpoint json_loop (p : platform) (fuel : nat) (stack : list (option parentPtr * jnode)) (s : jstate) : outcome lgTree :=
  match fuel with
  | O => Hang
  | S fuel' =>
      match stack with
      | [] => Ok (js_tree s)
      | (ptr, NLeaf _) :: _ => Panic "not reached: only inner nodes are pushed"
      | (ptr, NNode n l r) :: stack =>
          let* (node, t) := json_createNode p (js_tree s) n l r in
          let* s := write_ptr ptr (mkJ t (js_gen s) (js_cap s)) in
          let s := append_node p node s in
          let stack := if has (nFlags node) leftLeaf then stack else push_json true l s stack in
          let stack := if has (nFlags node) rightLeaf then stack else push_json false r s stack in
          json_loop p fuel' stack s
      end
  end.

(** number of inner nodes *)
Fixpoint jsize (t : jnode) : nat := match t with NLeaf _ => O | NNode _ l r => S (jsize l + jsize r) end.

(** lgensemble_io.go:574-611; the two [make] calls panic when numNodes cannot be allocated *)
Definition json_build (p : platform) (root : jnode) (numNodes : Z) (t : lgTree) : outcome lgTree :=
  if pl_maxalloc p <? numNodes then Panic "makeslice: cap out of range" else
  json_loop p (S (jsize root)) [(None, root)] (mkJ t 0 numNodes).

(** ** lgensemble_io.go:28-36 lgTreeJSON *)
Record lgTreeJSON : Type := mkTreeJSON { tj_NumLeaves : Z; tj_NumCat : Z; tj_RootRaw : option json }.

Definition store_tree (p : platform) (t : lgTreeJSON) (kv : bytes * json) : outcome lgTreeJSON :=
  let '(mkTreeJSON nl nc root) := t in
  let (k, v) := kv in
  if key_is k (bs "num_leaves") then let* nl := dec_num atoi v nl in Ok (mkTreeJSON nl nc root)
  else if key_is k (bs "num_cat") then let* nc := dec_num parse_uint32 v nc in Ok (mkTreeJSON nl nc root)
  else if key_is k (bs "tree_structure") then Ok (mkTreeJSON nl nc (Some v))
  else if key_is k (bs "Root") then let* _ := dec_iface p v in Ok t
  else Ok t.

(** lgensemble_io.go:440-612 unmarshalTree *)
Definition unmarshalTree (p : platform) (raw : json) : outcome lgTree :=
  let* treeJSON := dec_struct (store_tree p) (mkTreeJSON 0 0 None) raw in
  let t := tree_set_ncat emptyTree (tj_NumCat treeJSON) in
  let t := if 0 <? tNCategorical t then tree_set_cats t [0] [] else t in
  if tj_NumLeaves treeJSON <? 1 then Err "num_leaves < 1" else
  let numNodes := tj_NumLeaves treeJSON - 1 in
  let* root := unmarshalNode p (tj_RootRaw treeJSON) in
  match root with
  | NLeaf value => Ok (tree_set_leaves t (tLeafValues t ++ [value]))
  | NNode _ _ _ => json_build p root numNodes t
  end.

(** ** lgensemble_io.go:16-26 lgEnsembleJSON *)
Record lgEnsembleJSON : Type := mkEnsembleJSON {
  ej_Name : bytes; ej_Version : bytes; ej_NumClasses : Z; ej_NumTreesPerIteration : Z;
  ej_MaxFeatureIdx : Z; ej_Trees : list json }.

(** null empties a slice *)
Definition dec_slice (v : json) : outcome (list json) :=
  match v with JNull => Ok [] | JArr l => Ok l | _ => Err "json: cannot unmarshal" end.

Definition store_ensemble (e : lgEnsembleJSON) (kv : bytes * json) : outcome lgEnsembleJSON :=
  let '(mkEnsembleJSON nm ver nc nt mf trees) := e in
  let (k, v) := kv in
  if key_is k (bs "name") then let* nm := dec_string v nm in Ok (mkEnsembleJSON nm ver nc nt mf trees)
  else if key_is k (bs "version") then let* ver := dec_string v ver in Ok (mkEnsembleJSON nm ver nc nt mf trees)
  else if key_is k (bs "num_class") then let* nc := dec_num atoi v nc in Ok (mkEnsembleJSON nm ver nc nt mf trees)
  else if key_is k (bs "num_tree_per_iteration") then let* nt := dec_num atoi v nt in Ok (mkEnsembleJSON nm ver nc nt mf trees)
  else if key_is k (bs "max_feature_idx") then let* mf := dec_num atoi v mf in Ok (mkEnsembleJSON nm ver nc nt mf trees)
  else if key_is k (bs "tree_info") then let* trees := dec_slice v in Ok (mkEnsembleJSON nm ver nc nt mf trees)
  else Ok e.

(** lgensemble_io.go:615-669 LGEnsembleFromJSON; [doc] is the first JSON value of the stream,
    None if there is none (syntax error, read error) *)
Definition LGEnsembleFromJSON (p : platform) (doc : option json) (loadTransformation : bool) : outcome Ensemble :=
  if loadTransformation then Err "transformation functions are not supported for LightGBM models" else
  match doc with
  | None => Err "json: syntax error"
  | Some v =>
      let* data := dec_struct store_ensemble (mkEnsembleJSON [] [] 0 0 0 []) v in
      if negb (beqb (ej_Name data) (bs "tree")) then Err "expected 'name' field = 'tree'"
      else if negb (beqb (ej_Version data) (bs "v2")) then Err "expected 'version' field = 'v2'"
      else if negb (ej_NumClasses data =? ej_NumTreesPerIteration data) then Err "num_class != num_tree_per_iteration"
      else if ej_NumClasses data <? 1 then Err "num_class should be > 0"
      else if ej_NumTreesPerIteration data <? 1 then Err "num_tree_per_iteration should be > 0" else
      let nTrees := zlen (ej_Trees data) in
      if nTrees =? 0 then Err "no trees in file"
      else if negb (Z.rem nTrees (ej_NumClasses data) =? 0) then Err "wrong number of trees" else
      let* trees := mapM (unmarshalTree p) (ej_Trees data) in
      Ok (mkEnsemble (BLg (mkLgEnsemble trees (ej_MaxFeatureIdx data) (ej_NumClasses data) (bs "lightgbm.gbdt") false))
                     (TransformRaw (ej_NumClasses data)))
  end.
