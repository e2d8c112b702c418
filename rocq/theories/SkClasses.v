(** * Model of the numpy and sklearn classes (/repo/internal/pickle/types.go, numpy.go, sklearn.go) *)

From Coq Require Import ZArith List Bool String.
From Verif Require Import Go GoFloat GoText XgBin Pickle.

(** types.go:47-60; an empty [module] or [name] is not checked *)
Definition toGlobal (v : val) (module name : bytes) : outcome (bytes * bytes) :=
  match v with
  | VGlobal m n =>
      if negb (beqb module []) && negb (beqb m module) then Err "not expected Global Module"
      else if negb (beqb name []) && negb (beqb n name) then Err "not expected Global Name"
      else Ok (m, n)
  | _ => Err "expected Global object"
  end.
(** types.go:112-119 *)
Definition toReduce (v : val) : outcome (val * list val) :=
  match v with VReduce c args => Ok (c, args) | _ => Err "expected Reduce object" end.

Definition asInt (v : val) : outcome Z := match v with VInt z => Ok z | _ => Err "expected int" end.
(** types.go:121-127; [d] is the contents of the map *)
Definition dict_value (d : list (bytes * val)) (key : bytes) : outcome val :=
  match lookup d key with Some v => Ok v | None => Err "key not found" end.
(** types.go:129-139 *)
Definition dict_toInt (h : heap) (d : list (bytes * val)) (key : bytes) : outcome Z :=
  let* v := dict_value d key in match v with VInt z => Ok z | _ => Errorf h [v] "expected int" end.
(** types.go:141-151 *)
Definition dict_toFloat (h : heap) (d : list (bytes * val)) (key : bytes) : outcome f64 :=
  let* v := dict_value d key in match v with VFloat f => Ok f | _ => Errorf h [v] "expected int" end.

(** types.go:153-181.  [reduce e callable args] and [build e args] are the methods of the
    class, [e] the object they fill in. *)
Definition ParseClass {A : Type} (reduce : A -> val -> list val -> outcome A) (build : A -> val -> outcome A)
  (e : A) (obj : val) : outcome A :=
  match obj with
  | VBuild o args => let* (c, rargs) := toReduce o in let* e := reduce e c rargs in build e args
  | _ => let* (c, rargs) := toReduce obj in reduce e c rargs
  end.

(** ** numpy.go *)

(** numpy.go:126-129 *)
Record NumpyDType : Type := mkDType { dtLittleEndian : bool; dtType : bytes }.
(** numpy.go:131-148 *)
Definition dtype_Reduce (h : heap) (d : NumpyDType) (callable : val) (args : list val) : outcome NumpyDType :=
  let* _ := toGlobal callable (bs "numpy") (bs "dtype") in
  if negb (zlen args =? 3) then Errorf h args "not expected tuple" else
  let* a0 := at_ args 0 in
  let* unicode := toUnicode a0 (-1) in
  Ok (mkDType true unicode).
(** numpy.go:150-162 *)
Definition dtype_Build (d : NumpyDType) (args : val) : outcome NumpyDType :=
  let* tuple := toTuple args 8 in
  let* t1 := at_ tuple 1 in
  let* endian := toUnicode t1 1 in
  let* c := at_ endian 0 in
  Ok (mkDType (Byte.eqb c "<"%byte) (dtType d)).

(** numpy.go:91-105 and 107-109; NumpyRawBytes is a byte slice *)
Definition raw_Reduce (h : heap) (b : bytes) (callable : val) (args : list val) : outcome bytes :=
  let* _ := toGlobal callable (bs "_codecs") (bs "encode") in
  if negb (zlen args =? 2) then Errorf h args "not expected tuple" else
  let* a0 := at_ args 0 in
  toUnicode a0 (-1).
Definition raw_Build (b : bytes) (args : val) : outcome bytes := Ok b.

(** numpy.go:112-124; [parse] works on the accumulator [acc] *)
Definition Iterate {A : Type} (b : bytes) (length : Z) (parse : A -> bytes -> outcome A) (acc : A) : outcome A :=
  if negb (Z.rem (zlen b) length =? 0) then Err "unexpected raw bytes length" else
  foldM (fun acc i => let* chunk := slice b (i * length) ((i + 1) * length) in parse acc chunk)
        (zseq (Z.quot (zlen b) length)) acc.

(** numpy.go:8-15 *)
Record NumpyArrayRaw : Type := mkArray { naType : NumpyDType; naShape : list Z; naData : bytes; naDataList : list val }.
(** the zero value *)
Definition noDType : NumpyDType := mkDType false [].
Definition noArray : NumpyArrayRaw := mkArray noDType [] [] [].
(** numpy.go:17-31 *)
Definition array_Reduce (h : heap) (a : NumpyArrayRaw) (callable : val) (args : list val) : outcome NumpyArrayRaw :=
  let* _ := toGlobal callable (bs "numpy.core.multiarray") (bs "_reconstruct") in
  if negb (zlen args =? 3) then Errorf h args "not expected tuple" else
  let* a0 := at_ args 0 in
  let* _ := toGlobal a0 (bs "numpy") (bs "ndarray") in
  Ok a.
(** numpy.go:33-86.  Nothing is written to the heap after decoding, so a List is read at once. *)
Definition array_Build (h : heap) (a : NumpyArrayRaw) (bargs : val) : outcome NumpyArrayRaw :=
  let* args := toTuple bargs 5 in
  let* a0 := at_ args 0 in
  let* _ := asInt a0 in
  let* a1 := at_ args 1 in
  let* shapeTuple := toTuple a1 (-1) in
  let* shape := mapM asInt shapeTuple in
  let* a2 := at_ args 2 in
  let* dt := ParseClass (dtype_Reduce h) dtype_Build (naType a) a2 in
  let* a3 := at_ args 3 in
  let* isFortran := asInt a3 in
  if negb (isFortran =? 0) then Err "expected isFortran = 0" else
  let* a4 := at_ args 4 in
  match a4 with
  | VBuild _ _ | VReduce _ _ => let* data := ParseClass (raw_Reduce h) raw_Build (naData a) a4 in Ok (mkArray dt shape data (naDataList a))
  | VList addr len _ => Ok (mkArray dt shape (naData a) (list_elems h addr len))
  | _ => Err "unexpected type"
  end.

(** numpy.go:164-167 *)
Record NumpyScalarRaw : Type := mkScalar { nsType : NumpyDType; nsData : bytes }.
Definition noScalar : NumpyScalarRaw := mkScalar noDType [].
(** numpy.go:169-187 *)
Definition scalar_Reduce (h : heap) (s : NumpyScalarRaw) (callable : val) (args : list val) : outcome NumpyScalarRaw :=
  let* _ := toGlobal callable (bs "numpy.core.multiarray") (bs "scalar") in
  if negb (zlen args =? 2) then Errorf h args "not expected tuple" else
  let* a0 := at_ args 0 in
  let* dt := ParseClass (dtype_Reduce h) dtype_Build (nsType s) a0 in
  let* a1 := at_ args 1 in
  let* data := ParseClass (raw_Reduce h) raw_Build (nsData s) a1 in
  Ok (mkScalar dt data).
(** numpy.go:189-191 *)
Definition scalar_Build (s : NumpyScalarRaw) (args : val) : outcome NumpyScalarRaw := Ok s.

(** ** sklearn.go *)

(** binary.LittleEndian.Uint64: panics on fewer than 8 bytes, reads the first 8 *)
Definition le_Uint64 (b : bytes) : outcome Z :=
  if zlen b <? 8 then Panic "index out of range" else Ok (le_uint (firstn 8 b)).
(** util/util.go Float64FromBytes (binary.BigEndian.Uint64 reads the same bytes in reverse) *)
Definition Float64FromBytes (b : bytes) (littleEndian : bool) : outcome f64 :=
  if zlen b <? 8 then Panic "index out of range"
  else Ok (f64_of_bits (le_uint (if littleEndian then firstn 8 b else rev (firstn 8 b)))).

(** sklearn.go:11-19 *)
Record SklearnNode : Type := mkSkNode {
  skLeftChild : Z; skRightChild : Z; skFeature : Z; skThreshold : f64; skImpurity : f64;
  skNNodeSamples : Z; skWeightedNNodeSamples : f64 }.

(** sklearn.go:25-43; Go slices [bytes[a:b]] of a slice of 56 bytes *)
Definition SklearnNodeFromBytes (b : bytes) : outcome SklearnNode :=
  let field k := slice b (8 * k) (8 * k + 8) in
  let* f0 := field 0 in let* l := le_Uint64 f0 in
  let* f1 := field 1 in let* r := le_Uint64 f1 in
  let* f2 := field 2 in let* ft := le_Uint64 f2 in
  let* f3 := field 3 in let* thr := Float64FromBytes f3 true in
  let* f4 := field 4 in let* imp := Float64FromBytes f4 true in
  let* f5 := field 5 in let* ns := le_Uint64 f5 in
  let* f6 := field 6 in let* ws := Float64FromBytes f6 true in
  Ok (mkSkNode (s64 l) (s64 r) (s64 ft) thr imp (s64 ns) ws).

(** sklearn.go:46-52 *)
Record SklearnTree : Type := mkSkTree {
  stNOutputs : Z; stClasses : list Z; stNNodes : Z; stNodes : list SklearnNode; stValues : list f64 }.
Definition noTree : SklearnTree := mkSkTree 0 [] 0 [] [].

(** appends the int of 8 little endian bytes: sklearn.go:84 and 280 *)
Definition append_int (acc : list Z) (b : bytes) : outcome (list Z) := let* z := le_Uint64 b in Ok (acc ++ [s64 z]).
(** appends the float of 8 bytes: sklearn.go:134 and 385 *)
Definition append_float (le : bool) (acc : list f64) (b : bytes) : outcome (list f64) :=
  let* f := Float64FromBytes b le in Ok (acc ++ [f]).
(** sklearn.go:115 *)
Definition append_node (acc : list SklearnNode) (b : bytes) : outcome (list SklearnNode) :=
  let* n := SklearnNodeFromBytes b in Ok (acc ++ [n]).

(** sklearn.go:75 and 271: [len(shape) != 1 && shape[0] != want] *)
Definition bad_shape (shape : list Z) (want : Z) : outcome bool :=
  if zlen shape =? 1 then Ok false else let* d := at_ shape 0 in Ok (negb (d =? want)).
(** sklearn.go:78 and 274 *)
Definition not_i8 (d : NumpyDType) : bool := negb (beqb (dtType d) (bs "i8")) || negb (dtLittleEndian d).

(** sklearn.go:69-87 and 261-282: the integers of a 1-dimensional i8 array *)
Definition int_array (p : platform) (h : heap) (want : Z) (obj : val) : outcome (list Z) :=
  let* arr := ParseClass (array_Reduce h) (array_Build h) noArray obj in
  let* bad := bad_shape (naShape arr) want in
  if bad then Err "expected 1 dim array"
  else if not_i8 (naType arr) then Err "expected ndtype i8 little endian" else
  let* _ := make_check p want in
  Iterate (naData arr) 8 append_int [].

(** sklearn.go:54-91 *)
Definition tree_Reduce (p : platform) (h : heap) (t : SklearnTree) (callable : val) (args : list val) : outcome SklearnTree :=
  let* _ := toGlobal callable (bs "sklearn.tree._tree") (bs "Tree") in
  if negb (zlen args =? 3) then Err "expected len(reduce.Args) = 3" else
  let* a2 := at_ args 2 in
  let* nOutputs := asInt a2 in
  let* a1 := at_ args 1 in
  let* classes := int_array p h nOutputs a1 in
  Ok (mkSkTree nOutputs classes (stNNodes t) (stNodes t) (stValues t)).

(** sklearn.go:93-141 *)
Definition tree_Build (h : heap) (t : SklearnTree) (args : val) : outcome SklearnTree :=
  let* da := toDict args in
  let dict := dict_at h da in
  let* nNodes := dict_toInt h dict (bs "node_count") in
  let* nodesObj := dict_value dict (bs "nodes") in
  let* arr := ParseClass (array_Reduce h) (array_Build h) noArray nodesObj in
  if negb (beqb (dtType (naType arr)) (bs "V56")) then Err "expected arr.Type.Type = V56" else
  let* nodes := Iterate (naData arr) 56 append_node (stNodes t) in
  let* valuesObj := dict_value dict (bs "values") in
  let* arr := ParseClass (array_Reduce h) (array_Build h) noArray valuesObj in
  if negb (beqb (dtType (naType arr)) (bs "f8")) then Err "expected ndtype f8" else
  let* values := Iterate (naData arr) 8 (append_float (dtLittleEndian (naType arr))) (stValues t) in
  Ok (mkSkTree (stNOutputs t) (stClasses t) nNodes nodes values).

(** sklearn.go:143-148 *)
Record SklearnDecisionTreeRegressor : Type := mkSkReg {
  srTree : SklearnTree; srNClasses : Z; srMaxFeatures : Z; srNOutputs : Z }.
Definition noRegressor : SklearnDecisionTreeRegressor := mkSkReg noTree 0 0 0.

(** sklearn.go:151-163, 214-226, 333-346: the class named in a _reconstructor call; an empty
    [name] accepts any class of the module *)
Definition reconstructor_class (h : heap) (module name : bytes) (callable : val) (args : list val) : outcome bytes :=
  let* _ := toGlobal callable (bs "copy_reg") (bs "_reconstructor") in
  if negb (zlen args =? 3) then Errorf h args "not expected tuple" else
  let* a0 := at_ args 0 in
  let* (_, n) := toGlobal a0 module name in
  Ok n.

(** sklearn.go:150-163 *)
Definition reg_Reduce (h : heap) (t : SklearnDecisionTreeRegressor) (callable : val) (args : list val) : outcome SklearnDecisionTreeRegressor :=
  let* _ := reconstructor_class h (bs "sklearn.tree.tree") (bs "DecisionTreeRegressor") callable args in Ok t.

(** sklearn.go:165-201 *)
Definition reg_Build (p : platform) (h : heap) (t : SklearnDecisionTreeRegressor) (args : val) : outcome SklearnDecisionTreeRegressor :=
  let* da := toDict args in
  let dict := dict_at h da in
  let* nClassesObj := dict_value dict (bs "n_classes_") in
  let* raw := ParseClass (scalar_Reduce h) scalar_Build noScalar nClassesObj in
  if not_i8 (nsType raw) then Err "expected little endian i8" else
  let* nClasses := le_Uint64 (nsData raw) in
  let* maxFeatures := dict_toInt h dict (bs "max_features_") in
  let* nOutputs := dict_toInt h dict (bs "n_outputs_") in
  let* treeObj := dict_value dict (bs "tree_") in
  let* tree := ParseClass (tree_Reduce p h) (tree_Build h) (srTree t) treeObj in
  Ok (mkSkReg tree (s64 nClasses) maxFeatures nOutputs).

(** sklearn.go:327-330 *)
Record SKlearnInitEstimator : Type := mkInit { ieName : bytes; iePrior : list f64 }.
(** sklearn.go:332-346 *)
Definition init_Reduce (h : heap) (e : SKlearnInitEstimator) (callable : val) (args : list val) : outcome SKlearnInitEstimator :=
  let* n := reconstructor_class h (bs "sklearn.ensemble.gradient_boosting") [] callable args in
  Ok (mkInit n (iePrior e)).
(** sklearn.go:348-392; line 384 ignores the error of Iterate *)
Definition init_Build (h : heap) (e : SKlearnInitEstimator) (args : val) : outcome SKlearnInitEstimator :=
  if beqb (ieName e) (bs "LogOddsEstimator") then
    let* da := toDict args in
    let* priorObj := dict_value (dict_at h da) (bs "prior") in
    let* s := ParseClass (scalar_Reduce h) scalar_Build noScalar priorObj in
    if negb (beqb (dtType (nsType s)) (bs "f8")) then Err "expected f8" else
    let* f := Float64FromBytes (nsData s) (dtLittleEndian (nsType s)) in
    Ok (mkInit (ieName e) (iePrior e ++ [f]))
  else if beqb (ieName e) (bs "PriorProbabilityEstimator") then
    let* da := toDict args in
    let* priorObj := dict_value (dict_at h da) (bs "priors") in
    let* arr := ParseClass (array_Reduce h) (array_Build h) noArray priorObj in
    if negb (beqb (dtType (naType arr)) (bs "f8")) then Err "expected f8" else
    match Iterate (naData arr) 8 (append_float (dtLittleEndian (naType arr))) (iePrior e) with
    | Ok prior => Ok (mkInit (ieName e) prior)
    | Err _ => Ok e
    | Panic m => Panic m
    | Hang => Hang
    end
  else Err "unknown init estimator class".

(** sklearn.go:203-211 *)
Record SklearnGradientBoosting : Type := mkSkGB {
  gbNClasses : Z; gbClasses : list Z; gbNEstimators : Z; gbMaxFeatures : Z;
  gbEstimators : list SklearnDecisionTreeRegressor; gbLearningRate : f64; gbInit : SKlearnInitEstimator }.
Definition noGB : SklearnGradientBoosting := mkSkGB 0 [] 0 0 [] fzero (mkInit [] []).

(** sklearn.go:213-226 *)
Definition gb_Reduce (h : heap) (t : SklearnGradientBoosting) (callable : val) (args : list val) : outcome SklearnGradientBoosting :=
  let* _ := reconstructor_class h (bs "sklearn.ensemble.gradient_boosting") (bs "GradientBoostingClassifier") callable args in Ok t.

(** sklearn.go:228-325 *)
Definition gb_Build (p : platform) (h : heap) (t : SklearnGradientBoosting) (args : val) : outcome SklearnGradientBoosting :=
  let* da := toDict args in
  let dict := dict_at h da in
  let* nClasses := dict_toInt h dict (bs "n_classes_") in
  let* learningRate := dict_toFloat h dict (bs "learning_rate") in
  let* lossObj := dict_value dict (bs "loss") in
  let* _ := toUnicode lossObj (-1) in
  let* initObj := dict_value dict (bs "init_") in
  let* init := ParseClass (init_Reduce h) (init_Build h) (gbInit t) initObj in
  let* classesObj := dict_value dict (bs "classes_") in
  let* classes := int_array p h nClasses classesObj in
  let* maxFeatures := dict_toInt h dict (bs "max_features_") in
  let* nEstimators := dict_toInt h dict (bs "n_estimators") in
  let* estObj := dict_value dict (bs "estimators_") in
  let* arr := ParseClass (array_Reduce h) (array_Build h) noArray estObj in
  let adjNClasses := if nClasses =? 2 then 1 else nClasses in
  match naShape arr with
  | [s0; s1] =>
      if negb ((s0 =? nEstimators) && (s1 =? adjNClasses)) then Err "unexpected shape"
      else if negb (zlen (naDataList arr) =? s64 (s0 * s1)) then Err "unexpected array list length" else
      let* _ := make_check p (s64 (s0 * s1)) in
      let* estimators := mapM (ParseClass (reg_Reduce h) (reg_Build p h) noRegressor) (naDataList arr) in
      Ok (mkSkGB nClasses classes nEstimators maxFeatures estimators learningRate init)
  | _ => Err "unexpected shape"
  end.

(** ParseClass(&gbdt, res), skensemble_io.go:124-125 *)
Definition ParseGradientBoosting (p : platform) (h : heap) (v : val) : outcome SklearnGradientBoosting :=
  ParseClass (gb_Reduce h) (gb_Build p h) noGB v.
