(** * Model of /repo/internal/xgbin/xgbin_io.go

    The byte stream is a [reader] (remaining bytes and the error it ends with).  float32
    values are kept as their 32 bits. *)

From Coq Require Import ZArith List Bool String.
From Verif Require Import Go GoFloat GoText.

(** xgbin_io.go:16-29 LearnerModelParam *)
Record LearnerModelParam : Type := mkLearner {
  lmBaseScore : Z; lmNumFeatures : Z; lmNumClass : Z; lmContainExtraAttrs : Z;
  lmContainEvalMetrics : Z; lmReserved : list Z }.

(** xgbin_io.go:33-52 GBTreeModelParam *)
Record GBTreeModelParam : Type := mkGBTreeParam {
  gpNumTrees : Z; gpNumRoots : Z; gpNumFeature : Z; gpPad32bit : Z; gpNumPbufferDeprecated : Z;
  gpNumOutputGroup : Z; gpSizeLeafVector : Z; gpReserved : list Z }.

(** xgbin_io.go:56-72 TreeParam *)
Record TreeParam : Type := mkTreeParam {
  tpNumRoots : Z; tpNumNodes : Z; tpNumDeleted : Z; tpMaxDepth : Z; tpNumFeature : Z;
  tpSizeLeafVector : Z; tpReserved : list Z }.

(** xgbin_io.go:76-92 Node *)
Record xNode : Type := mkXNode { xParent : Z; xCLeft : Z; xCRight : Z; xSIndex : Z; xInfo : Z }.

(** xgbin_io.go:96-105 RTreeNodeStat *)
Record xStat : Type := mkXStat { xsLossChg : Z; xsSumHess : Z; xsBaseWeight : Z; xsLeafChildCnt : Z }.

(** xgbin_io.go:109-116 GBLinearModelParam *)
Record GBLinearModelParam : Type := mkGBLinearParam {
  glNumFeature : Z; glNumOutputGroup : Z; glReserved : list Z }.

(** xgbin_io.go:121-127 TreeModel *)
Record TreeModel : Type := mkTreeModel { tmNodes : list xNode; tmStats : list xStat; tmParam : TreeParam }.
(** xgbin_io.go:132-137 GBTreeModel *)
Record GBTreeModel : Type := mkGBTreeModel {
  gmParam : GBTreeModelParam; gmTrees : list TreeModel; gmTreeInfo : list Z }.
(** xgbin_io.go:142-146 ModelHeader *)
Record ModelHeader : Type := mkHeader { mhParam : LearnerModelParam; mhNameObj : bytes; mhNameGbm : bytes }.
(** xgbin_io.go:151-154 GBLinearModel *)
Record GBLinearModel : Type := mkGBLinear { blParam : GBLinearModelParam; blWeights : list Z }.

(** ** encoding/binary (Go standard library), little endian *)

(** io.ReadFull of [n] bytes: an error (io.EOF, io.ErrUnexpectedEOF or the stream's own) when
    fewer are left *)
Definition read_full (n : Z) (r : reader) : outcome (bytes * reader) :=
  if zlen (rd_bytes r) <? n then Err "unexpected EOF"
  else Ok (firstn (Z.to_nat n) (rd_bytes r), mkReader (skipn (Z.to_nat n) (rd_bytes r)) (rd_eof r)).

(** unsigned value of little-endian bytes *)
Definition le_uint (b : bytes) : Z := fold_right (fun c acc => byteZ c + 256 * acc) 0 b.

(** the fields of a buffer, in order: a decoder returns the value and the bytes that follow *)
Definition dec_u32 (b : bytes) : Z * bytes := (le_uint (firstn 4 b), skipn 4 b).
Definition dec_i32 (b : bytes) : Z * bytes := (s32 (le_uint (firstn 4 b)), skipn 4 b).
Definition dec_u64 (b : bytes) : Z * bytes := (le_uint (firstn 8 b), skipn 8 b).
Definition dec_i64 (b : bytes) : Z * bytes := (s64 (le_uint (firstn 8 b)), skipn 8 b).

(** [n] consecutive values *)
Fixpoint dec_list (dec : bytes -> Z * bytes) (n : nat) (b : bytes) : list Z * bytes :=
  match n with
  | O => ([], b)
  | S n' => let (z, b) := dec b in let (l, b) := dec_list dec n' b in (z :: l, b)
  end.

(** make([]T, n): panics when the slice cannot be allocated *)
Definition make_check (p : platform) (n : Z) : outcome unit :=
  if (n <? 0) || (pl_maxalloc p <? n) then Panic "makeslice: len out of range" else Ok tt.

(** ** xgbin_io.go:157-163 ReadStruct, one instance per record type *)

Definition ReadStruct_Learner (r : reader) : outcome (LearnerModelParam * reader) :=
  let* (b, r) := read_full 136 r in
  let (baseScore, b) := dec_u32 b in
  let (numFeatures, b) := dec_u32 b in
  let (numClass, b) := dec_i32 b in
  let (extra, b) := dec_i32 b in
  let (metrics, b) := dec_i32 b in
  let (reserved, _) := dec_list dec_i32 29 b in
  Ok (mkLearner baseScore numFeatures numClass extra metrics reserved, r).

Definition ReadStruct_GBTreeParam (r : reader) : outcome (GBTreeModelParam * reader) :=
  let* (b, r) := read_full 160 r in
  let (numTrees, b) := dec_i32 b in
  let (numRoots, b) := dec_i32 b in
  let (numFeature, b) := dec_i32 b in
  let (pad, b) := dec_i32 b in
  let (pbuffer, b) := dec_i64 b in
  let (groups, b) := dec_i32 b in
  let (sizeLeafVector, b) := dec_i32 b in
  let (reserved, _) := dec_list dec_i32 32 b in
  Ok (mkGBTreeParam numTrees numRoots numFeature pad pbuffer groups sizeLeafVector reserved, r).

Definition ReadStruct_TreeParam (r : reader) : outcome (TreeParam * reader) :=
  let* (b, r) := read_full 148 r in
  let (numRoots, b) := dec_i32 b in
  let (numNodes, b) := dec_i32 b in
  let (numDeleted, b) := dec_i32 b in
  let (maxDepth, b) := dec_i32 b in
  let (numFeature, b) := dec_i32 b in
  let (sizeLeafVector, b) := dec_i32 b in
  let (reserved, _) := dec_list dec_i32 31 b in
  Ok (mkTreeParam numRoots numNodes numDeleted maxDepth numFeature sizeLeafVector reserved, r).

Definition ReadStruct_Node (r : reader) : outcome (xNode * reader) :=
  let* (b, r) := read_full 20 r in
  let (parent, b) := dec_i32 b in
  let (cleft, b) := dec_i32 b in
  let (cright, b) := dec_i32 b in
  let (sindex, b) := dec_u32 b in
  let (info, _) := dec_u32 b in
  Ok (mkXNode parent cleft cright sindex info, r).

Definition ReadStruct_Stat (r : reader) : outcome (xStat * reader) :=
  let* (b, r) := read_full 16 r in
  let (loss, b) := dec_u32 b in
  let (hess, b) := dec_u32 b in
  let (weight, b) := dec_u32 b in
  let (cnt, _) := dec_i32 b in
  Ok (mkXStat loss hess weight cnt, r).

Definition ReadStruct_GBLinearParam (r : reader) : outcome (GBLinearModelParam * reader) :=
  let* (b, r) := read_full 136 r in
  let (numFeature, b) := dec_u32 b in
  let (groups, b) := dec_i32 b in
  let (reserved, _) := dec_list dec_i32 32 b in
  Ok (mkGBLinearParam numFeature groups reserved, r).

(** binary.Read of one uint64 *)
Definition read_u64 (r : reader) : outcome (Z * reader) :=
  let* (b, r) := read_full 8 r in Ok (fst (dec_u64 b), r).

(** xgbin_io.go:167-182 ReadString *)
Definition ReadString (p : platform) (r : reader) : outcome (bytes * reader) :=
  let* (size, r) := read_u64 r in
  if size =? 0 then Ok ([], r) else
  let* _ := make_check p size in
  read_full size r.

(** xgbin_io.go:186-201 ReadFloat32Slice *)
Definition ReadFloat32Slice (p : platform) (r : reader) : outcome (list Z * reader) :=
  let* (size, r) := read_u64 r in
  if size =? 0 then Ok ([], r) else
  let* _ := make_check p size in
  let* (b, r) := read_full (4 * size) r in
  Ok (fst (dec_list dec_u32 (Z.to_nat size) b), r).

(** xgbin_io.go:205-220 ReadInt32Slice (not used by the loaders) *)
Definition ReadInt32Slice (p : platform) (r : reader) : outcome (list Z * reader) :=
  let* (size, r) := read_u64 r in
  if size =? 0 then Ok ([], r) else
  let* _ := make_check p size in
  let* (b, r) := read_full (4 * size) r in
  Ok (fst (dec_list dec_i32 (Z.to_nat size) b), r).

(** xgbin_io.go:223-242 ReadModelHeader *)
Definition ReadModelHeader (p : platform) (r : reader) : outcome (ModelHeader * reader) :=
  let* (param, r) := ReadStruct_Learner r in
  let* (nameObj, r) := ReadString p r in
  let* (nameGbm, r) := ReadString p r in
  Ok (mkHeader param nameObj nameGbm, r).

(** xgbin_io.go:252-258, 281-288, 289-296: [for i := 0; i < n; i++] reading one item each *)
Fixpoint read_n {A : Type} (rd : reader -> outcome (A * reader)) (n : nat) (r : reader)
  : outcome (list A * reader) :=
  match n with
  | O => Ok ([], r)
  | S n' =>
      let* (x, r) := rd r in
      let* (xs, r) := read_n rd n' r in
      Ok (x :: xs, r)
  end.

(** xgbin_io.go:273-306 ReadTreeModel *)
Definition ReadTreeModel (p : platform) (r : reader) : outcome (TreeModel * reader) :=
  let* (param, r) := ReadStruct_TreeParam r in
  let* _ := make_check p (tpNumNodes param) in
  let* (nodes, r) := read_n ReadStruct_Node (Z.to_nat (tpNumNodes param)) r in
  let* (stats, r) := read_n ReadStruct_Stat (Z.to_nat (tpNumNodes param)) r in
  if 0 <? tpSizeLeafVector param then
    let* (_, r) := ReadFloat32Slice p r in
    Ok (mkTreeModel nodes stats param, r)
  else Ok (mkTreeModel nodes stats param, r).

(** xgbin_io.go:245-270 ReadGBTreeModel *)
Definition ReadGBTreeModel (p : platform) (r : reader) : outcome (GBTreeModel * reader) :=
  let* (param, r) := ReadStruct_GBTreeParam r in
  let* (trees, r) := read_n (ReadTreeModel p) (Z.to_nat (gpNumTrees param)) r in
  if 0 <? gpNumTrees param then
    let* _ := make_check p (gpNumTrees param) in
    let* (b, r) := read_full (4 * gpNumTrees param) r in
    Ok (mkGBTreeModel param trees (fst (dec_list dec_i32 (Z.to_nat (gpNumTrees param)) b)), r)
  else Ok (mkGBTreeModel param trees [], r).

(** xgbin_io.go:309-320 ReadGBLinearModel *)
Definition ReadGBLinearModel (p : platform) (r : reader) : outcome (GBLinearModel * reader) :=
  let* (param, r) := ReadStruct_GBLinearParam r in
  let* (weights, r) := ReadFloat32Slice p r in
  Ok (mkGBLinear param weights, r).
