(** * Streams that arrive in pieces: bufio.Reader, and the loaders on top of it

    The loaders use a *bufio.Reader in three ways: ReadString('\n') (util.go:35,53 and
    mat_io.go:148,209), binary.Read (xgbin_io.go) and Read of one byte (decoder.go:32,181).
    Elsewhere in this model a reader is just the bytes that are left.  Here the underlying
    io.Reader returns its bytes in arbitrary pieces, bufio.Reader is modelled with its buffer,
    and the loaders are written over the three ways to read.  Lemmas [*_flat] in Pf_Stream.v show
    that over plain bytes they are the functions of the other files. *)

From Coq Require Import ZArith List Bool String.
From Verif Require Import Go GoFloat GoText UtilText LgTree Ensembles Transformation Leaves LgTextIO XgBin XgIO Pickle SkClasses SkIO Mat MatIO.
Local Open Scope Z_scope.

(** ** io.Reader

    [src_pieces]: what the calls of Read return, in order, if there is room; a call with less
    room leaves the rest of the piece for the next call.  An empty piece is a call that returns
    0 bytes and no error.  After the last piece every call returns the final error, io.EOF or
    another one.  [src_with_data]: the final error already comes with the last piece. *)
Record source : Type := mkSource { src_pieces : list bytes; src_with_data : bool; src_eof : bool }.

Definition src_end (s : source) : rderr := if src_eof s then RdEOF else RdOther.
Definition src_next (s : source) (pieces : list bytes) : source := mkSource pieces (src_with_data s) (src_eof s).

(** Read with room for [n] bytes, [n > 0]: the bytes and the error, if any *)
Definition src_read (n : nat) (s : source) : bytes * option rderr * source :=
  match src_pieces s with
  | [] => ([], Some (src_end s), s)
  | c :: rest =>
      if (List.length c <=? n)%nat
      then (c, match rest with [] => if src_with_data s then Some (src_end s) else None | _ => None end, src_next s rest)
      else (firstn n c, None, src_next s (skipn n c :: rest))
  end.

(** ** bufio.Reader with its default buffer of 4096 bytes (bufio.go)

    [br_buf] are the unread bytes of the buffer; they are moved to its front before the buffer
    is filled up, so that their position does not matter. *)
Definition rbufsize : nat := 64 * 64.
Record bufr : Type := mkBufr { br_buf : bytes; br_err : option rderr; br_src : source }.

(** bufio.NewReader *)
Definition NewReader (s : source) : bufr := mkBufr [] None s.

(** bufio.Reader.fill: tries at most 100 times to get something *)
Fixpoint fill (tries : nat) (b : bufr) : bufr :=
  match tries with
  | O => mkBufr (br_buf b) (Some RdOther) (br_src b)
  | S tries' =>
      let '(d, e, s) := src_read (rbufsize - List.length (br_buf b)) (br_src b) in
      let b' := mkBufr (br_buf b ++ d) e s in
      match e with
      | Some _ => b'
      | None => match d with [] => fill tries' b' | _ => b' end
      end
  end.

Inductive slice_end : Type := SlFound | SlFull | SlErr (e : rderr).
(** bufio.Reader.ReadSlice('\n').  (Only the bytes added since the last search are searched.) *)
Fixpoint read_slice (fuel : nat) (b : bufr) : outcome (bytes * slice_end * bufr) :=
  match fuel with
  | O => Hang
  | S fuel' =>
      match cut_line (br_buf b) with
      | Some (l, rest) => Ok (l, SlFound, mkBufr rest (br_err b) (br_src b))
      | None =>
          match br_err b with
          | Some e => Ok (br_buf b, SlErr e, mkBufr [] None (br_src b))
          | None =>
              if (rbufsize <=? List.length (br_buf b))%nat
              then Ok (br_buf b, SlFull, mkBufr [] None (br_src b))
              else read_slice fuel' (fill 100 b)
          end
      end
  end.
(** everything that is still to come *)
Definition contents (b : bufr) : bytes := br_buf b ++ List.concat (src_pieces (br_src b)).

(** bufio.Reader.ReadString('\n') (collectFragments) *)
Fixpoint read_fragments (fuel : nat) (acc : bytes) (b : bufr) : outcome (bytes * rderr * bufr) :=
  match fuel with
  | O => Hang
  | S fuel' =>
      let* (le, b) := read_slice (S (S rbufsize)) b in
      let (l, e) := le : bytes * slice_end in
      match e with
      | SlFound => Ok (acc ++ l, RdNil, b)
      | SlErr e => Ok (acc ++ l, e, b)
      | SlFull => read_fragments fuel' (acc ++ l) b
      end
  end.
Definition buf_ReadString (b : bufr) : outcome (bytes * rderr * bufr) := read_fragments (S (List.length (contents b))) [] b.

(** bufio.Reader.Read with room for [n] bytes, [n > 0] *)
Definition buf_Read (n : nat) (b : bufr) : bytes * option rderr * bufr :=
  match br_buf b with
  | [] =>
      match br_err b with
      | Some e => ([], Some e, mkBufr [] None (br_src b))
      | None =>
          if (rbufsize <=? n)%nat then let '(d, e, s) := src_read n (br_src b) in (d, e, mkBufr [] None s)
          else
            let '(d, e, s) := src_read rbufsize (br_src b) in
            match d with
            | [] => ([], e, mkBufr [] None s)
            | _ => (firstn n d, None, mkBufr (skipn n d) e s)
            end
      end
  | buf => (firstn n buf, None, mkBufr (skipn n buf) (br_err b) (br_src b))
  end.

(** io.ReadAtLeast (io.go) as called by io.ReadFull: [n] more bytes are wanted *)
Fixpoint read_at_least (fuel : nat) (n : nat) (acc : bytes) (b : bufr) : outcome (bytes * bufr) :=
  match fuel with
  | O => Hang
  | S fuel' =>
      match n with
      | O => Ok (acc, b)
      | _ =>
          let '(d, e, b) := buf_Read n b in
          let n := (n - List.length d)%nat in
          match e with
          | Some _ => match n with O => Ok (acc ++ d, b) | _ => Err "unexpected EOF" end
          | None => read_at_least fuel' n (acc ++ d) b
          end
      end
  end.
Definition buf_ReadFull (n : Z) (b : bufr) : outcome (bytes * bufr) :=
  read_at_least (S (S (List.length (src_pieces (br_src b)) + List.length (contents b)))) (Z.to_nat n) [] b.

(** decoder.go:32-37 and 181-186: Read of one byte *)
Definition buf_ReadOne (b : bufr) : outcome (byte * bufr) :=
  let '(d, e, b) := buf_Read 1 b in
  match e with
  | Some _ => Err "read error"
  | None => match d with [c] => Ok (c, b) | _ => Err "unexpected read" end
  end.

(** ** The loaders over any reader *)
Section Readers.
Context {R : Type}.
(** ReadString('\n'), binary.Read of [n] bytes, Read of one byte, and a bound for loops *)
Variables (rs : R -> outcome (bytes * rderr * R)) (rf : Z -> R -> outcome (bytes * R)) (rb : R -> outcome (byte * R)) (size : R -> nat).

(** util/util.go:44-61 *)
Fixpoint r_params_loop (fuel : nat) (ps : stringParams) (line : bytes) (r : R) : outcome (stringParams * R) :=
  match fuel with
  | O => Hang
  | S fuel' =>
      let* ps := params_line ps line in
      let* (le, r) := rs r in
      let (line, err) := le : bytes * rderr in
      match err with
      | RdOther => Err "read error"
      | _ =>
          let line := trim_space line in
          if beqb line [] then Ok (ps, r) else r_params_loop fuel' ps line r
      end
  end.
(** util/util.go:29-63 *)
Definition r_ReadParamsUntilBlank (r : R) : outcome (stringParams * R) :=
  let* (le, r') := rs r in
  let (line, err) := le : bytes * rderr in
  match err with
  | RdNil => r_params_loop (S (size r)) [] (trim_space line) r'
  | _ => Err "read error"
  end.

(** lgensemble_io.go:103-290 *)
Definition r_lgTreeFromReader (p : platform) (r : R) : outcome (lgTree * R) :=
  let* (params, r) := r_ReadParamsUntilBlank r in
  let* t := lgTreeFromParams p params in
  Ok (t, r).
(** lgensemble_io.go:382-389 *)
Fixpoint r_read_trees (p : platform) (n : nat) (r : R) : outcome (list lgTree * R) :=
  match n with
  | O => Ok ([], r)
  | S n' =>
      let* (t, r) := r_lgTreeFromReader p r in
      let* (ts, r) := r_read_trees p n' r in
      Ok (t :: ts, r)
  end.
(** lgensemble_io.go:293-391 *)
Definition r_LGEnsembleFromReader (p : platform) (r : R) (loadTransformation : bool) : outcome Ensemble :=
  let* (params, r) := r_ReadParamsUntilBlank r in
  let* (e, nTrees) := lg_header params in
  let* transform := lg_transform params loadTransformation (lgAverageOutput e) (lgNRawOutputGroups e) in
  let* (trees, _) := r_read_trees p (Z.to_nat nTrees) r in
  Ok (mkEnsemble (BLg (mkLgEnsemble trees (lgMaxFeatureIdx e) (lgNRawOutputGroups e) (lgName e)
                         (lgAverageOutput e))) transform).

(** mat_io.go:146-193 and 203-243 *)
Fixpoint r_read_rows {S : Type} (fuel : nat) (limit : Z) (parse : bytes -> outcome (list libsvmRecord))
  (f : S -> list libsvmRecord -> outcome S) (rows : Z) (s : S) (r : R) : outcome (S * R) :=
  match fuel with
  | O => Hang
  | Datatypes.S fuel =>
      let* (le, r) := rs r in
      let (line, err) := le : bytes * rderr in
      match err with
      | RdOther => Err "read error"
      | _ =>
          let line := trim_space line in
          if beqb line [] then Ok (s, r) else
          let* records := parse line in
          let* s := f s records in
          let rows := rows + 1 in
          if (0 <? limit) && (rows =? limit) then Ok (s, r)
          else r_read_rows fuel limit parse f rows s r
      end
  end.
(** mat_io.go:22-32 *)
Definition r_DenseMatFromLibsvm (p : platform) (r : R) (limit : Z) (skipFirstColumn : bool) : outcome (DenseMat * R) :=
  r_read_rows (S (S (size r))) limit (svm_line p skipFirstColumn) recordsToDenseMat 0 noDense r.
(** mat_io.go:50-61 *)
Definition r_CSRMatFromLibsvm (p : platform) (r : R) (limit : Z) (skipFirstColumn : bool) : outcome (CSRMat * R) :=
  r_read_rows (S (S (size r))) limit (svm_line p skipFirstColumn) recordsToCSRMat 0 (mkCSR [0] [] []) r.
(** mat_io.go:79-95 *)
Definition r_DenseMatFromCsv (p : platform) (r : R) (limit : Z) (skipFirstColumn : bool) (delimiter : bytes) (defValue : f64)
  : outcome (DenseMat * R) :=
  r_read_rows (S (S (size r))) limit (csv_line p skipFirstColumn delimiter defValue) recordsToDenseMat 0 noDense r.

(** xgbin_io.go:157-163 *)
Definition r_ReadStruct_Learner (r : R) : outcome (LearnerModelParam * R) :=
  let* (b, r) := rf 136 r in
  let (baseScore, b) := dec_u32 b in
  let (numFeatures, b) := dec_u32 b in
  let (numClass, b) := dec_i32 b in
  let (extra, b) := dec_i32 b in
  let (metrics, b) := dec_i32 b in
  let (reserved, _) := dec_list dec_i32 29 b in
  Ok (mkLearner baseScore numFeatures numClass extra metrics reserved, r).
Definition r_ReadStruct_GBTreeParam (r : R) : outcome (GBTreeModelParam * R) :=
  let* (b, r) := rf 160 r in
  let (numTrees, b) := dec_i32 b in
  let (numRoots, b) := dec_i32 b in
  let (numFeature, b) := dec_i32 b in
  let (pad, b) := dec_i32 b in
  let (pbuffer, b) := dec_i64 b in
  let (groups, b) := dec_i32 b in
  let (sizeLeafVector, b) := dec_i32 b in
  let (reserved, _) := dec_list dec_i32 32 b in
  Ok (mkGBTreeParam numTrees numRoots numFeature pad pbuffer groups sizeLeafVector reserved, r).
Definition r_ReadStruct_TreeParam (r : R) : outcome (TreeParam * R) :=
  let* (b, r) := rf 148 r in
  let (numRoots, b) := dec_i32 b in
  let (numNodes, b) := dec_i32 b in
  let (numDeleted, b) := dec_i32 b in
  let (maxDepth, b) := dec_i32 b in
  let (numFeature, b) := dec_i32 b in
  let (sizeLeafVector, b) := dec_i32 b in
  let (reserved, _) := dec_list dec_i32 31 b in
  Ok (mkTreeParam numRoots numNodes numDeleted maxDepth numFeature sizeLeafVector reserved, r).
Definition r_ReadStruct_Node (r : R) : outcome (xNode * R) :=
  let* (b, r) := rf 20 r in
  let (parent, b) := dec_i32 b in
  let (cleft, b) := dec_i32 b in
  let (cright, b) := dec_i32 b in
  let (sindex, b) := dec_u32 b in
  let (info, _) := dec_u32 b in
  Ok (mkXNode parent cleft cright sindex info, r).
Definition r_ReadStruct_Stat (r : R) : outcome (xStat * R) :=
  let* (b, r) := rf 16 r in
  let (loss, b) := dec_u32 b in
  let (hess, b) := dec_u32 b in
  let (weight, b) := dec_u32 b in
  let (cnt, _) := dec_i32 b in
  Ok (mkXStat loss hess weight cnt, r).
Definition r_ReadStruct_GBLinearParam (r : R) : outcome (GBLinearModelParam * R) :=
  let* (b, r) := rf 136 r in
  let (numFeature, b) := dec_u32 b in
  let (groups, b) := dec_i32 b in
  let (reserved, _) := dec_list dec_i32 32 b in
  Ok (mkGBLinearParam numFeature groups reserved, r).
Definition r_read_u64 (r : R) : outcome (Z * R) :=
  let* (b, r) := rf 8 r in Ok (fst (dec_u64 b), r).
(** xgbin_io.go:167-182 *)
Definition r_ReadString (p : platform) (r : R) : outcome (bytes * R) :=
  let* (size, r) := r_read_u64 r in
  if size =? 0 then Ok ([], r) else
  let* _ := make_check p size in
  rf size r.
(** xgbin_io.go:186-201 *)
Definition r_ReadFloat32Slice (p : platform) (r : R) : outcome (list Z * R) :=
  let* (size, r) := r_read_u64 r in
  if size =? 0 then Ok ([], r) else
  let* _ := make_check p size in
  let* (b, r) := rf (4 * size) r in
  Ok (fst (dec_list dec_u32 (Z.to_nat size) b), r).
(** xgbin_io.go:223-242 *)
Definition r_ReadModelHeader (p : platform) (r : R) : outcome (ModelHeader * R) :=
  let* (param, r) := r_ReadStruct_Learner r in
  let* (nameObj, r) := r_ReadString p r in
  let* (nameGbm, r) := r_ReadString p r in
  Ok (mkHeader param nameObj nameGbm, r).
(** xgbin_io.go:252-258, 281-288, 289-296 *)
Fixpoint r_read_n {A : Type} (rd : R -> outcome (A * R)) (n : nat) (r : R) : outcome (list A * R) :=
  match n with
  | O => Ok ([], r)
  | S n' =>
      let* (x, r) := rd r in
      let* (xs, r) := r_read_n rd n' r in
      Ok (x :: xs, r)
  end.
(** xgbin_io.go:273-306 *)
Definition r_ReadTreeModel (p : platform) (r : R) : outcome (TreeModel * R) :=
  let* (param, r) := r_ReadStruct_TreeParam r in
  let* _ := make_check p (tpNumNodes param) in
  let* (nodes, r) := r_read_n r_ReadStruct_Node (Z.to_nat (tpNumNodes param)) r in
  let* (stats, r) := r_read_n r_ReadStruct_Stat (Z.to_nat (tpNumNodes param)) r in
  if 0 <? tpSizeLeafVector param then
    let* (_, r) := r_ReadFloat32Slice p r in
    Ok (mkTreeModel nodes stats param, r)
  else Ok (mkTreeModel nodes stats param, r).
(** xgbin_io.go:245-270 *)
Definition r_ReadGBTreeModel (p : platform) (r : R) : outcome (GBTreeModel * R) :=
  let* (param, r) := r_ReadStruct_GBTreeParam r in
  let* (trees, r) := r_read_n (r_ReadTreeModel p) (Z.to_nat (gpNumTrees param)) r in
  if 0 <? gpNumTrees param then
    let* _ := make_check p (gpNumTrees param) in
    let* (b, r) := rf (4 * gpNumTrees param) r in
    Ok (mkGBTreeModel param trees (fst (dec_list dec_i32 (Z.to_nat (gpNumTrees param)) b)), r)
  else Ok (mkGBTreeModel param trees [], r).
(** xgbin_io.go:309-320 *)
Definition r_ReadGBLinearModel (p : platform) (r : R) : outcome (GBLinearModel * R) :=
  let* (param, r) := r_ReadStruct_GBLinearParam r in
  let* (weights, r) := r_ReadFloat32Slice p r in
  Ok (mkGBLinear param weights, r).
(** xgensemble_io.go:171-195 *)
Definition r_xg_weights (p : platform) (dart : bool) (numTrees : Z) (r : R) : outcome (list f64 * R) :=
  let* _ := make_check p numTrees in
  if dart then
    let* (w, r) := r_ReadFloat32Slice p r in
    if negb (zlen w =? numTrees) then Err "unexpected len(weightDrop) for 'dart'"
    else Ok (map f64_of_f32bits w, r)
  else Ok (repeat fone (Z.to_nat numTrees), r).
(** xgensemble_io.go:136-249 *)
Definition r_xg_ensemble_and_rest (p : platform) (r : R) (loadTransformation : bool)
  : outcome (Ensemble * R) :=
  let* (header, r) := r_ReadModelHeader p r in
  let* name := if beqb (mhNameGbm header) (bs "gbtree") then Ok (bs "xgboost.gbtree")
               else if beqb (mhNameGbm header) (bs "dart") then Ok (bs "xgboost.dart")
               else Err "only 'gbtree' or 'dart' is supported" in
  let numFeatures := lmNumFeatures (mhParam header) in
  if numFeatures =? 0 then Err "zero number of features" else
  let* (model, r) := r_ReadGBTreeModel p r in
  if s32 numFeatures <? gpNumFeature (gmParam model) then Err "gbtee number of features" else
  let nTrees := gpNumTrees (gmParam model) in
  let* (weightDrop, r) := r_xg_weights p (beqb (mhNameGbm header) (bs "dart")) nTrees r in
  let groups := gpNumOutputGroup (gmParam model) in
  if negb (gpNumRoots (gmParam model) =? 1) then Err "support only trees with 1 root"
  else if negb (zlen (gmTreeInfo model) =? nTrees) then Err "TreeInfo size"
  else if negb (check_tree_info groups 0 (gmTreeInfo model)) then Err "TreeInfo expected to have pattern" else
  let* transform := xg_transform (mhNameObj header) loadTransformation groups in
  if nTrees =? 0 then Err "no trees in model" else
  let* trees := mapM (fun i => let* t := at_ (gmTrees model) i in xgTreeFromTreeModel p t numFeatures) (zseq nTrees) in
  Ok (mkEnsemble (BXg (mkXgEnsemble trees (numFeatures - 1) groups (f64_of_f32bits (lmBaseScore (mhParam header)))
                         weightDrop name)) transform, r).
Definition r_XGEnsembleFromReader (p : platform) (r : R) (loadTransformation : bool) : outcome Ensemble :=
  let* (e, _) := r_xg_ensemble_and_rest p r loadTransformation in Ok e.
(** xgblinear_io.go:13-48 *)
Definition r_xgblinear_and_rest (p : platform) (r : R) (loadTransformation : bool)
  : outcome (Ensemble * R) :=
  let* (header, r) := r_ReadModelHeader p r in
  if negb (beqb (mhNameGbm header) (bs "gblinear")) then Err "only gblinear is supported"
  else if lmNumFeatures (mhParam header) =? 0 then Err "zero number of features" else
  let* (model, r) := r_ReadGBLinearModel p r in
  let groups := glNumOutputGroup (blParam model) in
  let* transform := xg_transform (mhNameObj header) loadTransformation groups in
  Ok (mkEnsemble (BLinear (mkXgLinear (glNumFeature (blParam model)) groups
                             (f64_of_f32bits (lmBaseScore (mhParam header))) (blWeights model))) transform, r).
Definition r_XGBLinearFromReader (p : platform) (r : R) (loadTransformation : bool) : outcome Ensemble :=
  let* (e, _) := r_xgblinear_and_rest p r loadTransformation in Ok e.

(** decoder.go:177-193 *)
Fixpoint r_line_loop (fuel : nat) (line : bytes) (r : R) : outcome (bytes * R) :=
  match fuel with
  | O => Hang
  | S fuel' =>
      let* (c, r) := rb r in
      if Byte.eqb c nl then Ok (line, r) else r_line_loop fuel' (line ++ [c]) r
  end.
Definition r_readLine (r : R) : outcome (bytes * R) := r_line_loop (S (size r)) [] r.
(** decoder.go:41-172 *)
Definition r_step (p : platform) (op : byte) (m : machine) (r : R) : outcome (option machine * R) :=
  match op with
  | "("%byte => Ok (Some (pushMark m), r)
  | "p"%byte => let* (line, r) := r_readLine r in let* m := putMemory m line in Ok (Some m, r)
  | "g"%byte => let* (line, r) := r_readLine r in Ok (Some (push m (getMemory m line)), r)
  | "c"%byte =>
      let* (module, r) := r_readLine r in
      let* (name, r) := r_readLine r in
      Ok (Some (push m (VGlobal module name)), r)
  | "L"%byte =>
      let* (line, r) := r_readLine r in
      if (zlen line <? 2) || negb (beqb (skipn (List.length line - 1) line) (bs "L")) then Err "unexpected long format"
      else match atoi (removelast line) with
           | None => Err "unexpected long format"
           | Some v => Ok (Some (push m (VInt v)), r)
           end
  | "I"%byte =>
      let* (line, r) := r_readLine r in
      match atoi line with None => Err "invalid syntax" | Some v => Ok (Some (push m (VInt v)), r) end
  | "F"%byte =>
      let* (line, r) := r_readLine r in
      match pl_parse_float p line with None => Err "invalid syntax" | Some v => Ok (Some (push m (VFloat v)), r) end
  | "t"%byte => let* (objs, m) := popMark m in Ok (Some (push m (VTuple objs)), r)
  | "l"%byte =>
      let* (objs, m) := popMark m in
      let (l, h) := new_list p (mHeap m) objs in
      Ok (Some (push (set_heap m h) l), r)
  | "a"%byte =>
      let* (el, m) := pop m in
      let* (obj, m) := pop m in
      let* (alc) := toList obj in
      let '(a, len, cap) := alc in
      let (l, h) := append_list p (mHeap m) a len cap el in
      Ok (Some (push (set_heap m h) l), r)
  | "V"%byte => let* (line, r) := r_readLine r in Ok (Some (push m (VUnicode (decodeUnicode line))), r)
  | "R"%byte =>
      let* (args, m) := pop m in
      let* (callable, m) := pop m in
      match args with
      | VTuple t => Ok (Some (push m (VReduce callable t)), r)
      | _ => Errorf (mHeap m) [args] "reduce: unexpected args"
      end
  | "N"%byte => Ok (Some (push m VNone), r)
  | "b"%byte =>
      let* (args, m) := pop m in
      let* (obj, m) := pop m in
      Ok (Some (push m (VBuild obj args)), r)
  | "d"%byte =>
      let* (objs, m) := popMark m in
      if negb (Z.rem (zlen objs) 2 =? 0) then Err "dict: expected event number of objects"
      else
        let a := List.length (mHeap m) in
        let* h := dict_fill (mHeap m ++ [CDict []]) a objs in
        Ok (Some (push (set_heap m h) (VDict a)), r)
  | "s"%byte =>
      let* (v, m) := pop m in
      let* (k, m) := pop m in
      let* top := back m in
      let* a := toDict top in
      let* key := toUnicode k (-1) in
      Ok (Some (set_heap m (dict_set (mHeap m) a key v)), r)
  | "."%byte => Ok (None, r)
  | _ => Err "unknown op code"
  end.
(** decoder.go:28-175 *)
Fixpoint r_decode_loop (p : platform) (fuel : nat) (m : machine) (r : R) : outcome (val * heap * R) :=
  match fuel with
  | O => Hang
  | S fuel' =>
      let* (op, r) := rb r in
      let* (o, r) := r_step p op m r in
      match o with
      | None => let* v := back m in Ok (v, mHeap m, r)
      | Some m' => r_decode_loop p fuel' m' r
      end
  end.
Definition r_Decode (p : platform) (r : R) : outcome (val * heap * R) := r_decode_loop p (S (size r)) newPickleMachine r.
(** skensemble_io.go:117-176 *)
Definition r_SKEnsembleFromReader (p : platform) (r : R) (loadTransformation : bool) : outcome Ensemble :=
  let* (vh, _) := r_Decode p r in
  let (v, h) := vh : val * heap in
  let* gb := ParseGradientBoosting p h v in
  SKEnsembleFromClass p gb.
End Readers.

(** ** The loaders on a bufio.Reader *)
Definition left (b : bufr) : nat := List.length (contents b).
Definition buf_LGEnsembleFromReader (p : platform) (b : bufr) (loadTransformation : bool) : outcome Ensemble :=
  r_LGEnsembleFromReader buf_ReadString left p b loadTransformation.
Definition buf_XGEnsembleFromReader (p : platform) (b : bufr) (loadTransformation : bool) : outcome Ensemble :=
  r_XGEnsembleFromReader buf_ReadFull p b loadTransformation.
Definition buf_XGBLinearFromReader (p : platform) (b : bufr) (loadTransformation : bool) : outcome Ensemble :=
  r_XGBLinearFromReader buf_ReadFull p b loadTransformation.
Definition buf_SKEnsembleFromReader (p : platform) (b : bufr) (loadTransformation : bool) : outcome Ensemble :=
  r_SKEnsembleFromReader buf_ReadOne left p b loadTransformation.
Definition buf_DenseMatFromLibsvm (p : platform) (b : bufr) (limit : Z) (skipFirstColumn : bool) : outcome (DenseMat * bufr) :=
  r_DenseMatFromLibsvm buf_ReadString left p b limit skipFirstColumn.
Definition buf_CSRMatFromLibsvm (p : platform) (b : bufr) (limit : Z) (skipFirstColumn : bool) : outcome (CSRMat * bufr) :=
  r_CSRMatFromLibsvm buf_ReadString left p b limit skipFirstColumn.
Definition buf_DenseMatFromCsv (p : platform) (b : bufr) (limit : Z) (skipFirstColumn : bool) (delimiter : bytes) (defValue : f64)
  : outcome (DenseMat * bufr) :=
  r_DenseMatFromCsv buf_ReadString left p b limit skipFirstColumn delimiter defValue.
