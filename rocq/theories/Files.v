(** * Model of the functions that work on files, and of writing to a device that can fail

    mat_io.go:245-287 and the FromFile functions of the loaders.

    A file system maps names to contents; a name that cannot be opened has none.  What an open
    file returns is a [reader]; closing a file has no effect the code looks at. *)

From Coq Require Import ZArith List Bool String.
From Verif Require Import Go GoFloat GoText Leaves LgTextIO LgJsonIO XgIO SkIO Mat MatIO.
Local Open Scope Z_scope.

(** ** Devices

    io.Writer: Write(b) writes a prefix of [b] and returns its length, with an error if that is
    not everything.  The script says what the calls to Write do, in order: [None] accepts
    everything, [Some k] accepts at most [k] bytes and returns an error.  A call after the end of
    the script accepts everything.  [dv_failed]: some call has returned an error. *)
Record device : Type := mkDev { dv_data : bytes; dv_script : list (option nat); dv_failed : bool }.

(** the error-free flag, the number of bytes written, the device *)
Definition dev_write (d : device) (b : bytes) : bool * nat * device :=
  match dv_script d with
  | [] => (true, List.length b, mkDev (dv_data d ++ b) [] (dv_failed d))
  | None :: script => (true, List.length b, mkDev (dv_data d ++ b) script (dv_failed d))
  | Some k :: script => (false, Nat.min k (List.length b), mkDev (dv_data d ++ firstn k b) script true)
  end.

(** a Write whose count is ignored, as under fmt.Fprint *)
Definition dev_put (d : device) (b : bytes) : outcome (bool * device) :=
  let '(ok, _, d) := dev_write d b in Ok (ok, d).

(** ** bufio.Writer with its default buffer of 4096 bytes (bufio.go) *)
Definition bufsize : nat := 64 * 64.
Record bufw : Type := mkBufw { bw_buf : bytes; bw_err : bool; bw_dev : device }.

(** bufio.NewWriter *)
Definition NewWriter (d : device) : bufw := mkBufw [] false d.

(** bufio.Writer.Flush *)
Definition Flush (b : bufw) : bufw :=
  if bw_err b then b
  else match bw_buf b with
       | [] => b
       | buf =>
           let '(ok, n, d) := dev_write (bw_dev b) buf in
           if ok then mkBufw [] false d else mkBufw (skipn n buf) true d
       end.

(** bufio.Writer.Write: the loop.  It runs at most three times (lemma bw_put_spec). *)
Fixpoint bw_loop (fuel : nat) (b : bufw) (p : bytes) : outcome (bytes * bufw) :=
  match fuel with
  | O => Hang
  | S fuel' =>
      let available := (bufsize - List.length (bw_buf b))%nat in
      if (available <? List.length p)%nat && negb (bw_err b) then
        match bw_buf b with
        | [] =>
            let '(ok, n, d) := dev_write (bw_dev b) p in
            bw_loop fuel' (mkBufw [] (negb ok) d) (skipn n p)
        | buf => bw_loop fuel' (Flush (mkBufw (buf ++ firstn available p) (bw_err b) (bw_dev b))) (skipn available p)
        end
      else Ok (p, b)
  end.
(** bufio.Writer.Write *)
Definition bw_put (b : bufw) (p : bytes) : outcome (bool * bufw) :=
  let* (p, b) := bw_loop 3 b p in
  if bw_err b then Ok (false, b) else Ok (true, mkBufw (bw_buf b ++ p) false (bw_dev b)).

(** ** mat_io.go:246-274 WriteStr on any writer.  Every fmt.Fprint makes one call of Write.  The
    flag is false when an error of the writer is returned. *)
Section Write.
Context {W : Type} (put : W -> bytes -> outcome (bool * W)).

(** mat_io.go:256-267 *)
Fixpoint write_cells (p : platform) (m : DenseMat) (delimiter : bytes) (i : Z) (js : list Z) (w : W) : outcome (bool * W) :=
  match js with
  | [] => Ok (true, w)
  | j :: js =>
      let* v := at_ (dmValues m) (i * dmCols m + j) in
      let* (ok, w) := put w (pl_print_float p v) in
      if negb ok then Ok (false, w) else
      let* (ok, w) := if j =? dmCols m - 1 then Ok (true, w) else put w delimiter in
      if negb ok then Ok (false, w) else write_cells p m delimiter i js w
  end.
(** mat_io.go:255-273 *)
Fixpoint write_rows (p : platform) (m : DenseMat) (delimiter : bytes) (is : list Z) (w : W) : outcome (bool * W) :=
  match is with
  | [] => Ok (true, w)
  | i :: is =>
      let* (ok, w) := write_cells p m delimiter i (zseq (dmCols m)) w in
      if negb ok then Ok (false, w) else
      let* (ok, w) := put w [nl] in
      if negb ok then Ok (false, w) else write_rows p m delimiter is w
  end.
(** mat_io.go:246-274; None is the error of line 247, found before anything is written *)
Definition WriteStr_to (p : platform) (m : DenseMat) (delimiter : bytes) (w : W) : outcome (option bool * W) :=
  if negb (s64 (dmCols m * dmRows m) =? zlen (dmValues m)) then Ok (None, w)
  else
    let* (ok, w) := if (dmCols m =? 0) || (dmRows m =? 0) then put w [nl]
                    else write_rows p m delimiter (zseq (dmRows m)) w in
    Ok (Some ok, w).
End Write.

(** mat_io.go:277-287 ToCsvFile.  [created] is what os.Create gives: None if it fails, otherwise
    how the writes to the file, now empty, will go.  The deferred Flush drops its error.  Returns
    whether the function reports success, and the file. *)
Definition ToCsvFile (p : platform) (m : DenseMat) (created : option (list (option nat))) (delimiter : bytes)
  : outcome (bool * option device) :=
  match created with
  | None => Ok (false, None)
  | Some script =>
      let* (res, b) := WriteStr_to bw_put p m delimiter (NewWriter (mkDev [] script false)) in
      let b := Flush b in
      Ok (match res with Some true => true | _ => false end, Some (bw_dev b))
  end.

(** ** Reading files.  [fs name] is the stream os.Open gives, None if it fails. *)
Definition filesystem : Type := bytes -> option reader.
Definition with_file {A : Type} (fs : filesystem) (name : bytes) (f : reader -> outcome A) : outcome A :=
  match fs name with None => Err "open error" | Some r => f r end.

(** lgensemble_io.go:394-402 *)
Definition LGEnsembleFromFile (p : platform) (fs : filesystem) (name : bytes) (loadTransformation : bool) : outcome Ensemble :=
  with_file fs name (fun r => LGEnsembleFromReader p r loadTransformation).
(** xgensemble_io.go:252-260 *)
Definition XGEnsembleFromFile (p : platform) (fs : filesystem) (name : bytes) (loadTransformation : bool) : outcome Ensemble :=
  with_file fs name (fun r => XGEnsembleFromReader p r loadTransformation).
(** xgblinear_io.go:51-59 *)
Definition XGBLinearFromFile (p : platform) (fs : filesystem) (name : bytes) (loadTransformation : bool) : outcome Ensemble :=
  with_file fs name (fun r => XGBLinearFromReader p r loadTransformation).
(** skensemble_io.go:179-187 *)
Definition SKEnsembleFromFile (p : platform) (fs : filesystem) (name : bytes) (loadTransformation : bool) : outcome Ensemble :=
  with_file fs name (fun r => SKEnsembleFromReader p r loadTransformation).
(** mat_io.go:37-45 *)
Definition DenseMatFromLibsvmFile (p : platform) (fs : filesystem) (name : bytes) (limit : Z) (skipFirstColumn : bool) : outcome DenseMat :=
  with_file fs name (fun r => let* (m, _) := DenseMatFromLibsvm p r limit skipFirstColumn in Ok m).
(** mat_io.go:66-73 *)
Definition CSRMatFromLibsvmFile (p : platform) (fs : filesystem) (name : bytes) (limit : Z) (skipFirstColumn : bool) : outcome CSRMat :=
  with_file fs name (fun r => let* (m, _) := CSRMatFromLibsvm p r limit skipFirstColumn in Ok m).
(** mat_io.go:101-113 *)
Definition DenseMatFromCsvFile (p : platform) (fs : filesystem) (name : bytes) (limit : Z) (skipFirstColumn : bool) (delimiter : bytes)
  (defValue : f64) : outcome DenseMat :=
  with_file fs name (fun r => let* (m, _) := DenseMatFromCsv p r limit skipFirstColumn delimiter defValue in Ok m).
