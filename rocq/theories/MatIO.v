(** * Model of package mat: text formats (/repo/mat/mat_io.go)

    Opening and creating files, and writers that fail, are in Files.v.  Here a writer accepts
    everything it is given. *)

From Coq Require Import ZArith List Bool String.
From Verif Require Import Go GoFloat GoText Mat.
Local Open Scope Z_scope.

(** mat_io.go:12-15: column and value *)
Notation libsvmRecord := (Z * f64)%type.

(** mat_io.go:115-129 *)
Fixpoint dense_values (i : Z) (values : list f64) (records : list libsvmRecord) : outcome (list f64) :=
  match records with
  | [] => Ok values
  | (column, value) :: records =>
      if negb (i =? column) then Err "wrong column number for dense matrix"
      else dense_values (i + 1) (values ++ [value]) records
  end.
Definition recordsToDenseMat (m : DenseMat) (records : list libsvmRecord) : outcome DenseMat :=
  let* values := dense_values 0 (dmValues m) records in
  if dmCols m =? 0 then Ok (mkDense values (zlen records) (dmRows m + 1))
  else if negb (dmCols m =? zlen records) then Err "different number of columns"
  else Ok (mkDense values (dmCols m) (dmRows m + 1)).

(** mat_io.go:131-138 *)
Definition recordsToCSRMat (m : CSRMat) (records : list libsvmRecord) : outcome CSRMat :=
  let values := cmValues m ++ map snd records in
  Ok (mkCSR (cmRowHeaders m ++ [zlen values]) (cmColIndexes m ++ map fst records) values).

(** mat_io.go:156-180: the tokens of one line *)
Fixpoint svm_tokens (p : platform) (tokens : list bytes) (records : list libsvmRecord) : outcome (list libsvmRecord) :=
  match tokens with
  | [] => Ok records
  | token :: tokens =>
      if zlen token =? 0 then Ok records else
      match split token (bs ":") with
      | [a; b] =>
          match parse_uint32 a with
          | None => Err "can't convert"
          | Some column =>
              match pl_parse_float p b with
              | None => Err "can't convert to float"
              | Some value => svm_tokens p tokens (records ++ [(column, value)])
              end
          end
      | _ => Err "can't parse"
      end
  end.
Definition svm_line (p : platform) (skipFirstColumn : bool) (line : bytes) : outcome (list libsvmRecord) :=
  let tokens := split line (bs " ") in
  if zlen tokens <? 2 then Err "too few columns"
  else svm_tokens p (if skipFirstColumn then skipn 1 tokens else tokens) [].

(** mat_io.go:217-232; [col] is the number of the token less the number of the first *)
Fixpoint csv_tokens (p : platform) (defValue : f64) (tokens : list bytes) (col : Z) (records : list libsvmRecord) : outcome (list libsvmRecord) :=
  match tokens with
  | [] => Ok records
  | token :: tokens =>
      let* value := if zlen token =? 0 then Ok defValue
                    else match pl_parse_float p token with Some v => Ok v | None => Err "can't convert to float" end in
      csv_tokens p defValue tokens (col + 1) (records ++ [(col, value)])
  end.
Definition csv_line (p : platform) (skipFirstColumn : bool) (delimiter : bytes) (defValue : f64) (line : bytes) : outcome (list libsvmRecord) :=
  let tokens := split line delimiter in
  csv_tokens p defValue (if skipFirstColumn then skipn 1 tokens else tokens) 0 [].

(** mat_io.go:146-193 and 203-243: the loop over lines, the same in readFromLibsvm and
    readFromCsv.  [parse] reads a line, [f] is the callback with the matrix as its state. *)
Fixpoint read_rows {S : Type} (fuel : nat) (limit : Z) (parse : bytes -> outcome (list libsvmRecord))
  (f : S -> list libsvmRecord -> outcome S) (rows : Z) (s : S) (r : reader) : outcome (S * reader) :=
  match fuel with
  | O => Hang
  | Datatypes.S fuel =>
      let '(line, err, r) := read_string r in
      match err with
      | RdOther => Err "read error"
      | _ =>
          let line := trim_space line in
          if beqb line [] then Ok (s, r) else
          let* records := parse line in
          let* s := f s records in
          let rows := rows + 1 in
          if (0 <? limit) && (rows =? limit) then Ok (s, r)
          else read_rows fuel limit parse f rows s r
      end
  end.
(** the number of lines bounds the number of iterations *)
Definition read_fuel (r : reader) : nat := S (S (List.length (rd_bytes r))).

(** mat_io.go:22-32; with the reader as it is left *)
Definition DenseMatFromLibsvm (p : platform) (r : reader) (limit : Z) (skipFirstColumn : bool) : outcome (DenseMat * reader) :=
  read_rows (read_fuel r) limit (svm_line p skipFirstColumn) recordsToDenseMat 0 noDense r.
(** mat_io.go:50-61 *)
Definition CSRMatFromLibsvm (p : platform) (r : reader) (limit : Z) (skipFirstColumn : bool) : outcome (CSRMat * reader) :=
  read_rows (read_fuel r) limit (svm_line p skipFirstColumn) recordsToCSRMat 0 (mkCSR [0] [] []) r.
(** mat_io.go:79-95 *)
Definition DenseMatFromCsv (p : platform) (r : reader) (limit : Z) (skipFirstColumn : bool) (delimiter : bytes) (defValue : f64)
  : outcome (DenseMat * reader) :=
  read_rows (read_fuel r) limit (csv_line p skipFirstColumn delimiter defValue) recordsToDenseMat 0 noDense r.

(** mat_io.go:246-274: the text written; pl_print_float is Fprintf("%.19g") *)
Definition write_row (p : platform) (m : DenseMat) (delimiter : bytes) (i : Z) : outcome bytes :=
  let* cells := mapM (fun j => let* v := at_ (dmValues m) (i * dmCols m + j) in
                               Ok (pl_print_float p v ++ if j =? dmCols m - 1 then [] else delimiter)) (zseq (dmCols m)) in
  Ok (List.concat cells ++ [nl]).
Definition WriteStr (p : platform) (m : DenseMat) (delimiter : bytes) : outcome bytes :=
  if negb (s64 (dmCols m * dmRows m) =? zlen (dmValues m)) then Err "matrix unconsistent"
  else if (dmCols m =? 0) || (dmRows m =? 0) then Ok [nl]
  else let* rows := mapM (write_row p m delimiter) (zseq (dmRows m)) in Ok (List.concat rows).
