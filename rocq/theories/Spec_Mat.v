(** * What matrices and their text formats mean *)

From Coq Require Import ZArith List Bool String.
From Verif Require Import Go GoFloat GoText Mat.
From Verif Require Import Spec_Params.
From Verif Require Export Spec_Words.
Local Open Scope Z_scope.

(** ** Matrices and rows *)

(** an entry: column and value *)
Notation entry := (Z * f64)%type.

(** The CSR matrix holds the rows: the entries of row [i] stand, in order, between the
    headers [i] and [i+1]; there is nothing else. *)
Definition csr_holds (m : CSRMat) (rows : list (list entry)) : Prop :=
  zlen (cmRowHeaders m) = zlen rows + 1 /\ zget (cmRowHeaders m) 0 = Some 0 /\
  zget (cmRowHeaders m) (zlen rows) = Some (zlen (cmValues m)) /\ zlen (cmColIndexes m) = zlen (cmValues m) /\
  forall i row, zget rows i = Some row -> exists start,
    zget (cmRowHeaders m) i = Some start /\ zget (cmRowHeaders m) (i + 1) = Some (start + zlen row) /\
    forall k c v, zget row k = Some (c, v) -> zget (cmColIndexes m) (start + k) = Some c /\ zget (cmValues m) (start + k) = Some v.

(** [row] has the columns 0, 1, ..., cols-1 *)
Definition full_row (cols : Z) (row : list entry) : Prop := zlen row = cols /\ forall k c v, zget row k = Some (c, v) -> c = k.
(** the dense matrix holds the rows *)
Definition dense_holds (m : DenseMat) (rows : list (list entry)) : Prop :=
  dmRows m = zlen rows /\ zlen (dmValues m) = dmRows m * dmCols m /\
  forall i row, zget rows i = Some row -> full_row (dmCols m) row /\
    forall k c v, zget row k = Some (c, v) -> zget (dmValues m) (i * dmCols m + k) = Some v.

(** ** Lines *)

Section Lines.
Variable p : platform.

(** column:value *)
Definition says_entry (token : bytes) (e : entry) : Prop :=
  exists a b, token = a ++ ":"%byte :: b /\ ~ In ":"%byte a /\ ~ In ":"%byte b /\
    uint32_text a (fst e) /\ pl_parse_float p b = Some (snd e).
(** entries; an empty token (two spaces in a row) ends the line *)
Inductive says_entries : list bytes -> list entry -> Prop :=
| en_end : says_entries [] []
| en_empty : forall ts, says_entries ([] :: ts) []
| en_cons : forall t ts e es, t <> [] -> says_entry t e -> says_entries ts es -> says_entries (t :: ts) (e :: es).
(** a libsvm line: a label if [skip], then entries, separated by single spaces; at least two
    tokens *)
Definition libsvm_says (skip : bool) (line : bytes) (es : list entry) : Prop :=
  exists t ts, trimmed line t /\ parts " "%byte t ts /\ 2 <= zlen ts /\ says_entries (if skip then tl ts else ts) es.

(** a CSV field: a number, or nothing for the default *)
Definition says_field (def : f64) (field : bytes) (v : f64) : Prop :=
  (field = [] /\ v = def) \/ (field <> [] /\ pl_parse_float p field = Some v).
(** the values [vs] in columns 0, 1, ... *)
Definition numbered (vs : list f64) (es : list entry) : Prop :=
  zlen es = zlen vs /\ forall k v, zget vs k = Some v -> zget es k = Some (k, v).
(** a CSV line: fields separated by the byte [c] *)
Definition csv_says (skip : bool) (c : byte) (def : f64) (line : bytes) (es : list entry) : Prop :=
  exists t ts vs, trimmed line t /\ parts c t ts /\ Forall2 (says_field def) (if skip then tl ts else ts) vs /\ numbered vs es.
End Lines.

(** ** Texts *)
Section Text.
(** what a line says, the largest number of rows (if positive), and whether the stream ends
    regularly *)
Variables (says : bytes -> list entry -> Prop) (limit : Z) (eof : bool).

(** the first line of a text and what follows it; the last line needs no newline *)
Definition first_line (text line rest : bytes) : Prop :=
  one_line line /\ (text = line ++ nl :: rest \/ eof = true /\ text = line /\ rest = []).
(** one row per line up to the first blank line, the end or the limit; [n] rows came before *)
Inductive rows_of (n : Z) : bytes -> list (list entry) -> bytes -> Prop :=
| ro_blank : forall text l rest, first_line text l rest -> blank l -> rows_of n text [] rest
| ro_limit : forall text l rest row, first_line text l rest -> ~ blank l -> says l row -> 0 < limit -> n + 1 = limit -> rows_of n text [row] rest
| ro_more : forall text l rest row rows rest', first_line text l rest -> ~ blank l -> says l row -> ~ (0 < limit /\ n + 1 = limit) ->
    rows_of (n + 1) rest rows rest' -> rows_of n text (row :: rows) rest'.
(** before that, a read error or a line that says nothing *)
Inductive rows_bad (n : Z) : bytes -> Prop :=
| rb_read : forall text, eof = false -> one_line text -> rows_bad n text
| rb_line : forall text l rest, first_line text l rest -> ~ blank l -> (forall row, ~ says l row) -> rows_bad n text
| rb_more : forall text l rest row, first_line text l rest -> ~ blank l -> says l row -> ~ (0 < limit /\ n + 1 = limit) ->
    rows_bad (n + 1) rest -> rows_bad n text.
End Text.

(** ** Printing *)

(** the text of [v] can be told from the delimiter and read back *)
Definition prints_well (p : platform) (delimiter : bytes) (v : f64) : Prop :=
  let s := pl_print_float p v in
  s <> [] /\ Forall (fun c => 32 < byteZ c < 127) s /\ (forall d ds, delimiter = d :: ds -> ~ In d s) /\ pl_parse_float p s = Some v.
