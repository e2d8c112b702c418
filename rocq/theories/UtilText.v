(** * Model of the parameter block reader of /repo/util/util.go *)

From Coq Require Import ZArith List Bool String.
From Verif Require Import Go GoFloat GoText.

(** util/util.go:27 stringParams: the map as the list of its assignments, newest first *)
Definition stringParams : Type := list (bytes * bytes).

(** map lookup: the newest assignment to the key *)
Fixpoint lookup (ps : stringParams) (key : bytes) : option bytes :=
  match ps with
  | [] => None
  | (k, v) :: rest => if beqb k key then Some v else lookup rest key
  end.

(** util/util.go:45-52: one line of the block, already trimmed.  [strings.Split] with a
    non-empty separator returns at least one token. *)
Definition params_line (ps : stringParams) (line : bytes) : outcome stringParams :=
  match split line [eqc] with
  | [k] => Ok ((k, []) :: ps)
  | [k; v] => Ok ((k, v) :: ps)
  | [] => Ok ps
  | _ => Err "meet wrong format while reading params"
  end.

(** util/util.go:44-61: the second loop, on fuel (every further iteration has consumed a
    non-empty line, so the fuel given by [ReadParamsUntilBlank] is never exhausted:
    lemma [ReadParams_no_hang]) *)
Fixpoint params_loop (fuel : nat) (ps : stringParams) (line : bytes) (r : reader)
  : outcome (stringParams * reader) :=
  match fuel with
  | O => Hang
  | S fuel' =>
      let* ps := params_line ps line in
      let '(line, err, r) := read_string r in
      match err with
      | RdOther => Err "read error"
      | _ =>
          let line := trim_space line in
          if beqb line [] then Ok (ps, r) else params_loop fuel' ps line r
      end
  end.

(** util/util.go:29-63 ReadParamsUntilBlank.  The first loop (lines 34-43, "skip empty")
    leaves after one iteration: its condition compares the trimmed line with a newline,
    which no trimmed string equals (lemma [trim_space_not_newline]). *)
Definition ReadParamsUntilBlank (r : reader) : outcome (stringParams * reader) :=
  let '(line, err, r') := read_string r in
  match err with
  | RdNil => params_loop (S (List.length (rd_bytes r))) [] (trim_space line) r'
  | _ => Err "read error"
  end.

(** util/util.go:65-76 ToInt *)
Definition ToInt (ps : stringParams) (key : bytes) : outcome Z :=
  match lookup ps key with
  | None => Err "no field"
  | Some s => match atoi s with Some v => Ok v | None => Err "can't convert" end
  end.

(** util/util.go:78-84 ToString *)
Definition ToString (ps : stringParams) (key : bytes) : outcome bytes :=
  match lookup ps key with None => Err "no field" | Some s => Ok s end.

(** util/util.go:86-96 Compare: nil error iff present and equal *)
Definition Compare (ps : stringParams) (key rhs : bytes) : outcome unit :=
  match lookup ps key with
  | None => Err "no field"
  | Some s => if beqb s rhs then Ok tt else Err "only one value is supported"
  end.

(** util/util.go:98-104 ToStrSlice *)
Definition ToStrSlice (ps : stringParams) (key : bytes) : outcome (list bytes) :=
  match lookup ps key with None => Err "no field" | Some s => Ok (split s [sp]) end.

(** the common loop of the slice accessors: convert every token or fail *)
Definition convert_tokens {A : Type} (f : bytes -> option A) (ps : stringParams) (key : bytes)
  : outcome (list A) :=
  match lookup ps key with
  | None => Err "no field"
  | Some s => mapM (fun tok => match f tok with Some v => Ok v | None => Err "can't convert" end)
                   (split s [sp])
  end.

(** util/util.go:106-121 ToFloat64Slice *)
Definition ToFloat64Slice (p : platform) (ps : stringParams) (key : bytes) : outcome (list f64) :=
  convert_tokens (pl_parse_float p) ps key.
(** util/util.go:123-138 ToUint32Slice *)
Definition ToUint32Slice (ps : stringParams) (key : bytes) : outcome (list Z) :=
  convert_tokens parse_uint32 ps key.
(** util/util.go:140-155 ToInt32Slice *)
Definition ToInt32Slice (ps : stringParams) (key : bytes) : outcome (list Z) :=
  convert_tokens parse_int32 ps key.

(** util/util.go:157-160 Contains *)
Definition Contains (ps : stringParams) (key : bytes) : bool :=
  match lookup ps key with Some _ => true | None => false end.
