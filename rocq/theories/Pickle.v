(** * Model of the pickle decoder (/repo/internal/pickle/machine.go, decoder.go, types.go) *)

From Coq Require Import ZArith List Bool String Lia.
From Verif Require Import Go GoFloat GoText.

(** types.go:5-38 and machine.go:7: the dynamic values of [interface{}].  [VNil] is the nil
    interface, which GET of an unknown key pushes.  A List is a Go slice: address of its backing
    array, length, capacity.  A Dict is a Go map: an address.  A Tuple is never modified after
    its creation, so it is its elements. *)
Inductive val : Type :=
| VNil
| VNone
| VInt (z : Z)
| VFloat (f : f64)
| VUnicode (s : bytes)
| VTuple (l : list val)
| VList (addr : nat) (len cap : Z)
| VDict (addr : nat)
| VGlobal (module name : bytes)
| VReduce (callable : val) (args : list val)
| VBuild (object args : val).

(** What lives on the Go heap: maps, and backing arrays of lists.  Of a backing array the
    elements written so far are kept; those up to the capacity are nil and in no slice. *)
Inductive cell : Type :=
| CDict (d : list (bytes * val))
| CArr (l : list val).
Definition heap : Type := list cell.

Definition set_cell (h : heap) (a : nat) (c : cell) : heap := firstn a h ++ c :: skipn (S a) h.

(** m[k] for a Go map with string keys *)
Fixpoint lookup {A : Type} (m : list (bytes * A)) (k : bytes) : option A :=
  match m with
  | [] => None
  | (k', v) :: m' => if beqb k k' then Some v else lookup m' k
  end.

Definition dict_at (h : heap) (a : nat) : list (bytes * val) :=
  match nth_error h a with Some (CDict d) => d | _ => [] end.
(** dict[key] = v *)
Definition dict_set (h : heap) (a : nat) (k : bytes) (v : val) : heap :=
  set_cell h a (CDict ((k, v) :: dict_at h a)).

(** the elements of a List *)
Definition arr_at (h : heap) (a : nat) : list val :=
  match nth_error h a with Some (CArr l) => l | _ => [] end.
Definition list_elems (h : heap) (a : nat) (len : Z) : list val := firstn (Z.to_nat len) (arr_at h a).

(** append(List{}, objs...) *)
Definition new_list (p : platform) (h : heap) (objs : list val) : val * heap :=
  match objs with
  | [] => (VList (List.length h) 0 0, h ++ [CArr []])
  | _ => (VList (List.length h) (zlen objs) (Z.max (zlen objs) (pl_grow p 0 (zlen objs))), h ++ [CArr objs])
  end.

(** append(list, el): in place if there is capacity, otherwise into a new backing array *)
Definition append_list (p : platform) (h : heap) (a : nat) (len cap : Z) (el : val) : val * heap :=
  if len <? cap then
    (VList a (len + 1) cap, set_cell h a (CArr (firstn (Z.to_nat len) (arr_at h a) ++ el :: skipn (S (Z.to_nat len)) (arr_at h a))))
  else
    (VList (List.length h) (len + 1) (Z.max (len + 1) (pl_grow p cap (len + 1))), h ++ [CArr (list_elems h a len ++ [el])]).

(** machine.go:6-10.  Stack and marks are kept top first. *)
Record machine : Type := mkMachine {
  mStack : list val;
  mMemory : list (bytes * val);
  mMarks : list Z;
  mHeap : heap }.

(** machine.go:12-17 *)
Definition newPickleMachine : machine := mkMachine [] [] [] [].
(** machine.go:19-21 *)
Definition pushMark (m : machine) : machine := mkMachine (mStack m) (mMemory m) (zlen (mStack m) :: mMarks m) (mHeap m).
(** machine.go:23-29; the objects in the order in which they were pushed *)
Definition popMark (m : machine) : outcome (list val * machine) :=
  match mMarks m with
  | [] => Panic "index out of range"
  | idx :: marks =>
      let n := zlen (mStack m) - idx in
      if n <? 0 then Panic "slice bounds out of range"
      else Ok (rev (firstn (Z.to_nat n) (mStack m)), mkMachine (skipn (Z.to_nat n) (mStack m)) (mMemory m) marks (mHeap m))
  end.
(** machine.go:31-33 *)
Definition push (m : machine) (v : val) : machine := mkMachine (v :: mStack m) (mMemory m) (mMarks m) (mHeap m).
(** machine.go:35-39 *)
Definition pop (m : machine) : outcome (val * machine) :=
  match mStack m with
  | [] => Panic "index out of range"
  | v :: st => Ok (v, mkMachine st (mMemory m) (mMarks m) (mHeap m))
  end.
(** machine.go:41-43 *)
Definition back (m : machine) : outcome val :=
  match mStack m with [] => Panic "index out of range" | v :: _ => Ok v end.
(** machine.go:45-47 *)
Definition putMemory (m : machine) (key : bytes) : outcome machine :=
  let* v := back m in Ok (mkMachine (mStack m) ((key, v) :: mMemory m) (mMarks m) (mHeap m)).
(** machine.go:49-51 *)
Definition getMemory (m : machine) (key : bytes) : val :=
  match lookup (mMemory m) key with Some v => v | None => VNil end.

Definition set_heap (m : machine) (h : heap) : machine := mkMachine (mStack m) (mMemory m) (mMarks m) h.

(** Formatting with %v or %#v (fmt/print.go:printValue) goes through everything a value holds and
    does not notice that it meets a value inside itself: the stack grows until the runtime ends
    the program.  [fuel] counts the slices and maps entered.  Of a map with a key set twice only
    the last value is there. *)
Fixpoint printable (h : heap) (fuel : nat) : val -> bool :=
  fix go (v : val) : bool :=
    match v with
    | VTuple l => forallb go l
    | VReduce callable args => go callable && forallb go args
    | VBuild object args => go object && go args
    | VDict a =>
        match fuel with
        | O => false
        | S fuel' => forallb (fun kv => match lookup (dict_at h a) (fst kv) with Some w => printable h fuel' w | None => true end) (dict_at h a)
        end
    | VList a len _ => match fuel with O => false | S fuel' => forallb (printable h fuel') (list_elems h a len) end
    | _ => true
    end.
(** more than the number of different slices and maps there can be (Pf_Fmt.v) *)
Definition heap_size (h : heap) : nat :=
  S (fold_right (fun c n => (match c with CDict _ => 1 | CArr l => List.length l end + n)%nat) O h).
(** fmt.Errorf with the values [vs] among the operands.  Memory and time are not modelled: a value
    of which the text is longer than the memory is formatted. *)
Definition Errorf {A : Type} (h : heap) (vs : list val) (msg : string) : outcome A :=
  if forallb (printable h (heap_size h)) vs then Err msg else Panic "stack overflow".

(** types.go:84-93 *)
Definition toUnicode (v : val) (length : Z) : outcome bytes :=
  match v with
  | VUnicode s => if (-1 <? length) && negb (zlen s =? length) then Err "expected Unicode with length" else Ok s
  | _ => Err "expected Unicode object"
  end.
(** types.go:62-71 *)
Definition toTuple (v : val) (length : Z) : outcome (list val) :=
  match v with
  | VTuple l => if (-1 <? length) && negb (zlen l =? length) then Err "expected Tuple with length" else Ok l
  | _ => Err "expected Tuple object"
  end.
(** types.go:73-82, always called with length -1 *)
Definition toList (v : val) : outcome (nat * Z * Z) :=
  match v with VList a len cap => Ok (a, len, cap) | _ => Err "expected List object" end.
(** types.go:95-101 *)
Definition toDict (v : val) : outcome nat :=
  match v with VDict a => Ok a | _ => Err "expected Dict object" end.

(** decoder.go:195-201 *)
Definition backslash : byte := "\"%byte.
Definition esc_nl : bytes := backslash :: bs "u000a".
Definition esc_bsl : bytes := backslash :: bs "u005c".
Definition decodeUnicode (raw : bytes) : bytes :=
  replace_all (replace_all raw esc_nl [nl]) esc_bsl [backslash].

(** decoder.go:177-193: the line without its newline *)
Definition readLine (r : reader) : outcome (bytes * reader) :=
  match cut_line (rd_bytes r) with
  | Some (l, rest) => Ok (removelast l, mkReader rest (rd_eof r))
  | None => Err "read error"
  end.

(** decoder.go:146-153 *)
Fixpoint dict_fill (h : heap) (a : nat) (objs : list val) : outcome heap :=
  match objs with
  | k :: v :: rest => let* key := toUnicode k (-1) in dict_fill (dict_set h a key v) a rest
  | _ => Ok h
  end.

(** decoder.go:41-172: one instruction; [None] is STOP *)
Definition step (p : platform) (op : byte) (m : machine) (r : reader) : outcome (option (machine * reader)) :=
  match op with
  | "("%byte => Ok (Some (pushMark m, r))
  | "p"%byte => let* (line, r) := readLine r in let* m := putMemory m line in Ok (Some (m, r))
  | "g"%byte => let* (line, r) := readLine r in Ok (Some (push m (getMemory m line), r))
  | "c"%byte =>
      let* (module, r) := readLine r in
      let* (name, r) := readLine r in
      Ok (Some (push m (VGlobal module name), r))
  | "L"%byte =>
      let* (line, r) := readLine r in
      if (zlen line <? 2) || negb (beqb (skipn (List.length line - 1) line) (bs "L")) then Err "unexpected long format"
      else match atoi (removelast line) with
           | None => Err "unexpected long format"
           | Some v => Ok (Some (push m (VInt v), r))
           end
  | "I"%byte =>
      let* (line, r) := readLine r in
      match atoi line with None => Err "invalid syntax" | Some v => Ok (Some (push m (VInt v), r)) end
  | "F"%byte =>
      let* (line, r) := readLine r in
      match pl_parse_float p line with None => Err "invalid syntax" | Some v => Ok (Some (push m (VFloat v), r)) end
  | "t"%byte => let* (objs, m) := popMark m in Ok (Some (push m (VTuple objs), r))
  | "l"%byte =>
      let* (objs, m) := popMark m in
      let (l, h) := new_list p (mHeap m) objs in
      Ok (Some (push (set_heap m h) l, r))
  | "a"%byte =>
      let* (el, m) := pop m in
      let* (obj, m) := pop m in
      let* (alc) := toList obj in
      let '(a, len, cap) := alc in
      let (l, h) := append_list p (mHeap m) a len cap el in
      Ok (Some (push (set_heap m h) l, r))
  | "V"%byte => let* (line, r) := readLine r in Ok (Some (push m (VUnicode (decodeUnicode line)), r))
  | "R"%byte =>
      let* (args, m) := pop m in
      let* (callable, m) := pop m in
      match args with
      | VTuple t => Ok (Some (push m (VReduce callable t), r))
      | _ => Errorf (mHeap m) [args] "reduce: unexpected args"
      end
  | "N"%byte => Ok (Some (push m VNone, r))
  | "b"%byte =>
      let* (args, m) := pop m in
      let* (obj, m) := pop m in
      Ok (Some (push m (VBuild obj args), r))
  | "d"%byte =>
      let* (objs, m) := popMark m in
      if negb (Z.rem (zlen objs) 2 =? 0) then Err "dict: expected event number of objects"
      else
        let a := List.length (mHeap m) in
        let* h := dict_fill (mHeap m ++ [CDict []]) a objs in
        Ok (Some (push (set_heap m h) (VDict a), r))
  | "s"%byte =>
      let* (v, m) := pop m in
      let* (k, m) := pop m in
      let* top := back m in
      let* a := toDict top in
      let* key := toUnicode k (-1) in
      Ok (Some (set_heap m (dict_set (mHeap m) a key v), r))
  | "."%byte => Ok None
  | _ => Err "unknown op code"
  end.

(** decoder.go:28-175 the loop, on fuel.  Returns the top of the stack with the heap it refers
    to, and the reader behind STOP. *)
Fixpoint decode_loop (p : platform) (fuel : nat) (m : machine) (r : reader) : outcome (val * heap * reader) :=
  match fuel with
  | O => Hang
  | S fuel' =>
      match rd_bytes r with
      | [] => Err "read error"
      | op :: rest =>
          let* o := step p op m (mkReader rest (rd_eof r)) in
          match o with
          | None => let* v := back m in Ok (v, mHeap m, mkReader rest (rd_eof r))
          | Some (m', r') => decode_loop p fuel' m' r'
          end
      end
  end.

(** decoder.go:28-175.  Simplification: the text of error messages is not modelled. *)
Definition Decode (p : platform) (r : reader) : outcome (val * heap * reader) :=
  decode_loop p (S (List.length (rd_bytes r))) newPickleMachine r.
