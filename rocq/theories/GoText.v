(** * Byte strings and the parts of packages strings, strconv, bufio used by the code.

    These are Go standard library functions, modelled from their documentation. *)

From Coq Require Import ZArith List Bool NArith.
From Coq Require Export Init.Byte.
From Coq Require Strings.String.
From Coq Require Import Strings.Byte.
Local Open Scope byte_scope.
Local Open Scope Z_scope.
From Verif Require Import Go.

Definition bytes : Type := list byte.

(** ASCII literal as bytes *)
Definition bs (s : String.string) : bytes := String.list_byte_of_string s.

Definition byteZ (b : byte) : Z := Z.of_N (Byte.to_N b).

(** byte with value [z mod 256] *)
Definition byte_of_Z (z : Z) : byte :=
  match Byte.of_N (Z.to_N (z mod 256)) with Some b => b | None => Byte.x00 end.

Fixpoint beqb (a b : bytes) : bool :=
  match a, b with
  | [], [] => true
  | x :: a', y :: b' => Byte.eqb x y && beqb a' b'
  | _, _ => false
  end.

Definition nl : byte := "010"%byte.
Definition sp : byte := " "%byte.
Definition eqc : byte := "="%byte.

(** strings.HasPrefix *)
Fixpoint has_prefix (s pre : bytes) : bool :=
  match pre, s with
  | [], _ => true
  | p :: pre', c :: s' => Byte.eqb p c && has_prefix s' pre'
  | _, _ => false
  end.

(** strings.Split(s, sep) for non-empty [sep]: leftmost non-overlapping matches.
    [skip] counts the bytes of the current match still to be dropped. *)
Fixpoint split_go (sep s cur : bytes) (skip : nat) : list bytes :=
  match s with
  | [] => [rev cur]
  | c :: s' =>
      match skip with
      | S k => split_go sep s' cur k
      | O => if has_prefix s sep
             then rev cur :: split_go sep s' [] (Nat.pred (List.length sep))
             else split_go sep s' (c :: cur) O
      end
  end.

(** Simplification: for an empty separator Go splits into UTF-8 sequences; the
    model splits into bytes (identical for ASCII).  Only the delimiter of a CSV file can be
    empty, and a cell with another character is refused either way. *)
Definition split (s sep : bytes) : list bytes :=
  match sep with
  | [] => map (fun c => [c]) s
  | _ => split_go sep s [] O
  end.

(** bytes.Replace(s, old, new, -1) for non-empty [old] *)
Fixpoint replace_go (old new s : bytes) (skip : nat) : bytes :=
  match s with
  | [] => []
  | c :: s' =>
      match skip with
      | S k => replace_go old new s' k
      | O => if has_prefix s old
             then new ++ replace_go old new s' (Nat.pred (List.length old))
             else c :: replace_go old new s' O
      end
  end.
Definition replace_all (s old new : bytes) : bytes := replace_go old new s O.

(** strings.TrimSpace: the UTF-8 encodings of the characters for which unicode.IsSpace holds
    are removed from the left, then from the right.  (Go first goes through ASCII characters
    with a table, which makes no difference.) *)
Definition spaces : list bytes :=
  [[" "]; ["009"]; ["010"]; ["011"]; ["012"]; ["013"]; ["194"; "133"]; ["194"; "160"]; ["225"; "154"; "128"];
   ["226"; "128"; "128"]; ["226"; "128"; "129"]; ["226"; "128"; "130"]; ["226"; "128"; "131"]; ["226"; "128"; "132"]; ["226"; "128"; "133"];
   ["226"; "128"; "134"]; ["226"; "128"; "135"]; ["226"; "128"; "136"]; ["226"; "128"; "137"]; ["226"; "128"; "138"];
   ["226"; "128"; "168"]; ["226"; "128"; "169"]; ["226"; "128"; "175"]; ["226"; "129"; "159"]; ["227"; "128"; "128"]]%byte.
Fixpoint drop_prefix (w s : bytes) : option bytes :=
  match w, s with
  | [], _ => Some s
  | a :: w, b :: s => if Byte.eqb a b then drop_prefix w s else None
  | _ :: _, [] => None
  end.
Fixpoint drop_one (ws : list bytes) (s : bytes) : option bytes :=
  match ws with
  | [] => None
  | w :: ws => match drop_prefix w s with Some r => Some r | None => drop_one ws s end
  end.
Fixpoint drop_all (fuel : nat) (ws : list bytes) (s : bytes) : bytes :=
  match fuel with
  | O => s
  | S fuel => match drop_one ws s with Some r => drop_all fuel ws r | None => s end
  end.
Definition trim_left (s : bytes) : bytes := drop_all (List.length s) spaces s.
Definition trim_right (s : bytes) : bytes := rev (drop_all (List.length s) (map (@rev byte) spaces) (rev s)).
Definition trim_space (s : bytes) : bytes := trim_right (trim_left s).

(** ** strconv *)

Definition digit (b : byte) : option Z :=
  let z := byteZ b in if (48 <=? z) && (z <=? 57) then Some (z - 48) else None.

Fixpoint digits (s : bytes) (acc : Z) : option Z :=
  match s with
  | [] => Some acc
  | c :: s' => match digit c with Some d => digits s' (10 * acc + d) | None => None end
  end.

(** unsigned decimal numeral, at least one digit *)
Definition parse_nat (s : bytes) : option Z :=
  match s with [] => None | _ => digits s 0 end.

(** optional sign followed by digits *)
Definition parse_signed (s : bytes) : option Z :=
  match s with
  | c :: s' =>
      if Byte.eqb c "+" then parse_nat s'
      else if Byte.eqb c "-" then option_map Z.opp (parse_nat s')
      else parse_nat s
  | [] => None
  end.

Definition in_range (lo hi : Z) (o : option Z) : option Z :=
  match o with
  | Some z => if (lo <=? z) && (z <=? hi) then Some z else None
  | None => None
  end.

(** strconv.Atoi (64-bit int); None is an error (syntax or range) *)
Definition atoi (s : bytes) : option Z := in_range (- two63) (two63 - 1) (parse_signed s).
(** strconv.ParseInt(s, 10, 32) *)
Definition parse_int32 (s : bytes) : option Z := in_range (- two31) (two31 - 1) (parse_signed s).
(** strconv.ParseUint(s, 10, 32): no sign accepted *)
Definition parse_uint32 (s : bytes) : option Z := in_range 0 (two32 - 1) (parse_nat s).

(** ** bufio.Reader

    The remaining bytes of the stream, and whether the stream ends with io.EOF
    ([true]) or with some other I/O error ([false]). *)
Record reader : Type := mkReader { rd_bytes : bytes; rd_eof : bool }.

(** reader.ReadString('\n'): the line including the delimiter, or everything
    that is left together with the stream's final error *)
Fixpoint cut_line (s : bytes) : option (bytes * bytes) :=
  match s with
  | [] => None
  | c :: s' =>
      if Byte.eqb c nl then Some ([c], s')
      else match cut_line s' with
           | Some (l, r) => Some (c :: l, r)
           | None => None
           end
  end.

(** error status of a read: no error, io.EOF, other error *)
Inductive rderr : Type := RdNil | RdEOF | RdOther.

Definition read_string (r : reader) : bytes * rderr * reader :=
  match cut_line (rd_bytes r) with
  | Some (l, rest) => (l, RdNil, mkReader rest (rd_eof r))
  | None => (rd_bytes r, if rd_eof r then RdEOF else RdOther, mkReader [] (rd_eof r))
  end.
