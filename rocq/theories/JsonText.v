(** * Model of the scanner behind json.NewDecoder(reader).Decode (/repo/lgensemble_io.go:615-630)

    From the bytes of the stream to the JSON value that LgJsonIO.v stores into Go structs.  The
    code reads its model with package encoding/json, so this file models, from its documentation
    and sources, the part of that package that decides which byte strings are JSON values and
    what the strings in them mean (encoding/json/scanner.go, decode.go getu4 and unquote,
    stream.go Decode).

    - Decode takes the first value of the stream and looks at no byte after the bracket that
      closes it: what follows is ignored.
    - Number literals stay text; LgJsonIO.v converts them.
    - The json.RawMessage parts that the code hands to json.Unmarshal again
      (lgensemble_io.go:457, 464, 551, 578, 600) are cut out of a text that was already scanned:
      scanning them again gives the same values, so they appear as values, not bytes.
    - [limit] is the greatest nesting of arrays and objects the package accepts: 10000 since Go
      1.15, no limit before (any number above the nesting of the text).
    - All the errors of the scanner are one [None]: the code only passes them on. *)

From Coq Require Import ZArith List Bool String.
From Verif Require Import Go GoText GoFloat Leaves LgJsonIO.

(** scanner.go isSpace *)
Definition is_ws (c : byte) : bool := let z := byteZ c in (z =? 32) || (z =? 9) || (z =? 13) || (z =? 10).
Fixpoint skip_ws (s : bytes) : bytes :=
  match s with
  | c :: s' => if is_ws c then skip_ws s' else s
  | [] => []
  end.

(** ** Strings (scanner.go stateInString..stateInStringEscU123, decode.go unquoteBytes) *)

(** decode.go getu4: one hexadecimal digit *)
Definition hex_digit (c : byte) : option Z :=
  let z := byteZ c in
  if (48 <=? z) && (z <=? 57) then Some (z - 48)
  else if (97 <=? z) && (z <=? 102) then Some (z - 87)
  else if (65 <=? z) && (z <=? 70) then Some (z - 55)
  else None.
(** decode.go getu4, without the leading backslash and u: the number and what follows it *)
Definition getu4 (s : bytes) : option (Z * bytes) :=
  match s with
  | a :: b :: c :: d :: s' =>
      match hex_digit a, hex_digit b, hex_digit c, hex_digit d with
      | Some x, Some y, Some z, Some w => Some (((x * 16 + y) * 16 + z) * 16 + w, s')
      | _, _, _, _ => None
      end
  | _ => None
  end.

(** unicode/utf8.EncodeRune for a valid code point *)
Definition encode_rune (r : Z) : bytes :=
  if r <? 128 then [byte_of_Z r]
  else if r <? 2048 then [byte_of_Z (192 + r / 64); byte_of_Z (128 + r mod 64)]
  else if r <? 65536 then [byte_of_Z (224 + r / 4096); byte_of_Z (128 + r / 64 mod 64); byte_of_Z (128 + r mod 64)]
  else [byte_of_Z (240 + r / 262144); byte_of_Z (128 + r / 4096 mod 64); byte_of_Z (128 + r / 64 mod 64); byte_of_Z (128 + r mod 64)].
(** unicode.ReplacementChar, U+FFFD, as UTF-8 *)
Definition replacement : bytes := ["239"; "191"; "189"]%byte.

Definition between (lo : Z) (c : byte) (hi : Z) : bool := (lo <=? byteZ c) && (byteZ c <=? hi).
(** unicode/utf8.DecodeRune at a byte of at least 128 that is followed by [s]: the encoded
    character and the rest, None if the bytes are not UTF-8 *)
Definition decode_rune (c : byte) (s : bytes) : option (bytes * bytes) :=
  match s with
  | b1 :: s1 =>
      if between 194 c 223 && between 128 b1 191 then Some ([c; b1], s1) else
      match s1 with
      | b2 :: s2 =>
          let b1_ok := between (if byteZ c =? 224 then 160 else 128) b1 (if byteZ c =? 237 then 159 else 191) in
          if between 224 c 239 && b1_ok && between 128 b2 191 then Some ([c; b1; b2], s2) else
          match s2 with
          | b3 :: s3 =>
              let b1_ok := between (if byteZ c =? 240 then 144 else 128) b1 (if byteZ c =? 244 then 143 else 191) in
              if between 240 c 244 && b1_ok && between 128 b2 191 && between 128 b3 191
              then Some ([c; b1; b2; b3], s3) else None
          | [] => None
          end
      | [] => None
      end
  | [] => None
  end.

(** decode.go unquoteBytes: the escapes of one letter *)
Definition short_escape (c : byte) : option byte :=
  let z := byteZ c in
  if z =? 34 then Some """"%byte          (* quote *)
  else if z =? 92 then Some "\"%byte
  else if z =? 47 then Some "/"%byte
  else if z =? 98 then Some "008"%byte    (* b *)
  else if z =? 102 then Some "012"%byte   (* f *)
  else if z =? 110 then Some "010"%byte   (* n *)
  else if z =? 114 then Some "013"%byte   (* r *)
  else if z =? 116 then Some "009"%byte   (* t *)
  else None.

(** decode.go unquoteBytes after a backslash and u: what the escape stands for, and the rest.  A
    high surrogate followed by the escape of a low one makes one character; any other surrogate
    becomes U+FFFD and only its own escape is consumed. *)
Definition unicode_escape (s : bytes) : option (bytes * bytes) :=
  match getu4 s with
  | None => None
  | Some (r, s1) =>
      if (r <? 55296) || (57344 <=? r) then Some (encode_rune r, s1) else
      if 56320 <=? r then Some (replacement, s1) else
      match s1 with
      | bsl :: u :: s2 =>
          if (byteZ bsl =? 92) && (byteZ u =? 117) then
            match getu4 s2 with
            | Some (r2, s3) =>
                if (56320 <=? r2) && (r2 <? 57344)
                then Some (encode_rune (65536 + (r - 55296) * 1024 + (r2 - 56320)), s3)
                else Some (replacement, s1)
            | None => Some (replacement, s1)
            end
          else Some (replacement, s1)
      | _ => Some (replacement, s1)
      end
  end.

(** one character of a string, not the closing quote: its UTF-8 bytes and the rest *)
Definition string_char (s : bytes) : option (bytes * bytes) :=
  match s with
  | [] => None
  | c :: s1 =>
      if byteZ c =? 92 then
        match s1 with
        | [] => None
        | e :: s2 =>
            match short_escape e with
            | Some o => Some ([o], s2)
            | None => if byteZ e =? 117 then unicode_escape s2 else None
            end
        end
      else if byteZ c <? 32 then None
      else if byteZ c <? 128 then Some ([c], s1)
      else match decode_rune c s1 with Some r => Some r | None => Some (replacement, s1) end
  end.

(** the inside of a string and what follows its closing quote; one unit of [fuel] per character *)
Fixpoint string_body (fuel : nat) (s : bytes) : option (bytes * bytes) :=
  match fuel with
  | O => None
  | S f =>
      match s with
      | [] => None
      | c :: s1 =>
          if byteZ c =? 34 then Some ([], s1) else
          match string_char s with
          | None => None
          | Some (o, s2) => match string_body f s2 with Some (o', r) => Some (o ++ o', r) | None => None end
          end
      end
  end.

(** ** Numbers (scanner.go stateNeg, state1, state0, stateDot, stateDot0, stateE..stateE0) *)
Definition is_digit (c : byte) : bool := between 48 c 57.
Fixpoint span_digits (s : bytes) : bytes * bytes :=
  match s with
  | c :: s' => if is_digit c then let (d, r) := span_digits s' in (c :: d, r) else ([], s)
  | [] => ([], [])
  end.
(** the byte [z], if it comes next, and the rest *)
Definition take_byte (z : Z) (s : bytes) : option (byte * bytes) :=
  match s with c :: s' => if byteZ c =? z then Some (c, s') else None | [] => None end.
(** a zero stands alone: digits after it are not part of the number *)
Definition scan_int (s : bytes) : option (bytes * bytes) :=
  match take_byte 48 s with
  | Some (z, r) => Some ([z], r)
  | None => match span_digits s with ([], _) => None | (d, r) => Some (d, r) end
  end.
Definition scan_frac (s : bytes) : option (bytes * bytes) :=
  match take_byte 46 s with
  | None => Some ([], s)
  | Some (dot, r) => match span_digits r with ([], _) => None | (d, r') => Some (dot :: d, r') end
  end.
Definition scan_exp (s : bytes) : option (bytes * bytes) :=
  match s with
  | e :: r =>
      if (byteZ e =? 101) || (byteZ e =? 69) then
        let (sg, r1) := match r with
                        | c :: r1 => if (byteZ c =? 43) || (byteZ c =? 45) then ([c], r1) else ([], r)
                        | [] => ([], [])
                        end in
        match span_digits r1 with ([], _) => None | (d, r2) => Some (e :: sg ++ d, r2) end
      else Some ([], s)
  | [] => Some ([], s)
  end.
Definition scan_number (s : bytes) : option (bytes * bytes) :=
  let (sg, s0) := match take_byte 45 s with Some (m, r) => ([m], r) | None => ([], s) end in
  match scan_int s0 with
  | None => None
  | Some (i, s1) =>
      match scan_frac s1 with
      | None => None
      | Some (fr, s2) => match scan_exp s2 with None => None | Some (ex, s3) => Some (sg ++ i ++ fr ++ ex, s3) end
      end
  end.

(** ** Values (scanner.go stateBeginValue, stateBeginString, stateEndValue, pushParseState) *)

(** the literals null, true and false; [s] starts at the literal *)
Definition scan_word (w : bytes) (s : bytes) : option bytes :=
  if has_prefix s w then Some (skipn (List.length w) s) else None.

(** [depth] arrays and objects are open around the value; it may be preceded by white space.
    The result is the value and the bytes after it.  One unit of [fuel] per value or member. *)
Fixpoint value (limit : Z) (fuel : nat) (depth : Z) (s : bytes) : option (json * bytes) :=
  match fuel with
  | O => None
  | S f =>
      match skip_ws s with
      | [] => None
      | (c :: s1) as s0 =>
          let z := byteZ c in
          if z =? 123 then
            if limit <? depth + 1 then None else
            match take_byte 125 (skip_ws s1) with
            | Some (_, r) => Some (JObj [], r)
            | None => match members limit f (depth + 1) s1 with Some (l, r) => Some (JObj l, r) | None => None end
            end
          else if z =? 91 then
            if limit <? depth + 1 then None else
            match take_byte 93 (skip_ws s1) with
            | Some (_, r) => Some (JArr [], r)
            | None => match elements limit f (depth + 1) s1 with Some (l, r) => Some (JArr l, r) | None => None end
            end
          else if z =? 34 then
            match string_body (S (List.length s1)) s1 with Some (o, r) => Some (JStr o, r) | None => None end
          else if z =? 110 then match scan_word (bs "null") s0 with Some r => Some (JNull, r) | None => None end
          else if z =? 116 then match scan_word (bs "true") s0 with Some r => Some (JBool true, r) | None => None end
          else if z =? 102 then match scan_word (bs "false") s0 with Some r => Some (JBool false, r) | None => None end
          else match scan_number s0 with Some (lit, r) => Some (JNum lit, r) | None => None end
      end
  end
(** the elements of a non-empty array, up to the closing bracket *)
with elements (limit : Z) (fuel : nat) (depth : Z) (s : bytes) : option (list json * bytes) :=
  match fuel with
  | O => None
  | S f =>
      match value limit f depth s with
      | None => None
      | Some (v, r) =>
          match skip_ws r with
          | [] => None
          | c :: r1 =>
              if byteZ c =? 44 then
                match elements limit f depth r1 with Some (l, r2) => Some (v :: l, r2) | None => None end
              else if byteZ c =? 93 then Some ([v], r1) else None
          end
      end
  end
(** the members of a non-empty object, up to the closing brace *)
with members (limit : Z) (fuel : nat) (depth : Z) (s : bytes) : option (list (bytes * json) * bytes) :=
  match fuel with
  | O => None
  | S f =>
      match take_byte 34 (skip_ws s) with
      | None => None
      | Some (_, s1) =>
          match string_body (S (List.length s1)) s1 with
          | None => None
          | Some (k, s2) =>
              match take_byte 58 (skip_ws s2) with
              | None => None
              | Some (_, s3) =>
                  match value limit f depth s3 with
                  | None => None
                  | Some (v, r) =>
                      match skip_ws r with
                      | [] => None
                      | c :: r1 =>
                          if byteZ c =? 44 then
                            match members limit f depth r1 with Some (l, r2) => Some ((k, v) :: l, r2) | None => None end
                          else if byteZ c =? 125 then Some ([(k, v)], r1) else None
                      end
                  end
              end
          end
      end
  end.

(** stream.go Decode: the first value of the stream; the bytes are there in full or up to a read
    error, and in both cases a value that is not complete is an error.  Simplification: a number
    at the very end of a stream that breaks off with a read error is taken as complete; a stream
    whose first value is a number is refused all the same (LgJsonIO.v dec_struct). *)
Definition first_value (limit : Z) (r : reader) : option json :=
  option_map fst (value limit (S (2 * List.length (rd_bytes r))) 0 (rd_bytes r)).

(** lgensemble_io.go:615-669 LGEnsembleFromJSON on a stream *)
Definition LGEnsembleFromJSONReader (p : platform) (limit : Z) (r : reader) (loadTransformation : bool) : outcome Ensemble :=
  LGEnsembleFromJSON p (first_value limit r) loadTransformation.
