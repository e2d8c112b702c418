(** * UTF-8 (RFC 3629) and white space *)

From Coq Require Import ZArith List Bool.
From Verif Require Import Go GoText.
Local Open Scope Z_scope.

Definition continues (b : byte) : Prop := 128 <= byteZ b < 192.
Definition surrogate (code : Z) : Prop := 55296 <= code < 57344.
Inductive utf8 : Z -> bytes -> Prop :=
| utf8_1 : forall a, byteZ a < 128 -> utf8 (byteZ a) [a]
| utf8_2 : forall a b code, 192 <= byteZ a < 224 -> continues b ->
    code = (byteZ a - 192) * 64 + (byteZ b - 128) -> 128 <= code -> utf8 code [a; b]
| utf8_3 : forall a b c code, 224 <= byteZ a < 240 -> continues b -> continues c ->
    code = ((byteZ a - 224) * 64 + (byteZ b - 128)) * 64 + (byteZ c - 128) -> 2048 <= code -> ~ surrogate code -> utf8 code [a; b; c]
| utf8_4 : forall a b c d code, 240 <= byteZ a < 248 -> continues b -> continues c -> continues d ->
    code = (((byteZ a - 240) * 64 + (byteZ b - 128)) * 64 + (byteZ c - 128)) * 64 + (byteZ d - 128) ->
    65536 <= code <= 1114111 -> utf8 code [a; b; c; d].

(** the characters with Unicode's White_Space property *)
Definition white_code (code : Z) : Prop :=
  9 <= code <= 13 \/ code = 32 \/ code = 133 \/ code = 160 \/ code = 5760 \/ 8192 <= code <= 8202 \/
  code = 8232 \/ code = 8233 \/ code = 8239 \/ code = 8287 \/ code = 12288.
Definition white_char (b : bytes) : Prop := exists code, white_code code /\ utf8 code b.

(** nothing but white space *)
Definition blank (line : bytes) : Prop := exists ws, Forall white_char ws /\ line = List.concat ws.
(** [t] is [line] without the white space around it *)
Definition trimmed (line t : bytes) : Prop :=
  exists before after, blank before /\ blank after /\ line = before ++ t ++ after /\
  forall w r, white_char w -> t <> w ++ r /\ t <> r ++ w.
