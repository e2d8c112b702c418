(** * What a JSON text says (RFC 8259), for C64

    [json_text proper v t]: the bytes [t], without white space around them, are a JSON text of the
    value [v].  With [proper = true] this is the grammar of the RFC, strings being UTF-8 and
    surrogates coming in pairs.  With [proper = false] strings may also hold bytes that are not
    UTF-8 and escapes of single surrogates; both stand for the character U+FFFD. *)

From Coq Require Import ZArith List Bool String.
From Verif Require Import Go GoText LgJsonIO.
From Verif Require Export Spec_Utf8.
Local Open Scope Z_scope.

(** ** Characters of a string: the UTF-8 bytes of the character, and how the text writes it *)
Definition letters (s : string) : bytes := bs s.
Inductive hex_value : byte -> Z -> Prop :=
| hex_value_lower : forall i c, nth_error (letters "0123456789abcdef") i = Some c -> hex_value c (Z.of_nat i)
| hex_value_upper : forall i c, nth_error (letters "0123456789ABCDEF") i = Some c -> hex_value c (Z.of_nat i).
Inductive hex4 : Z -> bytes -> Prop :=
| hex4_intro : forall a b c d x y z w, hex_value a x -> hex_value b y -> hex_value c z -> hex_value d w ->
    hex4 (x * 4096 + y * 256 + z * 16 + w) [a; b; c; d].
Definition U_FFFD : bytes := ["239"; "191"; "189"]%byte.
Definition backslash : byte := "\"%byte.
Definition quote : byte := """"%byte.

Inductive json_char : bool -> bytes -> bytes -> Prop :=
| jc_plain : forall proper code t, utf8 code t -> 32 <= code -> code <> 34 -> code <> 92 -> json_char proper t t
| jc_short : forall proper c o,
    In (c, o) [(""""%byte, 34); ("\"%byte, 92); ("/"%byte, 47); ("b"%byte, 8); ("f"%byte, 12); ("n"%byte, 10); ("r"%byte, 13); ("t"%byte, 9)] ->
    json_char proper [byte_of_Z o] [backslash; c]
| jc_unicode : forall proper code h o, hex4 code h -> ~ surrogate code -> utf8 code o -> json_char proper o (backslash :: "u"%byte :: h)
| jc_pair : forall proper hi lo h l o, hex4 hi h -> hex4 lo l -> 55296 <= hi < 56320 -> 56320 <= lo < 57344 ->
    utf8 (65536 + (hi - 55296) * 1024 + (lo - 56320)) o ->
    json_char proper o (backslash :: "u"%byte :: h ++ backslash :: "u"%byte :: l)
| jc_bad_byte : forall c, 128 <= byteZ c -> json_char false U_FFFD [c]
| jc_lone : forall code h, hex4 code h -> surrogate code -> json_char false U_FFFD (backslash :: "u"%byte :: h).

Inductive json_chars (proper : bool) : bytes -> bytes -> Prop :=
| jcs_nil : json_chars proper [] []
| jcs_cons : forall o t o' t', json_char proper o t -> json_chars proper o' t' -> json_chars proper (o ++ o') (t ++ t').

(** ** Numbers *)
Definition digit (c : byte) : Prop := 48 <= byteZ c <= 57.
Inductive int_text : bytes -> Prop :=
| int_zero : int_text (letters "0")
| int_digits : forall c d, digit c -> c <> "0"%byte -> Forall digit d -> int_text (c :: d).
Inductive frac_text : bytes -> Prop :=
| frac_none : frac_text []
| frac_some : forall d, d <> [] -> Forall digit d -> frac_text ("."%byte :: d).
Inductive exp_text : bytes -> Prop :=
| exp_none : exp_text []
| exp_some : forall e sign d, In e (letters "eE") -> In sign [[]; letters "+"; letters "-"] -> d <> [] -> Forall digit d -> exp_text (e :: sign ++ d).
Inductive number_text : bytes -> Prop :=
| number_intro : forall sign i f e, In sign [[]; letters "-"] -> int_text i -> frac_text f -> exp_text e -> number_text (sign ++ i ++ f ++ e).

(** ** Values *)
Definition white (w : bytes) : Prop := forall c, In c w -> In (byteZ c) [32; 9; 10; 13].

Inductive json_text (proper : bool) : json -> bytes -> Prop :=
| jt_null : json_text proper JNull (letters "null")
| jt_true : json_text proper (JBool true) (letters "true")
| jt_false : json_text proper (JBool false) (letters "false")
| jt_num : forall lit, number_text lit -> json_text proper (JNum lit) lit
| jt_str : forall o t, json_chars proper o t -> json_text proper (JStr o) (quote :: t ++ [quote])
| jt_empty_array : forall w, white w -> json_text proper (JArr []) ("["%byte :: w ++ ["]"%byte])
| jt_array : forall l t, elements_text proper l t -> json_text proper (JArr l) ("["%byte :: t ++ ["]"%byte])
| jt_empty_object : forall w, white w -> json_text proper (JObj []) ("{"%byte :: w ++ ["}"%byte])
| jt_object : forall l t, members_text proper l t -> json_text proper (JObj l) ("{"%byte :: t ++ ["}"%byte])
with elements_text (proper : bool) : list json -> bytes -> Prop :=
| et_one : forall w1 v t w2, white w1 -> json_text proper v t -> white w2 -> elements_text proper [v] (w1 ++ t ++ w2)
| et_more : forall w1 v t w2 l t', white w1 -> json_text proper v t -> white w2 -> elements_text proper l t' ->
    elements_text proper (v :: l) (w1 ++ t ++ w2 ++ ","%byte :: t')
with members_text (proper : bool) : list (bytes * json) -> bytes -> Prop :=
| mt_one : forall k v m, member_text proper k v m -> members_text proper [(k, v)] m
| mt_more : forall k v m l t', member_text proper k v m -> members_text proper l t' ->
    members_text proper ((k, v) :: l) (m ++ ","%byte :: t')
with member_text (proper : bool) : bytes -> json -> bytes -> Prop :=
| mt_intro : forall w1 k kt w2 w3 v t w4, white w1 -> json_chars proper k kt -> white w2 -> white w3 -> json_text proper v t -> white w4 ->
    member_text proper k v (w1 ++ quote :: kt ++ quote :: w2 ++ ":"%byte :: w3 ++ t ++ w4).

(** how many arrays and objects are open at the innermost point *)
Inductive nesting_within : Z -> json -> Prop :=
| nw_null : forall n, nesting_within n JNull
| nw_bool : forall n b, nesting_within n (JBool b)
| nw_num : forall n lit, nesting_within n (JNum lit)
| nw_str : forall n s, nesting_within n (JStr s)
| nw_arr : forall n l, 1 <= n -> Forall (nesting_within (n - 1)) l -> nesting_within n (JArr l)
| nw_obj : forall n l, 1 <= n -> Forall (fun kv => nesting_within (n - 1) (snd kv)) l -> nesting_within n (JObj l).

(** the stream holds the value: white space, its text, anything *)
Definition stream_says (proper : bool) (v : json) (s : bytes) : Prop :=
  exists w t rest, s = w ++ t ++ rest /\ white w /\ json_text proper v t.
(** an object or an array *)
Definition structured (v : json) : Prop := (exists l, v = JArr l) \/ (exists l, v = JObj l).
