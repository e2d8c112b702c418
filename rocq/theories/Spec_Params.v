(** * The key=value blocks of LightGBM text files *)

From Coq Require Import ZArith List Bool.
From Verif Require Import Go GoText.
From Verif Require Export Spec_Utf8.

(** no newline inside a line *)
Definition one_line (s : bytes) : Prop := ~ In nl s.

(** what a line says after surrounding white space is removed: a key and the text after the
    only '='; a line without '=' is a key with an empty value *)
Inductive line_says (line : bytes) : bytes * bytes -> Prop :=
| says_pair : forall k v, trimmed line (k ++ eqc :: v) -> ~ In eqc k -> ~ In eqc v -> line_says line (k, v)
| says_key : forall k, trimmed line k -> ~ In eqc k -> line_says line (k, []).

(** every line followed by a newline *)
Definition unlines (lines : list bytes) : bytes := List.concat (map (fun l => l ++ [nl]) lines).

(** [block eof text kvs rest]: [text] starts with a block of key=value lines that says [kvs],
    closed by a blank line or, if the stream ends regularly ([eof]), by its end; [rest]
    follows.  The first line belongs to the block even if it is blank. *)
Inductive block (eof : bool) : bytes -> list (bytes * bytes) -> bytes -> Prop :=
| block_blank : forall lines kvs b rest,
    lines <> [] -> Forall one_line lines -> one_line b ->
    Forall2 line_says lines kvs -> Forall (fun l => ~ blank l) (tl lines) -> blank b ->
    block eof (unlines lines ++ b ++ nl :: rest) kvs rest
| block_end : forall lines kvs last,
    eof = true -> lines <> [] -> Forall one_line lines -> one_line last -> Forall (fun l => ~ blank l) (tl lines) ->
    (blank last /\ Forall2 line_says lines kvs \/ ~ blank last /\ Forall2 line_says (lines ++ [last]) kvs) ->
    block eof (unlines lines ++ last) kvs [].

(** consecutive blocks at the start of a text *)
Inductive blocks (eof : bool) : bytes -> list (list (bytes * bytes)) -> Prop :=
| blocks_nil : forall text, blocks eof text []
| blocks_cons : forall text kvs rest kvss, block eof text kvs rest -> blocks eof rest kvss -> blocks eof text (kvs :: kvss).
