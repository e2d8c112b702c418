(** * Python's pickle protocol 0

    Python objects, the texts that protocol 0 gives them, and when a decoded Go value stands for
    an object.  Of the model only the representation of decoded values is used. *)

From Coq Require Import ZArith List Bool String.
From Verif Require Import Go GoFloat GoText Pickle.
From Verif Require Export Spec_Words.
Local Open Scope Z_scope.

(** The objects of Python that the decoder knows.  [PReduce f args] is the object made by the call
    f(args); [PBuild o state] the object [o] after __setstate__(state). *)
Inductive pyobj : Type :=
| PNone
| PInt (z : Z)
| PFloat (f : f64)
| PStr (s : bytes)
| PTuple (l : list pyobj)
| PList (l : list pyobj)
| PDict (l : list (bytes * pyobj))
| PGlobal (module name : bytes)
| PReduce (callable : pyobj) (args : list pyobj)
| PBuild (object state : pyobj).

(** ** The text of a string: backslash and newline are escaped *)
Definition escape1 (c : byte) : bytes :=
  if Byte.eqb c "010"%byte then "\"%byte :: bs "u000a" else if Byte.eqb c "\"%byte then "\"%byte :: bs "u005c" else [c].
Definition escape (s : bytes) : bytes := flat_map escape1 s.

(** [t] is a line without its newline *)
Definition one_line (t : bytes) : Prop := ~ In "010"%byte t.
(** [t] is a decimal numeral for [z], which fits in 64 bits *)
Definition numeral (t : bytes) (z : Z) : Prop := one_line t /\ int64_text t z.

(** ** Encodings

    [enc mu o s mu'] : [s] is an encoding of [o] when the memo is [mu]; afterwards it is [mu'].
    The memo lists the keys used so far, each with the object that may be fetched with it.  As in
    Python every PUT uses a new key.  [None] marks an object which cannot be fetched faithfully: a
    list that was memoised before its elements were appended.

    An instance is memoised before its state is set.  In Python a later GET refers to the
    instance with its state; the decoder returns it without.  If [lossy] is false the relation
    excludes such a GET; if [lossy] is true it allows it with the object the decoder gives. *)
Definition memo : Type := list (bytes * option pyobj).
Definition fresh (ks : list bytes) (mu : memo) : Prop :=
  NoDup ks /\ forall k, In k ks -> one_line k /\ ~ In k (map fst mu).
Definition memoise (o : option pyobj) (ks : list bytes) (mu : memo) : memo := map (fun k => (k, o)) ks ++ mu.
(** the objects with keys [ks] are now complete *)
Definition seal (ks : list bytes) (o : pyobj) (mu : memo) : memo :=
  map (fun e => if existsb (beqb (fst e)) ks then (fst e, Some o) else e) mu.
Definition put (k : bytes) : bytes := "p"%byte :: k ++ ["010"%byte].
Definition puts (ks : list bytes) : bytes := flat_map put ks.

Section Enc.
Variables (p : platform) (lossy : bool).

Inductive enc : memo -> pyobj -> bytes -> memo -> Prop :=
| e_none : forall mu, enc mu PNone (bs "N") mu
| e_int : forall mu t z, numeral t z -> enc mu (PInt z) ("I"%byte :: t ++ ["010"%byte]) mu
| e_long : forall mu t z, numeral t z -> enc mu (PInt z) ("L"%byte :: t ++ ["L"%byte; "010"%byte]) mu
| e_float : forall mu t f, one_line t -> pl_parse_float p t = Some f -> enc mu (PFloat f) ("F"%byte :: t ++ ["010"%byte]) mu
| e_str : forall mu s, enc mu (PStr s) ("V"%byte :: escape s ++ ["010"%byte]) mu
| e_global : forall mu m n, one_line m -> one_line n ->
    enc mu (PGlobal m n) ("c"%byte :: m ++ ["010"%byte] ++ n ++ ["010"%byte]) mu
| e_tuple : forall mu os s mu', encs mu os s mu' -> enc mu (PTuple os) ("("%byte :: s ++ bs "t") mu'
(** the list of the marked objects, memoised, then appended to *)
| e_list : forall mu os1 s1 mu1 ks os2 s2 mu2,
    encs mu os1 s1 mu1 -> fresh ks mu1 -> appends (memoise None ks mu1) os2 s2 mu2 ->
    enc mu (PList (os1 ++ os2)) ("("%byte :: s1 ++ bs "l" ++ puts ks ++ s2) mu2
(** the dict of the marked keys and values, memoised, then added to; it can be fetched when
    it is complete *)
| e_dict : forall mu kv1 s1 mu1 ks kv2 s2 mu2,
    pairs mu kv1 s1 mu1 -> fresh ks mu1 -> setitems (memoise None ks mu1) kv2 s2 mu2 ->
    NoDup (map fst (kv1 ++ kv2)) ->
    enc mu (PDict (kv1 ++ kv2)) ("("%byte :: s1 ++ bs "d" ++ puts ks ++ s2) (seal ks (PDict (kv1 ++ kv2)) mu2)
| e_reduce : forall mu c s1 mu1 args s2 mu2,
    enc mu c s1 mu1 -> enc mu1 (PTuple args) s2 mu2 -> enc mu (PReduce c args) (s1 ++ s2 ++ bs "R") mu2
(** an instance: the call that makes it, memoised, then its state *)
| e_build : forall mu c s1 mu1 args s2 mu2 ks st s3 mu3,
    enc mu c s1 mu1 -> enc mu1 (PTuple args) s2 mu2 -> fresh ks mu2 ->
    enc (memoise (if lossy then Some (PReduce c args) else None) ks mu2) st s3 mu3 ->
    enc mu (PBuild (PReduce c args) st) (s1 ++ s2 ++ bs "R" ++ puts ks ++ s3 ++ bs "b") mu3
(** a complete object is memoised *)
| e_put : forall mu o s mu' k, enc mu o s mu' -> fresh [k] mu' -> enc mu o (s ++ put k) (memoise (Some o) [k] mu')
| e_get : forall mu o k, one_line k -> lookup mu k = Some (Some o) -> enc mu o ("g"%byte :: k ++ ["010"%byte]) mu
(** objects one after the other *)
with encs : memo -> list pyobj -> bytes -> memo -> Prop :=
| es_nil : forall mu, encs mu [] [] mu
| es_cons : forall mu o s mu1 os ss mu2, enc mu o s mu1 -> encs mu1 os ss mu2 -> encs mu (o :: os) (s ++ ss) mu2
with appends : memo -> list pyobj -> bytes -> memo -> Prop :=
| ap_nil : forall mu, appends mu [] [] mu
| ap_cons : forall mu o s mu1 os ss mu2, enc mu o s mu1 -> appends mu1 os ss mu2 -> appends mu (o :: os) (s ++ bs "a" ++ ss) mu2
with pairs : memo -> list (bytes * pyobj) -> bytes -> memo -> Prop :=
| pa_nil : forall mu, pairs mu [] [] mu
| pa_cons : forall mu k s1 mu1 o s2 mu2 kv ss mu3,
    enc mu (PStr k) s1 mu1 -> enc mu1 o s2 mu2 -> pairs mu2 kv ss mu3 -> pairs mu ((k, o) :: kv) (s1 ++ s2 ++ ss) mu3
with setitems : memo -> list (bytes * pyobj) -> bytes -> memo -> Prop :=
| si_nil : forall mu, setitems mu [] [] mu
| si_cons : forall mu k s1 mu1 o s2 mu2 kv ss mu3,
    enc mu (PStr k) s1 mu1 -> enc mu1 o s2 mu2 -> setitems mu2 kv ss mu3 ->
    setitems mu ((k, o) :: kv) (s1 ++ s2 ++ bs "s" ++ ss) mu3.
End Enc.

(** ** When a decoded value stands for an object *)
Section Denotes.
Variable h : heap.
Inductive denotes : val -> pyobj -> Prop :=
| dn_none : denotes VNone PNone
| dn_int : forall z, denotes (VInt z) (PInt z)
| dn_float : forall f, denotes (VFloat f) (PFloat f)
| dn_str : forall s, denotes (VUnicode s) (PStr s)
| dn_tuple : forall vs os, Forall2 denotes vs os -> denotes (VTuple vs) (PTuple os)
| dn_list : forall a len cap l os,
    nth_error h a = Some (CArr l) -> len = zlen os -> Forall2 denotes (firstn (Z.to_nat len) l) os ->
    denotes (VList a len cap) (PList os)
| dn_dict : forall a d kv vs,
    nth_error h a = Some (CDict d) -> Forall2 denotes vs (map snd kv) ->
    (forall k, lookup d k = lookup (combine (map fst kv) vs) k) -> denotes (VDict a) (PDict kv)
| dn_global : forall m n, denotes (VGlobal m n) (PGlobal m n)
| dn_reduce : forall c args c' args', denotes c c' -> Forall2 denotes args args' -> denotes (VReduce c args) (PReduce c' args')
| dn_build : forall o st o' st', denotes o o' -> denotes st st' -> denotes (VBuild o st) (PBuild o' st').
End Denotes.

(** ** Histories of the decoder *)
Section History.
Variable p : platform.
(** the machine and the text that is still unread *)
Definition config : Type := (machine * reader)%type.
(** the next instruction is [op], and [r] starts behind it *)
Definition at_op (c : config) (op : byte) (r : reader) : Prop :=
  rd_bytes (snd c) = op :: rd_bytes r /\ rd_eof (snd c) = rd_eof r.
(** one instruction is executed *)
Definition next (c c' : config) : Prop :=
  exists op r, at_op c op r /\ step p op (fst c) r = Ok (Some c').
(** the next instruction is PUT [k] *)
Definition at_put (k : bytes) (c : config) : Prop :=
  exists r r', at_op c "p"%byte r /\ rd_bytes r = k ++ "010"%byte :: rd_bytes r' /\ one_line k.
(** the next instruction is GET [k] *)
Definition at_get (k : bytes) (c : config) : Prop :=
  exists r r', at_op c "g"%byte r /\ rd_bytes r = k ++ "010"%byte :: rd_bytes r' /\ one_line k.
(** the next instruction is APPEND, of [x] to the list [v] *)
Definition at_append (v x : val) (c : config) : Prop :=
  exists r st, at_op c "a"%byte r /\ mStack (fst c) = x :: v :: st.
(** the next instruction is SETITEM, of [key] to [x] in the dict of identity [a] *)
Definition at_setitem (a : nat) (key : bytes) (x : val) (c : config) : Prop :=
  exists r st, at_op c "s"%byte r /\ mStack (fst c) = x :: VUnicode key :: VDict a :: st.
(** a sequence of instructions, none of them executed at a configuration in [without] *)
Inductive history (without : config -> Prop) : config -> config -> Prop :=
| h_now : forall c, history without c c
| h_next : forall c c1 c2, history without c c1 -> ~ without c1 -> next c1 c2 -> history without c c2.
(** configurations that occur when some text is decoded *)
Definition occurs (c : config) : Prop := exists r, history (fun _ => False) (newPickleMachine, r) c.
End History.
