(** * pickle.dumps(o, protocol=0)

    What CPython's pickler writes for an object that contains no part twice: every string,
    non-empty tuple, list, dict, global and instance is memoised under the next number.
    ([Spec_Pickle.enc] also covers texts in which parts are fetched from the memo.) *)

From Coq Require Import ZArith List Bool String.
From Verif Require Import Go GoFloat GoText Spec_Decimal Spec_Pickle.
Local Open Scope Z_scope.

Definition line (s : bytes) : bytes := s ++ ["010"%byte].

(** one after the other, the counter handed on *)
Definition many {A : Type} (f : A -> Z -> bytes * Z) : list A -> Z -> bytes * Z :=
  fix go (l : list A) (n : Z) :=
    match l with
    | [] => ([], n)
    | x :: l' => let (s, n1) := f x n in let (s', n2) := go l' n1 in (s ++ s', n2)
    end.

Definition memoised (s : bytes) (n : Z) : bytes * Z := (s ++ put (decimal n), n + 1).

Section Dump.
(** repr() of a float *)
Variable repr : f64 -> bytes.

Definition dump_int (z : Z) : bytes :=
  if (- 2 ^ 31 <=? z) && (z <? 2 ^ 31) then "I"%byte :: line (decimal z)
  else "L"%byte :: line (decimal z ++ bs "L").
Definition dump_str (s : bytes) (n : Z) : bytes * Z := memoised ("V"%byte :: line (escape s)) n.

Fixpoint dump (o : pyobj) (n : Z) : bytes * Z :=
  let tuple (l : list pyobj) (n : Z) :=
    match l with
    | [] => (bs "(t", n)
    | _ => let (s, n1) := many dump l n in memoised (bs "(" ++ s ++ bs "t") n1
    end in
  let call (c : pyobj) (args : list pyobj) (n : Z) :=
    let (s1, n1) := dump c n in let (s2, n2) := tuple args n1 in memoised (s1 ++ s2 ++ bs "R") n2 in
  match o with
  | PNone => (bs "N", n)
  | PInt z => (dump_int z, n)
  | PFloat f => ("F"%byte :: line (repr f), n)
  | PStr s => dump_str s n
  | PTuple l => tuple l n
  | PList l =>
      let (s1, n1) := memoised (bs "(l") n in
      let (s2, n2) := many (fun x n => let (s, n') := dump x n in (s ++ bs "a", n')) l n1 in (s1 ++ s2, n2)
  | PDict l =>
      let (s1, n1) := memoised (bs "(d") n in
      let (s2, n2) := many (fun kx n => let (k, x) := kx : bytes * pyobj in
                              let (s, n1) := dump_str k n in let (s', n2) := dump x n1 in (s ++ s' ++ bs "s", n2)) l n1 in
      (s1 ++ s2, n2)
  | PGlobal m c => memoised ("c"%byte :: line m ++ line c) n
  | PReduce c args => call c args n
  | PBuild o st =>
      match o with
      | PReduce c args => let (s1, n1) := call c args n in let (s2, n2) := dump st n1 in (s1 ++ s2 ++ bs "b", n2)
      | _ => ([], n)
      end
  end.

(** the objects in question: integers of 64 bits, floats whose text is read back, dicts without
    repeated keys, and a state only for an object made by a call *)
Variable p : platform.
Inductive dumpable : pyobj -> Prop :=
| du_none : dumpable PNone
| du_int : forall z, - 2 ^ 63 <= z < 2 ^ 63 -> dumpable (PInt z)
| du_float : forall f, one_line (repr f) -> pl_parse_float p (repr f) = Some f -> dumpable (PFloat f)
| du_str : forall s, dumpable (PStr s)
| du_tuple : forall l, Forall dumpable l -> dumpable (PTuple l)
| du_list : forall l, Forall dumpable l -> dumpable (PList l)
| du_dict : forall l, NoDup (map fst l) -> Forall dumpable (map snd l) -> dumpable (PDict l)
| du_global : forall m n, one_line m -> one_line n -> dumpable (PGlobal m n)
| du_reduce : forall c args, dumpable c -> Forall dumpable args -> dumpable (PReduce c args)
| du_build : forall c args st, dumpable (PReduce c args) -> dumpable st -> dumpable (PBuild (PReduce c args) st).

(** pickle.dumps *)
Definition dumps (o : pyobj) : bytes := fst (dump o 0) ++ bs ".".
End Dump.
