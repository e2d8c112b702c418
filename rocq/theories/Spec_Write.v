(** * Decision trees to be written to a file *)

From Coq Require Import ZArith List Bool.
From Verif Require Import Go GoFloat GoText Spec_Split Spec_Tree.
Local Open Scope Z_scope.

(** [R] are the rules of a format, [V] the way it writes leaf values *)
Inductive tree (R V : Type) : Type :=
| Leaf (v : V)
| Split (feature : Z) (rule : R) (l r : tree R V).
Arguments Leaf {R V}.
Arguments Split {R V}.

Section Tree.
  Context {R V : Type}.
  (** what the tree gives for [x]; None if [x] lacks a feature *)
  Fixpoint value_of (goes_left : R -> f64 -> bool) (value : V -> f64) (t : tree R V) (x : list f64) : option f64 :=
    match t with
    | Leaf v => Some (value v)
    | Split f rule l r =>
        match zget x f with
        | Some z => if goes_left rule z then value_of goes_left value l x else value_of goes_left value r x
        | None => None
        end
    end.
  (** leaves and splits together *)
  Fixpoint nodes_in (t : tree R V) : Z := match t with Leaf _ => 1 | Split _ _ l r => 1 + nodes_in l + nodes_in r end.
  Fixpoint splits_in (t : tree R V) : Z := match t with Leaf _ => 0 | Split _ _ l r => 1 + splits_in l + splits_in r end.
  (** features below [n], rules and leaf values of some kind *)
  Fixpoint made_of (n : Z) (ok_rule : R -> Prop) (ok_value : V -> Prop) (t : tree R V) : Prop :=
    match t with
    | Leaf v => ok_value v
    | Split f rule l r => 0 <= f < n /\ ok_rule rule /\ made_of n ok_rule ok_value l /\ made_of n ok_rule ok_value r
    end.
End Tree.

(** the values that the first [n] trees of group [k] of [g] give *)
Definition values_of {R V} (goes_left : R -> f64 -> bool) (value : V -> f64) (ts : list (tree R V)) (g k n : Z) (x vs : list f64) : Prop :=
  zlen vs = n /\ forall i, 0 <= i < n -> exists t v, zget ts (i * g + k) = Some t /\ value_of goes_left value t x = Some v /\ zget vs i = Some v.

(** ** LightGBM: numbers are written as literals, categories as integers *)
Inductive lrule : Type :=
| LNumber (m : missing) (default_left : bool) (threshold : bytes)
| LCategories (m : missing) (categories : list Z).
Definition lit_value (p : platform) (lit : bytes) : f64 := match pl_parse_float p lit with Some v => v | None => fzero end.
Definition lrule_left (p : platform) (r : lrule) : f64 -> bool :=
  match r with
  | LNumber m dl thr => numeric_left m dl (lit_value p thr)
  | LCategories m cats => category_left (f2i32 p) m (fun k => existsb (Z.eqb k) cats)
  end.
(** the largest number of 32-bit words the sets of categories can take *)
Fixpoint words_in {V} (t : tree lrule V) : Z :=
  match t with
  | Leaf _ => 0
  | Split _ r l r' => match r with LNumber _ _ _ => 0 | LCategories _ cats => 1 + fold_right Z.max 0 cats / 32 end + words_in l + words_in r'
  end.
Fixpoint depth_of {R V} (t : tree R V) : Z := match t with Leaf _ => 1 | Split _ _ l r => 1 + Z.max (depth_of l) (depth_of r) end.
