(** * What a decoded value holds *)

From Coq Require Import ZArith List.
From Verif Require Import Go GoFloat GoText Pickle.

(** [holds h v w]: [w] is directly inside [v], for the maps and slices of the heap [h] *)
Inductive holds (h : heap) : val -> val -> Prop :=
| in_tuple : forall l w, In w l -> holds h (VTuple l) w
| in_callable : forall c args, holds h (VReduce c args) c
| in_args : forall c args w, In w args -> holds h (VReduce c args) w
| in_object : forall o args, holds h (VBuild o args) o
| in_state : forall o args, holds h (VBuild o args) args
| in_dict : forall a k w, lookup (dict_at h a) k = Some w -> holds h (VDict a) w
| in_list : forall a len cap w, In w (list_elems h a len) -> holds h (VList a len cap) w.

(** going from a value to one inside it can be continued for ever, which means that some value
    contains itself *)
Definition endless (h : heap) (v : val) : Prop :=
  exists path : nat -> val, path O = v /\ forall n, holds h (path n) (path (S n)).
