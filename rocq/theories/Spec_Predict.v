(** * Vocabulary for the statements about prediction

    Small, independent descriptions used by the property theorems.  They mention the
    API (accessors, stored slices) only. *)

From Coq Require Import ZArith List Bool String.
From Verif Require Import Go GoFloat Cmd LgTree Transformation Ensembles Leaves Parallel.

(** the model below any number of raw / leaf-index views *)
Fixpoint core (b : base) : base :=
  match b with BEnsemble b _ => core b | _ => b end.

Definition is_tree_model (e : Ensemble) : Prop :=
  match core (eBase e) with BLinear _ => False | _ => True end.

Definition model_trees (e : Ensemble) : list lgTree :=
  match core (eBase e) with BLg m => lgTrees m | BXg m => xgTrees m | _ => [] end.

(** An ensemble as the loaders and views build it: at least one raw group, sizes a Go
    program can hold, and the output arity recorded in raw and leaf-index
    transformations the one of the model. *)
Definition well_formed (e : Ensemble) : Prop :=
  1 <= NRawOutputGroups e <= MaxInt /\
  zlen (model_trees e) <= MaxInt /\
  match eTransform e with
  | TransformRaw n => n = NRawOutputGroups e
  | TransformLeafIndex n => exists k, NEstimators e = Ok k /\ n = NRawOutputGroups e * k
  | TransformSoftmax n => 0 <= n
  | _ => True
  end.

(** The transformation can be applied to what the model produces. *)
Definition arity_accepted (e : Ensemble) : Prop :=
  match eTransform e with
  | TransformRaw _ => True
  | TransformLogistic | TransformExponential => NRawOutputGroups e = 1
  | TransformSoftmax n => n = NRawOutputGroups e
  | TransformLeafIndex _ => is_tree_model e
  end.

(** leaf-index output requested *)
Definition wants_leaves (e : Ensemble) : Prop :=
  exists n, eTransform e = TransformLeafIndex n.

(** [row] is row [i] of the row-major matrix [vals] with [ncols] columns *)
Definition is_dense_row (vals : list f64) (ncols i : Z) (row : list f64) : Prop :=
  zlen row = ncols /\ forall k, 0 <= k < ncols -> zget row k = zget vals (i * ncols + k).

(** what an absent column of a sparse row stands for *)
Definition missing_value (e : Ensemble) : f64 :=
  match core (eBase e) with BXg _ => fnan | _ => fzero end.

(** [row] is row [i] of the CSR matrix as a dense vector of [n] columns: the last stored
    entry of a column counts, columns without entry hold [missing], entries with larger
    columns are dropped *)
Definition is_csr_row (indptr cols : list Z) (vals : list f64) (n : Z) (missing : f64)
  (i : Z) (row : list f64) : Prop :=
  exists start end_,
    zget indptr i = Some start /\ zget indptr (i + 1) = Some end_ /\
    zlen row = n /\
    forall c, 0 <= c < n ->
      (forall j, start <= j < end_ -> zget cols j = Some c ->
         (forall j', j < j' < end_ -> zget cols j' <> Some c) -> zget row c = zget vals j) /\
      ((forall j, start <= j < end_ -> zget cols j <> Some c) -> zget row c = Some missing).

(** the [n] cells of [m] from [i * n] on hold [out] *)
Definition holds_row (m : list f64) (n i : Z) (out : list f64) : Prop :=
  forall k, 0 <= k < n -> zget m (i * n + k) = zget out k.

(** the same platform with another GOMAXPROCS *)
Definition with_gomaxprocs (p : platform) (g : Z) : platform :=
  mkPlatform (pl_f2i32 p) (pl_f2u32 p) (pl_exp p) g (pl_maxalloc p)
             (pl_parse_float p) (pl_print_float p) (pl_grow p).

(** [n] consecutive steps of the goroutine machine *)
Inductive nsteps {L : Type} (j : job L) : nat -> config L -> config L -> Prop :=
| nsteps_O : forall c, nsteps j O c c
| nsteps_S : forall n c1 c2 c3, step j c1 c2 -> nsteps j n c2 c3 -> nsteps j (S n) c1 c3.

(** the cell of [predictions] a goroutine is about to load or store *)
Definition about_to_access {L : Type} (wk : worker L) : option Z :=
  match wk with
  | WCmd _ _ _ _ (CSet i _ :: _) => Some i
  | WCmd _ _ _ _ (CAdd i _ :: _) => Some i
  | WCmd _ _ _ _ (CMul i _ :: _) => Some i
  | _ => None
  end.

(** every execution from [c] is finite, never crashes and never gets stuck before the
    call has returned *)
Definition always_completes {L : Type} (j : job L) (c0 : config L) : Prop :=
  (exists bound, forall n c, nsteps j n c0 c -> (n <= bound)%nat) /\
  (forall c, steps j c0 c ->
     (exists s, c = Running s) /\ ((exists m, returned c m) \/ exists c', step j c c')).

(** the entries of row [i] of a CSR matrix can be read *)
Definition csr_row_readable (indptr cols : list Z) (vals : list f64) (i : Z) : Prop :=
  exists start end_, zget indptr i = Some start /\ zget indptr (i + 1) = Some end_ /\
    forall j, start <= j < end_ -> 0 <= j < zlen vals /\ exists c, zget cols j = Some c /\ 0 <= c.

(** the documented reasons for rejecting a call: fewer output cells than needed, fewer
    features than needed, leaf indices of only some of the estimators *)
Definition partial_leaves (e : Ensemble) (nEstimators : Z) : Prop :=
  wants_leaves e /\ exists k, NEstimators e = Ok k /\ 0 < nEstimators < k.

(** ** Values *)

(** the number of estimators a call uses: all of them unless a smaller positive number
    is asked for (a linear model has one) *)
Definition used_estimators (e : Ensemble) (nEstimators n : Z) : Prop :=
  exists k, NEstimators e = Ok k /\
    ((0 < nEstimators < k /\ n = nEstimators) \/ (~ 0 < nEstimators < k /\ n = k)).

(** [vs] are the outputs, for [fvals], of the first [n] trees of group [k] when the trees
    of [g] groups are stored estimator by estimator *)
Definition tree_outputs (p : platform) (trees : list lgTree) (g k n : Z) (fvals vs : list f64) : Prop :=
  zlen vs = n /\
  forall i, 0 <= i < n -> exists t v leaf,
    zget trees (i * g + k) = Some t /\ predict p t fvals = Ok (v, leaf) /\ zget vs i = Some v.

(** left-to-right IEEE sum *)
Definition sum_from (x : f64) (terms : list f64) : f64 := fold_left fadd terms x.
