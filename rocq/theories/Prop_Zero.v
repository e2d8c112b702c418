(** * C89: zero matrices and matrices from arrays *)

From Coq Require Import ZArith List Bool String Lia ZifyBool.
From Verif Require Import Go GoFloat GoText Cmd LgTree Transformation Ensembles XgBin Mat MatIO Spec_Mat Demo Pf_Go Pf_MatRows Prop_Mat.
Local Open Scope Z_scope.

(** a matrix of the given shape, all of whose cells are +0; a panic if there is no memory for it *)
Theorem C89_zero_matrix : forall p rows cols, 0 <= rows -> 0 <= cols -> rows * cols <= MaxInt ->
  (rows * cols <= pl_maxalloc p -> exists m rs, DenseMatZero p rows cols = Ok m /\ dmRows m = rows /\ dmCols m = cols /\
     dense_holds m rs /\ Forall (Forall (fun cell => snd cell = fzero)) rs /\
     DenseMatFromArray (zeros (rows * cols)) rows cols = Ok m) /\
  (pl_maxalloc p < rows * cols -> exists msg, DenseMatZero p rows cols = Panic msg).
Proof.
  intros p rows cols R C M. assert (P : 0 <= rows * cols) by nia. unfold DenseMatZero, make_f64.
  rewrite (s64_id (rows * cols)) by (unfold MaxInt, two63 in *; lia). split.
  - intros A. replace ((rows * cols <? 0) || (pl_maxalloc p <? rows * cols)) with false by lia. cbn [bind].
    assert (L : zlen (zeros (rows * cols)) = rows * cols) by (apply zlen_rep; exact P).
    exists (mkDense (zeros (rows * cols)) cols rows), (cut_rows (zeros (rows * cols)) rows cols).
    split; [reflexivity|]. split; [reflexivity|]. split; [reflexivity|].
    assert (D : dense_holds (mkDense (zeros (rows * cols)) cols rows) (cut_rows (zeros (rows * cols)) rows cols)) by (apply dense_cut; auto).
    split; [exact D|]. split.
    + destruct D as (_ & _ & D). apply Forall_forall. intros row Ir. apply in_zget in Ir. destruct Ir as [i Hi]. destruct (D i row Hi) as [_ V].
      apply Forall_forall. intros [c v] Ic. apply in_zget in Ic. destruct Ic as [k Hk]. specialize (V k c v Hk). cbn [dmValues snd] in *.
      apply zget_in in V. apply repeat_spec in V. exact V.
    + unfold DenseMatFromArray. rewrite L, (Z.mul_comm cols), s64_id by (unfold MaxInt, two63 in *; lia). rewrite Z.eqb_refl. reflexivity.
  - intros A. replace ((rows * cols <? 0) || (pl_maxalloc p <? rows * cols)) with true by lia. cbn [bind]. eexists. reflexivity.
Qed.
Print Assumptions C89_zero_matrix.

(** a matrix that holds some rows is made from its own values again *)
Theorem C89_from_own_values : forall m rows, dense_holds m rows -> zlen (dmValues m) <= MaxInt ->
  DenseMatFromArray (dmValues m) (dmRows m) (dmCols m) = Ok m.
Proof.
  intros [v c r] rows (R & L & _) M. unfold DenseMatFromArray. cbn [dmValues dmRows dmCols] in *. pose proof (zlen_nonneg _ v).
  rewrite L, (Z.mul_comm c), s64_id, Z.eqb_refl by (unfold MaxInt, two63 in *; lia). reflexivity.
Qed.
Print Assumptions C89_from_own_values.

(** the shape is not checked: negative or huge dimensions give a matrix without its cells *)
Theorem C89_shape_unchecked_refuted : exists m1 m2 m3,
  DenseMatZero amd64 (-1) (-1) = Ok m1 /\ dmRows m1 = -1 /\ zlen (dmValues m1) = 1 /\
  DenseMatZero amd64 (2 ^ 32) (2 ^ 32) = Ok m2 /\ dmRows m2 = 2 ^ 32 /\ dmValues m2 = [] /\
  DenseMatFromArray [] (2 ^ 32) (2 ^ 32) = Ok m3 /\ dmRows m3 = 2 ^ 32 /\ dmValues m3 = [].
Proof. do 3 eexists. repeat (split; [vm_compute; reflexivity|]). vm_compute. reflexivity. Qed.
Print Assumptions C89_shape_unchecked_refuted.

Example C89_demo : DenseMatZero amd64 2 3 = Ok (mkDense (zeros 6) 3 2).
Proof. vm_compute. reflexivity. Qed.
