(** * Model of package mat: matrices (/repo/mat/mat.go) *)

From Coq Require Import ZArith List Bool String.
From Verif Require Import Go GoFloat GoText Ensembles XgBin.
Local Open Scope Z_scope.

(** mat.go:12-16.  The backing array is not shared with anything, so a list will do. *)
Record DenseMat : Type := mkDense { dmValues : list f64; dmCols : Z; dmRows : Z }.
Definition noDense : DenseMat := mkDense [] 0 0.

(** mat.go:19-25 *)
Definition DenseMatZero (p : platform) (rows cols : Z) : outcome DenseMat :=
  let* values := make_f64 p (s64 (rows * cols)) in Ok (mkDense values cols rows).

(** mat.go:29-38 *)
Definition DenseMatFromArray (values : list f64) (rows cols : Z) : outcome DenseMat :=
  if negb (zlen values =? s64 (cols * rows)) then Err "wrong dimensions" else Ok (mkDense values cols rows).

(** mat.go:41-45 *)
Record CSRMat : Type := mkCSR { cmRowHeaders : list Z; cmColIndexes : list Z; cmValues : list f64 }.
Definition noCSR : CSRMat := mkCSR [] [] [].

(** mat.go:48-53 *)
Definition CSRMat_Rows (m : CSRMat) : Z :=
  if zlen (cmRowHeaders m) =? 0 then 0 else zlen (cmRowHeaders m) - 1.

(** mat.go:57-74.  The two makes only reserve capacity; a negative one panics. *)
Definition CSRMatFromArray (p : platform) (values : list f64) (rows cols : Z) : outcome CSRMat :=
  if negb (zlen values =? s64 (cols * rows)) then Err "wrong dimensions" else
  let* _ := make_check p (zlen values) in
  let* _ := make_check p (s64 (rows + 1)) in
  let (headers, indexes) :=
    fold_left (fun acc (i : Z) => let (headers, indexes) := acc : list Z * list Z in (headers ++ [zlen indexes], indexes ++ zseq cols))
              (zseq rows) ([], []) in
  Ok (mkCSR (headers ++ [zlen indexes]) indexes values).
