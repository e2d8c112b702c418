(** * Model of the floating point helpers of /repo/util/util.go *)

From Coq Require Import ZArith List Bool String.
From Verif Require Import Go GoFloat GoText Cmd.

(** util/util.go:220-222 AlmostEqualFloat64 *)
Definition AlmostEqualFloat64 (a b threshold : f64) : bool :=
  fle (fabs (fsub a b)) threshold.

(** util/util.go:228-232: the comparison loop, [i]-th elements pairwise *)
Fixpoint almostEqual_loop (a b : list f64) (threshold : f64) : outcome unit :=
  match a, b with
  | x :: a', y :: b' =>
      if fgt (fabs (fsub x y)) threshold then Err "element mismatch"
      else almostEqual_loop a' b' threshold
  | _, _ => Ok tt
  end.

(** util/util.go:224-234 AlmostEqualFloat64Slices *)
Definition AlmostEqualFloat64Slices (a b : list f64) (threshold : f64) : outcome unit :=
  if negb (zlen a =? zlen b) then Err "different sizes"
  else almostEqual_loop a b threshold.

(** util/util.go:240-245: the counting loop *)
Fixpoint numMismatched_loop (a b : list f64) (threshold : f64) (count : Z) : Z :=
  match a, b with
  | x :: a', y :: b' =>
      numMismatched_loop a' b' threshold
        (if fgt (fabs (fsub x y)) threshold then count + 1 else count)
  | _, _ => count
  end.

(** util/util.go:236-247 NumMismatchedFloat64Slices *)
Definition NumMismatchedFloat64Slices (a b : list f64) (threshold : f64) : outcome Z :=
  if negb (zlen a =? zlen b) then Err "different sizes"
  else Ok (numMismatched_loop a b threshold 0).

(** util/util.go:250-252 Sigmoid *)
Definition Sigmoid (p : platform) (x : f64) : f64 :=
  fdiv fone (fadd fone (pl_exp p (fneg x))).

(** util/util.go:255-259 SigmoidFloat64SliceInplace *)
Definition SigmoidFloat64SliceInplace (p : platform) (vec : list f64) : list f64 :=
  map (Sigmoid p) vec.

(** util/util.go:262-267: [sum] accumulated over the raw values *)
Definition softmax_sum (p : platform) (rawValues : list f64) : f64 :=
  fold_left (fun sum v => fadd sum (pl_exp p v)) rawValues fzero.

(** util/util.go:261-274 SoftmaxFloat64Slice; [sum != 0.0] is true for NaN *)
Definition SoftmaxFloat64Slice (p : platform) (rawValues : list f64) (startIndex : Z)
  : list cmd :=
  let n := zlen rawValues in
  let sum := softmax_sum p rawValues in
  map (fun iv => CSet (startIndex + fst iv) (pl_exp p (snd iv)))
      (combine (zseq n) rawValues)
  ++ (if negb (feq sum fzero) then
        let inv_sum := fdiv fone sum in
        map (fun i => CMul i inv_sum) (zrange startIndex (startIndex + n))
      else []).
