(** * Model of Transform on slices that share memory (/repo/transformation, /repo/util/util.go)

    As in Shared.v there is one memory; [rawPredictions] is its cells [roff .. roff+rlen-1],
    [outputPredictions] its cells [poff .. poff+plen-1].  Every element of [rawPredictions] is
    read at the moment the loop reaches it. *)

From Coq Require Import ZArith List Bool String.
From Verif Require Import Go GoFloat GoText Cmd UtilBits UtilMath LgTree Transformation Ensembles Leaves Concurrent Shared.
Local Open Scope Z_scope.

(** util/util.go:263-267: one iteration; [sum] is the local variable *)
Definition softmax_step_s (p : platform) (roff rlen poff plen startIndex : Z) (st : list f64 * f64) (i : Z) : outcome (list f64 * f64) :=
  let (mem, sum) := st in
  let* v := at_ (window mem roff rlen) i in
  let exp := pl_exp p v in
  let* w := set_at (window mem poff plen) (startIndex + i) exp in
  Ok (splice mem poff plen w, fadd sum exp).

(** util/util.go:261-274 SoftmaxFloat64Slice *)
Definition SoftmaxFloat64Slice_s (p : platform) (roff rlen poff plen startIndex : Z) (mem : list f64) : outcome (list f64) :=
  let* st := foldM (softmax_step_s p roff rlen poff plen startIndex) (zseq rlen) (mem, fzero) in
  let (mem, sum) := st : list f64 * f64 in
  if negb (feq sum fzero) then
    let inv_sum := fdiv fone sum in
    foldM (fun mem i => let* w := exec1 (CMul i inv_sum) (window mem poff plen) in Ok (splice mem poff plen w)) (zrange startIndex (startIndex + rlen)) mem
  else Ok mem.

(** raw.go:8-10 and leaf_index.go:10-12 *)
Definition copy_s (roff rlen poff plen startIndex : Z) (mem : list f64) : outcome (list f64) :=
  foldM (fun mem i => let* v := at_ (window mem roff rlen) i in
                      let* w := set_at (window mem poff plen) (startIndex + i) v in Ok (splice mem poff plen w)) (zseq rlen) mem.

(** raw.go:7-12, logistic.go:11-18, softmax.go:13-20, leaf_index.go:7-14, exponential.go:10-17 Transform *)
Definition Transform_s (p : platform) (t : transform) (roff rlen poff plen startIndex : Z) (mem : list f64) : outcome (list f64) :=
  match t with
  | TransformRaw _ => copy_s roff rlen poff plen startIndex mem
  | TransformLeafIndex _ => copy_s roff rlen poff plen startIndex mem
  | TransformLogistic =>
      if negb (rlen =? 1) then Err "expected len(rawPredictions) = 1"
      else let* r := at_ (window mem roff rlen) 0 in
           let* w := set_at (window mem poff plen) startIndex (Sigmoid p r) in Ok (splice mem poff plen w)
  | TransformExponential =>
      if negb (rlen =? 1) then Err "expected len(rawPredictions) = 1"
      else let* r := at_ (window mem roff rlen) 0 in
           let* w := set_at (window mem poff plen) startIndex (pl_exp p r) in Ok (splice mem poff plen w)
  | TransformSoftmax n =>
      if negb (rlen =? n) then Err "expected len(rawPredictions) = NClasses"
      else SoftmaxFloat64Slice_s p roff rlen poff plen startIndex mem
  end.
