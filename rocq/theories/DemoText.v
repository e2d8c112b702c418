(** * A concrete decimal number reader

    Used only in examples, refutation witnesses and comparisons with the files of
    /repo/testdata; the theorems quantify over the platform's ParseFloat. *)

From Coq Require Import ZArith List Bool String.
From Coq Require Import Floats.SpecFloat.
From Verif Require Import Go GoFloat GoText Demo.

(** digits, their number and the unread rest *)
Fixpoint take_digits (s : bytes) (acc n : Z) : Z * Z * bytes :=
  match s with
  | c :: s' => match digit c with Some d => take_digits s' (10 * acc + d) (n + 1) | None => (acc, n, s) end
  | [] => (acc, n, [])
  end.

(** [m * 10^e] rounded to nearest even: the quotient keeps at least 64 bits and a sticky bit *)
Definition dec_round (m e : Z) : f64 :=
  if m =? 0 then S754_zero false
  else if 0 <=? e then binary_normalize 53 1024 (m * 10 ^ e) 0 false
  else
    let den := 10 ^ (- e) in
    let k := Z.max 0 (66 + Z.log2 den - Z.log2 m) in
    let num := m * 2 ^ k in
    binary_normalize 53 1024 (2 * (num / den) + (if num mod den =? 0 then 0 else 1)) (- k - 1) false.

Definition dec_unsigned (s : bytes) : option f64 :=
  let '(ip, n1, r) := take_digits s 0 0 in
  let '(m, n2, r) := match r with
                     | "."%byte :: r' => let '(fp, n2, r) := take_digits r' ip 0 in (fp, n2, r)
                     | _ => (ip, 0, r)
                     end in
  if n1 + n2 =? 0 then None
  else match r with
       | [] => Some (dec_round m (- n2))
       | c :: r' =>
           if Byte.eqb c "e" || Byte.eqb c "E" then
             match parse_signed r' with Some x => Some (dec_round m (x - n2)) | None => None end
           else None
       end.

Definition dec_special (s : bytes) : option f64 :=
  if beqb s (bs "inf") || beqb s (bs "Inf") || beqb s (bs "infinity") then Some finf
  else if beqb s (bs "nan") || beqb s (bs "NaN") then Some fnan
  else dec_unsigned s.

(** strconv.ParseFloat on plain decimal numerals; a result out of range is an error *)
Definition dec_parse (s : bytes) : option f64 :=
  match s with
  | "-"%byte :: s' => option_map fneg (dec_special s')
  | "+"%byte :: s' => dec_special s'
  | _ => dec_special s
  end.

Definition with_parse (p : platform) : platform :=
  mkPlatform (pl_f2i32 p) (pl_f2u32 p) (pl_exp p) (pl_gomaxprocs p) (pl_maxalloc p) dec_parse (pl_print_float p) (pl_grow p).
Definition amd64_text : platform := with_parse amd64.

(** lines of a file *)
Definition file (lines : list string) : bytes := List.concat (map (fun l => bs l ++ [nl]) lines).

Example dec_parse_examples :
  map dec_parse [bs "0.1"; bs "-25"; bs "1.5e3"; bs "1e-320"; bs "x"; bs "1e23"] =
  [Some (S754_finite false 7205759403792794 (-56)); Some (S754_finite true 7036874417766400 (-48));
   Some (S754_finite false 6597069766656000 (-42)); Some (S754_finite false 2024 (-1074)); None;
   Some (S754_finite false 5960464477539062 24)].
Proof. vm_compute. reflexivity. Qed.
