(** * float64 on the standard library's executable IEEE-754 specification.

    Models the Go language's float64/float32 types and conversions.  NaN is a
    single value (Go code of this repository never inspects NaN payloads). *)

From Coq Require Import ZArith Bool.
From Coq Require Import Floats.SpecFloat.
From Verif Require Import Go.

Definition f64 : Type := spec_float.

Definition fadd : f64 -> f64 -> f64 := SFadd 53 1024.
Definition fsub : f64 -> f64 -> f64 := SFsub 53 1024.
Definition fmul : f64 -> f64 -> f64 := SFmul 53 1024.
Definition fdiv : f64 -> f64 -> f64 := SFdiv 53 1024.
Definition fneg : f64 -> f64 := SFopp.
Definition fabs : f64 -> f64 := SFabs.
(** [a <= b], [a < b], [a > b], [a == b]; all false on NaN *)
Definition fle (a b : f64) : bool := SFleb a b.
Definition flt (a b : f64) : bool := SFltb a b.
Definition fgt (a b : f64) : bool := SFltb b a.
Definition feq (a b : f64) : bool := SFeqb a b.

Definition fzero : f64 := S754_zero false.
Definition fone : f64 := S754_finite false 4503599627370496 (-52).
Definition fnan : f64 := S754_nan.
Definition finf : f64 := S754_infinity false.

(** math.IsNaN *)
Definition is_nan (x : f64) : bool := match x with S754_nan => true | _ => false end.

(** representable binary64 values *)
Definition valid64 (x : f64) : bool := valid_binary 53 1024 x.

(** float64(i) for an integer i: rounded to nearest even *)
Definition f64_of_Z (z : Z) : f64 := binary_normalize 53 1024 z 0 false.

(** integer part (truncation towards zero) of a finite value *)
Definition trunc (x : f64) : option Z :=
  match x with
  | S754_zero _ => Some 0
  | S754_finite s m e =>
      let a := if 0 <=? e then Z.pos m * 2 ^ e else Z.pos m / 2 ^ (- e) in
      Some (if s then - a else a)
  | _ => None
  end.

(** math.Float64frombits *)
Definition f64_of_bits (bits : Z) : f64 :=
  let s := 0 <? bits / 2 ^ 63 in
  let ex := (bits / 2 ^ 52) mod 2048 in
  let fr := bits mod 2 ^ 52 in
  if ex =? 2047 then (if fr =? 0 then S754_infinity s else S754_nan)
  else if ex =? 0 then
    match fr with
    | Z.pos m => S754_finite s m (-1074)
    | _ => S754_zero s
    end
  else
    match fr + 2 ^ 52 with
    | Z.pos m => S754_finite s m (ex - 1075)
    | _ => S754_nan
    end.

(** float64(x) of a float32 given by its bit pattern: exact widening *)
Definition f64_of_f32bits (bits : Z) : f64 :=
  let s := 0 <? bits / 2 ^ 31 in
  let ex := (bits / 2 ^ 23) mod 256 in
  let fr := bits mod 2 ^ 23 in
  if ex =? 255 then (if fr =? 0 then S754_infinity s else S754_nan)
  else if ex =? 0 then
    match fr with
    | Z.pos m => binary_round 53 1024 s m (-149)
    | _ => S754_zero s
    end
  else
    match fr + 2 ^ 23 with
    | Z.pos m => binary_round 53 1024 s m (ex - 150)
    | _ => S754_nan
    end.

(** ** What Go leaves to the platform or to packages outside the repository

    Every theorem quantifies over a [platform]; no field is an axiom. *)
Record platform : Type := mkPlatform {
  (** int32(x) for x NaN or out of range: implementation-dependent (Go spec,
      "Conversions between numeric types") *)
  pl_f2i32 : f64 -> Z;
  (** uint32(x) for x NaN or out of range *)
  pl_f2u32 : f64 -> Z;
  (** math.Exp *)
  pl_exp : f64 -> f64;
  (** runtime.GOMAXPROCS(0) *)
  pl_gomaxprocs : Z;
  (** largest element count [make] can allocate *)
  pl_maxalloc : Z;
  (** strconv.ParseFloat(s, 64); None on error *)
  pl_parse_float : list Byte.byte -> option f64;
  (** fmt.Fprintf("%.19g", x) *)
  pl_print_float : f64 -> list Byte.byte;
  (** capacity of the new backing array when append outgrows capacity [c] and [n] elements are
      needed (at least [n]; the larger of the two is taken) *)
  pl_grow : Z -> Z -> Z
}.

(** int32(x) *)
Definition f2i32 (p : platform) (x : f64) : Z :=
  match trunc x with
  | Some z => if (- two31 <=? z) && (z <? two31) then z else s32 (pl_f2i32 p x)
  | None => s32 (pl_f2i32 p x)
  end.

(** uint32(x) *)
Definition f2u32 (p : platform) (x : f64) : Z :=
  match trunc x with
  | Some z => if (0 <=? z) && (z <? two32) then z else u32 (pl_f2u32 p x)
  | None => u32 (pl_f2u32 p x)
  end.
