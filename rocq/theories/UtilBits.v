(** * Model of the bit manipulation in /repo/util/util.go *)

From Coq Require Import ZArith List Bool.
From Verif Require Import Go GoFloat.

(** util/util.go:13-18 FindInBitsetUint32 *)
Definition FindInBitsetUint32 (bits pos : Z) : bool :=
  if 32 <=? pos then false else 0 <? Z.land (Z.shiftr bits pos) 1.

(** util/util.go:20-25 MinInt *)
Definition MinInt (a b : Z) : Z := if a <? b then a else b.

(** util/util.go:162-165 multiplyDeBruijnBitPosition *)
Definition multiplyDeBruijnBitPosition : list Z :=
  [0; 1; 28; 2; 29; 14; 24; 3; 30; 22; 20; 15; 25; 17; 4; 8;
   31; 27; 13; 23; 21; 19; 16; 7; 26; 12; 18; 6; 11; 5; 10; 9].

(** util/util.go:168-177 FirstNonZeroBit: the loop over the words, [pos] being
    the running uint32 position *)
Fixpoint FirstNonZeroBit_loop (bitset : list Z) (pos : Z) : outcome Z :=
  match bitset with
  | [] => Err "no bits set"
  | e :: rest =>
      if 0 <? e then
        let* d := at_ multiplyDeBruijnBitPosition
                      (Z.shiftr (u32 (Z.land e (u32 (- e)) * 125613361)) 27) in
        Ok (u32 (pos + d))
      else FirstNonZeroBit_loop rest (u32 (pos + 32))
  end.
Definition FirstNonZeroBit (bitset : list Z) : outcome Z := FirstNonZeroBit_loop bitset 0.

(** util/util.go:181-185 numberOfSetBitsInBitsetElement; every uint32 operation wraps.
    0x55555555 = 1431655765, 0x33333333 = 858993459, 0x0F0F0F0F = 252645135,
    0x01010101 = 16843009 *)
Definition numberOfSetBitsInBitsetElement (e : Z) : Z :=
  let e := u32 (e - Z.land (Z.shiftr e 1) 1431655765) in
  let e := u32 (Z.land e 858993459 + Z.land (Z.shiftr e 2) 858993459) in
  Z.shiftr (u32 (Z.land (u32 (e + Z.shiftr e 4)) 252645135 * 16843009)) 24.

(** util/util.go:180-191 NumberOfSetBits *)
Definition NumberOfSetBits (bitset : list Z) : Z :=
  fold_left (fun count e => u32 (count + numberOfSetBitsInBitsetElement e)) bitset 0.

(** util/util.go:194-218 ConstructBitset.  Go division and remainder truncate
    towards zero ([Z.quot], [Z.rem]); [1 << uint32(i2)] on a uint32 operand is 0
    for shift counts >= 32; [make] panics on lengths that cannot be allocated. *)
Definition ConstructBitset (p : platform) (values : list Z) : outcome (list Z) :=
  match values with
  | [] => Ok []
  | v0 :: _ =>
      let max := fold_left (fun m v => if m <? v then v else m) values v0 in
      let max := s64 (max + 1) in
      let nBitsetValues := Z.quot max 32 in
      let nBitsetValues := if Z.rem max 32 =? 0 then nBitsetValues else nBitsetValues + 1 in
      if (nBitsetValues <? 0) || (pl_maxalloc p <? nBitsetValues) then Panic "makeslice: len out of range" else
      foldM (fun bitset v =>
               let i1 := Z.quot v 32 in
               let i2 := u32 (Z.rem v 32) in
               let* w := at_ bitset i1 in
               set_at bitset i1 (Z.lor w (if i2 <? 32 then Z.shiftl 1 i2 else 0)))
            values (repeat 0 (Z.to_nat nBitsetValues))
  end.
