(** * Properties of the bitset utilities (C25, C26, C27) *)

From Coq Require Import ZArith List Bool String Lia ZifyBool.
From Verif Require Import Go GoFloat UtilBits Spec_Bits Pf_Go Pf_Bits Demo.

(** ** C25 *)
Theorem C25_number_of_set_bits :
  forall bitset, Forall word bitset -> NumberOfSetBits bitset = count_bits bitset mod 2 ^ 32.
Proof.
  intros l H. unfold NumberOfSetBits. change 0 with (u32 0) at 1. rewrite set_bits_fold by auto. reflexivity.
Qed.
Print Assumptions C25_number_of_set_bits.

Example C25_case :
  Forall word [7; 0; 2 ^ 32 - 1] /\ count_bits [7; 0; 2 ^ 32 - 1] = 35 /\ NumberOfSetBits [7; 0; 2 ^ 32 - 1] = 35.
Proof. split; [repeat constructor; vm_compute; discriminate|]. split; vm_compute; reflexivity. Qed.

(** ** C26 *)
Theorem C26_first_non_zero_bit :
  forall bitset, Forall word bitset -> zlen bitset < 2 ^ 27 ->
  ((exists m, FirstNonZeroBit bitset = Err m) <-> forall k, 0 <= k -> bit bitset k = false) /\
  (forall k, FirstNonZeroBit bitset = Ok k <->
             0 <= k /\ bit bitset k = true /\ forall j, 0 <= j < k -> bit bitset j = false) /\
  (forall m, FirstNonZeroBit bitset <> Panic m).
Proof.
  intros l H Hl. pose proof (zlen_nonneg _ l).
  destruct (first_bit_loop l 0 H ltac:(lia)) as [[E Hz]|(k & E & Hk & Hb & Hlow)].
  { change (2 ^ 32) with (32 * 2 ^ 27). lia. }
  - unfold FirstNonZeroBit. rewrite E. split; [|split].
    + split; eauto.
    + intros k. split; [discriminate|]. intros (Hk & Hb & _). rewrite Hz in Hb by auto. discriminate.
    + discriminate.
  - unfold FirstNonZeroBit. rewrite E, Z.add_0_l. split; [|split].
    + split; [intros [m Hm]; discriminate|]. intros Hz. rewrite Hz in Hb by auto. discriminate.
    + intros k'. split.
      * intros He. injection He as <-. auto.
      * intros (Hk' & Hb' & Hlow'). f_equal.
        destruct (Z.lt_trichotomy k k') as [L|[L|L]]; auto.
        -- rewrite Hlow' in Hb by lia. discriminate.
        -- rewrite Hlow in Hb' by lia. discriminate.
    + discriminate.
Qed.
Print Assumptions C26_first_non_zero_bit.

Example C26_case :
  FirstNonZeroBit [0; 0; 40] = Ok 67 /\ bit [0; 0; 40] 67 = true /\ bit [0; 0; 40] 69 = true /\ bit [0; 0; 40] 66 = false.
Proof. repeat split; vm_compute; reflexivity. Qed.

(** ** C27 *)
Theorem C27_construct_bitset :
  forall p values,
  Forall (fun v => 0 <= v < MaxInt /\ v / 32 < pl_maxalloc p) values ->
  exists bitset, ConstructBitset p values = Ok bitset /\ Forall word bitset /\
    (forall k, 0 <= k -> (bit bitset k = true <-> In k values)) /\
    (* just enough words: word i exists iff some value is in it or in a later word *)
    (forall i, 0 <= i -> (i < zlen bitset <-> exists v, In v values /\ 32 * i <= v)).
Proof.
  intros p values H. destruct values as [|v0 vs].
  - exists []. split; auto. split; auto. split.
    + intros k _. rewrite bit_nil. split; [discriminate|intros []].
    + intros i Hi. rewrite zlen_nil. split; [lia|intros (v & [] & _)].
  - unfold ConstructBitset.
    destruct (fold_max (v0 :: vs) v0) as (M1 & M2 & M3). set (max := fold_left _ (v0 :: vs) v0) in *.
    assert (Hin : In max (v0 :: vs)) by (destruct M3 as [->|]; simpl; auto).
    pose proof H as HF. rewrite Forall_forall in H. destruct (H max Hin) as [Hr Ha].
    cbv zeta. rewrite (s64_id (max + 1)) by (unfold MaxInt, two63 in *; lia).
    pose proof (quot_ceil (max + 1) ltac:(lia)) as Q. cbv zeta in Q.
    set (n := if Z.rem (max + 1) 32 =? 0 then Z.quot (max + 1) 32 else Z.quot (max + 1) 32 + 1) in *.
    assert (Hn : n = max / 32 + 1).
    { pose proof (Z.div_mod max 32). pose proof (Z.mod_pos_bound max 32). lia. }
    replace ((n <? 0) || (pl_maxalloc p <? n)) with false by lia.
    assert (Hl : zlen (repeat 0 (Z.to_nat n)) = n) by (rewrite zlen_repeat; lia).
    assert (Hw : Forall word (repeat 0 (Z.to_nat n))).
    { apply Forall_forall. intros x Hx. apply repeat_spec in Hx. subst. split; [lia|reflexivity]. }
    destruct (set_bits_ok (v0 :: vs) (repeat 0 (Z.to_nat n)) Hw) as [bs E].
    { apply Forall_forall. intros v Hv. rewrite Hl. specialize (H v Hv). specialize (M2 v Hv).
      unfold MaxInt in H. lia. }
    destruct (set_bits_loop (v0 :: vs) (repeat 0 (Z.to_nat n)) bs Hw) as (W & L & B).
    { apply Forall_forall. intros v Hv. specialize (H v Hv). unfold MaxInt, two63 in *. lia. }
    { exact E. }
    exists bs. split; [exact E|]. split; auto. split.
    + intros k Hk. rewrite B by auto.
      assert (Hz : bit (repeat 0 (Z.to_nat n)) k = false).
      { apply bit_zeros. }
      rewrite Hz. intuition discriminate.
    + intros i Hi. rewrite L, Hl, Hn. split.
      * intros Hlt. exists max. split; auto. pose proof (Z.div_mod max 32). pose proof (Z.mod_pos_bound max 32). lia.
      * intros (v & Hv & Hle). specialize (M2 v Hv).
        assert (i <= max / 32) by (apply Z.div_le_lower_bound; lia). lia.
Qed.
Print Assumptions C27_construct_bitset.

(** negative values: either a panic, or nothing but the non-negative values is in the set *)
Theorem C27_negative_values :
  forall p values bitset,
  Forall (fun v => - two63 <= v < two63) values -> ConstructBitset p values = Ok bitset ->
  Forall word bitset /\ forall k, 0 <= k -> (bit bitset k = true <-> In k values).
Proof.
  intros p values bs Hr H. destruct values as [|v0 vs].
  - injection H as <-. split; auto. intros k _. rewrite bit_nil. split; [discriminate|intros []].
  - unfold ConstructBitset in H. cbv zeta in H.
    match type of H with (if ?c then _ else _) = _ => destruct c; [discriminate|] end.
    apply set_bits_loop in H; auto.
    + destruct H as (W & L & B). split; auto. intros k Hk. rewrite B by auto.
      match goal with |- bit ?l k = true \/ _ <-> _ => assert (Hz : bit l k = false) end.
      { apply bit_zeros. }
      rewrite Hz. intuition discriminate.
    + apply Forall_forall. intros x Hx. apply repeat_spec in Hx. subst. split; [lia|reflexivity].
Qed.
Print Assumptions C27_negative_values.

Example C27_case : ConstructBitset amd64 [3; 40; 0; 40] = Ok [9; 256].
Proof. vm_compute. reflexivity. Qed.
Example C27_case_negative_panics : ConstructBitset amd64 [3; -40] = Panic "index out of range".
Proof. vm_compute. reflexivity. Qed.
Example C27_case_negative_ignored : ConstructBitset amd64 [3; -4] = Ok [8].
Proof. vm_compute. reflexivity. Qed.
