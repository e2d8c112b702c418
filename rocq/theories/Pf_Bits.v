(** * Proofs about the bit tricks of util.go *)

From Coq Require Import ZArith List Bool Lia ZifyBool.
From Verif Require Import Go GoFloat UtilBits Spec_Bits Pf_Go.

Lemma testbit_join : forall a b i, 0 <= a < 256 -> 0 <= i ->
  Z.testbit (a + 256 * b) i = if i <? 8 then Z.testbit a i else Z.testbit b (i - 8).
Proof.
  intros a b i Ha Hi. destruct (Z.ltb_spec i 8).
  - rewrite <- (Z.mod_pow2_bits_low (a + 256 * b) 8 i) by lia.
    change (2 ^ 8) with 256. rewrite (Z.mul_comm 256), Z.mod_add, Z.mod_small by lia. auto.
  - replace i with (i - 8 + 8) at 1 by lia. rewrite <- (Z.div_pow2_bits (a + 256 * b) 8 (i - 8)) by lia.
    change (2 ^ 8) with 256. rewrite (Z.mul_comm 256), Z.div_add, Z.div_small by lia. auto.
Qed.

Lemma land_byte : forall x m, 0 <= m < 256 -> 0 <= Z.land x m < 256.
Proof.
  intros x m Hm. split; [apply Z.land_nonneg; lia|].
  assert (Z.land x m = Z.land (Z.land x m) (Z.ones 8)).
  { rewrite <- Z.land_assoc. f_equal. rewrite Z.land_ones by lia. rewrite Z.mod_small; auto; change (2^8) with 256; lia. }
  rewrite H, Z.land_ones by lia. apply Z.mod_pos_bound. lia.
Qed.

Lemma land_join : forall a b m M k, 0 <= a < 256 -> 0 <= m < 2 ^ (8 - k) -> 0 <= k < 8 ->
  Z.land (Z.shiftr (a + 256 * b) k) (m + 256 * M) = Z.land (Z.shiftr a k) m + 256 * Z.land (Z.shiftr b k) M.
Proof.
  intros a b m M k Ha Hm Hk.
  assert (Hm' : 0 <= m < 256).
  { split; [lia|]. assert (2 ^ (8 - k) <= 2 ^ 8) by (apply Z.pow_le_mono_r; lia). change (2^8) with 256 in *. lia. }
  apply Z.bits_inj'. intros i Hi. rewrite testbit_join; [|apply land_byte; auto|auto].
  rewrite !Z.land_spec, Z.shiftr_spec by lia. rewrite testbit_join by lia.
  rewrite testbit_join by lia.
  destruct (Z.ltb_spec i 8).
  - rewrite Z.shiftr_spec by lia. destruct (Z.ltb_spec (i + k) 8); auto.
    assert (Z.testbit m i = false).
    { destruct (Z.eq_dec m 0); [subst; apply Z.bits_0|]. apply Z.bits_above_log2; [lia|].
      apply Z.lt_le_trans with (8 - k); [|lia]. apply Z.log2_lt_pow2; lia. }
    rewrite H1, !andb_false_r. auto.
  - destruct (Z.ltb_spec (i + k) 8); [lia|]. rewrite Z.shiftr_spec by lia. f_equal. f_equal. lia.
Qed.

(** the three steps of the population count *)
Definition s1 (M e : Z) : Z := e - Z.land (Z.shiftr e 1) M.
Definition s2 (M e : Z) : Z := Z.land e M + Z.land (Z.shiftr e 2) M.
Definition s3 (M e : Z) : Z := Z.land (e + Z.shiftr e 4) M.

Lemma s1_join : forall a b M, 0 <= a < 256 -> s1 (85 + 256 * M) (a + 256 * b) = s1 85 a + 256 * s1 M b.
Proof. intros. unfold s1. rewrite land_join; lia. Qed.
Lemma s2_join : forall a b M, 0 <= a < 256 -> s2 (51 + 256 * M) (a + 256 * b) = s2 51 a + 256 * s2 M b.
Proof.
  intros. unfold s2. rewrite land_join by lia.
  pose proof (land_join a b 51 M 0 ltac:(lia) ltac:(lia) ltac:(lia)) as H0. rewrite !Z.shiftr_0_r in H0. lia.
Qed.

Definition popb (a : Z) : Z := zlen (filter (Z.testbit a) (zseq 8)).
Definition nib (a : Z) : Prop := 0 <= a /\ a mod 16 <= 4 /\ a / 16 <= 4.

Lemma s3_join : forall a b M, nib a -> 0 <= b -> b mod 16 <= 4 ->
  s3 (15 + 256 * M) (a + 256 * b) = s3 15 a + 256 * s3 M b.
Proof.
  intros a b M (Ha0 & Ha1 & Ha2) Hb Hb1. unfold s3.
  assert (E : a + 256 * b + Z.shiftr (a + 256 * b) 4 =
              (a + Z.shiftr a 4 + 16 * (b mod 16)) + 256 * (b + Z.shiftr b 4)).
  { rewrite !Z.shiftr_div_pow2 by lia. change (2 ^ 4) with 16.
    assert ((a + 256 * b) / 16 = a / 16 + 16 * b).
    { replace (a + 256 * b) with (a + 16 * b * 16) by lia. rewrite Z.div_add by lia. lia. }
    pose proof (Z.div_mod b 16). lia. }
  rewrite E.
  assert (Hs : 0 <= Z.shiftr a 4 <= 4) by (rewrite Z.shiftr_div_pow2 by lia; change (2^4) with 16; pose proof (Z.div_pos a 16); lia).
  pose proof (Z.div_mod a 16). pose proof (Z.mod_pos_bound b 16). pose proof (Z.mod_pos_bound a 16).
  pose proof (land_join (a + Z.shiftr a 4 + 16 * (b mod 16)) (b + Z.shiftr b 4) 15 M 0 ltac:(lia) ltac:(lia) ltac:(lia)) as L.
  rewrite !Z.shiftr_0_r in L. rewrite L. f_equal.
  change 15 with (Z.ones 4). rewrite !Z.land_ones by lia. change (2 ^ 4) with 16.
  rewrite (Z.mul_comm 16), Z.mod_add by lia. auto.
Qed.

Lemma byte_check : forallb (fun a =>
   let x1 := s1 85 a in let x2 := s2 51 x1 in
   (0 <=? x1) && (x1 <? 256) && (0 <=? x2) && (x2 <? 256) && (x2 mod 16 <=? 4) && (x2 / 16 <=? 4)
   && (s3 15 x2 =? popb a) && (0 <=? popb a) && (popb a <=? 8)) (zseq 256) = true.
Proof. vm_compute. reflexivity. Qed.

Lemma byte_facts : forall a, 0 <= a < 256 ->
  0 <= s1 85 a < 256 /\ 0 <= s2 51 (s1 85 a) < 256 /\ nib (s2 51 (s1 85 a)) /\
  s3 15 (s2 51 (s1 85 a)) = popb a /\ 0 <= popb a <= 8.
Proof.
  intros a Ha. pose proof byte_check as H. rewrite forallb_forall in H. specialize (H a (proj2 (in_zseq 256 a) Ha)).
  cbv zeta in H. rewrite !andb_true_iff, !Z.leb_le, !Z.ltb_lt, Z.eqb_eq in H. unfold nib. intuition lia.
Qed.

Lemma u32_id : forall x, 0 <= x < two32 -> u32 x = x.
Proof. intros. unfold u32. apply Z.mod_small. auto. Qed.

Lemma set_bits_bytes : forall b0 b1 b2 b3,
  0 <= b0 < 256 -> 0 <= b1 < 256 -> 0 <= b2 < 256 -> 0 <= b3 < 256 ->
  numberOfSetBitsInBitsetElement (b0 + 256 * (b1 + 256 * (b2 + 256 * b3))) = popb b0 + popb b1 + popb b2 + popb b3.
Proof.
  intros b0 b1 b2 b3 H0 H1 H2 H3.
  destruct (byte_facts b0 H0) as (A0 & B0 & N0 & C0 & D0).
  destruct (byte_facts b1 H1) as (A1 & B1 & N1 & C1 & D1).
  destruct (byte_facts b2 H2) as (A2 & B2 & N2 & C2 & D2).
  destruct (byte_facts b3 H3) as (A3 & B3 & N3 & C3 & D3).
  unfold numberOfSetBitsInBitsetElement.
  set (e := b0 + 256 * (b1 + 256 * (b2 + 256 * b3))).
  assert (E1 : e - Z.land (Z.shiftr e 1) 1431655765 = s1 85 b0 + 256 * (s1 85 b1 + 256 * (s1 85 b2 + 256 * s1 85 b3))).
  { change (e - Z.land (Z.shiftr e 1) 1431655765) with (s1 1431655765 e). unfold e.
    change 1431655765 with (85 + 256 * (85 + 256 * (85 + 256 * 85))). rewrite !s1_join by lia. auto. }
  cbv zeta. rewrite E1. rewrite (u32_id (s1 85 b0 + _)) by (unfold two32; lia).
  set (e1 := s1 85 b0 + 256 * (s1 85 b1 + 256 * (s1 85 b2 + 256 * s1 85 b3))).
  assert (E2 : Z.land e1 858993459 + Z.land (Z.shiftr e1 2) 858993459 =
     s2 51 (s1 85 b0) + 256 * (s2 51 (s1 85 b1) + 256 * (s2 51 (s1 85 b2) + 256 * s2 51 (s1 85 b3)))).
  { change (Z.land e1 858993459 + Z.land (Z.shiftr e1 2) 858993459) with (s2 858993459 e1). unfold e1.
    change 858993459 with (51 + 256 * (51 + 256 * (51 + 256 * 51))). rewrite !s2_join by lia. auto. }
  rewrite E2. rewrite (u32_id (s2 51 (s1 85 b0) + _)) by (unfold two32; lia).
  set (y0 := s2 51 (s1 85 b0)) in *. set (y1 := s2 51 (s1 85 b1)) in *.
  set (y2 := s2 51 (s1 85 b2)) in *. set (y3 := s2 51 (s1 85 b3)) in *.
  set (e2 := y0 + 256 * (y1 + 256 * (y2 + 256 * y3))).
  assert (M : forall a b, (a + 256 * b) mod 16 = a mod 16).
  { intros a b. replace (a + 256 * b) with (a + (16 * b) * 16) by lia. apply Z.mod_add. lia. }
  assert (Hbig : u32 (e2 + Z.shiftr e2 4) = e2 + Z.shiftr e2 4).
  { apply u32_id. unfold two32. rewrite Z.shiftr_div_pow2 by lia. change (2^4) with 16. unfold e2.
    destruct N3 as (_ & N3a & N3b).
    assert (y3 <= 68) by (pose proof (Z.div_mod y3 16); lia).
    assert (0 <= (y0 + 256 * (y1 + 256 * (y2 + 256 * y3))) / 16 < 256 * 256 * 256 * 16).
    { split; [apply Z.div_pos; lia|apply Z.div_lt_upper_bound; lia]. }
    lia. }
  rewrite Hbig.
  assert (E3 : Z.land (e2 + Z.shiftr e2 4) 252645135 =
     popb b0 + 256 * (popb b1 + 256 * (popb b2 + 256 * popb b3))).
  { change (Z.land (e2 + Z.shiftr e2 4) 252645135) with (s3 252645135 e2). unfold e2.
    change 252645135 with (15 + 256 * (15 + 256 * (15 + 256 * 15))).
    destruct N1 as (N10 & N11 & N12). destruct N2 as (N20 & N21 & N22). destruct N3 as (N30 & N31 & N32).
    rewrite s3_join; [|auto|lia|rewrite M; auto].
    rewrite s3_join; [|repeat split; auto|lia|rewrite M; auto].
    rewrite s3_join; [|repeat split; auto|lia|auto].
    rewrite C0, C1, C2, C3. auto. }
  rewrite E3. generalize dependent (popb b0). generalize dependent (popb b1).
  generalize dependent (popb b2). generalize dependent (popb b3). intros p3 _ P3 p2 _ P2 p1 _ P1 p0 _ P0 _.
  rewrite Z.shiftr_div_pow2 by lia. unfold u32, two32. change (2 ^ 24) with 16777216.
  replace ((p0 + 256 * (p1 + 256 * (p2 + 256 * p3))) * 16843009)
    with ((p0 + 256 * (p0 + p1) + 65536 * (p0 + p1 + p2) + 16777216 * (p0 + p1 + p2 + p3))
          + (p1 + p2 + p3 + 256 * (p2 + p3) + 65536 * p3) * 4294967296) by lia.
  rewrite Z.mod_add by lia. rewrite Z.mod_small by lia.
  symmetry. apply (Z.div_unique _ _ _ (p0 + 256 * (p0 + p1) + 65536 * (p0 + p1 + p2))); lia.
Qed.

Definition popw (w : Z) : Z := zlen (filter (Z.testbit w) (zseq 32)).

Lemma filter_app_len : forall A (f : A -> bool) a b, zlen (filter f (a ++ b)) = zlen (filter f a) + zlen (filter f b).
Proof. intros. rewrite filter_app, zlen_app. auto. Qed.

Lemma filter_ext_in_len : forall A (f g : A -> bool) l, (forall x, In x l -> f x = g x) -> zlen (filter f l) = zlen (filter g l).
Proof. intros. f_equal. apply filter_ext_in. auto. Qed.

Lemma filter_map_len : forall A B (f : B -> bool) (h : A -> B) l, zlen (filter f (map h l)) = zlen (filter (fun x => f (h x)) l).
Proof. intros. induction l; simpl; auto. destruct (f (h a)); rewrite ?zlen_cons; lia. Qed.

Lemma popw_join : forall n a b, 0 <= n -> 0 <= a < 256 ->
  zlen (filter (Z.testbit (a + 256 * b)) (zseq (8 + n))) = popb a + zlen (filter (Z.testbit b) (zseq n)).
Proof.
  intros n a b Hn Ha. rewrite <- zrange_zseq, (zrange_app 0 8 (8 + n)), filter_app_len by lia.
  rewrite zrange_zseq. unfold popb. apply f_equal2.
  - apply filter_ext_in_len. intros x Hx. apply in_zseq in Hx. rewrite testbit_join by lia.
    destruct (Z.ltb_spec x 8); auto; lia.
  - unfold zrange. rewrite filter_map_len. replace (8 + n - 8) with n by lia. apply filter_ext_in_len.
    intros x Hx. apply in_zseq in Hx. rewrite testbit_join by lia. destruct (Z.ltb_spec (8 + x) 8); [lia|]. f_equal. lia.
Qed.

Lemma numberOfSetBits_word : forall w, word w -> numberOfSetBitsInBitsetElement w = popw w.
Proof.
  intros w [H0 H1]. change (2 ^ 32) with (256 * (256 * (256 * 256))) in H1.
  set (b0 := w mod 256). set (w1 := w / 256). set (b1 := w1 mod 256). set (w2 := w1 / 256).
  set (b2 := w2 mod 256). set (b3 := w2 / 256).
  assert (E0 : w = b0 + 256 * w1) by (unfold b0, w1; pose proof (Z.div_mod w 256); lia).
  assert (E1 : w1 = b1 + 256 * w2) by (unfold b1, w2; pose proof (Z.div_mod w1 256); lia).
  assert (E2 : w2 = b2 + 256 * b3) by (unfold b2, b3; pose proof (Z.div_mod w2 256); lia).
  assert (B0 : 0 <= b0 < 256) by (apply Z.mod_pos_bound; lia).
  assert (B1 : 0 <= b1 < 256) by (apply Z.mod_pos_bound; lia).
  assert (B2 : 0 <= b2 < 256) by (apply Z.mod_pos_bound; lia).
  assert (B3 : 0 <= b3 < 256) by lia.
  rewrite E0, E1, E2, set_bits_bytes by auto.
  unfold popw. change 32 with (8 + (8 + (8 + 8))).
  rewrite !popw_join by lia. unfold popb. lia.
Qed.

Lemma popw_bound : forall w, 0 <= popw w.
Proof. intros. apply zlen_nonneg. Qed.

Lemma bit_cons : forall w l k, 0 <= k -> bit (w :: l) (32 + k) = bit l k.
Proof.
  intros. unfold bit. replace (32 + k) with (k + 1 * 32) by lia. rewrite Z.div_add, Z.mod_add by lia.
  rewrite zget_cons by (pose proof (Z.div_pos k 32); lia). replace (k / 32 + 1 - 1) with (k / 32) by lia. auto.
Qed.
Lemma bit_head : forall w l k, 0 <= k < 32 -> bit (w :: l) k = Z.testbit w k.
Proof. intros. unfold bit. rewrite Z.div_small, Z.mod_small by lia. rewrite zget_cons_0. auto. Qed.
Lemma bit_nil : forall k, bit [] k = false.
Proof.
  intros. unfold bit, zget. destruct (_ || _); auto. destruct (Z.to_nat (k / 32)); auto.
Qed.

Lemma count_bits_cons : forall w l, count_bits (w :: l) = popw w + count_bits l.
Proof.
  intros. unfold count_bits. rewrite zlen_cons. pose proof (zlen_nonneg _ l).
  rewrite <- zrange_zseq, (zrange_app 0 32), filter_app_len by lia. rewrite zrange_zseq. unfold popw. apply f_equal2.
  - apply filter_ext_in_len. intros x Hx. apply in_zseq in Hx. apply bit_head. auto.
  - unfold zrange. rewrite filter_map_len. replace (32 * (1 + zlen l) - 32) with (32 * zlen l) by lia.
    apply filter_ext_in_len. intros x Hx. apply in_zseq in Hx. apply bit_cons. lia.
Qed.

Lemma set_bits_fold : forall l c, Forall word l ->
  fold_left (fun count e => u32 (count + numberOfSetBitsInBitsetElement e)) l (u32 c) = u32 (c + count_bits l).
Proof.
  induction l as [|w l IH]; intros c H.
  - simpl. f_equal. unfold count_bits. simpl. rewrite zlen_nil. lia.
  - inversion H; subst. simpl. rewrite numberOfSetBits_word by auto.
    replace (u32 (u32 c + popw w)) with (u32 (c + popw w)).
    + rewrite IH by auto. f_equal. rewrite count_bits_cons. lia.
    + unfold u32. rewrite Z.add_mod_idemp_l; auto. discriminate.
Qed.

(** ** lowest set bit *)
Lemma lowest_bit : forall q, exists k r, 0 <= k /\ 0 <= r /\ Z.pos q = 2 ^ k * (2 * r + 1).
Proof.
  induction q as [q IH|q IH|].
  - exists 0, (Z.pos q). lia.
  - destruct IH as (k & r & Hk & Hr & E). exists (k + 1), r. rewrite Z.pow_add_r by lia. lia.
  - exists 0, 0. lia.
Qed.

Lemma odd_bits : forall k r, 0 <= k -> 0 <= r ->
  Z.testbit (2 ^ k * (2 * r + 1)) k = true /\
  (forall i, i < k -> Z.testbit (2 ^ k * (2 * r + 1)) i = false) /\
  (forall i, k < i -> Z.testbit (2 ^ k * (2 * r + 1)) i = Z.testbit r (i - k - 1)).
Proof.
  intros k r Hk Hr. rewrite Z.mul_comm, <- Z.shiftl_mul_pow2 by lia. split; [|split].
  - rewrite Z.shiftl_spec by lia. rewrite Z.sub_diag. apply Z.testbit_odd_0.
  - intros i Hi. apply Z.shiftl_spec_low. auto.
  - intros i Hi. rewrite Z.shiftl_spec by lia. replace (i - k) with (Z.succ (i - k - 1)) at 1 by lia.
    apply Z.testbit_odd_succ. lia.
Qed.

Lemma isolate : forall k r, 0 <= k -> 0 <= r -> Z.land (2 ^ k * (2 * r + 1)) (- (2 ^ k * (2 * r + 1))) = 2 ^ k.
Proof.
  intros k r Hk Hr. set (e := 2 ^ k * (2 * r + 1)).
  assert (Hp : 0 < 2 ^ k) by (apply Z.pow_pos_nonneg; lia).
  assert (He : 0 < e) by (unfold e; nia).
  destruct (odd_bits k r Hk Hr) as (B1 & B2 & B3). fold e in B1, B2, B3.
  apply Z.bits_inj'. intros i Hi. rewrite Z.land_spec, Z.bits_opp by auto. rewrite Z.pow2_bits_eqb by auto.
  assert (Em : Z.pred e = (2 ^ k - 1) + 2 ^ k * (2 * r)) by (unfold e; lia).
  destruct (Z.eqb_spec k i).
  - subst i. rewrite B1. rewrite Em.
    assert (Z.testbit (2 ^ k - 1 + 2 ^ k * (2 * r)) k = false).
    { rewrite <- (Z.add_0_l k) at 3. rewrite <- Z.div_pow2_bits by lia.
      rewrite Z.mul_comm, Z.div_add, Z.div_small by lia. rewrite Z.add_0_l. apply Z.testbit_even_0. }
    rewrite H. auto.
  - destruct (Z.lt_ge_cases i k).
    + rewrite B2 by auto. auto.
    + rewrite B3 by lia. rewrite Em.
      assert (Z.testbit (2 ^ k - 1 + 2 ^ k * (2 * r)) i = Z.testbit r (i - k - 1)).
      { replace i with (i - k + k) at 1 by lia. rewrite <- Z.div_pow2_bits by lia.
        rewrite Z.mul_comm, Z.div_add, Z.div_small by lia. rewrite Z.add_0_l.
        replace (i - k) with (Z.succ (i - k - 1)) at 1 by lia. apply Z.testbit_even_succ. lia. }
      rewrite H0. destruct (Z.testbit r _); auto.
Qed.

Lemma debruijn_check : forallb (fun k =>
   match at_ multiplyDeBruijnBitPosition (Z.shiftr (u32 (2 ^ k * 125613361)) 27) with Ok d => d =? k | _ => false end)
  (zseq 32) = true.
Proof. vm_compute. reflexivity. Qed.

Lemma word_lowest : forall w, 0 < w < 2 ^ 32 -> exists k, 0 <= k < 32 /\ Z.testbit w k = true /\
  (forall i, i < k -> Z.testbit w i = false) /\
  at_ multiplyDeBruijnBitPosition (Z.shiftr (u32 (Z.land w (u32 (- w)) * 125613361)) 27) = Ok k.
Proof.
  intros w Hw. destruct w as [|q|q]; try lia. destruct (lowest_bit q) as (k & r & Hk & Hr & E).
  assert (Hp : 0 < 2 ^ k) by (apply Z.pow_pos_nonneg; lia).
  assert (Hk' : k < 32).
  { assert (H : 2 ^ k < 2 ^ 32) by nia. apply Z.pow_lt_mono_r_iff in H; lia. }
  destruct (odd_bits k r Hk Hr) as (B1 & B2 & B3). rewrite <- E in *.
  exists k. split; auto. split; auto. split; auto.
  assert (El : Z.land (Z.pos q) (u32 (- Z.pos q)) = 2 ^ k).
  { unfold u32. change two32 with (2 ^ 32). rewrite <- Z.land_ones by lia. rewrite (Z.land_comm (- _)), Z.land_assoc.
    rewrite Z.land_ones by lia. rewrite Z.mod_small by lia. rewrite E. apply isolate; auto. }
  rewrite El. pose proof debruijn_check as H. rewrite forallb_forall in H.
  specialize (H k (proj2 (in_zseq 32 k) ltac:(lia))). cbv beta in H.
  destruct (at_ _ _) as [d| | |]; try discriminate. apply Z.eqb_eq in H. congruence.
Qed.

Lemma first_bit_loop : forall l pos, Forall word l -> 0 <= pos -> pos + 32 * zlen l < 2 ^ 32 ->
  (FirstNonZeroBit_loop l pos = Err "no bits set" /\ (forall k, 0 <= k -> bit l k = false)) \/
  (exists k, FirstNonZeroBit_loop l pos = Ok (pos + k) /\ 0 <= k /\ bit l k = true /\ forall j, 0 <= j < k -> bit l j = false).
Proof.
  induction l as [|w l IH]; intros pos H Hp Hl.
  - left. split; auto. intros. apply bit_nil.
  - inversion H; subst. destruct H2 as [Hw0 Hw1]. rewrite zlen_cons in Hl. pose proof (zlen_nonneg _ l). cbn [FirstNonZeroBit_loop].
    destruct (Z.ltb_spec 0 w).
    + right. destruct (word_lowest w ltac:(lia)) as (k & Hk & B1 & B2 & B3). exists k. rewrite B3. cbn [bind].
      rewrite u32_id by (change two32 with (2^32); lia). split; auto. split; [lia|]. split.
      * rewrite bit_head; auto.
      * intros j Hj. rewrite bit_head by lia. apply B2. lia.
    + assert (w = 0) by lia. subst w. rewrite u32_id by (change two32 with (2^32); lia).
      assert (Z0 : forall k, 0 <= k < 32 -> bit (0 :: l) k = false) by (intros; rewrite bit_head by auto; apply Z.bits_0).
      destruct (IH (pos + 32) H3 ltac:(lia) ltac:(lia)) as [[E Hz]|(k & E & Hk & Hb & Hlow)].
      * left. split; auto. intros k Hk. destruct (Z.lt_ge_cases k 32); [apply Z0; lia|].
        replace k with (32 + (k - 32)) by lia. rewrite bit_cons by lia. apply Hz. lia.
      * right. exists (32 + k). rewrite E. split; [f_equal; lia|]. split; [lia|]. split.
        -- rewrite bit_cons by lia. auto.
        -- intros j Hj. destruct (Z.lt_ge_cases j 32); [apply Z0; lia|].
           replace j with (32 + (j - 32)) by lia. rewrite bit_cons by lia. apply Hlow. lia.
Qed.

(** ** construction *)
Lemma fold_max : forall l m, let r := fold_left (fun m v => if m <? v then v else m) l m in
  m <= r /\ (forall v, In v l -> v <= r) /\ (r = m \/ In r l).
Proof.
  induction l as [|x l IH]; intros m; simpl; [repeat split; auto; try lia; contradiction|].
  destruct (IH (if m <? x then x else m)) as (A & B & C). set (r := fold_left _ l _) in *.
  destruct (Z.ltb_spec m x); repeat split; try lia; auto.
  - intros v [<-|Hv]; auto; lia.
  - destruct C; auto.
  - intros v [<-|Hv]; auto; lia.
  - destruct C; auto.
Qed.

Lemma quot_ceil : forall m, 0 <= m -> let n := if Z.rem m 32 =? 0 then Z.quot m 32 else Z.quot m 32 + 1 in
  32 * (n - 1) < m <= 32 * n.
Proof.
  intros m Hm. rewrite Z.rem_mod_nonneg, Z.quot_div_nonneg by lia.
  pose proof (Z.div_mod m 32). pose proof (Z.mod_pos_bound m 32).
  destruct (Z.eqb_spec (m mod 32) 0); lia.
Qed.

Lemma neg_shift : forall v, v < 0 -> 0 <= Z.quot v 32 -> (u32 (Z.rem v 32) <? 32) = false.
Proof.
  intros v Hv Hq. assert (Hr : - (32) < Z.rem v 32 <= 0) by (apply Z.rem_bound_pos_neg; lia).
  pose proof (Z.quot_rem' v 32) as E.
  remember (Z.rem v 32) as r. remember (Z.quot v 32) as q. clear Heqr Heqq.
  assert (q = 0) by lia. unfold u32.
  replace (r mod two32) with (r + two32); [apply Z.ltb_ge; unfold two32; lia|].
  apply (Z.mod_unique _ _ (-1)); unfold two32; lia.
Qed.

(** one [|=]: adds exactly the bit of a non-negative value, changes nothing for a negative one *)
Lemma set_bit_step : forall bs v bs', Forall word bs -> - two63 <= v < two63 ->
  (let i1 := Z.quot v 32 in
   let i2 := u32 (Z.rem v 32) in
   let* w := at_ bs i1 in
   set_at bs i1 (Z.lor w (if i2 <? 32 then Z.shiftl 1 i2 else 0))) = Ok bs' ->
  Forall word bs' /\ zlen bs' = zlen bs /\ forall k, 0 <= k -> bit bs' k = bit bs k || (k =? v).
Proof.
  intros bs v bs' Hw Hv H. cbv zeta in H. apply bind_ok in H. destruct H as (w & Hget & H).
  apply at_ok in Hget. apply set_at_ok in H.
  assert (Hww : word w) by (rewrite Forall_forall in Hw; apply Hw; eapply zget_in; eauto).
  set (x := if u32 (Z.rem v 32) <? 32 then Z.shiftl 1 (u32 (Z.rem v 32)) else 0) in *.
  assert (Hx : (0 <= v /\ x = 2 ^ (v mod 32) /\ Z.quot v 32 = v / 32) \/ (v < 0 /\ x = 0)).
  { destruct (Z.lt_ge_cases v 0).
    - right. split; auto. unfold x.
      rewrite (neg_shift v); auto. apply (zget_range _ _ _ _ Hget).
    - left. split; auto. unfold x. rewrite Z.rem_mod_nonneg, Z.quot_div_nonneg by lia.
      pose proof (Z.mod_pos_bound v 32). rewrite u32_id by (unfold two32; lia).
      destruct (Z.ltb_spec (v mod 32) 32); [|lia]. rewrite Z.shiftl_1_l. auto. }
  assert (Hwx : word (Z.lor w x)).
  { destruct Hww as [W0 W1]. destruct Hx as [(_ & -> & _)|(_ & ->)]; [|rewrite Z.lor_0_r; split; auto].
    pose proof (Z.mod_pos_bound v 32). split; [apply Z.lor_nonneg; split; [auto|apply Z.pow_nonneg; lia]|].
    destruct (Z.eq_dec (Z.lor w (2 ^ (v mod 32))) 0); [rewrite e; lia|].
    apply Z.log2_lt_pow2.
    - assert (0 <= Z.lor w (2 ^ (v mod 32))) by (apply Z.lor_nonneg; split; [auto|apply Z.pow_nonneg; lia]). lia.
    - rewrite Z.log2_lor; [|auto|apply Z.pow_nonneg; lia]. rewrite Z.log2_pow2 by lia.
      apply Z.max_lub_lt; [|lia]. destruct (Z.eq_dec w 0); [subst; simpl; lia|]. apply Z.log2_lt_pow2; lia. }
  split; [|split].
  - apply Forall_forall. intros y Hy. apply in_zget in Hy. destruct Hy as [i Hi].
    destruct (Z.eq_dec i (Z.quot v 32)) as [->|Hne].
    + rewrite (zset_get_same _ _ _ _ _ H) in Hi. injection Hi as <-. auto.
    + rewrite (zset_get_other _ _ _ _ _ _ H) in Hi by auto. rewrite Forall_forall in Hw. apply Hw. eapply zget_in; eauto.
  - eapply zset_len; eauto.
  - intros k Hk. unfold bit. destruct (Z.eq_dec (k / 32) (Z.quot v 32)) as [He|Hne].
    + rewrite He, (zset_get_same _ _ _ _ _ H), Hget, Z.lor_spec. f_equal.
      pose proof (Z.mod_pos_bound k 32).
      destruct Hx as [(V & -> & Q)|(V & ->)].
      * rewrite Z.pow2_bits_eqb by (pose proof (Z.mod_pos_bound v 32); lia).
        pose proof (Z.div_mod k 32). pose proof (Z.div_mod v 32). destruct (Z.eqb_spec (v mod 32) (k mod 32)), (Z.eqb_spec k v); auto; lia || (subst; lia).
      * rewrite Z.bits_0. symmetry. apply Z.eqb_neq. lia.
    + rewrite (zset_get_other _ _ _ _ _ _ H) by auto. replace (k =? v) with false.
      * rewrite orb_false_r. auto.
      * symmetry. apply Z.eqb_neq. intros ->. apply Hne. rewrite Z.quot_div_nonneg by lia. auto.
Qed.

Lemma set_bits_loop : forall vs bs bs', Forall word bs -> Forall (fun v => - two63 <= v < two63) vs ->
  foldM (fun bitset v =>
               let i1 := Z.quot v 32 in
               let i2 := u32 (Z.rem v 32) in
               let* w := at_ bitset i1 in
               set_at bitset i1 (Z.lor w (if i2 <? 32 then Z.shiftl 1 i2 else 0))) vs bs = Ok bs' ->
  Forall word bs' /\ zlen bs' = zlen bs /\ forall k, 0 <= k -> (bit bs' k = true <-> bit bs k = true \/ In k vs).
Proof.
  induction vs as [|v vs IH]; intros bs bs' Hw Hv H.
  - simpl in H. injection H as <-. repeat split; auto. intros [?|[]]; auto.
  - inversion Hv; subst. cbn [foldM] in H. apply bind_ok in H. destruct H as (b1 & H1 & H).
    destruct (set_bit_step _ _ _ Hw H2 H1) as (W1 & L1 & B1).
    destruct (IH b1 bs' W1 H3 H) as (W2 & L2 & B2). split; auto. split; [congruence|].
    intros k Hk. rewrite B2, B1, orb_true_iff, Z.eqb_eq by auto. simpl. intuition congruence.
Qed.

Lemma set_bits_ok : forall vs bs, Forall word bs -> Forall (fun v => 0 <= v < 32 * zlen bs /\ v < two63) vs ->
  exists bs', foldM (fun bitset v =>
               let i1 := Z.quot v 32 in
               let i2 := u32 (Z.rem v 32) in
               let* w := at_ bitset i1 in
               set_at bitset i1 (Z.lor w (if i2 <? 32 then Z.shiftl 1 i2 else 0))) vs bs = Ok bs'.
Proof.
  induction vs as [|v vs IH]; intros bs Hw Hv; [simpl; eauto|].
  inversion Hv; subst. cbn [foldM]. cbv zeta.
  destruct H1 as [H1 H1'].
  assert (Hq : 0 <= Z.quot v 32 < zlen bs).
  { rewrite Z.quot_div_nonneg by lia. split; [apply Z.div_pos; lia|apply Z.div_lt_upper_bound; lia]. }
  destruct (zget_some _ bs _ Hq) as [w Hg]. unfold at_ at 1. rewrite Hg. cbn [bind].
  destruct (zset_some _ bs (Z.quot v 32) (Z.lor w (if u32 (Z.rem v 32) <? 32 then Z.shiftl 1 (u32 (Z.rem v 32)) else 0)) Hq) as [b1 Hb].
  unfold set_at at 1. rewrite Hb. cbn [bind].
  assert (Hr : - two63 <= v < two63) by (split; [apply Z.le_trans with 0; [discriminate|apply H1]|auto]).
  destruct (set_bit_step bs v b1 Hw Hr) as (W1 & L1 & _).
  { cbv zeta. unfold at_. rewrite Hg. cbn [bind]. unfold set_at. rewrite Hb. auto. }
  apply IH; auto. rewrite L1. auto.
Qed.

Lemma bit_zeros : forall n k, bit (repeat 0 n) k = false.
Proof.
  intros. unfold bit. destruct (zget (repeat 0 n) (k / 32)) as [w|] eqn:E; auto.
  apply zget_in, repeat_spec in E. subst. apply Z.bits_0.
Qed.
