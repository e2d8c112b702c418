(** * Proofs about split decisions *)

From Coq Require Import ZArith List Bool Reals Lia Lra ZifyBool.
From Coq Require Import Floats.SpecFloat.
From Flocq Require Import Core.Core IEEE754.BinarySingleNaN.
From Verif Require Import Go GoFloat UtilBits LgTree Spec_Bits Spec_Split Pf_Go Pf_Float Pf_Bits.
Local Open Scope Z_scope.

Lemma fle_real : forall a b, valid64 a = true -> valid64 b = true -> finite64 a = true -> finite64 b = true ->
  (fle a b = true <-> (real a <= real b)%R).
Proof.
  intros a b Ha Hb Fa Fb.
  pose proof (Bleb_correct 53 1024 (SF2B a Ha) (SF2B b Hb)) as H.
  rewrite !is_finite_SF2B, !B2R_SF2B in H. unfold Bleb in H. rewrite !B2SF_SF2B in H.
  unfold fle, real. rewrite H by (destruct a, b; auto || discriminate).
  destruct (Rle_bool_spec (SF2R radix2 a) (SF2R radix2 b)); split; auto; try discriminate; lra.
Qed.

Lemma flt_real : forall a b, valid64 a = true -> valid64 b = true -> finite64 a = true -> finite64 b = true ->
  (flt a b = true <-> (real a < real b)%R).
Proof.
  intros a b Ha Hb Fa Fb.
  pose proof (Bltb_correct 53 1024 (SF2B a Ha) (SF2B b Hb)) as H.
  rewrite !is_finite_SF2B, !B2R_SF2B in H. unfold Bltb in H. rewrite !B2SF_SF2B in H.
  unfold flt, real. rewrite H by (destruct a, b; auto || discriminate).
  destruct (Rlt_bool_spec (SF2R radix2 a) (SF2R radix2 b)); split; auto; try discriminate; lra.
Qed.

Lemma fle_le64 : forall a b, valid64 a = true -> valid64 b = true -> (fle a b = true <-> le64 a b).
Proof.
  intros a b Ha Hb. pose proof (fle_real a b Ha Hb) as F.
  destruct a as [sa|[|]| |sa ma ea]; destruct b as [sb|[|]| |sb mb eb]; simpl in *;
    try (apply F; reflexivity); cbv; tauto || (split; auto; discriminate) || (destruct sa; split; auto; discriminate) || idtac.
  all: destruct sb; split; auto; discriminate.
Qed.

Lemma real_tiny : real (S754_finite false 7482888383134223 (-169)) = tiny.
Proof. reflexivity. Qed.
Lemma real_mtiny : real (S754_finite true 7482888383134223 (-169)) = (- tiny)%R.
Proof. unfold real, tiny, SF2R, F2R. simpl. lra. Qed.

Lemma zero_range : forall w, valid64 w = true -> is_nan w = false ->
  (flt (fneg (S754_finite false 7482888383134223 (-169))) w && fle w (S754_finite false 7482888383134223 (-169)) = true
   <-> finite64 w = true /\ (- tiny < real w <= tiny)%R).
Proof.
  intros w Hv Hn. rewrite andb_true_iff. simpl fneg.
  destruct (finite64 w) eqn:F.
  - rewrite flt_real, fle_real by auto. rewrite real_tiny, real_mtiny. intuition.
  - destruct w as [|[|]| |]; try discriminate; cbv; intuition discriminate.
Qed.

Lemma nan_to_zero_valid : forall v, valid64 v = true -> valid64 (nan_to_zero v) = true /\ is_nan (nan_to_zero v) = false.
Proof. intros v H. unfold nan_to_zero. destruct (is_nan v) eqn:E; auto. Qed.

(** the function and the relation agree *)
Lemma numeric_left_rule : forall m dl thr v, valid64 thr = true -> valid64 v = true ->
  numeric_rule m dl thr v (numeric_left m dl thr v).
Proof.
  intros m dl thr v Ht Hv. destruct (nan_to_zero_valid v Hv) as [V N].
  unfold numeric_rule, numeric_left, is_missing. destruct m.
  - split; [contradiction|]. intros _. apply fle_le64; auto.
  - pose proof (zero_range (nan_to_zero v) V N) as Z. cbv zeta.
    destruct (_ && _) eqn:E.
    + destruct Z as [Z _]. split; auto. intros H. exfalso. apply H. apply Z. auto.
    + destruct Z as [_ Z]. split.
      * intros H. apply Z in H. discriminate.
      * intros _. apply fle_le64; auto.
  - unfold nan_to_zero. destruct (is_nan v) eqn:E; split; auto; try discriminate.
    + intros H. exfalso. auto.
    + intros _. apply fle_le64; auto.
Qed.

(** flag arithmetic *)
Definition missing_flag (m : missing) : Z := match m with MNone => 0 | MZero => missingZero | MNan => missingNan end.
Definition default_flag (dl : bool) : Z := if dl then defaultLeft else 0.
(** the flag bits that say which children are leaves *)
Definition leaf_bits (b : Z) : Prop := b = 0 \/ b = leftLeaf \/ b = rightLeaf \/ b = Z.lor leftLeaf rightLeaf.

Lemma numerical_flags : forall m dl b, leaf_bits b ->
  let f := Z.lor (Z.lor (missing_flag m) (default_flag dl)) b in
  has f categorical = false /\ has f defaultLeft = dl /\
  has f missingZero = (match m with MZero => true | _ => false end) /\
  has f missingNan = (match m with MNan => true | _ => false end) /\
  (Z.land f missingNan =? 0) = (match m with MNan => false | _ => true end).
Proof. intros m dl b [-> | [-> | [-> | ->]]]; destruct m, dl; repeat split. Qed.

Lemma numerical_decides : forall p t node m dl v b, leaf_bits b ->
  nFlags node = Z.lor (Z.lor (missing_flag m) (default_flag dl)) b ->
  decision p t node v = Ok (numeric_left m dl (nThreshold node) v).
Proof.
  intros p t node m dl v b Hb Hf. destruct (numerical_flags m dl b Hb) as (F1 & F2 & F3 & F4 & F5).
  unfold decision, numericalDecision. rewrite Hf, F1, F2, F3, F4, F5. f_equal.
  unfold numeric_left, nan_to_zero, isZero, fgt, flt, zeroThreshold.
  destruct m; cbn [andb orb]; destruct (is_nan v) eqn:E; cbn [andb orb]; rewrite ?E, ?orb_false_r; auto.
Qed.

Lemma categorical_flags : forall m c b, leaf_bits b -> c = 0 \/ c = catOneHot \/ c = catSmall ->
  let f := Z.lor (Z.lor (Z.lor categorical (missing_flag m)) c) b in
  has f categorical = true /\ has f missingNan = (match m with MNan => true | _ => false end) /\
  has f catOneHot = (c =? catOneHot) /\ has f catSmall = (c =? catSmall).
Proof. intros m c b [-> | [-> | [-> | ->]]] [-> | [-> | ->]]; destruct m; repeat split. Qed.

Lemma f2i32_of_Z : forall p z, - two31 <= z < two31 -> f2i32 p (f64_of_Z z) = z.
Proof.
  intros p z Hz. unfold f2i32. rewrite trunc_f64_of_Z by (change (2 ^ 53) with 9007199254740992; unfold two31 in *; lia).
  replace ((- two31 <=? z) && (z <? two31)) with true by lia. auto.
Qed.
Lemma f2u32_of_Z : forall p z, 0 <= z < two32 -> f2u32 p (f64_of_Z z) = z.
Proof.
  intros p z Hz. unfold f2u32. rewrite trunc_f64_of_Z by (change (2 ^ 53) with 9007199254740992; unfold two32 in *; lia).
  replace ((0 <=? z) && (z <? two32)) with true by lia. auto.
Qed.

Lemma f2i32_range : forall p v, - two31 <= f2i32 p v < two31.
Proof.
  assert (S : forall z, - two31 <= s32 z < two31).
  { intros z. unfold s32. pose proof (Z.mod_pos_bound z two32 ltac:(reflexivity)). cbv zeta.
    destruct (Z.ltb_spec (z mod two32) two31); unfold two31, two32 in *; lia. }
  intros p v. unfold f2i32. destruct (trunc v); auto. destruct (_ && _) eqn:E; auto. lia.
Qed.

Lemma shift_test : forall w k, 0 <= k -> (0 <? Z.land (Z.shiftr w k) 1) = Z.testbit w k.
Proof.
  intros w k Hk. change 1 with (Z.ones 1). rewrite Z.land_ones by lia. 
  pose proof (Z.testbit_spec' w k Hk) as H. rewrite <- Z.shiftr_div_pow2 in H by auto. change (2 ^ 1) with 2. rewrite <- H.
  destruct (Z.testbit w k); reflexivity.
Qed.

(** ** the category set a node stores, by encoding *)
Inductive stores (t : lgTree) (node : lgNode) (m : missing) (cats : Z -> bool) : Prop :=
| stores_one : forall b c, leaf_bits b -> 0 <= c < two31 ->
    nFlags node = Z.lor (Z.lor (Z.lor categorical (missing_flag m)) catOneHot) b ->
    nThreshold node = f64_of_Z c ->
    (forall k, 0 <= k < two31 -> cats k = (k =? c)) -> stores t node m cats
| stores_small : forall b bits, leaf_bits b -> word bits ->
    nFlags node = Z.lor (Z.lor (Z.lor categorical (missing_flag m)) catSmall) b ->
    nThreshold node = f64_of_Z bits ->
    (forall k, 0 <= k < two31 -> cats k = bit [bits] k) -> stores t node m cats
| stores_large : forall b idx lo hi words, leaf_bits b -> 0 <= idx < two32 - 1 ->
    nFlags node = Z.lor (Z.lor (Z.lor categorical (missing_flag m)) 0) b ->
    nThreshold node = f64_of_Z idx ->
    zget (tCatBoundaries t) idx = Some lo -> zget (tCatBoundaries t) (idx + 1) = Some hi ->
    slice (tCatThresholds t) lo hi = Ok words -> hi < two32 ->
    (forall k, 0 <= k < two31 -> cats k = bit words k) -> stores t node m cats.


Lemma at_zget : forall A (l : list A) i x, zget l i = Some x -> at_ l i = Ok x.
Proof. intros. apply at_ok. auto. Qed.

Lemma categorical_decides : forall p t node m cats v, stores t node m cats ->
  decision p t node v = Ok (category_left (f2i32 p) m cats v).
Proof.
  intros p t node m cats v H. pose proof (f2i32_range p v) as Hr.
  assert (K : forall c, c = 0 \/ c = catOneHot \/ c = catSmall -> forall b, leaf_bits b ->
    nFlags node = Z.lor (Z.lor (Z.lor categorical (missing_flag m)) c) b ->
    (forall k, 0 <= k < two31 ->
      (if c =? catOneHot then Ok (f2i32 p (nThreshold node) =? k)
       else if c =? catSmall then Ok (FindInBitsetUint32 (f2u32 p (nThreshold node)) (u32 k))
       else findInBitset t (f2u32 p (nThreshold node)) (u32 k)) = Ok (cats k)) ->
    decision p t node v = Ok (category_left (f2i32 p) m cats v)).
  { intros c Hc b Hb Hf Hk. destruct (categorical_flags m c b Hb Hc) as (F1 & F2 & F3 & F4).
    unfold decision, categoricalDecision, category_left. rewrite Hf, F1, F2, F3, F4. cbv zeta.
    destruct (Z.ltb_spec (f2i32 p v) 0); auto.
    destruct (is_nan v).
    - destruct m; auto; apply Hk; unfold two31; lia.
    - apply Hk. lia. }
  assert (U : forall k, 0 <= k < two31 -> u32 k = k) by (intros; apply u32_id; unfold two31, two32 in *; lia).
  destruct H as [b c Hb Hc Hf Ht Hcats|b bits Hb Hw Hf Ht Hcats|b idx lo hi words Hb Hi Hf Ht Hlo Hhi Hs Hlt Hcats].
  - apply (K catOneHot ltac:(auto) b Hb Hf). intros k Hk. rewrite Z.eqb_refl, Ht, f2i32_of_Z by (unfold two31 in *; lia).
    rewrite Hcats by auto. f_equal. apply Z.eqb_sym.
  - apply (K catSmall ltac:(auto) b Hb Hf). intros k Hk. change (catSmall =? catOneHot) with false. rewrite Z.eqb_refl.
    rewrite Ht, f2u32_of_Z by exact Hw. rewrite U, Hcats by auto. f_equal. unfold FindInBitsetUint32.
    destruct (Z.leb_spec 32 k).
    + unfold bit. assert (1 <= k / 32) by (apply Z.div_le_lower_bound; lia).
      rewrite zget_none; [auto|right; unfold zlen; simpl; lia].
    + rewrite bit_head by lia. apply shift_test. lia.
  - apply (K 0 ltac:(auto) b Hb Hf). intros k Hk.
    change (0 =? catOneHot) with false. change (0 =? catSmall) with false. cbv iota.
    rewrite Ht, f2u32_of_Z by lia. rewrite U, Hcats by auto. unfold findInBitset.
    rewrite (at_zget _ _ _ _ Hlo). cbn [bind]. rewrite (u32_id (idx + 1)) by lia.
    rewrite (at_zget _ _ _ _ Hhi). cbn [bind].
    destruct (zget_slice _ _ _ _ _ Hs) as (L & Hlh & Hle & Hg).
    rewrite (u32_id (hi - lo)) by lia. unfold bit.
    assert (Hq : 0 <= k / 32) by (apply Z.div_pos; lia).
    destruct (Z.leb_spec (hi - lo) (k / 32)).
    + rewrite zget_none by lia. auto.
    + rewrite (u32_id (lo + k / 32)) by lia.
      destruct (zget_some _ words (k / 32)) as [w Ew]; [lia|].
      rewrite Ew. rewrite Hg in Ew by lia. rewrite (at_zget _ _ _ _ Ew). cbn [bind]. f_equal.
      apply shift_test. apply Z.mod_pos_bound. lia.
Qed.
