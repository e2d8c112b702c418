(** * Raw numpy data is read back *)

From Coq Require Import ZArith List Bool String Lia ZifyBool Floats.SpecFloat.
From Verif Require Import Go GoFloat GoText XgBin Pickle SkClasses Spec_XgBin Spec_Numpy Pf_Go Pf_XgBin.
Local Open Scope Z_scope.

Lemma digits2_pos_bounds : forall m, 2 ^ (Z.pos (digits2_pos m) - 1) <= Z.pos m < 2 ^ Z.pos (digits2_pos m).
Proof.
  assert (S : forall m, Z.pos (Pos.succ (digits2_pos m)) = Z.pos (digits2_pos m) + 1) by (intros; lia).
  induction m as [m IH|m IH|]; cbn [digits2_pos]; [| |cbn; lia].
  - rewrite S. rewrite Z.add_simpl_r, Z.pow_add_r by lia. change (2 ^ 1) with 2.
    replace (2 ^ Z.pos (digits2_pos m)) with (2 * 2 ^ (Z.pos (digits2_pos m) - 1)) in * by (rewrite <- Z.pow_succ_r by lia; f_equal; lia). lia.
  - rewrite S. rewrite Z.add_simpl_r, Z.pow_add_r by lia. change (2 ^ 1) with 2.
    replace (2 ^ Z.pos (digits2_pos m)) with (2 * 2 ^ (Z.pos (digits2_pos m) - 1)) in * by (rewrite <- Z.pow_succ_r by lia; f_equal; lia). lia.
Qed.

(** a representable number is normal or subnormal *)
Lemma valid_cases : forall s m e, valid64 (S754_finite s m e) = true ->
  Z.pos m < 2 ^ 52 /\ e = -1074 \/ 2 ^ 52 <= Z.pos m < 2 ^ 53 /\ -1074 <= e <= 971.
Proof.
  intros s m e H. unfold valid64, valid_binary, bounded, canonical_mantissa, fexp, emin in H. apply andb_true_iff in H. destruct H as [H1 H2]. apply Zeq_bool_eq in H1.
  pose proof (digits2_pos_bounds m) as B. set (d := Z.pos (digits2_pos m)) in *. assert (D : 1 <= d) by lia.
  assert (E : Z.max (d + e - 53) (-1074) = e) by lia.
  destruct (Z.lt_ge_cases d 53).
  - left. split; [|lia]. eapply Z.lt_le_trans; [apply B|]. apply Z.pow_le_mono_r; lia.
  - right. assert (d = 53) by lia. rewrite H0 in B. split; [exact B|lia].
Qed.

Lemma f64_bits_range : forall x, valid64 x = true -> 0 <= f64_bits x < 2 ^ 64.
Proof.
  intros x H. destruct x as [s|s| |s m e]; cbn [f64_bits]; try (destruct s; cbn [sign_bit]); try lia.
  - apply valid_cases in H. unfold sign_bit. change (2 ^ 52) with 4503599627370496 in *. change (2 ^ 53) with 9007199254740992 in *.
    change (2 ^ 63) with 9223372036854775808. change (2 ^ 64) with 18446744073709551616. destruct (Z.ltb_spec (Z.pos m) 4503599627370496); lia.
  - apply valid_cases in H. unfold sign_bit. change (2 ^ 52) with 4503599627370496 in *. change (2 ^ 53) with 9007199254740992 in *.
    change (2 ^ 64) with 18446744073709551616. destruct (Z.ltb_spec (Z.pos m) 4503599627370496); lia.
Qed.

Lemma fields : forall s ex fr, 0 <= ex < 2048 -> 0 <= fr < 2 ^ 52 ->
  let bits := sign_bit s + ex * 2 ^ 52 + fr in
  (0 <? bits / 2 ^ 63) = s /\ (bits / 2 ^ 52) mod 2048 = ex /\ bits mod 2 ^ 52 = fr.
Proof.
  intros s ex fr H1 H2 bits. subst bits. unfold sign_bit. change (2 ^ 52) with 4503599627370496 in *. change (2 ^ 63) with 9223372036854775808.
  assert (Q : (if s then 9223372036854775808 else 0) = 2048 * 4503599627370496 * Z.b2z s) by (destruct s; reflexivity). rewrite Q.
  assert (Bs : 0 <= Z.b2z s <= 1) by (destruct s; cbn; lia). split; [|split].
  - replace (2048 * 4503599627370496 * Z.b2z s + ex * 4503599627370496 + fr) with (Z.b2z s * 9223372036854775808 + (ex * 4503599627370496 + fr)) by lia.
    rewrite Z.div_add_l by lia. rewrite (Z.div_small (ex * _ + _)) by lia. destruct s; reflexivity.
  - replace (2048 * 4503599627370496 * Z.b2z s + ex * 4503599627370496 + fr) with ((ex + Z.b2z s * 2048) * 4503599627370496 + fr) by lia.
    rewrite Z.div_add_l by lia. rewrite (Z.div_small fr) by lia. rewrite Z.add_0_r, Z.mod_add by lia. apply Z.mod_small. lia.
  - replace (2048 * 4503599627370496 * Z.b2z s + ex * 4503599627370496 + fr) with (fr + (ex + Z.b2z s * 2048) * 4503599627370496) by lia.
    rewrite Z.mod_add by lia. apply Z.mod_small. lia.
Qed.

Lemma of_fields : forall s ex fr, 0 <= ex < 2048 -> 0 <= fr < 2 ^ 52 ->
  f64_of_bits (sign_bit s + ex * 2 ^ 52 + fr) =
  if ex =? 2047 then (if fr =? 0 then S754_infinity s else S754_nan)
  else if ex =? 0 then match fr with Z.pos m => S754_finite s m (-1074) | _ => S754_zero s end
  else match fr + 2 ^ 52 with Z.pos m => S754_finite s m (ex - 1075) | _ => S754_nan end.
Proof. intros s ex fr H1 H2. destruct (fields s ex fr H1 H2) as (A & B & C). unfold f64_of_bits. rewrite A, B, C. reflexivity. Qed.

Lemma f64_bits_read : forall x, valid64 x = true -> f64_of_bits (f64_bits x) = x.
Proof.
  intros x H. destruct x as [s|s| |s m e]; cbn [f64_bits].
  - destruct s; reflexivity.
  - destruct s; reflexivity.
  - reflexivity.
  - apply valid_cases in H. destruct H as [[H1 ->]|[H1 H2]].
    + replace (Z.pos m <? 2 ^ 52) with true by lia. replace (sign_bit s + Z.pos m) with (sign_bit s + 0 * 2 ^ 52 + Z.pos m) by lia.
      rewrite of_fields by (split; [lia|auto; lia]). reflexivity.
    + replace (Z.pos m <? 2 ^ 52) with false by lia. change (2 ^ 53) with (2 * 2 ^ 52) in H1. rewrite of_fields by lia.
      replace (e + 1075 =? 2047) with false by lia. replace (e + 1075 =? 0) with false by lia.
      replace (Z.pos m - 2 ^ 52 + 2 ^ 52) with (Z.pos m) by lia. f_equal. lia.
Qed.

Lemma e8_length : forall z, List.length (e8 z) = 8%nat.
Proof. intros. apply le_length. Qed.
Lemma e8_zlen : forall z, zlen (e8 z) = 8.
Proof. intros. unfold zlen. rewrite e8_length. reflexivity. Qed.
Lemma e_f64_length : forall b x, List.length (e_f64 b x) = 8%nat.
Proof. intros b x. unfold e_f64, ordered. destruct b; [|rewrite rev_length]; apply e8_length. Qed.

Lemma Float64FromBytes_read : forall little x, valid64 x = true -> Float64FromBytes (e_f64 little x) little = Ok x.
Proof.
  intros little x H. unfold Float64FromBytes. unfold zlen. rewrite e_f64_length. change (Z.of_nat 8 <? 8) with false. cbv iota. f_equal.
  rewrite firstn_all2 by (rewrite e_f64_length; lia). unfold e_f64, ordered. destruct little; rewrite ?rev_involutive;
    rewrite le_uint_e8, Z.mod_small by (apply f64_bits_range; auto); apply f64_bits_read; auto.
Qed.
Lemma le_Uint64_read : forall z, int64 z -> exists u, le_Uint64 (e8 z) = Ok u /\ s64 u = z.
Proof.
  intros z H. unfold le_Uint64. rewrite e8_zlen. change (8 <? 8) with false. cbv iota. eexists. split; [reflexivity|]. rewrite firstn_all2 by (rewrite e8_length; lia).
  rewrite le_uint_e8. apply s64_mod. auto.
Qed.

Lemma slice_mid : forall (a b c : bytes) lo hi, zlen a = lo -> zlen b = hi - lo -> slice (a ++ b ++ c) lo hi = Ok b.
Proof.
  intros a b c lo hi H1 H2. unfold slice. pose proof (zlen_nonneg _ a). pose proof (zlen_nonneg _ b). pose proof (zlen_nonneg _ c). rewrite !zlen_app.
  replace ((lo <? 0) || (hi <? lo) || (zlen a + (zlen b + zlen c) <? hi)) with false by lia. f_equal.
  rewrite skipn_app_exact by (unfold zlen in *; lia). rewrite firstn_app_exact by (unfold zlen in *; lia). reflexivity.
Qed.

Lemma e_sknode_length : forall n, List.length (e_sknode n) = 56%nat.
Proof. intros n. unfold e_sknode. rewrite !app_length, !e8_length, !e_f64_length. reflexivity. Qed.

Lemma sknode_read : forall n, sknode_ok n -> SklearnNodeFromBytes (e_sknode n) = Ok n.
Proof.
  intros [l r f thr imp ns ws] (H1 & H2 & H3 & H4 & V1 & V2 & V3). cbn [skLeftChild skRightChild skFeature skThreshold skImpurity skNNodeSamples skWeightedNNodeSamples] in *.
  unfold e_sknode. cbn [skLeftChild skRightChild skFeature skThreshold skImpurity skNNodeSamples skWeightedNNodeSamples].
  set (f0 := e8 l). set (f1 := e8 r). set (f2 := e8 f). set (f3 := e_f64 true thr). set (f4 := e_f64 true imp). set (f5 := e8 ns). set (f6 := e_f64 true ws).
  assert (L : zlen f0 = 8 /\ zlen f1 = 8 /\ zlen f2 = 8 /\ zlen f3 = 8 /\ zlen f4 = 8 /\ zlen f5 = 8 /\ zlen f6 = 8).
  { unfold zlen, f0, f1, f2, f3, f4, f5, f6. rewrite !e8_length, !e_f64_length. tauto. }
  unfold SklearnNodeFromBytes. cbv zeta.
  replace (slice (f0 ++ f1 ++ f2 ++ f3 ++ f4 ++ f5 ++ f6) (8 * 0) (8 * 0 + 8)) with (Ok f0) by (symmetry; apply (slice_mid []); rewrite ?zlen_nil; lia).
  replace (slice (f0 ++ f1 ++ f2 ++ f3 ++ f4 ++ f5 ++ f6) (8 * 1) (8 * 1 + 8)) with (Ok f1) by (symmetry; apply (slice_mid f0); lia).
  replace (slice (f0 ++ f1 ++ f2 ++ f3 ++ f4 ++ f5 ++ f6) (8 * 2) (8 * 2 + 8)) with (Ok f2)
    by (symmetry; rewrite (app_assoc f0); apply (slice_mid (f0 ++ f1)); rewrite ?zlen_app; lia).
  replace (slice (f0 ++ f1 ++ f2 ++ f3 ++ f4 ++ f5 ++ f6) (8 * 3) (8 * 3 + 8)) with (Ok f3)
    by (symmetry; rewrite (app_assoc f0), (app_assoc (f0 ++ f1)); apply (slice_mid ((f0 ++ f1) ++ f2)); rewrite ?zlen_app; lia).
  replace (slice (f0 ++ f1 ++ f2 ++ f3 ++ f4 ++ f5 ++ f6) (8 * 4) (8 * 4 + 8)) with (Ok f4)
    by (symmetry; rewrite (app_assoc f0), (app_assoc (f0 ++ f1)), (app_assoc ((f0 ++ f1) ++ f2)); apply (slice_mid (((f0 ++ f1) ++ f2) ++ f3)); rewrite ?zlen_app; lia).
  replace (slice (f0 ++ f1 ++ f2 ++ f3 ++ f4 ++ f5 ++ f6) (8 * 5) (8 * 5 + 8)) with (Ok f5)
    by (symmetry; rewrite (app_assoc f0), (app_assoc (f0 ++ f1)), (app_assoc ((f0 ++ f1) ++ f2)), (app_assoc (((f0 ++ f1) ++ f2) ++ f3));
        apply (slice_mid ((((f0 ++ f1) ++ f2) ++ f3) ++ f4)); rewrite ?zlen_app; lia).
  replace (slice (f0 ++ f1 ++ f2 ++ f3 ++ f4 ++ f5 ++ f6) (8 * 6) (8 * 6 + 8)) with (Ok f6)
    by (symmetry; rewrite (app_assoc f0), (app_assoc (f0 ++ f1)), (app_assoc ((f0 ++ f1) ++ f2)), (app_assoc (((f0 ++ f1) ++ f2) ++ f3)), (app_assoc ((((f0 ++ f1) ++ f2) ++ f3) ++ f4));
        rewrite <- (app_nil_r f6) at 1; apply (slice_mid (((((f0 ++ f1) ++ f2) ++ f3) ++ f4) ++ f5)); rewrite ?zlen_app; lia).
  cbn [bind]. destruct (le_Uint64_read l H1) as (u0 & E0 & <-). destruct (le_Uint64_read r H2) as (u1 & E1 & <-). destruct (le_Uint64_read f H3) as (u2 & E2 & <-).
  destruct (le_Uint64_read ns H4) as (u5 & E5 & <-). fold f0 in E0. fold f1 in E1. fold f2 in E2. fold f5 in E5.
  rewrite E0. cbn [bind]. rewrite E1. cbn [bind]. rewrite E2. cbn [bind]. unfold f3. rewrite Float64FromBytes_read by auto. cbn [bind].
  unfold f4. rewrite Float64FromBytes_read by auto. cbn [bind]. rewrite E5. cbn [bind]. unfold f6. rewrite Float64FromBytes_read by auto. reflexivity.
Qed.

(** ** Iterate *)
Lemma concat_zlen : forall n (cs : list bytes), Forall (fun c : bytes => zlen c = n) cs -> zlen (List.concat cs) = n * zlen cs.
Proof. intros n cs H. induction H as [|c cs Hc H IH]; [cbn [List.concat]; change (@zlen byte []) with 0; change (@zlen bytes []) with 0; lia|]. cbn [List.concat]. rewrite zlen_app, zlen_cons, IH, Hc, Z.mul_add_distr_l, Z.mul_1_r. reflexivity. Qed.

Lemma zseq_S : forall n, zseq (Z.of_nat (S n)) = zseq (Z.of_nat n) ++ [Z.of_nat n].
Proof. intros n. rewrite Nat2Z.inj_succ, <- Z.add_1_r. apply zseq_succ. lia. Qed.

Lemma iterate_chunks : forall A n (cs : list bytes) (parse : A -> bytes -> outcome A) acc, 0 < n -> Forall (fun c : bytes => zlen c = n) cs ->
  Iterate (List.concat cs) n parse acc = foldM parse cs acc.
Proof.
  intros A n cs parse acc Hn H. unfold Iterate. pose proof (concat_zlen _ _ H) as L. rewrite L, (Z.mul_comm n), Z.rem_mul by lia. change (negb (0 =? 0)) with false. cbv iota.
  rewrite Z.quot_mul by lia. unfold zlen at 1.
  assert (G : forall pre post : list bytes, cs = pre ++ post -> foldM (fun acc i => let* chunk := slice (List.concat cs) (i * n) ((i + 1) * n) in parse acc chunk) (zseq (Z.of_nat (List.length pre))) acc = foldM parse pre acc).
  { induction pre as [|c pre IH] using rev_ind; intros post E; [reflexivity|]. rewrite app_length, Nat.add_1_r, zseq_S, !foldM_app. rewrite <- app_assoc in E. rewrite (IH _ E). clear IH.
    destruct (foldM parse pre acc) as [a| | |]; auto. cbn [bind foldM]. rewrite E, concat_app. cbn [app List.concat]. rewrite E in H. apply Forall_app in H. destruct H as [H1 H2]. inversion H2; subst.
    rewrite slice_mid; [reflexivity| |lia]. rewrite (concat_zlen _ _ H1). unfold zlen. lia. }
  rewrite (G cs []); [reflexivity|]. rewrite app_nil_r. reflexivity.
Qed.

Lemma iterate_rejects : forall A b n (parse : A -> bytes -> outcome A) acc, 0 < n -> zlen b mod n <> 0 -> exists m, Iterate b n parse acc = Err m.
Proof.
  intros A b n parse acc Hn H. unfold Iterate. rewrite Z.rem_mod_nonneg by (pose proof (zlen_nonneg _ b); lia). destruct (zlen b mod n =? 0) eqn:E; [lia|]. eexists. reflexivity.
Qed.
Lemma foldM_append : forall X (f : bytes -> outcome X) (e : X -> bytes) (g : list X -> bytes -> outcome (list X)) xs acc,
  (forall acc b, g acc b = let* x := f b in Ok (acc ++ [x])) -> (forall x, In x xs -> f (e x) = Ok x) -> foldM g (map e xs) acc = Ok (acc ++ xs).
Proof.
  intros X f e g xs. induction xs as [|x xs IH]; intros acc Hg H; cbn [map foldM]; [rewrite app_nil_r; reflexivity|].
  rewrite Hg, H by (left; auto). cbn [bind]. rewrite IH; auto; [rewrite <- app_assoc; reflexivity|]. intros; apply H; right; auto.
Qed.
