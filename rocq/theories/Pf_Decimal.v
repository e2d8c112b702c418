(** * Decimal numerals are read back *)

From Coq Require Import ZArith List Bool String Lia ZifyBool.
From Verif Require Import Go GoText Spec_Decimal Spec_Pickle Pf_Go Pf_Text Pf_XgBin.
Local Open Scope Z_scope.

Lemma digit_cases : forall P : Z -> Prop, P 0 -> P 1 -> P 2 -> P 3 -> P 4 -> P 5 -> P 6 -> P 7 -> P 8 -> P 9 -> forall d, 0 <= d < 10 -> P d.
Proof.
  intros P P0 P1 P2 P3 P4 P5 P6 P7 P8 P9 d H.
  assert (d = 0 \/ d = 1 \/ d = 2 \/ d = 3 \/ d = 4 \/ d = 5 \/ d = 6 \/ d = 7 \/ d = 8 \/ d = 9) by lia.
  intuition; subst; auto.
Qed.

Lemma digits_cons : forall d s acc, 0 <= d < 10 -> digits (numeral_digit d :: s) acc = digits s (10 * acc + d).
Proof. intros d s acc H. revert d H. apply digit_cases; reflexivity. Qed.

Lemma digits_of_read : forall fuel n s acc, 0 <= n -> n < 2 ^ Z.of_nat fuel -> (0 < fuel)%nat ->
  exists m, 0 <= m /\ n < 10 ^ m /\ digits (digits_of fuel n s) acc = digits s (10 ^ m * acc + n).
Proof.
  induction fuel as [|fuel IH]; intros n s acc H0 H1 H2; [lia|]. cbn [digits_of]. destruct (Z.ltb_spec n 10).
  - exists 1. split; [lia|]. split; [lia|]. rewrite digits_cons by lia. f_equal.
  - assert (HF : (0 < fuel)%nat). { destruct fuel; [|lia]. change (2 ^ Z.of_nat 1) with 2 in H1. lia. }
    pose proof (Z.div_mod n 10 ltac:(lia)) as DM. pose proof (Z.mod_pos_bound n 10 ltac:(lia)) as MB.
    assert (Q : n / 10 < 2 ^ Z.of_nat fuel). { apply Z.div_lt_upper_bound; [lia|]. rewrite Nat2Z.inj_succ, Z.pow_succ_r in H1 by lia. lia. }
    destruct (IH (n / 10) (numeral_digit (n mod 10) :: s) acc ltac:(apply Z.div_pos; lia) Q HF) as (m & M0 & M1 & E).
    exists (m + 1). split; [lia|]. rewrite Z.pow_add_r by lia. change (10 ^ 1) with 10. split; [nia|]. rewrite E, digits_cons by lia. f_equal. remember (10 ^ m) as q. nia.
Qed.

Lemma digits_of_bytes : forall fuel n s b, 0 <= n -> In b (digits_of fuel n s) -> (exists d, 0 <= d < 10 /\ b = numeral_digit d) \/ In b s.
Proof.
  induction fuel as [|fuel IH]; intros n s b H I; cbn [digits_of] in I; [auto|]. destruct (Z.ltb_spec n 10).
  - destruct I as [<-|I]; [left; exists n; split; [lia|auto]|auto].
  - destruct (IH (n / 10) _ b ltac:(apply Z.div_pos; lia) I) as [Q|[<-|I']]; auto. left. exists (n mod 10). split; auto. apply Z.mod_pos_bound. lia.
Qed.

Lemma digits_of_nonempty : forall fuel n s, (0 < fuel)%nat -> digits_of fuel n s <> [].
Proof.
  assert (K : forall fuel n s, s <> [] -> digits_of fuel n s <> []).
  { induction fuel as [|fuel IH]; intros n s H; cbn [digits_of]; auto. destruct (n <? 10); [discriminate|]. apply IH. discriminate. }
  intros [|fuel] n s H; [lia|]. cbn [digits_of]. destruct (n <? 10); [discriminate|]. apply K. discriminate.
Qed.

Lemma parse_decimal_nat : forall n, 0 <= n -> parse_nat (decimal_nat n) = Some n.
Proof.
  intros n H. unfold decimal_nat, parse_nat. destruct (digits_of _ n []) eqn:E; [exfalso; eapply digits_of_nonempty; [|exact E]; lia|]. rewrite <- E.
  destruct (digits_of_read (S (Z.to_nat (Z.log2 n))) n [] 0 H) as (m & _ & _ & R); [|lia|].
  - rewrite Nat2Z.inj_succ, Z2Nat.id by apply Z.log2_nonneg. destruct (Z.eq_dec n 0) as [->|]; [reflexivity|]. apply Z.log2_spec. lia.
  - rewrite R. cbn [digits]. f_equal. lia.
Qed.

Lemma decimal_nat_bytes : forall n b, 0 <= n -> In b (decimal_nat n) -> exists d, 0 <= d < 10 /\ b = numeral_digit d.
Proof. intros n b H I. apply digits_of_bytes in I; auto. destruct I as [|[]]; auto. Qed.

Lemma parse_decimal : forall z, parse_signed (decimal z) = Some z.
Proof.
  intros z. unfold decimal. destruct (Z.ltb_spec z 0).
  - cbn [parse_signed]. change (Byte.eqb "-" "+") with false. change (Byte.eqb "-" "-") with true. cbv iota. rewrite parse_decimal_nat by lia. cbn. f_equal. lia.
  - pose proof (parse_decimal_nat z H) as P. unfold parse_signed. destruct (decimal_nat z) as [|c s] eqn:E; [discriminate|].
    destruct (decimal_nat_bytes z c H) as (d & D & ->); [rewrite E; left; auto|].
    replace (Byte.eqb (numeral_digit d) "+") with false by (revert d D E P; refine (digit_cases _ _ _ _ _ _ _ _ _ _ _); reflexivity).
    replace (Byte.eqb (numeral_digit d) "-") with false by (revert d D E P; refine (digit_cases _ _ _ _ _ _ _ _ _ _ _); reflexivity). exact P.
Qed.

Lemma decimal_inj : forall a b, decimal a = decimal b -> a = b.
Proof. intros a b H. pose proof (parse_decimal a) as A. rewrite H, parse_decimal in A. congruence. Qed.

Lemma decimal_bytes : forall z b, In b (decimal z) -> b = "-"%byte \/ exists d, 0 <= d < 10 /\ b = numeral_digit d.
Proof.
  intros z b I. unfold decimal in I. destruct (Z.ltb_spec z 0).
  - destruct I as [<-|I]; auto. right. apply (decimal_nat_bytes (- z)); [lia|auto].
  - right. eapply decimal_nat_bytes; eauto.
Qed.

Lemma decimal_one_line : forall z, one_line (decimal z).
Proof.
  intros z I. apply decimal_bytes in I. destruct I as [E|(d & D & E)]; [discriminate|]. revert d D E. refine (digit_cases _ _ _ _ _ _ _ _ _ _ _); discriminate.
Qed.
