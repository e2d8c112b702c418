(** * The floating point batch count is the exact ceiling *)

From Coq Require Import ZArith Bool Reals Lia Lra.
From Flocq Require Import Core.Core IEEE754.BinarySingleNaN.
From Verif Require Import Go GoFloat Leaves Pf_Float.
Local Open Scope Z_scope.

Lemma nBatches_bounds : forall n, 0 < n <= 2 ^ 53 ->
  (nBatches_of n - 1) * BatchSize < n <= nBatches_of n * BatchSize.
Proof.
  intros n Hn. unfold nBatches_of, BatchSize.
  destruct (of_Z_exact n ltac:(lia)) as (a & -> & Ra & Fa).
  destruct (of_Z_exact 16 ltac:(lia)) as (c & -> & Rc & Fc).
  assert (Hq : (B2R a / B2R c)%R = F2R (Float radix2 n (-4))).
  { rewrite Ra, Rc. unfold F2R. simpl. lra. }
  destruct (div_exact a c n (-4) Fa) as (b & -> & Rb & Fb); try lia; auto.
  { rewrite Rc. lra. }
  unfold fceil_int. rewrite (trunc_B b Fb).
  set (q := Ztrunc (B2R b)).
  assert (Hb : B2R b = (IZR n / 16)%R) by (rewrite Rb, Ra, Rc; auto).
  assert (Hb0 : (0 <= B2R b)%R) by (rewrite Hb;
     assert (0 < IZR n)%R by (apply IZR_lt; lia); lra).
  assert (Hqf : q = n / 16).
  { unfold q. rewrite Ztrunc_floor by auto. rewrite Hb. apply Zfloor_div. lia. }
  assert (Hq0 : 0 <= q) by (rewrite Hqf; apply Z.div_pos; lia).
  pose proof (Z_div_mod_eq_full n 16) as Hdm. rewrite <- Hqf in Hdm.
  pose proof (Z.mod_pos_bound n 16 ltac:(lia)) as Hmod.
  destruct (of_Z_exact q) as (d & -> & Rd & Fd).
  { lia. }
  rewrite (flt_B d b Fd Fb). rewrite Rd, Hb.
  destruct (Rlt_bool_spec (IZR q) (IZR n / 16)) as [Hlt|Hge].
  - assert (Hi : (IZR q * 16 < IZR n)%R) by lra.
    rewrite <- mult_IZR in Hi. apply lt_IZR in Hi. lia.
  - assert (Hi : (IZR n <= IZR q * 16)%R) by lra.
    rewrite <- mult_IZR in Hi. apply le_IZR in Hi. lia.
Qed.

Lemma nBatches_ceil : forall n, 0 < n <= 2 ^ 53 -> nBatches_of n = (n + 15) / 16.
Proof.
  intros n Hn. pose proof (nBatches_bounds n Hn) as H. unfold BatchSize in H.
  apply Z.div_unique with (r := n + 15 - 16 * nBatches_of n); lia.
Qed.
