(** * Lemmas about scikit-learn models loaded with fused multiply-add *)

From Coq Require Import ZArith List Bool Lia String SpecFloat Reals Lra.
From Flocq Require Import Core.Core IEEE754.BinarySingleNaN.
From Verif Require Import Go GoFloat Cmd LgTree TreeBuild Transformation Ensembles Leaves SkClasses SkIO Fused FusedSk Spec_Predict Spec_Split Spec_Round Spec_Fused Spec_FusedSk
  Pf_Go Pf_Float Pf_Tree Pf_Range Pf_Round Prop_Round Pf_Fused.
Local Open Scope Z_scope.

(** ** Adding zero *)
Lemma finite_same : forall a b : B64, is_finite a = true -> is_finite b = true -> B2R a = B2R b -> same_number (B2SF a) (B2SF b).
Proof.
  intros a b Fa Fb E. destruct (is_finite_strict a) eqn:Sa; [destruct (is_finite_strict b) eqn:Sb|].
  - left. f_equal. apply B2R_inj; auto.
  - exfalso. destruct b as [s|s| |s m e H]; try discriminate. destruct a as [s1|s1| |s1 m1 e1 H1]; try discriminate. cbn [B2R] in E.
    apply eq_0_F2R in E. destruct s1; discriminate.
  - destruct a as [s|s| |s m e H]; try discriminate. destruct b as [s1|s1| |s1 m1 e1 H1]; try discriminate.
    + right. cbn. eauto.
    + exfalso. cbn [B2R] in E. symmetry in E. apply eq_0_F2R in E. destruct s1; discriminate.
Qed.
Lemma fma_zero : forall x y, valid64 x = true -> valid64 y = true -> same_number (fadd (fmul x y) fzero) (ffma x y fzero).
Proof.
  intros x y Vx Vy. destruct (valid_B x Vx) as [a <-]. destruct (valid_B y Vy) as [b <-].
  change fzero with (B2SF (B754_zero false : B64)). set (c := (B754_zero false : B64)). rewrite ffma_B, fmul_B, fadd_B.
  destruct (is_finite a) eqn:Fa; [destruct (is_finite b) eqn:Fb|].
  2, 3: left; destruct a as [sa|sa| |sa ma ea Ba]; try discriminate; destruct b as [sb|sb| |sb mb eb Bb]; try discriminate; reflexivity.
  pose proof (Bfma_correct prec emax Hprec Hmax mode_NE a b c Fa Fb eq_refl) as C1. cbv zeta in C1.
  pose proof (Bmult_correct prec emax Hprec Hmax mode_NE a b) as C2. cbn [B2R] in C1. change (B2R c) with 0%R in C1. rewrite Rplus_0_r in C1.
  destruct (Rlt_bool _ _) eqn:O in C1; rewrite O in C2.
  - destruct C1 as (R1 & F1 & _), C2 as (R2 & F2 & _). rewrite Fa, Fb in F2. cbn in F2.
    pose proof (Bplus_correct prec emax Hprec Hmax mode_NE (Bmult mode_NE a b) c F2 eq_refl) as C3. change (B2R c) with 0%R in C3. rewrite Rplus_0_r in C3.
    rewrite (round_generic radix2 _ _ (B2R (Bmult mode_NE a b))) in C3 by apply generic_format_B2R.
    rewrite Rlt_bool_true in C3 by (apply abs_B2R_lt_emax).
    destruct C3 as (R3 & F3 & _). apply finite_same; auto. congruence.
  - assert (NZ : (B2R a * B2R b <> 0)%R).
    { intros Z. rewrite Z, round_0, Rabs_R0 in O by apply valid_rnd_round_mode. rewrite Rlt_bool_true in O by apply bpow_gt_0. discriminate. }
    left. rewrite C1. rewrite <- fadd_B, C2. unfold binary_overflow. cbn. f_equal. symmetry. destruct (xorb (Bsign a) (Bsign b)) eqn:X.
    + apply Rlt_bool_true. destruct (Bsign a) eqn:Sa, (Bsign b) eqn:Sb; try discriminate.
      * pose proof (sign_le a Sa). pose proof (sign_ge b Sb). nra.
      * pose proof (sign_ge a Sa). pose proof (sign_le b Sb). nra.
    + apply Rlt_bool_false. destruct (Bsign a) eqn:Sa, (Bsign b) eqn:Sb; try discriminate.
      * pose proof (sign_le a Sa). pose proof (sign_le b Sb). nra.
      * pose proof (sign_ge a Sa). pose proof (sign_ge b Sb). nra.
Qed.
Lemma fadd_swap : forall x y, valid64 x = true -> valid64 y = true -> fadd x y = fadd y x.
Proof.
  intros x y Vx Vy. destruct x as [sx|sx| |sx mx ex], y as [sy|sy| |sy my ey]; try reflexivity; try (destruct sx, sy; reflexivity).
  unfold fadd, SFadd. rewrite (Z.min_comm ex ey). f_equal. apply Z.add_comm.
Qed.

(** ** Same ends *)
Lemma same_bind : forall A B (R : A -> A -> Prop) (Q : B -> B -> Prop) x x' f f', same_end R x x' ->
  (forall a a', R a a' -> same_end Q (f a) (f' a')) -> same_end Q (bind x f) (bind x' f').
Proof. intros A B R Q x x' f f' H F. destruct H; cbn [bind]; auto; constructor. Qed.
Lemma same_refl : forall A (R : A -> A -> Prop) x, (forall a, R a a) -> same_end R x x.
Proof. intros A R [a|m|m|] H; constructor; auto. Qed.
Lemma same_bind_eq : forall A B (Q : B -> B -> Prop) (x : outcome A) f f', (forall a, x = Ok a -> same_end Q (f a) (f' a)) -> same_end Q (bind x f) (bind x f').
Proof. intros A B Q x f f' F. destruct x as [a|m|m|]; cbn [bind]; auto; constructor. Qed.

(** ** One tree *)
Definition node_choice (R : f64 -> f64 -> Prop) (x y : lgNode * lgTree) : Prop := fst x = fst y /\ same_but_leaves R (snd x) (snd y).
Lemma Forall2_zlen : forall A B (R : A -> B -> Prop) l l', Forall2 R l l' -> zlen l' = zlen l.
Proof. induction 1; [reflexivity|]. rewrite !zlen_cons. lia. Qed.

Lemma add_leaf : forall R t t' v v', same_but_leaves R t t' -> R v v' ->
  same_but_leaves R (tree_set_leaves t (tLeafValues t ++ [v])) (tree_set_leaves t' (tLeafValues t' ++ [v'])).
Proof.
  intros R t t' v v' (A & B & C & D & E) H. unfold same_but_leaves, tree_set_leaves. cbn. repeat match goal with |- _ /\ _ => split end; auto.
  apply Forall2_app; auto.
Qed.

Lemma value_choice : forall fuse values scale base i,
  same_end (leaf_choice values scale base) (sk_value values scale base i) (sk_value_fused fuse values scale base i).
Proof.
  intros fuse values scale base i. unfold sk_value, sk_value_fused. apply same_bind_eq. intros v Hv. constructor. exists v.
  apply at_ok in Hv. split; [eapply zget_in; eauto|]. split; [reflexivity|]. destruct (fuse i); auto.
Qed.

Lemma create_choice : forall fuse nodes values scale base t t' idx, same_but_leaves (leaf_choice values scale base) t t' ->
  same_end (node_choice (leaf_choice values scale base)) (sk_createNode nodes values scale base t idx) (sk_createNode_fused fuse nodes values scale base t' idx).
Proof.
  intros fuse nodes values scale base t t' idx T. unfold sk_createNode, sk_createNode_fused. apply same_bind_eq. intros rn _. apply same_bind_eq. intros l _.
  apply (same_bind _ _ (node_choice (leaf_choice values scale base))).
  - destruct (skLeftChild l <? 0); [|constructor; split; auto]. eapply same_bind; [apply value_choice|]. intros v v' H. constructor. unfold leaf_left. split; cbn [fst snd].
    + destruct T as (_ & _ & _ & _ & E). rewrite (Forall2_zlen _ _ _ _ _ E). reflexivity.
    + apply add_leaf; auto.
  - intros [n1 t1] [n2 t2] [E T1]. cbn [fst snd] in *. subst n2. apply same_bind_eq. intros r _.
    destruct (skLeftChild r <? 0); [|constructor; split; auto]. eapply same_bind; [apply value_choice|]. intros v v' H. constructor. unfold leaf_right. split; cbn [fst snd].
    + destruct T1 as (_ & _ & _ & _ & E). rewrite (Forall2_zlen _ _ _ _ _ E). reflexivity.
    + apply add_leaf; auto.
Qed.

(** ** The loop *)
Definition source_choice (R : f64 -> f64 -> Prop) (s s' : source) : Prop :=
  (forall t t' idx, same_but_leaves R t t' -> same_end (node_choice R) (src_create s t idx) (src_create s' t' idx)) /\
  (forall i, src_left s' i = src_left s i) /\ (forall i, src_right s' i = src_right s i).
Definition state_choice (R : f64 -> f64 -> Prop) (b b' : bstate) : Prop :=
  b_orig b' = b_orig b /\ b_conv b' = b_conv b /\ b_visited b' = b_visited b /\ same_but_leaves R (b_tree b) (b_tree b').
Definition option_choice (R : f64 -> f64 -> Prop) (b b' : option bstate) : Prop :=
  match b, b' with Some b, Some b' => state_choice R b b' | None, None => True | _, _ => False end.

Lemma push_choice : forall R s s' set o c b b', source_choice R s s' -> state_choice R b b' ->
  same_end (state_choice R) (push_child s set o c b) (push_child s' set o c b').
Proof.
  intros R s s' set o c b b' (S & _) (A & B & C & D). unfold push_child. rewrite A, B, C.
  apply (same_bind _ _ (node_choice R)); [apply S; exact D|]. intros [n t] [n' t'] [E T]. cbn [fst snd] in *. subst n'. destruct T as (N & T). rewrite N.
  apply same_bind_eq. intros vis _. apply same_bind_eq. intros par _. apply same_bind_eq. intros ns _. constructor.
  unfold state_choice. cbn. repeat match goal with |- _ /\ _ => split end; auto. unfold same_but_leaves, tree_set_nodes. cbn. tauto.
Qed.
Lemma left_choice : forall R s s' o c b b' q q', source_choice R s s' -> state_choice R b b' -> state_choice R q q' ->
  same_end (option_choice R) (build_left s o c b q) (build_left s' o c b' q').
Proof.
  intros R s s' o c b b' q q' S T Q. unfold build_left. pose proof T as (A & B & C & (N & _)). rewrite N, C. apply same_bind_eq. intros n _.
  destruct (has (nFlags n) leftLeaf); [constructor; exact Q|]. rewrite (proj1 (proj2 S)). apply same_bind_eq. intros oi _. apply same_bind_eq. intros v _.
  destruct v; [constructor; exact Q|]. eapply same_bind; [apply push_choice; eauto|]. intros; constructor; auto.
Qed.
Lemma step_choice : forall R s s' b b', source_choice R s s' -> state_choice R b b' -> same_end (option_choice R) (build_step s b) (build_step s' b').
Proof.
  intros R s s' b b' S T. unfold build_step. pose proof T as (A & B & C & D). rewrite A, B, C, (proj1 D).
  destruct (b_orig b) as [|o os]; [constructor; exact I|]. destruct (b_conv b) as [|c cs]; [constructor|]. cbv zeta.
  assert (Q : state_choice R (mkB os cs (b_visited b) (b_tree b)) (mkB os cs (b_visited b) (b_tree b'))) by (repeat split; cbn; try reflexivity; apply D).
  apply same_bind_eq. intros n _. destruct (has (nFlags n) rightLeaf); [apply left_choice; auto|]. rewrite (proj2 (proj2 S)).
  apply same_bind_eq. intros oi _. apply same_bind_eq. intros v _. destruct v; [apply left_choice; auto|].
  eapply same_bind; [apply push_choice; eauto|]. intros; constructor; auto.
Qed.
Lemma loop_choice : forall R s s' fuel b b', source_choice R s s' -> state_choice R b b' ->
  same_end (same_but_leaves R) (build_loop s fuel b) (build_loop s' fuel b').
Proof.
  induction fuel as [|fuel IH]; intros b b' S T; cbn [build_loop]; [constructor|]. eapply same_bind; [apply step_choice; eauto|].
  intros [q|] [q'|] H; cbn in H; try contradiction; [apply IH; auto|]. constructor. apply T.
Qed.
Lemma tree_choice : forall fuse p tree scale base,
  same_end (same_but_leaves (leaf_choice (stValues (srTree tree)) scale base))
    (lgTreeFromSklearnDecisionTreeRegressor p tree scale base) (lgTreeFromSklearn_fused fuse p tree scale base).
Proof.
  intros fuse p tree scale base. unfold lgTreeFromSklearnDecisionTreeRegressor, lgTreeFromSklearn_fused. cbv zeta.
  destruct (negb _); [constructor|]. destruct (_ =? 0).
  - eapply same_bind; [apply value_choice|]. intros v v' H. constructor. unfold same_but_leaves. cbn. auto 10.
  - apply same_bind_eq. intros _ _. unfold build. cbv zeta.
    assert (E : same_but_leaves (leaf_choice (stValues (srTree tree)) scale base) emptyTree emptyTree) by (unfold same_but_leaves; cbn; auto).
    eapply same_bind; [apply (create_choice fuse); exact E|]. intros [n t] [n' t'] [X T]. cbn [fst snd] in *. subst n'. apply loop_choice.
    + split; [|auto]. intros. apply create_choice. auto.
    + unfold state_choice. cbn. repeat match goal with |- _ /\ _ => split end; auto. destruct T as (N & T). unfold same_but_leaves, tree_set_nodes. cbn. rewrite N. tauto.
Qed.
