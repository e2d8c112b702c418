(** * C65: what the scikit-learn loader accepts *)

From Coq Require Import ZArith List Bool String Lia ZifyBool.
From Verif Require Import Go GoFloat GoText LgTree TreeBuild Transformation Ensembles Leaves XgBin Pickle Pf_Fmt SkClasses SkIO
  Spec_Numpy Spec_Pickle Spec_SkFile Spec_SkAccept Pf_Go Pf_Text Pf_PickleDec.
Local Open Scope Z_scope.

Lemma same_length : forall A B (R : A -> B -> Prop) l l', Forall2 R l l' -> List.length l = List.length l'.
Proof. intros A B R l l' F. induction F; cbn; congruence. Qed.

Section Accept.
Variable h : heap.
Notation dn := (denotes h).

Lemma global_inv : forall v m n r o, toGlobal v m n = Ok r -> dn v o ->
  o = PGlobal (fst r) (snd r) /\ (m = [] \/ fst r = m) /\ (n = [] \/ snd r = n).
Proof.
  intros v m n r o H D. destruct v; try discriminate. cbn [toGlobal] in H.
  destruct (negb (beqb m []) && negb (beqb module m)) eqn:E1; [discriminate|]. destruct (negb (beqb n []) && negb (beqb name n)) eqn:E2; [discriminate|]. injection H as <-.
  inversion D; subst. split; [reflexivity|]. cbn [fst snd]. split.
  - destruct (beqb m []) eqn:A; [left; apply beqb_eq; auto|]. destruct (beqb module m) eqn:B; [right; apply beqb_eq; auto|discriminate].
  - destruct (beqb n []) eqn:A; [left; apply beqb_eq; auto|]. destruct (beqb name n) eqn:B; [right; apply beqb_eq; auto|discriminate].
Qed.
Lemma global_is : forall v m n r o, toGlobal v m n = Ok r -> dn v o -> m <> [] -> n <> [] -> o = PGlobal m n.
Proof. intros v m n r o H D Hm Hn. destruct (global_inv _ _ _ _ _ H D) as (-> & [A| ->] & [B| ->]); congruence. Qed.

Lemma parse_inv : forall A (red : A -> val -> list val -> outcome A) bld e v a o, ParseClass red bld e v = Ok a -> dn v o ->
  exists c args c' args' e1, red e c args = Ok e1 /\ dn c c' /\ Forall2 dn args args' /\
  (o = PReduce c' args' /\ a = e1 \/ exists st st', o = PBuild (PReduce c' args') st' /\ bld e1 st = Ok a /\ dn st st').
Proof.
  intros A red bld e v a o H D. unfold ParseClass in H. destruct v; try discriminate.
  - cbn [toReduce bind] in H. inversion D; subst. exists v, args, c', args', a. auto 8.
  - destruct v1; try discriminate. cbn [toReduce bind] in H. inversion D as [| | | | | | | | |? ? ? ? D1 D2]; subst. inversion D1; subst.
    apply bind_ok in H. destruct H as (e1 & E1 & E2). exists v1, args, c', args', e1. split; auto. split; auto. split; auto. right. exists v2, st'. auto.
Qed.
Lemma at_in : forall (l : list val) os i v, Forall2 dn l os -> at_ l i = Ok v -> exists o, zget os i = Some o /\ dn v o.
Proof.
  intros l os i v F H. apply at_ok in H. revert i H. induction F as [|x y l os D F IH]; intros i H.
  - apply zget_range in H. unfold zlen in H. cbn [List.length] in H. lia.
  - pose proof (zget_range _ _ _ _ H) as R. destruct (Z.eq_dec i 0) as [->|Ni].
    + rewrite zget_cons_0 in *. injection H as <-. exists y. auto.
    + rewrite zget_cons in * by lia. apply IH. exact H.
Qed.
Lemma len3 : forall (l : list val) os, Forall2 dn l os -> negb (zlen l =? 3) = false -> exists a b c, os = [a; b; c].
Proof.
  intros l os F H. assert (L : zlen l = 3) by lia. unfold zlen in L. apply same_length in F. destruct os as [|a [|b [|c [|d os]]]]; cbn in *; try lia. eauto.
Qed.
Lemma len2 : forall (l : list val) os, Forall2 dn l os -> negb (zlen l =? 2) = false -> exists a b, os = [a; b].
Proof.
  intros l os F H. assert (L : zlen l = 2) by lia. unfold zlen in L. apply same_length in F. destruct os as [|a [|b [|c os]]]; cbn in *; try lia. eauto.
Qed.
Lemma tuple_inv : forall v n l o, toTuple v n = Ok l -> dn v o -> exists os, o = PTuple os /\ Forall2 dn l os /\ (-1 < n -> zlen os = n).
Proof.
  intros v n l o H D. destruct v; try discriminate. cbn [toTuple] in H. destruct ((-1 <? n) && negb (zlen l0 =? n)) eqn:E; [discriminate|]. injection H as <-.
  inversion D; subst. exists os. split; [reflexivity|]. split; [auto|]. intros Hn. match goal with F : Forall2 _ _ _ |- _ => apply same_length in F end. unfold zlen in *. lia.
Qed.
Lemma unicode_inv : forall v n s o, toUnicode v n = Ok s -> dn v o -> o = PStr s /\ (-1 < n -> zlen s = n).
Proof.
  intros v n s o H D. destruct v; try discriminate. cbn [toUnicode] in H. destruct ((-1 <? n) && negb (zlen s0 =? n)) eqn:E; [discriminate|]. injection H as <-.
  inversion D; subst. split; [reflexivity|]. lia.
Qed.
Lemma int_inv : forall v z o, asInt v = Ok z -> dn v o -> o = PInt z.
Proof. intros v z o H D. destruct v; try discriminate. injection H as <-. inversion D; subst. reflexivity. Qed.
Lemma dict_inv : forall v a o, toDict v = Ok a -> dn v o -> exists kv, o = PDict kv /\ forall k w, dict_value (dict_at h a) k = Ok w -> exists x, lookup kv k = Some x /\ dn w x.
Proof.
  intros v a o H D. destruct v; try discriminate. injection H as <-. inversion D as [| | | | | |? d kv vs E F L| | |]; subst. exists kv. split; [reflexivity|].
  intros k w K. unfold dict_value, dict_at in K. rewrite E, L in K. clear -F K. revert kv F K. induction vs as [|v vs IH]; intros [|[k' o] kv] F K; inversion F; subst; try discriminate.
  cbn [map fst combine lookup] in *. destruct (beqb k k'); [injection K as <-; eauto|]. eauto.
Qed.
Lemma dict_int_inv : forall v a o, toDict v = Ok a -> dn v o -> exists kv, o = PDict kv /\
  (forall k w, dict_value (dict_at h a) k = Ok w -> exists x, lookup kv k = Some x /\ dn w x) /\
  (forall k z, dict_toInt h (dict_at h a) k = Ok z -> lookup kv k = Some (PInt z)).
Proof.
  intros v a o H D. destruct (dict_inv _ _ _ H D) as (kv & -> & K). exists kv. split; [reflexivity|]. split; [exact K|].
  intros k z E. unfold dict_toInt in E. apply bind_ok in E. destruct E as (w & Ew & Ez). destruct (K _ _ Ew) as (x & Ex & Dx). rewrite Ex. f_equal. destruct w; try (exfalso; exact (Errorf_ok _ _ _ _ _ Ez)). injection Ez as <-. inversion Dx; subst. reflexivity.
Qed.

Lemma dtype_inv : forall d v dt o, ParseClass (dtype_Reduce h) dtype_Build d v = Ok dt -> dn v o -> dtype_is (dtType dt) o (dtLittleEndian dt).
Proof.
  intros d v dt o H D. destruct (parse_inv _ _ _ _ _ _ _ H D) as (c & args & c' & args' & e1 & R & Dc & Da & C).
  unfold dtype_Reduce in R. apply bind_ok in R. destruct R as (g & G & R). destruct (negb (zlen args =? 3)) eqn:L; [try discriminate; exfalso; eapply Errorf_ok; eassumption|].
  apply bind_ok in R. destruct R as (a0 & A0 & R). apply bind_ok in R. destruct R as (u & U & R). injection R as <-.
  apply global_is with (o := c') in G; [|auto|discriminate|discriminate]. subst c'. destruct (len3 _ _ Da L) as (x & y & z & ->).
  destruct (at_in _ _ _ _ Da A0) as (o0 & E0 & D0). vm_compute in E0; injection E0 as <-. destruct (unicode_inv _ _ _ _ U D0) as (-> & _).
  destruct C as [(-> & ->)|(st & st' & -> & B & Ds)]; [cbn [dtType dtLittleEndian]; constructor|].
  unfold dtype_Build in B. apply bind_ok in B. destruct B as (t & T & B). apply bind_ok in B. destruct B as (t1 & T1 & B). apply bind_ok in B. destruct B as (en & En & B).
  apply bind_ok in B. destruct B as (ch & Ch & B). injection B as <-. cbn [dtType dtLittleEndian].
  destruct (tuple_inv _ _ _ _ T Ds) as (os & -> & Dt & Lt). specialize (Lt ltac:(lia)). destruct (at_in _ _ _ _ Dt T1) as (o1 & E1 & D1). destruct (unicode_inv _ _ _ _ En D1) as (-> & Le).
  specialize (Le ltac:(lia)). destruct os as [|v0 [|o1 fs]]; [discriminate..|]. rewrite zget_cons in E1 by lia. change (1 - 1) with 0 in E1. rewrite zget_cons_0 in E1. injection E1 as ->.
  destruct en as [|c0 [|c1 en]]; [discriminate| |unfold zlen in Le; cbn [List.length] in Le; lia]. cbn in Ch. injection Ch as <-. constructor. unfold zlen in *. cbn [List.length] in Lt. lia.
Qed.
Lemma raw_inv : forall b v data o, ParseClass (raw_Reduce h) raw_Build b v = Ok data -> dn v o -> bytes_value data o.
Proof.
  intros b v data o H D. destruct (parse_inv _ _ _ _ _ _ _ H D) as (c & args & c' & args' & e1 & R & Dc & Da & C).
  unfold raw_Reduce in R. apply bind_ok in R. destruct R as (g & G & R). destruct (negb (zlen args =? 2)) eqn:L; [try discriminate; exfalso; eapply Errorf_ok; eassumption|].
  apply bind_ok in R. destruct R as (a0 & A0 & U). apply global_is with (o := c') in G; [|auto|discriminate|discriminate]. subst c'. destruct (len2 _ _ Da L) as (x & y & ->).
  destruct (at_in _ _ _ _ Da A0) as (o0 & E0 & D0). vm_compute in E0; injection E0 as <-. destruct (unicode_inv _ _ _ _ U D0) as (-> & _).
  destruct C as [(-> & ->)|(st & st' & -> & B & Ds)]; [apply bv_plain; constructor|]. unfold raw_Build in B. injection B as <-. apply bv_state. constructor.
Qed.

(** an array: bare, or with its shape, type and elements *)
Lemma array_inv : forall v arr o, ParseClass (array_Reduce h) (array_Build h) noArray v = Ok arr -> dn v o ->
  arr = noArray \/
  exists dt payload, dtype_is (dtType (naType arr)) dt (dtLittleEndian (naType arr)) /\ array_is (naShape arr) dt payload o /\
    (bytes_value (naData arr) payload /\ naDataList arr = [] \/
     naData arr = [] /\ exists os, payload = PList os /\ Forall2 dn (naDataList arr) os).
Proof.
  intros v arr o H D. destruct (parse_inv _ _ _ _ _ _ _ H D) as (c & args & c' & args' & e1 & R & Dc & Da & C).
  unfold array_Reduce in R. apply bind_ok in R. destruct R as (g & G & R). destruct (negb (zlen args =? 3)) eqn:L; [try discriminate; exfalso; eapply Errorf_ok; eassumption|].
  apply bind_ok in R. destruct R as (a0 & A0 & R). apply bind_ok in R. destruct R as (g0 & G0 & R). injection R as <-.
  apply global_is with (o := c') in G; [|auto|discriminate|discriminate]. subst c'. destruct (len3 _ _ Da L) as (x & y & z & ->).
  destruct (at_in _ _ _ _ Da A0) as (o0 & E0 & D0). vm_compute in E0; injection E0 as <-. apply global_is with (o := x) in G0; [|auto|discriminate|discriminate]. subst x.
  destruct C as [(-> & ->)|(st & st' & -> & B & Ds)]; [left; reflexivity|]. right.
  unfold array_Build in B. apply bind_ok in B. destruct B as (t & T & B). destruct (tuple_inv _ _ _ _ T Ds) as (os & -> & Dt & Lt). specialize (Lt ltac:(lia)).
  apply bind_ok in B. destruct B as (b0 & B0 & B). apply bind_ok in B. destruct B as (i0 & I0 & B).
  apply bind_ok in B. destruct B as (b1 & B1 & B). apply bind_ok in B. destruct B as (st1 & T1 & B). apply bind_ok in B. destruct B as (shape & Sh & B).
  apply bind_ok in B. destruct B as (b2 & B2 & B). apply bind_ok in B. destruct B as (dt & Dt' & B).
  apply bind_ok in B. destruct B as (b3 & B3 & B). apply bind_ok in B. destruct B as (fo & Fo & B). destruct (negb (fo =? 0)) eqn:F0; [discriminate|].
  apply bind_ok in B. destruct B as (b4 & B4 & B).
  destruct (at_in _ _ _ _ Dt B0) as (x0 & X0 & Dx0). destruct (at_in _ _ _ _ Dt B1) as (x1 & X1 & Dx1). destruct (at_in _ _ _ _ Dt B2) as (x2 & X2 & Dx2).
  destruct (at_in _ _ _ _ Dt B3) as (x3 & X3 & Dx3). destruct (at_in _ _ _ _ Dt B4) as (x4 & X4 & Dx4).
  assert (os = [x0; x1; x2; x3; x4]) as ->.
  { destruct os as [|q0 [|q1 [|q2 [|q3 [|q4 [|q5 os]]]]]]; unfold zlen in Lt; cbn [List.length] in Lt; try lia. vm_compute in X0, X1, X2, X3, X4. congruence. }
  pose proof (int_inv _ _ _ I0 Dx0) as ->. pose proof (int_inv _ _ _ Fo Dx3) as ->. assert (fo = 0) by lia. subst fo.
  destruct (tuple_inv _ _ _ _ T1 Dx1) as (sh & -> & Dsh & _).
  assert (sh = map PInt shape) as ->.
  { clear -Sh Dsh. revert shape Sh. induction Dsh as [|a b l os D F IH]; intros shape Sh; cbn [mapM] in Sh; [injection Sh as <-; reflexivity|].
    apply bind_ok in Sh. destruct Sh as (z & Z0 & Sh). apply bind_ok in Sh. destruct Sh as (zs & Zs & Sh). injection Sh as <-. cbn [map]. f_equal; [eapply int_inv; eauto|auto]. }
  pose proof (dtype_inv _ _ _ _ Dt' Dx2) as Ty. exists x2, x4.
  destruct b4; try discriminate.
  - injection B as <-. cbn [naType naShape naData naDataList noArray]. split; [exact Ty|]. split; [constructor|]. right. split; [reflexivity|].
    inversion Dx4 as [| | | | |? ? ? l os E Ln Fl| | | |]; subst. exists os. split; [reflexivity|]. unfold list_elems, arr_at. rewrite E. exact Fl.
  - apply bind_ok in B. destruct B as (data & Da' & B). injection B as <-. cbn [naType naShape naData naDataList noArray]. split; [exact Ty|]. split; [constructor|]. left. split; [|reflexivity]. eapply raw_inv; eauto.
  - apply bind_ok in B. destruct B as (data & Da' & B). injection B as <-. cbn [naType naShape naData naDataList noArray]. split; [exact Ty|]. split; [constructor|]. left. split; [|reflexivity]. eapply raw_inv; eauto.
Qed.

Lemma iterate_ok_len : forall A b n (parse : A -> bytes -> outcome A) acc r, 0 < n -> Iterate b n parse acc = Ok r -> zlen b mod n = 0.
Proof.
  intros A b n parse acc r Hn H. unfold Iterate in H. destruct (Z.rem (zlen b) n =? 0) eqn:E; [|discriminate]. rewrite Z.rem_mod_nonneg in E; [lia| |lia]. unfold zlen. lia.
Qed.
(** a numeric array whose type was checked and whose bytes were visited *)
Lemma number_array_inv : forall A v arr o type n (parse : A -> bytes -> outcome A) acc r, 0 < n ->
  ParseClass (array_Reduce h) (array_Build h) noArray v = Ok arr -> dn v o -> dtType (naType arr) = type -> type <> [] ->
  Iterate (naData arr) n parse acc = Ok r -> number_array type (dtLittleEndian (naType arr)) n o.
Proof.
  intros A v arr o type n parse acc r Hn H D Ht Nt It. destruct (array_inv _ _ _ H D) as [->|(dt & pl & Dt & Ar & P)]; [cbn in Ht; congruence|].
  subst type. exists (naShape arr), pl. split; [exists dt; auto|]. destruct P as [(B & _)|(E & os & -> & _)].
  - left. exists (naData arr). split; [exact B|]. eapply iterate_ok_len; eauto.
  - right. eauto.
Qed.
Lemma int_array_inv : forall p want v zs o, int_array p h want v = Ok zs -> dn v o -> 0 <= want /\ number_array (bs "i8") true 8 o.
Proof.
  intros p want v zs o H D. unfold int_array in H. apply bind_ok in H. destruct H as (arr & Ea & H). apply bind_ok in H. destruct H as (bad & _ & H).
  destruct bad; [discriminate|]. destruct (not_i8 (naType arr)) eqn:N; [discriminate|]. apply bind_ok in H. destruct H as (u & M & H).
  unfold not_i8 in N. destruct (beqb (dtType (naType arr)) (bs "i8")) eqn:B; [|discriminate]. apply beqb_eq in B. destruct (dtLittleEndian (naType arr)) eqn:L; [|discriminate].
  split.
  - unfold make_check in M. destruct ((want <? 0) || (pl_maxalloc p <? want)) eqn:E; [discriminate|]. lia.
  - assert (Q : number_array (bs "i8") (dtLittleEndian (naType arr)) 8 o) by (eapply number_array_inv; [lia|exact Ea|exact D|exact B|discriminate|exact H]). rewrite L in Q. exact Q.
Qed.
Lemma scalar_inv : forall v s o, ParseClass (scalar_Reduce h) scalar_Build noScalar v = Ok s -> dn v o ->
  exists dt raw, dtype_is (dtType (nsType s)) dt (dtLittleEndian (nsType s)) /\ bytes_value (nsData s) raw /\
  let core := PReduce (PGlobal (bs "numpy.core.multiarray") (bs "scalar")) [dt; raw] in o = core \/ exists st, o = PBuild core st.
Proof.
  intros v s o H D. destruct (parse_inv _ _ _ _ _ _ _ H D) as (c & args & c' & args' & e1 & R & Dc & Da & C).
  unfold scalar_Reduce in R. apply bind_ok in R. destruct R as (g & G & R). destruct (negb (zlen args =? 2)) eqn:L; [try discriminate; exfalso; eapply Errorf_ok; eassumption|].
  apply bind_ok in R. destruct R as (a0 & A0 & R). apply bind_ok in R. destruct R as (dt & Dt & R). apply bind_ok in R. destruct R as (a1 & A1 & R). apply bind_ok in R. destruct R as (data & Dd & R). injection R as <-.
  apply global_is with (o := c') in G; [|auto|discriminate|discriminate]. subst c'. destruct (len2 _ _ Da L) as (x & y & ->).
  destruct (at_in _ _ _ _ Da A0) as (o0 & E0 & D0). vm_compute in E0; injection E0 as <-. destruct (at_in _ _ _ _ Da A1) as (o1 & E1 & D1). vm_compute in E1; injection E1 as <-.
  pose proof (dtype_inv _ _ _ _ Dt D0) as Ty. pose proof (raw_inv _ _ _ _ Dd D1) as Ra.
  assert (s = mkScalar dt data) as ->. { destruct C as [(_ & ->)|(st & st' & _ & B & _)]; [reflexivity|]. unfold scalar_Build in B. congruence. }
  exists x, y. split; [exact Ty|]. split; [exact Ra|]. destruct C as [(-> & _)|(st & st' & -> & _)]; [left; reflexivity|right; eauto].
Qed.
Lemma number_scalar_inv : forall v s o, ParseClass (scalar_Reduce h) scalar_Build noScalar v = Ok s -> dn v o -> 8 <= zlen (nsData s) ->
  number_scalar (dtType (nsType s)) (dtLittleEndian (nsType s)) o.
Proof. intros v s o H D L. destruct (scalar_inv _ _ _ H D) as (dt & raw & A & B & C). exists dt, raw, (nsData s). auto. Qed.

Lemma tree_inv : forall p t0 v t o, ParseClass (tree_Reduce p h) (tree_Build h) t0 v = Ok t -> dn v o -> tree_like o.
Proof.
  intros p t0 v t o H D. destruct (parse_inv _ _ _ _ _ _ _ H D) as (c & args & c' & args' & e1 & R & Dc & Da & C).
  unfold tree_Reduce in R. apply bind_ok in R. destruct R as (g & G & R). destruct (negb (zlen args =? 3)) eqn:L; [try discriminate; exfalso; eapply Errorf_ok; eassumption|].
  apply bind_ok in R. destruct R as (a2 & A2 & R). apply bind_ok in R. destruct R as (n & N & R). apply bind_ok in R. destruct R as (a1 & A1 & R). apply bind_ok in R. destruct R as (cl & Cl & R).
  apply global_is with (o := c') in G; [|auto|discriminate|discriminate]. subst c'. destruct (len3 _ _ Da L) as (x & y & z & ->).
  destruct (at_in _ _ _ _ Da A2) as (o2 & E2 & D2). vm_compute in E2; injection E2 as <-. destruct (at_in _ _ _ _ Da A1) as (o1 & E1 & D1). vm_compute in E1; injection E1 as <-.
  pose proof (int_inv _ _ _ N D2) as ->. destruct (int_array_inv _ _ _ _ _ Cl D1) as (_ & Na). exists x, y, n. split; [exact Na|].
  destruct C as [(-> & _)|(st & st' & -> & B & Ds)]; [left; reflexivity|right].
  unfold tree_Build in B. apply bind_ok in B. destruct B as (da & T & B). destruct (dict_int_inv _ _ _ T Ds) as (kv & -> & K & Ki).
  apply bind_ok in B. destruct B as (nn & Nn & B). apply bind_ok in B. destruct B as (no & No & B). apply bind_ok in B. destruct B as (arr & Ar & B).
  destruct (beqb (dtType (naType arr)) (bs "V56")) eqn:B1; [|discriminate]. cbn [negb] in B. apply beqb_eq in B1. apply bind_ok in B. destruct B as (nodes & It & B).
  apply bind_ok in B. destruct B as (vo & Vo & B). apply bind_ok in B. destruct B as (arr2 & Ar2 & B). destruct (beqb (dtType (naType arr2)) (bs "f8")) eqn:B2; [|discriminate]. cbn [negb] in B. apply beqb_eq in B2.
  apply bind_ok in B. destruct B as (vals & It2 & B).
  exists kv. split; [reflexivity|]. split; [exists (PInt nn); split; [apply Ki; exact Nn|eexists; reflexivity]|].
  destruct (K _ _ No) as (x1 & X1 & Dx1). destruct (K _ _ Vo) as (x2 & X2 & Dx2). split.
  - exists x1. split; [exact X1|]. eexists. eapply number_array_inv; [lia|exact Ar|exact Dx1|exact B1|discriminate|exact It].
  - exists x2. split; [exact X2|]. eexists. eapply number_array_inv; [lia|exact Ar2|exact Dx2|exact B2|discriminate|exact It2].
Qed.

(** the class of an instance *)
Lemma class_inv : forall m n c args n' c' args', reconstructor_class h m n c args = Ok n' -> m <> [] -> dn c c' -> Forall2 dn args args' ->
  (n = [] \/ n' = n) /\ exists a b, c' = PGlobal (bs "copy_reg") (bs "_reconstructor") /\ args' = [PGlobal m n'; a; b].
Proof.
  intros m n c args n' c' args' H Hm Dc Da. unfold reconstructor_class in H. apply bind_ok in H. destruct H as (g & G & H). destruct (negb (zlen args =? 3)) eqn:L; [try discriminate; exfalso; eapply Errorf_ok; eassumption|].
  apply bind_ok in H. destruct H as (a0 & A0 & H). apply bind_ok in H. destruct H as ([m1 n1] & G0 & H). injection H as <-.
  apply global_is with (o := c') in G; [|auto|discriminate|discriminate]. subst c'. destruct (len3 _ _ Da L) as (x & y & z & ->).
  destruct (at_in _ _ _ _ Da A0) as (o0 & E0 & D0). vm_compute in E0; injection E0 as <-. destruct (global_inv _ _ _ _ _ G0 D0) as (-> & Em & En). cbn [fst snd] in *.
  split; [exact En|]. exists y, z. split; [reflexivity|]. destruct Em as [| ->]; [congruence|reflexivity].
Qed.

Lemma le8 : forall b z, le_Uint64 b = Ok z -> 8 <= zlen b.
Proof. intros b z H. unfold le_Uint64 in H. destruct (zlen b <? 8) eqn:E; [discriminate|lia]. Qed.
Lemma f8 : forall b l z, Float64FromBytes b l = Ok z -> 8 <= zlen b.
Proof. intros b l z H. unfold Float64FromBytes in H. destruct (zlen b <? 8) eqn:E; [discriminate|lia]. Qed.

Lemma reg_inv : forall p t0 v t o, ParseClass (reg_Reduce h) (reg_Build p h) t0 v = Ok t -> dn v o -> regressor_like o.
Proof.
  intros p t0 v t o H D. destruct (parse_inv _ _ _ _ _ _ _ H D) as (c & args & c' & args' & e1 & R & Dc & Da & C).
  unfold reg_Reduce in R. apply bind_ok in R. destruct R as (n & N & R). injection R as <-. apply (class_inv _ _ _ _ _ c' args') in N; auto; [|discriminate].
  destruct N as ([N| ->] & a & b & -> & ->); [discriminate|]. destruct C as [(-> & _)|(st & st' & -> & B & Ds)]; [right; eauto|left].
  unfold reg_Build in B. apply bind_ok in B. destruct B as (da & T & B). destruct (dict_int_inv _ _ _ T Ds) as (kv & -> & K & Ki). exists kv. split; [constructor|].
  apply bind_ok in B. destruct B as (co & Co & B). apply bind_ok in B. destruct B as (raw & Ra & B). destruct (not_i8 (nsType raw)) eqn:N; [discriminate|].
  apply bind_ok in B. destruct B as (nc & Nc & B). apply bind_ok in B. destruct B as (mf & Mf & B). apply bind_ok in B. destruct B as (no & No & B).
  apply bind_ok in B. destruct B as (to & To & B). apply bind_ok in B. destruct B as (tr & Tr & B).
  destruct (K _ _ Co) as (x1 & X1 & Dx1). destruct (K _ _ To) as (x2 & X2 & Dx2).
  unfold not_i8 in N. destruct (beqb (dtType (nsType raw)) (bs "i8")) eqn:Bt; [|discriminate]. apply beqb_eq in Bt. destruct (dtLittleEndian (nsType raw)) eqn:Le; [|discriminate].
  split; [exists x1; split; [exact X1|]; rewrite <- Bt, <- Le; eapply number_scalar_inv; eauto; eapply le8; eauto|].
  split; [exists (PInt mf); split; [apply Ki; exact Mf|eexists; reflexivity]|]. split; [exists (PInt no); split; [apply Ki; exact No|eexists; reflexivity]|].
  exists x2. split; [exact X2|]. eapply tree_inv; eauto.
Qed.

Lemma init_inv : forall v i o, ParseClass (init_Reduce h) (init_Build h) (mkInit [] []) v = Ok i -> dn v o ->
  ieName i = bs "LogOddsEstimator" \/ ieName i = bs "PriorProbabilityEstimator" -> init_like o.
Proof.
  intros v i o H D Hn. destruct (parse_inv _ _ _ _ _ _ _ H D) as (c & args & c' & args' & e1 & R & Dc & Da & C).
  unfold init_Reduce in R. apply bind_ok in R. destruct R as (n & N & R). injection R as <-. apply (class_inv _ _ _ _ _ c' args') in N; auto; [|discriminate].
  destruct N as (_ & a & b & -> & ->). destruct C as [(-> & ->)|(st & st' & -> & B & Ds)].
  { cbn [ieName] in Hn. destruct Hn as [->| ->]; [left|right]; right; eauto. }
  unfold init_Build in B. cbn [ieName iePrior] in B. destruct (beqb n (bs "LogOddsEstimator")) eqn:E1.
  - left. left. apply beqb_eq in E1. subst n. apply bind_ok in B. destruct B as (da & T & B). destruct (dict_int_inv _ _ _ T Ds) as (kv & -> & K & _). exists kv. split; [constructor|].
    apply bind_ok in B. destruct B as (po & Po & B). destruct (K _ _ Po) as (x & X & Dx). apply bind_ok in B. destruct B as (s & Es & B).
    destruct (beqb (dtType (nsType s)) (bs "f8")) eqn:Bt; [|discriminate]. apply beqb_eq in Bt. cbn [negb] in B. apply bind_ok in B. destruct B as (f & F & B).
    exists x. split; [exact X|]. eexists. rewrite <- Bt. eapply number_scalar_inv; eauto. eapply f8; eauto.
  - destruct (beqb n (bs "PriorProbabilityEstimator")) eqn:E2; [|discriminate]. right. left. apply beqb_eq in E2. subst n. apply bind_ok in B. destruct B as (da & T & B).
    destruct (dict_int_inv _ _ _ T Ds) as (kv & -> & K & _). exists kv. split; [constructor|].
    apply bind_ok in B. destruct B as (po & Po & B). destruct (K _ _ Po) as (x & X & Dx). apply bind_ok in B. destruct B as (arr & Ar & B).
    destruct (beqb (dtType (naType arr)) (bs "f8")) eqn:Bt; [|discriminate]. apply beqb_eq in Bt.
    exists x. split; [exact X|]. destruct (array_inv _ _ _ Ar Dx) as [->|(dt & pl & Dt & A & _)]; [discriminate|].
    exists (dtLittleEndian (naType arr)), (naShape arr), pl. exists dt. rewrite <- Bt. auto.
Qed.
End Accept.

(** Whatever object was pickled: if loading succeeds it is a GradientBoostingClassifier of the
    form above, and the model has its number of scores. *)
Theorem C65_sklearn_accepts_only_models :
  forall p o s mu rest eof load e,
  enc p true [] o s mu -> SKEnsembleFromReader p (mkReader (s ++ "."%byte :: rest) eof) load = Ok e ->
  model_like (NRawOutputGroups e) o.
Proof.
  intros p o s mu rest eof load e En H. destruct (decode_enc p true o s mu rest eof En) as (v & h & Ed & D).
  unfold SKEnsembleFromReader in H. rewrite Ed in H. cbn [bind] in H. apply bind_ok in H. destruct H as (gb & G & H).
  unfold ParseGradientBoosting in G. destruct (parse_inv h _ _ _ _ _ _ _ G D) as (c & args & c' & args' & e1 & R & Dc & Da & C).
  unfold gb_Reduce in R. apply bind_ok in R. destruct R as (n & N & R). injection R as <-. apply (class_inv h _ _ _ _ _ c' args') in N; auto; [|discriminate].
  destruct N as ([N| ->] & a & b & -> & ->); [discriminate|]. unfold SKEnsembleFromClass in H. destruct C as [(-> & ->)|(st & st' & -> & B & Ds)]; [discriminate|].
  unfold gb_Build in B. apply bind_ok in B. destruct B as (da & T & B). destruct (dict_int_inv h _ _ _ T Ds) as (kv & -> & K & Ki).
  apply bind_ok in B. destruct B as (nc & Nc & B). apply bind_ok in B. destruct B as (lr & Lr & B). apply bind_ok in B. destruct B as (lo & Lo & B). apply bind_ok in B. destruct B as (ls & Ls & B).
  apply bind_ok in B. destruct B as (io & Io & B). apply bind_ok in B. destruct B as (ini & Ini & B). apply bind_ok in B. destruct B as (co & Co & B). apply bind_ok in B. destruct B as (cl & Cl & B).
  apply bind_ok in B. destruct B as (mf & Mf & B). apply bind_ok in B. destruct B as (ne & Ne & B). apply bind_ok in B. destruct B as (eo & Eo & B). apply bind_ok in B. destruct B as (arr & Ar & B).
  cbv zeta in B. destruct (naShape arr) as [|s0 [|s1 [|s2 sh]]] eqn:Sh; try discriminate.
  destruct ((s0 =? ne) && (s1 =? (if nc =? 2 then 1 else nc))) eqn:Es; [|discriminate]. cbn [negb] in B. destruct (zlen (naDataList arr) =? s64 (s0 * s1)) eqn:El; [|discriminate]. cbn [negb] in B.
  apply bind_ok in B. destruct B as (u & _ & B). apply bind_ok in B. destruct B as (regs & Rg & B). injection B as <-.
  cbn [gbNClasses gbNEstimators gbEstimators gbInit] in H. destruct (ne =? 0) eqn:E0; [discriminate|]. destruct (negb _) eqn:E1 in H; [discriminate|].
  apply bind_ok in H. destruct H as (base & Ba & H). apply bind_ok in H. destruct H as (u2 & _ & H). apply bind_ok in H. destruct H as (trees & _ & H). injection H as <-.
  change (NRawOutputGroups _) with (score_groups nc).
  assert (s0 = ne) by lia. assert (s1 = score_groups nc) by (unfold score_groups; lia). subst s0 s1.
  destruct (K _ _ Io) as (xi & Xi & Dxi). destruct (K _ _ Co) as (xc & Xc & Dxc). destruct (K _ _ Lo) as (xl & Xl & Dxl). destruct (K _ _ Eo) as (xe & Xe & Dxe).
  destruct (int_array_inv h _ _ _ _ _ Cl Dxc) as (Wn & Ca).
  exists kv, nc, ne. split; [constructor|]. split; [apply Ki; exact Nc|]. split; [exact Wn|]. split; [reflexivity|].
  split. { unfold dict_toFloat in Lr. apply bind_ok in Lr. destruct Lr as (w & Ew & Lr). destruct (K _ _ Ew) as (x & X & Dx). exists x. split; [exact X|]. destruct w; try (exfalso; exact (Errorf_ok _ _ _ _ _ Lr)). inversion Dx; subst. eauto. }
  split. { exists xl. split; [exact Xl|]. destruct (unicode_inv h _ _ _ _ Ls Dxl) as (-> & _). eauto. }
  split. { exists xi. split; [exact Xi|]. eapply init_inv; eauto. unfold sk_base in Ba. apply bind_ok in Ba. destruct Ba as (bb & _ & Ba).
    destruct (beqb (ieName ini) (bs "LogOddsEstimator")) eqn:Z1; [left; apply beqb_eq; auto|]. destruct (beqb (ieName ini) (bs "PriorProbabilityEstimator")) eqn:Z2; [right; apply beqb_eq; auto|discriminate]. }
  split. { exists xc. auto. }
  split. { exists (PInt mf). split; [apply Ki; exact Mf|eexists; reflexivity]. }
  split; [apply Ki; exact Ne|]. split; [lia|].
  exists xe. split; [exact Xe|]. destruct (array_inv h _ _ _ Ar Dxe) as [->|(dt & pl & Dt & A & P)]; [discriminate|]. rewrite Sh in A.
  exists (dtType (naType arr)), (dtLittleEndian (naType arr)), pl. split; [exists dt; auto|]. destruct P as [(Bv & El0)|(_ & os & -> & F)].
  - left. exists (naData arr). split; [exact Bv|]. rewrite El0 in El. unfold zlen in El. cbn [List.length] in El. lia.
  - right. exists os. split; [reflexivity|]. split. { pose proof (same_length _ _ _ _ _ F). unfold zlen in *. lia. }
    clear -F Rg. revert regs Rg. induction F as [|w x l os Dw F IH]; intros regs Rg; [constructor|]. cbn [mapM] in Rg. apply bind_ok in Rg. destruct Rg as (t & Et & Rg).
    apply bind_ok in Rg. destruct Rg as (ts & Ets & _). constructor; [eapply reg_inv; eauto|eauto].
Qed.
Print Assumptions C65_sklearn_accepts_only_models.

(** Objects of any other class are refused, whatever their attributes. *)
Corollary C65_other_class_refused :
  forall p m c kv o s mu rest eof load e,
  instance_is m c kv o -> (m, c) <> (bs "sklearn.ensemble.gradient_boosting", bs "GradientBoostingClassifier") ->
  enc p true [] o s mu -> SKEnsembleFromReader p (mkReader (s ++ "."%byte :: rest) eof) load <> Ok e.
Proof.
  intros p m c kv o s mu rest eof load e I N En H. destruct (C65_sklearn_accepts_only_models _ _ _ _ _ _ _ _ En H) as (kv' & cl & es & I' & _).
  inversion I; subst. inversion I'; subst. apply N. reflexivity.
Qed.
Print Assumptions C65_other_class_refused.

(** Column-major arrays are refused rather than read in the wrong order. *)
Corollary C65_column_major_refused :
  forall p kv o a s mu rest eof load e,
  instance_is (bs "sklearn.ensemble.gradient_boosting") (bs "GradientBoostingClassifier") kv o ->
  attr kv "classes_" a \/ attr kv "estimators_" a -> column_major a ->
  enc p true [] o s mu -> SKEnsembleFromReader p (mkReader (s ++ "."%byte :: rest) eof) load <> Ok e.
Proof.
  intros p kv o a s mu rest eof load e I A Cm En H. destruct (C65_sklearn_accepts_only_models _ _ _ _ _ _ _ _ En H) as (kv' & cl & es & I' & M).
  inversion I; subst. inversion I'; subst. destruct M as (_ & _ & _ & _ & _ & _ & (xc & Xc & (sh & pl & (dt & _ & Ar) & _)) & _ & _ & _ & (xe & Xe & (ty & li & pl' & (dt' & _ & Ar') & _))).
  unfold attr in *. destruct A as [A|A].
  - rewrite A in Xc. injection Xc as <-. inversion Cm; subst. inversion Ar; subst. congruence.
  - rewrite A in Xe. injection Xe as <-. inversion Cm; subst. inversion Ar'; subst. congruence.
Qed.
Print Assumptions C65_column_major_refused.
