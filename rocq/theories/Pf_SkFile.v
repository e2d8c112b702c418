(** * Reading the classes of a sklearn model from decoded values *)

From Coq Require Import ZArith List Bool String Lia ZifyBool.
From Verif Require Import Go GoFloat GoText XgBin Pickle SkClasses.
From Verif Require Import Spec_XgBin Spec_Numpy Spec_Pickle Spec_SkTree Spec_SkFile.
From Verif Require Import Pf_Go Pf_Text Pf_Pickle Pf_Numpy Pf_XgBin Prop_Pickle Prop_Xg.
Local Open Scope Z_scope.

Section Read.
Variables (p : platform) (h : heap).
Notation dn := (denotes h).

Lemma dn_tuple_inv : forall v os, dn v (PTuple os) -> exists vs, v = VTuple vs /\ Forall2 dn vs os.
Proof. intros v os H. inversion H; subst. eauto. Qed.
Lemma dn_reduce_inv : forall v c os, dn v (PReduce c os) -> exists c' vs, v = VReduce c' vs /\ dn c' c /\ Forall2 dn vs os.
Proof. intros v c os H. inversion H; subst. eauto. Qed.
Lemma dn_build_inv : forall v o st, dn v (PBuild o st) -> exists o' st', v = VBuild o' st' /\ dn o' o /\ dn st' st.
Proof. intros v o st H. inversion H; subst. eauto. Qed.
Lemma dn_global_inv : forall v m n, dn v (PGlobal m n) -> v = VGlobal m n.
Proof. intros v m n H. inversion H; subst. auto. Qed.
Lemma dn_int_inv : forall v z, dn v (PInt z) -> v = VInt z.
Proof. intros v z H. inversion H; subst. auto. Qed.
Lemma dn_float_inv : forall v z, dn v (PFloat z) -> v = VFloat z.
Proof. intros v z H. inversion H; subst. auto. Qed.
Lemma dn_str_inv : forall v s, dn v (PStr s) -> v = VUnicode s.
Proof. intros v s H. inversion H; subst. auto. Qed.

Lemma lookup_combine : forall kv vs k o, Forall2 dn vs (map snd kv) -> lookup kv k = Some o ->
  exists v, lookup (combine (map fst kv) vs) k = Some v /\ dn v o.
Proof.
  induction kv as [|[k' o'] kv IH]; intros vs k o F L; [discriminate|]. cbn [map fst snd] in *. inversion F as [|v ? vs' ? Hd F']; subst.
  cbn [combine lookup] in *. destruct (beqb k k'); [injection L as <-; eauto|]. eauto.
Qed.
Lemma dn_dict_inv : forall v kv, dn v (PDict kv) -> exists a, toDict v = Ok a /\
  forall k o, lookup kv k = Some o -> exists w, dict_value (dict_at h a) k = Ok w /\ dn w o.
Proof.
  intros v kv H. inversion H as [| | | | | |a d kv' vs E F L| | |]; subst. exists a. split; [reflexivity|]. intros k o K.
  destruct (lookup_combine _ _ _ _ F K) as (w & W & D). exists w. split; auto. unfold dict_value, dict_at. rewrite E, L, W. reflexivity.
Qed.
Lemma dn_list_inv : forall v os, dn v (PList os) -> exists a len cap, v = VList a len cap /\ Forall2 dn (list_elems h a len) os.
Proof.
  intros v os H. inversion H as [| | | | |a len cap l os' E L F| | | |]; subst. exists a, (zlen os), cap. split; auto.
  unfold list_elems, arr_at. rewrite E. auto.
Qed.

Lemma F2_zlen : forall A B (R : A -> B -> Prop) a b, Forall2 R a b -> zlen a = zlen b.
Proof. intros A B R a b H. induction H as [|x y a b _ _ IH]; [reflexivity|]. rewrite (zlen_cons _ x), (zlen_cons _ y). lia. Qed.

Ltac inv2 := repeat match goal with
  | H : Forall2 _ _ (_ :: _) |- _ => let x := fresh "v" in let t := fresh "t" in inversion H as [|x ? t ? ? ?]; subst; clear H
  | H : Forall2 _ _ [] |- _ => inversion H; subst; clear H
  end.
Ltac globals := repeat match goal with
  | H : denotes _ _ (PGlobal _ _) |- _ => apply dn_global_inv in H; subst
  | H : denotes _ _ (PInt _) |- _ => apply dn_int_inv in H; subst
  | H : denotes _ _ (PFloat _) |- _ => apply dn_float_inv in H; subst
  | H : denotes _ _ (PStr _) |- _ => apply dn_str_inv in H; subst
  end.

Lemma read_dtype : forall type o little v d0, dtype_is type o little -> dn v o ->
  ParseClass (dtype_Reduce h) dtype_Build d0 v = Ok (mkDType little type).
Proof.
  intros type o little v d0 H D. destruct H as [a b w order fs L|a b].
  - apply dn_build_inv in D. destruct D as (o' & st' & -> & D1 & D2). apply dn_reduce_inv in D1. destruct D1 as (c & vs & -> & C & F).
    apply dn_tuple_inv in D2. destruct D2 as (vt & -> & F2). pose proof (F2_zlen _ _ _ _ _ F2) as L2. inv2. globals.
    unfold ParseClass. cbn [toReduce bind]. unfold dtype_Reduce at 1.
    change (toGlobal _ _ _) with (Ok (bs "numpy", bs "dtype")). cbn [bind]. match goal with |- context [zlen ?l =? 3] => match l with [?a0; ?a1; ?a2] => change (zlen l =? 3) with true; change (at_ l 0) with (Ok a0) end end.
    cbn [negb bind toUnicode]. change (-1 <? -1) with false. cbn [andb]. cbv iota. cbn [bind].
    unfold dtype_Build. cbn [toTuple]. rewrite L2, !zlen_cons, L. change ((-1 <? 8) && negb (1 + (1 + 6) =? 8)) with false. cbv iota. cbn [bind].
    unfold at_. rewrite zget_cons by lia. change (1 - 1) with 0. rewrite zget_cons_0. cbn [bind toUnicode].
    change ((-1 <? 1) && negb (zlen [order] =? 1)) with false. cbv iota. cbn [bind]. rewrite zget_cons_0. reflexivity.
  - apply dn_reduce_inv in D. destruct D as (c & vs & -> & C & F). inv2. globals.
    unfold ParseClass. cbn [toReduce bind]. unfold dtype_Reduce.
    change (toGlobal _ _ _) with (Ok (bs "numpy", bs "dtype")). cbn [bind]. reflexivity.
Qed.

Lemma read_raw : forall data o v b0, raw_is data o -> dn v o -> ParseClass (raw_Reduce h) raw_Build b0 v = Ok data.
Proof.
  intros data o v b0 H D. destruct H as [coding]. apply dn_reduce_inv in D. destruct D as (c & vs & -> & C & F). inv2. globals.
  unfold ParseClass. cbn [toReduce bind]. unfold raw_Reduce. change (toGlobal _ _ _) with (Ok (bs "_codecs", bs "encode")). reflexivity.
Qed.

Lemma read_shape : forall shape vs, Forall2 dn vs (map PInt shape) -> mapM asInt vs = Ok shape.
Proof.
  induction shape as [|z shape IH]; intros vs F; cbn [map] in F; inversion F as [|v ? vs' ? Hv F']; subst; [reflexivity|]. globals. cbn [mapM asInt bind]. rewrite (IH _ F'). reflexivity.
Qed.

(** an array, as far as the payload *)
Lemma read_array : forall shape dt payload o v type little, array_is shape dt payload o -> dtype_is type dt little -> dn v o ->
  exists w, dn w payload /\
    ParseClass (array_Reduce h) (array_Build h) noArray v =
    match w with
    | VBuild _ _ | VReduce _ _ => let* data := ParseClass (raw_Reduce h) raw_Build [] w in Ok (mkArray (mkDType little type) shape data [])
    | VList addr len _ => Ok (mkArray (mkDType little type) shape [] (list_elems h addr len))
    | _ => Err "unexpected type"
    end.
Proof.
  intros shape dt payload o v type little H Hd D. destruct H as [a b ver]. apply dn_build_inv in D. destruct D as (o' & st' & -> & D1 & D2).
  apply dn_reduce_inv in D1. destruct D1 as (c & vs & -> & C & F). apply dn_tuple_inv in D2. destruct D2 as (vt & -> & F2). inv2. globals.
  match goal with H : denotes _ _ (PTuple (map PInt shape)) |- _ => apply dn_tuple_inv in H; destruct H as (ss & -> & Fs) end.
  match goal with H : denotes _ ?x payload |- _ => exists x; split; [exact H|] end.
  unfold ParseClass at 1. cbn [toReduce bind]. unfold array_Reduce at 1. change (toGlobal _ _ (bs "_reconstruct")) with (Ok (bs "numpy.core.multiarray", bs "_reconstruct")).
  cbn [bind]. match goal with |- context [negb (zlen [?a; ?b; ?c] =? 3)] => change (negb (zlen [a; b; c] =? 3)) with false; change (at_ [a; b; c] 0) with (Ok a) end.
  cbv iota. cbn [bind]. change (toGlobal _ _ (bs "ndarray")) with (Ok (bs "numpy", bs "ndarray")). cbn [bind].
  unfold array_Build. cbn [toTuple].
  match goal with |- context [zlen ?l =? 5] => change (zlen l =? 5) with true; set (args := l) end.
  cbn [negb]. rewrite andb_false_r. cbn [bind]. change (at_ args 0) with (Ok (VInt ver)). change (at_ args 1) with (Ok (VTuple ss)).
  change (at_ args 3) with (Ok (VInt 0)). cbn [bind]. change (asInt (VInt ver)) with (Ok ver). change (asInt (VInt 0)) with (Ok 0). cbn [bind toTuple].
  change (-1 <? -1) with false. cbn [andb]. cbv iota. cbn [bind]. rewrite (read_shape _ _ Fs). cbn [bind].
  match eval unfold args in args with [_; _; ?d; _; ?e] => change (at_ args 2) with (Ok d); change (at_ args 4) with (Ok e) end. cbn [bind].
  erewrite read_dtype by eauto. cbn [bind negb]. change (negb (0 =? 0)) with false. cbv iota. reflexivity.
Qed.

Lemma read_raw_array : forall A type shape (e : bool -> A -> bytes) xs little o v, raw_array_is type shape e xs little o -> dn v o ->
  ParseClass (array_Reduce h) (array_Build h) noArray v = Ok (mkArray (mkDType little type) shape (flat_map (e little) xs) []).
Proof.
  intros A type shape e xs little o v H D. destruct H as [dt raw little o Hd Hr Ha].
  destruct (read_array _ _ _ _ _ _ _ Ha Hd D) as (w & Dw & ->). pose proof (read_raw _ _ _ [] Hr Dw) as R. destruct Hr. apply dn_reduce_inv in Dw.
  destruct Dw as (c & vs & -> & _). rewrite R. reflexivity.
Qed.
Lemma read_object_array : forall shape os o v, object_array_is shape os o -> dn v o ->
  exists dt l, ParseClass (array_Reduce h) (array_Build h) noArray v = Ok (mkArray dt shape [] l) /\ Forall2 dn l os.
Proof.
  intros shape os o v H D. destruct H as [type dt little o Hd Ha]. destruct (read_array _ _ _ _ _ _ _ Ha Hd D) as (w & Dw & ->).
  apply dn_list_inv in Dw. destruct Dw as (a & len & cap & -> & F). eauto.
Qed.
Lemma read_scalar : forall A type (e : bool -> A -> bytes) x little o v, scalar_is type e x little o -> dn v o ->
  ParseClass (scalar_Reduce h) scalar_Build noScalar v = Ok (mkScalar (mkDType little type) (e little x)).
Proof.
  intros A type e x little o v H D. destruct H as [dt raw little Hd Hr]. apply dn_reduce_inv in D. destruct D as (c & vs & -> & C & F). inv2. globals.
  unfold ParseClass at 1. cbn [toReduce bind]. unfold scalar_Reduce. change (toGlobal _ _ _) with (Ok (bs "numpy.core.multiarray", bs "scalar")). cbn [bind].
  match goal with |- context [zlen ?l =? 2] => match l with [?a0; ?a1] => change (zlen l =? 2) with true; change (at_ l 0) with (Ok a0); change (at_ l 1) with (Ok a1) end end.
  cbn [negb bind]. erewrite read_dtype by eauto. cbn [bind]. erewrite read_raw by eauto. reflexivity.
Qed.

Lemma read_ints : forall want xs o v, raw_array_is (bs "i8") [want] e_i64 xs true o -> Forall int64 xs -> dn v o ->
  0 <= want <= pl_maxalloc p -> int_array p h want v = Ok xs.
Proof.
  intros want xs o v H F D B. unfold int_array. rewrite (read_raw_array _ _ _ _ _ _ _ _ H D). cbn [bind naShape naType naData].
  change (bad_shape [want] want) with (Ok false). cbn [bind]. change (not_i8 _) with false. cbv iota. rewrite make_check_ok by lia. cbn [bind].
  change (e_i64 true) with e8. apply C45_int_array. auto.
Qed.

Ltac dict D := apply dn_dict_inv in D; let a := fresh "a" in let E := fresh "Ea" in let K := fresh "K" in destruct D as (a & E & K); rewrite E; cbn [bind]; clear E.
Ltac key K A := let w := fresh "w" in let E := fresh "E" in let D := fresh "Dw" in destruct (K _ _ A) as (w & E & D).

Lemma read_tree : forall t o v, tree_is t o -> dn v o -> 0 <= stNOutputs t <= pl_maxalloc p ->
  ParseClass (tree_Reduce p h) (tree_Build h) noTree v = Ok t.
Proof.
  intros t o v H D B. destruct H as [nf classes kv nodes values sh1 sh2 l1 l2 Hc Fc A1 A2 Hn Fn A3 Hv Fv]. apply dn_build_inv in D. destruct D as (o' & st' & -> & D1 & D2).
  apply dn_reduce_inv in D1. destruct D1 as (c & vs & -> & C & F). inv2. globals.
  unfold ParseClass at 1. cbn [toReduce bind]. unfold tree_Reduce at 1. change (toGlobal _ _ _) with (Ok (bs "sklearn.tree._tree", bs "Tree")). cbn [bind].
  match goal with |- context [zlen ?l =? 3] => match l with [?a0; ?a1; ?a2] => change (zlen l =? 3) with true; change (at_ l 1) with (Ok a1); change (at_ l 2) with (Ok a2) end end.
  cbn [negb bind asInt]. erewrite read_ints by eauto. cbn [bind]. unfold tree_Build.
  dict D2. key K A1. key K A2. key K A3. unfold dict_toInt. rewrite E. cbn [bind]. globals. cbn [asInt bind]. rewrite E0. cbn [bind].
  rewrite (read_raw_array _ _ _ _ _ _ _ _ Hn Dw0). cbn [bind naType naData dtType]. change (negb (beqb (bs "V56") (bs "V56"))) with false. cbv iota.
  cbn [stNodes noTree]. rewrite C45_node_array by auto. cbn [bind]. rewrite E1. cbn [bind].
  rewrite (read_raw_array _ _ _ _ _ _ _ _ Hv Dw1). cbn [bind naType naData dtType dtLittleEndian]. change (negb (beqb (bs "f8") (bs "f8"))) with false. cbv iota.
  cbn [stValues noTree]. rewrite C45_float_array by auto. cbn [bind stNOutputs stClasses]. destruct t. reflexivity.
Qed.

Lemma read_instance : forall A (red : A -> val -> list val -> outcome A) (build : A -> val -> outcome A) e module class kv o v,
  instance_is module class kv o -> dn v o ->
  exists a b st, dn st (PDict kv) /\
  ParseClass red build e v = let* e := red e (VGlobal (bs "copy_reg") (bs "_reconstructor")) [VGlobal module class; a; b] in build e st.
Proof.
  intros A red build e module class kv o v H D. destruct H as [a b]. apply dn_build_inv in D. destruct D as (o' & st' & -> & D1 & D2).
  apply dn_reduce_inv in D1. destruct D1 as (c & vs & -> & C & F). inv2. globals. do 3 eexists. split; [exact D2|]. reflexivity.
Qed.

Lemma read_reg : forall r o v, reg_is r o -> dn v o -> 0 <= stNOutputs (srTree r) <= pl_maxalloc p ->
  ParseClass (reg_Reduce h) (reg_Build p h) noRegressor v = Ok r.
Proof.
  intros r o v H D B. destruct H as [kv classes tree o Hi A1 Hs Fs A2 A3 A4 Ht].
  destruct (read_instance _ (reg_Reduce h) (reg_Build p h) noRegressor _ _ _ _ _ Hi D) as (a & b & st & Ds & ->).
  unfold reg_Reduce, reconstructor_class. change (toGlobal _ (bs "copy_reg") _) with (Ok (bs "copy_reg", bs "_reconstructor")). cbn [bind].
  match goal with |- context [zlen ?l =? 3] => match l with [?a0; ?a1; ?a2] => change (zlen l =? 3) with true; change (at_ l 0) with (Ok a0) end end.
  cbn [negb bind]. change (toGlobal _ _ _) with (Ok (bs "sklearn.tree.tree", bs "DecisionTreeRegressor")). cbn [bind].
  unfold reg_Build. dict Ds. key K A1. key K A2. key K A3. key K A4. globals. rewrite E. cbn [bind]. rewrite (read_scalar _ _ _ _ _ _ _ Hs Dw). cbn [bind nsType nsData].
  change (not_i8 _) with false. cbv iota. destruct (le_Uint64_read _ Fs) as (u & Eu & Su). change (e_i64 true (srNClasses r)) with (e8 (srNClasses r)). rewrite Eu. cbn [bind].
  unfold dict_toInt. rewrite E0, E1. cbn [bind asInt]. rewrite E2. cbn [bind srTree noRegressor]. rewrite (read_tree _ _ _ Ht Dw2 B). cbn [bind]. rewrite Su. destruct r. reflexivity.
Qed.

Lemma read_init : forall i o v, init_is i o -> dn v o -> ParseClass (init_Reduce h) (init_Build h) (mkInit [] []) v = Ok i.
Proof.
  intros i o v H D. destruct H as [kv prior b little o Hi A1 Hs Fb|kv priors pr shape little o Hi A1 Hs Fb];
    destruct (read_instance _ (init_Reduce h) (init_Build h) (mkInit [] []) _ _ _ _ _ Hi D) as (a & b' & st & Ds & ->);
    unfold init_Reduce, reconstructor_class; change (toGlobal _ (bs "copy_reg") _) with (Ok (bs "copy_reg", bs "_reconstructor")); cbn [bind];
    (match goal with |- context [zlen ?l =? 3] => match l with [?a0; ?a1; ?a2] => change (zlen l =? 3) with true; change (at_ l 0) with (Ok a0) end end);
    cbn [negb bind].
  - change (toGlobal _ _ _) with (Ok (bs "sklearn.ensemble.gradient_boosting", bs "LogOddsEstimator")). cbn [bind]. unfold init_Build. cbn [ieName iePrior].
    change (beqb (bs "LogOddsEstimator") (bs "LogOddsEstimator")) with true. cbv iota. dict Ds. key K A1. rewrite E. cbn [bind].
    rewrite (read_scalar _ _ _ _ _ _ _ Hs Dw). cbn [bind nsType nsData dtType dtLittleEndian]. change (negb (beqb (bs "f8") (bs "f8"))) with false. cbv iota.
    rewrite Float64FromBytes_read by auto. reflexivity.
  - change (toGlobal _ _ _) with (Ok (bs "sklearn.ensemble.gradient_boosting", bs "PriorProbabilityEstimator")). cbn [bind]. unfold init_Build. cbn [ieName iePrior].
    change (beqb (bs "PriorProbabilityEstimator") (bs "LogOddsEstimator")) with false. change (beqb (bs "PriorProbabilityEstimator") (bs "PriorProbabilityEstimator")) with true. cbv iota. dict Ds. key K A1. rewrite E. cbn [bind].
    rewrite (read_raw_array _ _ _ _ _ _ _ _ Hs Dw). cbn [bind naType naData dtType dtLittleEndian]. change (negb (beqb (bs "f8") (bs "f8"))) with false. cbv iota.
    rewrite C45_float_array by auto. reflexivity.
Qed.

Lemma read_gb : forall g o v, gb_is g o -> dn v o ->
  0 <= gbNClasses g <= pl_maxalloc p -> Forall (fun r => 0 <= stNOutputs (srTree r) <= pl_maxalloc p) (gbEstimators g) ->
  zlen (gbEstimators g) = gbNEstimators g * score_groups (gbNClasses g) -> zlen (gbEstimators g) <= pl_maxalloc p -> pl_maxalloc p < 2 ^ 63 ->
  ParseGradientBoosting p h v = Ok g.
Proof.
  intros g o v H D B1 B2 B3 B4 B5. destruct H as [kv loss init classes ests os o Hi A1 A2 A3 A4 In A5 Hc Fc A6 A7 A8 Ho F].
  unfold ParseGradientBoosting. destruct (read_instance _ (gb_Reduce h) (gb_Build p h) noGB _ _ _ _ _ Hi D) as (a & b & st & Ds & ->).
  unfold gb_Reduce, reconstructor_class. change (toGlobal _ (bs "copy_reg") _) with (Ok (bs "copy_reg", bs "_reconstructor")). cbn [bind].
  match goal with |- context [zlen ?l =? 3] => match l with [?a0; ?a1; ?a2] => change (zlen l =? 3) with true; change (at_ l 0) with (Ok a0) end end.
  cbn [negb bind]. change (toGlobal _ _ _) with (Ok (bs "sklearn.ensemble.gradient_boosting", bs "GradientBoostingClassifier")). cbn [bind].
  unfold gb_Build. dict Ds. key K A1. key K A2. key K A3. key K A4. key K A5. key K A6. key K A7. key K A8. globals.
  unfold dict_toInt, dict_toFloat. rewrite E, E0, E1, E2, E3, E4, E5, E6. cbn [bind asInt toUnicode]. change (-1 <? -1) with false. cbn [andb]. cbv iota. cbn [bind gbInit noGB].
  rewrite (read_init _ _ _ In Dw2). cbn [bind]. rewrite (read_ints _ _ _ _ Hc Fc Dw3) by lia. cbn [bind].
  destruct (read_object_array _ _ _ _ Ho Dw6) as (dt & l & El & Fl). rewrite El. cbn [bind naShape naDataList]. fold (score_groups (gbNClasses g)). rewrite !Z.eqb_refl. cbn [andb negb].
  assert (Ll : zlen l = zlen (gbEstimators g)) by (rewrite (F2_zlen _ _ _ _ _ Fl), <- (F2_zlen _ _ _ _ _ F); auto).
  pose proof (zlen_nonneg _ (gbEstimators g)). rewrite <- B3. rewrite s64_id by (change (2 ^ 63) with two63 in B5; unfold two63 in *; lia). rewrite Ll, Z.eqb_refl. cbn [negb].
  rewrite make_check_ok by lia. cbn [bind].
  assert (M : mapM (ParseClass (reg_Reduce h) (reg_Build p h) noRegressor) l = Ok (gbEstimators g)).
  { clear - F Fl B2. revert l Fl B2. induction F as [|r o rs os Hr F IH]; intros l Fl B2; inversion Fl as [|v ? l' ? Hv Fl']; subst; [reflexivity|]. inversion B2 as [|? ? Hb B2']; subst. cbn [mapM].
    rewrite (read_reg r o v Hr Hv Hb). cbn [bind]. rewrite (IH _ Fl' B2'). reflexivity. }
  rewrite M. cbn [bind]. destruct g. reflexivity.
Qed.
End Read.
