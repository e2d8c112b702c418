(** * What predictions with fused multiply-add add up *)

From Coq Require Import ZArith List Bool String Lia ZifyBool.
From Verif Require Import Go GoFloat GoText Cmd UtilBits LgTree Transformation Ensembles Leaves Fused Spec_Predict Spec_Fused
  Pf_Go Pf_Cmd Pf_Exec Pf_Leaves Pf_Calls Pf_Rows Pf_Values.
Local Open Scope Z_scope.

(** the products added to cell [c] *)
Definition terms (c : Z) (cs : list fcmd) : list (f64 * f64) :=
  flat_map (fun f => match f with FMulAdd i x y => if i =? c then [(x, y)] else [] | FCmd _ => [] end) cs.
(** the cell is not overwritten *)
Definition quiet (c : Z) (f : fcmd) : Prop :=
  match f with FCmd (CSet i _) | FCmd (CAdd i _) | FCmd (CMul i _) => i <> c | _ => True end.
Definition alive (f : fcmd) : Prop := match f with FCmd (CPanic _) | FCmd CHang => False | _ => True end.

Lemma terms_app : forall c a b, terms c (a ++ b) = terms c a ++ terms c b.
Proof. intros. apply flat_map_app. Qed.

Lemma fexec_app : forall a b fuse m, fexec fuse (a ++ b) m =
  (let* m' := fexec (fun n => fuse (n + List.length b)%nat) a m in fexec fuse b m').
Proof.
  induction a as [|f a IH]; intros b fuse m; [reflexivity|]. cbn [app fexec]. destruct f as [c|i x y].
  - destruct (exec1 c m); cbn [bind]; auto.
  - rewrite app_length. destruct (at_ m i); cbn [bind]; auto. destruct (set_at m i _); cbn [bind]; auto.
Qed.

Lemma fexec_alive : forall cs fuse m m', fexec fuse cs m = Ok m' -> Forall alive cs.
Proof.
  induction cs as [|f cs IH]; intros fuse m m' H; constructor; cbn [fexec] in H; destruct f as [c|i x y]; repeat (apply bind_ok in H; destruct H as (? & ? & H)); eauto.
  - destruct c; cbn [alive]; auto; discriminate.
  - exact I.
Qed.

Lemma set_at_get : forall (m : list f64) i v m' c, set_at m i v = Ok m' -> zget m' c = if i =? c then Some v else zget m c.
Proof.
  intros m i v m' c H. unfold set_at in H. destruct (zset m i v) as [q|] eqn:E; [|discriminate]. injection H as <-.
  destruct (Z.eqb_spec i c) as [->|N]; [eapply zset_get_same; eauto|eapply zset_get_other; eauto].
Qed.

Lemma fexec_cell : forall cs fuse m m' c a, fexec fuse cs m = Ok m' -> Forall (quiet c) cs -> zget m c = Some a ->
  exists r, zget m' c = Some r /\ accumulated a (terms c cs) r.
Proof.
  induction cs as [|f cs IH]; intros fuse m m' c a H Q G; cbn [fexec] in H.
  - injection H as <-. exists a. split; [exact G|constructor].
  - inversion Q as [|? ? Q1 Q2]; subst. destruct f as [k|i x y].
    + apply bind_ok in H. destruct H as (m1 & H1 & H). cbn [terms flat_map app]. fold (terms c cs). apply (IH fuse m1 m' c a H Q2).
      destruct k; cbn [exec1 quiet] in *; try discriminate; repeat (apply bind_ok in H1; destruct H1 as (? & ? & H1));
        rewrite (set_at_get _ _ _ _ c H1); destruct (Z.eqb_spec i c); congruence.
    + apply bind_ok in H. destruct H as (a1 & H1 & H). apply bind_ok in H. destruct H as (m1 & H2 & H). apply at_ok in H1.
      pose proof (set_at_get _ _ _ _ c H2) as G2. cbn [terms flat_map]. fold (terms c cs). destruct (Z.eqb_spec i c) as [->|N].
      * assert (a1 = a) by congruence. subst a1. destruct (IH fuse m1 m' c _ H Q2 G2) as (r & R & A). exists r. split; [exact R|]. cbn [app].
        destruct (fuse _); constructor; exact A.
      * cbn [app]. apply (IH fuse m1 m' c a H Q2). congruence.
Qed.

Lemma fexec_last : forall pre post fuse m m' c v, fexec fuse (pre ++ FCmd (CSet c v) :: post) m = Ok m' -> Forall (quiet c) post ->
  exists r, zget m' c = Some r /\ accumulated v (terms c post) r.
Proof.
  intros pre post fuse m m' c v H Q. rewrite fexec_app in H. apply bind_ok in H. destruct H as (m1 & _ & H). cbn [fexec exec1] in H.
  apply bind_ok in H. destruct H as (m2 & H2 & H). eapply fexec_cell; eauto. rewrite (set_at_get _ _ _ _ c H2), Z.eqb_refl. reflexivity.
Qed.

Lemma zseq_split : forall g k, 0 <= k < g -> zseq g = zseq k ++ k :: zrange (k + 1) g.
Proof. intros g k H. rewrite <- !zrange_zseq. rewrite (zrange_app 0 k g) by lia. f_equal. apply zrange_cons. lia. Qed.

Lemma terms_other : forall c cs, Forall (fun f => match f with FMulAdd i _ _ => i <> c | _ => True end) cs -> terms c cs = [].
Proof.
  intros c cs H. induction H as [|f cs Hf _ IH]; [reflexivity|]. cbn [terms flat_map]. fold (terms c cs). rewrite IH. destruct f; auto.
  destruct (Z.eqb_spec i c); [contradiction|reflexivity].
Qed.

(** a double loop of accumulations *)
Definition rows_of (x : Z -> Z -> outcome (f64 * f64)) (g : Z) (rows : list Z) : list fcmd :=
  flat_map (fun i => map (fun k => fcmd_of (x i k) (fun vw => FMulAdd (0 + k) (fst vw) (snd vw))) (zseq g)) rows.

Lemma rows_alive : forall x g rows, Forall alive (rows_of x g rows) -> forall i k, In i rows -> 0 <= k < g -> exists vw, x i k = Ok vw.
Proof.
  intros x g rows H i k Hi Hk. unfold rows_of in H. rewrite Forall_flat_map, Forall_forall in H. specialize (H i Hi).
  rewrite Forall_map, Forall_forall in H. specialize (H k (proj2 (in_zseq _ _) Hk)). destruct (x i k); cbn [fcmd_of alive] in H; try contradiction. eauto.
Qed.

Lemma rows_quiet : forall x g rows c, Forall (quiet c) (rows_of x g rows).
Proof.
  intros. unfold rows_of. apply Forall_flat_map, Forall_forall. intros i _. apply Forall_map, Forall_forall. intros k _. destruct (x i k); exact I.
Qed.

Lemma rows_terms : forall x g k val rows, 0 <= k < g -> (forall i, In i rows -> x i k = Ok (val i)) -> terms k (rows_of x g rows) = map val rows.
Proof.
  intros x g k val rows Hk. induction rows as [|i rows IH]; intros V; [reflexivity|]. unfold rows_of. cbn [flat_map map]. rewrite terms_app. fold (rows_of x g rows).
  rewrite IH by (intros; apply V; right; auto). rewrite (zseq_split g k Hk), map_app. cbn [map]. rewrite terms_app. cbn [terms flat_map].
  rewrite (V i) by (left; reflexivity). cbn [fcmd_of]. rewrite Z.add_0_l, Z.eqb_refl. destruct (val i) as [v w]. cbn [fst snd app].
  fold (terms k (map (fun k0 => fcmd_of (x i k0) (fun vw => FMulAdd (0 + k0) (fst vw) (snd vw))) (zrange (k + 1) g))).
  rewrite (terms_other k (map _ (zseq k))), (terms_other k (map _ (zrange (k + 1) g))); [reflexivity| |].
  - apply Forall_map, Forall_forall. intros j Hj. apply in_zrange in Hj. destruct (x i j); cbn [fcmd_of]; auto. lia.
  - apply Forall_map, Forall_forall. intros j Hj. apply in_zseq in Hj. destruct (x i j); cbn [fcmd_of]; auto. lia.
Qed.

Lemma sets_rows : forall fuse g init x n m m', fexec fuse (map (fun k => FCmd (CSet (0 + k) init)) (zseq g) ++ rows_of x g (zseq n)) m = Ok m' ->
  exists val, (forall i k, 0 <= i < n -> 0 <= k < g -> x i k = Ok (val i k)) /\
    forall k, 0 <= k < g -> exists r, zget m' k = Some r /\ accumulated init (map (fun i => val i k) (zseq n)) r.
Proof.
  intros fuse g init x n m m' H. exists (fun i k => match x i k with Ok v => v | _ => (fzero, fzero) end).
  assert (V : forall i k, 0 <= i < n -> 0 <= k < g -> exists vw, x i k = Ok vw).
  { intros i k Hi Hk. apply fexec_alive in H. apply Forall_app in H. destruct H as [_ H]. eapply rows_alive; eauto. apply in_zseq; auto. }
  split.
  - intros i k Hi Hk. destruct (V i k Hi Hk) as [vw ->]. reflexivity.
  - intros k Hk. rewrite (zseq_split g k Hk), map_app, <- app_assoc in H. cbn [map app] in H. rewrite Z.add_0_l in H.
    destruct (fexec_last _ _ _ _ _ _ _ H) as (r & R & A).
    + apply Forall_app. split; [|apply rows_quiet]. apply Forall_map, Forall_forall. intros j Hj. apply in_zrange in Hj. cbn [quiet]. lia.
    + exists r. split; [exact R|]. rewrite terms_app, terms_other in A.
      2: { apply Forall_map, Forall_forall. intros j _. exact I. }
      cbn [app] in A. rewrite (rows_terms x g k (fun i => match x i k with Ok v => v | _ => (fzero, fzero) end)) in A; [exact A|exact Hk|].
      intros i Hi. apply in_zseq in Hi. destruct (V i k Hi Hk) as [vw ->]. reflexivity.
Qed.

Lemma fcmd_of_bind_ok : forall A B (x : outcome A) (f : A -> B) (k : B -> fcmd),
  fcmd_of x (fun a => k (f a)) = fcmd_of (let* a := x in Ok (f a)) k.
Proof. intros A B [| | |] f k; reflexivity. Qed.

Lemma lg_fused_values : forall fuse p e fv n m m', 0 <= n ->
  fexec fuse (lg_fused p e fv n 0) m = Ok m' ->
  forall k, 0 <= k < lgNRawOutputGroups e -> exists vs r,
    tree_outputs p (lgTrees e) (lgNRawOutputGroups e) k n fv vs /\
    zget m' k = Some r /\
    accumulated fzero (map (fun v => (v, if lgAverageOutput e then fdiv fone (f64_of_Z n) else fone)) vs) r.
Proof.
  intros fuse p e fv n m m' Hn H k Hk. unfold lg_fused in H. cbv zeta in H.
  set (coef := if lgAverageOutput e then fdiv fone (f64_of_Z n) else fone) in *.
  set (g := lgNRawOutputGroups e) in *.
  pose (x := fun i k => let* r := (let* t := at_ (lgTrees e) (i * g + k) in predict p t fv) in Ok (fst r, coef)).
  assert (H' : fexec fuse (map (fun k => FCmd (CSet (0 + k) fzero)) (zseq g) ++ rows_of x g (zseq n)) m = Ok m').
  { rewrite <- H. f_equal. f_equal. unfold rows_of. rewrite !flat_map_concat_map. f_equal. apply map_ext. intros i.
    apply map_ext. intros j. unfold x. symmetry. apply (fcmd_of_bind_ok _ _ _ (fun r => (fst r, coef)) (fun vw => FMulAdd (0 + j) (fst vw) (snd vw))). }
  destruct (sets_rows fuse g fzero x n m m' H') as (val & Hv & Hs). destruct (Hs k Hk) as (r & R & A).
  assert (Ht : forall i, 0 <= i < n -> exists t r, zget (lgTrees e) (i * g + k) = Some t /\ predict p t fv = Ok r /\
     val i k = (fst r, coef)).
  { intros i Hi. specialize (Hv i k Hi Hk). unfold x in Hv. apply bind_ok in Hv. destruct Hv as (r0 & Hr & Hv).
    apply bind_ok in Hr. destruct Hr as (t & Ht & Hr). apply at_ok in Ht. injection Hv as Hv. eauto 6. }
  exists (map (fun i => fst (val i k)) (zseq n)), r. split; [|split; [exact R|]].
  - split; [rewrite zlen_map, zseq_zlen; lia|]. intros i Hi.
    destruct (Ht i Hi) as (t & [v leaf] & Hz & Hp & E). exists t, v, leaf. repeat split; auto.
    rewrite zget_map_zseq by auto. rewrite E. reflexivity.
  - rewrite map_map. erewrite map_ext_in; [exact A|]. intros i Hi. apply in_zseq in Hi. destruct (Ht i Hi) as (t & r0 & _ & _ & ->). reflexivity.
Qed.

Lemma xg_fused_values : forall fuse p e fv n m m', 0 <= n ->
  fexec fuse (xg_fused p e fv n 0) m = Ok m' ->
  forall k, 0 <= k < xgNRawOutputGroups e -> exists vs ws r,
    tree_outputs p (xgTrees e) (xgNRawOutputGroups e) k n fv vs /\
    zlen ws = n /\
    (forall i, 0 <= i < n -> zget ws i = zget (xgWeightDrop e) (i * xgNRawOutputGroups e + k)) /\
    zget m' k = Some r /\ accumulated (xgBaseScore e) (combine vs ws) r.
Proof.
  intros fuse p e fv n m m' Hn H k Hk. unfold xg_fused in H. cbv zeta in H. set (g := xgNRawOutputGroups e) in *.
  match type of H with context [flat_map (fun i => map (fun k => fcmd_of (@?y i k) _) _)] => set (x := y) in H end.
  destruct (sets_rows fuse g _ x n m m' H) as (val & Hv & Hs). destruct (Hs k Hk) as (r & R & A).
  assert (Ht : forall i, 0 <= i < n -> exists t r w, zget (xgTrees e) (i * g + k) = Some t /\ predict p t fv = Ok r /\
     zget (xgWeightDrop e) (i * g + k) = Some w /\ val i k = (fst r, w)).
  { intros i Hi. specialize (Hv i k Hi Hk). unfold x in Hv. apply bind_ok in Hv. destruct Hv as (t & Ht & Hv).
    apply bind_ok in Hv. destruct Hv as (r0 & Hr & Hv). apply bind_ok in Hv. destruct Hv as (w & Hw & Hv).
    apply at_ok in Ht. apply at_ok in Hw. injection Hv as Hv. eauto 8. }
  exists (map (fun i => fst (val i k)) (zseq n)), (map (fun i => snd (val i k)) (zseq n)), r. split; [|split; [|split; [|split; [exact R|]]]].
  - split; [rewrite zlen_map, zseq_zlen; lia|]. intros i Hi.
    destruct (Ht i Hi) as (t & [v leaf] & w & Hz & Hp & _ & E). exists t, v, leaf. repeat split; auto. rewrite zget_map_zseq by auto. rewrite E. reflexivity.
  - rewrite zlen_map, zseq_zlen; lia.
  - intros i Hi. rewrite zget_map_zseq by auto. destruct (Ht i Hi) as (t & r0 & w & _ & _ & Hw & E). rewrite E, Hw. reflexivity.
  - assert (Ec : forall l, combine (map (fun i => fst (val i k)) l) (map (fun i => snd (val i k)) l) = map (fun i => val i k) l).
    { intros l. induction l as [|i l IH]; [reflexivity|]. cbn [map combine]. rewrite IH. destruct (val i k); reflexivity. }
    rewrite Ec. exact A.
Qed.

Lemma lin_fused_values : forall fuse e fv m m',
  fexec fuse (xl_fused e fv 0) m = Ok m' ->
  0 <= xlNRawOutputGroups e * (xlNumFeature e + 1) <= MaxInt -> 0 <= xlNumFeature e ->
  forall k, 0 <= k < xlNRawOutputGroups e -> exists bias xs ws r,
    zget (xlWeights e) (xlNRawOutputGroups e * xlNumFeature e + k) = Some bias /\
    zlen xs = xlNumFeature e /\ zlen ws = xlNumFeature e /\
    (forall i, 0 <= i < xlNumFeature e -> zget xs i = zget fv i /\ zget ws i = zget (xlWeights e) (xlNRawOutputGroups e * i + k)) /\
    zget m' k = Some r /\
    accumulated (fadd (xlBaseScore e) (f64_of_f32bits bias)) (map (fun xw => (fst xw, f64_of_f32bits (snd xw))) (combine xs ws)) r.
Proof.
  intros fuse e fv m m' H Hmax Hnf k Hk. unfold xl_fused in H. cbv zeta in H.
  set (g := xlNRawOutputGroups e) in *. set (nf := xlNumFeature e) in *.
  set (F := fun k => _) in H. rewrite (zseq_split g k Hk), flat_map_app in H. cbn [flat_map] in H. unfold F at 2 in H. cbn [app] in H.
  assert (R : forall i, 0 <= i <= nf -> s64 (g * i + k) = g * i + k).
  { intros i Hi. apply s64_id. unfold MaxInt, two63 in *. nia. }
  rewrite R in H by lia. pose proof (fexec_alive _ _ _ _ H) as L. apply Forall_app in L. destruct L as [_ L]. inversion L as [|? ? L1 L2]; subst.
  apply Forall_app in L2. destruct L2 as [L2 _]. rewrite Forall_map, Forall_forall in L2.
  destruct (at_ (xlWeights e) (g * nf + k)) as [bias|?|?|] eqn:Eb; cbn [fcmd_of alive] in L1; try contradiction. cbn [fcmd_of] in H. rewrite Z.add_0_l in H.
  assert (V : forall i, 0 <= i < nf -> exists x w, zget fv i = Some x /\ zget (xlWeights e) (g * i + k) = Some w).
  { intros i Hi. specialize (L2 i (proj2 (in_zseq _ _) Hi)). rewrite R in L2 by lia. destruct (at_ fv i) as [x|?|?|] eqn:Ex; cbn [bind fcmd_of alive] in L2; try contradiction.
    destruct (at_ (xlWeights e) (g * i + k)) as [w|?|?|] eqn:Ew; cbn [bind fcmd_of alive] in L2; try contradiction. apply at_ok in Ex. apply at_ok in Ew. eauto. }
  destruct (fexec_last _ _ _ _ _ _ _ H) as (r & Zr & A).
  - apply Forall_app. split.
    + apply Forall_map, Forall_forall. intros i _. destruct (let* x := at_ fv i in _); exact I.
    + apply Forall_flat_map, Forall_forall. intros j Hj. apply in_zrange in Hj. unfold F. constructor.
      * destruct (at_ (xlWeights e) (s64 (g * nf + j))); cbn [fcmd_of quiet]; auto. lia.
      * apply Forall_map, Forall_forall. intros i _. destruct (let* x := at_ fv i in _); exact I.
  - pose (X := fun i => match zget fv i with Some x => x | None => fzero end).
    pose (W := fun i => match zget (xlWeights e) (g * i + k) with Some x => x | None => 0 end).
    exists bias, (map X (zseq nf)), (map W (zseq nf)), r. split; [apply at_ok; exact Eb|]. split; [rewrite zlen_map, zseq_zlen; lia|]. split; [rewrite zlen_map, zseq_zlen; lia|].
    split; [|split; [exact Zr|]].
    + intros i Hi. rewrite !zget_map_zseq by auto. unfold X, W. destruct (V i Hi) as (x & w & -> & ->). auto.
    + rewrite terms_app, (terms_other k (flat_map _ _)), app_nil_r in A.
      2: { apply Forall_flat_map, Forall_forall. intros j Hj. apply in_zrange in Hj. unfold F. constructor.
           - destruct (at_ (xlWeights e) (s64 (g * nf + j))); cbn [fcmd_of]; exact I.
           - apply Forall_map, Forall_forall. intros i _. destruct (let* x := at_ fv i in _); cbn [fcmd_of]; auto. lia. }
      assert (Ec : forall l, combine (map X l) (map W l) = map (fun i => (X i, W i)) l) by (induction l; cbn [map combine]; congruence).
      rewrite Ec, map_map. cbn [fst snd].
      match type of A with accumulated _ ?l _ => assert (E : l = map (fun i => (X i, f64_of_f32bits (W i))) (zseq nf)) end; [|rewrite <- E; exact A].
      clear -V R. assert (S : forall l, (forall i, In i l -> 0 <= i < nf) -> terms k (map (fun i => fcmd_of (let* x := at_ fv i in let* w := at_ (xlWeights e) (s64 (g * i + k)) in Ok (x, f64_of_f32bits w))
                      (fun xw => FMulAdd k (fst xw) (snd xw))) l) = map (fun i => (X i, f64_of_f32bits (W i))) l).
      { induction l as [|i l IH]; intros Hl; [reflexivity|]. cbn [map terms flat_map]. fold (terms k). specialize (IH (fun j Hj => Hl j (or_intror Hj))).
        specialize (Hl i (or_introl eq_refl)). destruct (V i Hl) as (x & w & E1 & E2). unfold X at 1, W at 1. rewrite E1, E2.
        apply at_ok in E1. apply at_ok in E2. rewrite R by lia. rewrite E1. cbn [bind]. rewrite E2. cbn [bind fcmd_of fst snd]. rewrite Z.eqb_refl. cbn [app]. f_equal. exact IH. }
      apply S. intros i Hi. apply in_zseq in Hi. exact Hi.
Qed.
