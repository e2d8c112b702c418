(** * The size of a model loaded from a pickle: proofs *)

From Coq Require Import ZArith List Bool String Lia ZifyBool.
From Verif Require Import Go GoFloat GoText UtilBits LgTree TreeBuild Transformation Ensembles Leaves XgBin Pickle SkClasses SkIO
  Spec_Size Pf_Go Pf_Pickle Pf_Fmt Pf_PickleHist Pf_Size.
Local Open Scope Z_scope.

(** ** Strings of a value are not longer than [n] *)
Fixpoint vle (n : Z) (v : val) : Prop :=
  match v with
  | VUnicode s => zlen s <= n
  | VGlobal m _ => zlen m <= n
  | VTuple l => (fix all (l : list val) : Prop := match l with [] => True | x :: l' => vle n x /\ all l' end) l
  | VReduce c args => vle n c /\ (fix all (l : list val) : Prop := match l with [] => True | x :: l' => vle n x /\ all l' end) args
  | VBuild o a => vle n o /\ vle n a
  | _ => True
  end.
Lemma vle_all : forall n l, (fix all (l : list val) : Prop := match l with [] => True | x :: l' => vle n x /\ all l' end) l <-> Forall (vle n) l.
Proof.
  induction l as [|x l IH]; [split; auto|]. split.
  - intros [H1 H2]. constructor; [auto|apply IH; auto].
  - intros H. inversion H; subst. split; [auto|apply IH; auto].
Qed.
Lemma vle_tuple : forall n l, vle n (VTuple l) <-> Forall (vle n) l.
Proof. intros. apply vle_all. Qed.
Lemma vle_reduce : forall n c l, vle n (VReduce c l) <-> vle n c /\ Forall (vle n) l.
Proof. intros. cbn [vle]. rewrite vle_all. tauto. Qed.
Lemma vle_mono : forall n n', n <= n' -> forall v, vle n v -> vle n' v.
Proof.
  intros n n' L. fix IH 1. intros v.
  assert (F : forall l, Forall (vle n) l -> Forall (vle n') l).
  { fix IF 1. intros [|x l] H; constructor; [apply IH; inversion H; assumption|apply IF; inversion H; assumption]. }
  destruct v; try (intros; exact I); try (cbn [vle]; lia).
  - rewrite !vle_tuple. apply F.
  - rewrite !vle_reduce. intros [A B]. split; [apply IH; exact A|apply F; exact B].
  - cbn [vle]. intros [A B]. split; apply IH; assumption.
Qed.
Lemma vle_mono_all : forall n n' l, n <= n' -> Forall (vle n) l -> Forall (vle n') l.
Proof. intros n n' l L H. eapply Forall_impl; [|exact H]. intros v. apply vle_mono. auto. Qed.

(** the elements and the length of an array, the values of a map *)
Definition cell_le (n : Z) (c : cell) : Prop := Forall (vle n) (cell_vals c) /\ match c with CArr l => zlen l <= n | CDict _ => True end.
Definition heap_le (n : Z) (h : heap) : Prop := Forall (cell_le n) h.
Definition machine_le (n : Z) (m : machine) : Prop :=
  Forall (vle n) (mStack m) /\ zlen (mStack m) <= n /\ Forall (vle n) (map snd (mMemory m)) /\ heap_le n (mHeap m).

Lemma heap_mono : forall n n' h, n <= n' -> heap_le n h -> heap_le n' h.
Proof.
  intros n n' h L H. eapply Forall_impl; [|exact H]. intros c [A B]. split; [eapply vle_mono_all; eauto|]. destruct c; auto. lia.
Qed.
Lemma machine_mono : forall n n' m, n <= n' -> machine_le n m -> machine_le n' m.
Proof.
  intros n n' m L (A & B & C & D). split; [eapply vle_mono_all; eauto|]. split; [lia|]. split; [eapply vle_mono_all; eauto|eapply heap_mono; eauto].
Qed.
Lemma heap_set : forall n h a c, heap_le n h -> cell_le n c -> heap_le n (set_cell h a c).
Proof.
  intros n h a c H Hc. unfold set_cell, heap_le in *. apply Forall_app. split; [|constructor; auto].
  - rewrite <- (firstn_skipn a h) in H. apply Forall_app in H. apply H.
  - rewrite <- (firstn_skipn (S a) h) in H. apply Forall_app in H. apply H.
Qed.
Lemma arr_le : forall n h a, 0 <= n -> heap_le n h -> Forall (vle n) (arr_at h a) /\ zlen (arr_at h a) <= n.
Proof.
  intros n h a N H. unfold arr_at. destruct (nth_error h a) as [[d|l]|] eqn:E; try (split; [constructor|rewrite zlen_nil; lia]).
  unfold heap_le in H. rewrite Forall_forall in H. destruct (H _ (nth_error_In _ _ E)) as [A B]. auto.
Qed.
Lemma dict_le : forall n h a, heap_le n h -> Forall (vle n) (map snd (dict_at h a)).
Proof.
  intros n h a H. unfold dict_at. destruct (nth_error h a) as [[d|l]|] eqn:E; try constructor.
  unfold heap_le in H. rewrite Forall_forall in H. destruct (H _ (nth_error_In _ _ E)) as [A B]. auto.
Qed.
Lemma forall_firstn : forall A (P : A -> Prop) k l, Forall P l -> Forall P (firstn k l).
Proof. intros A P k l H. rewrite <- (firstn_skipn k l) in H. apply Forall_app in H. apply H. Qed.
Lemma forall_skipn : forall A (P : A -> Prop) k l, Forall P l -> Forall P (skipn k l).
Proof. intros A P k l H. rewrite <- (firstn_skipn k l) in H. apply Forall_app in H. apply H. Qed.

(** ** Instructions *)
Lemma replace_short : forall old x s k, zlen (replace_go old [x] s k) <= zlen s.
Proof.
  induction s as [|c s IH]; intros k; cbn [replace_go]; [lia|]. rewrite zlen_cons. destruct k as [|k].
  - destruct (has_prefix _ _).
    + rewrite zlen_app, zlen_cons, zlen_nil. specialize (IH (Nat.pred (List.length old))). lia.
    + rewrite zlen_cons. specialize (IH O). lia.
  - specialize (IH k). lia.
Qed.
Lemma unicode_short : forall raw, zlen (decodeUnicode raw) <= zlen raw.
Proof.
  intros raw. unfold decodeUnicode, replace_all. etransitivity; [apply replace_short|apply replace_short].
Qed.
Lemma removelast_short : forall (l : bytes), zlen (removelast l) <= zlen l.
Proof.
  induction l as [|x l IH]; [cbn; lia|]. cbn [removelast]. destruct l; [rewrite zlen_nil; pose proof (zlen_nonneg _ [x]); lia|]. rewrite zlen_cons. rewrite (zlen_cons _ x). lia.
Qed.
Lemma readLine_len : forall r l r', readLine r = Ok (l, r') -> zlen l + zlen (rd_bytes r') <= zlen (rd_bytes r).
Proof.
  intros r l r' H. unfold readLine in H. destruct (cut_line (rd_bytes r)) as [[l0 rest]|] eqn:E; [|discriminate]. injection H as <- <-.
  apply cut_line_len in E. cbn [rd_bytes]. pose proof (removelast_short l0). lia.
Qed.

Lemma push_le : forall n m v, machine_le (n - 1) m -> vle n v -> machine_le n (push m v).
Proof.
  intros n m v (A & B & C & D) V. assert (L : n - 1 <= n) by lia. unfold push. split; cbn [mStack mMemory mHeap].
  - constructor; auto. eapply vle_mono_all; eauto.
  - rewrite zlen_cons. split; [lia|]. split; [eapply vle_mono_all; eauto|eapply heap_mono; eauto].
Qed.
Lemma push1 : forall n m v, machine_le n m -> vle n v -> machine_le (n + 1) (push m v).
Proof.
  intros n m v M V. apply push_le; [eapply machine_mono; [|exact M]; lia|]. eapply vle_mono; [|exact V]. lia.
Qed.
Lemma pop_parts : forall n m v m', pop m = Ok (v, m') -> machine_le n m ->
  vle n v /\ machine_le n m' /\ zlen (mStack m') = zlen (mStack m) - 1 /\ mHeap m' = mHeap m.
Proof.
  intros n m v m' H (A & B & C & D). apply pop_inv in H. destruct H as (st & E & ->). rewrite E in *. inversion A; subst. rewrite zlen_cons in *.
  unfold machine_le. cbn [mStack mMemory mHeap]. repeat split; auto; try lia.
Qed.
Lemma popMark_parts : forall n m l m', popMark m = Ok (l, m') -> machine_le n m ->
  Forall (vle n) l /\ machine_le n m' /\ zlen l <= n /\ mHeap m' = mHeap m.
Proof.
  intros n m l m' H (A & B & C & D). unfold popMark in H. destruct (mMarks m); [discriminate|]. destruct (_ <? 0); [discriminate|]. injection H as <- <-.
  set (k := Z.to_nat _). unfold machine_le. cbn [mStack mMemory mHeap].
  assert (L1 : zlen (firstn k (mStack m)) <= zlen (mStack m)) by (unfold zlen; rewrite firstn_length; lia).
  assert (L2 : zlen (skipn k (mStack m)) <= zlen (mStack m)) by (unfold zlen; rewrite skipn_length; lia).
  split; [apply Forall_rev; apply forall_firstn; auto|]. split; [split; [apply forall_skipn; auto|split; [lia|split; auto]]|].
  split; [|auto]. unfold zlen in *. rewrite rev_length. lia.
Qed.
Lemma set_heap_le : forall n m h, machine_le n m -> heap_le n h -> machine_le n (set_heap m h).
Proof. intros n m h (A & B & C & _) H. unfold set_heap. repeat split; auto. Qed.

Lemma dict_set_le : forall n h a k v, heap_le n h -> vle n v -> heap_le n (dict_set h a k v).
Proof.
  intros n h a k v H V. unfold dict_set. apply heap_set; auto. split; [|exact I]. cbn [cell_vals map snd]. constructor; auto. apply dict_le. auto.
Qed.
Lemma dict_fill_le : forall k n objs h a h', (List.length objs <= k)%nat -> Forall (vle n) objs -> heap_le n h -> dict_fill h a objs = Ok h' -> heap_le n h'.
Proof.
  induction k as [|k IH]; intros n objs h a h' L F H E.
  - destruct objs; [|cbn in L; lia]. injection E as <-. auto.
  - destruct objs as [|x [|v objs]]; cbn [dict_fill] in E; [injection E as <-; auto|injection E as <-; auto|].
    apply bind_ok in E. destruct E as (key & _ & E). inversion F as [|? ? F1 F2]; subst. inversion F2; subst.
    eapply IH; [|eassumption| |exact E]; [cbn in L; lia|]. apply dict_set_le; auto.
Qed.

Lemma step_le : forall p op m r m' r' n, 0 <= n -> machine_le n m -> step p op m r = Ok (Some (m', r')) ->
  machine_le (n + 1 + zlen (rd_bytes r) - zlen (rd_bytes r')) m' /\ zlen (rd_bytes r') <= zlen (rd_bytes r).
Proof.
  intros p op m r m' r' n N M H.
  assert (K : forall v r1, zlen (rd_bytes r1) <= zlen (rd_bytes r) -> vle (n + 1 + zlen (rd_bytes r) - zlen (rd_bytes r1)) v ->
    machine_le (n + 1 + zlen (rd_bytes r) - zlen (rd_bytes r1)) (push m v)).
  { intros v r1 L V. apply push_le; auto. eapply machine_mono; [|exact M]. lia. }
  destruct op; try discriminate H; cbn [step] in H; repeat opened H; try (injection H as <- <-); try (exfalso; exact (Errorf_ok _ _ _ _ _ H));
    repeat match goal with E : readLine _ = Ok _ |- _ => apply readLine_len in E end;
    repeat match goal with b : bytes |- _ => lazymatch goal with _ : 0 <= zlen b |- _ => fail | _ => pose proof (zlen_nonneg _ b) end end.
  all: try (split; [apply K; cbn [vle]; auto; lia|lia]; fail).
  all: try (split; [|lia]).
  all: try (replace (n + 1 + zlen (rd_bytes r) - zlen (rd_bytes r)) with (n + 1) by lia).
  - (* mark *) eapply machine_mono; [|exact M]. lia.
  - (* R *) destruct (pop_parts _ _ _ _ E M) as (V1 & M1 & _). destruct (pop_parts _ _ _ _ E1 M1) as (V2 & M2 & _). subst.
    apply push1; auto. apply vle_reduce. split; [auto|]. apply vle_tuple. auto.
  - (* V *) apply K; [lia|]. cbn [vle]. pose proof (unicode_short b). lia.
  - (* a *) destruct (pop_parts _ _ _ _ E M) as (V1 & M1 & _ & H1). destruct (pop_parts _ _ _ _ E1 M1) as (V2 & M2 & _ & H2).
    match goal with X : toList _ = Ok _ |- _ => rename X into ET end. unfold toList in ET. destruct v0; try discriminate ET.
    match goal with X : append_list _ _ _ _ _ _ = _ |- _ => rename X into EA end.
    destruct M2 as (A & B & C & D). assert (L : n <= n + 1) by lia.
    destruct (arr_le _ _ n0 N D) as [AV AL]. assert (AV' : Forall (vle (n + 1)) (arr_at (mHeap m1) n0)) by (eapply vle_mono_all; eauto).
    assert (HL : heap_le (n + 1) h /\ vle (n + 1) v1).
    { unfold append_list in EA. injection ET as <- <- <-. destruct (_ <? _); injection EA as <- <-; (split; [|exact I]).
      - apply heap_set; [eapply heap_mono; eauto|]. split; cbn [cell_vals].
        + apply Forall_app. split; [apply forall_firstn; auto|]. apply Forall_cons; [eapply vle_mono; eauto|exact (forall_skipn _ _ (S (Z.to_nat len)) _ AV')].
        + unfold zlen in *. rewrite app_length, firstn_length. destruct (arr_at (mHeap m1) addr); cbn [List.length] in *; [lia|]. rewrite skipn_length. lia.
      - apply Forall_app. split; [eapply heap_mono; eauto|]. constructor; [|constructor]. unfold list_elems. split; cbn [cell_vals].
        + apply Forall_app. split; [apply forall_firstn; auto|]. constructor; [eapply vle_mono; eauto|constructor].
        + unfold zlen in *. rewrite app_length, firstn_length. cbn [List.length]. lia. }
    destruct HL as [HL VL]. split; cbn [push set_heap mStack mMemory mHeap].
    + constructor; auto. eapply vle_mono_all; eauto.
    + rewrite zlen_cons. split; [lia|]. split; [eapply vle_mono_all; eauto|auto].
  - (* b *) destruct (pop_parts _ _ _ _ E M) as (V1 & M1 & _). destruct (pop_parts _ _ _ _ E1 M1) as (V2 & M2 & _). subst.
    apply push1; auto. split; auto.
  - (* d *) destruct (popMark_parts _ _ _ _ E M) as (V & M1 & L & H1).
    match goal with X : dict_fill _ _ _ = Ok _ |- _ => rename X into EF end.
    apply push1; [|exact I]. apply set_heap_le; auto. eapply (dict_fill_le (List.length l)); [|exact V| |exact EF]; [lia|].
    apply Forall_app. destruct M1 as (_ & _ & _ & D). split; [auto|]. constructor; [|constructor]. split; [constructor|exact I].
  - (* g *) apply K; [lia|]. unfold getMemory. destruct (lookup (mMemory m) b) eqn:EL; [|exact I].
    destruct M as (_ & _ & C & _). apply lookup_in in EL. rewrite Forall_forall in C. eapply vle_mono; [|apply C; apply in_map_iff; exists (b, v); auto]. lia.
  - (* l *) destruct (popMark_parts _ _ _ _ E M) as (V & M1 & L & H1).
    match goal with X : new_list _ _ _ = _ |- _ => rename X into EN end.
    assert (exists len cap, v = VList (List.length (mHeap m0)) len cap /\ h = mHeap m0 ++ [CArr l]) as (len & cap & -> & ->).
    { unfold new_list in EN. destruct l; injection EN as <- <-; eauto. }
    apply push1; [|exact I]. apply set_heap_le; auto. destruct M1 as (_ & _ & _ & D). apply Forall_app. split; [auto|]. constructor; [|constructor]. split; auto.
  - (* p *) match goal with X : putMemory _ _ = Ok _ |- _ => rename X into EP end. unfold putMemory, back in EP. destruct (mStack m) as [|v st] eqn:ES; [discriminate|]. injection EP as <-.
    destruct M as (A & B & C & D). rewrite ES in *. assert (L : n <= n + 1 + zlen (rd_bytes r) - zlen (rd_bytes r0)) by lia.
    split; cbn [mStack mMemory mHeap map snd]; [eapply vle_mono_all; eauto|]. split; [lia|]. split; [|eapply heap_mono; eauto].
    eapply vle_mono_all; [exact L|]. inversion A; subst. constructor; auto.
  - (* s *) destruct (pop_parts _ _ _ _ E M) as (V1 & M1 & _). destruct (pop_parts _ _ _ _ E1 M1) as (V2 & M2 & _).
    eapply machine_mono; [|apply set_heap_le; [exact M2|]]; [lia|]. apply dict_set_le; auto. apply M2.
  - (* t *) destruct (popMark_parts _ _ _ _ E M) as (V & M1 & L & H1). apply push1; auto. apply vle_tuple. auto.
Qed.

Lemma decode_le : forall p fuel m r v h r' n, 0 <= n -> machine_le n m -> decode_loop p fuel m r = Ok (v, h, r') ->
  vle (n + zlen (rd_bytes r)) v /\ heap_le (n + zlen (rd_bytes r)) h.
Proof.
  induction fuel as [|fuel IH]; intros m r v h r' n N M H; cbn [decode_loop] in H; [discriminate|].
  destruct (rd_bytes r) as [|op rest] eqn:ER; [discriminate|]. rewrite zlen_cons. pose proof (zlen_nonneg _ rest).
  apply bind_ok in H. destruct H as ([[m1 r1]|] & H1 & H).
  - destruct (step_le _ _ _ _ _ _ _ N M H1) as [M1 L1]. cbn [rd_bytes] in *. eapply IH in M1; [|lia|exact H].
    replace (n + 1 + zlen rest - zlen (rd_bytes r1) + zlen (rd_bytes r1)) with (n + (1 + zlen rest)) in M1 by lia. auto.
  - apply bind_ok in H. destruct H as (v1 & H2 & H). injection H as <- <- <-. unfold back in H2. destruct M as (A & B & C & D).
    destruct (mStack m) as [|x st]; [discriminate|]. injection H2 as <-. inversion A; subst. split; [eapply vle_mono; [|eassumption]|eapply heap_mono; [|eassumption]]; lia.
Qed.

(** ** Classes *)
Definition arr_of (n : Z) (a : NumpyArrayRaw) : Prop := zlen (naData a) <= n /\ Forall (vle n) (naDataList a) /\ zlen (naDataList a) <= n.

Lemma parse_array : forall n h v a, 0 <= n -> vle n v -> heap_le n h -> ParseClass (array_Reduce h) (array_Build h) noArray v = Ok a -> arr_of n a.
Proof.
  intros n h v a N V H E.
  assert (R : forall c args x, array_Reduce h noArray c args = Ok x -> x = noArray).
  { intros c args x X. unfold array_Reduce in X. apply bind_ok in X. destruct X as (u & _ & X). destruct (negb _); [exfalso; exact (Errorf_ok _ _ _ _ _ X)|].
    apply bind_ok in X. destruct X as (u0 & _ & X). apply bind_ok in X. destruct X as (u1 & _ & X). congruence. }
  assert (Z0 : arr_of n noArray) by (repeat split; [cbn; lia|constructor|cbn; lia]).
  unfold ParseClass in E. destruct v; try discriminate E;
    try (apply bind_ok in E; destruct E as ([cc aa] & E1 & E); apply R in E; subst; exact Z0).
  apply bind_ok in E. destruct E as ([cc aa] & E1 & E). apply bind_ok in E. destruct E as (a0 & E2 & E). apply R in E2. subst a0.
  destruct V as [_ V]. unfold array_Build in E. apply bind_ok in E. destruct E as (t & Et & E).
  unfold toTuple in Et. destruct v2; try discriminate Et. destruct ((-1 <? 5) && _); [discriminate|]. injection Et as ->. apply vle_tuple in V.
  apply bind_ok in E. destruct E as (x0 & _ & E). apply bind_ok in E. destruct E as (y0 & _ & E). apply bind_ok in E. destruct E as (x1 & _ & E).
  apply bind_ok in E. destruct E as (y1 & _ & E). apply bind_ok in E. destruct E as (sh & _ & E). apply bind_ok in E. destruct E as (x2 & _ & E).
  apply bind_ok in E. destruct E as (dt & _ & E). apply bind_ok in E. destruct E as (x3 & _ & E). apply bind_ok in E. destruct E as (fo & _ & E).
  destruct (negb _); [discriminate|]. apply bind_ok in E. destruct E as (x4 & E4 & E). apply at_ok in E4. apply zget_in in E4.
  assert (V4 : vle n x4) by (rewrite Forall_forall in V; apply V; auto). clear V E4.
  assert (RW : forall c args x, raw_Reduce h [] c args = Ok x -> Forall (vle n) args -> zlen x <= n).
  { intros c1 args1 x X F. unfold raw_Reduce in X. apply bind_ok in X. destruct X as (u & _ & X). destruct (negb _); [exfalso; exact (Errorf_ok _ _ _ _ _ X)|].
    apply bind_ok in X. destruct X as (u0 & X0 & X). apply at_ok in X0. apply zget_in in X0. rewrite Forall_forall in F. apply F in X0.
    unfold toUnicode in X. destruct u0; try discriminate X. destruct (_ && _); [discriminate|]. injection X as <-. exact X0. }
  destruct x4; try discriminate E.
  - injection E as <-. destruct (arr_le _ _ addr N H) as [A B]. repeat split; cbn [naData naDataList noArray]; [rewrite zlen_nil; lia| |].
    + apply forall_firstn. auto.
    + unfold list_elems, zlen in *. rewrite firstn_length. lia.
  - apply bind_ok in E. destruct E as (d & Ed & E). injection E as <-. repeat split; cbn [naData naDataList noArray]; [|constructor|rewrite zlen_nil; lia].
    cbn [ParseClass toReduce bind] in Ed. apply vle_reduce in V4. eapply RW; [exact Ed|apply V4].
  - apply bind_ok in E. destruct E as (d & Ed & E). injection E as <-. repeat split; cbn [naData naDataList noArray]; [|constructor|rewrite zlen_nil; lia].
    cbn [ParseClass] in Ed. apply bind_ok in Ed. destruct Ed as ([c1 args1] & E5 & Ed). apply bind_ok in Ed. destruct Ed as (b1 & E6 & Ed). injection Ed as <-.
    destruct x4_1; try discriminate E5. injection E5 as <- <-. destruct V4 as [V4 _]. apply vle_reduce in V4. eapply RW; [exact E6|apply V4].
Qed.

Lemma iterate_len : forall A b len (parse : list A -> bytes -> outcome (list A)) acc out, 0 < len ->
  (forall a c a', parse a c = Ok a' -> zlen a' = zlen a + 1) -> Iterate b len parse acc = Ok out -> len * zlen out <= len * zlen acc + zlen b.
Proof.
  intros A b len parse acc out Hl Hp H. unfold Iterate in H. destruct (negb _); [discriminate|].
  assert (G : forall l a a', foldM (fun acc i => let* chunk := slice b (i * len) ((i + 1) * len) in parse acc chunk) l a = Ok a' -> zlen a' = zlen a + zlen l).
  { induction l as [|i l IH]; intros a a' E; cbn [foldM] in E.
    - injection E as <-. rewrite zlen_nil. lia.
    - apply bind_ok in E. destruct E as (a1 & E1 & E). apply bind_ok in E1. destruct E1 as (c & _ & E1). apply Hp in E1. apply IH in E. rewrite zlen_cons. lia. }
  apply G in H. pose proof (zlen_nonneg _ b). assert (Q : 0 <= Z.quot (zlen b) len) by (apply Z.quot_pos; lia).
  rewrite zseq_zlen in H by lia. rewrite Z.quot_div_nonneg in H by lia. pose proof (Z.mul_div_le (zlen b) len Hl). nia.
Qed.

Lemma dict_value_le : forall n h a k v, heap_le n h -> dict_value (dict_at h a) k = Ok v -> vle n v.
Proof.
  intros n h a k v H E. unfold dict_value in E. destruct (lookup (dict_at h a) k) eqn:EL; [|discriminate]. injection E as <-. apply lookup_in in EL.
  pose proof (dict_le _ _ a H) as F. rewrite Forall_forall in F. apply F. apply in_map_iff. exists (k, v0). auto.
Qed.

Lemma parse_tree : forall p n h v t, 0 <= n -> vle n v -> heap_le n h -> ParseClass (tree_Reduce p h) (tree_Build h) noTree v = Ok t -> 56 * zlen (stNodes t) <= n.
Proof.
  intros p n h v t N V H E.
  assert (R : forall c args x, tree_Reduce p h noTree c args = Ok x -> stNodes x = []).
  { intros c args x X. unfold tree_Reduce in X. apply bind_ok in X. destruct X as (u & _ & X). destruct (negb _); [discriminate|].
    apply bind_ok in X. destruct X as (u0 & _ & X). apply bind_ok in X. destruct X as (u1 & _ & X). apply bind_ok in X. destruct X as (u2 & _ & X).
    apply bind_ok in X. destruct X as (u3 & _ & X). injection X as <-. reflexivity. }
  unfold ParseClass in E. destruct v; try discriminate E;
    try (apply bind_ok in E; destruct E as ([cc aa] & E1 & E); apply R in E; rewrite E, zlen_nil; lia).
  apply bind_ok in E. destruct E as ([cc aa] & E1 & E). apply bind_ok in E. destruct E as (a0 & E2 & E). apply R in E2.
  unfold tree_Build in E. apply bind_ok in E. destruct E as (da & _ & E). cbv zeta in E. apply bind_ok in E. destruct E as (nn & _ & E).
  apply bind_ok in E. destruct E as (no & En & E). apply (dict_value_le n) in En; auto. apply bind_ok in E. destruct E as (arr & Ea & E).
  apply (parse_array n) in Ea; auto. destruct Ea as [Ea _]. destruct (negb _); [discriminate|].
  apply bind_ok in E. destruct E as (ns & Ei & E). apply bind_ok in E. destruct E as (vo & _ & E). apply bind_ok in E. destruct E as (ar2 & _ & E).
  destruct (negb _); [discriminate|]. apply bind_ok in E. destruct E as (vs & _ & E). injection E as <-. cbn [stNodes].
  apply iterate_len in Ei; [|lia|].
  - rewrite E2, zlen_nil in Ei. lia.
  - intros a c0 a' X. unfold append_node in X. apply bind_ok in X. destruct X as (nd & _ & X). injection X as <-. rewrite zlen_app, zlen_cons, zlen_nil. lia.
Qed.

Lemma parse_reg : forall p n h v t, 0 <= n -> vle n v -> heap_le n h -> ParseClass (reg_Reduce h) (reg_Build p h) noRegressor v = Ok t ->
  56 * zlen (stNodes (srTree t)) <= n.
Proof.
  intros p n h v t N V H E.
  assert (R : forall c args x, reg_Reduce h noRegressor c args = Ok x -> x = noRegressor).
  { intros c args x X. unfold reg_Reduce in X. apply bind_ok in X. destruct X as (u & _ & X). congruence. }
  unfold ParseClass in E. destruct v; try discriminate E;
    try (apply bind_ok in E; destruct E as ([cc aa] & E1 & E); apply R in E; subst; cbn; lia).
  apply bind_ok in E. destruct E as ([cc aa] & E1 & E). apply bind_ok in E. destruct E as (a0 & E2 & E). apply R in E2. subst a0.
  unfold reg_Build in E. apply bind_ok in E. destruct E as (da & _ & E). cbv zeta in E. apply bind_ok in E. destruct E as (nc & _ & E).
  apply bind_ok in E. destruct E as (raw & _ & E). destruct (not_i8 _); [discriminate|]. apply bind_ok in E. destruct E as (cl & _ & E).
  apply bind_ok in E. destruct E as (mf & _ & E). apply bind_ok in E. destruct E as (no & _ & E). apply bind_ok in E. destruct E as (to & Et & E).
  apply (dict_value_le n) in Et; auto. apply bind_ok in E. destruct E as (tr & Ep & E). injection E as <-. cbn [srTree].
  eapply parse_tree; eauto.
Qed.

Lemma mapM_forall : forall A B (f : A -> outcome B) (P : B -> Prop) l l', mapM f l = Ok l' -> (forall x y, In x l -> f x = Ok y -> P y) ->
  Forall P l' /\ zlen l' = zlen l.
Proof.
  induction l as [|x l IH]; intros l' H Hp; cbn [mapM] in H.
  - injection H as <-. split; [constructor|reflexivity].
  - apply bind_ok in H. destruct H as (y & H1 & H). apply bind_ok in H. destruct H as (ys & H2 & H). injection H as <-.
    destruct (IH _ H2) as [A1 A2]. { intros x0 y0 I. apply Hp. right. auto. }
    split; [constructor; auto; eapply Hp; [left; reflexivity|auto]|rewrite !zlen_cons; lia].
Qed.

Lemma mapM_has : forall A B (f : A -> outcome B) l l', mapM f l = Ok l' -> forall x, In x l -> exists y, f x = Ok y.
Proof.
  induction l as [|x l IH]; intros l' H z I; [destruct I|]. cbn [mapM] in H. apply bind_ok in H. destruct H as (y & H1 & H).
  apply bind_ok in H. destruct H as (ys & H2 & _). destruct I as [<-|I]; eauto.
Qed.

Lemma parse_gb : forall p n h v g, 0 <= n -> vle n v -> heap_le n h -> ParseGradientBoosting p h v = Ok g ->
  Forall (fun r => 56 * zlen (stNodes (srTree r)) <= n) (gbEstimators g) /\ zlen (gbEstimators g) <= n /\ 8 <= n.
Proof.
  intros p n h v g N V H E. unfold ParseGradientBoosting in E.
  assert (R : forall c args x, vle n c -> gb_Reduce h noGB c args = Ok x -> x = noGB /\ 8 <= n).
  { intros c args x Vc X. unfold gb_Reduce in X. apply bind_ok in X. destruct X as (u & X0 & X). split; [congruence|].
    unfold reconstructor_class in X0. apply bind_ok in X0. destruct X0 as (u0 & X1 & _). unfold toGlobal in X1. destruct c; try discriminate X1.
    destruct (negb (beqb (bs "copy_reg") []) && negb (beqb module (bs "copy_reg"))) eqn:B; [discriminate|].
    assert (module = bs "copy_reg") as ->.
    { apply Pf_Text.beqb_eq. destruct (beqb module (bs "copy_reg")); auto. }
    exact Vc. }
  unfold ParseClass in E. destruct v; try discriminate E.
  - apply bind_ok in E. destruct E as ([cc aa] & E1 & E). injection E1 as <- <-. apply vle_reduce in V. apply R in E; [|apply V]. destruct E as [-> E]. split; [constructor|]. split; [cbn; lia|auto].
  - apply bind_ok in E. destruct E as ([cc aa] & E1 & E). apply bind_ok in E. destruct E as (a0 & E2 & E).
    destruct v1; try discriminate E1. injection E1 as <- <-. destruct V as [V _]. apply vle_reduce in V. apply R in E2; [|apply V]. destruct E2 as [-> E8].
    unfold gb_Build in E. apply bind_ok in E. destruct E as (da & _ & E). cbv zeta in E.
    apply bind_ok in E. destruct E as (y0 & _ & E). apply bind_ok in E. destruct E as (y1 & _ & E). apply bind_ok in E. destruct E as (y2 & _ & E).
    apply bind_ok in E. destruct E as (y3 & _ & E). apply bind_ok in E. destruct E as (y4 & _ & E). apply bind_ok in E. destruct E as (y5 & _ & E).
    apply bind_ok in E. destruct E as (y6 & _ & E). apply bind_ok in E. destruct E as (y7 & _ & E). apply bind_ok in E. destruct E as (y8 & _ & E).
    apply bind_ok in E. destruct E as (y9 & _ & E). apply bind_ok in E. destruct E as (eo & Eo & E). apply (dict_value_le n) in Eo; auto.
    apply bind_ok in E. destruct E as (arr & Ea & E). apply (parse_array n) in Ea; auto. destruct Ea as (_ & F & L).
    destruct (naShape arr) as [|s0 [|s1 [|s2 sh]]]; try discriminate E. destruct (negb _); [discriminate|]. destruct (negb _); [discriminate|].
    apply bind_ok in E. destruct E as (u & _ & E). apply bind_ok in E. destruct E as (es & Ee & E). injection E as <-. cbn [gbEstimators].
    rewrite Forall_forall in F. apply (mapM_forall _ _ _ (fun r => 56 * zlen (stNodes (srTree r)) <= n)) in Ee.
    + destruct Ee as [A B]. split; [auto|]. lia.
    + intros x y I. apply parse_reg; auto.
Qed.

(** ** Trees *)
Lemma sk_source_bounded : forall ns vs sc b, bounded_source (sk_source ns vs sc b) (zlen ns) 2.
Proof.
  intros ns vs sc b t i nd t' H. cbn [src_create sk_source] in H. unfold sk_createNode in H.
  apply bind_ok in H. destruct H as (o & Ho & H). apply at_ok in Ho. apply zget_range in Ho. split; [auto|]. cbv zeta in H.
  apply bind_ok in H. destruct H as (l & _ & H). apply bind_ok in H. destruct H as ([n1 t1] & H1 & H). apply bind_ok in H. destruct H as (r & _ & H).
  assert (A1 : tNodes t1 = tNodes t /\ zlen (tLeafValues t1) <= zlen (tLeafValues t) + 1).
  { destruct (_ <? 0) in H1.
    - apply bind_ok in H1. destruct H1 as (v & _ & H1).
      eapply (leaf_grow true leaf_left _ t v n1 t1); [auto|]. match type of H1 with Ok ?x = _ => assert (K : x = (n1, t1)) by congruence end. exact K.
    - assert (t1 = t) by congruence. subst. split; [auto|lia]. }
  assert (A2 : tNodes t' = tNodes t1 /\ zlen (tLeafValues t') <= zlen (tLeafValues t1) + 1).
  { destruct (_ <? 0) in H.
    - apply bind_ok in H. destruct H as (v & _ & H).
      eapply (leaf_grow true leaf_right n1 t1 v nd t'); [auto|]. match type of H with Ok ?x = _ => assert (K : x = (nd, t')) by congruence end. exact K.
    - assert (t' = t1) by congruence. subst. split; [auto|lia]. }
  destruct A1 as [A1 B1]. destruct A2 as [A2 B2]. split; [congruence|lia].
Qed.

Lemma sk_tree_size : forall p r sc b t, lgTreeFromSklearnDecisionTreeRegressor p r sc b = Ok t -> tree_size t <= 3 * (zlen (stNodes (srTree r)) + 1).
Proof.
  intros p r sc b t H. unfold lgTreeFromSklearnDecisionTreeRegressor in H. cbv zeta in H. pose proof (zlen_nonneg _ (stNodes (srTree r))) as N0.
  destruct (negb _); [discriminate|]. unfold tree_size. destruct (_ =? 0).
  - apply bind_ok in H. destruct H as (v & _ & H). injection H as <-. cbn [tNodes tLeafValues tree_set_leaves tree_set_nodes emptyTree].
    rewrite !zlen_cons, !zlen_nil. lia.
  - apply bind_ok in H. destruct H as (u & _ & H).
    destruct (build_size _ _ _ _ emptyTree _ (sk_source_bounded _ _ _ _) N0 Z.le_0_2 eq_refl H) as [S1 S2]. cbn [tLeafValues emptyTree] in S2. rewrite zlen_nil in S2. lia.
Qed.

Lemma trees_size_app : forall a b, trees_size (a ++ b) = trees_size a + trees_size b.
Proof. induction a as [|t a IH]; intros b; cbn [trees_size fold_right app]; [reflexivity|]. fold (trees_size a). fold (trees_size (a ++ b)). rewrite IH. lia. Qed.
Lemma trees_size_bound : forall c ts, Forall (fun t => tree_size t <= c) ts -> trees_size ts <= c * zlen ts.
Proof.
  intros c ts F. induction F as [|t ts H F IH]; cbn [trees_size fold_right]; [rewrite zlen_nil; lia|]. fold (trees_size ts). rewrite zlen_cons. lia.
Qed.

(** every tree made belongs to an estimator of its own *)
Lemma sk_trees_bound : forall p g groups base ts c, sk_trees p g groups base = Ok ts ->
  (forall r sc b t, In r (gbEstimators g) -> lgTreeFromSklearnDecisionTreeRegressor p r sc b = Ok t -> tree_size t <= c) ->
  Forall (fun t => tree_size t <= c) ts /\ zlen ts <= zlen (gbEstimators g).
Proof.
  intros p g groups base ts c H Hc. unfold sk_trees in H. apply bind_ok in H. destruct H as ([ts' b'] & H & H0). injection H0 as ->.
  pose proof (zlen_nonneg _ (gbEstimators g)) as N0.
  set (f := fun acc i => _) in H.
  assert (G : forall l tr b tr' b', foldM f l (tr, b) = Ok (tr', b') ->
    Forall (fun t => tree_size t <= c) tr -> Forall (fun t => tree_size t <= c) tr' /\ zlen tr' = zlen tr + Z.max 0 groups * zlen l /\
    forall i, In i l -> 0 < groups -> i * groups + (groups - 1) < zlen (gbEstimators g)).
  { induction l as [|i l IH]; intros tr b tr' b1 E F; cbn [foldM] in E.
    - injection E as <- <-. split; [auto|]. split; [rewrite zlen_nil; lia|intros i []].
    - apply bind_ok in E. destruct E as ([tr1 b2] & E1 & E). unfold f in E1. apply bind_ok in E1. destruct E1 as (new & En & E1). injection E1 as <- <-.
      pose proof En as En2. apply (mapM_forall _ _ _ (fun t => tree_size t <= c)) in En.
      + destruct En as [Fn Ln]. apply IH in E; [|apply Forall_app; auto]. destruct E as (A & B & C). split; [auto|]. split.
        * rewrite B, zlen_app, Ln, zlen_cons. unfold zseq, zlen. rewrite map_length, seq_length. fold (zlen l). lia.
        * intros j [<-|J] Hg; [|apply C; auto].
          assert (I : In (groups - 1) (zseq groups)) by (apply in_zseq; lia).
          destruct (mapM_has _ _ _ _ _ En2 _ I) as (y & Hy). apply bind_ok in Hy. destruct Hy as (e & He & _). apply at_ok in He. apply zget_range in He. lia.
      + intros j t _ X. apply bind_ok in X. destruct X as (e & He & X). apply bind_ok in X. destruct X as (b3 & _ & X). apply at_ok in He. apply zget_in in He. eauto. }
  destruct (G _ _ _ _ _ H (Forall_nil _)) as (A & B & C). split; [auto|]. rewrite B, zlen_nil.
  destruct (Z_le_gt_dec groups 0) as [L|L]; [rewrite Z.max_l by lia; lia|]. rewrite Z.max_r by lia.
  destruct (Z_le_gt_dec (gbNEstimators g) 0) as [L2|L2].
  - unfold zseq, zlen. replace (Z.to_nat (gbNEstimators g)) with O by lia. cbn. lia.
  - rewrite zseq_zlen by lia. assert (I : In (gbNEstimators g - 1) (zseq (gbNEstimators g))) by (apply in_zseq; lia).
    specialize (C _ I ltac:(lia)). nia.
Qed.

Lemma sk_file_size : forall p r load e, SKEnsembleFromReader p r load = Ok e -> model_size e <= zlen (rd_bytes r) * zlen (rd_bytes r).
Proof.
  intros p r load e H. unfold SKEnsembleFromReader in H. apply bind_ok in H. destruct H as ([[v h] r'] & Hd & H).
  apply bind_ok in H. destruct H as (g & Hg & H). unfold Decode in Hd. pose proof (zlen_nonneg _ (rd_bytes r)) as N0.
  assert (M0 : machine_le 0 newPickleMachine) by (repeat split; cbn; try constructor; lia).
  destruct (decode_le _ _ _ _ _ _ _ 0 (Z.le_refl 0) M0 Hd) as [V Hh]. rewrite Z.add_0_l in V, Hh.
  destruct (parse_gb _ _ _ _ _ N0 V Hh Hg) as (F & L & E8). set (T := zlen (rd_bytes r)) in *. clearbody T.
  unfold SKEnsembleFromClass in H. cbv zeta in H. destruct (_ =? 0) in H; [discriminate|]. destruct (negb _) in H; [discriminate|].
  apply bind_ok in H. destruct H as (b & _ & H). apply bind_ok in H. destruct H as (u & _ & H). apply bind_ok in H. destruct H as (ts & Ht & H). injection H as <-.
  unfold model_size. cbn [eBase base_size lgTrees].
  apply (sk_trees_bound _ _ _ _ _ T) in Ht.
  - destruct Ht as [A B]. apply trees_size_bound in A. pose proof (zlen_nonneg _ ts). nia.
  - intros x sc b0 t I X. apply sk_tree_size in X. rewrite Forall_forall in F. apply F in I. lia.
Qed.
