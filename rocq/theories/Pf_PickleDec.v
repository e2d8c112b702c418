(** * Every encoding is decoded to a value that stands for the object *)

From Coq Require Import ZArith List Bool String Lia.
From Verif Require Import Go GoFloat GoText Pickle Spec_Pickle Pf_Go Pf_Text Pf_Words Pf_Pickle.
Local Open Scope Z_scope.

(** [denotes], with all addresses in [A] *)
Section Den.
Variables (A : nat -> Prop) (h : heap).
Inductive den : val -> pyobj -> Prop :=
| d_none : den VNone PNone
| d_int : forall z, den (VInt z) (PInt z)
| d_float : forall f, den (VFloat f) (PFloat f)
| d_str : forall s, den (VUnicode s) (PStr s)
| d_tuple : forall vs os, Forall2 den vs os -> den (VTuple vs) (PTuple os)
| d_list : forall a len cap l os, A a ->
    nth_error h a = Some (CArr l) -> len = zlen os -> Forall2 den (firstn (Z.to_nat len) l) os ->
    den (VList a len cap) (PList os)
| d_dict : forall a d kv vs, A a ->
    nth_error h a = Some (CDict d) -> Forall2 den vs (map snd kv) ->
    (forall k, lookup d k = lookup (combine (map fst kv) vs) k) -> den (VDict a) (PDict kv)
| d_global : forall m n, den (VGlobal m n) (PGlobal m n)
| d_reduce : forall c args c' args', den c c' -> Forall2 den args args' -> den (VReduce c args) (PReduce c' args')
| d_build : forall o st o' st', den o o' -> den st st' -> den (VBuild o st) (PBuild o' st').
End Den.

Lemma den_mono : forall (A : nat -> Prop) (h : heap) (A' : nat -> Prop) (h' : heap),
  (forall a c, A a -> nth_error h a = Some c -> A' a /\ nth_error h' a = Some c) ->
  forall v o, den A h v o -> den A' h' v o.
Proof.
  intros A h A' h' HA. fix IH 3. intros v o H.
  assert (F : forall vs os, Forall2 (den A h) vs os -> Forall2 (den A' h') vs os).
  { fix IF 3. intros vs os HF. destruct HF as [|v1 o1 vs os H1 HF]; constructor; [apply IH; exact H1|apply IF; exact HF]. }
  destruct H; try (constructor; auto; fail).
  - destruct (HA _ _ H H0). econstructor; eauto.
  - destruct (HA _ _ H H0). econstructor; eauto.
Qed.
Lemma den_mono_all : forall (A : nat -> Prop) (h : heap) (A' : nat -> Prop) (h' : heap) vs os,
  (forall a c, A a -> nth_error h a = Some c -> A' a /\ nth_error h' a = Some c) ->
  Forall2 (den A h) vs os -> Forall2 (den A' h') vs os.
Proof. intros A h A' h' vs os HA H. induction H; constructor; auto. eapply den_mono; eauto. Qed.

Lemma den_denotes : forall A h v o, den A h v o -> denotes h v o.
Proof.
  intros A h. fix IH 3. intros v o H.
  assert (F : forall vs os, Forall2 (den A h) vs os -> Forall2 (denotes h) vs os).
  { fix IF 3. intros vs os HF. destruct HF as [|v1 o1 vs os H1 HF]; constructor; [apply IH; exact H1|apply IF; exact HF]. }
  destruct H; try (econstructor; eauto; fail).
Qed.

Lemma Forall2_len : forall X Y (R : X -> Y -> Prop) l l', Forall2 R l l' -> List.length l = List.length l'.
Proof. intros X Y R l l' H. induction H; cbn; auto. Qed.

(** ** Heaps *)
Lemma nth_error_lt : forall X (l : list X) a c, nth_error l a = Some c -> (a < List.length l)%nat.
Proof. intros X l a c H. apply nth_error_Some. congruence. Qed.
Lemma set_cell_same : forall h a c c0, nth_error h a = Some c0 -> nth_error (set_cell h a c) a = Some c.
Proof.
  intros h a c c0 H. apply nth_error_lt in H. unfold set_cell. rewrite nth_error_app2 by (rewrite firstn_length; lia).
  rewrite firstn_length, Nat.min_l by lia. rewrite Nat.sub_diag. reflexivity.
Qed.
Lemma set_cell_other : forall h a c b, (a < List.length h)%nat -> b <> a -> nth_error (set_cell h a c) b = nth_error h b.
Proof.
  intros h a c b L N. unfold set_cell. destruct (Nat.lt_ge_cases b a) as [Lb|Lb].
  - rewrite nth_error_app1 by (rewrite firstn_length; lia). rewrite <- (firstn_skipn a h) at 2. rewrite nth_error_app1 by (rewrite firstn_length; lia). auto.
  - rewrite nth_error_app2 by (rewrite firstn_length; lia). rewrite firstn_length, Nat.min_l by lia.
    destruct (b - a)%nat as [|k] eqn:E; [lia|]. cbn [nth_error].
    rewrite <- (firstn_skipn (S a) h) at 2. rewrite nth_error_app2 by (rewrite firstn_length; lia). rewrite firstn_length, Nat.min_l by lia. f_equal. lia.
Qed.
Lemma set_cell_length : forall h a c, (a < List.length h)%nat -> List.length (set_cell h a c) = List.length h.
Proof. intros h a c L. unfold set_cell. rewrite app_length. cbn [List.length]. rewrite firstn_length, skipn_length. lia. Qed.

(** ** The state between two objects *)
Definition avoids (F : nat -> Prop) : nat -> Prop := fun a => ~ F a.
Definition also (F : nat -> Prop) (x : nat) : nat -> Prop := fun a => F a \/ a = x.

Record ok (F : nat -> Prop) (mu : memo) (mem : list (bytes * val)) (h : heap) : Prop := {
  ok_F : forall a, F a -> (a < List.length h)%nat;
  ok_mem : forall k o, lookup mu k = Some (Some o) -> exists v, lookup mem k = Some v /\ den (avoids F) h v o }.

(** the memo only grows, and so does the heap except that cells of [X] may have changed *)
Record moved (X : nat -> Prop) (mu mu' : memo) (mem mem' : list (bytes * val)) (h h' : heap) : Prop := {
  mv_heap : forall a, (a < List.length h)%nat -> ~ X a -> nth_error h' a = nth_error h a;
  mv_len : (List.length h <= List.length h')%nat;
  mv_dom : incl (map fst mu) (map fst mu');
  mv_mem : forall k, In k (map fst mu) -> lookup mem' k = lookup mem k }.
Definition nowhere : nat -> Prop := fun _ => False.

Lemma moved_refl : forall X mu mem h, moved X mu mu mem mem h h.
Proof. intros. split; auto using incl_refl. Qed.
Lemma moved_trans : forall X mu1 mu2 mu3 mem1 mem2 mem3 h1 h2 h3,
  moved X mu1 mu2 mem1 mem2 h1 h2 -> moved X mu2 mu3 mem2 mem3 h2 h3 -> moved X mu1 mu3 mem1 mem3 h1 h3.
Proof.
  intros X mu1 mu2 mu3 mem1 mem2 mem3 h1 h2 h3 [A1 A2 A3 A4] [B1 B2 B3 B4]. split.
  - intros a L N. rewrite B1 by (auto; lia). auto.
  - lia.
  - eapply incl_tran; eauto.
  - intros k I. rewrite B4 by auto. auto.
Qed.
Lemma moved_weaken : forall (X X' : nat -> Prop) mu1 mu2 mem1 mem2 h1 h2,
  (forall a, (a < List.length h1)%nat -> X a -> X' a) -> moved X mu1 mu2 mem1 mem2 h1 h2 -> moved X' mu1 mu2 mem1 mem2 h1 h2.
Proof. intros X X' mu1 mu2 mem1 mem2 h1 h2 H [A1 A2 A3 A4]. split; auto. Qed.

Lemma den_moved : forall (F X : nat -> Prop) mu mu' mem mem' h h' v o,
  moved X mu mu' mem mem' h h' -> (forall a, X a -> F a) -> den (avoids F) h v o -> den (avoids F) h' v o.
Proof.
  intros F X mu mu' mem mem' h h' v o M HX H. eapply den_mono; [|exact H]. intros a c HA G. split; auto.
  rewrite (mv_heap _ _ _ _ _ _ _ M); auto. eapply nth_error_lt; eauto.
Qed.
Lemma den_moved_all : forall (F X : nat -> Prop) mu mu' mem mem' h h' vs os,
  moved X mu mu' mem mem' h h' -> (forall a, X a -> F a) -> Forall2 (den (avoids F) h) vs os -> Forall2 (den (avoids F) h') vs os.
Proof. intros F X mu mu' mem mem' h h' vs os M HX H. induction H; constructor; auto. eapply den_moved; eauto. Qed.

(** forgetting an address that did not exist, or that need not be avoided any longer *)
Lemma ok_also : forall F mu mem h x h', ok F mu mem h -> x = List.length h -> (forall a, (a < List.length h)%nat -> nth_error h' a = nth_error h a) ->
  (x < List.length h')%nat -> ok (also F x) mu mem h'.
Proof.
  intros F mu mem h x h' [H1 H2] -> H3 H4. split.
  - intros a [Fa| ->]; auto. apply H1 in Fa. lia.
  - intros k o E. destruct (H2 k o E) as (v & G & D). exists v. split; auto. eapply den_mono; [|exact D].
    intros a c HA G'. pose proof (nth_error_lt _ _ _ _ G'). split; [intros [Fa| ->]; [auto|lia]|rewrite H3; auto].
Qed.
Lemma ok_less : forall F mu mem h x, ok (also F x) mu mem h -> ok F mu mem h.
Proof.
  intros F mu mem h x [H1 H2]. split.
  - intros a Fa. apply H1. left. auto.
  - intros k o E. destruct (H2 k o E) as (v & G & D). exists v. split; auto. eapply den_mono; [|exact D]. intros a c HA G'. split; auto. intros Fa. apply HA. left. auto.
Qed.
Lemma ok_set : forall F mu mem h a c, ok F mu mem h -> F a -> ok F mu mem (set_cell h a c).
Proof.
  intros F mu mem h a c [H1 H2] Fa. pose proof (H1 a Fa) as L. split.
  - intros b Fb. rewrite set_cell_length; auto.
  - intros k o E. destruct (H2 k o E) as (v & G & D). exists v. split; auto. eapply den_mono; [|exact D].
    intros b c' HA G'. split; auto. rewrite set_cell_other; auto. intros ->. auto.
Qed.
Lemma moved_set : forall mu mem h a c, (a < List.length h)%nat -> moved (eq a) mu mu mem mem h (set_cell h a c).
Proof.
  intros mu mem h a c L. split; auto using incl_refl.
  - intros b Lb N. rewrite set_cell_other; auto.
  - rewrite set_cell_length; auto.
Qed.
Lemma moved_app : forall X mu mem h t, moved X mu mu mem mem h (h ++ t).
Proof.
  intros X mu mem h t. split; auto using incl_refl.
  - intros b Lb N. apply nth_error_app1. auto.
  - rewrite app_length. lia.
Qed.

(** ** PUT *)
Definition mem_puts (ks : list bytes) (v : val) (mem : list (bytes * val)) : list (bytes * val) := fold_left (fun mem k => (k, v) :: mem) ks mem.
Lemma lookup_puts_other : forall ks v mem k, ~ In k ks -> lookup (mem_puts ks v mem) k = lookup mem k.
Proof.
  induction ks as [|k0 ks IH]; intros v mem k N; cbn [mem_puts fold_left]; auto. fold (mem_puts ks v ((k0, v) :: mem)). rewrite IH by (intros I; apply N; right; auto).
  cbn [lookup]. rewrite beqb_false; auto. intros ->. apply N. left. auto.
Qed.
Lemma lookup_puts : forall ks v mem k, In k ks -> lookup (mem_puts ks v mem) k = Some v.
Proof.
  induction ks as [|k0 ks IH]; intros v mem k I; [contradiction|]. cbn [mem_puts fold_left]. fold (mem_puts ks v ((k0, v) :: mem)).
  destruct (in_dec (list_eq_dec Byte.byte_eq_dec) k ks) as [I'|N]; [apply IH; auto|].
  destruct I as [->|I]; [|contradiction]. rewrite lookup_puts_other by auto. cbn [lookup]. rewrite beqb_refl. auto.
Qed.

Lemma lookup_memoise_other : forall o ks mu k, ~ In k ks -> lookup (memoise o ks mu) k = lookup mu k.
Proof.
  intros o ks mu k N. unfold memoise. induction ks as [|k0 ks IH]; cbn [map app lookup]; auto.
  rewrite beqb_false by (intros ->; apply N; left; auto). apply IH. intros I. apply N. right. auto.
Qed.
Lemma lookup_memoise : forall o ks mu k, In k ks -> lookup (memoise o ks mu) k = Some o.
Proof.
  intros o ks mu k I. unfold memoise. induction ks as [|k0 ks IH]; [contradiction|]. cbn [map app lookup].
  destruct (beqb k k0) eqn:E; auto. destruct I as [->|I]; [rewrite beqb_refl in E; discriminate|auto].
Qed.
Lemma memoise_dom : forall o ks mu, map fst (memoise o ks mu) = ks ++ map fst mu.
Proof. intros. unfold memoise. rewrite map_app, map_map. cbn. rewrite map_id. auto. Qed.

Section Decode.
Variables (p : platform) (lossy : bool).

Lemma runs_puts : forall ks m v st, mStack m = v :: st -> (forall k, In k ks -> one_line k) ->
  runs p m (puts ks) (mkMachine (mStack m) (mem_puts ks v (mMemory m)) (mMarks m) (mHeap m)).
Proof.
  induction ks as [|k ks IH]; intros m v st E H.
  - destruct m. apply runs_nil.
  - unfold puts. cbn [flat_map]. eapply runs_trans.
    + unfold put. apply runs_line; [apply H; left; auto|]. intros r' r Er. cbn [step]. rewrite Er. cbn [bind]. unfold putMemory, back. rewrite E. cbn [bind]. reflexivity.
    + fold (puts ks). specialize (IH (mkMachine (v :: st) ((k, v) :: mMemory m) (mMarks m) (mHeap m)) v st eq_refl (fun k' I => H k' (or_intror I))).
      rewrite E. cbn [mStack mMemory mMarks mHeap] in IH. exact IH.
Qed.

(** memoising the object on the top of the stack *)
Lemma ok_puts : forall F mu mem h ks v o, ok F mu mem h -> fresh ks mu ->
  (forall o', o = Some o' -> den (avoids F) h v o') ->
  ok F (memoise o ks mu) (mem_puts ks v mem) h /\ moved nowhere mu (memoise o ks mu) mem (mem_puts ks v mem) h h.
Proof.
  intros F mu mem h ks v o [H1 H2] [ND FR] D. split.
  - split; auto. intros k o' E. destruct (in_dec (list_eq_dec Byte.byte_eq_dec) k ks) as [I|N].
    + rewrite lookup_memoise in E by auto. injection E as ->. exists v. split; [apply lookup_puts; auto|auto].
    + rewrite lookup_memoise_other in E by auto. rewrite lookup_puts_other by auto. auto.
  - split; auto.
    + rewrite memoise_dom. apply incl_appr, incl_refl.
    + intros k I. apply lookup_puts_other. intros I'. apply (FR k I') in I. auto.
Qed.

(** ** What each kind of text does *)
Definition P_enc (mu : memo) (o : pyobj) (s : bytes) (mu' : memo) : Prop :=
  forall F m, ok F mu (mMemory m) (mHeap m) -> exists v mem' h',
    runs p m s (mkMachine (v :: mStack m) mem' (mMarks m) h') /\ ok F mu' mem' h' /\
    moved nowhere mu mu' (mMemory m) mem' (mHeap m) h' /\ den (avoids F) h' v o.
Definition P_encs (mu : memo) (os : list pyobj) (s : bytes) (mu' : memo) : Prop :=
  forall F m, ok F mu (mMemory m) (mHeap m) -> exists vs mem' h',
    runs p m s (mkMachine (rev vs ++ mStack m) mem' (mMarks m) h') /\ ok F mu' mem' h' /\
    moved nowhere mu mu' (mMemory m) mem' (mHeap m) h' /\ Forall2 (den (avoids F) h') vs os.
Definition interleave (ks : list bytes) (vs : list val) : list val := flat_map (fun kv => [VUnicode (fst kv); snd kv]) (combine ks vs).
Definition P_pairs (mu : memo) (kv : list (bytes * pyobj)) (s : bytes) (mu' : memo) : Prop :=
  forall F m, ok F mu (mMemory m) (mHeap m) -> exists vs mem' h',
    runs p m s (mkMachine (rev (interleave (map fst kv) vs) ++ mStack m) mem' (mMarks m) h') /\ ok F mu' mem' h' /\
    moved nowhere mu mu' (mMemory m) mem' (mHeap m) h' /\ Forall2 (den (avoids F) h') vs (map snd kv).
Definition P_appends (mu : memo) (os : list pyobj) (s : bytes) (mu' : memo) : Prop :=
  forall F m a len cap l os1 st, mStack m = VList a len cap :: st -> ~ F a -> ok (also F a) mu (mMemory m) (mHeap m) ->
    nth_error (mHeap m) a = Some (CArr l) -> len = zlen os1 -> Forall2 (den (avoids (also F a)) (mHeap m)) (firstn (Z.to_nat len) l) os1 ->
    exists a' len' cap' l' mem' h',
    runs p m s (mkMachine (VList a' len' cap' :: st) mem' (mMarks m) h') /\ ok F mu' mem' h' /\
    moved (eq a) mu mu' (mMemory m) mem' (mHeap m) h' /\
    ~ F a' /\ nth_error h' a' = Some (CArr l') /\ len' = zlen (os1 ++ os) /\ Forall2 (den (avoids F) h') (firstn (Z.to_nat len') l') (os1 ++ os).
Definition P_setitems (mu : memo) (kv : list (bytes * pyobj)) (s : bytes) (mu' : memo) : Prop :=
  forall F m a d kv1 vs1 st, mStack m = VDict a :: st -> ~ F a -> ok (also F a) mu (mMemory m) (mHeap m) ->
    nth_error (mHeap m) a = Some (CDict d) -> Forall2 (den (avoids (also F a)) (mHeap m)) vs1 (map snd kv1) ->
    (forall k, lookup d k = lookup (combine (map fst kv1) vs1) k) -> NoDup (map fst (kv1 ++ kv)) ->
    exists d' vs mem' h',
    runs p m s (mkMachine (VDict a :: st) mem' (mMarks m) h') /\ ok F mu' mem' h' /\
    moved (eq a) mu mu' (mMemory m) mem' (mHeap m) h' /\
    nth_error h' a = Some (CDict d') /\ Forall2 (den (avoids F) h') vs (map snd (kv1 ++ kv)) /\
    (forall k, lookup d' k = lookup (combine (map fst (kv1 ++ kv)) vs) k).

Lemma popMark_all : forall vs st mem marks h,
  popMark (mkMachine (rev vs ++ st) mem (zlen st :: marks) h) = Ok (vs, mkMachine st mem marks h).
Proof.
  intros vs st mem marks h. unfold popMark. cbn [mMarks mStack mMemory mHeap].
  assert (L : List.length (rev vs) = List.length vs) by apply rev_length.
  rewrite zlen_app. replace (zlen (rev vs) + zlen st - zlen st) with (zlen (rev vs)) by lia.
  pose proof (zlen_nonneg _ (rev vs)). replace (zlen (rev vs) <? 0) with false by lia.
  unfold zlen. rewrite Nat2Z.id. rewrite firstn_app, firstn_all, Nat.sub_diag, firstn_O, app_nil_r, rev_involutive.
  rewrite skipn_app, skipn_all, Nat.sub_diag. reflexivity.
Qed.

Lemma interleave_len : forall ks vs, List.length ks = List.length vs -> zlen (interleave ks vs) = 2 * zlen vs.
Proof.
  induction ks as [|k ks IH]; intros [|v vs] L; try discriminate; [reflexivity|]. unfold interleave. cbn [combine flat_map app]. fold (interleave ks vs).
  rewrite !zlen_cons, IH by (injection L; auto). lia.
Qed.
Lemma NoDup_app_l : forall X (a b : list X), NoDup (a ++ b) -> NoDup a.
Proof. induction a as [|x a IH]; intros b H; [constructor|]. inversion H; subst. constructor; eauto. rewrite in_app_iff in *. tauto. Qed.

Lemma int64_nonempty : forall t z, int64_text t z -> t <> [].
Proof. intros t z H ->. apply int64_iff in H. discriminate. Qed.

Lemma dict_fill_pairs : forall ks vs h a d, List.length ks = List.length vs -> nth_error h a = Some (CDict d) ->
  dict_fill h a (interleave ks vs) = Ok (match ks with [] => h | _ => set_cell h a (CDict (rev (combine ks vs) ++ d)) end).
Proof.
  induction ks as [|k ks IH]; intros [|v vs] h a d L G; try discriminate; [reflexivity|].
  unfold interleave. cbn [combine flat_map app fst snd]. cbn [dict_fill]. change (toUnicode (VUnicode k) (-1)) with (Ok k). cbn [bind].
  fold (interleave ks vs). unfold dict_set at 1, dict_at. rewrite G.
  rewrite (IH vs _ a ((k, v) :: d)); [|injection L; auto|eapply set_cell_same; eauto].
  destruct ks as [|k' ks].
  - destruct vs; [reflexivity|discriminate].
  - f_equal. cbn [rev combine]. destruct vs as [|v' vs]; [discriminate|]. rewrite <- !app_assoc. cbn [app].
    pose proof (nth_error_lt _ _ _ _ G) as La. unfold set_cell.
    rewrite firstn_app, firstn_firstn, Nat.min_id, firstn_length, Nat.min_l by lia. rewrite Nat.sub_diag, firstn_O, app_nil_r. f_equal. f_equal.
    rewrite skipn_app, firstn_length, Nat.min_l by lia. rewrite skipn_all2 by (rewrite firstn_length; lia). replace (S a - a)%nat with 1%nat by lia. reflexivity.
Qed.

Lemma lookup_app : forall A (a b : list (bytes * A)) k, lookup (a ++ b) k = match lookup a k with Some v => Some v | None => lookup b k end.
Proof. induction a as [|[k' v] a IH]; intros b k; cbn [app lookup]; auto. destruct (beqb k k'); auto. Qed.
Lemma lookup_rev : forall A (m : list (bytes * A)) k, NoDup (map fst m) -> lookup (rev m) k = lookup m k.
Proof.
  induction m as [|[k' v] m IH]; intros k ND; auto. cbn [map fst] in ND. inversion ND; subst. cbn [rev]. rewrite lookup_app, IH by auto. cbn [lookup].
  destruct (beqb k k') eqn:E; [|destruct (lookup m k); auto]. apply beqb_eq in E. subst. rewrite lookup_none by auto. auto.
Qed.
Lemma combine_fst : forall X Y (a : list X) (b : list Y), List.length a = List.length b -> map fst (combine a b) = a.
Proof. induction a as [|x a IH]; intros [|y b] H; try discriminate; cbn; auto. f_equal. apply IH. injection H. auto. Qed.
Lemma combine_app : forall X Y (a a' : list X) (b b' : list Y), List.length a = List.length b -> combine (a ++ a') (b ++ b') = combine a b ++ combine a' b'.
Proof. induction a as [|x a IH]; intros a' [|y b] b' H; try discriminate; cbn; auto. f_equal. apply IH. injection H. auto. Qed.

Lemma lookup_seal : forall ks o mu k, lookup (seal ks o mu) k = if existsb (beqb k) ks then match lookup mu k with Some _ => Some (Some o) | None => None end else lookup mu k.
Proof.
  intros ks o mu k. unfold seal. induction mu as [|[k' x] mu IH]; cbn [map lookup fst]; [destruct (existsb _ _); auto|].
  destruct (existsb (beqb k') ks) eqn:E; cbn [lookup]; destruct (beqb k k') eqn:Ek; auto; apply beqb_eq in Ek; subst; rewrite E; auto.
Qed.
Lemma existsb_beqb : forall k ks, existsb (beqb k) ks = true <-> In k ks.
Proof.
  intros k ks. rewrite existsb_exists. split.
  - intros (x & I & E). apply beqb_eq in E. subst. auto.
  - intros I. exists k. split; auto. apply beqb_refl.
Qed.
Lemma seal_dom : forall ks o mu, map fst (seal ks o mu) = map fst mu.
Proof. intros. unfold seal. rewrite map_map. apply map_ext. intros [k x]. cbn [fst]. destruct (existsb _ _); auto. Qed.

(** one instruction that pushes a value and leaves memory and heap alone *)
Lemma P_push : forall mu o s v, (forall m, runs p m s (push m v)) -> (forall A h, den A h v o) -> P_enc mu o s mu.
Proof.
  intros mu o s v R D F m H. exists v, (mMemory m), (mHeap m). split; [apply R|]. split; [exact H|]. split; [apply moved_refl|apply D].
Qed.

Lemma runs_one : forall m op m' (s : bytes), s = [op] -> (forall r, step p op m r = Ok (Some (m', r))) -> runs p m s m'.
Proof. intros m op m' s -> H. apply runs_step. intros. apply H. Qed.

Lemma case_tuple : forall mu os s mu', P_encs mu os s mu' -> P_enc mu (PTuple os) ("("%byte :: s ++ bs "t") mu'.
Proof.
  intros mu os s mu' IH F m H. destruct (IH F (pushMark m) H) as (vs & mem' & h' & R & O & M & D).
  exists (VTuple vs), mem', h'. split; [|split; [exact O|split; [exact M|constructor; exact D]]].
  change ("("%byte :: s ++ bs "t") with (["("%byte] ++ s ++ bs "t"). eapply runs_trans; [eapply runs_one; [reflexivity|]; intros; reflexivity|].
  eapply runs_trans; [exact R|]. apply (runs_one _ "t"%byte); [reflexivity|]. intros r. cbn [step]. unfold pushMark. cbn [mStack mMarks].
  rewrite popMark_all. reflexivity.
Qed.

Lemma case_list : forall mu os1 s1 mu1 ks os2 s2 mu2, P_encs mu os1 s1 mu1 -> fresh ks mu1 -> P_appends (memoise None ks mu1) os2 s2 mu2 ->
  P_enc mu (PList (os1 ++ os2)) ("("%byte :: s1 ++ bs "l" ++ puts ks ++ s2) mu2.
Proof.
  intros mu os1 s1 mu1 ks os2 s2 mu2 IH1 FR IH2 F m H. destruct (IH1 F (pushMark m) H) as (vs & mem1 & h1 & R1 & O1 & M1 & D1).
  set (a := List.length h1). destruct (new_list p h1 vs) as [hd h2] eqn:EN.
  assert (exists cap, hd = VList a (zlen vs) cap /\ h2 = h1 ++ [CArr vs]) as (cap & -> & ->).
  { unfold new_list in EN. destruct vs; injection EN as <- <-; eexists; split; reflexivity. }
  assert (NF : ~ F a). { intros Fa. apply (ok_F _ _ _ _ O1) in Fa. unfold a in Fa. lia. }
  assert (O2 : ok (also F a) mu1 mem1 (h1 ++ [CArr vs])).
  { eapply ok_also; eauto. - intros b Lb. apply nth_error_app1. auto. - rewrite app_length. cbn. unfold a. lia. }
  destruct (ok_puts _ _ _ _ ks (VList a (zlen vs) cap) None O2 FR) as [O3 M3]; [discriminate|].
  pose proof (Forall2_len _ _ _ _ _ D1) as LV.
  destruct (IH2 F (mkMachine (VList a (zlen vs) cap :: mStack m) (mem_puts ks (VList a (zlen vs) cap) mem1) (mMarks m) (h1 ++ [CArr vs])) a (zlen vs) cap vs os1 (mStack m))
    as (a' & len' & cap' & l' & mem' & h' & R4 & O4 & M4 & NF4 & G4 & E4 & D4); auto.
  - cbn [mHeap]. unfold a. rewrite nth_error_app2, Nat.sub_diag by lia. reflexivity.
  - unfold zlen. rewrite LV. auto.
  - cbn [mHeap]. unfold zlen. rewrite Nat2Z.id, firstn_all. eapply den_mono_all; [|exact D1].
    intros b c HA G. pose proof (nth_error_lt _ _ _ _ G). split; [intros [Fb| ->]; [auto|unfold a in *; lia]|rewrite nth_error_app1; auto].
  - cbn [mMemory mMarks mHeap] in *. exists (VList a' len' cap'), mem', h'. split; [|split; [exact O4|split]].
    + change ("("%byte :: s1 ++ bs "l" ++ puts ks ++ s2) with (["("%byte] ++ s1 ++ bs "l" ++ puts ks ++ s2). eapply runs_trans; [eapply runs_one; [reflexivity|]; intros; reflexivity|].
      eapply runs_trans; [exact R1|]. eapply runs_trans.
      { apply (runs_one _ "l"%byte); [reflexivity|]. intros r. cbn [step]. unfold pushMark. cbn [mStack mMarks]. rewrite popMark_all. cbn [bind mHeap]. rewrite EN. reflexivity. }
      eapply runs_trans; [eapply runs_puts; [reflexivity|intros k I; apply FR; auto]|]. exact R4.
    + eapply moved_trans; [exact M1|]. pose proof (moved_trans _ _ _ _ _ _ _ _ _ _ (moved_weaken nowhere (eq a) _ _ _ _ _ _ (fun _ _ (f : nowhere _) => False_ind _ f) M3) M4) as [A1 A2 A3 A4].
      rewrite app_length in *. cbn [List.length] in *. split; auto; [|lia].
      intros b Lb _. rewrite A1 by (unfold a in *; lia). apply nth_error_app1. auto.
    + econstructor; eauto.
Qed.

Lemma case_dict : forall mu kv1 s1 mu1 ks kv2 s2 mu2, P_pairs mu kv1 s1 mu1 -> fresh ks mu1 -> P_setitems (memoise None ks mu1) kv2 s2 mu2 ->
  NoDup (map fst (kv1 ++ kv2)) ->
  P_enc mu (PDict (kv1 ++ kv2)) ("("%byte :: s1 ++ bs "d" ++ puts ks ++ s2) (seal ks (PDict (kv1 ++ kv2)) mu2).
Proof.
  intros mu kv1 s1 mu1 ks kv2 s2 mu2 IH1 FR IH2 ND F m H. destruct (IH1 F (pushMark m) H) as (vs & mem1 & h1 & R1 & O1 & M1 & D1).
  set (a := List.length h1).
  assert (NF : ~ F a). { intros Fa. apply (ok_F _ _ _ _ O1) in Fa. unfold a in Fa. lia. }
  pose proof (Forall2_len _ _ _ _ _ D1) as LV. rewrite map_length in LV.
  assert (LK : List.length (map fst kv1) = List.length vs) by (rewrite map_length; lia).
  set (d1 := rev (combine (map fst kv1) vs)).
  assert (Ga : nth_error (h1 ++ [CDict []]) a = Some (CDict [])) by (unfold a; rewrite nth_error_app2, Nat.sub_diag by lia; reflexivity).
  assert (EF : dict_fill (h1 ++ [CDict []]) a (interleave (map fst kv1) vs) = Ok (h1 ++ [CDict d1])).
  { rewrite (dict_fill_pairs _ _ _ _ [] LK Ga). f_equal. unfold d1. destruct kv1 as [|e kv1]; [reflexivity|]. cbn [map]. cbn iota.
    unfold set_cell, a. rewrite app_nil_r. rewrite firstn_app, firstn_all, Nat.sub_diag, firstn_O, app_nil_r. f_equal. f_equal.
    rewrite skipn_all2; [reflexivity|]. rewrite app_length. cbn. lia. }
  assert (O2 : ok (also F a) mu1 mem1 (h1 ++ [CDict d1])).
  { eapply ok_also; eauto. - intros b Lb. apply nth_error_app1. auto. - rewrite app_length. cbn. unfold a. lia. }
  destruct (ok_puts _ _ _ _ ks (VDict a) None O2 FR) as [O3 M3]; [discriminate|].
  destruct (IH2 F (mkMachine (VDict a :: mStack m) (mem_puts ks (VDict a) mem1) (mMarks m) (h1 ++ [CDict d1])) a d1 kv1 vs (mStack m))
    as (d' & vs' & mem' & h' & R4 & O4 & M4 & G4 & D4 & L4); auto.
  - cbn [mHeap]. unfold a. rewrite nth_error_app2, Nat.sub_diag by lia. reflexivity.
  - cbn [mHeap]. eapply den_mono_all; [|exact D1].
    intros b c HA G. pose proof (nth_error_lt _ _ _ _ G). split; [intros [Fb| ->]; [auto|unfold a in *; lia]|rewrite nth_error_app1; auto].
  - intros k. unfold d1. apply lookup_rev. rewrite combine_fst by exact LK. rewrite map_app in ND. eapply NoDup_app_l; eauto.
  - cbn [mMemory mMarks mHeap] in *. 
    assert (DD : den (avoids F) h' (VDict a) (PDict (kv1 ++ kv2))) by (econstructor; eauto).
    exists (VDict a), mem', h'. split; [|split; [|split; [|exact DD]]].
    + change ("("%byte :: s1 ++ bs "d" ++ puts ks ++ s2) with (["("%byte] ++ s1 ++ bs "d" ++ puts ks ++ s2). eapply runs_trans; [eapply runs_one; [reflexivity|]; intros; reflexivity|].
      eapply runs_trans; [exact R1|]. eapply runs_trans.
      { apply (runs_one _ "d"%byte); [reflexivity|]. intros r. cbn [step]. unfold pushMark. cbn [mStack mMarks]. rewrite popMark_all. cbn [bind mHeap].
        replace (Z.rem (zlen (interleave (map fst kv1) vs)) 2) with 0.
        2: { rewrite (interleave_len _ _ LK). rewrite Z.mul_comm, Z.rem_mul; lia. }
        cbn [Z.eqb negb]. fold a. rewrite EF. reflexivity. }
      eapply runs_trans; [eapply runs_puts; [reflexivity|intros k I; apply FR; auto]|]. exact R4.
    + split; [exact (ok_F _ _ _ _ O4)|]. intros k o E. rewrite lookup_seal in E. destruct (existsb (beqb k) ks) eqn:Ek.
      * destruct (lookup mu2 k); [|discriminate]. injection E as <-. exists (VDict a). split; auto.
        apply existsb_beqb in Ek. rewrite (mv_mem _ _ _ _ _ _ _ M4) by (rewrite memoise_dom; apply in_app_iff; auto). apply lookup_puts. auto.
      * apply (ok_mem _ _ _ _ O4); auto.
    + eapply moved_trans; [exact M1|]. pose proof (moved_trans _ _ _ _ _ _ _ _ _ _ (moved_weaken nowhere (eq a) _ _ _ _ _ _ (fun _ _ (f : nowhere _) => False_ind _ f) M3) M4) as [A1 A2 A3 A4].
      rewrite app_length in *. cbn [List.length] in *. split; auto; [|lia|].
      * intros b Lb _. rewrite A1 by (unfold a in *; lia). apply nth_error_app1. auto.
      * rewrite seal_dom. auto.
Qed.

Lemma case_reduce : forall mu c s1 mu1 args s2 mu2, P_enc mu c s1 mu1 -> P_enc mu1 (PTuple args) s2 mu2 ->
  P_enc mu (PReduce c args) (s1 ++ s2 ++ bs "R") mu2.
Proof.
  intros mu c s1 mu1 args s2 mu2 IH1 IH2 F m H. destruct (IH1 F m H) as (v1 & mem1 & h1 & R1 & O1 & M1 & D1).
  destruct (IH2 F (mkMachine (v1 :: mStack m) mem1 (mMarks m) h1) O1) as (v2 & mem2 & h2 & R2 & O2 & M2 & D2). cbn [mStack mMemory mMarks mHeap] in *.
  inversion D2 as [| | | |vs os DF| | | | |]; subst. exists (VReduce v1 vs), mem2, h2. split; [|split; [exact O2|split]].
  - eapply runs_trans; [exact R1|]. eapply runs_trans; [exact R2|]. apply (runs_one _ "R"%byte); [reflexivity|]. intros r. reflexivity.
  - eapply moved_trans; eauto.
  - constructor; auto. eapply den_moved; [exact M2| |exact D1]. intros a [].
Qed.

Lemma case_build : forall mu c s1 mu1 args s2 mu2 ks st s3 mu3,
  P_enc mu c s1 mu1 -> P_enc mu1 (PTuple args) s2 mu2 -> fresh ks mu2 ->
  P_enc (memoise (if lossy then Some (PReduce c args) else None) ks mu2) st s3 mu3 ->
  P_enc mu (PBuild (PReduce c args) st) (s1 ++ s2 ++ bs "R" ++ puts ks ++ s3 ++ bs "b") mu3.
Proof.
  intros mu c s1 mu1 args s2 mu2 ks st s3 mu3 IH1 IH2 FR IH3 F m H.
  destruct (case_reduce _ _ _ _ _ _ _ IH1 IH2 F m H) as (v & mem1 & h1 & R1 & O1 & M1 & D1).
  destruct (ok_puts _ _ _ _ ks v (if lossy then Some (PReduce c args) else None) O1 FR) as [O2 M2].
  { intros o' E. destruct lossy; [|discriminate]. injection E as <-. exact D1. }
  destruct (IH3 F (mkMachine (v :: mStack m) (mem_puts ks v mem1) (mMarks m) h1) O2) as (v3 & mem3 & h3 & R3 & O3 & M3 & D3). cbn [mStack mMemory mMarks mHeap] in *.
  exists (VBuild v v3), mem3, h3. split; [|split; [exact O3|split]].
  - replace (s1 ++ s2 ++ bs "R" ++ puts ks ++ s3 ++ bs "b") with ((s1 ++ s2 ++ bs "R") ++ puts ks ++ s3 ++ bs "b") by (rewrite <- !app_assoc; reflexivity).
    eapply runs_trans; [exact R1|]. eapply runs_trans; [eapply runs_puts; [reflexivity|intros k I; apply FR; auto]|].
    eapply runs_trans; [exact R3|]. apply (runs_one _ "b"%byte); [reflexivity|]. intros r. reflexivity.
  - eapply moved_trans; [exact M1|]. eapply moved_trans; eauto.
  - constructor; auto. eapply den_moved; [exact M3| |exact D1]. intros a [].
Qed.

Lemma case_put : forall mu o s mu' k, P_enc mu o s mu' -> fresh [k] mu' -> P_enc mu o (s ++ put k) (memoise (Some o) [k] mu').
Proof.
  intros mu o s mu' k IH FR F m H. destruct (IH F m H) as (v & mem1 & h1 & R1 & O1 & M1 & D1).
  destruct (ok_puts _ _ _ _ [k] v (Some o) O1 FR) as [O2 M2]. { intros o' E. injection E as <-. exact D1. }
  exists v, (mem_puts [k] v mem1), h1. split; [|split; [exact O2|split; [eapply moved_trans; eauto|exact D1]]].
  eapply runs_trans; [exact R1|]. replace (put k) with (puts [k]) by apply app_nil_r.
  apply (runs_puts [k] (mkMachine (v :: mStack m) mem1 (mMarks m) h1) v (mStack m)); [reflexivity|intros k' I; apply FR; auto].
Qed.

Lemma case_get : forall mu o k, one_line k -> lookup mu k = Some (Some o) -> P_enc mu o ("g"%byte :: k ++ [nl]) mu.
Proof.
  intros mu o k L E F m H. destruct (ok_mem _ _ _ _ H k o E) as (v & G & D). exists v, (mMemory m), (mHeap m).
  split; [|split; [exact H|split; [apply moved_refl|exact D]]]. apply runs_line; auto. intros r' r Er. cbn [step]. rewrite Er. cbn [bind]. unfold getMemory. rewrite G. reflexivity.
Qed.

Lemma case_encs : forall mu o s mu1 os ss mu2, P_enc mu o s mu1 -> P_encs mu1 os ss mu2 -> P_encs mu (o :: os) (s ++ ss) mu2.
Proof.
  intros mu o s mu1 os ss mu2 IH1 IH2 F m H. destruct (IH1 F m H) as (v & mem1 & h1 & R1 & O1 & M1 & D1).
  destruct (IH2 F (mkMachine (v :: mStack m) mem1 (mMarks m) h1) O1) as (vs & mem2 & h2 & R2 & O2 & M2 & D2). cbn [mStack mMemory mMarks mHeap] in *.
  exists (v :: vs), mem2, h2. split; [|split; [exact O2|split]].
  - eapply runs_trans; [exact R1|]. cbn [rev]. rewrite <- app_assoc. exact R2.
  - eapply moved_trans; eauto.
  - constructor; auto. eapply den_moved; [exact M2| |exact D1]. intros a [].
Qed.

Lemma case_pairs : forall mu k s1 mu1 o s2 mu2 kv ss mu3, P_enc mu (PStr k) s1 mu1 -> P_enc mu1 o s2 mu2 -> P_pairs mu2 kv ss mu3 ->
  P_pairs mu ((k, o) :: kv) (s1 ++ s2 ++ ss) mu3.
Proof.
  intros mu k s1 mu1 o s2 mu2 kv ss mu3 IH1 IH2 IH3 F m H. destruct (IH1 F m H) as (v1 & mem1 & h1 & R1 & O1 & M1 & D1).
  inversion D1; subst.
  destruct (IH2 F (mkMachine (VUnicode k :: mStack m) mem1 (mMarks m) h1) O1) as (v2 & mem2 & h2 & R2 & O2 & M2 & D2). cbn [mStack mMemory mMarks mHeap] in *.
  destruct (IH3 F (mkMachine (v2 :: VUnicode k :: mStack m) mem2 (mMarks m) h2) O2) as (vs & mem3 & h3 & R3 & O3 & M3 & D3). cbn [mStack mMemory mMarks mHeap] in *.
  exists (v2 :: vs), mem3, h3. split; [|split; [exact O3|split]].
  - eapply runs_trans; [exact R1|]. eapply runs_trans; [exact R2|]. unfold interleave. cbn [map fst combine flat_map app snd]. fold (interleave (map fst kv) vs).
    cbn [rev]. rewrite <- !app_assoc. exact R3.
  - eapply moved_trans; [exact M1|]. eapply moved_trans; eauto.
  - constructor; auto. eapply den_moved; [exact M3| |exact D2]. intros a [].
Qed.

Lemma case_appends : forall mu o s mu1 os ss mu2, P_enc mu o s mu1 -> P_appends mu1 os ss mu2 -> P_appends mu (o :: os) (s ++ bs "a" ++ ss) mu2.
Proof.
  intros mu o s mu1 os ss mu2 IH1 IH2 F m a len cap l os1 st Est NF H G El D.
  destruct (IH1 (also F a) m H) as (v & mem1 & h1 & R1 & O1 & M1 & D1).
  assert (G1 : nth_error h1 a = Some (CArr l)). { rewrite (mv_heap _ _ _ _ _ _ _ M1); auto; eapply nth_error_lt; eauto. }
  assert (D' : Forall2 (den (avoids (also F a)) h1) (firstn (Z.to_nat len) l) os1) by (eapply den_moved_all; [exact M1| |exact D]; intros b []).
  pose proof (Forall2_len _ _ _ _ _ D') as LE. pose proof (zlen_nonneg _ os1) as Z0.
  assert (LL : (Z.to_nat len <= List.length l)%nat). { rewrite firstn_length in LE. unfold zlen in El. lia. }
  destruct (append_list p h1 a len cap v) as [hd h2] eqn:EA.
  assert (exists a2 cap2 l2, hd = VList a2 (len + 1) cap2 /\ nth_error h2 a2 = Some (CArr l2) /\ firstn (Z.to_nat (len + 1)) l2 = firstn (Z.to_nat len) l ++ [v] /\
            ~ F a2 /\ (a2 = a \/ (List.length h1 <= a2)%nat) /\ moved (eq a) mu1 mu1 mem1 mem1 h1 h2 /\ ok (also F a2) mu1 mem1 h2 /\
            (forall w o', den (avoids (also F a)) h1 w o' -> den (avoids (also F a2)) h2 w o')) as (a2 & cap2 & l2 & -> & G2 & F2 & NF2 & Wh & M2 & O2 & DD).
  { unfold append_list in EA. destruct (len <? cap); injection EA as <- <-.
    - eexists a, cap, _. split; [reflexivity|]. split; [eapply set_cell_same; eauto|]. unfold arr_at. rewrite G1. split.
      { replace (Z.to_nat (len + 1)) with (Z.to_nat len + 1)%nat by lia. rewrite firstn_app, firstn_firstn, Nat.min_r by lia.
        rewrite firstn_length, Nat.min_l by lia. replace (Z.to_nat len + 1 - Z.to_nat len)%nat with 1%nat by lia. cbn [firstn]. auto. }
      split; [exact NF|]. split; [auto|]. split; [apply moved_set; eapply nth_error_lt; eauto|]. split; [apply ok_set; auto; right; auto|].
      intros w o' Hw. eapply den_mono; [|exact Hw]. intros b c HA Gb. split; auto. rewrite set_cell_other; auto; [eapply nth_error_lt; eauto|]. intros ->. apply HA. right. auto.
    - eexists (List.length h1), _, _. split; [reflexivity|]. split; [rewrite nth_error_app2, Nat.sub_diag by lia; reflexivity|]. unfold list_elems, arr_at. rewrite G1. split.
      { rewrite firstn_all2; auto. rewrite app_length, firstn_length. cbn. lia. }
      assert (NFh : ~ F (List.length h1)). { intros Fa. assert (X : also F a (List.length h1)) by (left; auto). apply (ok_F _ _ _ _ O1) in X. lia. }
      split; [exact NFh|]. split; [auto|]. split; [apply moved_app|]. split.
      { eapply ok_also; [eapply ok_less; exact O1|reflexivity| |]. - intros b Lb. apply nth_error_app1. auto. - rewrite app_length. cbn. lia. }
      intros w o' Hw. eapply den_mono; [|exact Hw]. intros b c HA Gb. pose proof (nth_error_lt _ _ _ _ Gb). split; [|rewrite nth_error_app1; auto].
      intros [Fb| ->]; [apply HA; left; auto|lia]. }
  destruct (IH2 F (mkMachine (VList a2 (len + 1) cap2 :: st) mem1 (mMarks m) h2) a2 (len + 1) cap2 l2 (os1 ++ [o]) st)
    as (a' & len' & cap' & l' & mem' & h' & R4 & O4 & M4 & NF4 & G4 & E4 & D4); auto.
  - rewrite zlen_app. change (zlen [o]) with 1. lia.
  - cbn [mHeap]. rewrite F2. apply Forall2_app; [|constructor; [|constructor]]; auto. clear - D' DD. induction D'; constructor; auto.
  - cbn [mStack mMemory mMarks mHeap] in *. exists a', len', cap', l', mem', h'. rewrite <- app_assoc in E4, D4. split; [|split; [exact O4|split; [|auto]]].
    + eapply runs_trans; [exact R1|]. rewrite Est. eapply runs_trans; [|exact R4]. apply (runs_one _ "a"%byte); [reflexivity|]. intros r. cbn [step pop mStack mMemory mMarks mHeap bind toList]. rewrite EA. reflexivity.
    + pose proof (mv_len _ _ _ _ _ _ _ M1) as L1.
      apply (moved_weaken (fun b => a = b \/ a2 = b)); [intros b Lb [->| <-]; auto; destruct Wh; [auto|lia]|].
      eapply moved_trans; [eapply moved_weaken; [|exact M1]; intros b _ []|]. eapply moved_trans; [eapply moved_weaken; [|exact M2]; auto|].
      eapply moved_weaken; [|exact M4]. auto.
Qed.

Lemma case_appends_nil : forall mu, P_appends mu [] [] mu.
Proof.
  intros mu F m a len cap l os1 st Est NF H G El D. exists a, len, cap, l, (mMemory m), (mHeap m). rewrite app_nil_r.
  split; [rewrite <- Est; destruct m; apply runs_nil|]. split; [eapply ok_less; eauto|]. split; [apply moved_refl|]. split; auto. split; auto. split; auto.
  eapply den_mono_all; [|exact D]. intros b c HA Gb. split; auto. intros Fb. apply HA. left. auto.
Qed.

Lemma case_setitems_nil : forall mu, P_setitems mu [] [] mu.
Proof.
  intros mu F m a d kv1 vs1 st Est NF H G D EL ND. exists d, vs1, (mMemory m), (mHeap m). rewrite app_nil_r.
  split; [rewrite <- Est; destruct m; apply runs_nil|]. split; [eapply ok_less; eauto|]. split; [apply moved_refl|]. split; auto. split; auto.
  eapply den_mono_all; [|exact D]. intros b c HA Gb. split; auto. intros Fb. apply HA. left. auto.
Qed.

Lemma case_setitems : forall mu k s1 mu1 o s2 mu2 kv ss mu3, P_enc mu (PStr k) s1 mu1 -> P_enc mu1 o s2 mu2 -> P_setitems mu2 kv ss mu3 ->
  P_setitems mu ((k, o) :: kv) (s1 ++ s2 ++ bs "s" ++ ss) mu3.
Proof.
  intros mu k s1 mu1 o s2 mu2 kv ss mu3 IH1 IH2 IH3 F m a d kv1 vs1 st Est NF H G D EL ND.
  destruct (IH1 (also F a) m H) as (v1 & mem1 & h1 & R1 & O1 & M1 & D1). inversion D1; subst.
  destruct (IH2 (also F a) (mkMachine (VUnicode k :: mStack m) mem1 (mMarks m) h1) O1) as (v2 & mem2 & h2 & R2 & O2 & M2 & D2). cbn [mStack mMemory mMarks mHeap] in *.
  pose proof (moved_trans _ _ _ _ _ _ _ _ _ _ M1 M2) as M12.
  assert (G2 : nth_error h2 a = Some (CDict d)). { rewrite (mv_heap _ _ _ _ _ _ _ M12); auto; eapply nth_error_lt; eauto. }
  assert (D' : Forall2 (den (avoids (also F a)) h2) vs1 (map snd kv1)) by (eapply den_moved_all; [exact M12| |exact D]; intros b []).
  assert (DD : forall w o', den (avoids (also F a)) h2 w o' -> den (avoids (also F a)) (set_cell h2 a (CDict ((k, v2) :: d))) w o').
  { intros w o' Hw. eapply den_mono; [|exact Hw]. intros b c HA Gb. split; auto. rewrite set_cell_other; auto; [eapply nth_error_lt; eauto|]. intros ->. apply HA. right. auto. }
  pose proof (Forall2_len _ _ _ _ _ D') as LV. rewrite map_length in LV.
  assert (La : (a < List.length h2)%nat) by (eapply nth_error_lt; eauto).
  destruct (IH3 F (mkMachine (VDict a :: st) mem2 (mMarks m) (set_cell h2 a (CDict ((k, v2) :: d)))) a ((k, v2) :: d) (kv1 ++ [(k, o)]) (vs1 ++ [v2]) st)
    as (d' & vs & mem' & h' & R4 & O4 & M4 & G4 & D4 & E4); auto.
  - cbn [mMemory mHeap]. apply ok_set; auto. right. auto.
  - cbn [mHeap]. eapply set_cell_same; eauto.
  - cbn [mHeap]. rewrite map_app. apply Forall2_app; [|constructor; [|constructor]]; auto. clear - D' DD. induction D'; constructor; auto.
  - intros k'. rewrite map_app, combine_app by (rewrite map_length; lia). rewrite lookup_app. cbn [map fst combine lookup]. rewrite EL.
    destruct (beqb k' k) eqn:Ek; [|destruct (lookup (combine (map fst kv1) vs1) k'); auto]. apply beqb_eq in Ek. subst k'.
    rewrite lookup_none; auto. rewrite combine_fst by (rewrite map_length; lia). rewrite map_app in ND. cbn [map fst] in ND. apply NoDup_remove_2 in ND. rewrite in_app_iff in ND. tauto.
  - rewrite <- app_assoc. exact ND.
  - cbn [mStack mMemory mMarks mHeap] in *. exists d', vs, mem', h'. rewrite <- app_assoc in D4, E4. split; [|split; [exact O4|split; [|auto]]].
    + eapply runs_trans; [exact R1|]. eapply runs_trans; [exact R2|]. eapply runs_trans; [|exact R4]. apply (runs_one _ "s"%byte); [reflexivity|]. intros r.
      cbn [step pop mStack mMemory mMarks mHeap bind]. unfold back. cbn [mStack]. rewrite Est. cbn [bind toDict]. change (toUnicode (VUnicode k) (-1)) with (Ok k). cbn [bind].
      unfold dict_set, dict_at. rewrite G2. reflexivity.
    + eapply moved_trans; [eapply moved_weaken; [|exact M12]; intros b _ []|]. eapply moved_trans; [apply moved_set; exact La|]. exact M4.
Qed.

Lemma one_line_app : forall a b, one_line a -> one_line b -> one_line (a ++ b).
Proof. unfold one_line. intros a b A B I. apply in_app_iff in I. tauto. Qed.

Lemma atoi_numeral : forall t z, numeral t z -> atoi t = Some z.
Proof.
  intros t z (_ & H). apply int64_iff. exact H.
Qed.

Scheme enc_mind := Minimality for enc Sort Prop
with encs_mind := Minimality for encs Sort Prop
with appends_mind := Minimality for appends Sort Prop
with pairs_mind := Minimality for pairs Sort Prop
with setitems_mind := Minimality for setitems Sort Prop.

Lemma decodes : forall mu o s mu', enc p lossy mu o s mu' -> P_enc mu o s mu'.
Proof.
  apply (enc_mind p lossy P_enc P_encs P_appends P_pairs P_setitems).
  - intros mu. apply (P_push _ _ _ VNone); [|constructor]. intros m. apply (runs_one _ "N"%byte); reflexivity.
  - intros mu t z N. apply (P_push _ _ _ (VInt z)); [|constructor]. intros m. apply runs_line; [apply N|]. intros r' r E. cbn [step]. rewrite E. cbn [bind].
    rewrite (atoi_numeral _ _ N). reflexivity.
  - intros mu t z N. apply (P_push _ _ _ (VInt z)); [|constructor]. intros m. replace (t ++ ["L"; "010"]%byte) with ((t ++ ["L"%byte]) ++ [nl]) by (rewrite <- app_assoc; reflexivity).
    apply runs_line; [apply one_line_app; [apply N|intros [I|[]]; discriminate]|]. intros r' r E. cbn [step]. rewrite E. cbn [bind].
    assert (LT : (0 < List.length t)%nat). { destruct N as (_ & P). apply int64_nonempty in P. destruct t; [congruence|cbn; lia]. }
    replace (zlen (t ++ ["L"%byte]) <? 2) with false by (rewrite zlen_app; unfold zlen; cbn [List.length]; lia).
    rewrite app_length. replace (List.length t + List.length ["L"%byte] - 1)%nat with (List.length t) by (cbn; lia).
    rewrite skipn_app, skipn_all, Nat.sub_diag. cbn [skipn app]. replace (beqb ["L"%byte] (bs "L")) with true by reflexivity. cbn [orb negb].
    rewrite removelast_last, (atoi_numeral _ _ N). reflexivity.
  - intros mu t f L P. apply (P_push _ _ _ (VFloat f)); [|constructor]. intros m. apply runs_line; auto. intros r' r E. cbn [step]. rewrite E. cbn [bind]. rewrite P. reflexivity.
  - intros mu s. apply (P_push _ _ _ (VUnicode s)); [|constructor]. intros m. apply runs_line; [apply escape_one_line|]. intros r' r E. cbn [step]. rewrite E. cbn [bind]. rewrite decode_escape. reflexivity.
  - intros mu mo n L1 L2. apply (P_push _ _ _ (VGlobal mo n)); [|constructor]. intros m. apply runs_step. intros rest eof. cbn [step].
    rewrite <- !app_assoc. cbn [app]. rewrite <- ?app_assoc. cbn [app]. rewrite readLine_line by auto. cbn [bind]. rewrite readLine_line by auto. reflexivity.
  - intros. eapply case_tuple; eauto.
  - intros. eapply case_list; eauto.
  - intros. eapply case_dict; eauto.
  - intros. eapply case_reduce; eauto.
  - intros. eapply case_build; eauto.
  - intros. eapply case_put; eauto.
  - intros. eapply case_get; eauto.
  - intros mu F m H. exists [], (mMemory m), (mHeap m). split; [destruct m; apply runs_nil|]. split; [exact H|]. split; [apply moved_refl|constructor].
  - intros. eapply case_encs; eauto.
  - apply case_appends_nil.
  - intros. eapply case_appends; eauto.
  - intros mu F m H. exists [], (mMemory m), (mHeap m). split; [destruct m; apply runs_nil|]. split; [exact H|]. split; [apply moved_refl|constructor].
  - intros. eapply case_pairs; eauto.
  - apply case_setitems_nil.
  - intros. eapply case_setitems; eauto.
Qed.

Theorem decode_enc : forall o s mu' rest eof, enc p lossy [] o s mu' ->
  exists v h, Decode p (mkReader (s ++ "."%byte :: rest) eof) = Ok (v, h, mkReader rest eof) /\ denotes h v o.
Proof.
  intros o s mu' rest eof H. destruct (decodes _ _ _ _ H nowhere newPickleMachine) as (v & mem & h & R & O & M & D).
  { split; [intros a []|discriminate]. }
  exists v, h. split; [|eapply den_denotes; eauto]. unfold Decode. cbn [rd_bytes].
  destruct (R (S (List.length (s ++ "."%byte :: rest))) ("."%byte :: rest) eof) as (fuel & L & E). { rewrite app_length. cbn [List.length]. lia. }
  rewrite E. destruct fuel; [lia|]. reflexivity.
Qed.
End Decode.
