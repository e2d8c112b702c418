(** * Invariants of the pickle machine *)

From Coq Require Import ZArith List Bool String Lia ZifyBool.
From Verif Require Import Go GoFloat GoText Pickle Pf_Fmt Spec_Pickle Pf_Go Pf_Text Pf_Build Pf_Pickle Pf_PickleDec.
Local Open Scope Z_scope.

Definition same_kind (c c' : cell) : Prop :=
  match c, c' with CDict _, CDict _ => True | CArr _, CArr _ => True | _, _ => False end.
Definition kinds (h h' : heap) : Prop := forall a c, nth_error h a = Some c -> exists c', nth_error h' a = Some c' /\ same_kind c c'.

Section Wf.
Variable h : heap.
Inductive wfv : val -> Prop :=
| w_nil : wfv VNil
| w_none : wfv VNone
| w_int : forall z, wfv (VInt z)
| w_float : forall f, wfv (VFloat f)
| w_str : forall s, wfv (VUnicode s)
| w_tuple : forall l, Forall wfv l -> wfv (VTuple l)
| w_list : forall a len cap l, nth_error h a = Some (CArr l) -> wfv (VList a len cap)
| w_dict : forall a d, nth_error h a = Some (CDict d) -> wfv (VDict a)
| w_global : forall m n, wfv (VGlobal m n)
| w_reduce : forall c args, wfv c -> Forall wfv args -> wfv (VReduce c args)
| w_build : forall o st, wfv o -> wfv st -> wfv (VBuild o st).
End Wf.

Lemma same_kind_refl : forall c, same_kind c c.
Proof. destruct c; exact I. Qed.
Lemma kinds_refl : forall h, kinds h h.
Proof. intros h a c H. exists c. split; auto. apply same_kind_refl. Qed.
Lemma kinds_trans : forall h1 h2 h3, kinds h1 h2 -> kinds h2 h3 -> kinds h1 h3.
Proof.
  intros h1 h2 h3 A B a c H. destruct (A _ _ H) as (c2 & H2 & K2). destruct (B _ _ H2) as (c3 & H3 & K3). exists c3. split; auto. destruct c, c2, c3; cbn in *; tauto.
Qed.
Lemma kinds_app : forall h t, kinds h (h ++ t).
Proof. intros h t a c H. exists c. split; [|apply same_kind_refl]. rewrite nth_error_app1; auto. eapply nth_error_lt; eauto. Qed.
Lemma kinds_set : forall h a c c', nth_error h a = Some c -> same_kind c c' -> kinds h (set_cell h a c').
Proof.
  intros h a c c' H K b cb Hb. pose proof (nth_error_lt _ _ _ _ H) as L. destruct (Nat.eq_dec a b) as [<-|N].
  - exists c'. split; [eapply set_cell_same; eauto|]. congruence.
  - exists cb. split; [|apply same_kind_refl]. rewrite set_cell_other; auto.
Qed.

Lemma wfv_mono : forall h h', kinds h h' -> forall v, wfv h v -> wfv h' v.
Proof.
  intros h h' K. fix IH 2. intros v H.
  assert (F : forall l, Forall (wfv h) l -> Forall (wfv h') l).
  { fix IF 2. intros l HF. destruct HF; constructor; [apply IH; assumption|apply IF; assumption]. }
  destruct H.
  - constructor.
  - constructor.
  - constructor.
  - constructor.
  - constructor.
  - constructor. apply F. assumption.
  - destruct (K _ _ H) as ([|] & H2 & K2); [contradiction|]. econstructor; eauto.
  - destruct (K _ _ H) as ([|] & H2 & K2); [|contradiction]. econstructor; eauto.
  - constructor.
  - constructor; [apply IH; assumption|apply F; assumption].
  - constructor; apply IH; assumption.
Qed.
Lemma wfv_mono_all : forall h h' l, kinds h h' -> Forall (wfv h) l -> Forall (wfv h') l.
Proof. intros h h' l K H. eapply Forall_impl; [|exact H]. apply wfv_mono. auto. Qed.

Definition cell_vals (c : cell) : list val := match c with CArr l => l | CDict d => map snd d end.
Definition wfh (h0 h : heap) : Prop := Forall (fun c => Forall (wfv h0) (cell_vals c)) h.
Record wfm (m : machine) : Prop := {
  wf_stack : Forall (wfv (mHeap m)) (mStack m);
  wf_mem : Forall (wfv (mHeap m)) (map snd (mMemory m));
  wf_heap : wfh (mHeap m) (mHeap m) }.

Lemma wfh_mono : forall h h' l, kinds h h' -> wfh h l -> wfh h' l.
Proof. intros h h' l K H. eapply Forall_impl; [|exact H]. intros c. apply wfv_mono_all. auto. Qed.
Lemma wfh_set : forall h0 h a c, wfh h0 h -> Forall (wfv h0) (cell_vals c) -> wfh h0 (set_cell h a c).
Proof.
  intros h0 h a c H Hc. unfold set_cell, wfh in *. apply Forall_app. split; [|constructor; auto].
  - rewrite <- (firstn_skipn a h) in H. apply Forall_app in H. apply H.
  - rewrite <- (firstn_skipn (S a) h) in H. apply Forall_app in H. apply H.
Qed.
Lemma wfh_at : forall h0 h a c, wfh h0 h -> nth_error h a = Some c -> Forall (wfv h0) (cell_vals c).
Proof. intros h0 h a c H G. unfold wfh in H. rewrite Forall_forall in H. apply H. eapply nth_error_In; eauto. Qed.

(** what one instruction does *)
Definition dict_effect (op : byte) (m m' : machine) : Prop :=
  forall a d, nth_error (mHeap m) a = Some (CDict d) ->
    nth_error (mHeap m') a = Some (CDict d) \/
    exists key x st, op = "s"%byte /\ mStack m = x :: VUnicode key :: VDict a :: st /\ nth_error (mHeap m') a = Some (CDict ((key, x) :: d)).

Definition good (op : byte) (m m' : machine) : Prop := wfm m' /\ kinds (mHeap m) (mHeap m') /\ dict_effect op m m'.

Lemma same_heap : forall op m m', mHeap m' = mHeap m -> Forall (wfv (mHeap m)) (mStack m') -> Forall (wfv (mHeap m)) (map snd (mMemory m')) -> wfm m -> good op m m'.
Proof.
  intros op m m' E S M W. split; [|split].
  - split; rewrite E; auto. apply W.
  - rewrite E. apply kinds_refl.
  - intros a d H. left. rewrite E. auto.
Qed.

Lemma pop_inv : forall m v m', pop m = Ok (v, m') -> exists st, mStack m = v :: st /\ m' = mkMachine st (mMemory m) (mMarks m) (mHeap m).
Proof. intros m v m' H. unfold pop in H. destruct (mStack m); [discriminate|]. injection H as <- <-. eauto. Qed.
Lemma popMark_inv : forall m l m', popMark m = Ok (l, m') -> wfm m -> wfm m' /\ Forall (wfv (mHeap m)) l /\ mHeap m' = mHeap m /\ mMemory m' = mMemory m.
Proof.
  intros m l m' H W. unfold popMark in H. destruct (mMarks m); [discriminate|]. destruct (_ <? 0); [discriminate|]. injection H as <- <-. cbn [mHeap mMemory].
  set (k := Z.to_nat _). pose proof (wf_stack _ W) as S. rewrite <- (firstn_skipn k (mStack m)) in S. apply Forall_app in S. destruct S as [S1 S2].
  split; [split; cbn [mHeap mMemory mStack]; [exact S2|apply W|apply W]|]. split; [apply Forall_rev; exact S1|auto].
Qed.

Lemma lookup_wf : forall h (m : list (bytes * val)) k v, Forall (wfv h) (map snd m) -> lookup m k = Some v -> wfv h v.
Proof. intros h m k v F E. apply lookup_in in E. rewrite Forall_forall in F. apply F. apply in_map_iff. exists (k, v). auto. Qed.

Lemma dict_fill_new : forall n objs h h' d, (List.length objs <= n)%nat -> Forall (wfv (h ++ [CDict d])) objs -> wfh (h ++ [CDict d]) (h ++ [CDict d]) ->
  dict_fill (h ++ [CDict d]) (List.length h) objs = Ok h' -> exists d', h' = h ++ [CDict d'] /\ wfh h' h'.
Proof.
  induction n as [|n IH]; intros objs h h' d L F W H.
  - destruct objs; [|cbn in L; lia]. injection H as <-. eauto.
  - destruct objs as [|k [|v objs]]; cbn [dict_fill] in H; [injection H as <-; eauto|injection H as <-; eauto|].
    destruct (toUnicode k (-1)) as [key| | |]; try discriminate. cbn [bind] in H.
    assert (E : dict_set (h ++ [CDict d]) (List.length h) key v = h ++ [CDict ((key, v) :: d)]).
    { unfold dict_set, dict_at. rewrite nth_error_app2, Nat.sub_diag by lia. cbn [nth_error]. unfold set_cell. rewrite firstn_app, firstn_all, Nat.sub_diag, firstn_O, app_nil_r.
      rewrite skipn_all2 by (rewrite app_length; cbn; lia). reflexivity. }
    rewrite E in H. assert (K : kinds (h ++ [CDict d]) (h ++ [CDict ((key, v) :: d)])).
    { rewrite <- E. unfold dict_set. eapply kinds_set; [rewrite nth_error_app2, Nat.sub_diag by lia; reflexivity|exact I]. }
    inversion F as [|? ? F1 F2]; subst. inversion F2 as [|? ? F3 F4]; subst.
    eapply (IH objs h h' ((key, v) :: d)); [cbn in L; lia|eapply wfv_mono_all; eauto| |exact H].
    rewrite <- E at 2. unfold dict_set, dict_at. rewrite nth_error_app2, Nat.sub_diag by lia. cbn [nth_error].
    apply wfh_set; [eapply wfh_mono; eauto|]. cbn [cell_vals map snd]. eapply wfv_mono_all; [exact K|]. constructor; auto.
    apply (wfh_at _ _ (List.length h) (CDict d) W). rewrite nth_error_app2, Nat.sub_diag by lia. reflexivity.
Qed.

Ltac opened H := match type of H with
  | bind ?x _ = Ok _ => let E := fresh "E" in destruct x eqn:E; try discriminate H; cbn [bind] in H
  | (let (_, _) := ?x in _) = Ok _ => let E := fresh "E" in destruct x eqn:E; cbn [bind] in H
  | (if ?b then _ else _) = Ok _ => let E := fresh "E" in destruct b eqn:E; try discriminate H; cbn [bind] in H
  | match ?x with _ => _ end = Ok _ => let E := fresh "E" in destruct x eqn:E; try discriminate H; cbn [bind] in H
  end.

Lemma step_good : forall p op m r m' r', wfm m -> step p op m r = Ok (Some (m', r')) -> good op m m'.
Proof.
  intros p op m r m' r' W H. pose proof W as W0. destruct W as [WS WM WH].
  destruct op; try discriminate H; cbn [step] in H; repeat opened H; try (injection H as <- <-); try (exfalso; exact (Errorf_ok _ _ _ _ _ H)).
  all: try (apply same_heap; [reflexivity| | |exact W0]; cbn [push pushMark mStack mMemory mHeap]; auto; repeat constructor; auto; fail).
  - (* R *) subst. apply pop_inv in E. destruct E as (st & S1 & ->). apply pop_inv in E1. destruct E1 as (st2 & S2 & ->). cbn [mStack mMemory mMarks mHeap] in *. subst.
    rewrite S1 in WS. inversion WS as [|? ? V1 WS1]; subst. inversion WS1 as [|? ? V2 WS2]; subst. inversion V1; subst.
    apply same_heap; cbn [push mStack mMemory mHeap]; auto. repeat constructor; auto.
  - (* a *) subst. apply pop_inv in E. destruct E as (st & S1 & ->). apply pop_inv in E1. destruct E1 as (st2 & S2 & ->). cbn [mStack mMemory mMarks mHeap set_heap push] in *. subst.
    rewrite S1 in WS. inversion WS as [|? ? V1 WS1]; subst. inversion WS1 as [|? ? V2 WS2]; subst.
    match goal with E : toList _ = Ok _ |- _ => rename E into ET end. unfold toList in ET. inversion V2; subst; try discriminate ET. injection ET as <- <- <-.
    match goal with E : append_list _ _ _ _ _ _ = _ |- _ => rename E into EA end. match goal with G : nth_error _ _ = Some (CArr _) |- _ => rename G into G1 end.
    pose proof (wfh_at _ _ _ _ WH G1) as GV. cbn [cell_vals] in GV.
    unfold append_list in EA. destruct (_ <? _); injection EA as <- <-.
    + assert (K : kinds (mHeap m) (set_cell (mHeap m) a (CArr (firstn (Z.to_nat len) (arr_at (mHeap m) a) ++ v :: skipn (S (Z.to_nat len)) (arr_at (mHeap m) a))))) by (eapply kinds_set; eauto; exact I).
      split; [|split; [exact K|]].
      * split; cbn [mStack mMemory mHeap push set_heap].
        -- constructor; [econstructor; eapply set_cell_same; eauto|]. eapply wfv_mono_all; eauto.
        -- eapply wfv_mono_all; eauto.
        -- apply wfh_set; [eapply wfh_mono; eauto|]. cbn [cell_vals]. unfold arr_at in *. rewrite G1 in *. apply (wfv_mono_all _ _ _ K).
           apply Forall_app. split; [|constructor; auto].
           ++ rewrite <- (firstn_skipn (Z.to_nat len) l) in GV. apply Forall_app in GV. apply GV.
           ++ rewrite <- (firstn_skipn (S (Z.to_nat len)) l) in GV. apply Forall_app in GV. apply GV.
      * intros b d Hb. left. cbn [mHeap push set_heap]. rewrite set_cell_other; auto; [eapply nth_error_lt; eauto|]. intros ->. congruence.
    + assert (K : kinds (mHeap m) (mHeap m ++ [CArr (list_elems (mHeap m) a len ++ [v])])) by apply kinds_app.
      split; [|split; [exact K|]].
      * split; cbn [mStack mMemory mHeap push set_heap].
        -- constructor; [econstructor; rewrite nth_error_app2, Nat.sub_diag by lia; reflexivity|]. eapply wfv_mono_all; eauto.
        -- eapply wfv_mono_all; eauto.
        -- apply Forall_app. split; [eapply wfh_mono; eauto|]. constructor; [|constructor]. cbn [cell_vals]. apply (wfv_mono_all _ _ _ K). unfold list_elems, arr_at. rewrite G1.
           apply Forall_app. split; [|constructor; auto]. rewrite <- (firstn_skipn (Z.to_nat len) l) in GV. apply Forall_app in GV. apply GV.
      * intros b d Hb. left. cbn [mHeap push set_heap]. rewrite nth_error_app1; auto. eapply nth_error_lt; eauto.
  - (* b *) subst. apply pop_inv in E. destruct E as (st & S1 & ->). apply pop_inv in E1. destruct E1 as (st2 & S2 & ->). cbn [mStack mMemory mMarks mHeap] in *. subst.
    rewrite S1 in WS. inversion WS as [|? ? V1 WS1]; subst. inversion WS1 as [|? ? V2 WS2]; subst.
    apply same_heap; cbn [push mStack mMemory mHeap]; auto. repeat constructor; auto.
  - (* d *) subst. destruct (popMark_inv _ _ _ E W0) as (W1 & WL & EH & EM).
    match goal with E : dict_fill _ _ _ = Ok _ |- _ => rename E into EF end. rewrite EH in EF.
    apply (dict_fill_new (List.length l)) in EF; [|lia| |].
    + destruct EF as (d' & -> & WF). cbn [push set_heap mStack mMemory mHeap]. rewrite EH.
      assert (K : kinds (mHeap m) (mHeap m ++ [CDict d'])) by apply kinds_app.
      destruct W1 as [A B C]. rewrite EH in A, B, C. split; [|split; [exact K|]].
      * split; cbn [mStack mMemory mHeap push set_heap]; [|eapply wfv_mono_all; eauto|exact WF].
        constructor; [econstructor; rewrite nth_error_app2, Nat.sub_diag by lia; reflexivity|]. eapply wfv_mono_all; eauto.
      * intros b d Hb. left. cbn [mHeap push set_heap]. rewrite nth_error_app1; auto. eapply nth_error_lt; eauto.
    + eapply wfv_mono_all; [apply kinds_app|exact WL].
    + apply Forall_app. split; [eapply wfh_mono; [apply kinds_app|exact WH]|repeat constructor].
  - (* g *) apply same_heap; cbn [push mStack mMemory mHeap]; auto. constructor; auto. unfold getMemory.
    destruct (lookup (mMemory m) b) eqn:EL; [eapply lookup_wf; eauto|constructor].
  - (* l *) subst. destruct (popMark_inv _ _ _ E W0) as (W1 & WL & EH & EM). destruct W1 as [A B C]. rewrite EH in A, B, C.
    match goal with E : new_list _ _ _ = _ |- _ => rename E into EN end. rewrite EH in EN.
    assert (exists len cap, v = VList (List.length (mHeap m)) len cap /\ h = mHeap m ++ [CArr l]) as (len & cap & -> & ->).
    { unfold new_list in EN. destruct l; injection EN as <- <-; eauto. }
    cbn [push set_heap mStack mMemory mHeap]. assert (K : kinds (mHeap m) (mHeap m ++ [CArr l])) by apply kinds_app. split; [|split; [exact K|]].
    + split; cbn [mStack mMemory mHeap push set_heap].
      * constructor; [econstructor; rewrite nth_error_app2, Nat.sub_diag by lia; reflexivity|]. eapply wfv_mono_all; eauto.
      * eapply wfv_mono_all; eauto.
      * apply Forall_app. split; [eapply wfh_mono; eauto|]. constructor; [|constructor]. cbn [cell_vals]. eapply wfv_mono_all; eauto.
    + intros b d Hb. left. cbn [mHeap push set_heap]. rewrite nth_error_app1; auto. eapply nth_error_lt; eauto.
  - (* p *) match goal with E : putMemory _ _ = Ok _ |- _ => rename E into EP end. unfold putMemory, back in EP. destruct (mStack m) as [|v st] eqn:ES; [discriminate|]. injection EP as <-.
    apply same_heap; cbn [mStack mMemory mHeap map snd]; auto. inversion WS; subst. constructor; auto.
  - (* s *) subst. apply pop_inv in E. destruct E as (st & S1 & ->). apply pop_inv in E1. destruct E1 as (st2 & S2 & ->). cbn [mStack mMemory mMarks mHeap set_heap] in *. subst.
    match goal with E : back _ = Ok _ |- _ => rename E into EB end. unfold back in EB. cbn [mStack] in EB. destruct st2 as [|top st2]; [discriminate|]. injection EB as ->.
    rewrite S1 in WS. inversion WS as [|? ? V1 WS1]; subst. inversion WS1 as [|? ? V2 WS2]; subst. inversion WS2 as [|? ? V3 WS3]; subst.
    match goal with E : toDict _ = Ok _ |- _ => rename E into ET end. unfold toDict in ET. inversion V3; subst; try discriminate ET. injection ET as <-.
    match goal with G : nth_error _ _ = Some (CDict _) |- _ => rename G into G1 end. pose proof (wfh_at _ _ _ _ WH G1) as GV. cbn [cell_vals] in GV.
    match goal with E : toUnicode _ _ = Ok _ |- _ => rename E into EU end. unfold toUnicode in EU. destruct v0; try discriminate EU. cbn in EU. injection EU as ->.
    unfold dict_set, dict_at. rewrite G1. match goal with |- good _ _ ?M => set (m' := M) end.
    assert (K : kinds (mHeap m) (mHeap m')) by (subst m'; cbn [mHeap push set_heap]; eapply kinds_set; eauto; exact I).
    split; [|split; [exact K|]].
    + split; [eapply wfv_mono_all; eauto|eapply wfv_mono_all; eauto|]. apply wfh_set; [eapply wfh_mono; eauto|]. cbn [cell_vals map snd].
      apply (wfv_mono_all _ _ _ K). constructor; auto.
    + intros b d0 Hb. subst m'. cbn [mHeap push set_heap]. destruct (Nat.eq_dec a b) as [<-|N].
      * right. exists a3, v, st2. split; [auto|]. split; [auto|]. assert (d0 = d) by congruence. subst. eapply set_cell_same; eauto.
      * left. rewrite set_cell_other; auto. eapply nth_error_lt; eauto.
  - (* t *) subst. destruct (popMark_inv _ _ _ E W0) as (W1 & WL & EH & EM). destruct W1 as [A B C]. rewrite EH in A, B, C.
    apply same_heap; cbn [push mStack mMemory mHeap]; auto; [constructor; auto; constructor; auto].
Qed.

Lemma step_mem : forall p op m r m' r', step p op m r = Ok (Some (m', r')) ->
  mMemory m' = mMemory m \/
  exists k v st r0, op = "p"%byte /\ readLine r = Ok (k, r0) /\ mStack m = v :: st /\ m' = mkMachine (mStack m) ((k, v) :: mMemory m) (mMarks m) (mHeap m).
Proof.
  intros p op m r m' r' H. destruct op; try discriminate H; cbn [step] in H; repeat opened H; try (injection H as <- <-); try (left; reflexivity); try (exfalso; exact (Errorf_ok _ _ _ _ _ H)).
  all: repeat match goal with
    | E : pop _ = Ok ?a, E' : ?a = (_, _) |- _ => rewrite E' in E
    | E : pop _ = Ok (_, _) |- _ => apply pop_inv in E; destruct E as (? & ? & ->)
    | E : popMark _ = Ok ?a, E' : ?a = (_, _) |- _ => rewrite E' in E; clear E'
    end; try (left; reflexivity).
  - left. unfold popMark in E. destruct (mMarks m); [discriminate|]. destruct (_ <? 0); [discriminate|]. injection E as <- <-. reflexivity.
  - left. unfold popMark in E. destruct (mMarks m); [discriminate|]. destruct (_ <? 0); [discriminate|]. injection E as <- <-. reflexivity.
  - right. unfold putMemory, back in E1. destruct (mStack m) as [|v st] eqn:ES; [discriminate|]. injection E1 as <-. subst. eexists _, v, st, _. split; [reflexivity|]. split; [reflexivity|]. split; reflexivity.
  - left. unfold popMark in E. destruct (mMarks m); [discriminate|]. destruct (_ <? 0); [discriminate|]. injection E as <- <-. reflexivity.
Qed.

Lemma cut_line_shorter : forall s l rest, cut_line s = Some (l, rest) -> (List.length rest <= List.length s)%nat.
Proof.
  induction s as [|c s IH]; intros l rest H; cbn [cut_line] in H; [discriminate|]. destruct (Byte.eqb c nl).
  - injection H as <- <-. cbn. lia.
  - destruct (cut_line s) as [[l' r']|]; [|discriminate]. injection H as <- <-. specialize (IH _ _ eq_refl). cbn. lia.
Qed.
Lemma readLine_shorter : forall r l r', readLine r = Ok (l, r') -> (List.length (rd_bytes r') <= List.length (rd_bytes r))%nat.
Proof. intros r l r' H. unfold readLine in H. destruct (cut_line (rd_bytes r)) as [[a b]|] eqn:E; [|discriminate]. injection H as <- <-. cbn. eapply cut_line_shorter; eauto. Qed.
Lemma step_shorter : forall p op m r m' r', step p op m r = Ok (Some (m', r')) -> (List.length (rd_bytes r') <= List.length (rd_bytes r))%nat.
Proof.
  intros p op m r m' r' H. destruct op; try discriminate H; cbn [step] in H; repeat opened H; try (injection H as <- <-); try lia; try (exfalso; exact (Errorf_ok _ _ _ _ _ H)).
  all: repeat match goal with E : readLine _ = Ok (_, _) |- _ => apply readLine_shorter in E end; lia.
Qed.

Lemma toUnicode_not_hang : forall v n, toUnicode v n <> Hang.
Proof. intros v n. unfold toUnicode. destruct v; try discriminate. destruct (_ && _); discriminate. Qed.
Lemma dict_fill_not_hang : forall n objs h a, (List.length objs <= n)%nat -> dict_fill h a objs <> Hang.
Proof.
  induction n as [|n IH]; intros objs h a L; [destruct objs; [discriminate|cbn in L; lia]|]. destruct objs as [|k [|v objs]]; try discriminate. cbn [dict_fill].
  apply bind_not_hang; [apply toUnicode_not_hang|]. intros key _. apply IH. cbn in L. lia.
Qed.
Lemma readLine_not_hang : forall r, readLine r <> Hang.
Proof. intros r. unfold readLine. destruct (cut_line _) as [[]|]; discriminate. Qed.
Lemma pop_not_hang : forall m, pop m <> Hang.
Proof. intros m. unfold pop. destruct (mStack m); discriminate. Qed.
Lemma popMark_not_hang : forall m, popMark m <> Hang.
Proof. intros m. unfold popMark. destruct (mMarks m); [discriminate|]. destruct (_ <? 0); discriminate. Qed.
Lemma back_not_hang : forall m, back m <> Hang.
Proof. intros m. unfold back. destruct (mStack m); discriminate. Qed.

Ltac calm := first
  [ discriminate
  | match goal with
    | |- bind _ _ <> Hang => apply bind_not_hang; [solve [calm]|intros]; calm
    | |- readLine _ <> Hang => apply readLine_not_hang
    | |- pop _ <> Hang => apply pop_not_hang
    | |- Errorf _ _ _ <> Hang => apply Errorf_not_hang
    | |- popMark _ <> Hang => apply popMark_not_hang
    | |- back _ <> Hang => apply back_not_hang
    | |- toList _ <> Hang => unfold toList; calm
    | |- toDict _ <> Hang => unfold toDict; calm
    | |- putMemory _ _ <> Hang => unfold putMemory; calm
    | |- toUnicode _ _ <> Hang => apply toUnicode_not_hang
    | |- dict_fill _ _ _ <> Hang => eapply dict_fill_not_hang; apply le_n
    | |- (let (_, _) := ?x in _) <> Hang => destruct x; calm
    | |- (if ?b then _ else _) <> Hang => destruct b; calm
    | |- match ?x with _ => _ end <> Hang => destruct x; calm
    end ].

Lemma step_not_hang : forall p op m r, step p op m r <> Hang.
Proof.
  intros p op m r. destruct op; try discriminate; cbn [step]; cbv zeta; calm.
Qed.

Lemma decode_loop_not_hang : forall p fuel m r, (List.length (rd_bytes r) < fuel)%nat -> decode_loop p fuel m r <> Hang.
Proof.
  induction fuel as [|fuel IH]; intros m r L; [lia|]. cbn [decode_loop]. destruct (rd_bytes r) as [|op rest] eqn:E; [discriminate|].
  apply bind_not_hang; [apply step_not_hang|]. intros [[m' r']|] H.
  - apply IH. apply step_shorter in H. cbn [rd_bytes] in H. cbn in L. lia.
  - apply bind_not_hang; [apply back_not_hang|]. discriminate.
Qed.

(** ** Histories *)
Lemma newMachine_wf : wfm newPickleMachine.
Proof. split; constructor. Qed.
Lemma next_wf : forall p c c', next p c c' -> wfm (fst c) -> wfm (fst c').
Proof. intros p c [m' r'] (op & r & _ & H) W. exact (proj1 (step_good _ _ _ _ _ _ W H)). Qed.
Lemma history_wf : forall p P c c', history p P c c' -> wfm (fst c) -> wfm (fst c').
Proof. intros p P c c' H. induction H; intros W; auto. eapply next_wf; eauto. Qed.
Lemma occurs_wf : forall p c, occurs p c -> wfm (fst c).
Proof. intros p c (r & H). eapply history_wf; eauto. exact newMachine_wf. Qed.

Lemma at_op_unique : forall c op r op' r', at_op c op r -> at_op c op' r' -> op = op' /\ rd_bytes r = rd_bytes r' /\ rd_eof r = rd_eof r'.
Proof. intros c op r op' r' [A1 A2] [B1 B2]. rewrite A1 in B1. injection B1 as <- E. split; [auto|]. split; [auto|congruence]. Qed.

Lemma readLine_text : forall r k r0, readLine r = Ok (k, r0) -> one_line k /\ rd_bytes r = k ++ nl :: rd_bytes r0.
Proof.
  intros r k r0 H. unfold readLine in H. destruct (cut_line (rd_bytes r)) as [[l rest]|] eqn:E; [|discriminate]. injection H as <- <-. cbn [rd_bytes].
  revert l rest E. induction (rd_bytes r) as [|c s IH]; intros l rest E; cbn [cut_line] in E; [discriminate|]. destruct (Byte.eqb c nl) eqn:Ec.
  - injection E as <- <-. apply byte_eqb_eq in Ec. subst. split; [intros []|reflexivity].
  - destruct (cut_line s) as [[l' r']|] eqn:E2; [|discriminate]. injection E as <- <-. destruct (IH _ _ eq_refl) as [O Q].
    assert (l' <> []). { destruct s as [|c' s]; cbn [cut_line] in E2; [discriminate|]. destruct (Byte.eqb c' nl); [injection E2 as <- _; discriminate|]. destruct (cut_line s) as [[]|]; [|discriminate]. injection E2 as <- _. discriminate. }
    destruct l' as [|x l']; [congruence|]. cbn [removelast]. cbn [removelast] in O, Q. split.
    + intros [->|I]; [|exact (O I)]. rewrite byte_eqb_refl in Ec. discriminate.
    + cbn [app]. rewrite Q. reflexivity.
Qed.

Lemma next_mem : forall p c c' k, next p c c' -> ~ at_put k c -> lookup (mMemory (fst c')) k = lookup (mMemory (fst c)) k.
Proof.
  intros p [m r] [m' r'] k (op & r1 & A & H) N. apply step_mem in H. destruct H as [E|(k' & v & st & r0 & -> & R & S & E)]; cbn [fst]; [rewrite E; reflexivity|]. rewrite E.
  cbn [mMemory lookup]. destruct (beqb k k') eqn:Ek; auto. apply beqb_eq in Ek. subst k'. exfalso. apply N. apply readLine_text in R. destruct R as [O Q]. exists r1, r0. split; [exact A|]. split; auto.
Qed.
