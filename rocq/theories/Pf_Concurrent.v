(** * Calls that run at the same time do not disturb each other *)

From Coq Require Import ZArith List Bool String Lia ZifyBool.
From Verif Require Import Go GoFloat Cmd LgTree Transformation Ensembles Leaves Parallel Concurrent Spec_Predict Pf_Go Pf_Cmd Pf_Parallel.
Local Open Scope Z_scope.

(** ** Windows *)
Definition fits (mem : list f64) (off len : Z) : Prop := 0 <= off /\ 0 <= len /\ off + len <= zlen mem.

Lemma window_zlen : forall mem off len, fits mem off len -> zlen (window mem off len) = len.
Proof. intros mem off len (A & B & C). unfold window, zlen in *. rewrite firstn_length, skipn_length. lia. Qed.
Lemma splice_zlen : forall mem off len w, fits mem off len -> zlen w = len -> zlen (splice mem off len w) = zlen mem.
Proof. intros mem off len w (A & B & C) D. unfold splice, zlen in *. rewrite !app_length, firstn_length, skipn_length. lia. Qed.
Lemma window_splice : forall mem off len w, fits mem off len -> zlen w = len -> window (splice mem off len w) off len = w.
Proof.
  intros mem off len w (A & B & C) D. unfold window, splice, zlen in *.
  rewrite skipn_app, skipn_all2 by (rewrite firstn_length; lia). cbn [app].
  replace (Z.to_nat off - List.length (firstn (Z.to_nat off) mem))%nat with O by (rewrite firstn_length; lia). cbn [skipn].
  rewrite firstn_app. replace (Z.to_nat len - List.length w)%nat with O by lia. cbn [firstn]. rewrite app_nil_r. apply firstn_all2. lia.
Qed.
Lemma zget_window : forall mem off len k, fits mem off len -> 0 <= k < len -> zget (window mem off len) k = zget mem (off + k).
Proof.
  intros mem off len k (A & B & C) Hk. assert (zlen (window mem off len) = len) by (apply window_zlen; repeat split; auto).
  rewrite !zget_nth by lia. unfold window. rewrite nth_error_firstn_lt by lia. rewrite nth_error_skipn_add. f_equal. lia.
Qed.
Lemma zget_splice_out : forall mem off len w k, fits mem off len -> zlen w = len -> k < off \/ off + len <= k ->
  zget (splice mem off len w) k = zget mem k.
Proof.
  intros mem off len w k (A & B & C) D Hk. destruct (Z_lt_le_dec k 0) as [N|N]; [rewrite !zget_neg by lia; reflexivity|].
  unfold splice. destruct Hk as [Hk|Hk].
  - rewrite zget_app_l by (unfold zlen in *; rewrite firstn_length; lia). rewrite !zget_nth by lia. apply nth_error_firstn_lt. lia.
  - assert (E : zlen (firstn (Z.to_nat off) mem) = off) by (unfold zlen in *; rewrite firstn_length; lia).
    rewrite zget_app_r by lia. rewrite E. rewrite zget_app_r by lia. rewrite !zget_nth by lia. rewrite nth_error_skipn_add. f_equal. lia.
Qed.
Lemma window_splice_other : forall mem off len w off' len', fits mem off len -> fits mem off' len' -> zlen w = len ->
  off' + len' <= off \/ off + len <= off' -> window (splice mem off len w) off' len' = window mem off' len'.
Proof.
  intros mem off len w off' len' F F' D S. assert (Z1 : zlen (splice mem off len w) = zlen mem) by (apply splice_zlen; auto).
  assert (F2 : fits (splice mem off len w) off' len') by (unfold fits in *; rewrite Z1; auto).
  apply zget_ext; [rewrite !window_zlen; auto|]. intros k Hk. rewrite window_zlen in Hk by auto. rewrite !zget_window by auto.
  apply zget_splice_out; auto. lia.
Qed.

(** ** A step keeps the length of the slice *)
Lemma cmd_step_zlen : forall reg cs m reg' cs' m', cmd_step reg cs m = Ok (reg', cs', m') -> zlen m' = zlen m.
Proof.
  intros reg [|[i v|i v|i v|s|] cs] m reg' cs' m' H; cbn [cmd_step] in H; try discriminate; try (inversion H; subst; reflexivity).
  - apply bind_ok in H. destruct H as (x & Hx & H). inversion H; subst. apply set_at_ok, zset_len in Hx; auto.
  - destruct reg; apply bind_ok in H; destruct H as (x & Hx & H); inversion H; subst; auto. apply set_at_ok, zset_len in Hx; auto.
  - destruct reg; apply bind_ok in H; destruct H as (x & Hx & H); inversion H; subst; auto. apply set_at_ok, zset_len in Hx; auto.
Qed.
Lemma step_zlen : forall L (j : job L) s s', step j (Running s) (Running s') -> zlen (st_mem s') = zlen (st_mem s).
Proof. intros L j s s' H. inversion H; subst; cbn [st_mem]; auto. eapply cmd_step_zlen; eauto. Qed.

Lemma with_mem_eta : forall L (s : state L) m, st_mem s = m -> with_mem s m = s.
Proof. intros L [a b c d e] m <-. reflexivity. Qed.

(** ** Projection *)
Section Machine.
Context {I : Type} (L : I -> Type) (jobs : forall i, job (L i)) (off len : I -> Z).
Hypothesis dec : forall i k : I, {i = k} + {i <> k}.
Hypothesis apart : forall i k, i <> k -> off i + len i <= off k \/ off k + len k <= off i.

Definition solo (calls0 : forall i, state (L i)) (mem0 : list f64) (i : I) : config (L i) :=
  Running (with_mem (calls0 i) (window mem0 (off i) (len i))).

Lemma steps_snoc : forall A (j : job A) c1 c2 c3, steps j c1 c2 -> step j c2 c3 -> steps j c1 c3.
Proof. intros A j c1 c2 c3 H. induction H; intros; econstructor; eauto. constructor. Qed.

Lemma project : forall calls0 mem0 c1 c2, psteps L jobs off len c1 c2 ->
  forall calls mem, c1 = Live calls mem -> (forall i, fits mem0 (off i) (len i)) -> zlen mem = zlen mem0 ->
  (forall i, steps (jobs i) (solo calls0 mem0 i) (solo calls mem i)) ->
  (forall k, (forall i, k < off i \/ off i + len i <= k) -> zget mem k = zget mem0 k) ->
  match c2 with
  | Live calls' mem' => zlen mem' = zlen mem0 /\ (forall i, steps (jobs i) (solo calls0 mem0 i) (solo calls' mem' i)) /\
      (forall k, (forall i, k < off i \/ off i + len i <= k) -> zget mem' k = zget mem0 k)
  | Dead m => exists i, steps (jobs i) (solo calls0 mem0 i) (Crashed m)
  end.
Proof.
  intros calls0 mem0 c1 c2 H. induction H as [c|c1 c2 c3 H1 H2 IH]; intros calls mem E F Z S O.
  - subst c. auto.
  - subst c1. inversion H1 as [calls1 calls' mem1 i s Hs Hi Hk|calls1 mem1 i m Hs]; subst.
    + assert (Fi : forall k, fits mem (off k) (len k)) by (intros k; destruct (F k) as (A & B & C); unfold fits; rewrite Z; auto).
      assert (Ls : zlen (st_mem (calls' i)) = len i).
      { apply step_zlen in Hs. cbn [with_mem st_mem] in Hs. rewrite Hs. apply window_zlen. auto. }
      apply (IH calls' _ eq_refl F).
      * rewrite splice_zlen; auto.
      * intros k. destruct (dec k i) as [->|Ne].
        -- eapply steps_snoc; [apply S|]. unfold solo at 2. rewrite window_splice by auto. rewrite (with_mem_eta _ (calls' i)) by reflexivity. exact Hs.
        -- unfold solo at 2. rewrite window_splice_other; auto. rewrite (Hk k Ne). apply S.
      * intros k Ho. rewrite zget_splice_out; auto.
    + inversion H2 as [|? ? ? H4 _]; subst; [|inversion H4]. exists i. eapply steps_snoc; [apply S|exact Hs].
Qed.
End Machine.

(** ** The single-threaded body as a goroutine *)
Section Single.
Context {L : Type} (j : job L).

(** what remains to be done by the only worker *)
Definition remains (wk : worker L) (m : list f64) : outcome (list f64) :=
  match wk with
  | WRow l r e => exec_rows (jb_row j) (zrange r e) l m
  | WCmd l r e reg cs => let* m' := exec (resolve reg cs) m in exec_rows (jb_row j) (zrange (r + 1) e) l m'
  | _ => Ok m
  end.

Definition alone_inv (res : outcome (list f64)) (c : config L) : Prop :=
  match c with
  | Running s => exists wk, st_workers s = [wk] /\ st_closed s = true /\ wk <> WStart /\ remains wk (st_mem s) = res /\
      ((st_main s = MWait /\ st_wg s = (if isexit wk then 0 else 1)) \/ (st_main s = MReturned /\ wk = WExited))
  | Crashed m => res = Panic m
  end.

Lemma remains_cmd : forall reg c cs m reg' cs' m', cmd_step reg (c :: cs) m = Ok (reg', cs', m') ->
  exec (resolve reg' cs') m' = exec (resolve reg (c :: cs)) m.
Proof.
  intros reg c cs m reg' cs' m' H. apply cmd_step_spec in H. destruct H as [(d & R & X & -> & ->)|[(i & x & d & -> & R & R' & X & _)|(-> & -> & -> & ->)]].
  - rewrite R, resolve_none. cbn [exec]. rewrite X. reflexivity.
  - rewrite R, R'. cbn [exec]. rewrite X. reflexivity.
  - reflexivity.
Qed.

Lemma cmd_panic : forall reg c cs m s, cmd_step reg (c :: cs) m = Panic s -> exec (resolve reg (c :: cs)) m = Panic s.
Proof.
  intros reg c cs m s H. destruct c as [i v|i v|i v|t|]; cbn [cmd_step] in H.
  - destruct (set_at m i v) eqn:E; cbn [bind] in H; try discriminate. inversion H; subst. destruct reg; cbn [resolve exec exec1]; rewrite E; reflexivity.
  - destruct reg as [y|]; cbn [resolve exec exec1].
    + destruct (set_at m i (fadd y v)) eqn:E; cbn [bind] in H; try discriminate. inversion H; subst. reflexivity.
    + destruct (at_ m i) eqn:E; cbn [bind] in H; try discriminate. inversion H; subst. reflexivity.
  - destruct reg as [y|]; cbn [resolve exec exec1].
    + destruct (set_at m i (fmul y v)) eqn:E; cbn [bind] in H; try discriminate. inversion H; subst. reflexivity.
    + destruct (at_ m i) eqn:E; cbn [bind] in H; try discriminate. inversion H; subst. reflexivity.
  - inversion H; subst. destruct reg; reflexivity.
  - discriminate.
Qed.

Lemma one_worker : forall A (a : list A) x b y, a ++ x :: b = [y] -> a = [] /\ b = [] /\ x = y.
Proof. intros A [|z a] x b y H; cbn in H; inversion H; subst; auto. destruct a; discriminate. Qed.

Lemma alone_step : forall res c c', step j c c' -> alone_inv res c -> alone_inv res c'.
Proof.
  intros res c c' H. destruct H; intros (wk & W & C & N & R & M); cbn [st_workers st_closed st_main st_wg st_mem] in *;
    try (apply one_worker in W; destruct W as (-> & -> & <-)); try (destruct M as [(M1 & M2)|(M1 & M2)]; try discriminate; try congruence);
    cbn [alone_inv st_workers st_closed st_main st_wg st_mem].
  - subst ws. exists wk. repeat split; auto. right. split; auto. destruct wk; cbn in M2; try discriminate; auto. all: discriminate.
  - exists WExited. repeat split; auto; try discriminate. left. split; auto. cbn in M2. subst wg. reflexivity.
  - eexists. repeat split; auto; try discriminate. cbn [remains] in *. rewrite zrange_cons in R by assumption. cbn [exec_rows] in R. exact R.
  - eexists. repeat split; auto; try discriminate. cbn [remains] in *. rewrite zrange_nil in R by assumption. exact R.
  - eexists. repeat split; auto; try discriminate. cbn [remains] in *. erewrite remains_cmd by eassumption. exact R.
  - cbn [remains] in R. erewrite cmd_panic in R by eassumption. cbn [bind] in R. auto.
  - eexists. repeat split; auto; try discriminate. cbn [remains] in *. replace (resolve reg []) with (@nil cmd) in R by (destruct reg; reflexivity). exact R.
Qed.

Lemma alone_steps : forall res c c', steps j c c' -> alone_inv res c -> alone_inv res c'.
Proof. intros res c c' H. induction H; eauto using alone_step. Qed.

Lemma single_sound : forall l m c, steps j (Running (with_mem (mkState MWait true 1 [WRow l 0 (jb_nRows j)] []) m)) c ->
  (forall m', returned c m' -> exec_rows (jb_row j) (zrange 0 (jb_nRows j)) l m = Ok m') /\
  (forall s, c = Crashed s -> exec_rows (jb_row j) (zrange 0 (jb_nRows j)) l m = Panic s).
Proof.
  intros l m c H. apply alone_steps with (res := exec_rows (jb_row j) (zrange 0 (jb_nRows j)) l m) in H.
  - split.
    + intros m' (cl & wg & ws & ->). destruct H as (wk & W & C & N & R & [(M & _)|(M & ->)]); cbn [st_main] in M; [discriminate|]. cbn [remains st_mem] in R. auto.
    + intros s ->. exact H.
  - exists (WRow l 0 (jb_nRows j)). repeat split; auto; discriminate.
Qed.
End Single.

(** ** Executions of the program are finite and do not get stuck *)
Section Completion.
Context {I : Type} (L : I -> Type) (jobs : forall i, job (L i)) (off len : I -> Z).
Hypothesis dec : forall i k : I, {i = k} + {i <> k}.
Hypothesis apart : forall i k, i <> k -> off i + len i <= off k \/ off k + len k <= off i.

Lemma nsteps_snoc : forall A (j : job A) n c1 c2 c3, nsteps j n c1 c2 -> step j c2 c3 -> nsteps j (S n) c1 c3.
Proof. intros A j n c1 c2 c3 H. induction H; intros; econstructor; eauto. constructor. Qed.

Lemma nsteps_steps : forall A (j : job A) n c1 c2, nsteps j n c1 c2 -> steps j c1 c2.
Proof. intros A j n c1 c2 H. induction H; econstructor; eauto. Qed.

Definition total (l : list I) (cnt : I -> nat) : nat := list_sum (map cnt l).
Definition bump (i : I) (cnt : I -> nat) (k : I) : nat := if dec k i then S (cnt k) else cnt k.
Lemma total_cons : forall k l cnt, total (k :: l) cnt = (cnt k + total l cnt)%nat.
Proof. reflexivity. Qed.
Lemma total_bump_out : forall l i cnt, ~ In i l -> total l (bump i cnt) = total l cnt.
Proof.
  induction l as [|k l IH]; intros i cnt H; auto. rewrite !total_cons. cbn in H. rewrite IH by tauto.
  unfold bump. destruct (dec k i); [subst; tauto|]. reflexivity.
Qed.
Lemma total_bump : forall l i cnt, NoDup l -> In i l -> total l (bump i cnt) = S (total l cnt).
Proof.
  induction l as [|k l IH]; intros i cnt Hn H; [destruct H|]. inversion Hn as [|? ? Hk Hl]; subst. rewrite !total_cons.
  destruct H as [->|H].
  - rewrite total_bump_out by auto. unfold bump. destruct (dec i i); [|congruence]. lia.
  - rewrite (IH i cnt Hl H). unfold bump. destruct (dec k i); [subst; tauto|]. lia.
Qed.
Lemma total_le : forall l (a b : I -> nat), (forall i, (a i <= b i)%nat) -> (total l a <= total l b)%nat.
Proof. intros l a b H. induction l as [|k l IH]; auto. rewrite !total_cons. specialize (H k). lia. Qed.

Lemma count : forall calls0 mem0 l, NoDup l -> (forall i, In i l) -> forall n c1 c2, pnsteps L jobs off len n c1 c2 ->
  forall calls mem cnt, c1 = Live calls mem -> (forall i, fits mem0 (off i) (len i)) -> zlen mem = zlen mem0 ->
  (forall i, nsteps (jobs i) (cnt i) (solo L off len calls0 mem0 i) (solo L off len calls mem i)) ->
  match c2 with
  | Live calls' mem' => exists cnt', (forall i, nsteps (jobs i) (cnt' i) (solo L off len calls0 mem0 i) (solo L off len calls' mem' i)) /\
      total l cnt' = (n + total l cnt)%nat
  | Dead m => exists i, steps (jobs i) (solo L off len calls0 mem0 i) (Crashed m)
  end.
Proof.
  intros calls0 mem0 l Nd All n c1 c2 H. induction H as [c|n c1 c2 c3 H1 H2 IH]; intros calls mem cnt E F Z S.
  - subst c. exists cnt. auto.
  - subst c1. inversion H1 as [calls1 calls' mem1 i s Hs Hi Hk|calls1 mem1 i m Hs]; subst.
    + assert (Fi : forall k, fits mem (off k) (len k)) by (intros k; destruct (F k) as (A & B & C); unfold fits; rewrite Z; auto).
      assert (Ls : zlen (st_mem (calls' i)) = len i).
      { apply step_zlen in Hs. cbn [with_mem st_mem] in Hs. rewrite Hs. apply window_zlen. auto. }
      specialize (IH calls' _ (bump i cnt) eq_refl F). destruct c3 as [calls3 mem3|m].
      * destruct IH as (cnt' & A & B).
        -- rewrite splice_zlen; auto.
        -- intros k. unfold bump. destruct (dec k i) as [->|Ne].
           ++ eapply nsteps_snoc; [apply S|]. unfold solo. rewrite window_splice by auto. rewrite (with_mem_eta _ (calls' i)) by reflexivity. exact Hs.
           ++ unfold solo at 2. rewrite window_splice_other; auto. rewrite (Hk k Ne). apply S.
        -- exists cnt'. split; auto. rewrite B, total_bump; auto. lia.
      * apply IH.
        -- rewrite splice_zlen; auto.
        -- intros k. unfold bump. destruct (dec k i) as [->|Ne].
           ++ eapply nsteps_snoc; [apply S|]. unfold solo. rewrite window_splice by auto. rewrite (with_mem_eta _ (calls' i)) by reflexivity. exact Hs.
           ++ unfold solo at 2. rewrite window_splice_other; auto. rewrite (Hk k Ne). apply S.
    + inversion H2 as [|? ? ? ? H4 _]; subst; [|inversion H4]. exists i.
      eapply steps_snoc; [|exact Hs]. eapply nsteps_steps. apply S.
Qed.

Definition put (calls : forall i, state (L i)) (i : I) (s : state (L i)) (k : I) : state (L k) :=
  match dec i k with left e => eq_rect i (fun x => state (L x)) s k e | right _ => calls k end.
Lemma put_same : forall calls i s, put calls i s i = s.
Proof. intros calls i s. unfold put. destruct (dec i i) as [e|]; [|congruence]. rewrite (Eqdep_dec.UIP_dec dec e eq_refl). reflexivity. Qed.
Lemma put_other : forall calls i s k, k <> i -> put calls i s k = calls k.
Proof. intros calls i s k H. unfold put. destruct (dec i k); [congruence|reflexivity]. Qed.

(** a step of one call is a step of the program *)
Lemma lift : forall calls mem i c, step (jobs i) (Running (with_mem (calls i) (window mem (off i) (len i)))) c ->
  exists c', pstep L jobs off len (Live calls mem) c'.
Proof.
  intros calls mem i [s|m] H.
  - eexists. eapply (pstep_call L jobs off len calls (put calls i s) mem i s); [exact H|apply put_same|intros; apply put_other; auto].
  - eexists. eapply pstep_panic. exact H.
Qed.
End Completion.

(** ** The single-threaded body completes *)
Section SingleCompletes.
Context {L : Type} (j : job L).

Fixpoint cost (rows : list Z) (l : L) : nat :=
  match rows with
  | [] => O
  | r :: rows' => 2 + 2 * List.length (fst (jb_row j l r)) + cost rows' (snd (jb_row j l r))
  end%nat.
Definition wcost (wk : worker L) : nat :=
  match wk with
  | WRow l r e => 3 + cost (zrange r e) l
  | WCmd l r e reg cs => 4 + (2 * List.length cs - match reg with Some _ => 1 | None => 0 end) + cost (zrange (r + 1) e) l
  | WIdle _ => 2
  | _ => 0
  end%nat.
Definition scost (s : state L) : nat :=
  (list_sum (map wcost (st_workers s)) + match st_main s with MWait => 1 | _ => 0 end)%nat.

Lemma bind_ok_l : forall A B (x : outcome A) (f : A -> outcome B) y, bind x f = Ok y -> exists a, x = Ok a /\ f a = Ok y.
Proof. intros A B [a|m|m|] f y H; cbn in H; try discriminate. eauto. Qed.

Lemma alone_cost : forall mf s s', step j (Running s) (Running s') -> alone_inv j (Ok mf) (Running s) -> (scost s' < scost s)%nat.
Proof.
  intros mf s s' H (wk & W & C & N & R & M). inversion H; subst; cbn [st_workers st_closed st_main st_wg st_mem] in *;
    try (apply one_worker in W; destruct W as (-> & -> & <-)); try (destruct M as [(M1 & M2)|(M1 & M2)]; try discriminate; try congruence);
    unfold scost; cbn [st_workers st_main app map]; try subst; cbn [wcost list_sum fold_right].
  - lia.
  - lia.
  - rewrite (zrange_cons r e) by assumption. cbn [cost]. lia.
  - lia.
  - cbn [remains] in R. apply bind_ok in R. destruct R as (x & Hx & _).
    match goal with Hc : cmd_step _ _ _ = Ok _ |- _ =>
      destruct (cmd_step_spec _ _ _ _ _ _ _ Hc) as [(d & _ & _ & -> & ->)|[(i & y & d & _ & _ & _ & _ & _ & _ & -> & -> & ->)|(-> & _)]] end.
    + cbn [List.length]. destruct reg; lia.
    + cbn [List.length]. lia.
    + destruct reg; cbn in Hx; discriminate.
  - cbn [List.length]. destruct reg; lia.
Qed.

Lemma alone_running : forall mf c, alone_inv j (Ok mf) c -> exists s, c = Running s.
Proof. intros mf [s|m] H; [eauto|discriminate H]. Qed.

Lemma alone_bound : forall mf n s c, nsteps j n (Running s) c -> alone_inv j (Ok mf) (Running s) -> (n <= scost s)%nat.
Proof.
  intros mf n. induction n as [|n IH]; intros s c H I; [lia|]. inversion H as [|? ? c2 ? H1 H2]; subst.
  pose proof (alone_step j _ _ _ H1 I) as I2. destruct (alone_running _ _ I2) as [s2 ->].
  pose proof (alone_cost _ _ _ H1 I). pose proof (IH _ _ H2 I2). lia.
Qed.

Lemma alone_progress : forall mf s, alone_inv j (Ok mf) (Running s) -> (exists m, returned (Running s) m) \/ exists c, step j (Running s) c.
Proof.
  intros mf [pc cl wg ws m] (wk & W & C & N & R & M); cbn [st_workers st_closed st_main st_wg st_mem] in *. subst.
  destruct M as [(-> & ->)|(-> & ->)]; [right|left; exists m; unfold returned; eauto].
  destruct wk as [|l|l r e|l r e reg cs|]; [congruence| | | |].
  - eexists. apply (step_exit j MWait _ [] l [] m).
  - destruct (Z_lt_le_dec r e); eexists; [apply (step_row j MWait true _ [] l r e [] m); auto|apply (step_batch_done j MWait true _ [] l r e [] m); auto].
  - destruct cs as [|c cs]; [eexists; apply (step_row_done j MWait true _ [] l r e reg [] m)|].
    cbn [remains] in R. apply bind_ok in R. destruct R as (x & Hx & _).
    destruct (cmd_step reg (c :: cs) m) as [[[reg' cs'] m']|t|t|] eqn:E.
    + eexists. eapply (step_cmd j MWait true _ [] l r e reg c cs reg' cs' [] m m'). exact E.
    + exfalso. destruct c; cbn [cmd_step] in E; destruct reg; cbn [resolve exec exec1] in Hx;
        try (unfold set_at, at_ in *; repeat match type of E with context [match ?a with _ => _ end] => destruct a; cbn in E, Hx; try discriminate end); try discriminate.
    + eexists. eapply (step_cmd_panic j MWait true _ [] l r e reg c cs t [] m). exact E.
    + exfalso. destruct c; cbn [cmd_step] in E; destruct reg; cbn [resolve exec exec1] in Hx;
        try (unfold set_at, at_ in *; repeat match type of E with context [match ?a with _ => _ end] => destruct a; cbn in E, Hx; try discriminate end); try discriminate.
  - eexists. apply (step_return j true [WExited] m).
Qed.

Lemma single_completes : forall l m mf, exec_rows (jb_row j) (zrange 0 (jb_nRows j)) l m = Ok mf ->
  always_completes j (Running (with_mem (mkState MWait true 1 [WRow l 0 (jb_nRows j)] []) m)).
Proof.
  intros l m mf H.
  assert (I0 : alone_inv j (Ok mf) (Running (with_mem (mkState MWait true 1 [WRow l 0 (jb_nRows j)] []) m))).
  { exists (WRow l 0 (jb_nRows j)). repeat split; auto; discriminate. }
  split.
  - eexists. intros n c Hn. eapply alone_bound; eauto.
  - intros c Hc. pose proof (alone_steps j _ _ _ Hc I0) as I1. destruct (alone_running _ _ I1) as [s ->]. split; [eauto|]. eapply alone_progress; eauto.
Qed.
End SingleCompletes.

(** ** A call can return *)
Lemma completes_returns : forall L (j : job L) c0, always_completes j c0 -> exists c m, steps j c0 c /\ returned c m.
Proof.
  intros L j c0 ((b & Hb) & P).
  assert (G : forall k n c, (b < n + k)%nat -> nsteps j n c0 c -> exists c m, steps j c0 c /\ returned c m).
  { induction k as [|k IH]; intros n c Hn H; [pose proof (Hb _ _ H); lia|].
    assert (Sc : steps j c0 c) by (eapply nsteps_steps; eauto). destruct (P c Sc) as (_ & [(m & Hm)|(c' & Hc)]); [eauto|].
    apply (IH (S n) c'); [lia|]. eapply nsteps_snoc; eauto. }
  apply (G (S b) O c0); [lia|constructor].
Qed.

Section Lift.
Context {I : Type} (L : I -> Type) (jobs : forall i, job (L i)) (off len : I -> Z).
Hypothesis dec : forall i k : I, {i = k} + {i <> k}.
Lemma lift_steps : forall i c c', steps (jobs i) c c' -> forall calls mem s', fits mem (off i) (len i) ->
  c = Running (with_mem (calls i) (window mem (off i) (len i))) -> c' = Running s' ->
  exists calls' mem', psteps L jobs off len (Live calls mem) (Live calls' mem') /\
    with_mem (calls' i) (window mem' (off i) (len i)) = s' /\ (forall k, k <> i -> calls' k = calls k) /\ zlen mem' = zlen mem.
Proof.
  intros i c c' H. induction H as [c|c1 c2 c3 H1 H2 IH]; intros calls mem s' F E E'.
  - subst c. exists calls, mem. repeat split; auto; [constructor|congruence].
  - subst c1 c3. destruct c2 as [s2|]; [|inversion H2; subst; inversion H].
    assert (Ls : zlen (st_mem s2) = len i).
    { apply step_zlen in H1. cbn [with_mem st_mem] in H1. rewrite H1. apply window_zlen. auto. }
    assert (Zs : zlen (splice mem (off i) (len i) (st_mem s2)) = zlen mem) by (apply splice_zlen; auto).
    destruct (IH (put L dec calls i s2) (splice mem (off i) (len i) (st_mem s2)) s') as (calls' & mem' & P1 & P2 & P3 & P4); auto.
    + unfold fits in *. rewrite Zs. exact F.
    + rewrite put_same, window_splice by auto. rewrite with_mem_eta; reflexivity.
    + exists calls', mem'. split; [|split; [exact P2|split; [|congruence]]].
      * econstructor; [|exact P1]. eapply pstep_call; [exact H1|apply put_same|intros; apply put_other; auto].
      * intros k Hk. rewrite P3 by auto. apply put_other. auto.
Qed.
End Lift.
