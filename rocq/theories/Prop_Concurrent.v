(** * C61: calls running at the same time *)

From Coq Require Import ZArith List Bool String Lia ZifyBool.
From Verif Require Import Go GoFloat Cmd LgTree Transformation Ensembles Leaves Parallel Concurrent Spec_Predict
  Pf_Go Pf_Cmd Pf_Parallel Pf_Rows Pf_Calls Pf_Concurrent Prop_Batch Demo Ex_Batch.
Local Open Scope Z_scope.

(** the calls of a program: call [i] was given cells [off i .. off i + len i - 1] of the memory
    [mem0] as its [predictions], passed its checks with the adjusted number of estimators [n i],
    and is about to start; no two calls were given a common cell *)
Definition about_to_run {I : Type} (p : platform) (calls : I -> call) (n off len : I -> Z) (mem0 : list f64)
  (start : forall i, state (local (calls i))) : Prop :=
  (forall i, 0 <= off i /\ 0 <= len i /\ off i + len i <= zlen mem0) /\
  (forall i k, i <> k -> off i + len i <= off k \/ off k + len k <= off i) /\
  (forall i, checks (calls i) (window mem0 (off i) (len i)) = Ok (n i)) /\
  (forall i, begins (job_of p (calls i) (n i)) (is_single (calls i)) (start i)).

Notation runs p calls n off len := (psteps (fun i => local (calls i)) (fun i => job_of p (calls i) (n i)) off len).
Notation runs_n p calls n off len := (pnsteps (fun i => local (calls i)) (fun i => job_of p (calls i) (n i)) off len).
Notation moves p calls n off len := (pstep (fun i => local (calls i)) (fun i => job_of p (calls i) (n i)) off len).

Lemma alone_result : forall p c n preds s cf, checks c preds = Ok n -> begins (job_of p c n) (is_single c) s ->
  steps (job_of p c n) (Running (with_mem s preds)) cf ->
  (forall m, returned cf m -> alone p c preds (Returns m)) /\ (forall msg, cf = Crashed msg -> alone p c preds (Panics msg)).
Proof.
  intros p c n preds s cf Hc Hb H. destruct Hb as [l Hs Hl|Hs].
  - apply single_sound in H. destruct H as (H1 & H2).
    destruct c as [e vals nrows ncols nE nT|e indptr cols vals nE nT]; cbn [checks is_single alone job_of] in *.
    + assert (E : dense_single p e vals nrows ncols preds n = exec_rows (jb_row (dense_job p e vals nrows ncols n nT)) (zrange 0 nrows) l preds).
      { unfold dense_single, dense_job. cbn [jb_row jb_nRows]. rewrite zrange_zseq. destruct l. reflexivity. }
      split; intros; [eapply PD_single|eapply PD_single_panic]; eauto; rewrite E; [apply H1|apply H2]; auto.
    + assert (E : csr_single p e indptr cols vals preds n = exec_rows (jb_row (csr_job p e indptr cols vals n nT)) (zrange 0 (zlen indptr - 1)) l preds).
      { unfold csr_single. cbn [csr_job jb_init] in Hl. rewrite Hl. cbn [bind csr_job jb_row]. rewrite zrange_zseq. reflexivity. }
      split; intros; [eapply PC_single|eapply PC_single_panic]; eauto; rewrite E; [apply H1|apply H2]; auto.
  - destruct c as [e vals nrows ncols nE nT|e indptr cols vals nE nT]; cbn [checks is_single alone job_of] in *; split; intros; subst.
    + eapply PD_parallel; eauto.
    + eapply PD_parallel_panic; eauto.
    + eapply PC_parallel; eauto.
    + eapply PC_parallel_panic; eauto.
Qed.

(** Whatever the interleaving of the goroutines of all calls: a call that has returned leaves in
    its slice a result it can leave when it runs alone; cells given to no call keep their value;
    the program dies only of a panic that one of the calls can have alone. *)
Theorem C61_concurrent_calls_independent :
  forall (I : Type) (p : platform) (calls : I -> call) (n off len : I -> Z) mem0 start,
  (forall i k : I, {i = k} + {i <> k}) ->
  about_to_run p calls n off len mem0 start ->
  (forall now mem, runs p calls n off len (Live start mem0) (Live now mem) ->
     (forall i, st_main (now i) = MReturned ->
        alone p (calls i) (window mem0 (off i) (len i)) (Returns (window mem (off i) (len i)))) /\
     (forall k, (forall i, k < off i \/ off i + len i <= k) -> zget mem k = zget mem0 k)) /\
  (forall msg, runs p calls n off len (Live start mem0) (Dead msg) ->
     exists i, alone p (calls i) (window mem0 (off i) (len i)) (Panics msg)).
Proof.
  intros I p calls n off len mem0 start dec (F & A & C & B).
  assert (P := fun c H => project (fun i => local (calls i)) (fun i => job_of p (calls i) (n i)) off len dec A start mem0
    (Live start mem0) c H start mem0 eq_refl F eq_refl (fun i => steps_refl _ _) (fun _ _ => eq_refl)).
  split.
  - intros now mem H. apply P in H. destruct H as (_ & S & O). split; [|exact O].
    intros i Hm. destruct (alone_result _ _ _ _ _ _ (C i) (B i) (S i)) as (R & _). apply R.
    unfold returned, solo, with_mem. rewrite Hm. eauto.
  - intros msg H. apply P in H. destruct H as (i & S). exists i.
    destruct (alone_result _ _ _ _ _ _ (C i) (B i) S) as (_ & R). auto.
Qed.
Print Assumptions C61_concurrent_calls_independent.

Lemma stays_returned : forall L (j : job L) s s', step j (Running s) (Running s') -> st_main s = MReturned -> st_main s' = MReturned.
Proof. intros L j s s' H E. inversion H; subst; cbn [st_main] in *; auto; discriminate. Qed.

(** the same call, single-threaded *)
Definition one_thread (c : call) : call :=
  match c with
  | DenseCall e vals nrows ncols nE nT => DenseCall e vals nrows ncols nE 1
  | CSRCall e indptr cols vals nE nT => CSRCall e indptr cols vals nE 1
  end.
Definition call_model (c : call) : Ensemble := match c with DenseCall e _ _ _ _ _ => e | CSRCall e _ _ _ _ _ => e end.
Definition call_rows (c : call) : Z := match c with DenseCall _ _ r _ _ _ => r | CSRCall _ indptr _ _ _ _ => zlen indptr - 1 end.

(** The slice of a returned call holds the result of the single-threaded call alone, and keeps
    it while the other calls go on. *)
Theorem C61_concurrent_results :
  forall (I : Type) (p : platform) (calls : I -> call) (n off len : I -> Z) mem0 start,
  (forall i k : I, {i = k} + {i <> k}) ->
  about_to_run p calls n off len mem0 start ->
  forall i, well_formed (call_model (calls i)) -> sane_rows (call_model (calls i)) (call_rows (calls i)) ->
  forall now mem, runs p calls n off len (Live start mem0) (Live now mem) -> st_main (now i) = MReturned ->
  alone p (one_thread (calls i)) (window mem0 (off i) (len i)) (Returns (window mem (off i) (len i))) /\
  (forall m, alone p (one_thread (calls i)) (window mem0 (off i) (len i)) (Returns m) -> m = window mem (off i) (len i)) /\
  forall later mem', runs p calls n off len (Live now mem) (Live later mem') ->
    st_main (later i) = MReturned /\ window mem' (off i) (len i) = window mem (off i) (len i).
Proof.
  intros I p calls n off len mem0 start dec H0 i W S now mem H M.
  assert (U : forall m m', alone p (calls i) (window mem0 (off i) (len i)) (Returns m) ->
    alone p (one_thread (calls i)) (window mem0 (off i) (len i)) (Returns m) /\
    (alone p (calls i) (window mem0 (off i) (len i)) (Returns m') \/ alone p (one_thread (calls i)) (window mem0 (off i) (len i)) (Returns m') -> m' = m)).
  { assert (G : with_gomaxprocs p (pl_gomaxprocs p) = p) by (destruct p; reflexivity).
    clear - W S G. intros m m' Hm. destruct (calls i) as [e vals nrows ncols nE nT|e indptr cols vals nE nT]; cbn [alone one_thread call_model call_rows] in *.
    - destruct (C01_dense_schedule_independent _ _ _ _ _ _ _ _ _ W S Hm) as (A & B). split; [exact A|].
      intros [H2|H2]; eapply (B (pl_gomaxprocs p)); rewrite G; exact H2.
    - destruct (C02_csr_schedule_independent _ _ _ _ _ _ _ _ _ W S Hm) as (A & B). split; [exact A|].
      intros [H2|H2]; eapply (B (pl_gomaxprocs p)); rewrite G; exact H2. }
  destruct (C61_concurrent_calls_independent I p calls n off len mem0 start dec H0) as (P & _).
  destruct (P now mem H) as (R & _). specialize (R i M). split; [apply (U _ (window mem (off i) (len i)) R)|].
  split; [intros m Hm; apply (U _ m R); auto|].
  intros later mem' H2.
  assert (K : st_main (later i) = MReturned).
  { clear - H2 M dec. remember (Live now mem) as c1 eqn:E1. remember (Live later mem') as c2 eqn:E2. revert now mem E1 M later mem' E2.
    induction H2 as [c|c1 c2 c3 Hs H2 IH]; intros now mem -> M later mem' E2.
    - inversion E2. assert (now = later) as <- by (apply (f_equal (fun c => match c with Live a _ => a | Dead _ => now end)) in E2; exact E2). exact M.
    - subst c3. inversion Hs as [q q' mm k s Hk Hi Ho|q mm k msg Hk]; subst.
      + refine (IH q' _ eq_refl _ later mem' eq_refl). destruct (dec i k) as [->|Ne]; [|rewrite Ho; auto].
        apply (stays_returned _ _ _ _ Hk). exact M.
      + inversion H2 as [|? ? ? X _]; subst. inversion X. }
  split; [exact K|].
  assert (T : runs p calls n off len (Live start mem0) (Live later mem')).
  { clear - H H2. induction H as [c|c1 c2 c3 Hs H IH]; auto. econstructor; eauto. }
  destruct (P later mem' T) as (R2 & _). specialize (R2 i K). apply (U _ _ R). auto.
Qed.
Print Assumptions C61_concurrent_results.

(** If every call alone always completes (C03), so does every execution of finitely many calls
    together: it is finite, nobody panics, and as long as some call has not returned some
    goroutine can move. *)
Theorem C61_concurrent_calls_complete :
  forall (I : Type) (p : platform) (calls : I -> call) (n off len : I -> Z) mem0 start,
  (forall i k : I, {i = k} + {i <> k}) -> (exists l : list I, forall i, In i l) ->
  about_to_run p calls n off len mem0 start ->
  (forall i, always_completes (job_of p (calls i) (n i)) (Running (with_mem (start i) (window mem0 (off i) (len i))))) ->
  (exists bound, forall k c, runs_n p calls n off len k (Live start mem0) c -> (k <= bound)%nat) /\
  forall c, runs p calls n off len (Live start mem0) c ->
    exists now mem, c = Live now mem /\
      ((forall i, st_main (now i) = MReturned) \/ exists c', moves p calls n off len c c').
Proof.
  intros I p calls n off len mem0 start dec (l0 & All0) (F & A & C & B) K.
  set (l := nodup dec l0). assert (Nd : NoDup l) by apply NoDup_nodup. assert (All : forall i, In i l) by (intros i; apply nodup_In; auto).
  assert (P := fun c H => project (fun i => local (calls i)) (fun i => job_of p (calls i) (n i)) off len dec A start mem0
    (Live start mem0) c H start mem0 eq_refl F eq_refl (fun i => steps_refl _ _) (fun _ _ => eq_refl)).
  split.
  - assert (Bd : exists b : I -> nat, forall i, In i l -> forall k c, nsteps (job_of p (calls i) (n i)) k
      (Running (with_mem (start i) (window mem0 (off i) (len i)))) c -> (k <= b i)%nat).
    { clear - K dec. induction l as [|i l (b & Hb)]; [exists (fun _ => O); intros i []|]. destruct (K i) as ((x & Hx) & _).
      exists (fun k => if dec k i then x else b k). intros k Hk q c Hq. destruct (dec k i) as [->|Ne]; [eapply Hx; eauto|].
      destruct Hk as [->|Hk]; [congruence|]. eapply Hb; eauto. }
    destruct Bd as (b & Hb). exists (total l b). intros k c H.
    pose proof (count (fun i => local (calls i)) (fun i => job_of p (calls i) (n i)) off len dec A start mem0 l Nd All k _ c H start mem0 (fun _ => O)
      eq_refl F eq_refl (fun i => nsteps_O _ _)) as Q.
    destruct c as [now mem|msg].
    + destruct Q as (cnt & Q1 & Q2). assert (Z0 : total l (fun _ : I => O) = O) by (clear; induction l; auto).
      rewrite Z0, Nat.add_0_r in Q2. rewrite <- Q2. apply total_le. intros i. eapply Hb; [apply All|apply Q1].
    + destruct Q as (i & Q). destruct (K i) as (_ & Ki). destruct (Ki _ Q) as ((s & Es) & _). discriminate.
  - intros c H. pose proof (P c H) as Q. destruct c as [now mem|msg].
    + destruct Q as (_ & S & _). exists now, mem. split; auto.
      assert (D : (forall i, In i l -> st_main (now i) = MReturned) \/ exists i, In i l /\ st_main (now i) <> MReturned).
      { clear. induction l as [|i l [IH|(k & Hk & IH)]]; [left; intros i []| |right; exists k; cbn; auto].
        destruct (st_main (now i)) eqn:E; try (right; exists i; split; [left; auto|rewrite E; discriminate]).
        left. intros k [<-|Hk]; auto. }
      destruct D as [D|(i & _ & D)]; [left; intros i; apply D, All|right].
      destruct (K i) as (_ & Ki). destruct (Ki _ (S i)) as (_ & [(m & cl & wg & ws & Hr)|(c' & Hc)]).
      * exfalso. apply D. unfold solo, with_mem in Hr. inversion Hr. auto.
      * eapply lift; [exact dec|exact Hc].
    + destruct Q as (i & Q). destruct (K i) as (_ & Ki). destruct (Ki _ Q) as ((s & Es) & _). discriminate.
Qed.
Print Assumptions C61_concurrent_calls_complete.

(** a single-threaded call that returns when alone always completes; multi-threaded ones: C03 *)
Lemma C61_single_threaded_completes : forall p c n preds s m, checks c preds = Ok n -> is_single c = true ->
  begins (job_of p c n) true s -> alone p c preds (Returns m) ->
  always_completes (job_of p c n) (Running (with_mem s preds)).
Proof.
  intros p c n preds s m Hc Hs Hb Ha. inversion Hb as [l _ Hl|]; [|discriminate]; subst. apply (single_completes _ _ _ m).
  destruct c as [e vals nrows ncols nE nT|e indptr cols vals nE nT]; cbn [checks is_single alone job_of local] in *.
  - inversion Ha as [| |n' ? H0 H1 H2| |n' ? c H0 H1 H2 H3|]; subst; [|congruence]. assert (n' = n) by congruence. subst n'.
    rewrite <- H2. unfold dense_single, dense_job. cbn [jb_row jb_nRows]. rewrite zrange_zseq. destruct l. reflexivity.
  - inversion Ha as [| |n' ? H0 H1 H2| |n' ? c H0 H1 H2 H3|]; subst; [|congruence]. assert (n' = n) by congruence. subst n'.
    cbn [csr_job jb_init] in Hl. unfold csr_single in H2. rewrite Hl in H2. cbn [bind] in H2. rewrite <- H2.
    unfold csr_job. cbn [jb_row jb_nRows]. rewrite zrange_zseq. reflexivity.
Qed.
