(** * Executions of batch calls with fused multiply-add *)

From Coq Require Import ZArith List Bool String Lia ZifyBool Permutation Wellfounded.
From Verif Require Import Go GoFloat Cmd UtilMath LgTree Transformation Ensembles Leaves Parallel Fused FusedBatch Spec_Predict Spec_Fused Spec_FusedRun
  Pf_Go Pf_Cmd Pf_Exec Pf_Leaves Pf_Parallel Pf_Batch Pf_Calls Pf_Rows Pf_Fused Pf_FusedRows.
Local Open Scope Z_scope.

(** ** Commands that only access the first [N] cells and cannot fail *)
Definition ready (N : Z) (c : fcmd) : Prop := exists i f, fupd c = Some (i, f) /\ 0 <= i < N.
Definition cost (reg : option f64) (cs : list fcmd) : nat := (2 * List.length cs - match reg with Some _ => 1 | None => 0 end)%nat.

Lemma ready_step : forall one reg c cs m, ready (zlen m) c ->
  exists reg' cs' m', fcmd_step one reg (c :: cs) m = Ok (reg', cs', m').
Proof.
  intros one reg c cs m (i0 & f & U & H). destruct c as [[i v|i v|i v|s|]|i x y]; cbn [fupd cmd_upd] in U; try discriminate; injection U as <- _;
    cbn [fcmd_step cmd_step];
    destruct (zget_some _ m i H) as [a A]; apply at_ok in A;
    try (destruct reg as [r|]; [|rewrite A; cbn [bind fst snd]; eauto]).
  - destruct (zset_some _ m i v H) as [m1 Z1]. apply set_at_ok in Z1. rewrite Z1. cbn [bind fst snd]. eauto.
  - destruct (zset_some _ m i (fadd r v) H) as [m1 Z1]. apply set_at_ok in Z1. rewrite Z1. cbn [bind fst snd]. eauto.
  - destruct (zset_some _ m i (fmul r v) H) as [m1 Z1]. apply set_at_ok in Z1. rewrite Z1. cbn [bind fst snd]. eauto.
  - destruct (zset_some _ m i (if one then ffma x y r else fadd r (fmul x y)) H) as [m1 Z1]. apply set_at_ok in Z1. rewrite Z1. cbn [bind fst snd]. eauto.
Qed.

Lemma ready_cost : forall one reg c cs m reg' cs' m', ready (zlen m) c -> fcmd_step one reg (c :: cs) m = Ok (reg', cs', m') ->
  zlen m' = zlen m /\ (cost reg' cs' < cost reg (c :: cs))%nat /\ (cs' = cs \/ cs' = c :: cs).
Proof.
  intros one reg c cs m reg' cs' m' (i0 & f & U & H) E. destruct c as [[i v|i v|i v|s|]|i x y]; cbn [fupd cmd_upd] in U; try discriminate; injection U as <- _;
    cbn [fcmd_step cmd_step] in E; try destruct reg as [r|];
    repeat match goal with
    | E : bind _ _ = Ok _ |- _ => apply bind_ok in E; let a := fresh "a" in let A := fresh "A" in destruct E as (a & A & E)
    | E : Ok _ = Ok _ |- _ => injection E; clear E; intros; subst
    end; cbn [fst snd] in *; subst;
    repeat match goal with A : set_at _ _ _ = Ok _ |- _ => apply set_at_ok in A; rewrite (zset_len _ _ _ _ _ A); clear A end;
    unfold cost; cbn [List.length]; (split; [reflexivity|split; [lia|auto]]).
Qed.

Lemma fexec_ready : forall fuse cs m, Forall (ready (zlen m)) cs -> exists m', fexec fuse cs m = Ok m' /\ zlen m' = zlen m.
Proof.
  intros fuse cs. induction cs as [|c cs IH]; intros m F; [exists m; split; reflexivity|]. inversion F as [|? ? (i0 & f & U & H) F2]; subst.
  assert (S : forall v, exists m1, set_at m i0 v = Ok m1 /\ exists m', fexec fuse cs m1 = Ok m' /\ zlen m' = zlen m).
  { intros v. destruct (zset_some _ m i0 v H) as [m1 Z1]. exists m1. pose proof (zset_len _ _ _ _ _ Z1) as Ln. split; [apply set_at_ok; auto|].
    rewrite <- Ln. apply IH. rewrite Ln. auto. }
  destruct (zget_some _ m i0 H) as [a A]. apply at_ok in A.
  destruct c as [[i v|i v|i v|s|]|i x y]; cbn [fupd cmd_upd] in U; try discriminate; injection U as -> _; cbn [fexec exec1]; rewrite ?A; cbn [bind].
  - destruct (S v) as (m1 & Z1 & m' & Q & E). rewrite Z1. cbn [bind]. eauto.
  - destruct (S (fadd a v)) as (m1 & Z1 & m' & Q & E). rewrite Z1. cbn [bind]. eauto.
  - destruct (S (fmul a v)) as (m1 & Z1 & m' & Q & E). rewrite Z1. cbn [bind]. eauto.
  - destruct (S (if fuse (List.length cs) then ffma x y a else fadd a (fmul x y))) as (m1 & Z1 & m' & Q & E). rewrite Z1. cbn [bind]. eauto.
Qed.

Lemma fexec_is_ready : forall fuse cs m m', fexec fuse cs m = Ok m' -> Forall (ready (zlen m)) cs.
Proof.
  intros fuse cs m m' H. apply fexec_may in H. induction H as [|c cs i f one x m m1 m2 U G E H IH]; [constructor|]. constructor.
  - exists i, f. split; auto. eapply zget_range; eauto.
  - rewrite (zset_len _ _ _ _ _ E) in IH. exact IH.
Qed.

Lemma ready_fin : forall N w cs, Forall (ready N) cs -> Forall (fin w) cs -> Forall (ready w) cs.
Proof.
  intros N w cs A B. rewrite Forall_forall in *. intros c Hc. destruct (A c Hc) as (i & f & U & _). exists i, f. split; auto.
  pose proof (B c Hc) as X. unfold fin in X. rewrite U in X. exact X.
Qed.
Lemma ready_shift : forall w r N cs, 0 <= r -> 0 <= w -> (r + 1) * w <= N -> Forall (ready w) cs -> Forall (ready N) (map (fshift (r * w)) cs).
Proof.
  intros w r N cs Hr Hw HN F. apply Forall_map. eapply Forall_impl; [|exact F]. intros c (i & f & U & H). exists (r * w + i), f.
  rewrite fupd_shift, U. split; auto. nia.
Qed.

(** ** The machine *)
Section Run.
Context {L : Type}.
Variable j : fjob L.
Variable fresh : L -> Prop.
Variable N : Z.
Hypothesis Init : exists l, fj_init j = Ok l.
Hypothesis InitF : forall l, fj_init j = Ok l -> fresh l.
Hypothesis Row : forall fuse l r, fresh l -> 0 <= r < fj_nRows j ->
  Forall (ready N) (fst (fj_row j fuse l r)) /\ fresh (snd (fj_row j fuse l r)).
Hypothesis Threads : (0 < fj_threads j)%nat.
Hypothesis NRows : 0 <= fj_nRows j.

Definition live_worker (wk : fworker L) : Prop :=
  match wk with
  | FStart | FExited => True
  | FIdle l => fresh l
  | FRow l r e => fresh l /\ 0 <= r /\ e <= fj_nRows j
  | FWrite l r e reg cs => fresh l /\ 0 <= r < e /\ e <= fj_nRows j /\ Forall (ready N) cs
  end.
Record live (s : fstate L) : Prop := mkLive {
  lv_workers : Forall live_worker (fs_workers s);
  lv_len : zlen (fs_mem s) = N;
  lv_wg : fs_wg s = factive (fs_workers s);
  lv_closed : fs_closed s = match fs_main s with MSpawn _ | MFeed _ => false | _ => true end;
  lv_open : fs_closed s = false -> Forall (fun wk => wk <> FExited) (fs_workers s);
  lv_spawn : match fs_main s with MSpawn n => (List.length (fs_workers s) + n = fj_threads j)%nat | _ => (0 < List.length (fs_workers s))%nat end;
  lv_feed : match fs_main s with MFeed i => 0 <= i | _ => True end }.

Definition wk_cost (wk : fworker L) : nat :=
  match wk with
  | FStart => 2
  | FIdle _ => 1
  | FRow _ r e => 2 + 2 * Z.to_nat (e - r)
  | FWrite _ r e _ _ => 1 + 2 * Z.to_nat (e - r)
  | FExited => 0
  end.
Definition main_cost (pc : mainpc) : nat :=
  match pc with
  | MSpawn n => 3 + 3 * n + 40 * Z.to_nat (fj_nBatches j)
  | MFeed i => 2 + 40 * Z.to_nat (fj_nBatches j - i)
  | MWait => 1
  | MReturned => 0
  end.
Definition cmd_cost (wk : fworker L) : nat := match wk with FWrite _ _ _ reg cs => cost reg cs | _ => 0 end.
Fixpoint total (f : fworker L -> nat) (ws : list (fworker L)) : nat := match ws with [] => O | wk :: t => (f wk + total f t)%nat end.
Lemma total_app : forall f a b, total f (a ++ b) = (total f a + total f b)%nat.
Proof. intros f a b. induction a as [|x a IH]; cbn [app total]; [reflexivity|]. rewrite IH. lia. Qed.

Definition big (s : fstate L) : nat := (main_cost (fs_main s) + total wk_cost (fs_workers s))%nat.
Definition small (s : fstate L) : nat := total cmd_cost (fs_workers s).

Lemma batch_small : forall i, (Z.to_nat (batch_end (fj_nRows j) i - i * BatchSize) <= 16)%nat.
Proof. intros i. unfold batch_end, BatchSize. destruct (Z.ltb_spec (fj_nRows j) (i * 16 + 16)); lia. Qed.

Lemma step_live : forall s c, live s -> fstep j (FRunning s) c -> exists s', c = FRunning s' /\ live s' /\
  ((big s' < big s)%nat \/ (big s' = big s /\ small s' < small s)%nat).
Proof.
  intros s c [Iw Il Ig Ic Io Is If] H.
  inversion H; subst; cbn [fs_main fs_closed fs_wg fs_workers fs_mem] in *; unfold big, small; cbn [fs_main fs_workers];
    try (eexists; split; [reflexivity|]);
    try (apply Forall_app in Iw; destruct Iw as [Iw1 Iw2]; inversion Iw2 as [|? ? K Iw3]; subst; cbn [live_worker] in K);
    cbn [fs_main fs_workers]; rewrite ?total_app; cbn [total wk_cost cmd_cost main_cost].
  - split; [|left; lia]. constructor; cbn [fs_main fs_closed fs_wg fs_workers fs_mem]; auto.
    + apply Forall_app. split; [auto|repeat constructor].
    + rewrite factive_app. cbn. lia.
    + intros X. apply Forall_app. split; [auto|constructor; [discriminate|constructor]].
    + rewrite app_length. cbn. lia.
  - split; [|left; rewrite Z.sub_0_r; lia]. constructor; cbn [fs_main fs_closed fs_wg fs_workers fs_mem]; auto; lia.
  - split.
    + constructor; cbn [fs_main fs_closed fs_wg fs_workers fs_mem]; auto.
      * apply Forall_app. split; [auto|constructor; [cbn [live_worker]; repeat split; auto; unfold batch_end, BatchSize; [lia|]|auto]].
        destruct (Z.ltb_spec (fj_nRows j) (i * 16 + 16)); lia.
      * rewrite !factive_app in *. cbn [factive fexit] in *. lia.
      * intros X. specialize (Io X). apply Forall_app in Io. destruct Io as [A B]. inversion B; subst. apply Forall_app. split; [auto|constructor; [discriminate|auto]].
      * rewrite app_length in *. cbn [List.length] in *. lia.
      * lia.
    + left. pose proof (batch_small i). lia.
  - split; [|left; lia]. constructor; cbn [fs_main fs_closed fs_wg fs_workers fs_mem]; auto.
  - split; [|left; lia]. constructor; cbn [fs_main fs_closed fs_wg fs_workers fs_mem]; auto.
  - split; [|left; lia]. constructor; cbn [fs_main fs_closed fs_wg fs_workers fs_mem]; auto.
    + apply Forall_app. split; [auto|constructor; [cbn [live_worker]; auto|auto]].
    + rewrite !factive_app in *. cbn [factive fexit] in *. lia.
    + intros X. specialize (Io X). apply Forall_app in Io. destruct Io as [A B]. inversion B; subst. apply Forall_app. split; [auto|constructor; [discriminate|auto]].
    + rewrite app_length in *. cbn [List.length] in *. exact Is.
  - destruct Init as [l E]. congruence.
  - split; [|left; lia]. constructor; cbn [fs_main fs_closed fs_wg fs_workers fs_mem]; auto.
    + apply Forall_app. split; [auto|constructor; [exact Logic.I|auto]].
    + rewrite !factive_app in *. cbn [factive fexit] in *. lia.
    + intros X. discriminate.
    + rewrite app_length in *. cbn [List.length] in *. exact Is.
  - destruct K as (K1 & K2 & K3). destruct (Row fuse l r K1 ltac:(lia)) as [R1 R2]. split; [|left; lia].
    constructor; cbn [fs_main fs_closed fs_wg fs_workers fs_mem]; auto.
    + apply Forall_app. split; [auto|constructor; [cbn [live_worker]; repeat split; auto|auto]].
    + rewrite !factive_app in *. cbn [factive fexit] in *. lia.
    + intros X. specialize (Io X). apply Forall_app in Io. destruct Io as [A B]. inversion B; subst. apply Forall_app. split; [auto|constructor; [discriminate|auto]].
    + rewrite app_length in *. cbn [List.length] in *. exact Is.
  - split; [|left; lia]. constructor; cbn [fs_main fs_closed fs_wg fs_workers fs_mem]; auto.
    + apply Forall_app. split; [auto|constructor; [cbn [live_worker]; tauto|auto]].
    + rewrite !factive_app in *. cbn [factive fexit] in *. lia.
    + intros X. specialize (Io X). apply Forall_app in Io. destruct Io as [A B]. inversion B; subst. apply Forall_app. split; [auto|constructor; [discriminate|auto]].
    + rewrite app_length in *. cbn [List.length] in *. exact Is.
  - destruct K as (K1 & K2 & K3 & K4). inversion K4 as [|? ? K5 K6]; subst. rewrite <- Il in K5.
    match goal with E : fcmd_step _ _ _ _ = Ok _ |- _ => destruct (ready_cost _ _ _ _ _ _ _ _ K5 E) as (Q1 & Q2 & Q3) end.
    split; [|right; lia]. constructor; cbn [fs_main fs_closed fs_wg fs_workers fs_mem]; auto; try congruence.
    + apply Forall_app. split; [auto|]. constructor; [|auto]. cbn [live_worker]. repeat split; auto; try lia. destruct Q3 as [->| ->]; auto.
    + rewrite !factive_app in *. cbn [factive fexit] in *. lia.
    + intros X. specialize (Io X). apply Forall_app in Io. destruct Io as [A B]. inversion B; subst. apply Forall_app. split; [auto|constructor; [discriminate|auto]].
    + rewrite app_length in *. cbn [List.length] in *. exact Is.
  - destruct K as (K1 & K2 & K3 & K4). inversion K4 as [|? ? K5 K6]; subst. rewrite <- Il in K5.
    match goal with E : fcmd_step ?o ?rg (?c :: ?cs) ?m = Panic _ |- _ => destruct (ready_step o rg c cs m K5) as (? & ? & ? & Q) end. congruence.
  - destruct K as (K1 & K2 & K3 & K4). split; [|left; lia]. constructor; cbn [fs_main fs_closed fs_wg fs_workers fs_mem]; auto.
    + apply Forall_app. split; [auto|constructor; [cbn [live_worker]; repeat split; auto; lia|auto]].
    + rewrite !factive_app in *. cbn [factive fexit] in *. lia.
    + intros X. specialize (Io X). apply Forall_app in Io. destruct Io as [A B]. inversion B; subst. apply Forall_app. split; [auto|constructor; [discriminate|auto]].
    + rewrite app_length in *. cbn [List.length] in *. exact Is.
Qed.

Definition good (c : fconfig L) : Prop := exists s, c = FRunning s /\ live s.
Lemma steps_live : forall c c', fsteps j c c' -> good c -> good c'.
Proof.
  intros c c' H. induction H as [|c1 c2 c3 H1 H2 IH]; auto. intros (s & -> & G). apply IH.
  destruct (step_live s c2 G H1) as (s' & E & G' & _). exists s'. auto.
Qed.
Lemma initial_live : forall m, zlen m = N -> good (finitial j m).
Proof.
  intros m Hm. eexists. split; [reflexivity|]. constructor; cbn; auto.
Qed.

(** a worker that has not exited can move, except an idle one on an open channel *)
Lemma worker_step : forall pc cl wg ws1 wk ws2 m, live_worker wk -> zlen m = N -> wk <> FExited -> (forall l, wk <> FIdle l) ->
  exists c', fstep j (FRunning (mkFState pc cl wg (ws1 ++ wk :: ws2) m)) c'.
Proof.
  intros pc cl wg ws1 wk ws2 m K Hm NE NI. destruct wk as [|l|l r e|l r e reg [|c cs]|]; try congruence.
  - destruct Init as [l E]. eexists. eapply fstep_init; eauto.
  - destruct (Z_lt_le_dec r e); [eexists; apply (fstep_row j (fun _ => false)); auto|eexists; eapply fstep_batch_done; auto].
  - eexists. eapply fstep_row_done.
  - cbn [live_worker] in K. destruct K as (_ & _ & _ & K). inversion K as [|? ? K5 K6]; subst. try rewrite <- Hm in K5.
    destruct (ready_step true reg c cs m K5) as (reg' & cs' & m' & E). eexists. eapply fstep_cmd; eauto.
Qed.

Lemma some_active : forall ws : list (fworker L), factive ws <> 0 -> exists ws1 wk ws2, ws = ws1 ++ wk :: ws2 /\ wk <> FExited.
Proof.
  induction ws as [|x ws IH]; cbn [factive]; intros H; [lia|]. destruct x; try (exists [], x, ws; fail); try (eexists [], _, ws; split; [reflexivity|discriminate]).
  destruct IH as (ws1 & wk & ws2 & -> & E); [cbn [fexit] in H; lia|]. exists (FExited :: ws1), wk, ws2. auto.
Qed.

Lemma live_moves : forall s, live s -> (exists m, freturned (FRunning s) m) \/ exists c', fstep j (FRunning s) c'.
Proof.
  intros [pc cl wg ws m] [Iw Il Ig Ic Io Is If]. cbn [fs_main fs_closed fs_wg fs_workers fs_mem] in *. destruct pc as [[|n]|i| |].
  - right. eexists. apply fstep_spawned.
  - right. eexists. apply fstep_spawn.
  - right. destruct (Z_lt_le_dec i (fj_nBatches j)) as [Hi|Hi]; [|eexists; apply fstep_close; auto].
    destruct ws as [|wk ws]; [cbn in Is; lia|]. inversion Iw as [|? ? K Iw2]; subst.
    assert (NE : wk <> FExited) by (specialize (Io eq_refl); inversion Io; auto).
    destruct wk as [|l|l r e|l r e reg cs|]; try congruence; try (apply (worker_step (MFeed i) false _ [] _ ws m K Il NE); discriminate).
    eexists. apply (fstep_feed j i false _ [] l ws m). exact Hi.
  - right. destruct (Z.eq_dec wg 0) as [->|Hw]; [eexists; apply fstep_return|].
    destruct (some_active ws) as (ws1 & wk & ws2 & -> & NE); [congruence|]. apply Forall_app in Iw. destruct Iw as [_ Iw2]. inversion Iw2 as [|? ? K Iw3]; subst.
    destruct wk as [|l|l r e|l r e reg cs|]; try congruence; try (apply (worker_step MWait true _ ws1 _ ws2 m K Il NE); discriminate).
    eexists. apply fstep_exit.
  - left. exists m, cl, wg, ws. reflexivity.
Qed.

Definition later (s' s : fstate L) : Prop := (big s' < big s)%nat \/ (big s' = big s /\ small s' < small s)%nat.
Lemma later_wf : well_founded later.
Proof.
  assert (G : forall b k s, (big s <= b)%nat -> (big s = b -> (small s <= k)%nat) -> Acc later s).
  { induction b as [b IHb] using lt_wf_ind. intros k. induction k as [|k IHk]; intros s Hb Hk.
    - constructor. intros s' H. destruct H as [H|[H1 H2]]; [apply (IHb (big s') ltac:(lia) (small s') s'); lia|].
      apply (IHb (big s') ltac:(lia) (small s') s'); lia.
    - constructor. intros s' H. destruct (Nat.eq_dec (big s') b) as [E|E].
      + apply IHk; [lia|]. destruct H as [H|[H1 H2]]; lia.
      + apply (IHb (big s') ltac:(destruct H as [H|[H1 H2]]; lia) (small s') s'); lia. }
  intros s. apply (G (big s) (small s) s); auto.
Qed.

Theorem run_completes : forall m, zlen m = N -> fused_completes j (finitial j m).
Proof.
  intros m Hm. pose proof (initial_live m Hm) as G0. split.
  - intros (run & R0 & R).
    assert (X : forall s k, run k = FRunning s -> live s -> False).
    { intros s. induction s as [s IH] using (well_founded_ind later_wf). intros k E G. pose proof (R k) as St. rewrite E in St.
      destruct (step_live s _ G St) as (s' & E' & G' & D). exact (IH s' D (S k) E' G'). }
    destruct G0 as (s & E & G). apply (X s O); auto. congruence.
  - intros c H. destruct (steps_live _ _ H G0) as (s & -> & G). split; [eauto|]. apply live_moves. exact G.
Qed.

Theorem run_returns : forall m, zlen m = N -> exists c m', fsteps j (finitial j m) c /\ freturned c m'.
Proof.
  intros m Hm. destruct (initial_live m Hm) as (s & E & G). rewrite E. clear E m Hm.
  induction s as [s IH] using (well_founded_ind later_wf). destruct (live_moves s G) as [[m' R]|[c' S]].
  - exists (FRunning s), m'. split; [constructor|exact R].
  - destruct (step_live s c' G S) as (s' & -> & G' & D). destruct (IH s' D G') as (c & m' & S' & R). exists c, m'. split; [econstructor; eauto|exact R].
Qed.
End Run.

(** ** Races *)
Section Race.
Context {L : Type}.
Variable j : fjob L.
Variable w : Z.
Variable ucmds : (nat -> bool) -> Z -> list fcmd.
Variable fresh : L -> Prop.
Hypothesis J : fjob_ok j w ucmds fresh.

Lemma reachable_finv : forall m0 s, fj_nRows j * w <= zlen m0 -> fsteps j (finitial j m0) (FRunning s) -> finv j w ucmds fresh s.
Proof.
  intros m0 s Hl H.
  assert (I0 : match finitial j m0 with FRunning s => finv j w ucmds fresh s | FCrashed _ => True end).
  { cbn. constructor; cbn; auto.
    - apply zrange_NoDup.
    - intros r0 Hr0 N. destruct N. apply in_zrange. exact Hr0. }
  assert (G : forall c1 c2, fsteps j c1 c2 -> match c1 with FRunning s => finv j w ucmds fresh s | FCrashed _ => True end -> match c2 with FRunning s => finv j w ucmds fresh s | FCrashed _ => True end).
  { intros c1 c2 S. induction S as [|c1 c2 c3 S1 S2 IH]; auto. intros X. apply IH. destruct c1 as [s1|]; [eapply fstep_inv; eauto|inversion S1]. }
  exact (G _ _ H I0).
Qed.

Lemma access_row : forall m wk i, fworker_ok j w ucmds fresh m wk -> fused_access wk = Some i ->
  exists l r e reg cs, wk = FWrite l r e reg cs /\ r * w <= i < r * w + w.
Proof.
  intros m wk i K A. pose proof J as (_ & _ & J3 & _). destruct wk as [|l|l r e|l r e reg cs|]; try discriminate. exists l, r, e, reg, cs. split; auto.
  cbn [fworker_ok] in K. destruct K as (_ & K1 & K2 & fuse & pre & rest & wb & P1 & P2 & _).
  destruct rest as [|c rest]; cbn [map] in P2; subst cs; [discriminate|].
  pose proof (J3 fuse r ltac:(lia)) as F. rewrite P1 in F. apply Forall_app in F. destruct F as [_ F]. inversion F as [|? ? Fc _]; subst. unfold fin in Fc.
  destruct c as [[i0 v|i0 v|i0 v|s|]|i0 x y]; cbn in A, Fc; try discriminate; injection A as <-; lia.
Qed.

Theorem fused_race_free : forall m0 s, fj_nRows j * w <= zlen m0 -> fsteps j (finitial j m0) (FRunning s) ->
  (forall before wk1 between wk2 after i k, fs_workers s = before ++ wk1 :: between ++ wk2 :: after ->
     fused_access wk1 = Some i -> fused_access wk2 = Some k -> i <> k) /\
  (forall wk i, In wk (fs_workers s) -> fused_access wk = Some i -> exists l r e reg cs, wk = FWrite l r e reg cs /\ r * w <= i < r * w + w).
Proof.
  intros m0 s Hl H. destruct (reachable_finv m0 s Hl H) as [Iw Ind _ _ _ _]. rewrite Forall_forall in Iw. split.
  - intros before wk1 between wk2 after i k E A1 A2.
    destruct (access_row _ wk1 i (Iw wk1 ltac:(rewrite E; apply in_or_app; right; left; auto)) A1) as (l1 & r1 & e1 & g1 & c1 & -> & B1).
    destruct (access_row _ wk2 k (Iw wk2 ltac:(rewrite E; apply in_or_app; right; right; apply in_or_app; right; left; auto)) A2) as (l2 & r2 & e2 & g2 & c2 & -> & B2).
    assert (r1 <> r2).
    { intros ->. unfold todo in Ind. rewrite E, flat_map_app in Ind. cbn [flat_map wrows] in Ind. rewrite flat_map_app in Ind. cbn [flat_map wrows] in Ind.
      rewrite <- !app_assoc in Ind. cbn [app] in Ind. apply NoDup_remove_2 in Ind. apply Ind. apply in_or_app. right. apply in_or_app. right.
      apply in_or_app. right. left. reflexivity. }
    nia.
  - intros wk i I A. eapply access_row; eauto.
Qed.
End Race.
