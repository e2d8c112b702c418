(** * The goroutine machine computes what the sequential loop computes *)

From Coq Require Import ZArith List Bool String Lia ZifyBool Permutation.
From Verif Require Import Go GoFloat Cmd LgTree Transformation Ensembles Leaves Parallel Spec_Predict Pf_Go Pf_Cmd.

(** the commands still to be performed when [reg] has already been loaded *)
Definition resolve (reg : option f64) (cs : list cmd) : list cmd :=
  match reg, cs with
  | Some x, CAdd i v :: t => CSet i (fadd x v) :: t
  | Some x, CMul i v :: t => CSet i (fmul x v) :: t
  | _, _ => cs
  end.

Definition isexit {L} (wk : worker L) : bool :=
  match wk with WExited => true | _ => false end.
Fixpoint nactive {L} (ws : list (worker L)) : Z :=
  match ws with
  | [] => 0
  | wk :: t => (if isexit wk then 0 else 1) + nactive t
  end.

Section Engine.
Context {L : Type}.
Variable j : job L.
Variable w : Z.
Variable rowc : Z -> list cmd.
Variable fresh : L -> Prop.

Definition job_ok : Prop :=
  (forall l, jb_init j = Ok l -> fresh l) /\
  (forall l r, fresh l -> 0 <= r < jb_nRows j ->
     fst (jb_row j l r) = rowc r /\ fresh (snd (jb_row j l r))) /\
  (forall r, 0 <= r < jb_nRows j -> within (r * w) (r * w + w) (rowc r)) /\
  0 < jb_nRows j /\
  (jb_nBatches j - 1) * BatchSize < jb_nRows j <= jb_nBatches j * BatchSize.

Hypothesis J : job_ok.

Definition rb (r : Z) : block := (r, rowc r).
Definition wblocks (wk : worker L) : list block :=
  match wk with
  | WRow _ r e => map rb (zrange r e)
  | WCmd _ r e reg cs => (r, resolve reg cs) :: map rb (zrange (r + 1) e)
  | _ => []
  end.
Definition fed (pc : mainpc) : Z :=
  match pc with
  | MSpawn _ => 0
  | MFeed i => i * BatchSize
  | MWait => jb_nRows j
  | MReturned => jb_nRows j
  end.
Definition wsblocks (ws : list (worker L)) : list block := flat_map wblocks ws.
Definition blocks (s : state L) : list block :=
  wsblocks (st_workers s) ++ map rb (zrange (fed (st_main s)) (jb_nRows j)).

Definition worker_ok (wk : worker L) : Prop :=
  match wk with
  | WStart => True
  | WIdle l => fresh l
  | WRow l r e => fresh l /\ 0 <= r /\ e <= jb_nRows j
  | WCmd l r e reg cs => fresh l /\ 0 <= r < e /\ e <= jb_nRows j
  | WExited => True
  end.

Definition pc_ok (s : state L) : Prop :=
  match st_main s with
  | MSpawn n => st_closed s = false /\ (List.length (st_workers s) + n = jb_threads j)%nat
  | MFeed i => st_closed s = false /\ 0 <= i <= jb_nBatches j /\
               List.length (st_workers s) = jb_threads j
  | MWait => st_closed s = true /\ List.length (st_workers s) = jb_threads j
  | MReturned => st_closed s = true /\ st_wg s = 0
  end.

Record inv (m0 : list f64) (s : state L) : Prop := mkInv {
  inv_workers : Forall worker_ok (st_workers s);
  inv_blocks : Forall (block_ok w) (blocks s);
  inv_nodup : NoDup (map fst (blocks s));
  inv_wg : st_wg s = nactive (st_workers s);
  inv_pc : pc_ok s;
  inv_noexit : st_closed s = false -> Forall (fun wk => isexit wk = false) (st_workers s);
  inv_equiv : forall mf, exec (flat (blocks s)) (st_mem s) = Ok mf <->
                         exec (flat (map rb (zseq (jb_nRows j)))) m0 = Ok mf
}.

Lemma nactive_app : forall (a b : list (worker L)), nactive (a ++ b) = nactive a + nactive b.
Proof. induction a as [|x a IH]; intros b; simpl; auto. rewrite IH. lia. Qed.

Lemma nactive_nonneg : forall (a : list (worker L)), 0 <= nactive a.
Proof. induction a as [|x a IH]; simpl; try lia. destruct (isexit x); lia. Qed.

Lemma wsblocks_app : forall a b, wsblocks (a ++ b) = wsblocks a ++ wsblocks b.
Proof. intros; apply flat_map_app. Qed.

Lemma wsblocks_cons : forall a b, wsblocks (a :: b) = wblocks a ++ wsblocks b.
Proof. reflexivity. Qed.

Lemma rb_ok : forall r1 r2, 0 <= r1 -> r2 <= jb_nRows j -> Forall (block_ok w) (map rb (zrange r1 r2)).
Proof.
  intros r1 r2 H1 H2. apply Forall_forall. intros b Hb. apply in_map_iff in Hb.
  destruct Hb as (r & <- & Hr). apply in_zrange in Hr. unfold block_ok, rb. simpl.
  destruct J as (_ & _ & HJ & _). apply HJ. lia.
Qed.

Lemma map_fst_rb : forall l, map fst (map rb l) = l.
Proof. intros l. rewrite map_map. simpl. apply map_id. Qed.

Lemma inv_initial : forall m0, exists s, initial j m0 = Running s /\ inv m0 s.
Proof.
  intros m0. eexists. split; [reflexivity|]. constructor; simpl; auto.
  - unfold blocks; simpl. apply rb_ok; lia.
  - unfold blocks; simpl. rewrite map_fst_rb. apply zrange_NoDup.
  - unfold pc_ok; simpl; auto.
  - intros mf. unfold blocks. simpl. rewrite zrange_zseq. tauto.
Qed.

(** replacing one worker by another with permuted blocks *)
Lemma apart_sym_blocks : forall A b B c,
  Forall (block_ok w) (A ++ b :: B) -> NoDup (map fst (A ++ b :: B)) ->
  In c (snd b) -> apart c (flat A).
Proof.
  intros A b B c Hok Hnd Hin. apply Forall_app in Hok. destruct Hok as [HA Hb].
  inversion Hb; subst. eapply apart_flat; eauto.
  intros Hn. rewrite map_app in Hnd. simpl in Hnd.
  apply NoDup_remove_2 in Hnd. apply Hnd. apply in_or_app. auto.
Qed.

Lemma resolve_none : forall cs, resolve None cs = cs.
Proof. intros [|c cs]; reflexivity. Qed.

(** the head of the resolved list, as one command *)
Lemma cmd_step_spec : forall reg c cs m reg' cs' m',
  cmd_step reg (c :: cs) m = Ok (reg', cs', m') ->
  (exists d, resolve reg (c :: cs) = d :: cs /\ exec1 d m = Ok m' /\ reg' = None /\ cs' = cs)
  \/ (exists i x d, m' = m /\ resolve reg (c :: cs) = c :: cs /\ resolve reg' cs' = d :: cs /\
        exec1 c m = exec1 d m /\ (exists f, cmd_upd c = Some (i, f)) /\ (exists g, cmd_upd d = Some (i, g))
        /\ reg = None /\ reg' = Some x /\ cs' = c :: cs)
  \/ (c = CHang /\ m' = m /\ reg' = reg /\ cs' = c :: cs).
Proof.
  intros reg c cs m reg' cs' m' H. destruct c as [i v|i v|i v|s|]; simpl in H.
  - bind_inv. left. exists (CSet i v).
    repeat split; auto. destruct reg; reflexivity.
  - destruct reg as [x|].
    + bind_inv. left. exists (CSet i (fadd x v)). repeat split; auto.
    + bind_inv. right. left. exists i, a, (CSet i (fadd a v)).
      repeat split; try (eexists; reflexivity). simpl. rewrite Hb. reflexivity.
  - destruct reg as [x|].
    + bind_inv. left. exists (CSet i (fmul x v)). repeat split; auto.
    + bind_inv. right. left. exists i, a, (CSet i (fmul a v)).
      repeat split; try (eexists; reflexivity). simpl. rewrite Hb. reflexivity.
  - discriminate.
  - inversion H; subst. right. right. auto.
Qed.

Lemma cell_in_same : forall lo hi c d i f g,
  cmd_upd c = Some (i, f) -> cmd_upd d = Some (i, g) -> cell_in lo hi c -> cell_in lo hi d.
Proof. intros lo hi c d i f g Hc Hd. unfold cell_in. rewrite Hc, Hd. auto. Qed.

Lemma cmd_step_inv : forall A r B reg c cs m reg' cs' m',
  Forall (block_ok w) (A ++ (r, resolve reg (c :: cs)) :: B) ->
  NoDup (map fst (A ++ (r, resolve reg (c :: cs)) :: B)) ->
  cmd_step reg (c :: cs) m = Ok (reg', cs', m') ->
  block_ok w (r, resolve reg' cs') /\
  (forall mf, exec (flat (A ++ (r, resolve reg (c :: cs)) :: B)) m = Ok mf <->
              exec (flat (A ++ (r, resolve reg' cs') :: B)) m' = Ok mf).
Proof.
  intros A r B reg c cs m reg' cs' m' Hok Hnd H.
  assert (Hb : block_ok w (r, resolve reg (c :: cs))).
  { apply Forall_app in Hok. destruct Hok as [_ Hok]. inversion Hok; auto. }
  destruct (cmd_step_spec _ _ _ _ _ _ _ H) as
    [(d & Hr & He & -> & ->)|[(i & x & d & -> & Hr & Hr' & He & Hc & Hd & _)|(-> & -> & -> & ->)]].
  - rewrite Hr in *. rewrite resolve_none. split.
    + unfold block_ok in *. simpl in *. inversion Hb; auto.
    + intros mf. rewrite !flat_app. simpl.
      change (flat A ++ d :: cs ++ flat B) with (flat A ++ d :: (cs ++ flat B)).
      rewrite (move_front_mid (flat A) d (cs ++ flat B)
                 (apart_sym_blocks A _ B d Hok Hnd (or_introl eq_refl)) m mf).
      simpl. rewrite He. simpl. tauto.
  - destruct Hc as [f Hc]. destruct Hd as [g Hd]. rewrite Hr in *. rewrite Hr'.
    assert (Hb' : block_ok w (r, d :: cs)).
    { unfold block_ok in *. simpl in *. inversion Hb; subst. constructor; auto.
      eapply (cell_in_same _ _ c d); eauto. }
    split; auto. intros mf. rewrite !flat_app. simpl.
    assert (Ha : apart c (flat A)).
    { exact (apart_sym_blocks A _ B c Hok Hnd (or_introl eq_refl)). }
    assert (Ha' : apart d (flat A)).
    { unfold apart in *. eapply Forall_impl; [|exact Ha]. intros q Hq i1 f1 i2 f2 H1 H2.
      rewrite Hd in H1. inversion H1; subst. eapply Hq; eauto. }
    rewrite (move_front_mid (flat A) c (cs ++ flat B) Ha m mf).
    rewrite (move_front_mid (flat A) d (cs ++ flat B) Ha' m mf).
    simpl. rewrite He. tauto.
  - split; [exact Hb|]. intros mf. tauto.
Qed.

Lemma blocks_mid : forall pc cl wg ws1 wk ws2 m,
  blocks (mkState pc cl wg (ws1 ++ wk :: ws2) m) =
  wsblocks ws1 ++ wblocks wk ++ (wsblocks ws2 ++ map rb (zrange (fed pc) (jb_nRows j))).
Proof.
  intros. unfold blocks. simpl. rewrite wsblocks_app, wsblocks_cons, <- !app_assoc. reflexivity.
Qed.

Lemma step_inv : forall m0 s c, inv m0 s -> step j (Running s) c ->
  match c with Running s' => inv m0 s' | Crashed _ => True end.
Proof.
  intros m0 s c I H. pose proof J as (J1 & J2 & J3 & J4 & J5).
  inversion H; subst; auto.
  - (* spawn *)
    destruct I as [Iw Ib In Ig Ip Ix Ie]. simpl in *. unfold pc_ok in Ip; simpl in Ip.
    constructor; simpl; auto.
    + apply Forall_app. split; auto. repeat constructor.
    + unfold blocks in *. simpl in *. rewrite wsblocks_app. simpl. rewrite app_nil_r. auto.
    + unfold blocks in *. simpl in *. rewrite wsblocks_app. simpl. rewrite app_nil_r. auto.
    + rewrite nactive_app. cbn [nactive isexit]. lia.
    + unfold pc_ok; simpl. rewrite app_length. simpl. split; [tauto|lia].
    + intros Hcl. apply Forall_app. split; auto.
    + unfold blocks in *. simpl in *. rewrite wsblocks_app. simpl. rewrite app_nil_r. auto.
  - (* spawned *)
    destruct I as [Iw Ib In Ig Ip Ix Ie]. simpl in *. unfold pc_ok in Ip; simpl in Ip.
    constructor; simpl; auto.
    unfold pc_ok; simpl. repeat split; try tauto; try lia.
    unfold BatchSize in *. lia.
  - (* feed *)
    destruct I as [Iw Ib In Ig Ip Ix Ie]. simpl in *. unfold pc_ok in Ip; simpl in Ip.
    rename i into b. set (e := batch_end (jb_nRows j) b).
    assert (He : b * BatchSize <= e <= jb_nRows j /\
                 zrange e (jb_nRows j) = zrange ((b + 1) * BatchSize) (jb_nRows j)).
    { unfold e, batch_end. destruct (Z.ltb_spec (jb_nRows j) (b * BatchSize + BatchSize)).
      - split; [unfold BatchSize in *; lia|].
        rewrite !zrange_nil by (unfold BatchSize in *; lia). reflexivity.
      - split; [unfold BatchSize in *; lia|]. f_equal. lia. }
    destruct He as [He1 He2].
    assert (HP : Permutation
      (blocks (mkState (MFeed b) cl wg (ws1 ++ WIdle l :: ws2) m))
      (blocks (mkState (MFeed (b + 1)) cl wg (ws1 ++ WRow l (b * BatchSize) e :: ws2) m))).
    { rewrite !blocks_mid. simpl wblocks. simpl fed. rewrite <- He2. simpl.
      apply Permutation_app_head.
      rewrite (zrange_app (b * BatchSize) e (jb_nRows j)) by lia.
      rewrite map_app, !app_assoc. apply Permutation_app_tail. apply Permutation_app_comm. }
    constructor; simpl; auto.
    + apply Forall_app in Iw. destruct Iw as [Iw1 Iw2]. inversion Iw2; subst.
      apply Forall_app. split; auto. constructor; auto. simpl in *.
      unfold BatchSize in *. repeat split; auto; lia.
    + eapply Permutation_Forall; [exact HP|auto].
    + eapply Permutation_NoDup; [apply Permutation_map; exact HP|auto].
    + rewrite nactive_app in *. cbn [nactive isexit] in *. auto.
    + unfold pc_ok; simpl. rewrite app_length in *. simpl in *.
      repeat split; try tauto; lia.
    + intros Hcl. specialize (Ix Hcl). apply Forall_app in Ix. destruct Ix as [Ix1 Ix2]. inversion Ix2; subst.
      apply Forall_app. split; auto.
    + intros mf. rewrite <- (Ie mf). symmetry.
      apply (flat_perm w _ _ HP Ib In m mf).
  - (* close *)
    destruct I as [Iw Ib In Ig Ip Ix Ie]. simpl in *. unfold pc_ok in Ip; simpl in Ip.
    assert (Hb : blocks (mkState MWait true wg ws m) = blocks (mkState (MFeed i) cl wg ws m)).
    { unfold blocks. simpl. rewrite !zrange_nil by (unfold BatchSize in *; lia). reflexivity. }
    constructor; simpl; auto.
    + rewrite Hb. auto.
    + rewrite Hb. auto.
    + unfold pc_ok; simpl. tauto.
    + discriminate.
    + intros mf. rewrite Hb. auto.
  - (* return *)
    destruct I as [Iw Ib In Ig Ip Ix Ie]. simpl in *. unfold pc_ok in Ip; simpl in Ip.
    constructor; simpl; auto. unfold pc_ok; simpl. tauto.
  - (* init *)
    destruct I as [Iw Ib In Ig Ip Ix Ie]. simpl in *. unfold pc_ok in Ip; simpl in Ip.
    constructor; simpl; auto.
    + apply Forall_app in Iw. destruct Iw as [Iw1 Iw2]. inversion Iw2; subst.
      apply Forall_app. split; auto. constructor; auto. simpl. auto.
    + rewrite blocks_mid in *. auto.
    + rewrite blocks_mid in *. auto.
    + rewrite nactive_app in *. cbn [nactive isexit] in *. auto.
    + unfold pc_ok; simpl. rewrite app_length in *. simpl in *. auto.
    + intros Hcl. specialize (Ix Hcl). apply Forall_app in Ix. destruct Ix as [Ix1 Ix2]. inversion Ix2; subst.
      apply Forall_app. split; auto.
    + intros mf. rewrite <- (Ie mf), !blocks_mid. tauto.
  - (* exit *)
    destruct I as [Iw Ib In Ig Ip Ix Ie]. simpl in *. unfold pc_ok in Ip; simpl in Ip.
    constructor; simpl; auto.
    + apply Forall_app in Iw. destruct Iw as [Iw1 Iw2]. inversion Iw2; subst.
      apply Forall_app. split; auto. constructor; auto. simpl. auto.
    + rewrite blocks_mid in *. auto.
    + rewrite blocks_mid in *. auto.
    + rewrite nactive_app in *. cbn [nactive isexit] in *. lia.
    + unfold pc_ok; simpl. rewrite app_length in *. simpl in *.
      destruct pc; try tauto. destruct Ip as [? Ip]. rewrite nactive_app in Ig. cbn [nactive isexit] in Ig.
      pose proof (nactive_nonneg ws1). pose proof (nactive_nonneg ws2). exfalso. lia.
    + discriminate.
    + intros mf. rewrite <- (Ie mf), !blocks_mid. tauto.
  - (* row *)
    destruct I as [Iw Ib In Ig Ip Ix Ie]. simpl in *. unfold pc_ok in Ip; simpl in Ip.
    assert (Hw : fresh l /\ 0 <= r /\ e <= jb_nRows j).
    { apply Forall_app in Iw. destruct Iw as [_ Iw]. inversion Iw; auto. }
    destruct (J2 l r) as [Hc Hf]; [tauto|lia|].
    assert (Hb : blocks (mkState pc cl wg
        (ws1 ++ WCmd (snd (jb_row j l r)) r e None (fst (jb_row j l r)) :: ws2) m) =
        blocks (mkState pc cl wg (ws1 ++ WRow l r e :: ws2) m)).
    { rewrite !blocks_mid. simpl. rewrite (zrange_cons r e) by auto. simpl.
      rewrite Hc. reflexivity. }
    constructor; simpl; auto.
    + apply Forall_app in Iw. destruct Iw as [Iw1 Iw2]. inversion Iw2; subst.
      apply Forall_app. split; auto. constructor; auto. simpl. repeat split; auto; lia.
    + rewrite Hb. auto.
    + rewrite Hb. auto.
    + rewrite nactive_app in *. cbn [nactive isexit] in *. auto.
    + unfold pc_ok; simpl. rewrite app_length in *. simpl in *. auto.
    + intros Hcl. specialize (Ix Hcl). apply Forall_app in Ix. destruct Ix as [Ix1 Ix2]. inversion Ix2; subst.
      apply Forall_app. split; auto.
    + intros mf. rewrite Hb. auto.
  - (* batch done *)
    destruct I as [Iw Ib In Ig Ip Ix Ie]. simpl in *. unfold pc_ok in Ip; simpl in Ip.
    assert (Hb : blocks (mkState pc cl wg (ws1 ++ WIdle l :: ws2) m) =
        blocks (mkState pc cl wg (ws1 ++ WRow l r e :: ws2) m)).
    { rewrite !blocks_mid. simpl. rewrite (zrange_nil r e) by auto. reflexivity. }
    constructor; simpl; auto.
    + apply Forall_app in Iw. destruct Iw as [Iw1 Iw2]. inversion Iw2; subst.
      apply Forall_app. split; auto. constructor; auto. simpl in *. tauto.
    + rewrite Hb. auto.
    + rewrite Hb. auto.
    + rewrite nactive_app in *. cbn [nactive isexit] in *. auto.
    + unfold pc_ok; simpl. rewrite app_length in *. simpl in *. auto.
    + intros Hcl. specialize (Ix Hcl). apply Forall_app in Ix. destruct Ix as [Ix1 Ix2]. inversion Ix2; subst.
      apply Forall_app. split; auto.
    + intros mf. rewrite Hb. auto.
  - (* command *)
    destruct I as [Iw Ib In Ig Ip Ix Ie]. simpl in *. unfold pc_ok in Ip; simpl in Ip.
    rewrite blocks_mid in Ib, In. simpl in Ib, In.
    destruct (cmd_step_inv _ _ _ _ _ _ _ _ _ _ Ib In H1) as [Hb' Heq].
    constructor; simpl; auto.
    + apply Forall_app in Iw. destruct Iw as [Iw1 Iw2]. inversion Iw2; subst.
      apply Forall_app. split; auto.
    + rewrite blocks_mid. simpl.
      apply Forall_app in Ib. destruct Ib as [Ib1 Ib2]. inversion Ib2; subst.
      apply Forall_app. split; auto.
    + rewrite blocks_mid. simpl. rewrite map_app in *. simpl in *. auto.
    + rewrite nactive_app in *. cbn [nactive isexit] in *. auto.
    + unfold pc_ok; simpl. rewrite app_length in *. simpl in *. auto.
    + intros Hcl. specialize (Ix Hcl). apply Forall_app in Ix. destruct Ix as [Ix1 Ix2]. inversion Ix2; subst.
      apply Forall_app. split; auto.
    + intros mf. rewrite <- (Ie mf). rewrite !blocks_mid. simpl.
      symmetry. apply Heq.
  - (* row done *)
    destruct I as [Iw Ib In Ig Ip Ix Ie]. simpl in *. unfold pc_ok in Ip; simpl in Ip.
    rewrite blocks_mid in Ib, In. simpl in Ib, In.
    constructor; simpl; auto.
    + apply Forall_app in Iw. destruct Iw as [Iw1 Iw2]. inversion Iw2; subst.
      apply Forall_app. split; auto. constructor; auto. simpl in *. repeat split; try tauto; lia.
    + rewrite blocks_mid. simpl.
      apply Forall_app in Ib. destruct Ib as [Ib1 Ib2]. inversion Ib2; subst.
      apply Forall_app. split; auto.
    + rewrite blocks_mid. simpl. rewrite map_app in *. simpl in In.
      apply NoDup_remove_1 in In. auto.
    + rewrite nactive_app in *. cbn [nactive isexit] in *. auto.
    + unfold pc_ok; simpl. rewrite app_length in *. simpl in *. auto.
    + intros Hcl. specialize (Ix Hcl). apply Forall_app in Ix. destruct Ix as [Ix1 Ix2]. inversion Ix2; subst.
      apply Forall_app. split; auto.
    + intros mf. rewrite <- (Ie mf). rewrite !blocks_mid. simpl. rewrite !flat_app. simpl.
      replace (resolve reg []) with (@nil cmd) by (destruct reg; reflexivity). simpl.
      rewrite !flat_app. tauto.
Qed.

Lemma crashed_stuck : forall s c, ~ step j (Crashed s) c.
Proof. intros s c H. inversion H. Qed.

Lemma steps_inv : forall m0 c1 c2, steps j c1 c2 ->
  match c1 with Running s => inv m0 s | Crashed _ => True end ->
  match c2 with Running s => inv m0 s | Crashed _ => True end.
Proof.
  intros m0 c1 c2 H. induction H as [|c1 c2 c3 H1 H2 IH]; intros Hi; auto.
  apply IH. destruct c1 as [s1|].
  - pose proof (step_inv m0 s1 c2 Hi H1). destruct c2; auto.
  - exfalso. eapply crashed_stuck; eauto.
Qed.

Lemma reachable_inv : forall m0 s, steps j (initial j m0) (Running s) -> inv m0 s.
Proof.
  intros m0 s H. destruct (inv_initial m0) as (s0 & E & I0).
  rewrite E in H. exact (steps_inv m0 _ _ H I0).
Qed.

Definition all_rows : list cmd := flat (map rb (zseq (jb_nRows j))).

Lemma nactive_zero : forall (ws : list (worker L)), nactive ws = 0 -> wsblocks ws = [].
Proof.
  induction ws as [|x ws IH]; cbn [nactive]; intros H; auto.
  pose proof (nactive_nonneg ws). destruct x; cbn [isexit] in *; try lia. apply IH. lia.
Qed.

(** whatever the schedule, a call that returns leaves the sequential result *)
Theorem engine_sound : forall m0 c m,
  steps j (initial j m0) c -> returned c m -> exec all_rows m0 = Ok m.
Proof.
  intros m0 c m H (cl & wg & ws & ->).
  pose proof (reachable_inv m0 _ H) as I. destruct I as [Iw Ib In Ig Ip Ix Ie]. simpl in *.
  unfold pc_ok in Ip; simpl in Ip. destruct Ip as [_ ->].
  apply (Ie m). unfold blocks. simpl.
  rewrite (nactive_zero ws) by auto. rewrite zrange_nil by lia. reflexivity.
Qed.

(** ** Progress *)

(** if the sequential computation succeeds, the next command of every worker can be
    executed *)
Lemma next_cmd_ok : forall m0 mf pc cl wg ws1 l r e reg c cs ws2 m,
  exec all_rows m0 = Ok mf ->
  inv m0 (mkState pc cl wg (ws1 ++ WCmd l r e reg (c :: cs) :: ws2) m) ->
  c <> CHang /\ exists x, cmd_step reg (c :: cs) m = Ok x.
Proof.
  intros m0 mf pc cl wg ws1 l r e reg c cs ws2 m Hs I.
  destruct I as [Iw Ib In Ig Ip Ix Ie]. simpl in *. apply Ie in Hs. clear Ie.
  rewrite blocks_mid in *. simpl in *.
  set (A := wsblocks ws1) in *. set (B := map rb (zrange (r + 1) e) ++ wsblocks ws2 ++
    map rb (zrange (fed pc) (jb_nRows j))) in *.
  assert (Hne : exists d t, resolve reg (c :: cs) = d :: t).
  { destruct reg, c; simpl; eauto. }
  destruct Hne as (d & t & Hr).
  assert (Ha : apart d (flat A)).
  { eapply apart_sym_blocks; eauto. rewrite Hr. simpl. auto. }
  rewrite flat_app in Hs. simpl in Hs. rewrite Hr in Hs. simpl in Hs.
  apply (move_front_mid (flat A) d (t ++ flat B) Ha) in Hs. simpl in Hs.
  apply bind_ok in Hs. destruct Hs as (m' & He & _).
  destruct c as [i v|i v|i v|s|]; split; try discriminate.
  - assert (d = CSet i v) by (destruct reg; simpl in Hr; congruence). subst d.
    simpl in He. simpl. rewrite He. simpl. eauto.
  - destruct reg as [x|]; simpl in Hr; inversion Hr; subst d t; simpl in He; simpl.
    + rewrite He. simpl. eauto.
    + apply bind_ok in He. destruct He as (y & Hy & _). rewrite Hy. simpl. eauto.
  - destruct reg as [x|]; simpl in Hr; inversion Hr; subst d t; simpl in He; simpl.
    + rewrite He. simpl. eauto.
    + apply bind_ok in He. destruct He as (y & Hy & _). rewrite Hy. simpl. eauto.
  - destruct reg; simpl in Hr; inversion Hr; subst d t; simpl in He; discriminate.
  - destruct reg; simpl in Hr; inversion Hr; subst d t; simpl in He; discriminate.
  - simpl. eauto.
Qed.

Definition nonfail (m0 mf : list f64) (c : config L) : Prop :=
  match c with Running s => inv m0 s | Crashed _ => False end.

Lemma step_nonfail : forall m0 mf c1 c2, exec all_rows m0 = Ok mf ->
  (exists l, jb_init j = Ok l) -> nonfail m0 mf c1 -> step j c1 c2 -> nonfail m0 mf c2.
Proof.
  intros m0 mf c1 c2 Hs [l0 Hi] I H. destruct c1 as [s1|]; simpl in I; [|tauto].
  pose proof (step_inv m0 s1 c2 I H) as I2. destruct c2 as [s2|msg]; simpl; auto.
  inversion H; subst.
  - congruence.
  - destruct (next_cmd_ok _ _ _ _ _ _ _ _ _ _ _ _ _ _ Hs I) as [_ [x Hx]]. congruence.
Qed.

Lemma steps_nonfail : forall m0 mf c1 c2, exec all_rows m0 = Ok mf ->
  (exists l, jb_init j = Ok l) -> nonfail m0 mf c1 -> steps j c1 c2 -> nonfail m0 mf c2.
Proof.
  intros m0 mf c1 c2 Hs Hi Hn H. induction H; auto.
  apply IHsteps. eapply step_nonfail; eauto.
Qed.

Lemma initial_nonfail : forall m0 mf, nonfail m0 mf (initial j m0).
Proof.
  intros m0 mf. destruct (inv_initial m0) as (s0 & E & I0). rewrite E. exact I0.
Qed.

(** no reachable configuration is crashed when the sequential computation succeeds *)
Theorem engine_never_crashes : forall m0 mf c, exec all_rows m0 = Ok mf ->
  (exists l, jb_init j = Ok l) -> steps j (initial j m0) c -> exists s, c = Running s.
Proof.
  intros m0 mf c Hs Hi H.
  pose proof (steps_nonfail m0 mf _ _ Hs Hi (initial_nonfail m0 mf) H) as Hn.
  destruct c as [s|]; simpl in Hn; [eauto|tauto].
Qed.

Lemma exists_active : forall (ws : list (worker L)),
  nactive ws <> 0 -> exists ws1 wk ws2, ws = ws1 ++ wk :: ws2 /\ isexit wk = false.
Proof.
  induction ws as [|x ws IH]; simpl; intros H; [lia|].
  destruct (isexit x) eqn:E.
  - destruct IH as (a & b & c & -> & Hb); [lia|]. exists (x :: a), b, c. auto.
  - exists [], x, ws. auto.
Qed.

(** a worker that is neither waiting for a task nor finished can move *)
Lemma worker_moves : forall m0 mf pc cl wg ws1 wk ws2 m,
  exec all_rows m0 = Ok mf -> (exists l, jb_init j = Ok l) ->
  inv m0 (mkState pc cl wg (ws1 ++ wk :: ws2) m) ->
  isexit wk = false -> (forall l, wk <> WIdle l) ->
  exists c, step j (Running (mkState pc cl wg (ws1 ++ wk :: ws2) m)) c.
Proof.
  intros m0 mf pc cl wg ws1 wk ws2 m Hs [l0 Hi] I He Hid.
  destruct wk as [|l|l r e|l r e reg cs|].
  - eexists. apply step_init. eauto.
  - exfalso. eapply Hid; eauto.
  - destruct (Z_lt_le_dec r e).
    + eexists. apply step_row. auto.
    + eexists. apply step_batch_done. auto.
  - destruct cs as [|c cs].
    + eexists. apply step_row_done.
    + destruct (next_cmd_ok _ _ _ _ _ _ _ _ _ _ _ _ _ _ Hs I) as [_ [[[reg' cs'] m'] Hx]].
      eexists. eapply step_cmd. eauto.
  - discriminate.
Qed.

(** no reachable configuration is stuck before the call has returned *)
Theorem engine_progress : forall m0 mf c, exec all_rows m0 = Ok mf ->
  (exists l, jb_init j = Ok l) -> (0 < jb_threads j)%nat ->
  steps j (initial j m0) c ->
  (exists m, returned c m) \/ (exists c', step j c c').
Proof.
  intros m0 mf c Hs Hi Ht H.
  destruct (engine_never_crashes m0 mf c Hs Hi H) as [s ->].
  pose proof (reachable_inv m0 s H) as I. pose proof J as (J1 & J2 & J3 & J4 & J5).
  destruct s as [pc cl wg ws m]. pose proof (inv_pc _ _ I) as Ip. pose proof (inv_wg _ _ I) as Ig.
  unfold pc_ok in Ip. simpl in *. destruct pc as [n|i| |].
  - right. destruct n; eexists; [apply step_spawned|apply step_spawn].
  - destruct Ip as (-> & Hi2 & Hl).
    destruct (Z_lt_le_dec i (jb_nBatches j)) as [Hlt|Hge].
    2: { right. eexists. apply step_close. auto. }
    (* some worker exists and none has exited; find one that can take the batch or move *)
    assert (Hne : ws <> []) by (intros ->; simpl in Hl; lia).
    destruct ws as [|wk ws2]; [congruence|].
    destruct wk as [|l|l r e|l r e reg cs|].
    + right. eapply (worker_moves m0 mf _ _ _ [] WStart ws2); eauto; discriminate.
    + right. eexists. apply (step_feed j i false wg [] l ws2 m). auto.
    + right. eapply (worker_moves m0 mf _ _ _ [] (WRow l r e) ws2); eauto; discriminate.
    + right. eapply (worker_moves m0 mf _ _ _ [] (WCmd l r e reg cs) ws2); eauto; discriminate.
    + exfalso. pose proof (inv_noexit _ _ I eq_refl) as Hx. simpl in Hx. inversion Hx; discriminate.
  - destruct Ip as (-> & Hl). destruct (Z.eq_dec wg 0) as [->|Hwg].
    + right. eexists. apply step_return.
    + right. destruct (exists_active ws) as (ws1 & wk & ws2 & -> & He); [lia|].
      destruct wk as [|l|l r e|l r e reg cs|].
      * eapply worker_moves; eauto; discriminate.
      * eexists. apply step_exit.
      * eapply worker_moves; eauto; discriminate.
      * eapply worker_moves; eauto; discriminate.
      * discriminate.
  - left. exists m. exists cl, wg, ws. reflexivity.
Qed.

(** ** Termination: every step decreases a measure *)

Definition rw (rows : list Z) : nat :=
  fold_right (fun r n => (3 * List.length (rowc r) + 2 + n)%nat) O rows.
Definition wmeasure (wk : worker L) : nat :=
  match wk with
  | WStart => 4
  | WIdle _ => 2
  | WRow _ r e => 3 + rw (zrange r e)
  | WCmd _ r e reg cs =>
      4 + (3 * List.length cs - match reg with Some _ => 1 | None => 0 end)
      + rw (zrange (r + 1) e)
  | WExited => 0
  end%nat.
Definition wsmeasure (ws : list (worker L)) : nat :=
  fold_right (fun wk n => (wmeasure wk + n)%nat) O ws.
Definition mmeasure (pc : mainpc) : nat :=
  match pc with
  | MSpawn n => 5 * n + 2 * Z.to_nat (jb_nBatches j) + 4
  | MFeed i => 2 * Z.to_nat (jb_nBatches j - i) + 3
  | MWait => 1
  | MReturned => 0
  end%nat.
Definition measure (s : state L) : nat :=
  (mmeasure (st_main s) + wsmeasure (st_workers s) +
   rw (zrange (fed (st_main s)) (jb_nRows j)))%nat.

Lemma rw_app : forall a b, rw (a ++ b) = (rw a + rw b)%nat.
Proof. induction a as [|x a IH]; intros b; simpl; auto. rewrite IH. lia. Qed.

Lemma wsmeasure_mid : forall ws1 wk ws2,
  wsmeasure (ws1 ++ wk :: ws2) = (wsmeasure ws1 + wmeasure wk + wsmeasure ws2)%nat.
Proof. induction ws1 as [|x a IH]; intros; simpl; auto. rewrite IH. lia. Qed.

Lemma wsmeasure_app : forall a b, wsmeasure (a ++ b) = (wsmeasure a + wsmeasure b)%nat.
Proof. induction a as [|x a IH]; intros b; simpl; auto. rewrite IH. lia. Qed.

Lemma step_measure : forall m0 mf s s', exec all_rows m0 = Ok mf ->
  inv m0 s -> step j (Running s) (Running s') -> (measure s' < measure s)%nat.
Proof.
  intros m0 mf s s' Hs I H. pose proof J as (J1 & J2 & J3 & J4 & J5).
  inversion H; subst; unfold measure; cbn [st_main st_workers fed mmeasure].
  - rewrite wsmeasure_app. cbn. lia.
  - replace (jb_nBatches j - 0) with (jb_nBatches j) by lia.
    replace (0 * BatchSize) with 0 by lia. lia.
  - rewrite !wsmeasure_mid. cbn [wmeasure].
    match goal with |- context [WRow l ?a ?b] => idtac | _ => idtac end.
    set (e := batch_end (jb_nRows j) i).
    pose proof (inv_pc _ _ I) as Ip. unfold pc_ok in Ip. simpl in Ip.
    assert (He : i * BatchSize <= e <= jb_nRows j /\
                 zrange e (jb_nRows j) = zrange ((i + 1) * BatchSize) (jb_nRows j)).
    { unfold e, batch_end. destruct (Z.ltb_spec (jb_nRows j) (i * BatchSize + BatchSize)).
      - split; [unfold BatchSize in *; lia|].
        rewrite !zrange_nil by (unfold BatchSize in *; lia). reflexivity.
      - split; [unfold BatchSize in *; lia|]. f_equal. lia. }
    destruct He as [He1 He2]. rewrite <- He2.
    rewrite (zrange_app (i * BatchSize) e (jb_nRows j)) by lia. rewrite rw_app. lia.
  - rewrite !(zrange_nil _ (jb_nRows j)) by (unfold BatchSize in *; lia). cbn [rw fold_right]. lia.
  - lia.
  - rewrite !wsmeasure_mid. cbn [wmeasure]. lia.
  - rewrite !wsmeasure_mid. cbn [wmeasure]. lia.
  - rewrite !wsmeasure_mid. cbn [wmeasure]. rewrite (zrange_cons r e) by auto.
    pose proof (inv_workers _ _ I) as Iw. simpl in Iw. apply Forall_app in Iw.
    destruct Iw as [_ Iw]. inversion Iw as [|? ? Hw _]; subst. simpl in Hw.
    destruct (J2 l r) as [Hc _]; [tauto|lia|]. rewrite Hc.
    cbn [rw fold_right]. fold (rw (zrange (r + 1) e)). lia.
  - rewrite !wsmeasure_mid. cbn [wmeasure]. lia.
  - rewrite !wsmeasure_mid. cbn [wmeasure].
    destruct (next_cmd_ok _ _ _ _ _ _ _ _ _ _ _ _ _ _ Hs I) as [Hnh _].
    match goal with Hc : cmd_step _ _ _ = Ok _ |- _ =>
      destruct (cmd_step_spec _ _ _ _ _ _ _ Hc) as
        [(d & _ & _ & -> & ->)|[(i & x & d & _ & _ & _ & _ & _ & _ & -> & -> & ->)|(-> & _)]]
    end.
    + cbn [List.length]. destruct reg; lia.
    + cbn [List.length]. lia.
    + congruence.
  - rewrite !wsmeasure_mid. cbn [wmeasure List.length]. destruct reg; lia.
Qed.

Lemma nsteps_bound : forall m0 mf n s c, exec all_rows m0 = Ok mf ->
  (exists l, jb_init j = Ok l) -> inv m0 s -> nsteps j n (Running s) c -> (n <= measure s)%nat.
Proof.
  intros m0 mf n. induction n as [|n IH]; intros s c Hs Hi I H; [lia|].
  inversion H as [|? ? c2 ? H1 H2]; subst.
  pose proof (step_nonfail m0 mf (Running s) c2 Hs Hi I H1) as Hn.
  destruct c2 as [s2|]; simpl in Hn; [|tauto].
  pose proof (step_measure m0 mf s s2 Hs I H1).
  pose proof (IH s2 c Hs Hi Hn H2). lia.
Qed.

(** every execution is finite, with a bound that depends on the call only *)
Theorem engine_terminates : forall m0 mf, exec all_rows m0 = Ok mf ->
  (exists l, jb_init j = Ok l) ->
  exists bound, forall n c, nsteps j n (initial j m0) c -> (n <= bound)%nat.
Proof.
  intros m0 mf Hs Hi. destruct (inv_initial m0) as (s0 & E & I0).
  exists (measure s0). intros n c H. rewrite E in H. eapply nsteps_bound; eauto.
Qed.

(** hence the call can and, whatever the scheduler does, will return *)
Lemma steps_trans : forall c1 c2 c3, steps j c1 c2 -> steps j c2 c3 -> steps j c1 c3.
Proof. intros c1 c2 c3 H. induction H; auto. intros. econstructor; eauto. Qed.

Theorem engine_returns : forall m0 mf c, exec all_rows m0 = Ok mf ->
  (exists l, jb_init j = Ok l) -> (0 < jb_threads j)%nat ->
  steps j (initial j m0) c -> exists c', steps j c c' /\ returned c' mf.
Proof.
  intros m0 mf c Hs Hi Ht H.
  destruct (engine_never_crashes m0 mf c Hs Hi H) as [s ->].
  remember (measure s) as n eqn:En. revert s H En.
  induction n as [n IH] using lt_wf_ind. intros s H En.
  destruct (engine_progress m0 mf _ Hs Hi Ht H) as [[m Hr]|[c' Hc']].
  - exists (Running s). split; [constructor|].
    pose proof (engine_sound m0 _ m H Hr). congruence.
  - assert (H' : steps j (initial j m0) c').
    { eapply steps_trans; [exact H|]. econstructor; [exact Hc'|constructor]. }
    destruct (engine_never_crashes m0 mf c' Hs Hi H') as [s' ->].
    pose proof (step_measure m0 mf s s' Hs (reachable_inv m0 s H) Hc') as Hlt.
    destruct (IH (measure s') ltac:(lia) s' H' eq_refl) as (c2 & Hc2 & Hr).
    exists c2. split; auto. econstructor; eauto.
Qed.

(** ** Data races *)

(** the cell of [predictions] a worker is about to access *)
Definition next_cell (wk : worker L) : option Z :=
  match wk with
  | WCmd _ _ _ _ (c :: _) => option_map fst (cmd_upd c)
  | _ => None
  end.

Lemma resolve_cell : forall reg c cs, exists d,
  In d (resolve reg (c :: cs)) /\ option_map fst (cmd_upd d) = option_map fst (cmd_upd c).
Proof.
  intros [x|] [i v|i v|i v|s|] cs; simpl; eexists; (split; [left; reflexivity|reflexivity]).
Qed.

Theorem engine_race_free : forall m0 s a x b y d i k,
  steps j (initial j m0) (Running s) ->
  st_workers s = a ++ x :: b ++ y :: d ->
  next_cell x = Some i -> next_cell y = Some k -> i <> k.
Proof.
  intros m0 s a x b y d i k H Hws Hx Hy.
  pose proof (reachable_inv m0 s H) as I. destruct I as [Iw Ib Ind Ig Ip Ix Ie].
  destruct x as [|?|?|l1 r1 e1 reg1 [|c1 cs1]|]; simpl in Hx; try discriminate.
  destruct y as [|?|?|l2 r2 e2 reg2 [|c2 cs2]|]; simpl in Hy; try discriminate.
  unfold blocks in *. rewrite Hws in *.
  rewrite wsblocks_app, wsblocks_cons, wsblocks_app, wsblocks_cons in *.
  cbn [wblocks] in *.
  destruct (resolve_cell reg1 c1 cs1) as (d1 & Hd1 & E1).
  destruct (resolve_cell reg2 c2 cs2) as (d2 & Hd2 & E2).
  set (b1 := (r1, resolve reg1 (c1 :: cs1)) : block) in *.
  set (b2 := (r2, resolve reg2 (c2 :: cs2)) : block) in *.
  assert (Hin1 : In b1 ((wsblocks a ++ (b1 :: map rb (zrange (r1 + 1) e1)) ++
      wsblocks b ++ (b2 :: map rb (zrange (r2 + 1) e2)) ++ wsblocks d) ++
      map rb (zrange (fed (st_main s)) (jb_nRows j)))).
  { apply in_or_app. left. apply in_or_app. right. left. reflexivity. }
  assert (Hin2 : In b2 ((wsblocks a ++ (b1 :: map rb (zrange (r1 + 1) e1)) ++
      wsblocks b ++ (b2 :: map rb (zrange (r2 + 1) e2)) ++ wsblocks d) ++
      map rb (zrange (fed (st_main s)) (jb_nRows j)))).
  { apply in_or_app. left. apply in_or_app. right. apply in_or_app. right. apply in_or_app.
    right. left. reflexivity. }
  assert (Hne : fst b1 <> fst b2).
  { intros Heq. rewrite <- app_assoc, map_app in Ind. simpl in Ind.
    apply NoDup_remove_2 in Ind. apply Ind. apply in_or_app. right.
    unfold b1 in Heq. simpl in Heq. rewrite Heq.
    change r2 with (fst b2). apply in_map.
    apply in_or_app. left. apply in_or_app. right. apply in_or_app. right. left. reflexivity. }
  assert (Ha : apart d1 (snd b2)).
  { eapply (block_apart w b1 b2); auto.
    - exact (proj1 (Forall_forall _ _) Ib b1 Hin1).
    - exact (proj1 (Forall_forall _ _) Ib b2 Hin2). }
  unfold apart in Ha. pose proof (proj1 (Forall_forall _ _) Ha d2 Hd2) as Hf. simpl in Hf.
  rewrite Hx in E1. rewrite Hy in E2.
  destruct (cmd_upd d1) as [[i1 f1]|]; simpl in E1; inversion E1; subst.
  destruct (cmd_upd d2) as [[i2 f2]|]; simpl in E2; inversion E2; subst.
  eapply Hf; eauto.
Qed.

(** a worker only accesses cells of the row it is working on *)
Theorem engine_own_window : forall m0 s wk i,
  steps j (initial j m0) (Running s) -> In wk (st_workers s) -> next_cell wk = Some i ->
  exists l r e reg cs, wk = WCmd l r e reg cs /\ r * w <= i < r * w + w.
Proof.
  intros m0 s wk i H Hin Hc.
  pose proof (reachable_inv m0 s H) as I. destruct I as [Iw Ib Ind Ig Ip Ix Ie].
  destruct wk as [|?|?|l1 r1 e1 reg1 [|c1 cs1]|]; simpl in Hc; try discriminate.
  exists l1, r1, e1, reg1, (c1 :: cs1). split; auto.
  destruct (resolve_cell reg1 c1 cs1) as (d1 & Hd1 & E1).
  assert (Hb : block_ok w (r1, resolve reg1 (c1 :: cs1))).
  { apply (proj1 (Forall_forall _ _) Ib). unfold blocks. apply in_or_app. left.
    unfold wsblocks. apply in_flat_map. eexists. split; [exact Hin|]. simpl. auto. }
  unfold block_ok in Hb. simpl in Hb.
  pose proof (proj1 (Forall_forall _ _) Hb d1 Hd1) as Hd. unfold cell_in in Hd.
  rewrite Hc in E1. destruct (cmd_upd d1) as [[i1 f1]|]; simpl in E1; inversion E1; subst. auto.
Qed.
End Engine.
