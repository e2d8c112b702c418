(** * Lemmas about batch predictions with fused multiply-add *)

From Coq Require Import ZArith List Bool Lia String.
From Verif Require Import Go GoFloat Cmd LgTree Transformation Ensembles Leaves Parallel Fused FusedBatch Spec_Predict Spec_Fused
  Pf_Go Pf_Cmd Pf_Float Pf_Tree Pf_Range Pf_Round Pf_Fused Pf_FusedSum Prop_Fused.
Local Open Scope Z_scope.

(** [raw]: products are added in the predictions slice itself *)
Definition fine (raw : bool) (c : fcmd) : Prop := if raw then calm_cmd c else exists c0, c = FCmd c0.
Definition mem_ok (raw : bool) (m : list f64) : Prop := raw = true -> Forall (fun x => valid64 x = true) m.
Definition reg_ok (raw : bool) (r : option f64) : Prop := raw = true -> forall a, r = Some a -> valid64 a = true.

(** ** One access *)
Lemma plain_step : forall raw one reg cs m, Forall (fine raw) cs -> mem_ok raw m -> reg_ok raw reg ->
  match fcmd_step one reg cs m with
  | Ok (reg', cs', m') => cmd_step reg (map plain cs) m = Ok (reg', map plain cs', m') /\ Forall (fine raw) cs' /\ mem_ok raw m' /\ reg_ok raw reg'
  | Err s => cmd_step reg (map plain cs) m = Err s
  | Panic s => cmd_step reg (map plain cs) m = Panic s
  | Hang => cmd_step reg (map plain cs) m = Hang
  end.
Proof.
  intros raw one reg cs m F M R. destruct cs as [|[c|i x y] cs]; cbn [fcmd_step map plain cmd_step]; [auto| |].
  - inversion F as [|? ? F1 F2]; subst. destruct c as [i v|i v|i v|s|]; cbn [cmd_step bind].
    + destruct (set_at m i v) as [m'|?|?|] eqn:S; cbn [bind fst snd]; auto. repeat match goal with |- _ /\ _ => split end; auto.
      * intros ->. eapply set_valid; [apply M; reflexivity|exact F1|exact S].
      * intros _ a H. discriminate.
    + destruct raw; [destruct F1|]. destruct reg as [a|].
      * destruct (set_at m i (fadd a v)) as [m'|?|?|] eqn:S; cbn [bind fst snd]; auto. repeat match goal with |- _ /\ _ => split end; auto; intros H; discriminate.
      * destruct (at_ m i) as [a|?|?|] eqn:A; cbn [bind fst snd]; auto. repeat match goal with |- _ /\ _ => split end; auto; intros H; discriminate.
    + destruct raw; [destruct F1|]. destruct reg as [a|].
      * destruct (set_at m i (fmul a v)) as [m'|?|?|] eqn:S; cbn [bind fst snd]; auto. repeat match goal with |- _ /\ _ => split end; auto; intros H; discriminate.
      * destruct (at_ m i) as [a|?|?|] eqn:A; cbn [bind fst snd]; auto. repeat match goal with |- _ /\ _ => split end; auto; intros H; discriminate.
    + reflexivity.
    + cbn [fst snd]. auto.
  - inversion F as [|? ? F1 F2]; subst. destruct raw; [|destruct F1 as [? F1]; discriminate]. destruct F1 as (Vx & Vy & E). destruct reg as [a|].
    + assert (Va : valid64 a = true) by (apply (R eq_refl); reflexivity). rewrite (fma_apart x y a Vx Vy Va E).
      replace (if one then fadd a (fmul x y) else fadd a (fmul x y)) with (fadd a (fmul x y)) by (destruct one; reflexivity).
      destruct (set_at m i _) as [m'|?|?|] eqn:S; cbn [bind]; auto. repeat match goal with |- _ /\ _ => split end; auto.
      * intros _. eapply set_valid; [apply M; reflexivity| |exact S]. apply fadd_valid; auto using fmul_valid.
      * intros _ b H. discriminate.
    + destruct (at_ m i) as [a|?|?|] eqn:A; cbn [bind map plain]; auto. repeat match goal with |- _ /\ _ => split end; auto.
      intros _ b [= <-]. apply at_ok in A. specialize (M eq_refl). rewrite Forall_forall in M. apply M. eapply zget_in; eauto.
Qed.

Lemma fexec_fine : forall raw fuse cs m, Forall (fine raw) cs -> mem_ok raw m -> fexec fuse cs m = exec (map plain cs) m.
Proof.
  intros [|] fuse cs m F M; [apply fexec_plain; auto|]. revert m M. induction cs as [|c cs IH]; intros m M; [reflexivity|].
  inversion F as [|? ? [c0 ->] F2]; subst. cbn [fexec map plain exec]. destruct (exec1 c0 m); cbn [bind]; auto. apply IH; auto. intros H; discriminate.
Qed.
Lemma exec_valid : forall cs m m', Forall (fine true) cs -> mem_ok true m -> exec (map plain cs) m = Ok m' -> mem_ok true m'.
Proof.
  induction cs as [|c cs IH]; intros m m' F M H; cbn [map exec] in H; [injection H as <-; auto|]. inversion F as [|? ? F1 F2]; subst.
  apply bind_ok in H. destruct H as (m1 & H1 & H). apply (IH m1); auto. intros _. specialize (M eq_refl).
  destruct c as [[i v|i v|i v|s|]|i x y]; cbn [plain exec1 fine calm_cmd] in *; try contradiction; try discriminate.
  - eapply set_valid; eauto.
  - apply bind_ok in H1. destruct H1 as (a & A & S). destruct F1 as (Vx & Vy & _). eapply set_valid; [exact M| |exact S].
    apply fadd_valid; [|apply fmul_valid; auto]. apply at_ok in A. rewrite Forall_forall in M. apply M. eapply zget_in; eauto.
Qed.
Lemma exec_mem : forall raw cs m m', Forall (fine raw) cs -> mem_ok raw m -> exec (map plain cs) m = Ok m' -> mem_ok raw m'.
Proof. intros [|] cs m m' F M H; [eapply exec_valid; eauto|intros X; discriminate]. Qed.

(** ** One row: [frow] with any choice writes what [row] writes *)
Definition same_rows {L : Type} (raw : bool) (good : L -> Prop) (frow : (nat -> bool) -> L -> Z -> list fcmd * L) (row : L -> Z -> list cmd * L) : Prop :=
  forall fuse l i, good l -> map plain (fst (frow fuse l i)) = fst (row l i) /\ snd (frow fuse l i) = snd (row l i) /\
    good (snd (frow fuse l i)) /\ Forall (fine raw) (fst (frow fuse l i)).

Lemma rows_alone : forall L raw (good : L -> Prop) frow row fuse rows l m, same_rows raw good frow row -> good l -> mem_ok raw m ->
  exec_rows_fused fuse frow rows l m = exec_rows row rows l m.
Proof.
  intros L raw good frow row fuse rows. induction rows as [|i rows IH]; intros l m S G M; [reflexivity|]. cbn [exec_rows_fused exec_rows].
  destruct (S (fuse i) l i G) as (A & B & C & D). rewrite (fexec_fine raw), A by auto. destruct (exec (fst (row l i)) m) as [m'|?|?|] eqn:E; cbn [bind]; auto.
  rewrite <- B. apply IH; auto. rewrite <- A in E. eapply exec_mem; eauto.
Qed.

(** ** The machine *)
Definition abs_worker {L : Type} (w : fworker L) : worker L :=
  match w with
  | FStart => WStart
  | FIdle l => WIdle l
  | FRow l r e => WRow l r e
  | FWrite l r e reg cs => WCmd l r e reg (map plain cs)
  | FExited => WExited
  end.
Definition abs_state {L : Type} (s : fstate L) : state L :=
  mkState (fs_main s) (fs_closed s) (fs_wg s) (map abs_worker (fs_workers s)) (fs_mem s).
Definition abs_config {L : Type} (c : fconfig L) : config L :=
  match c with FRunning s => Running (abs_state s) | FCrashed m => Crashed m end.
Definition good_worker {L : Type} (raw : bool) (good : L -> Prop) (w : fworker L) : Prop :=
  match w with
  | FStart | FExited => True
  | FIdle l => good l
  | FRow l _ _ => good l
  | FWrite l _ _ reg cs => good l /\ reg_ok raw reg /\ Forall (fine raw) cs
  end.
Definition good_config {L : Type} (raw : bool) (good : L -> Prop) (c : fconfig L) : Prop :=
  match c with FRunning s => Forall (good_worker raw good) (fs_workers s) /\ mem_ok raw (fs_mem s) | FCrashed _ => True end.
Definition same_jobs {L : Type} (raw : bool) (good : L -> Prop) (fj : fjob L) (j : job L) : Prop :=
  fj_init fj = jb_init j /\ (forall l, fj_init fj = Ok l -> good l) /\ same_rows raw good (fj_row fj) (jb_row j) /\
  fj_nRows fj = jb_nRows j /\ fj_nBatches fj = jb_nBatches j /\ fj_threads fj = jb_threads j.

Lemma sim : forall L raw (good : L -> Prop) fj j c c', same_jobs raw good fj j -> good_config raw good c -> fstep fj c c' ->
  step j (abs_config c) (abs_config c') /\ good_config raw good c'.
Proof.
  intros L raw good fj j c c' (I & IG & R & NR & NB & NT) G H.
  destruct H; cbn [good_config fs_workers fs_mem] in G; unfold abs_config, abs_state; cbn [fs_main fs_closed fs_wg fs_workers fs_mem good_config];
    rewrite ?map_app; cbn [map abs_worker];
    repeat match goal with
    | G : _ /\ _ |- _ => destruct G
    | G : Forall _ (_ ++ _) |- _ => apply Forall_app in G
    | G : Forall _ (_ :: _) |- _ => apply Forall_cons_iff in G
    end; cbn [good_worker] in *; repeat match goal with G : _ /\ _ |- _ => destruct G | G : Forall _ (_ :: _) |- _ => apply Forall_cons_iff in G end.
  - split; [constructor|]. split; auto. apply Forall_app. split; auto. repeat constructor.
  - split; [constructor|auto].
  - split; [rewrite NR; constructor; congruence|]. split; auto. apply Forall_app. split; auto.
  - split; [constructor; congruence|auto].
  - split; [constructor|auto].
  - split; [constructor; congruence|]. split; auto. apply Forall_app. split; auto. apply Forall_cons; auto. cbn. auto.
  - split; [apply step_init_panic; congruence|auto].
  - split; [constructor|]. split; auto. apply Forall_app. split; auto. apply Forall_cons; cbn; auto.
  - match goal with Gl : good l |- _ => destruct (R fuse l r Gl) as (A & B & C & D) end.
    split; [rewrite A, B; constructor; auto|]. split; auto. apply Forall_app. split; auto. apply Forall_cons; cbn; auto.
    repeat split; auto. intros _ a X. discriminate.
  - split; [constructor; auto|]. split; auto. apply Forall_app. split; auto.
  -
    match goal with F1 : fine raw c, F2 : Forall (fine raw) cs, M : mem_ok raw m, Rg : reg_ok raw reg |- _ =>
      pose proof (plain_step raw one reg (c :: cs) m (Forall_cons _ F1 F2) M Rg) as P end.
    rewrite H in P. cbn [map] in P. destruct P as (P & F' & M' & R'). split; [apply (step_cmd j); exact P|]. split; auto.
    apply Forall_app. split; auto. apply Forall_cons; cbn; auto.
  - match goal with F1 : fine raw c, F2 : Forall (fine raw) cs, M : mem_ok raw m, Rg : reg_ok raw reg |- _ =>
      pose proof (plain_step raw one reg (c :: cs) m (Forall_cons _ F1 F2) M Rg) as P end.
    rewrite H in P. cbn [map] in P. split; [apply step_cmd_panic with (1 := P)|auto].
  - split; [constructor|]. split; auto. apply Forall_app. split; auto.
Qed.

Lemma sims : forall L raw (good : L -> Prop) fj j c c', same_jobs raw good fj j -> fsteps fj c c' -> good_config raw good c ->
  steps j (abs_config c) (abs_config c') /\ good_config raw good c'.
Proof.
  intros L raw good fj j c c' J H. induction H as [c|c1 c2 c3 H1 H2 IH]; intros G; [split; [constructor|auto]|].
  destruct (sim L raw good fj j c1 c2 J G H1) as [S G2]. destruct (IH G2) as [S' G3]. split; auto. econstructor; eauto.
Qed.

(** every step of the machine without fusing is one of the machine with fusing *)
Lemma back : forall L raw (good : L -> Prop) fj j c d, same_jobs raw good fj j -> good_config raw good c -> step j (abs_config c) d ->
  exists c', fstep fj c c' /\ abs_config c' = d.
Proof.
  intros L raw good fj j c d (I & IG & R & NR & NB & NT) G H. destruct c as [[pc cl wg ws m]|s]; [|inversion H].
  cbn [good_config fs_workers fs_mem] in G. destruct G as [GW GM].
  unfold abs_config, abs_state in H. cbn [fs_main fs_closed fs_wg fs_workers fs_mem] in H.
  inversion H; subst; clear H;
    repeat match goal with
    | E : _ ++ _ :: _ = map abs_worker _ |- _ => symmetry in E
    | E : map abs_worker _ = _ ++ _ :: _ |- _ => apply map_eq_app in E; destruct E as (w1 & w2 & -> & <- & E)
    | E : map abs_worker _ = _ :: _ |- _ => apply map_eq_cons in E; destruct E as (w & w3 & -> & E & <-)
    | E : abs_worker ?w = _ |- _ => destruct w; cbn [abs_worker] in E; try discriminate; injection E; clear E; intros; subst
    | E : abs_worker ?w = _ |- _ => destruct w; cbn [abs_worker] in E; try discriminate; clear E
    end.
  all: try (apply Forall_app in GW; destruct GW as [GW1 GW2]; apply Forall_cons_iff in GW2; destruct GW2 as [Gw GW2]; cbn [good_worker] in Gw).
  Ltac done_ := unfold abs_config, abs_state; cbn [fs_main fs_closed fs_wg fs_workers fs_mem]; rewrite ?map_app; cbn [map abs_worker]; try reflexivity; try congruence.
  - eexists. split; [constructor|]. done_.
  - eexists. split; [constructor|]. done_.
  - eexists. split; [constructor; congruence|]. done_.
  - eexists. split; [constructor; congruence|]. done_.
  - eexists. split; [constructor|]. done_.
  - eexists. split; [constructor; rewrite I; eassumption|]. done_.
  - eexists. split; [apply fstep_init_panic; rewrite I; eassumption|]. done_.
  - eexists. split; [constructor|]. done_.
  - destruct (R (fun _ => false) l r Gw) as (A & B & _ & _).
    eexists. split; [apply (fstep_row fj (fun _ => false)); assumption|]. done_.
  - eexists. split; [constructor; assumption|]. done_.
  - destruct Gw as (Gl & Rg & F).
    match goal with E : map plain ?cs0 = _ |- _ => destruct cs0 as [|c1 cs1]; [discriminate|]; rewrite <- E in * end.
    pose proof (plain_step raw false reg (c1 :: cs1) m F GM Rg) as P.
    destruct (fcmd_step false reg (c1 :: cs1) m) as [[[reg1 cs2] m1]|?|?|] eqn:E1; [destruct P as [P _]| | |]; try congruence.
    eexists. split; [apply (fstep_cmd fj false) with (1 := E1)|]. done_.
  - destruct Gw as (Gl & Rg & F).
    match goal with E : map plain ?cs0 = _ |- _ => destruct cs0 as [|c1 cs1]; [discriminate|]; rewrite <- E in * end.
    pose proof (plain_step raw false reg (c1 :: cs1) m F GM Rg) as P.
    destruct (fcmd_step false reg (c1 :: cs1) m) as [[[reg1 cs2] m1]|?|?|] eqn:E1; [destruct P as [P _]| | |]; try congruence.
    eexists. split; [apply (fstep_cmd_panic fj false) with (1 := E1)|]. done_.
  - match goal with E : map plain ?cs = [] |- _ => apply map_eq_nil in E; subst cs end. eexists. split; [constructor|]. done_.
Qed.

Lemma backs : forall L raw (good : L -> Prop) fj j d d', same_jobs raw good fj j -> steps j d d' -> forall c, d = abs_config c -> good_config raw good c ->
  exists c', fsteps fj c c' /\ abs_config c' = d'.
Proof.
  intros L raw good fj j d d' J H. induction H as [d|d1 d2 d3 H1 H2 IH]; intros c E G; [exists c; split; [constructor|auto]|]. subst d1.
  destruct (back L raw good fj j c d2 J G H1) as (c2 & S & E2). destruct (IH c2 (eq_sym E2) (proj2 (sim L raw good fj j c c2 J G S))) as (c3 & S3 & E3).
  exists c3. split; auto. econstructor; eauto.
Qed.

Lemma machines : forall L raw (good : L -> Prop) fj j m, same_jobs raw good fj j -> mem_ok raw m ->
  (forall m', (exists c, fsteps fj (finitial fj m) c /\ freturned c m') <-> (exists c, steps j (initial j m) c /\ returned c m')) /\
  (forall s, fsteps fj (finitial fj m) (FCrashed s) <-> steps j (initial j m) (Crashed s)).
Proof.
  intros L raw good fj j m J M. assert (E : initial j m = abs_config (finitial fj m)).
  { unfold initial, finitial, abs_config, abs_state. cbn. destruct J as (_ & _ & _ & _ & _ & ->). reflexivity. }
  assert (G : good_config raw good (finitial fj m)) by (cbn; auto).
  split.
  - intros m'. split.
    + intros (c & H & cl & wg & ws & ->). exists (abs_config (FRunning (mkFState MReturned cl wg ws m'))). rewrite E. split; [apply (sims L raw good fj j _ _ J H G)|].
      exists cl, wg, (map abs_worker ws). reflexivity.
    + intros (c & H & cl & wg & ws & ->). destruct (backs L raw good fj j _ _ J H _ E G) as (c' & H' & E'). exists c'. split; auto.
      destruct c' as [[pc cl' wg' ws' m1]|s]; [|discriminate]. cbn in E'. injection E' as -> -> -> _ ->. exists cl, wg, ws'. reflexivity.
  - intros s. split.
    + intros H. rewrite E. apply (sims L raw good fj j _ _ J H G).
    + intros H. destruct (backs L raw good fj j _ _ J H _ E G) as (c' & H' & E'). destruct c' as [?|s']; [discriminate|]. cbn in E'. injection E' as ->. exact H'.
Qed.

(** ** The rows of the two batch calls *)
Definition good_buffer (e : Ensemble) (l : list f64) : Prop := plain_products e l.

Lemma plain_part : forall e vals vals', plain_products e vals -> incl vals' vals -> plain_products e vals'.
Proof.
  intros e vals vals' P I. unfold plain_products in *. destruct (core (eBase e)); auto. destruct P as [A B]. split; auto.
  apply Forall_forall. intros x Hx. rewrite Forall_forall in B. apply B, I, Hx.
Qed.

Lemma cmds_fine : forall fuse p e fvals n s, plain_products e fvals ->
  map plain (fused_cmds fuse p e fvals n s) = predictInnerAndTransform p e fvals n s /\
  Forall (fine (Type_t (eTransform e) =? TypeRaw)) (fused_cmds fuse p e fvals n s).
Proof.
  intros fuse p e fvals n s P. unfold fused_cmds, predictInnerAndTransform.
  assert (Pl : forall l, map plain (map FCmd l) = l) by (intros l; rewrite map_map; apply map_id).
  assert (Fl : forall l, Forall (fine false) (map FCmd l)) by (intros l; apply Forall_map, Forall_forall; intros c _; exists c; reflexivity).
  destruct (Type_t (eTransform e) =? TypeRaw); [split; [apply plain_fused|apply plain_calm; exact P]|].
  destruct (Type_t (eTransform e) =? TypeLeafIndex); [auto|]. split; [|auto]. rewrite Pl.
  destruct (make_f64 p (NRawOutputGroups e)) as [raw|?|?|] eqn:M; cbn [bind cmds_of]; try reflexivity.
  rewrite fexec_plain, plain_fused; [reflexivity|apply plain_calm; exact P|].
  unfold make_f64 in M. destruct (_ || _); [discriminate|]. injection M as <-. apply Forall_forall. intros x Hx. apply repeat_spec in Hx. subst x. reflexivity.
Qed.

Lemma dense_same : forall p e vals ncols n, plain_products e vals ->
  same_rows (Type_t (eTransform e) =? TypeRaw) (fun _ : unit => True)
    (fun f (_ : unit) i => (dense_row_fused p e vals ncols n f i, tt)) (fun (_ : unit) i => (dense_row p e vals ncols n i, tt)).
Proof.
  intros p e vals ncols n P fuse l i _. cbn [fst snd]. unfold dense_row_fused, dense_row, cmds_of.
  destruct (slice vals _ _) as [fv|m|m|] eqn:S.
  - assert (I : incl fv vals). { unfold slice in S. destruct (_ || _ || _); [discriminate|]. injection S as <-. intros x Hx.
      rewrite <- (firstn_skipn (Z.to_nat (s64 (i * ncols))) vals). apply in_or_app. right.
      rewrite <- (firstn_skipn (Z.to_nat (s64 ((i + 1) * ncols) - s64 (i * ncols))) (skipn _ vals)). apply in_or_app. left. exact Hx. }
    destruct (cmds_fine fuse p e fv n (s64 (i * NOutputGroups e)) (plain_part e vals fv P I)) as [A B]. auto.
  - repeat split; auto. constructor; auto. destruct (_ =? _); cbn; eauto.
  - repeat split; auto. constructor; auto. destruct (_ =? _); cbn; eauto.
  - repeat split; auto. constructor; auto. destruct (_ =? _); cbn; eauto.
Qed.

Lemma plain_union : forall e a b, plain_products e a -> plain_products e b -> forall c, incl c (a ++ b) -> plain_products e c.
Proof.
  intros e a b A B c I. unfold plain_products in *. destruct (core (eBase e)); auto. destruct A as [A1 A2], B as [_ B2]. split; auto.
  apply Forall_forall. intros x Hx. apply I, in_app_or in Hx. rewrite Forall_forall in A2, B2. destruct Hx; auto.
Qed.
Lemma plain_reset : forall e vals l, plain_products e vals -> plain_products e (b_resetFVals (eBase e) l).
Proof.
  intros [b t] vals l. unfold plain_products. cbn [eBase]. clear t. induction b as [m|m|m|b IH t]; cbn [core b_resetFVals]; auto.
  intros [V _]. split; auto. apply Forall_map, Forall_forall. intros x _. exists 0. split; [lia|reflexivity].
Qed.
Lemma fill_incl : forall cols (vals : list f64) js (l l' : list f64), foldM (fun fvals j =>
           let* c := at_ cols j in
           if c <? zlen fvals then
             let* v := at_ vals j in set_at fvals c v
           else Ok fvals) js l = Ok l' -> incl l' (l ++ vals).
Proof.
  intros cols vals js. induction js as [|j js IH]; intros l l' H; cbn [foldM] in H; [injection H as <-; apply incl_appl, incl_refl|].
  apply bind_ok in H. destruct H as (l1 & H1 & H). specialize (IH _ _ H). intros x Hx. apply IH, in_app_or in Hx. apply in_or_app. destruct Hx as [Hx|Hx]; auto.
  apply bind_ok in H1. destruct H1 as (c & _ & H1). destruct (c <? zlen l); [|injection H1 as <-; auto]. apply bind_ok in H1. destruct H1 as (v & Hv & S).
  apply set_at_ok in S. apply in_zget in Hx. destruct Hx as [k Hk]. destruct (Z.eq_dec k c) as [->|N].
  - rewrite (zset_get_same _ _ _ _ _ S) in Hk. injection Hk as <-. apply at_ok in Hv. right. eapply zget_in; eauto.
  - rewrite (zset_get_other _ _ _ _ _ _ S N) in Hk. left. eapply zget_in; eauto.
Qed.

Lemma csr_same : forall p e indptr cols vals n, plain_products e vals ->
  same_rows (Type_t (eTransform e) =? TypeRaw) (plain_products e) (csr_row_fused p e indptr cols vals n) (csr_row p e indptr cols vals n).
Proof.
  intros p e indptr cols vals n P fuse l i G. unfold csr_row_fused, csr_row.
  destruct (at_ indptr i) as [a|?|?|]; cbn [bind]; [destruct (at_ indptr (i + 1)) as [b|?|?|]; cbn [bind]; [destruct (csr_fill cols vals a b l) as [fv|?|?|] eqn:Fi|..]|..];
    cbn [fst snd]; try (repeat split; auto; constructor; auto; destruct (_ =? _); cbn; eauto; fail).
  assert (Pf : plain_products e fv) by (apply (plain_union e l vals G P); eapply fill_incl; exact Fi).
  destruct (cmds_fine fuse p e fv n (s64 (i * NOutputGroups e)) Pf) as [A B]. repeat split; auto. apply (plain_reset e vals); auto.
Qed.
Lemma buffer_good : forall p e vals l, plain_products e vals -> csr_buffer p e = Ok l -> plain_products e l.
Proof. intros p e vals l P H. unfold csr_buffer in H. apply bind_ok in H. destruct H as (x & _ & H). injection H as <-. eapply plain_reset; eauto. Qed.
