(** * Rows of batch calls with fused multiply-add *)

From Coq Require Import ZArith List Bool String Lia ZifyBool Permutation.
From Verif Require Import Go GoFloat Cmd UtilMath LgTree Transformation Ensembles Leaves Parallel Fused FusedBatch Spec_Predict Spec_Fused
  Pf_Go Pf_Cmd Pf_Exec Pf_Leaves Pf_Parallel Pf_Batch Pf_Calls Pf_Rows Pf_Fused Pf_FusedSum.
Local Open Scope Z_scope.

(** ** Commands with a free choice at every sum *)
Definition fupd (c : fcmd) : option (Z * (bool -> f64 -> f64)) :=
  match c with
  | FCmd c => match cmd_upd c with Some (i, f) => Some (i, fun _ => f) | None => None end
  | FMulAdd i x y => Some (i, fun (one : bool) a => if one then ffma x y a else fadd a (fmul x y))
  end.
Inductive may_run : list fcmd -> list f64 -> list f64 -> Prop :=
| mr_nil : forall m, may_run [] m m
| mr_cons : forall c cs i f one x m m1 m2, fupd c = Some (i, f) -> zget m i = Some x -> zset m i (f one x) = Some m1 ->
    may_run cs m1 m2 -> may_run (c :: cs) m m2.

Lemma may_app : forall a b m m1 m2, may_run a m m1 -> may_run b m1 m2 -> may_run (a ++ b) m m2.
Proof. intros a b m m1 m2 H. induction H; intros Hb; cbn [app]; [exact Hb|]. econstructor; eauto. Qed.

Lemma may_len : forall cs m m', may_run cs m m' -> zlen m' = zlen m.
Proof. intros cs m m' H. induction H; auto. rewrite IHmay_run. eapply zset_len; eauto. Qed.

Lemma fexec_may : forall fuse cs m m', fexec fuse cs m = Ok m' -> may_run cs m m'.
Proof.
  intros fuse cs. induction cs as [|c cs IH]; intros m m' H; [injection H as <-; constructor|]. destruct c as [c|i x y]; cbn [fexec] in H.
  - apply bind_ok in H. destruct H as (m1 & H1 & H). apply exec1_ok in H1. destruct H1 as (i & f & x & U & G & E).
    apply (mr_cons (FCmd c) cs i (fun _ => f) true x m m1 m'); auto. cbn [fupd]. rewrite U. reflexivity.
  - apply bind_ok in H. destruct H as (a & A & H). apply bind_ok in H. destruct H as (m1 & H1 & H).
    eapply (mr_cons (FMulAdd i x y) cs i _ (fuse (List.length cs)) a m m1 m'); [reflexivity|apply at_ok; exact A|apply set_at_ok; exact H1|auto].
Qed.

Lemma fexec_ext : forall f g cs m, (forall k, (k < List.length cs)%nat -> f k = g k) -> fexec f cs m = fexec g cs m.
Proof.
  intros f g cs. induction cs as [|c cs IH]; intros m H; [reflexivity|].
  assert (T : forall m, fexec f cs m = fexec g cs m) by (intros m0; apply IH; intros k Hk; apply H; cbn [List.length]; lia).
  destruct c as [c|i x y]; cbn [fexec].
  - destruct (exec1 c m); cbn [bind]; auto.
  - rewrite (H (List.length cs)) by (cbn [List.length]; lia). destruct (at_ m i); cbn [bind]; auto. destruct (set_at m i _); cbn [bind]; auto.
Qed.

Lemma may_fexec : forall cs m m', may_run cs m m' -> exists fuse, fexec fuse cs m = Ok m'.
Proof.
  intros cs m m' H. induction H as [m|c cs i f one x m m1 m2 U G E H [fuse IH]]; [exists (fun _ => true); reflexivity|].
  exists (fun k => if Nat.eqb k (List.length cs) then one else fuse k).
  assert (T : fexec (fun k => if Nat.eqb k (List.length cs) then one else fuse k) cs m1 = Ok m2).
  { rewrite <- IH. apply fexec_ext. intros k Hk. replace (Nat.eqb k (List.length cs)) with false by (symmetry; apply Nat.eqb_neq; lia). reflexivity. }
  destruct c as [c|i0 a b]; cbn [fupd] in U.
  - cbn [fexec]. destruct (cmd_upd c) as [[i1 f1]|] eqn:Uc; [|discriminate]. injection U as <- <-.
    assert (X : exec1 c m = Ok m1) by (apply exec1_ok; eauto 6). rewrite X. exact T.
  - injection U as <- <-. cbn [fexec]. rewrite Nat.eqb_refl. apply at_ok in G. rewrite G. cbn [bind]. apply set_at_ok in E. rewrite E. exact T.
Qed.

Lemma may_exec : forall cs m m', may_run (map FCmd cs) m m' -> exec cs m = Ok m'.
Proof.
  induction cs as [|c cs IH]; intros m m' H; cbn [map] in H.
  - inversion H; subst. reflexivity.
  - inversion H as [|? ? i f one x ? m1 ? U G E H2]; subst. cbn [fupd] in U. destruct (cmd_upd c) as [[i1 f1]|] eqn:Uc; [|discriminate].
    injection U as <- <-. cbn [exec]. assert (X : exec1 c m = Ok m1) by (apply exec1_ok; eauto 6). rewrite X. cbn [bind]. auto.
Qed.

(** ** Windows *)
Definition fshift (d : Z) (c : fcmd) : fcmd :=
  match c with FCmd c => FCmd (shift_cmd d c) | FMulAdd i x y => FMulAdd (d + i) x y end.
Definition fin (w : Z) (c : fcmd) : Prop := match fupd c with Some (i, _) => 0 <= i < w | None => True end.
Definition window (w r : Z) (m : list f64) : list f64 := firstn (Z.to_nat w) (skipn (Z.to_nat (r * w)) m).

Lemma fupd_shift : forall d c, fupd (fshift d c) = match fupd c with Some (i, f) => Some (d + i, f) | None => None end.
Proof. intros d [[i v|i v|i v|s|]|i x y]; reflexivity. Qed.

Lemma window_len : forall w r m, 0 <= w -> 0 <= r -> (r + 1) * w <= zlen m -> zlen (window w r m) = w.
Proof. intros w r m Hw Hr H. unfold window. apply zlen_sub; nia. Qed.
Lemma window_get : forall w r m k, 0 <= w -> 0 <= r -> 0 <= k < w -> zget (window w r m) k = zget m (r * w + k).
Proof. intros w r m k Hw Hr Hk. unfold window. apply zget_sub; nia. Qed.

Lemma window_set : forall w r m i v m', 0 <= w -> 0 <= r -> (r + 1) * w <= zlen m -> 0 <= i < w -> zset m (r * w + i) v = Some m' ->
  zset (window w r m) i v = Some (window w r m').
Proof.
  intros w r m i v m' Hw Hr Hl Hi H. pose proof (window_len w r m Hw Hr Hl) as L.
  destruct (zset_some _ (window w r m) i v ltac:(lia)) as [l' E]. rewrite E. f_equal.
  assert (L' : zlen (window w r m') = w) by (apply window_len; auto; rewrite (zset_len _ _ _ _ _ H); auto).
  apply zget_ext; [rewrite (zset_len _ _ _ _ _ E); congruence|]. intros k _.
  destruct (Z_lt_le_dec k 0); [rewrite !zget_neg by lia; reflexivity|].
  destruct (Z_lt_le_dec k w); [|rewrite !zget_none; auto; rewrite ?(zset_len _ _ _ _ _ E); lia].
  rewrite window_get by lia. destruct (Z.eq_dec k i) as [->|N].
  - rewrite (zset_get_same _ _ _ _ _ E), (zset_get_same _ _ _ _ _ H). reflexivity.
  - rewrite (zset_get_other _ _ _ _ _ k E) by auto. rewrite (zset_get_other _ _ _ _ _ (r * w + k) H) by lia. apply window_get; lia.
Qed.

Lemma window_other : forall w r r' m i v m', 0 <= w -> 0 <= r' -> r <> r' -> (r' + 1) * w <= zlen m -> 0 <= i < w ->
  zset m (r * w + i) v = Some m' -> window w r' m' = window w r' m.
Proof.
  intros w r r' m i v m' Hw Hr N Hl Hi H.
  assert (L : zlen (window w r' m) = w) by (apply window_len; auto).
  assert (L' : zlen (window w r' m') = w) by (apply window_len; auto; rewrite (zset_len _ _ _ _ _ H); auto).
  apply zget_ext; [congruence|]. intros k _.
  destruct (Z_lt_le_dec k 0); [rewrite !zget_neg by lia; reflexivity|].
  destruct (Z_lt_le_dec k w); [|rewrite !zget_none; auto; lia].
  rewrite !window_get by lia. apply (zset_get_other _ _ _ _ _ _ H). assert (r < r' \/ r' < r) as [|] by lia; nia.
Qed.

(** ** One access *)
Lemma fstep_spec : forall one reg c cs m reg' cs' m', fcmd_step one reg (c :: cs) m = Ok (reg', cs', m') ->
  (exists i f b x, fupd c = Some (i, f) /\ (reg = Some x \/ (forall y, f b y = f b x)) /\ zset m i (f b x) = Some m' /\ reg' = None /\ cs' = cs) \/
  (exists i f a, fupd c = Some (i, f) /\ zget m i = Some a /\ reg' = Some a /\ cs' = c :: cs /\ m' = m) \/
  (reg' = reg /\ cs' = c :: cs /\ m' = m).
Proof.
  intros one reg c cs m reg' cs' m' H. destruct c as [[i v|i v|i v|s|]|i x y]; cbn [fcmd_step cmd_step] in H.
  - left. apply bind_ok in H. destruct H as (r & H1 & H). apply bind_ok in H1. destruct H1 as (m1 & H1 & E1). injection E1 as <-. cbn [fst snd] in H. injection H as <- <- <-.
    exists i, (fun _ _ => v), true, v. repeat split; auto. apply set_at_ok; auto.
  - destruct reg as [a|].
    + left. apply bind_ok in H. destruct H as (r & H1 & H). apply bind_ok in H1. destruct H1 as (m1 & H1 & E1). injection E1 as <-. cbn [fst snd] in H. injection H as <- <- <-.
      exists i, (fun _ y => fadd y v), true, a. repeat split; auto. apply set_at_ok; auto.
    + right. left. apply bind_ok in H. destruct H as (r & H1 & H). apply bind_ok in H1. destruct H1 as (a & H1 & E1). injection E1 as <-. cbn [fst snd] in H. injection H as <- <- <-.
      exists i, (fun _ y => fadd y v), a. repeat split; auto. apply at_ok; auto.
  - destruct reg as [a|].
    + left. apply bind_ok in H. destruct H as (r & H1 & H). apply bind_ok in H1. destruct H1 as (m1 & H1 & E1). injection E1 as <-. cbn [fst snd] in H. injection H as <- <- <-.
      exists i, (fun _ y => fmul y v), true, a. repeat split; auto. apply set_at_ok; auto.
    + right. left. apply bind_ok in H. destruct H as (r & H1 & H). apply bind_ok in H1. destruct H1 as (a & H1 & E1). injection E1 as <-. cbn [fst snd] in H. injection H as <- <- <-.
      exists i, (fun _ y => fmul y v), a. repeat split; auto. apply at_ok; auto.
  - discriminate.
  - cbn [bind fst snd] in H. injection H as <- <- <-. auto.
  - destruct reg as [a|].
    + left. apply bind_ok in H. destruct H as (m1 & H1 & H). injection H as <- <- <-.
      exists i, (fun (one : bool) a => if one then ffma x y a else fadd a (fmul x y)), one, a. repeat split; auto. apply set_at_ok; auto.
    + right. left. apply bind_ok in H. destruct H as (a & H1 & H). injection H as <- <- <-.
      exists i, (fun (one : bool) a => if one then ffma x y a else fadd a (fmul x y)), a. repeat split; auto. apply at_ok; auto.
Qed.

(** ** The machine *)
Definition fexit {L} (wk : fworker L) : bool := match wk with FExited => true | _ => false end.
Fixpoint factive {L} (ws : list (fworker L)) : Z :=
  match ws with [] => 0 | wk :: t => (if fexit wk then 0 else 1) + factive t end.

Section Engine.
Context {L : Type}.
Variable j : fjob L.
Variable w : Z.
Variable ucmds : (nat -> bool) -> Z -> list fcmd.
Variable fresh : L -> Prop.

Definition fjob_ok : Prop :=
  (forall l, fj_init j = Ok l -> fresh l) /\
  (forall fuse l r, fresh l -> 0 <= r < fj_nRows j ->
     fst (fj_row j fuse l r) = map (fshift (r * w)) (ucmds fuse r) /\ fresh (snd (fj_row j fuse l r))) /\
  (forall fuse r, 0 <= r < fj_nRows j -> Forall (fin w) (ucmds fuse r)) /\
  0 <= w /\ 0 <= fj_nRows j /\ fj_nRows j <= fj_nBatches j * BatchSize /\ (0 < fj_nBatches j -> (fj_nBatches j - 1) * BatchSize < fj_nRows j) /\ 0 <= fj_nBatches j.
Hypothesis J : fjob_ok.

Definition row_done (r : Z) (m : list f64) : Prop :=
  (exists l, fresh l) /\ exists fuse wb, zlen wb = w /\ may_run (ucmds fuse r) wb (window w r m).
Definition row_under_way (r : Z) (win : list f64) (reg : option f64) (cs : list fcmd) : Prop :=
  exists fuse pre rest wb, ucmds fuse r = pre ++ rest /\ cs = map (fshift (r * w)) rest /\ zlen wb = w /\ may_run pre wb win /\
    (forall a, reg = Some a -> exists c t i f, rest = c :: t /\ fupd c = Some (i, f) /\ zget win i = Some a).

Definition wrows (wk : fworker L) : list Z :=
  match wk with FRow _ r e => zrange r e | FWrite _ r e _ _ => r :: zrange (r + 1) e | _ => [] end.
Definition ffed (pc : mainpc) : Z :=
  match pc with MSpawn _ => 0 | MFeed i => i * BatchSize | MWait => fj_nRows j | MReturned => fj_nRows j end.
Definition todo (s : fstate L) : list Z := flat_map wrows (fs_workers s) ++ zrange (ffed (fs_main s)) (fj_nRows j).
Definition fworker_ok (m : list f64) (wk : fworker L) : Prop :=
  match wk with
  | FStart | FExited => True
  | FIdle l => fresh l
  | FRow l r e => fresh l /\ 0 <= r /\ e <= fj_nRows j
  | FWrite l r e reg cs => fresh l /\ 0 <= r < e /\ e <= fj_nRows j /\ row_under_way r (window w r m) reg cs
  end.
Definition fpc_ok (s : fstate L) : Prop :=
  match fs_main s with MFeed i => 0 <= i <= fj_nBatches j | MReturned => fs_wg s = 0 | _ => True end.
Record finv (s : fstate L) : Prop := mkFInv {
  fi_workers : Forall (fworker_ok (fs_mem s)) (fs_workers s);
  fi_nodup : NoDup (todo s);
  fi_wg : fs_wg s = factive (fs_workers s);
  fi_pc : fpc_ok s;
  fi_len : fj_nRows j * w <= zlen (fs_mem s);
  fi_done : forall r, 0 <= r < fj_nRows j -> ~ In r (todo s) -> row_done r (fs_mem s) }.

Lemma factive_app : forall (a b : list (fworker L)), factive (a ++ b) = factive a + factive b.
Proof. induction a as [|x a IH]; intros b; cbn [app factive]; auto. rewrite IH. lia. Qed.
Lemma factive_nonneg : forall (a : list (fworker L)), 0 <= factive a.
Proof. induction a as [|x a IH]; cbn [factive]; try lia. destruct (fexit x); lia. Qed.
Lemma factive_zero : forall (ws : list (fworker L)), factive ws = 0 -> flat_map wrows ws = [].
Proof.
  induction ws as [|x ws IH]; cbn [factive flat_map]; intros H; auto.
  pose proof (factive_nonneg ws). destruct x; cbn [fexit] in *; try lia. cbn [wrows app]. apply IH. lia.
Qed.

Lemma todo_mid : forall pc cl wg ws1 wk ws2 m,
  todo (mkFState pc cl wg (ws1 ++ wk :: ws2) m) = flat_map wrows ws1 ++ wrows wk ++ (flat_map wrows ws2 ++ zrange (ffed pc) (fj_nRows j)).
Proof. intros. unfold todo. cbn [fs_workers fs_main]. rewrite flat_map_app. cbn [flat_map]. rewrite <- !app_assoc. reflexivity. Qed.

(** the other workers when one row of the memory changes *)
Lemma others_ok : forall r m m' ws, (forall r', 0 <= r' < fj_nRows j -> r <> r' -> window w r' m' = window w r' m) -> ~ In r (flat_map wrows ws) ->
  Forall (fworker_ok m) ws -> Forall (fworker_ok m') ws.
Proof.
  intros r m m' ws H N F. induction F as [|wk ws F1 F2 IH]; [constructor|]. cbn [flat_map] in N. constructor.
  - destruct wk as [|l|l r1 e1|l r1 e1 reg cs|]; cbn [fworker_ok] in *; auto. destruct F1 as (A & B & C & D). repeat split; try tauto; try lia.
    rewrite H; auto; [lia|]. intros ->. apply N. apply in_or_app. left. left. reflexivity.
  - apply IH. intros X. apply N. apply in_or_app. auto.
Qed.

(** one step of a worker that neither changes memory nor the rows to do *)
Lemma same_todo : forall pc pc' cl cl' wg wg' ws ws' m,
  finv (mkFState pc cl wg ws m) -> Permutation (todo (mkFState pc cl wg ws m)) (todo (mkFState pc' cl' wg' ws' m)) ->
  Forall (fworker_ok m) ws' -> wg' = factive ws' -> fpc_ok (mkFState pc' cl' wg' ws' m) -> finv (mkFState pc' cl' wg' ws' m).
Proof.
  intros pc pc' cl cl' wg wg' ws ws' m [Iw In_ Ig Ip Il Id] P W G C. cbn [fs_mem fs_workers fs_wg] in *. constructor; cbn [fs_mem fs_workers fs_wg]; auto.
  - eapply Permutation_NoDup; eauto.
  - intros r Hr N. apply Id; auto. intros X. apply N. eapply Permutation_in; eauto.
Qed.

Lemma fstep_inv : forall s c, finv s -> fstep j (FRunning s) c -> match c with FRunning s' => finv s' | FCrashed _ => True end.
Proof.
  intros s c I H. pose proof J as (J1 & J2 & J3 & Jw & Jn & Jb & Jb2 & Jb0).
  pose proof I as [Iw Ind Ig Ip Il Id]. inversion H; subst; auto; cbn [fs_mem fs_workers fs_wg fs_main] in *; unfold fpc_ok in Ip; cbn [fs_main fs_wg] in Ip.
  - eapply same_todo; [exact I| | | |].
    + unfold todo. cbn [fs_workers fs_main]. rewrite flat_map_app. cbn [flat_map wrows]. rewrite !app_nil_r. apply Permutation_refl.
    + apply Forall_app. split; [exact Iw|repeat constructor].
    + rewrite factive_app. cbn [factive fexit]. lia.
    + exact Logic.I.
  - eapply same_todo; [exact I|apply Permutation_refl|auto|auto|]. unfold fpc_ok. cbn [fs_main]. lia.
  - rename i into b. set (e := batch_end (fj_nRows j) b) in *.
    assert (He : b * BatchSize <= e <= fj_nRows j /\ zrange e (fj_nRows j) = zrange ((b + 1) * BatchSize) (fj_nRows j)).
    { unfold e, batch_end. destruct (Z.ltb_spec (fj_nRows j) (b * BatchSize + BatchSize)).
      - split; [unfold BatchSize in *; lia|]. rewrite !zrange_nil by (unfold BatchSize in *; lia). reflexivity.
      - split; [unfold BatchSize in *; lia|]. f_equal. lia. }
    destruct He as [He1 He2]. eapply same_todo; [exact I| | | |].
    + rewrite !todo_mid. cbn [wrows ffed app]. apply Permutation_app_head. rewrite (zrange_app (b * BatchSize) e (fj_nRows j)) by lia.
      rewrite <- He2, !app_assoc. apply Permutation_app_tail. apply Permutation_app_comm.
    + apply Forall_app in Iw. destruct Iw as [Iw1 Iw2]. inversion Iw2; subst. apply Forall_app. split; auto. constructor; auto.
      cbn [fworker_ok] in *. unfold BatchSize in *. repeat split; auto; lia.
    + rewrite !factive_app in *. cbn [factive fexit] in *. lia.
    + unfold fpc_ok. cbn [fs_main]. lia.
  - eapply same_todo; [exact I| |auto|auto|exact Logic.I]. unfold todo. cbn [fs_workers fs_main ffed].
    rewrite !(zrange_nil _ (fj_nRows j)) by (unfold BatchSize in *; lia). apply Permutation_refl.
  - eapply same_todo; [exact I|apply Permutation_refl|auto|auto|reflexivity].
  - apply Forall_app in Iw. destruct Iw as [Iw1 Iw2]. inversion Iw2; subst. eapply same_todo; [exact I| | | |].
    + rewrite !todo_mid. apply Permutation_refl.
    + apply Forall_app. split; auto. constructor; auto. cbn. auto.
    + rewrite !factive_app in *. cbn [factive fexit] in *. lia.
    + exact Ip.
  - apply Forall_app in Iw. destruct Iw as [Iw1 Iw2]. inversion Iw2; subst. eapply same_todo; [exact I| | | |].
    + rewrite !todo_mid. apply Permutation_refl.
    + apply Forall_app. split; auto. constructor; auto. exact Logic.I.
    + rewrite !factive_app in *. cbn [factive fexit] in *. lia.
    + unfold fpc_ok. cbn [fs_main fs_wg]. destruct pc; auto. rewrite !factive_app in Ip. cbn [factive fexit] in Ip.
      pose proof (factive_nonneg ws1). pose proof (factive_nonneg ws2). lia.
  - apply Forall_app in Iw. destruct Iw as [Iw1 Iw2]. inversion Iw2 as [|? ? K Iw3]; subst. cbn [fworker_ok] in K. destruct K as (Kf & Kr & Ke).
    destruct (J2 fuse l r Kf ltac:(lia)) as [E F]. eapply same_todo; [exact I| | | |].
    + rewrite !todo_mid. cbn [wrows]. rewrite (zrange_cons r e) by auto. apply Permutation_refl.
    + apply Forall_app. split; auto. constructor; auto. cbn [fworker_ok]. repeat split; auto.
      exists fuse, [], (ucmds fuse r), (window w r m). repeat split; auto; [|constructor|intros a X; discriminate].
      apply window_len; auto. nia.
    + rewrite !factive_app in *. cbn [factive fexit] in *. lia.
    + exact Ip.
  - apply Forall_app in Iw. destruct Iw as [Iw1 Iw2]. inversion Iw2 as [|? ? K Iw3]; subst. cbn [fworker_ok] in K. eapply same_todo; [exact I| | | |].
    + rewrite !todo_mid. cbn [wrows]. rewrite (zrange_nil r e) by auto. apply Permutation_refl.
    + apply Forall_app. split; auto. constructor; auto. cbn [fworker_ok]. tauto.
    + rewrite !factive_app in *. cbn [factive fexit] in *. lia.
    + exact Ip.
  - (* one access *)
    apply Forall_app in Iw. destruct Iw as [Iw1 Iw2]. inversion Iw2 as [|? ? K Iw3]; subst. cbn [fworker_ok] in K. destruct K as (Kf & Kr & Ke & KP).
    destruct KP as (fuse & pre & rest & wb & P1 & P2 & P3 & P4 & P5).
    destruct rest as [|cu rest]; cbn [map] in P2; [discriminate|]. injection P2 as -> ->.
    assert (Fin : Forall (fin w) (cu :: rest)) by (pose proof (J3 fuse r ltac:(lia)) as X; rewrite P1 in X; apply Forall_app in X; tauto).
    inversion Fin as [|? ? Fc Fr]; subst. unfold fin in Fc.
    assert (Hr1 : (r + 1) * w <= zlen m) by nia.
    destruct (fstep_spec _ _ _ _ _ _ _ _ H1) as [(i & f & b & x & U & X & Z1 & -> & ->)|[(i & f & a & U & A & -> & -> & ->)|(-> & -> & ->)]].
    + rewrite fupd_shift in U. destruct (fupd cu) as [[i0 f0]|] eqn:U0; [|discriminate]. injection U as <- <-.
      assert (R : exists y, zget (window w r m) i0 = Some y /\ f0 b y = f0 b x).
      { destruct (zget_some _ (window w r m) i0) as [y Y]; [rewrite window_len by lia; exact Fc|]. exists y. split; auto. destruct X as [->|X]; [|apply X].
        destruct (P5 x eq_refl) as (c1 & t & i1 & f1 & [= <- <-] & Q1 & Q2). assert (i1 = i0) by congruence. subst i1. congruence. }
      destruct R as (y & Y & EY).
      assert (Others : forall r', 0 <= r' < fj_nRows j -> r <> r' -> window w r' m' = window w r' m).
      { intros r' Hr' N. eapply window_other; [exact Jw|lia|exact N|nia|exact Fc|exact Z1]. }
      pose proof Ind as Ind0. rewrite todo_mid in Ind0. cbn [wrows app] in Ind0. pose proof (NoDup_remove_2 _ _ _ Ind0) as N0.
      constructor; cbn [fs_mem fs_workers fs_wg].
      * apply Forall_app. split; [|constructor].
        -- eapply others_ok; [exact Others| |exact Iw1]. intros Q. apply N0. apply in_or_app. auto.
        -- cbn [fworker_ok]. repeat split; auto; try lia. exists fuse, (pre ++ [cu]), rest, wb. split; [rewrite <- app_assoc; exact P1|]. split; [reflexivity|]. split; [exact P3|]. split; [|intros a Q; discriminate].
           eapply may_app; [exact P4|]. eapply mr_cons; [exact U0|exact Y| |constructor]. rewrite EY. apply window_set; auto. lia.
        -- eapply others_ok; [exact Others| |exact Iw3]. intros Q. apply N0. apply in_or_app. right. apply in_or_app. right. apply in_or_app. auto.
      * rewrite todo_mid in *. exact Ind.
      * rewrite !factive_app in *. cbn [factive fexit] in *. lia.
      * exact Ip.
      * rewrite (zset_len _ _ _ _ _ Z1). exact Il.
      * intros r0 Hr0 N. rewrite todo_mid in N. cbn [wrows] in N. assert (r <> r0) by (intros ->; apply N; apply in_or_app; right; left; reflexivity).
        destruct (Id r0 Hr0) as (D0 & fu & wb0 & D1 & D2); [rewrite todo_mid; exact N|]. split; [exact D0|]. exists fu, wb0. split; auto. rewrite Others by auto. exact D2.
    + rewrite fupd_shift in U. destruct (fupd cu) as [[i0 f0]|] eqn:U0; [|discriminate]. injection U as <- <-.
      eapply same_todo; [exact I|rewrite !todo_mid; apply Permutation_refl| | |exact Ip].
      * apply Forall_app. split; auto. constructor; auto. cbn [fworker_ok]. repeat split; auto; try lia.
        exists fuse, pre, (cu :: rest), wb. repeat split; auto. intros a0 [= <-]. exists cu, rest, i0, f0. repeat split; auto. rewrite window_get by lia. exact A.
      * rewrite !factive_app in *. cbn [factive fexit] in *. lia.
    + exact I.
  - (* row done *)
    apply Forall_app in Iw. destruct Iw as [Iw1 Iw2]. inversion Iw2 as [|? ? K Iw3]; subst. cbn [fworker_ok] in K. destruct K as (Kf & Kr & Ke & KP).
    destruct KP as (fuse & pre & rest & wb & P1 & P2 & P3 & P4 & _). destruct rest; [|discriminate]. rewrite app_nil_r in P1. subst pre.
    constructor; cbn [fs_mem fs_workers fs_wg].
    + apply Forall_app. split; auto. constructor; auto. cbn [fworker_ok]. repeat split; auto; lia.
    + rewrite todo_mid in *. cbn [wrows app] in *. apply NoDup_remove_1 in Ind. exact Ind.
    + rewrite !factive_app in *. cbn [factive fexit] in *. lia.
    + exact Ip.
    + exact Il.
    + intros r0 Hr0 N. destruct (Z.eq_dec r0 r) as [->|Nr]; [split; [eauto|]; exists fuse, wb; auto|]. apply Id; auto. rewrite todo_mid in *. cbn [wrows app] in *.
      intros Q. apply N. apply in_app_or in Q. apply in_or_app. destruct Q as [Q|[Q|Q]]; auto. congruence.
Qed.

Lemma fengine_rows : forall m0 c m, fj_nRows j * w <= zlen m0 -> fsteps j (finitial j m0) c -> freturned c m ->
  forall r, 0 <= r < fj_nRows j -> row_done r m.
Proof.
  intros m0 c m Hl H (cl & wg & ws & ->) r Hr.
  assert (I0 : match finitial j m0 with FRunning s => finv s | FCrashed _ => True end).
  { cbn. constructor; cbn; auto.
    - apply zrange_NoDup.
    - intros r0 Hr0 N. destruct N. apply in_zrange. exact Hr0. }
  assert (G : forall c1 c2, fsteps j c1 c2 -> match c1 with FRunning s => finv s | FCrashed _ => True end -> match c2 with FRunning s => finv s | FCrashed _ => True end).
  { intros c1 c2 S. induction S as [|c1 c2 c3 S1 S2 IH]; auto. intros X. apply IH. destruct c1 as [s|]; [eapply fstep_inv; eauto|inversion S1]. }
  pose proof (G _ _ H I0) as [Iw Ind Ig Ip Il Id]. cbn in *. unfold fpc_ok in Ip. cbn in Ip. apply Id; auto. unfold todo. cbn.
  rewrite factive_zero by congruence. rewrite zrange_nil by lia. auto.
Qed.

(** the loop of a single-threaded call *)
Lemma frun_window : forall r rest m m', 0 <= r < fj_nRows j -> fj_nRows j * w <= zlen m -> Forall (fin w) rest -> may_run (map (fshift (r * w)) rest) m m' ->
  may_run rest (window w r m) (window w r m') /\ (forall r', 0 <= r' < fj_nRows j -> r <> r' -> window w r' m' = window w r' m).
Proof.
  destruct J as (_ & _ & _ & Jw & _).
  intros r rest. induction rest as [|c rest IH]; intros m m' Hr Hl F H; cbn [map] in H.
  - inversion H; subst. split; [constructor|auto].
  - inversion H as [|? ? i f one x ? m1 ? U G E H2]; subst. inversion F as [|? ? Fc Fr]; subst. rewrite fupd_shift in U. unfold fin in Fc.
    destruct (fupd c) as [[i0 f0]|] eqn:U0; [|discriminate]. injection U as <- <-.
    destruct (IH m1 m' Hr) as [A B]; auto; [rewrite (zset_len _ _ _ _ _ E); auto|]. split.
    + eapply mr_cons; [exact U0| | |exact A].
      * rewrite window_get by lia. exact G.
      * apply window_set; [exact Jw|lia|nia|exact Fc|exact E].
    + intros r' Hr' N. rewrite B by auto. eapply window_other; [exact Jw|lia|exact N|nia|exact Fc|exact E].
Qed.

Lemma fsingle_rows : forall fuse rows l m m', NoDup rows -> (forall r, In r rows -> 0 <= r < fj_nRows j) -> fresh l -> fj_nRows j * w <= zlen m ->
  exec_rows_fused fuse (fj_row j) rows l m = Ok m' ->
  (forall r, In r rows -> row_done r m') /\ (forall r', 0 <= r' < fj_nRows j -> ~ In r' rows -> window w r' m' = window w r' m).
Proof.
  pose proof J as (J1 & J2 & J3 & Jw & _).
  intros fuse rows. induction rows as [|r rows IH]; intros l m m' N R F Hl H; cbn [exec_rows_fused] in H.
  - injection H as <-. split; [intros r []|auto].
  - inversion N as [|? ? N1 N2]; subst. apply bind_ok in H. destruct H as (m1 & H1 & H). pose proof (R r (or_introl eq_refl)) as Hr.
    destruct (J2 (fuse r) l r F Hr) as [E F']. rewrite E in H1. apply fexec_may in H1.
    destruct (frun_window r _ m m1 Hr Hl (J3 (fuse r) r Hr) H1) as [A B].
    destruct (IH _ m1 m' N2 (fun r0 H0 => R r0 (or_intror H0)) F') as [C D]; auto; [rewrite (may_len _ _ _ H1); auto|]. split.
    + intros r0 [<-|H0]; [|auto]. split; [eauto|]. exists (fuse r), (window w r m). split; [apply window_len; nia|]. rewrite D by auto. exact A.
    + intros r' Hr' N'. rewrite D by (auto; intros X; apply N'; right; exact X). apply B; auto. intros <-. apply N'. left. reflexivity.
Qed.
End Engine.

(** ** The commands of a row *)
Lemma fshift_of : forall A d (x : outcome A) k, fshift d (fcmd_of x k) = fcmd_of x (fun a => fshift d (k a)).
Proof. intros A d [a|m|m|] k; reflexivity. Qed.
Lemma fcmd_of_ext : forall A (x : outcome A) k k', (forall a, k a = k' a) -> fcmd_of x k = fcmd_of x k'.
Proof. intros A [a|m|m|] k k' H; cbn [fcmd_of]; auto. Qed.
Lemma fused_shift : forall p b fv n s, b_fused p b fv n s = map (fshift s) (b_fused p b fv n 0).
Proof.
  intros p b fv n s. induction b as [e|e|e|b IH t]; cbn [b_fused]; [| | |exact IH].
  - unfold lg_fused. rewrite map_app, map_map. f_equal. rewrite map_flat_map. apply flat_map_same. intros i.
    rewrite map_map. apply map_ext. intros k. rewrite fshift_of. apply fcmd_of_ext. intros a. cbn. f_equal; lia.
  - unfold xg_fused. rewrite map_app, map_map. f_equal. rewrite map_flat_map. apply flat_map_same. intros i.
    rewrite map_map. apply map_ext. intros k. cbv zeta. rewrite fshift_of. apply fcmd_of_ext. intros a. cbn. f_equal; lia.
  - unfold xl_fused. rewrite map_flat_map. apply flat_map_same. intros k. cbn [map]. f_equal.
    + rewrite fshift_of. apply fcmd_of_ext. intros a. cbn. f_equal; f_equal; lia.
    + rewrite map_map. apply map_ext. intros i. rewrite fshift_of. apply fcmd_of_ext. intros a. cbn. f_equal; lia.
Qed.
Lemma shift_FCmd : forall s l, map FCmd (shift s l) = map (fshift s) (map FCmd l).
Proof. intros s l. unfold shift. rewrite !map_map. reflexivity. Qed.
Lemma fused_cmds_shift : forall fuse p e fv n s, fused_cmds fuse p e fv n s = map (fshift s) (fused_cmds fuse p e fv n 0).
Proof.
  intros fuse p e fv n s. unfold fused_cmds. destruct (_ =? TypeRaw); [apply fused_shift|].
  destruct (_ =? TypeLeafIndex); [rewrite leafs_shift; apply shift_FCmd|]. rewrite <- shift_FCmd. f_equal.
  rewrite shift_cmds_of. apply cmds_of_ext. intros raw. pose proof (transform_shift p (eTransform e) raw s) as H.
  destruct (Transform_t p (eTransform e) raw s), (Transform_t p (eTransform e) raw 0); cbn; try tauto. congruence.
Qed.

Lemma fin_plain : forall w cs, within 0 w (map plain cs) -> Forall (fin w) cs.
Proof.
  intros w cs H. unfold within in H. rewrite Forall_map in H. eapply Forall_impl; [|exact H]. intros c. unfold cell_in, fin.
  destruct c as [c|i x y]; cbn [plain fupd cmd_upd]; [destruct (cmd_upd c) as [[i f]|]; auto|auto].
Qed.
Lemma plain_FCmd : forall cs, map plain (map FCmd cs) = cs.
Proof. intros cs. rewrite map_map. apply map_id. Qed.

Lemma fused_cmds_in : forall fuse p e fv n, well_formed e -> usable e n -> Forall (fin (NOutputGroups e)) (fused_cmds fuse p e fv n 0).
Proof.
  intros fuse p e fv n Hwf Hu. apply fin_plain. pose proof (piat_within p e fv n Hwf Hu) as W.
  unfold fused_cmds, predictInnerAndTransform in *.
  destruct (_ =? TypeRaw) eqn:ER; [rewrite plain_fused; exact W|]. destruct (_ =? TypeLeafIndex) eqn:EL; [rewrite plain_FCmd; exact W|]. clear W.
  rewrite plain_FCmd. apply within_cmds_of. intros raw _. unfold NOutputGroups. destruct Hwf as (_ & Ht & _).
  destruct (eTransform e) as [q| |q|q|] eqn:E; try discriminate; cbn [Transform_t NOutputGroups_t].
  - destruct (negb _); [constructor|]. destruct (at_cases _ raw 0) as [(x & H & _)|(m0 & H)]; rewrite H; cbn; repeat constructor; unfold cell_in; cbn; lia.
  - destruct (negb (zlen raw =? q)) eqn:El; [constructor|]. unfold SoftmaxFloat64Slice. apply within_app. split.
    + apply within_map. intros iv Hiv. apply in_combine_zseq in Hiv. unfold cell_in. cbn. lia.
    + destruct (negb (feq _ _)); [|constructor]. apply within_map. intros i Hi. apply in_zrange in Hi. unfold cell_in. cbn. lia.
  - destruct (negb _); [constructor|]. destruct (at_cases _ raw 0) as [(x & H & _)|(m0 & H)]; rewrite H; cbn; repeat constructor; unfold cell_in; cbn; lia.
Qed.

(** ** What was in the slice before has no influence *)
Lemma may_det : forall fuse cs S m1 m2 m1', fexec fuse cs m1 = Ok m1' -> zlen m1 <= zlen m2 -> defined S (map plain cs) -> (forall k, S k -> zget m1 k = zget m2 k) ->
  exists m2', fexec fuse cs m2 = Ok m2' /\ forall k, (S k \/ assigned (map plain cs) k) -> zget m1' k = zget m2' k.
Proof.
  intros fuse cs. induction cs as [|c cs IH]; intros S m1 m2 m1' H Hl D E.
  - injection H as <-. exists m2. split; [reflexivity|]. intros k [Hk|[v []]]. auto.
  - assert (X : forall i v b1 (T : Z -> Prop), zset m1 i v = Some b1 -> fexec fuse cs b1 = Ok m1' -> defined T (map plain cs) -> (forall k, T k -> k = i \/ S k) ->
      exists b2 m2', zset m2 i v = Some b2 /\ fexec fuse cs b2 = Ok m2' /\ forall k, (T k \/ assigned (map plain cs) k) -> zget m1' k = zget m2' k).
    { intros i v b1 T Z1 H1 D1 HT. pose proof (zset_range _ _ _ _ _ Z1) as R. destruct (zset_some _ m2 i v) as [b2 Z2]; [lia|].
      destruct (IH T b1 b2 m1' H1) as (m2' & F & G); auto.
      - rewrite (zset_len _ _ _ _ _ Z1), (zset_len _ _ _ _ _ Z2). exact Hl.
      - intros k Hk. destruct (Z.eq_dec k i) as [->|N]; [rewrite (zset_get_same _ _ _ _ _ Z1), (zset_get_same _ _ _ _ _ Z2); reflexivity|].
        rewrite (zset_get_other _ _ _ _ _ k Z1), (zset_get_other _ _ _ _ _ k Z2) by auto. apply E. destruct (HT k Hk); [congruence|auto].
      - eauto. }
    assert (Y : forall i v a, In (CSet i v) (a :: map plain cs) -> a <> CSet i v -> assigned (map plain cs) i).
    { intros i v a [->|Q] N; [congruence|]. exists v. exact Q. }
    destruct c as [[i v|i v|i v|s|]|i x y]; cbn [fexec exec1 map plain defined] in *; try discriminate.
    + apply bind_ok in H. destruct H as (b1 & H1 & H). apply set_at_ok in H1. destruct (X i v b1 _ H1 H D) as (b2 & m2' & Z2 & F & G); [auto|].
      exists m2'. split; [apply set_at_ok in Z2; rewrite Z2; exact F|]. intros k [Hk|[u Hu]]; [apply G; auto|]. apply G.
      destruct Hu as [Hu|Hu]; [injection Hu as -> ->; auto|]. right. exists u. exact Hu.
    + destruct D as [D1 D2]. apply bind_ok in H. destruct H as (b1 & H1 & H). apply bind_ok in H1. destruct H1 as (a & A & H1). apply set_at_ok in H1.
      destruct (X i _ b1 S H1 H D2) as (b2 & m2' & Z2 & F & G); [auto|]. exists m2'. split.
      * apply at_ok in A. rewrite E in A by exact D1. apply at_ok in A. rewrite A. cbn [bind]. apply set_at_ok in Z2. rewrite Z2. exact F.
      * intros k [Hk|[u Hu]]; apply G; [auto|right; eapply Y; [exact Hu|discriminate]].
    + destruct D as [D1 D2]. apply bind_ok in H. destruct H as (b1 & H1 & H). apply bind_ok in H1. destruct H1 as (a & A & H1). apply set_at_ok in H1.
      destruct (X i _ b1 S H1 H D2) as (b2 & m2' & Z2 & F & G); [auto|]. exists m2'. split.
      * apply at_ok in A. rewrite E in A by exact D1. apply at_ok in A. rewrite A. cbn [bind]. apply set_at_ok in Z2. rewrite Z2. exact F.
      * intros k [Hk|[u Hu]]; apply G; [auto|right; eapply Y; [exact Hu|discriminate]].
    + destruct D as [D1 D2]. apply bind_ok in H. destruct H as (a & A & H). apply bind_ok in H. destruct H as (b1 & H1 & H). apply set_at_ok in H1.
      destruct (X i _ b1 S H1 H D2) as (b2 & m2' & Z2 & F & G); [auto|]. exists m2'. split.
      * apply at_ok in A. rewrite E in A by exact D1. apply at_ok in A. rewrite A. cbn [bind]. apply set_at_ok in Z2. rewrite Z2. exact F.
      * intros k [Hk|[u Hu]]; apply G; [auto|right; eapply Y; [exact Hu|discriminate]].
Qed.

Lemma fexec_plain_runs : forall fuse cs m m', fexec fuse cs m = Ok m' -> exists m2, exec (map plain cs) m = Ok m2.
Proof.
  intros fuse cs m m' H. apply exec_runs. apply fexec_may in H. induction H as [|c cs i f one x m m1 m2 U G E H IH]; [constructor|]. cbn [map]. constructor.
  - apply zget_range in G. destruct c as [c|i0 a b]; cbn [fupd plain] in *.
    + destruct (cmd_upd c) as [[i1 f1]|] eqn:Uc; [|discriminate]. injection U as <- <-. exists i1, f1. auto.
    + injection U as <- <-. exists i0, (fun y => fadd y (fmul a b)). auto.
  - rewrite (zset_len _ _ _ _ _ E) in IH. exact IH.
Qed.

Lemma fused_defined : forall fuse g p e fv n m m', well_formed e -> usable e n -> arity_accepted e -> fexec g (fused_cmds fuse p e fv n 0) m = Ok m' ->
  defined (fun _ => False) (map plain (fused_cmds fuse p e fv n 0)) /\
  forall k, 0 <= k < NOutputGroups e -> assigned (map plain (fused_cmds fuse p e fv n 0)) k.
Proof.
  intros fuse g p e fv n m m' Hwf Hu Hacc H. destruct (fexec_plain_runs _ _ _ _ H) as [m2 H2]. clear H m'.
  pose proof (piat_defined p e fv n m m2 Hwf Hu Hacc) as W. unfold fused_cmds, predictInnerAndTransform in *.
  destruct (_ =? TypeRaw) eqn:ER; [rewrite plain_fused in *; auto|]. destruct (_ =? TypeLeafIndex) eqn:EL; [rewrite plain_FCmd in *; auto|]. clear W.
  rewrite plain_FCmd in *. destruct (let* raw := make_f64 p (NRawOutputGroups e) in _) as [raw|s|s|] eqn:Er; cbn [cmds_of] in *; try discriminate.
  apply bind_ok in Er. destruct Er as (raw0 & Mk & Er). apply make_ok in Mk. apply fexec_may, may_len in Er. destruct Hwf as (Hg & Ht & _).
  unfold NOutputGroups, arity_accepted in *. destruct (eTransform e) as [q| |q|q|] eqn:E; try discriminate; cbn [Transform_t NOutputGroups_t] in *.
  - replace (zlen raw) with 1 in * by lia. cbn in *.
    destruct (at_cases _ raw 0) as [(x & Hx0 & _)|(m0 & Hx0)]; rewrite Hx0 in *; cbn in *; [|discriminate].
    split; auto. intros i Hi. exists (Sigmoid p x). left. f_equal. lia.
  - assert (El : zlen raw =? q = true) by lia. rewrite El in *. cbn [negb] in *. unfold SoftmaxFloat64Slice in *. split.
    + apply defined_app.
      * apply (defined_sets _ (fun iv => (0 + fst iv, pl_exp p (snd iv)))).
      * destruct (negb (feq _ _)); [|exact I]. apply defined_all. intros c Hc. apply in_map_iff in Hc.
        destruct Hc as (i & <- & Hi). apply in_zrange in Hi. left. apply combine_assigned with (f := pl_exp p). lia.
    + intros i Hi. apply assigned_app_l. apply combine_assigned with (f := pl_exp p). lia.
  - replace (zlen raw) with 1 in * by lia. cbn in *.
    destruct (at_cases _ raw 0) as [(x & Hx0 & _)|(m0 & Hx0)]; rewrite Hx0 in *; cbn in *; [|discriminate].
    split; auto. intros i Hi. exists (pl_exp p x). left. f_equal. lia.
Qed.

(** one choice for the private slice and one for the commands are one choice of the call *)
Lemma one_choice : forall fuse g p e fv n m m', fexec g (fused_cmds fuse p e fv n 0) m = Ok m' ->
  exists f, predictInnerAndTransform_fused f p e fv n m = Ok m'.
Proof.
  intros fuse g p e fv n m m' H. unfold fused_cmds, predictInnerAndTransform_fused in *.
  destruct (_ =? TypeRaw); [exists g; exact H|]. exists fuse. destruct (_ =? TypeLeafIndex); apply fexec_may, may_exec in H; exact H.
Qed.

Lemma row_alone : forall p e fv nE n fuse wb m i, well_formed e -> usable e n -> arity_accepted e -> 0 <= i -> (i + 1) * NOutputGroups e <= zlen m ->
  b_adjustNEstimators (eBase e) nE = Ok n -> checkNEstimators e n = Ok tt -> NFeatures e <= zlen fv ->
  zlen wb = NOutputGroups e -> may_run (fused_cmds fuse p e fv n 0) wb (window (NOutputGroups e) i m) ->
  forall out, NOutputGroups e <= zlen out <= MaxInt -> exists f out', Predict_fused f p e fv nE out = Ok out' /\ holds_row m (NOutputGroups e) i out'.
Proof.
  intros p e fv nE n fuse wb m i Hwf Hu Hacc Hi Hl Ha Hc Hf Lw H out Hout. pose proof (wf_NOG e Hwf) as Hg. apply may_fexec in H. destruct H as [g H].
  destruct (fused_defined _ _ _ _ _ _ _ _ Hwf Hu Hacc H) as [D A].
  destruct (may_det g _ (fun _ => False) wb out _ H ltac:(lia) D ltac:(tauto)) as (out' & F & G).
  destruct (one_choice _ _ _ _ _ _ _ _ F) as [f E]. exists f, out'. split.
  - unfold Predict_fused. rewrite Z.mul_1_r, s64_id by (unfold MaxInt, two63 in *; lia).
    destruct (Z.ltb_spec (zlen out) (NOutputGroups e)); [lia|]. destruct (Z.ltb_spec (zlen fv) (NFeatures e)); [lia|].
    rewrite Ha. cbn [bind]. rewrite Hc. exact E.
  - intros k Hk. rewrite <- G by (right; apply A; exact Hk). symmetry. apply window_get; lia.
Qed.

Lemma fsteps_len : forall L (j : fjob L) m0 c m, fsteps j (finitial j m0) c -> freturned c m -> zlen m = zlen m0.
Proof.
  intros L j m0 c m H (cl & wg & ws & ->).
  assert (G : forall c1 c2, fsteps j c1 c2 -> match c1, c2 with FRunning s1, FRunning s2 => zlen (fs_mem s2) = zlen (fs_mem s1) | _, _ => True end).
  { intros c1 c2 S. induction S as [[s|]|c1 c2 c3 S1 S2 IH]; auto. destruct c1 as [s1|]; auto. destruct c3 as [s3|]; auto. destruct c2 as [s2|].
    - rewrite IH. inversion S1; subst; try reflexivity. cbn [fs_mem].
      match goal with X : fcmd_step _ _ _ _ = Ok _ |- _ => destruct (fstep_spec _ _ _ _ _ _ _ _ X) as [(i & f & b & x & _ & _ & Z1 & _)|[(i & f & a & _ & _ & _ & _ & ->)|(_ & _ & ->)]] end; auto.
      eapply zset_len; eauto.
    - inversion S2 as [|? ? ? S3]; subst. inversion S3. }
  exact (G _ _ H).
Qed.
