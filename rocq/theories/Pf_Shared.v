(** * Input and output slices that share memory: proofs *)

From Coq Require Import ZArith List Bool String Lia ZifyBool.
From Verif Require Import Go GoFloat Cmd UtilBits UtilMath LgTree Transformation Ensembles Leaves Parallel Concurrent Shared
  Spec_Predict Spec_Shared Pf_Go Pf_Cmd Pf_Exec Pf_Leaves Pf_Parallel Pf_Calls Pf_Rows Pf_Concurrent.
Local Open Scope Z_scope.

(** ** Memory *)
Lemma zget_splice_in : forall mem off len w k, fits mem off len -> zlen w = len -> 0 <= k < len ->
  zget (splice mem off len w) (off + k) = zget w k.
Proof.
  intros mem off len w k (A & B & C) D Hk. unfold splice.
  assert (E : zlen (firstn (Z.to_nat off) mem) = off) by (unfold zlen in *; rewrite firstn_length; lia).
  rewrite zget_app_r by lia. rewrite E. rewrite zget_app_l by lia. f_equal. lia.
Qed.
Lemma splice_window : forall mem off len, fits mem off len -> splice mem off len (window mem off len) = mem.
Proof.
  intros mem off len F. pose proof (window_zlen _ _ _ F) as W.
  apply zget_ext; [apply splice_zlen; auto|]. intros k Hk. rewrite splice_zlen in Hk by auto.
  destruct (Z_lt_le_dec k off); [apply zget_splice_out; auto|].
  destruct (Z_lt_le_dec k (off + len)); [|apply zget_splice_out; auto].
  replace k with (off + (k - off)) by lia. rewrite zget_splice_in by (auto; lia). apply zget_window; auto; lia.
Qed.
Lemma splice_splice : forall mem off len w w', fits mem off len -> zlen w = len -> zlen w' = len ->
  splice (splice mem off len w) off len w' = splice mem off len w'.
Proof.
  intros mem off len w w' F W W'.
  assert (Z1 : zlen (splice mem off len w) = zlen mem) by (apply splice_zlen; auto).
  assert (F2 : fits (splice mem off len w) off len) by (unfold fits in *; rewrite Z1; auto).
  apply zget_ext; [rewrite !splice_zlen; auto|]. intros k Hk. rewrite splice_zlen, Z1 in Hk by auto.
  destruct (Z_lt_le_dec k off); [rewrite !zget_splice_out by auto; reflexivity|].
  destruct (Z_lt_le_dec k (off + len)); [|rewrite !zget_splice_out by auto; reflexivity].
  replace k with (off + (k - off)) by lia. rewrite !zget_splice_in by (auto; lia). reflexivity.
Qed.

(** memory [b] is [a] with the cells [lo .. hi-1] perhaps changed *)
Definition changed_in (a b : list f64) (lo hi : Z) : Prop :=
  zlen b = zlen a /\ forall k, ~ (lo <= k < hi) -> zget b k = zget a k.

Lemma changed_window : forall a b lo hi off len, changed_in a b lo hi -> fits a off len ->
  off + len <= lo \/ hi <= off -> window b off len = window a off len.
Proof.
  intros a b lo hi off len [L C] F D.
  assert (F2 : fits b off len) by (unfold fits in *; rewrite L; auto).
  apply zget_ext; [rewrite !window_zlen; auto|]. intros k Hk. rewrite window_zlen in Hk by auto.
  rewrite !zget_window by auto. apply C. lia.
Qed.
Lemma splice_changed : forall mem off len w lo hi, fits mem off len -> zlen w = len ->
  (forall k, ~ (lo <= k < hi) -> zget w k = zget (window mem off len) k) ->
  changed_in mem (splice mem off len w) (off + lo) (off + hi).
Proof.
  intros mem off len w lo hi F W H. split; [apply splice_zlen; auto|]. intros k Hk.
  destruct (Z_lt_le_dec k off); [apply zget_splice_out; auto|].
  destruct (Z_lt_le_dec k (off + len)); [|apply zget_splice_out; auto].
  replace k with (off + (k - off)) by lia. rewrite zget_splice_in by (auto; lia).
  rewrite H by lia. apply zget_window; auto; lia.
Qed.
Lemma changed_trans : forall a b c lo hi lo' hi' l h, changed_in a b lo hi -> changed_in b c lo' hi' ->
  (lo < hi -> l <= lo /\ hi <= h) -> (lo' < hi' -> l <= lo' /\ hi' <= h) -> changed_in a c l h.
Proof.
  intros a b c lo hi lo' hi' l h [L1 C1] [L2 C2] H H'. split; [lia|]. intros k Hk. rewrite C2, C1; auto; intro; apply Hk; lia.
Qed.

(** ** The accesses of one call *)
Lemma exec_s_spec : forall cs foff flen poff plen lo hi mem,
  fits mem foff flen -> fits mem poff plen ->
  within lo hi (map (fun c => c (window mem foff flen)) cs) ->
  foff + flen <= poff + lo \/ poff + hi <= foff ->
  exec_s foff flen poff plen cs mem =
  let* w := exec (map (fun c => c (window mem foff flen)) cs) (window mem poff plen) in
  Ok (splice mem poff plen w).
Proof.
  induction cs as [|c cs IH]; intros foff flen poff plen lo hi mem Ff Fp W D.
  - cbn. rewrite splice_window by auto. reflexivity.
  - cbn [map exec_s exec]. inversion W as [|? ? W1 W2]; subst.
    destruct (exec1 (c (window mem foff flen)) (window mem poff plen)) as [w|s|s|] eqn:E; cbn [bind]; auto.
    assert (Lw : zlen w = plen) by (rewrite (exec1_len _ _ _ E); apply window_zlen; auto).
    assert (C : changed_in mem (splice mem poff plen w) (poff + lo) (poff + hi)).
    { apply splice_changed; auto. intros k Hk. eapply exec1_frame; eauto. }
    pose proof (changed_window _ _ _ _ _ _ C Ff D) as EW.
    assert (Lm : zlen (splice mem poff plen w) = zlen mem) by (apply splice_zlen; auto).
    rewrite (IH foff flen poff plen lo hi); try (unfold fits in *; rewrite Lm; auto; fail); try rewrite EW; auto.
    rewrite window_splice by auto.
    destruct (exec (map _ cs) w) as [w'|s|s|] eqn:E'; cbn [bind]; auto.
    f_equal. apply splice_splice; auto. rewrite (exec_len _ _ _ E'). auto.
Qed.

Lemma map_flat_map : forall {A B C} (f : B -> C) (g : A -> list B) l, map f (flat_map g l) = flat_map (fun x => map f (g x)) l.
Proof. intros A B C f g l. induction l; cbn; auto. rewrite map_app, IHl. reflexivity. Qed.

Lemma inner_s : forall p b n s fv, map (fun c => c fv) (b_predictInner_s p b n s) = b_predictInner p b fv n s.
Proof.
  induction b as [e|e|e|b IH t]; intros n s fv; cbn [b_predictInner_s b_predictInner]; auto.
  - unfold lg_predictInner_s, lg_predictInner. rewrite map_app, map_map, map_flat_map. f_equal.
    apply flat_map_ext. intros i. apply map_map.
  - unfold xg_predictInner_s, xg_predictInner. rewrite map_app, map_map, map_flat_map. f_equal.
    apply flat_map_ext. intros i. apply map_map.
  - unfold xl_predictInner_s, xl_predictInner. rewrite map_flat_map.
    apply flat_map_ext. intros i. cbn [map]. f_equal. apply map_map.
Qed.
Lemma leaf_s : forall p b n s fv, map (fun c => c fv) (b_predictLeafIndicesInner_s p b n s) = b_predictLeafIndicesInner p b fv n s.
Proof.
  induction b as [e|e|e|b IH t]; intros n s fv; cbn [b_predictLeafIndicesInner_s b_predictLeafIndicesInner]; auto;
    unfold trees_predictLeafIndicesInner_s, trees_predictLeafIndicesInner; rewrite map_app, map_map, map_flat_map; f_equal;
    apply flat_map_ext; intros i; apply map_map.
Qed.

Lemma exec_cmds_of : forall A (x : outcome A) k m, (forall s, x <> Err s) ->
  exec (cmds_of x k) m = let* a := x in exec (k a) m.
Proof. intros A [a|s|s|] k m H; cbn; auto. destruct (H s). reflexivity. Qed.

Lemma piat_within_at : forall p e fv n s, well_formed e -> usable e n ->
  within s (s + NOutputGroups e) (predictInnerAndTransform p e fv n s).
Proof.
  intros p e fv n s Hwf Hu. rewrite piat_shift. replace s with (s + 0) at 1 by lia.
  apply within_shift. apply piat_within; auto.
Qed.

Lemma piat_s_spec : forall p e foff flen n poff plen s mem, well_formed e -> usable e n ->
  fits mem foff flen -> fits mem poff plen ->
  (builds_in_output e -> apart_cells foff (foff + flen) (poff + s) (poff + s + NOutputGroups e)) ->
  predictInnerAndTransform_s p e foff flen n poff plen s mem =
  let* w := exec (predictInnerAndTransform p e (window mem foff flen) n s) (window mem poff plen) in
  Ok (splice mem poff plen w).
Proof.
  intros p e foff flen n poff plen s mem Hwf Hu Ff Fp D.
  pose proof (piat_within_at p e (window mem foff flen) n s Hwf Hu) as W.
  unfold predictInnerAndTransform_s, predictInnerAndTransform, builds_in_output, apart_cells in *.
  assert (Last : forall t, exec (cmds_of (let* raw := make_f64 p (NRawOutputGroups e) in
             exec (b_predictInner p (eBase e) (window mem foff flen) n 0) raw)
      (fun raw => match Transform_t p t raw s with Ok cs => cs | Err _ => [] | Panic m => [CPanic m] | Hang => [CHang] end)) (window mem poff plen) =
      let* raw := make_f64 p (NRawOutputGroups e) in
      let* raw := exec (b_predictInner p (eBase e) (window mem foff flen) n 0) raw in
      match Transform_t p t raw s with Ok cs => exec cs (window mem poff plen) | Err _ => Ok (window mem poff plen) | Panic m => Panic m | Hang => Hang end).
  { intros t. rewrite exec_cmds_of.
    - destruct (make_f64 p (NRawOutputGroups e)) as [raw|m|m|]; cbn [bind]; auto.
      destruct (exec _ raw) as [raw'|m|m|]; cbn [bind]; auto. destruct (Transform_t p t raw' s); reflexivity.
    - intros m H. unfold make_f64 in H. destruct (_ || _); [discriminate|]. cbn [bind] in H. eapply exec_not_err; eauto. }
  destruct (eTransform e) as [m| |m|m|] eqn:Et; cbn [Type_t] in *;
    try (change (TypeLogistic =? TypeRaw) with false in *; change (TypeLogistic =? TypeLeafIndex) with false in *);
    try (change (TypeSoftmax =? TypeRaw) with false in *; change (TypeSoftmax =? TypeLeafIndex) with false in *);
    try (change (TypeExponential =? TypeRaw) with false in *; change (TypeExponential =? TypeLeafIndex) with false in *);
    try (change (TypeLeafIndex =? TypeRaw) with false in *; change (TypeLeafIndex =? TypeLeafIndex) with true in *);
    try (change (TypeRaw =? TypeRaw) with true in *); cbv iota in *.
  all: try (rewrite Last; destruct (make_f64 p (NRawOutputGroups e)) as [raw|msg|msg|]; cbn [bind]; auto;
    destruct (exec _ raw) as [raw'|msg|msg|]; cbn [bind]; auto; destruct (Transform_t p _ raw' s); cbn [bind]; auto;
    rewrite splice_window by auto; reflexivity).
  - rewrite <- inner_s. rewrite <- inner_s in W. eapply exec_s_spec; eauto. destruct (D I); lia.
  - rewrite <- leaf_s. rewrite <- leaf_s in W. eapply exec_s_spec; eauto. destruct (D I); lia.
Qed.

(** ** Rows *)
Lemma rows_s : forall S (rs : S -> Z -> outcome S) (mk : list f64 -> S) (rowc : Z -> list cmd) w poff plen mem0,
  0 <= w -> fits mem0 poff plen ->
  forall k a, 
  (forall i mem, Z.of_nat a <= i < Z.of_nat a + Z.of_nat k -> changed_in mem0 mem poff (poff + i * w) ->
     rs (mk mem) i = let* x := exec (rowc i) (window mem poff plen) in Ok (mk (splice mem poff plen x))) ->
  (forall i, Z.of_nat a <= i < Z.of_nat a + Z.of_nat k -> within (i * w) (i * w + w) (rowc i)) ->
  forall mem, changed_in mem0 mem poff (poff + Z.of_nat a * w) ->
  foldM rs (map Z.of_nat (seq a k)) (mk mem) =
  let* x := exec (flat_map rowc (map Z.of_nat (seq a k))) (window mem poff plen) in Ok (mk (splice mem poff plen x)).
Proof.
  intros S rs mk rowc w poff plen mem0 Hw F. induction k as [|k IH]; intros a Hr Hin mem C.
  - cbn. rewrite splice_window; [reflexivity|]. unfold fits in *. destruct C as [L _]. rewrite L. auto.
  - assert (Fm : fits mem poff plen) by (unfold fits in *; destruct C as [L _]; rewrite L; auto).
    cbn [seq map foldM flat_map]. rewrite (Hr (Z.of_nat a) mem ltac:(lia) C), exec_app.
    destruct (exec (rowc (Z.of_nat a)) (window mem poff plen)) as [x|s|s|] eqn:E; cbn [bind]; auto.
    assert (Lx : zlen x = plen) by (rewrite (exec_len _ _ _ E); apply window_zlen; auto).
    assert (C1 : changed_in mem (splice mem poff plen x) (poff + Z.of_nat a * w) (poff + (Z.of_nat a * w + w))).
    { apply splice_changed; auto. intros j Hj. eapply exec_frame; [|exact E|exact Hj]. apply Hin. lia. }
    rewrite IH.
    + rewrite window_splice by auto.
      destruct (exec (flat_map _ _) x) as [y|s|s|] eqn:E'; cbn [bind]; auto.
      rewrite splice_splice; auto. rewrite (exec_len _ _ _ E'). auto.
    + intros i m Hi Hc. apply Hr; auto. lia.
    + intros i Hi. apply Hin. lia.
    + eapply changed_trans; [exact C|exact C1| |]; nia.
Qed.

Lemma window_window : forall mem off len lo n, fits mem off len -> 0 <= lo -> 0 <= n -> lo + n <= len ->
  firstn (Z.to_nat n) (skipn (Z.to_nat lo) (window mem off len)) = window mem (off + lo) n.
Proof.
  intros mem off len lo n F Hlo Hn Hb. pose proof (window_zlen _ _ _ F) as W.
  change (window (window mem off len) lo n = window mem (off + lo) n).
  assert (F1 : fits (window mem off len) lo n) by (unfold fits; rewrite W; lia).
  assert (F2 : fits mem (off + lo) n) by (unfold fits in *; lia).
  apply zget_ext; [rewrite !window_zlen; auto|]. intros k Hk. rewrite window_zlen in Hk by auto.
  rewrite (zget_window _ lo) by auto. rewrite !zget_window by (auto; lia). f_equal. lia.
Qed.

Lemma dense_single_s_spec : forall p e voff vcap nrows ncols n poff plen mem, well_formed e -> usable e n ->
  NOutputGroups e * nrows <= MaxInt -> 0 <= nrows -> 0 < ncols -> zlen mem <= MaxInt ->
  in_memory mem voff vcap -> in_memory mem poff plen -> nrows * ncols <= vcap ->
  dense_apart e voff ncols nrows poff ->
  dense_single_s p e voff vcap nrows ncols n poff plen mem =
  let* w := dense_single p e (window mem voff vcap) nrows ncols (window mem poff plen) n in Ok (splice mem poff plen w).
Proof.
  intros p e voff vcap nrows ncols n poff plen mem Hwf Hu Hprod Hn Hc Hm Fv Fp Hv D.
  pose proof (wf_NOG e Hwf) as Hg. pose proof (window_zlen _ _ _ Fv) as Wv.
  rewrite dense_single_flat. unfold dense_single_s, zseq.
  apply (rows_s _ _ (fun m => m) _ (NOutputGroups e) poff plen mem); auto.
  - intros i m Hi C. assert (Hi' : 0 <= i < nrows) by lia. destruct (D i Hi') as [D1 D2]. unfold apart_cells in *.
    assert (B1 : s64 (i * ncols) = i * ncols) by (apply s64_id; unfold fits, in_memory, MaxInt, two63 in *; nia).
    assert (B2 : s64 ((i + 1) * ncols) = (i + 1) * ncols) by (apply s64_id; unfold fits, in_memory, MaxInt, two63 in *; nia).
    unfold dense_row_s, dense_row, slice. cbv zeta. rewrite B1, B2, Wv.
    rewrite (row_start e nrows) by auto.
    destruct ((i * ncols <? 0) || ((i + 1) * ncols <? i * ncols) || (vcap <? (i + 1) * ncols)) eqn:Eb; [nia|].
    cbn [cmds_of]. rewrite window_window by (auto; nia).
    assert (Fr : fits mem (voff + i * ncols) ((i + 1) * ncols - i * ncols)) by (unfold fits, in_memory in *; nia).
    rewrite <- (changed_window _ _ _ _ _ _ C Fr) by nia.
    assert (Lm : zlen m = zlen mem) by apply C.
    apply piat_s_spec; auto; try (unfold fits, in_memory in *; rewrite Lm; auto; fail).
    intros B. specialize (D2 B). unfold apart_cells. nia.
  - intros i Hi. eapply dense_row_within; eauto. lia.
  - split; auto.
Qed.

(** ** Sparse rows *)
Lemma csr_fill_ext : forall cols (a b : list f64) l fv, zlen a = zlen b -> (forall j, In j l -> zget a j = zget b j) ->
  foldM (fun fvals j => let* c := at_ cols j in if c <? zlen fvals then let* v := at_ a j in set_at fvals c v else Ok fvals) l fv =
  foldM (fun fvals j => let* c := at_ cols j in if c <? zlen fvals then let* v := at_ b j in set_at fvals c v else Ok fvals) l fv.
Proof.
  intros cols a b l. induction l as [|j l IH]; intros fv L H; auto. cbn [foldM].
  assert (E : at_ a j = at_ b j) by (unfold at_; rewrite (H j (or_introl eq_refl)); reflexivity). rewrite E.
  destruct (at_ cols j) as [c|s|s|]; cbn [bind]; auto. destruct (c <? zlen fv); cbn [bind].
  - destruct (at_ b j) as [v|s|s|]; cbn [bind]; auto. destruct (set_at fv c v); cbn [bind]; auto. apply IH; auto. intros; apply H; right; auto.
  - apply IH; auto. intros; apply H; right; auto.
Qed.

Lemma csr_single_s_spec : forall p e indptr cols voff vlen n poff plen mem, well_formed e -> usable e n ->
  NOutputGroups e * (zlen indptr - 1) <= MaxInt ->
  in_memory mem voff vlen -> in_memory mem poff plen ->
  csr_apart e indptr voff poff ->
  csr_single_s p e indptr cols voff vlen n poff plen mem =
  let* w := csr_single p e indptr cols (window mem voff vlen) (window mem poff plen) n in Ok (splice mem poff plen w).
Proof.
  intros p e indptr cols voff vlen n poff plen mem Hwf Hu Hprod Fv Fp D.
  pose proof (wf_NOG e Hwf) as Hg. rewrite csr_single_flat. unfold csr_single_s.
  destruct (csr_buffer p e) as [l|s|s|] eqn:El; cbn [bind]; auto. apply csr_buffer_fresh in El. subst l. unfold zseq.
  rewrite (rows_s _ _ (fun m => (csr_fresh e, m)) (fun r => fst (csr_row p e indptr cols (window mem voff vlen) n (csr_fresh e) r)) (NOutputGroups e) poff plen mem); auto.
  - destruct (exec _ _); reflexivity.
  - intros i m Hi C. assert (Hi' : 0 <= i < zlen indptr - 1) by lia.
    assert (Lm : zlen m = zlen mem) by apply C.
    pose proof (csr_row_fresh p e indptr cols (window mem voff vlen) n i) as Fr.
    unfold csr_row_s. unfold csr_row in *.
    destruct (at_ indptr i) as [st|s|s|] eqn:E1; cbn [bind] in *; try (cbn; reflexivity).
    2: { unfold at_ in E1. destruct (zget indptr i); discriminate. }
    destruct (at_ indptr (i + 1)) as [en|s|s|] eqn:E2; cbn [bind] in *; try (cbn; reflexivity).
    2: { unfold at_ in E2. destruct (zget indptr (i + 1)); discriminate. }
    assert (EF : csr_fill cols (window m voff vlen) st en (csr_fresh e) = csr_fill cols (window mem voff vlen) st en (csr_fresh e)).
    { assert (Fv2 : fits m voff vlen) by (unfold fits, in_memory in *; rewrite Lm; auto).
      unfold csr_fill. apply csr_fill_ext; [rewrite !window_zlen; auto|]. intros j Hj. apply in_zrange in Hj.
      destruct (Z_lt_le_dec j 0); [rewrite !zget_neg by auto; reflexivity|].
      destruct (Z_lt_le_dec j vlen).
      2: { rewrite !zget_none by (rewrite window_zlen by auto; lia). reflexivity. }
      rewrite !zget_window by auto. apply C.
      apply at_ok in E1. apply at_ok in E2. destruct (D i st en E1 E2); lia. }
    rewrite EF. 
    destruct (csr_fill cols (window mem voff vlen) st en (csr_fresh e)) as [fv|s|s|] eqn:E3; cbn [bind fst snd] in *; try reflexivity.
    + destruct (exec _ (window m poff plen)); cbn [bind]; auto. rewrite Fr. reflexivity.
    + exfalso. unfold csr_fill in E3. clear -E3.
      revert E3. generalize (csr_fresh e). induction (zrange st en) as [|j l IH]; intros f H; [discriminate|]. cbn [foldM] in H.
      destruct (at_ cols j) as [c|?|?|] eqn:A1; cbn [bind] in H; try discriminate.
      2: { unfold at_ in A1. destruct (zget cols j); discriminate. }
      destruct (c <? zlen f); cbn [bind] in H; [|eauto].
      destruct (at_ (window mem voff vlen) j) as [v|?|?|] eqn:A2; cbn [bind] in H; try discriminate.
      2: { unfold at_ in A2. destruct (zget (window mem voff vlen) j); discriminate. }
      destruct (set_at f c v) eqn:A3; cbn [bind] in H; try discriminate; eauto.
      unfold set_at in A3. destruct (zset f c v); discriminate.
  - intros i Hi. eapply csr_row_within; eauto. lia.
  - split; auto.
Qed.
