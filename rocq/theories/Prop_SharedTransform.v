(** * C77: Transform on slices that share memory *)

From Coq Require Import ZArith List Bool String Lia ZifyBool.
From Verif Require Import Go GoFloat GoText Cmd UtilBits UtilMath LgTree Transformation Ensembles Leaves Parallel Concurrent Shared SharedTransform
  Spec_Predict Spec_Shared Pf_Go Pf_Cmd Pf_Leaves Pf_Concurrent Pf_Shared Pf_Transform Pf_Calls Pf_Exec Pf_Rows Demo Ex_Batch.
Local Open Scope Z_scope.

(** a loop whose iterations each do one access that does not depend on the raw values *)
Lemma mul_loop : forall poff plen inv l mem, fits mem poff plen ->
  foldM (fun mem i => let* w := exec1 (CMul i inv) (window mem poff plen) in Ok (splice mem poff plen w)) l mem =
  let* w := exec (map (fun i => CMul i inv) l) (window mem poff plen) in Ok (splice mem poff plen w).
Proof.
  intros poff plen inv. induction l as [|i l IH]; intros mem F; [cbn; rewrite splice_window by auto; reflexivity|].
  cbn [foldM map exec]. destruct (exec1 (CMul i inv) (window mem poff plen)) as [w|s|s|] eqn:E; cbn [bind]; auto.
  assert (Lw : zlen w = plen) by (rewrite (exec1_len _ _ _ E); apply window_zlen; auto).
  rewrite IH by (unfold fits in *; rewrite splice_zlen; auto). rewrite window_splice by auto. destruct (exec (map _ l) w) as [w'|s|s|] eqn:E'; cbn [bind]; auto.
  f_equal. apply splice_splice; auto. rewrite (exec_len _ _ _ E'). exact Lw.
Qed.

Section Loop.
  Variables (mem0 : list f64) (roff rlen poff plen start : Z) (f : f64 -> f64).
  Hypothesis Fr : fits mem0 roff rlen.
  Hypothesis Fp : fits mem0 poff plen.
  Hypothesis D : poff + start <= roff \/ roff + rlen <= poff + start.

  (** one iteration of either loop: the element read is still the original one *)
  Lemma step_s : forall a mem, 0 <= a < rlen -> changed_in mem0 mem (poff + start) (poff + start + a) ->
    zget (window mem roff rlen) a = zget (window mem0 roff rlen) a.
  Proof.
    intros a mem Ha [L C]. assert (Fr' : fits mem roff rlen) by (unfold fits in *; rewrite L; auto). rewrite !zget_window by auto. apply C. lia.
  Qed.
  Lemma step_changed : forall a mem w v, 0 <= a -> changed_in mem0 mem (poff + start) (poff + start + a) -> set_at (window mem poff plen) (start + a) v = Ok w ->
    zlen w = plen /\ changed_in mem0 (splice mem poff plen w) (poff + start) (poff + start + (a + 1)).
  Proof.
    intros a mem w v Ha C E. assert (Fp' : fits mem poff plen) by (destruct C as [L _]; unfold fits in *; rewrite L; auto).
    assert (Lw : zlen w = plen) by (rewrite (set_at_zlen _ _ _ _ _ E); apply window_zlen; auto). split; [exact Lw|].
    eapply changed_trans; [exact C|apply (splice_changed mem poff plen w (start + a) (start + a + 1) Fp' Lw)|lia|lia].
    intros k Hk. eapply (exec1_frame (CSet (start + a) v)); [|exact E|exact Hk]. cbn. lia.
  Qed.
  Lemma softmax_loop : forall suf a mem sum, (forall j, 0 <= j < zlen suf -> zget (window mem0 roff rlen) (Z.of_nat a + j) = zget suf j) -> Z.of_nat a + zlen suf = rlen ->
    changed_in mem0 mem (poff + start) (poff + start + Z.of_nat a) ->
    foldM (fun st i => let (mem, sum) := st : list f64 * f64 in
             let* v := at_ (window mem roff rlen) i in
             let* w := set_at (window mem poff plen) (start + i) (f v) in Ok (splice mem poff plen w, fadd sum (f v)))
          (map Z.of_nat (seq a (List.length suf))) (mem, sum) =
    let* w := exec (map (fun iv => CSet (start + fst iv) (f (snd iv))) (combine (map Z.of_nat (seq a (List.length suf))) suf)) (window mem poff plen) in
    Ok (splice mem poff plen w, fold_left (fun s v => fadd s (f v)) suf sum).
  Proof.
    induction suf as [|x suf IH]; intros a mem sum G L C.
    - cbn. rewrite splice_window; [reflexivity|]. destruct C as [E _]. unfold fits in *. rewrite E. auto.
    - assert (Fp' : fits mem poff plen) by (destruct C as [E _]; unfold fits in *; rewrite E; auto).
      rewrite zlen_cons in *. pose proof (zlen_nonneg _ suf). cbn [List.length seq map foldM combine exec fst snd fold_left exec1].
      unfold at_ at 1. rewrite (step_s (Z.of_nat a) mem) by (auto; lia). pose proof (G 0 ltac:(lia)) as G0. rewrite Z.add_0_r, zget_cons_0 in G0. rewrite G0. cbn [bind].
      destruct (set_at (window mem poff plen) (start + Z.of_nat a) (f x)) as [w|s|s|] eqn:E; cbn [bind]; auto.
      destruct (step_changed (Z.of_nat a) mem w (f x)) as [Lw C']; [lia|exact C|exact E|].
      rewrite IH.
      + rewrite window_splice by auto. destruct (exec (map _ _) w) as [w'|s|s|] eqn:E'; cbn [bind]; auto. rewrite splice_splice; auto. rewrite (exec_len _ _ _ E'). exact Lw.
      + intros j Hj. rewrite Nat2Z.inj_succ. replace (Z.succ (Z.of_nat a) + j) with (Z.of_nat a + (j + 1)) by lia. rewrite G by lia. rewrite zget_cons by lia. f_equal. lia.
      + lia.
      + rewrite Nat2Z.inj_succ, <- Z.add_1_r. exact C'.
  Qed.
End Loop.

Lemma foldM_ext : forall A B (f g : B -> A -> outcome B) l b, (forall b x, f b x = g b x) -> foldM f l b = foldM g l b.
Proof. induction l as [|x l IH]; intros b H; cbn [foldM]; [reflexivity|]. rewrite H. destruct (g b x); cbn [bind]; auto. Qed.

(** Transform with any overlap, unless the output runs ahead of the raw values in the memory they share: the effect is the one it has
    on separate slices with the same contents *)
Theorem C77_transform :
  forall p t mem roff rlen poff plen startIndex,
  in_memory mem roff rlen -> in_memory mem poff plen -> poff + startIndex <= roff \/ roff + rlen <= poff + startIndex ->
  Transform_s p t roff rlen poff plen startIndex mem =
  let* cs := Transform_t p t (window mem roff rlen) startIndex in
  let* w := exec cs (window mem poff plen) in Ok (splice mem poff plen w).
Proof.
  intros p t mem roff rlen poff plen start Fr Fp D.
  pose proof (window_zlen mem roff rlen Fr) as Lr.
  assert (Lz : zseq rlen = map Z.of_nat (seq 0 (List.length (window mem roff rlen)))). { unfold zseq. do 2 f_equal. unfold zlen in Lr. lia. }
  assert (C0 : changed_in mem mem (poff + start) (poff + start + Z.of_nat 0)) by (split; auto).
  assert (K : forall f sum, foldM (fun st i => let (mem, sum) := st : list f64 * f64 in
             let* v := at_ (window mem roff rlen) i in
             let* w := set_at (window mem poff plen) (start + i) (f v) in Ok (splice mem poff plen w, fadd sum (f v))) (zseq rlen) (mem, sum) =
    let* w := exec (map (fun iv => CSet (start + fst iv) (f (snd iv))) (combine (zseq rlen) (window mem roff rlen))) (window mem poff plen) in
    Ok (splice mem poff plen w, fold_left (fun s v => fadd s (f v)) (window mem roff rlen) sum)).
  { intros f sum. rewrite Lz. apply (softmax_loop mem roff rlen poff plen start f Fr Fp D (window mem roff rlen) 0 mem sum); auto. }
  assert (Copy : copy_s roff rlen poff plen start mem = let* w := exec (map (fun iv => CSet (start + fst iv) (snd iv)) (combine (zseq rlen) (window mem roff rlen))) (window mem poff plen) in Ok (splice mem poff plen w)).
  { specialize (K (fun v => v) fzero). assert (P : forall l mem sum, foldM (fun st i => let (mem, sum) := st : list f64 * f64 in
             let* v := at_ (window mem roff rlen) i in
             let* w := set_at (window mem poff plen) (start + i) v in Ok (splice mem poff plen w, fadd sum v)) l (mem, sum) = 
      match foldM (fun mem i => let* v := at_ (window mem roff rlen) i in let* w := set_at (window mem poff plen) (start + i) v in Ok (splice mem poff plen w)) l mem with
      | Ok m => Ok (m, match foldM (fun st i => let (mem, sum) := st : list f64 * f64 in
             let* v := at_ (window mem roff rlen) i in
             let* w := set_at (window mem poff plen) (start + i) v in Ok (splice mem poff plen w, fadd sum v)) l (mem, sum) with Ok q => snd q | _ => fzero end) | Err s => Err s | Panic s => Panic s | Hang => Hang end).
    { clear. induction l as [|i l IH]; intros mem sum; cbn [foldM]; [reflexivity|]. destruct (at_ (window mem roff rlen) i) as [v|s|s|]; cbn [bind]; auto. destruct (set_at (window mem poff plen) (start + i) v) as [w|s|s|]; cbn [bind]; auto. }
    rewrite P in K. unfold copy_s. destruct (foldM (fun mem i => _) (zseq rlen) mem) as [m|s|s|]; destruct (exec _ _) as [w|s'|s'|]; cbn [bind] in *; congruence. }
  destruct t as [q| |q|q|]; cbn [Transform_s Transform_t].
  - cbn [bind]. rewrite Lr. exact Copy.
  - rewrite Lr. destruct (negb (rlen =? 1)); [reflexivity|]. destruct (at_ (window mem roff rlen) 0) as [v|s|s|]; cbn [bind exec exec1]; auto. destruct (set_at _ _ _); reflexivity.
  - rewrite Lr. destruct (negb (rlen =? q)); [reflexivity|]. cbn [bind]. unfold SoftmaxFloat64Slice_s, SoftmaxFloat64Slice. rewrite Lr.
    rewrite (foldM_ext _ _ _ _ (zseq rlen) (mem, fzero) (fun b i => eq_refl : softmax_step_s p roff rlen poff plen start b i = (let (mem, sum) := b in let* v := at_ (window mem roff rlen) i in let* w := set_at (window mem poff plen) (start + i) (pl_exp p v) in Ok (splice mem poff plen w, fadd sum (pl_exp p v))))).
    rewrite K. rewrite exec_app. destruct (exec (map (fun iv => CSet (start + fst iv) (pl_exp p (snd iv))) _) _) as [w|s|s|] eqn:E; cbn [bind]; auto.
    assert (Lw : zlen w = plen) by (rewrite (exec_len _ _ _ E); apply window_zlen; auto).
    fold (softmax_sum p (window mem roff rlen)). destruct (negb (feq (softmax_sum p (window mem roff rlen)) fzero)).
    + rewrite mul_loop by (unfold fits; rewrite splice_zlen by auto; exact Fp). rewrite window_splice by auto. destruct (exec (map _ (zrange _ _)) w) as [w'|s|s|] eqn:E'; cbn [bind]; auto.
      f_equal. apply splice_splice; auto. rewrite (exec_len _ _ _ E'). exact Lw.
    + reflexivity.
  - cbn [bind]. rewrite Lr. exact Copy.
  - rewrite Lr. destruct (negb (rlen =? 1)); [reflexivity|]. destruct (at_ (window mem roff rlen) 0) as [v|s|s|]; cbn [bind exec exec1]; auto. destruct (set_at _ _ _); reflexivity.
Qed.
Print Assumptions C77_transform.

(** Raw scores first, Transform over them in place afterwards: the transformed predictions *)
Theorem C77_raw_then_transform :
  forall p e mem poff plen fvals nEstimators raw out,
  well_formed e -> ~ builds_in_output e -> NOutputGroups e = NRawOutputGroups e ->
  in_memory mem poff plen -> NRawOutputGroups e <= plen ->
  Predict p (EnsembleWithRawPredictions e) fvals nEstimators (window mem poff plen) = Ok raw ->
  Predict p e fvals nEstimators (window mem poff plen) = Ok out ->
  exists mem', Transform_s p (eTransform e) poff (NRawOutputGroups e) poff plen 0 (splice mem poff plen raw) = Ok mem' /\
    (forall k, 0 <= k < NOutputGroups e -> zget mem' (poff + k) = zget out k) /\
    (forall k, ~ (poff <= k < poff + NOutputGroups e) -> zget mem' k = zget mem k).
Proof.
  intros p e mem poff plen fv nE raw out Hwf B G Fp Hg Hr Ho. pose proof (wf_NOG e Hwf) as Pos. pose proof (proj1 Hwf) as Hg1. set (g := NRawOutputGroups e) in *.
  destruct (raw_view_wf e Hwf) as [WfR _]. destruct (Predict_inv _ _ _ _ _ _ WfR Hr) as (n & Ha & Hc & _ & _ & Er).
  assert (Lr : zlen raw = plen) by (rewrite (exec_len _ _ _ Er); apply window_zlen; exact Fp).
  assert (Fp' : in_memory (splice mem poff plen raw) poff plen) by (unfold in_memory in *; rewrite splice_zlen by auto; exact Fp).
  assert (Fg : in_memory (splice mem poff plen raw) poff g) by (unfold in_memory in *; lia).
  destruct (predict_transform p e fv nE (window mem poff plen) out (window mem poff plen) raw Hwf) as (tmp & Lt & Zt & E & _); auto.
  { unfold builds_in_output in B. destruct (eTransform e); tauto. }
  rewrite (C77_transform p (eTransform e) (splice mem poff plen raw) poff g poff plen 0 Fg Fp') by lia.
  assert (Et : window (splice mem poff plen raw) poff g = tmp).
  { apply zget_ext; [rewrite window_zlen by exact Fg; fold g in Lt; lia|]. intros k Hk. rewrite window_zlen in Hk by exact Fg. rewrite zget_window by auto. rewrite zget_splice_in by (auto; lia). symmetry. apply Zt. exact Hk. }
  rewrite Et, window_splice by auto. fold g in Lt. clear Et Zt.
  assert (T : exists cs, Transform_t p (eTransform e) tmp 0 = Ok cs /\ within 0 g cs /\ defined (fun _ => False) cs /\ forall k, 0 <= k < g -> assigned cs k).
  { unfold NOutputGroups in G, Pos. unfold builds_in_output in B. destruct (zget_some _ tmp 0) as [r Hr0]; [lia|]. destruct (eTransform e) as [q| |q|q|]; cbn [Transform_t NOutputGroups_t] in *; try tauto.
    - rewrite Lt, <- G. cbn [Z.eqb negb Pos.eqb]. unfold at_. rewrite Hr0. cbn [bind]. eexists. split; [reflexivity|]. split; [repeat constructor; unfold cell_in; cbn; lia|]. split; [exact I|]. intros k Hk. exists (Sigmoid p r). left. f_equal. lia.
    - subst q. rewrite Lt, Z.eqb_refl. cbn [negb]. eexists. split; [reflexivity|]. unfold SoftmaxFloat64Slice. split; [|split].
      + apply within_app. split.
        * apply within_map. intros iv Hiv. apply in_combine_zseq in Hiv. unfold cell_in. simpl. lia.
        * destruct (negb (feq _ _)); [|constructor]. apply within_map. intros i Hi. apply in_zrange in Hi. unfold cell_in. simpl. lia.
      + apply defined_app.
        * apply (defined_sets _ (fun iv => (0 + fst iv, pl_exp p (snd iv)))).
        * destruct (negb (feq _ _)); [|exact I]. apply defined_all. intros c Hc'. apply in_map_iff in Hc'. destruct Hc' as (i & <- & Hi). apply in_zrange in Hi. left. apply combine_assigned with (f := pl_exp p). lia.
      + intros i Hi. apply assigned_app_l. apply combine_assigned with (f := pl_exp p). lia.
    - rewrite Lt, <- G. cbn [Z.eqb negb Pos.eqb]. unfold at_. rewrite Hr0. cbn [bind]. eexists. split; [reflexivity|]. split; [repeat constructor; unfold cell_in; cbn; lia|]. split; [exact I|]. intros k Hk. exists (pl_exp p r). left. f_equal. lia. }
  destruct T as (cs & Ec & W & Df & As). rewrite Ec in *. cbn [bind].
  pose proof (window_zlen _ _ _ Fp) as Lw.
  assert (R : Forall (runs (zlen raw)) cs) by (rewrite Lr, <- Lw; apply exec_runs; eauto). apply exec_runs in R. destruct R as (w & Ew). rewrite Ew. cbn [bind].
  assert (Lw' : zlen w = plen) by (rewrite (exec_len _ _ _ Ew); exact Lr).
  exists (splice (splice mem poff plen raw) poff plen w). split; [reflexivity|]. rewrite splice_splice by auto. rewrite G. split.
  - intros k Hk. rewrite zget_splice_in by (auto; lia). apply (exec_det cs (fun _ => False) raw (window mem poff plen) w out Df); auto; intros ? [].
  - intros k Hk. destruct (Z_lt_le_dec k poff); [apply zget_splice_out; auto|]. destruct (Z_lt_le_dec k (poff + plen)); [|apply zget_splice_out; auto].
    replace k with (poff + (k - poff)) at 1 by lia. rewrite zget_splice_in by (auto; lia). rewrite (exec_frame _ _ _ _ _ _ W Ew) by lia.
    rewrite (exec_frame (predictInnerAndTransform p (EnsembleWithRawPredictions e) fv n 0) (window mem poff plen) raw 0 g (k - poff)); [|change (within 0 (NRawOutputGroups (EnsembleWithRawPredictions e)) (predictInnerAndTransform p (EnsembleWithRawPredictions e) fv n 0)); apply inner_within|exact Er|lia].
    rewrite zget_window by (auto; lia). f_equal. lia.
Qed.
Print Assumptions C77_raw_then_transform.

(** An output that runs ahead: the exponential written for the first score is read as the second score. *)
Theorem C77_transform_ahead_refuted :
  exists mem w mem', in_memory mem 0 2 /\ in_memory mem 1 2 /\
    exec (SoftmaxFloat64Slice amd64 (window mem 0 2) 0) (window mem 1 2) = Ok w /\
    Transform_s amd64 (TransformSoftmax 2) 0 2 1 2 0 mem = Ok mem' /\ window mem' 1 2 <> w.
Proof.
  exists [fone; SpecFloat.S754_infinity true; fzero]. do 2 eexists.
  split; [unfold in_memory; vm_compute; intuition discriminate|]. split; [unfold in_memory; vm_compute; intuition discriminate|].
  split; [vm_compute; reflexivity|]. split; [vm_compute; reflexivity|]. vm_compute. discriminate.
Qed.

(** two scores in place, in the middle of a memory *)
Example C77_transform_demo :
  let mem := map fint [7; 0; 0; 9] in
  in_memory mem 1 2 /\ Transform_s amd64 (TransformSoftmax 2) 1 2 1 2 0 mem = Ok [fint 7; fdiv (fint 1) (fint 2); fdiv (fint 1) (fint 2); fint 9] /\
  Transform_s amd64 (TransformRaw 2) 1 2 0 4 0 mem = Ok (map fint [0; 0; 0; 9]).
Proof. split; [unfold in_memory; vm_compute; intuition discriminate|]. split; vm_compute; reflexivity. Qed.
