(** * Proofs about writing to files *)

From Coq Require Import ZArith List Bool String Lia ZifyBool.
From Verif Require Import Go GoFloat GoText Mat MatIO Files Spec_Files.
From Verif Require Import Pf_Go Pf_Mat Pf_MatWrite.
Local Open Scope Z_scope.

(** ** The calls of Write that WriteStr makes *)
Fixpoint put_all {W : Type} (put : W -> bytes -> outcome (bool * W)) (chunks : list bytes) (w : W) : outcome (bool * W) :=
  match chunks with
  | [] => Ok (true, w)
  | c :: chunks => let* (ok, w) := put w c in if negb ok then Ok (false, w) else put_all put chunks w
  end.
Lemma put_all_app : forall W (put : W -> bytes -> outcome (bool * W)) a b w,
  put_all put (a ++ b) w = let* (ok, w) := put_all put a w in if negb ok then Ok (false, w) else put_all put b w.
Proof.
  intros W put a b. induction a as [|c a IH]; intros w; [reflexivity|]. cbn [app put_all]. destruct (put w c) as [[ok w']| | |]; cbn [bind]; try reflexivity. destruct ok; cbn [negb]; [apply IH|reflexivity].
Qed.

Fixpoint cells (d : bytes) (ts : list bytes) : list bytes :=
  match ts with [] => [] | [t] => [t] | t :: ts => t :: d :: cells d ts end.
Lemma cells_concat : forall d ts, List.concat (cells d ts) = separated d ts.
Proof.
  intros d ts. induction ts as [|t ts IH]; [reflexivity|]. destruct ts as [|u ts]; [cbn; apply app_nil_r|].
  change (cells d (t :: u :: ts)) with (t :: d :: cells d (u :: ts)). cbn [List.concat]. rewrite IH. reflexivity.
Qed.

Section Rows.
Context {W : Type} (put : W -> bytes -> outcome (bool * W)).
Variables (p : platform) (m : DenseMat) (d : bytes).

Lemma write_cells_all : forall i r n k w, (k + n)%nat = Z.to_nat (dmCols m) -> List.length r = Z.to_nat (dmCols m) -> 0 < dmCols m ->
  (forall j, (j < Z.to_nat (dmCols m))%nat -> zget (dmValues m) (i * dmCols m + Z.of_nat j) = nth_error r j) ->
  write_cells put p m d i (map Z.of_nat (seq k n)) w = put_all put (cells d (map (pl_print_float p) (skipn k r))) w.
Proof.
  intros i r n. induction n as [|n IH]; intros k w K L C H.
  - rewrite skipn_all2 by lia. reflexivity.
  - cbn [seq map write_cells]. destruct (nth_error r k) as [v|] eqn:E; [|apply nth_error_None in E; lia].
    unfold at_. rewrite H, E by lia. cbn [bind].
    assert (S0 : skipn k r = v :: skipn (S k) r). { clear -E. revert k E. induction r as [|x r IH]; intros [|k] E; cbn in *; try discriminate; [inversion E; reflexivity|apply IH; exact E]. }
    rewrite S0. cbn [map]. destruct n as [|n].
    + rewrite (skipn_all2 r) by lia. cbn [map cells put_all]. destruct (put w (pl_print_float p v)) as [[ok w']| | |]; cbn [bind]; try reflexivity. destruct ok; cbn [negb]; [|reflexivity]. replace (Z.of_nat k =? dmCols m - 1) with true by lia. reflexivity.
    + assert (NE : exists v' t, skipn (S k) r = v' :: t). { destruct (skipn (S k) r) eqn:E'; [|eauto]. apply (f_equal (@List.length _)) in E'. rewrite skipn_length in E'. cbn in E'. lia. }
      destruct NE as [v' [t NE]]. specialize (IH (S k)). rewrite NE in *. change (cells d (pl_print_float p v :: map (pl_print_float p) (v' :: t))) with (pl_print_float p v :: d :: cells d (map (pl_print_float p) (v' :: t))). cbn [put_all]. destruct (put w (pl_print_float p v)) as [[ok w']| | |]; cbn [bind]; try reflexivity. destruct ok; cbn [negb]; [|reflexivity].
      replace (Z.of_nat k =? dmCols m - 1) with false by lia. destruct (put w' d) as [[ok w2]| | |]; cbn [bind]; try reflexivity. destruct ok; cbn [negb]; [|reflexivity]. apply IH; auto; lia.
Qed.

Definition row_chunks (r : list f64) : list bytes := cells d (map (pl_print_float p) r) ++ [[nl]].
Lemma row_chunks_text : forall rows, List.concat (List.concat (map row_chunks rows)) = csv_text p d rows.
Proof.
  intros rows. unfold csv_text. induction rows as [|r rows IH]; [reflexivity|]. cbn [map List.concat]. rewrite concat_app, IH. f_equal. unfold row_chunks. rewrite concat_app, cells_concat. cbn. reflexivity.
Qed.

Lemma write_rows_all : forall before rows w, 0 < dmCols m -> Forall (fun r => zlen r = dmCols m) (before ++ rows) -> dmValues m = List.concat (before ++ rows) ->
  write_rows put p m d (map Z.of_nat (seq (List.length before) (List.length rows))) w = put_all put (List.concat (map row_chunks rows)) w.
Proof.
  intros before rows. revert before. induction rows as [|r rows IH]; intros before w C F E; [reflexivity|]. cbn [List.length seq map write_rows List.concat].
  assert (Lr : List.length r = Z.to_nat (dmCols m)). { apply Forall_app in F. destruct F as [_ F]. inversion F; subst. unfold zlen in *. lia. }
  assert (Lb : zlen (List.concat before) = Z.of_nat (List.length before) * dmCols m).
  { apply Forall_app in F. destruct F as [F _]. clear -F C. induction F as [|x l Hx F IH]; [cbn; lia|]. cbn [List.concat List.length]. unfold zlen in *. rewrite app_length. nia. }
  rewrite put_all_app. unfold zseq. rewrite (write_cells_all (Z.of_nat (List.length before)) r (Z.to_nat (dmCols m)) 0); auto.
  - unfold row_chunks. rewrite put_all_app. cbn [skipn]. destruct (put_all put (cells d (map (pl_print_float p) r)) w) as [[ok w']| | |]; cbn [bind]; try reflexivity. destruct ok; cbn [negb bind]; [|reflexivity]. cbn [put_all]. destruct (put w' [nl]) as [[ok w2]| | |]; cbn [bind]; try reflexivity. destruct ok; cbn [negb bind]; [|reflexivity].
    specialize (IH (before ++ [r])). rewrite app_length in IH. cbn [List.length] in IH. replace (List.length before + 1)%nat with (S (List.length before)) in IH by lia. apply IH; auto; rewrite <- app_assoc; assumption.
  - intros j Hj. rewrite E, concat_app. cbn [List.concat]. rewrite <- Lb. rewrite zget_nth by (unfold zlen; lia). replace (Z.to_nat (zlen (List.concat before) + Z.of_nat j)) with (List.length (List.concat before) + j)%nat by (unfold zlen; lia). rewrite nth_error_app2 by lia. replace (List.length (List.concat before) + j - List.length (List.concat before))%nat with j by lia. rewrite nth_error_app1 by lia. reflexivity.
Qed.

Lemma rows_len : forall rows n, Forall (fun r : list f64 => zlen r = n) rows -> zlen (List.concat rows) = zlen rows * n.
Proof. intros rows n F. induction F as [|x l Hx F IH]; [reflexivity|]. cbn [List.concat]. unfold zlen in *. rewrite app_length. cbn [List.length]. nia. Qed.

Lemma write_all : forall rows w, has_rows m rows ->
  WriteStr_to put p m d w = let* (ok, w) := put_all put (List.concat (map row_chunks rows)) w in Ok (Some ok, w).
Proof.
  intros rows w (N & R & C & F & V & M). pose proof (rows_len _ _ F) as L. unfold WriteStr_to. rewrite <- V in L.
  assert (P : 0 < zlen rows) by (destruct rows; [contradiction|unfold zlen; cbn [List.length]; lia]).
  rewrite R. rewrite s64_id by (unfold MaxInt, two63 in *; nia). replace (dmCols m * zlen rows =? zlen (dmValues m)) with true by lia. cbn [negb]. replace ((dmCols m =? 0) || (zlen rows =? 0)) with false by lia.
  pose proof (write_rows_all [] rows w C F V) as X. cbn [List.length] in X. unfold zseq. replace (Z.to_nat (zlen rows)) with (List.length rows) by (unfold zlen; lia). rewrite X. reflexivity.
Qed.

Lemma write_text : forall text, matrix_text p d m text -> exists chunks, List.concat chunks = text /\
  forall w, WriteStr_to put p m d w = let* (ok, w) := put_all put chunks w in Ok (Some ok, w).
Proof.
  intros text H. destruct H as [rows H|V Z].
  - exists (List.concat (map row_chunks rows)). split; [apply row_chunks_text|]. intros w. apply write_all. exact H.
  - exists [[nl]]. split; [reflexivity|]. intros w. unfold WriteStr_to. rewrite V. replace (dmCols m * dmRows m) with 0 by (destruct Z as [-> | ->]; lia).
    change (negb (s64 0 =? zlen [])) with false. cbv iota. replace ((dmCols m =? 0) || (dmRows m =? 0)) with true by lia. cbn [put_all].
    destruct (put w [nl]) as [[ok w']| | |]; cbn [bind]; try reflexivity. destruct ok; reflexivity.
Qed.
End Rows.

(** ** Devices *)
Lemma dev_all : forall chunks d, exists ok d', put_all dev_put chunks d = Ok (ok, d') /\
  exists pre post, List.concat chunks = pre ++ post /\ dv_data d' = dv_data d ++ pre /\
    (ok = true -> post = [] /\ dv_failed d' = dv_failed d) /\ (ok = false -> dv_failed d' = true).
Proof.
  induction chunks as [|c chunks IH]; intros d.
  - exists true, d. split; [reflexivity|]. exists [], []. split; [reflexivity|]. split; [rewrite app_nil_r; reflexivity|]. split; [auto|discriminate].
  - cbn [put_all List.concat]. unfold dev_put at 1, dev_write. destruct (dv_script d) as [|[k|] script]; cbn [bind negb].
    + destruct (IH (mkDev (dv_data d ++ c) [] (dv_failed d))) as (ok & d' & E & pre & post & E1 & E2 & A & B). exists ok, d'. split; [exact E|]. exists (c ++ pre), post. cbn [dv_data dv_failed] in *. rewrite E1, E2, <- !app_assoc. split; [reflexivity|]. split; [reflexivity|]. split; assumption.
    + exists false, (mkDev (dv_data d ++ firstn k c) script true). split; [reflexivity|]. exists (firstn k c), (skipn k c ++ List.concat chunks). cbn [dv_data dv_failed]. rewrite app_assoc, firstn_skipn. split; [reflexivity|]. split; [reflexivity|]. split; [discriminate|auto].
    + destruct (IH (mkDev (dv_data d ++ c) script (dv_failed d))) as (ok & d' & E & pre & post & E1 & E2 & A & B). exists ok, d'. split; [exact E|]. exists (c ++ pre), post. cbn [dv_data dv_failed] in *. rewrite E1, E2, <- !app_assoc. split; [reflexivity|]. split; [reflexivity|]. split; assumption.
Qed.

(** ** bufio.Writer *)
Lemma bufsize_pos : (0 < bufsize)%nat.
Proof. unfold bufsize. lia. Qed.
Local Opaque bufsize.

(** a writer that has been given the text [t]: nothing lost, or stopped after an error *)
Definition holds (t : bytes) (b : bufw) : Prop :=
  bw_err b = false /\ dv_failed (bw_dev b) = false /\ (List.length (bw_buf b) <= bufsize)%nat /\ dv_data (bw_dev b) ++ bw_buf b = t.
Definition stopped (t : bytes) (b : bufw) : Prop :=
  bw_err b = true /\ dv_failed (bw_dev b) = true /\ exists rest, t = dv_data (bw_dev b) ++ rest.

Lemma dev_write_cases : forall d b, dv_failed d = false ->
  (exists s, dev_write d b = (true, List.length b, mkDev (dv_data d ++ b) s false)) \/
  (exists k s, dev_write d b = (false, Nat.min k (List.length b), mkDev (dv_data d ++ firstn k b) s true)).
Proof.
  intros d b F. unfold dev_write. rewrite F. destruct (dv_script d) as [|[k|] s]; [left|right|left]; eauto.
Qed.

Lemma flush_spec : forall t b, holds t b -> (holds t (Flush b) /\ bw_buf (Flush b) = []) \/ stopped t (Flush b).
Proof.
  intros t [buf err d] (E & F & L & T). cbn [bw_err bw_dev bw_buf] in *. subst err. unfold Flush. cbn [bw_err bw_dev bw_buf]. destruct buf as [|x buf].
  - left. split; [|reflexivity]. unfold holds. cbn [bw_err bw_dev bw_buf]. auto.
  - destruct (dev_write_cases d (x :: buf) F) as [[s ->]|[k [s ->]]].
    + left. split; [|reflexivity]. unfold holds. cbn [bw_err bw_dev bw_buf dv_data dv_failed List.length]. rewrite app_nil_r. repeat split; auto; lia.
    + right. unfold stopped. cbn [bw_err bw_dev bw_buf dv_data dv_failed]. repeat split; auto. exists (skipn k (x :: buf)). rewrite <- app_assoc, firstn_skipn. auto.
Qed.

Lemma loop_stopped : forall fuel b q, bw_err b = true -> bw_loop (S fuel) b q = Ok (q, b).
Proof. intros fuel b q E. cbn [bw_loop]. rewrite E, andb_false_r. reflexivity. Qed.

Lemma loop_step : forall fuel b q, bw_loop (S fuel) b q =
  if (bufsize - List.length (bw_buf b) <? List.length q)%nat && negb (bw_err b) then
    match bw_buf b with
    | [] => let '(ok, n, d) := dev_write (bw_dev b) q in bw_loop fuel (mkBufw [] (negb ok) d) (skipn n q)
    | buf => bw_loop fuel (Flush (mkBufw (buf ++ firstn (bufsize - List.length (bw_buf b)) q) (bw_err b) (bw_dev b))) (skipn (bufsize - List.length (bw_buf b)) q)
    end
  else Ok (q, b).
Proof. reflexivity. Qed.

Lemma bw_put_spec : forall t b c, holds t b -> exists ok b', bw_put b c = Ok (ok, b') /\
  (ok = true -> holds (t ++ c) b') /\ (ok = false -> stopped (t ++ c) b').
Proof.
  intros t b c H. unfold bw_put. rewrite loop_step.
  assert (Fin : forall q b' t', holds t' b' -> (List.length q <= bufsize - List.length (bw_buf b'))%nat -> t' ++ q = t ++ c ->
    exists ok b'', (let* (p0, b0) := Ok (q, b') in if bw_err b0 then Ok (false, b0) else Ok (true, mkBufw (bw_buf b0 ++ p0) false (bw_dev b0))) = Ok (ok, b'') /\ (ok = true -> holds (t ++ c) b'') /\ (ok = false -> stopped (t ++ c) b'')).
  { intros q b' t' (E & F & L & T) Q X. cbn [bind]. rewrite E. exists true, (mkBufw (bw_buf b' ++ q) false (bw_dev b')). split; [reflexivity|]. split; [|discriminate]. intros _. unfold holds. cbn [bw_err bw_dev bw_buf]. rewrite app_length, app_assoc, T, X. repeat split; auto. lia. }
  assert (Stop : forall q b', stopped (t ++ c) b' ->
    exists ok b'', (let* (p0, b0) := Ok (q, b') in if bw_err b0 then Ok (false, b0) else Ok (true, mkBufw (bw_buf b0 ++ p0) false (bw_dev b0))) = Ok (ok, b'') /\ (ok = true -> holds (t ++ c) b'') /\ (ok = false -> stopped (t ++ c) b'')).
  { intros q b' S0. pose proof S0 as (E & _). cbn [bind]. rewrite E. exists false, b'. split; [reflexivity|]. split; [discriminate|auto]. }
  assert (Dir : forall f t' d q, holds t' (mkBufw [] false d) -> t' ++ q = t ++ c ->
    exists ok b'', (let* (p0, b0) := (let '(ok, n, d) := dev_write d q in bw_loop (S f) (mkBufw [] (negb ok) d) (skipn n q)) in
       if bw_err b0 then Ok (false, b0) else Ok (true, mkBufw (bw_buf b0 ++ p0) false (bw_dev b0))) = Ok (ok, b'') /\ (ok = true -> holds (t ++ c) b'') /\ (ok = false -> stopped (t ++ c) b'')).
  { intros f t' d q (E & F & L & T) X. cbn [bw_err bw_dev bw_buf] in *. rewrite app_nil_r in T. destruct (dev_write_cases d q F) as [[s ->]|[k [s ->]]]; cbn [negb].
    - rewrite skipn_all, loop_step. cbn [bw_buf List.length]. replace ((bufsize - 0 <? 0)%nat) with false by (symmetry; apply Nat.ltb_ge; lia). cbn [andb]. apply (Fin [] _ (t' ++ q)).
      + unfold holds. cbn [bw_err bw_dev bw_buf dv_data dv_failed List.length]. rewrite app_nil_r, T. repeat split; auto; lia.
      + cbn [List.length]. lia.
      + rewrite app_nil_r. exact X.
    - rewrite loop_stopped by reflexivity. apply Stop. unfold stopped. cbn [bw_err bw_dev bw_buf dv_data dv_failed]. repeat split; auto. exists (skipn k q). rewrite <- app_assoc, firstn_skipn, T. auto. }
  destruct b as [buf err d]. pose proof H as (E & F & L & T). cbn [bw_err bw_dev bw_buf] in *. subst err. cbn [negb]. rewrite andb_true_r.
  destruct (bufsize - List.length buf <? List.length c)%nat eqn:A.
  2:{ apply Nat.ltb_ge in A. eapply Fin; eauto. }
  apply Nat.ltb_lt in A. destruct buf as [|x buf].
  - exact (Dir 1%nat t d c H eq_refl).
  - set (av := (bufsize - List.length (x :: buf))%nat) in *. set (bb := x :: buf) in *.
    assert (H2 : holds (t ++ firstn av c) (mkBufw (bb ++ firstn av c) false d)).
    { unfold holds. cbn [bw_err bw_dev bw_buf]. rewrite app_length, firstn_length, app_assoc, T. repeat split; auto. lia. }
    rewrite loop_step. destruct (flush_spec _ _ H2) as [[H3 B3]|H3].
    + destruct (Flush (mkBufw (bb ++ firstn av c) false d)) as [buf3 err3 d3]. cbn [bw_buf] in B3. subst buf3. pose proof H3 as (E3 & _). cbn [bw_err] in *. subst err3. cbn [negb andb bw_dev bw_buf bw_err List.length]. rewrite andb_true_r.
      assert (X : (t ++ firstn av c) ++ skipn av c = t ++ c) by (rewrite <- app_assoc, firstn_skipn; reflexivity).
      destruct (bufsize - 0 <? List.length (skipn av c))%nat eqn:A2.
      * exact (Dir 0%nat _ d3 _ H3 X).
      * apply Nat.ltb_ge in A2. eapply Fin; eauto.
    + pose proof H3 as (E3 & F3 & rest & T3). rewrite E3. cbn [negb]. rewrite andb_false_r. apply Stop. unfold stopped. repeat split; auto. exists (rest ++ skipn av c). rewrite app_assoc, <- T3, <- app_assoc, firstn_skipn. reflexivity.
Qed.

Lemma stopped_more : forall t b x, stopped t b -> stopped (t ++ x) b.
Proof. intros t b x (E & F & rest & T). repeat split; auto. exists (rest ++ x). rewrite T, <- app_assoc. reflexivity. Qed.

Lemma bw_all : forall chunks t b, holds t b -> exists ok b', put_all bw_put chunks b = Ok (ok, b') /\
  (ok = true -> holds (t ++ List.concat chunks) b') /\ (ok = false -> stopped (t ++ List.concat chunks) b').
Proof.
  induction chunks as [|c chunks IH]; intros t b H.
  - exists true, b. cbn [List.concat]. rewrite app_nil_r. split; [reflexivity|]. split; [intros _; exact H|discriminate].
  - cbn [put_all List.concat]. destruct (bw_put_spec t b c H) as (ok & b' & -> & A & B). cbn [bind]. destruct ok; cbn [negb].
    + destruct (IH (t ++ c) b' (A eq_refl)) as (ok & b'' & E & A' & B'). exists ok, b''. split; [exact E|]. rewrite <- app_assoc in *. split; assumption.
    + exists false, b'. split; [reflexivity|]. split; [discriminate|]. intros _. rewrite app_assoc. apply stopped_more. apply B. reflexivity.
Qed.
