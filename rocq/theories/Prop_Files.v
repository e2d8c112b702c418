(** * C58: writing a matrix to a device or file that may fail *)

From Coq Require Import ZArith List Bool String Lia ZifyBool.
From Verif Require Import Go GoFloat GoText Mat MatIO Files Spec_Mat Spec_Files Demo DemoText.
From Verif Require Import Pf_Go Pf_Mat Pf_MatRows Pf_MatWrite Pf_Files Prop_Mat Ex_Mat.
Local Open Scope Z_scope.

(** [start] is a device to which anything may already have been written.  WriteStr appends a
    prefix of the text; it reports success exactly if no call of Write failed, and then it has
    written everything. *)
Theorem C58_write_str :
  forall p m text delimiter start, matrix_text p delimiter m text -> dv_failed start = false ->
  exists ok d, WriteStr_to dev_put p m delimiter start = Ok (Some ok, d) /\
    (exists written rest, text = written ++ rest /\ dv_data d = dv_data start ++ written /\ (ok = true -> rest = [])) /\
    ok = negb (dv_failed d).
Proof.
  intros p m text delimiter start H F. destruct (write_text dev_put p m delimiter text H) as (chunks & C & ->).
  destruct (dev_all chunks start) as (ok & d & -> & pre & post & E1 & E2 & A & B). cbn [bind].
  rewrite C in E1. exists ok, d. split; [reflexivity|]. split.
  - exists pre, post. split; [exact E1|]. split; [exact E2|]. intros O. apply A. exact O.
  - destruct ok; [destruct (A eq_refl) as [_ ->]; rewrite F; reflexivity|rewrite (B eq_refl); reflexivity].
Qed.
Print Assumptions C58_write_str.

(** the text is the one WriteStr writes to a writer that never fails, for any delimiter *)
Lemma cut_rows : forall rows cols, 0 < cols -> Forall (fun r : list f64 => zlen r = cols) rows ->
  map (cutv (List.concat rows) cols) (zseq (zlen rows)) = rows.
Proof.
  intros rows cols C F. pose proof (rows_len _ _ F) as L. apply zget_ext.
  - rewrite zlen_map', zseq_zlen; [reflexivity|unfold zlen; lia].
  - intros k Hk. rewrite zlen_map', zseq_zlen in Hk by (unfold zlen; lia). rewrite zget_map, zget_zseq by lia. cbn [option_map]. rewrite zget_nth by lia.
    assert (X : exists before r after, rows = before ++ r :: after /\ zlen before = k).
    { destruct (nth_error rows (Z.to_nat k)) as [r|] eqn:E; [|apply nth_error_None in E; unfold zlen in Hk; lia]. apply nth_error_split in E. destruct E as (l1 & l2 & E & El). exists l1, r, l2. split; [exact E|]. unfold zlen. lia. }
    destruct X as (before & r & after & -> & Lb). apply Forall_app in F. destruct F as [Fb F]. inversion F as [|? ? Fr Fa]; subst. pose proof (rows_len _ _ Fb) as Lb'.
    replace (Z.to_nat (zlen before)) with (List.length before) by (unfold zlen; lia). rewrite nth_error_app2, Nat.sub_diag by lia. cbn [nth_error]. f_equal. unfold cutv. rewrite concat_app. cbn [List.concat].
    rewrite skipn_app. rewrite skipn_all2 by (unfold zlen in *; nia). cbn [app]. replace (Z.to_nat (zlen before * zlen r) - List.length (List.concat before))%nat with O by (unfold zlen in *; nia). cbn [skipn]. rewrite firstn_app. replace (Z.to_nat (zlen r) - List.length r)%nat with O by (unfold zlen; lia). cbn [firstn]. rewrite app_nil_r. apply firstn_all2. unfold zlen. lia.
Qed.
Theorem C58_same_text : forall p m rows d ds, has_rows m rows ->
  WriteStr p m (d :: ds) = Ok (csv_text p (d :: ds) rows).
Proof.
  intros p [values cols nrows] rows d ds (N & R & C & F & V & M). cbn [dmRows dmCols dmValues] in *. subst values nrows.
  pose proof (rows_len _ _ F) as L. assert (P : 0 < zlen rows) by (destruct rows; [contradiction|unfold zlen; cbn [List.length]; lia]).
  rewrite write_ok by (auto; lia). rewrite cut_rows by auto. reflexivity.
Qed.
Print Assumptions C58_same_text.

(** ToCsvFile leaves a prefix of the text in the file.  If no write to the file fails, it
    reports success and the file is complete.  If one fails while the text is being produced it
    reports an error.  It may report success although the last 4096 bytes or less are missing. *)
Theorem C58_csv_file :
  forall p m text delimiter script, matrix_text p delimiter m text ->
  exists ok d, ToCsvFile p m (Some script) delimiter = Ok (ok, Some d) /\
    (exists rest, text = dv_data d ++ rest /\
       (dv_failed d = false -> rest = []) /\ (ok = true -> zlen rest <= 4096)) /\
    (ok = false -> dv_failed d = true).
Proof.
  intros p m text delimiter script H. unfold ToCsvFile. destruct (write_text bw_put p m delimiter text H) as (chunks & C & ->).
  assert (H0 : holds [] (NewWriter (mkDev [] script false))) by (unfold holds, NewWriter; cbn [bw_err bw_dev bw_buf dv_data dv_failed List.length app]; repeat split; lia).
  destruct (bw_all chunks [] _ H0) as (ok & b & -> & A & B). cbn [bind app] in *. rewrite C in A, B.
  eexists; eexists; split; [reflexivity|]. destruct ok.
  - specialize (A eq_refl). pose proof A as (E & F & L & T). destruct (flush_spec _ _ A) as [[A' N]|(E' & F' & rest & T')].
    + destruct A' as (_ & F' & _ & T'). rewrite N, app_nil_r in T'. split; [|discriminate]. exists []. rewrite app_nil_r. split; [auto|]. split; [auto|]. intros _. unfold zlen. cbn. lia.
    + split; [|auto]. exists rest. split; [exact T'|]. split; [congruence|]. intros _.
      (* what is missing was in the buffer *)
      assert (X : exists pre, dv_data (bw_dev (Flush b)) = dv_data (bw_dev b) ++ pre).
      { unfold Flush. rewrite E. destruct (bw_buf b) as [|x buf]; [exists []; rewrite app_nil_r; reflexivity|]. destruct (dev_write_cases (bw_dev b) (x :: buf) F) as [[s ->]|[k [s ->]]]; cbn [bw_dev dv_data]; eauto. }
      destruct X as [pre X]. rewrite X, <- T, <- app_assoc in T'. apply app_inv_head in T'. apply (f_equal (@List.length _)) in T'. rewrite app_length in T'. unfold zlen, bufsize in *. lia.
  - destruct (B eq_refl) as (E & F & rest & T). assert (X : Flush b = b) by (unfold Flush; rewrite E; reflexivity). rewrite X. split; [|auto]. exists rest. split; [exact T|]. split; [congruence|discriminate].
Qed.
Print Assumptions C58_csv_file.

(** a matrix whose numbers of rows and columns do not go with its values is refused before
    anything is written; so is a file that cannot be created *)
Theorem C58_refused :
  forall p m delimiter, - 2 ^ 63 <= dmCols m * dmRows m < 2 ^ 63 -> dmCols m * dmRows m <> zlen (dmValues m) ->
  (forall start, WriteStr_to dev_put p m delimiter start = Ok (None, start)) /\
  (forall script, ToCsvFile p m (Some script) delimiter = Ok (false, Some (mkDev [] script false))) /\
  ToCsvFile p m None delimiter = Ok (false, None).
Proof.
  intros p m delimiter B N.
  assert (E : forall W put w, @WriteStr_to W put p m delimiter w = Ok (None, w)).
  { intros W put w. unfold WriteStr_to. rewrite s64_id by (unfold two63; lia). replace (dmCols m * dmRows m =? zlen (dmValues m)) with false by lia. reflexivity. }
  split; [intros; apply E|]. split; [|reflexivity]. intros script. unfold ToCsvFile. rewrite E. reflexivity.
Qed.
Print Assumptions C58_refused.

(** ** C50 on files: a matrix written to a file without failures is read back *)
Theorem C50_file_round_trip :
  forall p m rows delimiter def limit fs name script, has_rows m rows ->
  delimiter <> [] -> ~ In nl delimiter -> Forall (prints_well p delimiter) (dmValues m) -> limit <= 0 \/ dmRows m <= limit ->
  forall ok d, ToCsvFile p m (Some script) delimiter = Ok (ok, Some d) -> dv_failed d = false ->
  fs name = Some (mkReader (dv_data d) true) ->
  ok = true /\ DenseMatFromCsvFile p fs name limit false delimiter def = Ok m.
Proof.
  intros p m rows delimiter def limit fs name script H N Nn W Hl ok d T F E.
  destruct (C58_csv_file p m _ delimiter script (mt_rows _ _ _ _ H)) as (ok' & d' & T' & (rest & X & A & B) & D). rewrite T in T'. inversion T'; subst ok' d'. clear T'.
  specialize (A F). subst rest. rewrite app_nil_r in X. split; [destruct ok; [reflexivity|rewrite (D eq_refl) in F; discriminate]|].
  unfold DenseMatFromCsvFile, with_file. rewrite E, <- X. destruct delimiter as [|c ds]; [contradiction|].
  pose proof H as (Nr & R & C & Fr & V & M). pose proof (rows_len _ _ Fr) as L. assert (P : 0 < zlen rows) by (destruct rows; [contradiction|unfold zlen; cbn [List.length]; lia]).
  rewrite <- V in L. rewrite <- R in L, P.
  destruct (C50_csv_round_trip p m (c :: ds) def limit) as (text & Wt & Rd); auto.
  rewrite (C58_same_text p m rows c ds H) in Wt. inversion Wt; subst text. rewrite Rd. reflexivity.
Qed.
Print Assumptions C50_file_round_trip.

(** ** Concrete cases *)
Definition ex_mat : DenseMat := mkDense [fint 1; fint 2; fint 3; fint 4] 2 2.
Lemma ex_has_rows : has_rows ex_mat [[fint 1; fint 2]; [fint 3; fint 4]].
Proof. unfold has_rows. split; [discriminate|]. split; [reflexivity|]. split; [cbn; lia|]. split; [repeat constructor|]. split; [reflexivity|]. cbn. unfold MaxInt, two63, zlen. cbn [List.length]. lia. Qed.

(** a device that fails in the fourth call without writing anything *)
Lemma ex_failing_device : exists d, WriteStr_to dev_put printing ex_mat (bs ",") (mkDev [] [None; None; None; Some 0%nat] false) = Ok (Some false, d) /\
  dv_failed d = true /\ exists rest, csv_text printing (bs ",") [[fint 1; fint 2]; [fint 3; fint 4]] = dv_data d ++ rest /\ rest <> [].
Proof. eexists. split; [vm_compute; reflexivity|]. split; [reflexivity|]. eexists. split; [vm_compute; reflexivity|discriminate]. Qed.

(** ToCsvFile reports success although nothing reached the file: the disk is full when the
    buffer is flushed *)
Theorem C58_lost_data_refuted : exists p m rows delimiter script d,
  has_rows m rows /\ csv_text p delimiter rows <> [] /\
  ToCsvFile p m (Some script) delimiter = Ok (true, Some d) /\ dv_failed d = true /\ dv_data d = [].
Proof.
  exists printing, ex_mat, [[fint 1; fint 2]; [fint 3; fint 4]], (bs ","), [Some 0%nat]. eexists. split; [exact ex_has_rows|]. split; [vm_compute; discriminate|]. split; [vm_compute; reflexivity|]. split; reflexivity.
Qed.
Print Assumptions C58_lost_data_refuted.

(** the text of the example, and the file without failures *)
Lemma ex_file : ToCsvFile printing ex_mat (Some []) (bs ",") = Ok (true, Some (mkDev (csv_text printing (bs ",") [[fint 1; fint 2]; [fint 3; fint 4]]) [] false)).
Proof. vm_compute. reflexivity. Qed.
Lemma ex_text : csv_text printing (bs ",") [[fint 1; fint 2]; [fint 3; fint 4]] = file ["1,2"; "3,4"]%string.
Proof. vm_compute. reflexivity. Qed.
