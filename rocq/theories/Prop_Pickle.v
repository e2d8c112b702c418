(** * Pickle decoding and raw numpy data (C42-C45) *)

From Coq Require Import ZArith List Bool String Lia ZifyBool.
From Verif Require Import Go GoFloat GoText XgBin Pickle SkClasses.
From Verif Require Import Spec_Decimal Spec_Pickle Spec_Dump Spec_XgBin Spec_Numpy.
From Verif Require Import Pf_Go Pf_Text Pf_Pickle Pf_PickleDec Pf_PickleHist Pf_Dump Pf_Numpy Demo DemoText.
Local Open Scope Z_scope.

(** ** C42 *)

(** Whatever text an object is given, with parts fetched from the memo or not, decoding the text
    yields the object and leaves the reader behind STOP.  Missing: texts that fetch a list or an
    instance, for which the claim is false (C43_list_refuted, C43_instance_refuted). *)
Theorem C42_decode_partial : forall p o s mu rest eof, enc p false [] o s mu ->
  exists v h, Decode p (mkReader (s ++ "."%byte :: rest) eof) = Ok (v, h, mkReader rest eof) /\ denotes h v o.
Proof. intros p. apply decode_enc. Qed.
Print Assumptions C42_decode_partial.

(** In particular the output of pickle.dumps. *)
Theorem C42_dumps : forall repr p o rest eof, dumpable repr p o ->
  exists v h, Decode p (mkReader (dumps repr o ++ rest) eof) = Ok (v, h, mkReader rest eof) /\ denotes h v o.
Proof.
  intros repr p o rest eof D. destruct (works_all repr p false o [] 0 D) as (mu & E & _). { split; [lia|intros k []]. }
  destruct (C42_decode_partial p o _ mu rest eof E) as (v & h & R & N). exists v, h. split; auto. unfold dumps. rewrite <- app_assoc. exact R.
Qed.
Print Assumptions C42_dumps.

(** If instances are fetched after their state was set, the rest of the object is still right;
    what is fetched is the instance without its state. *)
Theorem C42_decode_stateless : forall p o s mu rest eof, enc p true [] o s mu ->
  exists v h, Decode p (mkReader (s ++ "."%byte :: rest) eof) = Ok (v, h, mkReader rest eof) /\ denotes h v o.
Proof. intros p. apply decode_enc. Qed.
Print Assumptions C42_decode_stateless.

(** Decoding any text whatsoever comes to an end. *)
Theorem C42_terminates : forall p r, Decode p r <> Hang.
Proof. intros p r. unfold Decode. apply decode_loop_not_hang. lia. Qed.
Print Assumptions C42_terminates.

(** ** C43 *)

(** PUT stores the top of the stack; until the next PUT of that key GET pushes this value again. *)
Lemma put_stores : forall p k c0 c1 v st, mStack (fst c0) = v :: st -> at_put k c0 -> next p c0 c1 ->
  lookup (mMemory (fst c1)) k = Some v.
Proof.
  intros p k [m r] [m1 r1] v st S (q & q' & A & T & O) (op & q2 & A2 & H). destruct (at_op_unique _ _ _ _ _ A A2) as (<- & EB & EE).
  cbn [step] in H. cbn [fst] in *. assert (R : readLine q2 = Ok (k, mkReader (rd_bytes q') (rd_eof q2))). { destruct q2 as [b e]. cbn [rd_bytes rd_eof] in *. rewrite <- EB, T. apply readLine_line. auto. }
  rewrite R in H. cbn [bind] in H. unfold putMemory, back in H. rewrite S in H. cbn [bind] in H. injection H as <- _. cbn [mMemory lookup].
  rewrite beqb_refl. auto.
Qed.
Lemma history_mem : forall p (without : config -> Prop) k c c', (forall c, at_put k c -> without c) -> history p without c c' ->
  lookup (mMemory (fst c')) k = lookup (mMemory (fst c)) k.
Proof. intros p without k c c' Hw H. induction H as [|c c1 c2 H IH N X]; auto. rewrite <- IH. apply (next_mem p); auto. Qed.
Lemma get_pushes : forall p k c c', at_get k c -> next p c c' -> mStack (fst c') = getMemory (fst c) k :: mStack (fst c) /\ mHeap (fst c') = mHeap (fst c).
Proof.
  intros p k [m r] [m1 r1] (q & q' & A & T & O) (op & q2 & A2 & H). destruct (at_op_unique _ _ _ _ _ A A2) as (<- & EB & EE).
  cbn [step] in H. assert (R : readLine q2 = Ok (k, mkReader (rd_bytes q') (rd_eof q2))). { destruct q2 as [b e]. cbn [rd_bytes rd_eof] in *. rewrite <- EB, T. apply readLine_line. auto. }
  rewrite R in H. cbn [bind] in H. injection H as <- _. split; reflexivity.
Qed.

Theorem C43_get_returns_put : forall p k c0 v st c1 c2 c3,
  mStack (fst c0) = v :: st -> at_put k c0 -> next p c0 c1 ->
  history p (at_put k) c1 c2 -> at_get k c2 -> next p c2 c3 ->
  mStack (fst c3) = v :: mStack (fst c2).
Proof.
  intros p k c0 v st c1 c2 c3 S P N H G N'. destruct (get_pushes _ _ _ _ G N') as [E _]. rewrite E. unfold getMemory.
  rewrite (history_mem p _ k _ _ (fun _ X => X) H), (put_stores _ _ _ _ _ _ S P N). reflexivity.
Qed.
Print Assumptions C43_get_returns_put.

(** A dict is current: when a key of a memoised dict was set, through whatever reference, then
    until the key is set again a GET yields the dict with that value. *)
Theorem C43_dict_is_current : forall p k a key x c0 c1 c2 c3,
  occurs p c0 -> lookup (mMemory (fst c0)) k = Some (VDict a) ->
  at_setitem a key x c0 -> next p c0 c1 ->
  history p (fun c => at_put k c \/ exists x', at_setitem a key x' c) c1 c2 ->
  at_get k c2 -> next p c2 c3 ->
  mStack (fst c3) = VDict a :: mStack (fst c2) /\ lookup (dict_at (mHeap (fst c3)) a) key = Some x.
Proof.
  intros p k a key x c0 c1 c2 c3 OC LM (q & st & A & S) N H G N'. pose proof (occurs_wf _ _ OC) as W0. pose proof (next_wf _ _ _ N W0) as W1.
  destruct (get_pushes _ _ _ _ G N') as [E EH]. unfold getMemory in E. rewrite (history_mem p _ k _ _ (fun _ X => or_introl X) H) in E.
  assert (LM1 : lookup (mMemory (fst c1)) k = Some (VDict a)).
  { rewrite <- LM. apply (next_mem p); auto. intros (q1 & q2 & A' & _). destruct (at_op_unique _ _ _ _ _ A A') as (X & _). discriminate. }
  rewrite LM1 in E. split; auto. rewrite EH. clear E EH G N' LM LM1.
  assert (B : exists d, nth_error (mHeap (fst c1)) a = Some (CDict d) /\ lookup d key = Some x).
  { destruct N as (op & q2 & A2 & Hs). destruct (at_op_unique _ _ _ _ _ A A2) as (<- & _). destruct c0 as [m r], c1 as [m1 r1]. cbn [fst] in *.
    pose proof (wf_stack _ W0) as WS. rewrite S in WS. inversion WS as [|? ? _ WS1]; subst. inversion WS1 as [|? ? _ WS2]; subst. inversion WS2 as [|? ? V _]; subst. inversion V as [| | | | | | |a' d G| | |]; subst.
    cbn [step] in Hs. unfold pop in Hs. rewrite S in Hs. cbn [bind mStack] in Hs. unfold back in Hs. cbn [bind mStack toDict] in Hs.
    change (toUnicode (VUnicode key) (-1)) with (Ok key) in Hs. cbn [bind] in Hs. injection Hs as <- _. cbn [set_heap mHeap]. unfold dict_set, dict_at. rewrite G.
    exists ((key, x) :: d). split; [eapply set_cell_same; eauto|]. cbn [lookup]. rewrite beqb_refl. auto. }
  assert (B2 : exists d, nth_error (mHeap (fst c2)) a = Some (CDict d) /\ lookup d key = Some x).
  { clear A S. induction H as [|c c1 c2 H IH NW X]; auto. specialize (IH N W1 B). destruct IH as (d & G & L). destruct X as (op & q2 & A2 & Hs). destruct c1 as [m r'], c2 as [m' r'']. cbn [fst] in *.
    destruct (step_good _ _ _ _ _ _ (history_wf _ _ _ _ H W1) Hs) as (_ & _ & DE). destruct (DE a d G) as [G'|(key' & x' & st' & -> & S' & G')]; [eauto|].
    eexists. split; [exact G'|]. cbn [lookup]. destruct (beqb key key') eqn:Ek; auto. apply beqb_eq in Ek. subst key'. exfalso. apply NW. right. exists x', q2, st'. split; auto. }
  destruct B2 as (d & G & L). unfold dict_at. rewrite G. exact L.
Qed.
Print Assumptions C43_dict_is_current.

(** A list is not: after PUT and APPEND, GET yields the list with the number of elements it had
    at the PUT, whatever was appended. *)
Theorem C43_list_is_stale : forall p k c0 a len cap st c1 x c2 c3 c4 c5,
  mStack (fst c0) = VList a len cap :: st -> at_put k c0 -> next p c0 c1 ->
  history p (at_put k) c1 c2 -> at_append (VList a len cap) x c2 -> next p c2 c3 ->
  history p (at_put k) c3 c4 -> at_get k c4 -> next p c4 c5 ->
  (exists a' cap' st', mStack (fst c3) = VList a' (len + 1) cap' :: st') /\
  mStack (fst c5) = VList a len cap :: mStack (fst c4).
Proof.
  intros p k c0 a len cap st c1 x c2 c3 c4 c5 S P N H (q & st' & A & S2) N2 H2 G N'. split.
  - destruct N2 as (op & q2 & A2 & Hs). destruct (at_op_unique _ _ _ _ _ A A2) as (<- & _). destruct c2 as [m r], c3 as [m1 r1]. cbn [fst] in *.
    cbn [step] in Hs. unfold pop in Hs. rewrite S2 in Hs. cbn [bind mStack toList mHeap] in Hs. destruct (append_list p (mHeap m) a len cap x) as [l h] eqn:E. cbn [bind] in Hs. injection Hs as <- _.
    unfold append_list in E. cbn [push set_heap mStack]. destruct (_ <? _); injection E as <- <-; eexists _, _, _; reflexivity.
  - apply (C43_get_returns_put p k c0 _ st c1 c4 c5 S P N); [|exact G|exact N'].
    assert (N23 : history p (at_put k) c1 c3).
    { eapply h_next; eauto. intros (q1 & q2 & A' & _). destruct (at_op_unique _ _ _ _ _ A A') as (X & _). discriminate. }
    clear - N23 H2. induction H2 as [|c c' c'' H2 IH NP X]; [exact N23|]. exact (h_next _ _ _ _ _ (IH N23) NP X).
Qed.
Print Assumptions C43_list_is_stale.

Definition nl1 : bytes := ["010"%byte].
(** ([], put 0; append 5; get 0): Python's l = []; l.append(5); l gives [5]; the decoder [] *)
Theorem C43_list_refuted :
  exists h a cap r, Decode amd64 (mkReader (bs "(lp0" ++ nl1 ++ bs "I5" ++ nl1 ++ bs "ag0" ++ nl1 ++ bs ".") true) = Ok (VList a 0 cap, h, r).
Proof. eexists _, _, _, _. vm_compute. reflexivity. Qed.
Print Assumptions C43_list_refuted.

(** An instance fetched from the memo has lost the state it was given: numpy.dtype('f8') of
    big endian order, written twice in a tuple.  The first is read as big endian, the second
    as little endian. *)
Definition be_dtype_twice : bytes :=
  bs "(cnumpy" ++ nl1 ++ bs "dtype" ++ nl1 ++ bs "(Vf8" ++ nl1 ++ bs "I0" ++ nl1 ++ bs "I1" ++ nl1 ++ bs "tRp0" ++ nl1 ++
  bs "(I3" ++ nl1 ++ bs "V>" ++ nl1 ++ bs "NNNI-1" ++ nl1 ++ bs "I-1" ++ nl1 ++ bs "I0" ++ nl1 ++ bs "tbg0" ++ nl1 ++ bs "t.".
Theorem C43_instance_refuted :
  exists v1 v2 h r, Decode amd64 (mkReader be_dtype_twice true) = Ok (VTuple [v1; v2], h, r) /\
    ParseClass (dtype_Reduce h) dtype_Build noDType v1 = Ok (mkDType false (bs "f8")) /\
    ParseClass (dtype_Reduce h) dtype_Build noDType v2 = Ok (mkDType true (bs "f8")).
Proof. eexists _, _, _, _. split; [vm_compute; reflexivity|]. split; vm_compute; reflexivity. Qed.
Print Assumptions C43_instance_refuted.

(** ** C44 *)
Theorem C44_unicode_escape : forall s, decodeUnicode (escape s) = s.
Proof. exact decode_escape. Qed.
Print Assumptions C44_unicode_escape.

(** Newer Pythons also write NUL, CR and SUB as escapes; these are not undone. *)
Theorem C44_other_escapes_refuted : forall c e, In (c, e) [("000"%byte, bs "u0000"); ("013"%byte, bs "u000d"); ("026"%byte, bs "u001a")] ->
  decodeUnicode ("\"%byte :: e) <> [c].
Proof. intros c e [H|[H|[H|[]]]]; injection H as <- <-; vm_compute; discriminate. Qed.
Print Assumptions C44_other_escapes_refuted.

(** ** C45 *)

(** Raw bytes that consist of chunks of [n] bytes are visited chunk by chunk, in order; if their
    number is not a multiple of [n] nothing is visited. *)
Theorem C45_iterate : forall A n (cs : list bytes) (parse : A -> bytes -> outcome A) acc, 0 < n -> Forall (fun c => zlen c = n) cs ->
  Iterate (List.concat cs) n parse acc = foldM parse cs acc.
Proof. exact iterate_chunks. Qed.
Theorem C45_iterate_rejects : forall A b n (parse : A -> bytes -> outcome A) acc, 0 < n -> zlen b mod n <> 0 ->
  exists m, Iterate b n parse acc = Err m.
Proof. exact iterate_rejects. Qed.
Print Assumptions C45_iterate.
Print Assumptions C45_iterate_rejects.

(** 8 bytes are read, in either order; bytes behind them do not matter, fewer are a panic *)
Theorem C45_float_round_trip :
  (forall little x rest, valid64 x = true -> Float64FromBytes (e_f64 little x ++ rest) little = Ok x) /\
  (forall little b, zlen b < 8 -> exists m, Float64FromBytes b little = Panic m).
Proof.
  split.
  - intros little x rest H. rewrite <- (Float64FromBytes_read little x H). unfold Float64FromBytes.
    rewrite zlen_app. pose proof (zlen_nonneg _ rest). pose proof (e_f64_length little x) as L.
    replace (zlen (e_f64 little x) + zlen rest <? 8) with false by (symmetry; apply Z.ltb_ge; unfold zlen in *; lia).
    replace (zlen (e_f64 little x) <? 8) with false by (symmetry; apply Z.ltb_ge; unfold zlen; lia).
    rewrite firstn_app, L, Nat.sub_diag. cbn [firstn]. rewrite app_nil_r. reflexivity.
  - intros little b H. unfold Float64FromBytes. replace (zlen b <? 8) with true by (symmetry; apply Z.ltb_lt; exact H). eauto.
Qed.
Theorem C45_int_round_trip :
  (forall z rest, int64 z -> exists u, le_Uint64 (e8 z ++ rest) = Ok u /\ s64 u = z) /\
  (forall b, zlen b < 8 -> exists m, le_Uint64 b = Panic m).
Proof.
  split.
  - intros z rest H. destruct (le_Uint64_read z H) as (u & E & Eu). exists u. split; [|exact Eu]. rewrite <- E. unfold le_Uint64.
    rewrite zlen_app, e8_zlen. pose proof (zlen_nonneg _ rest).
    replace (8 + zlen rest <? 8) with false by (symmetry; apply Z.ltb_ge; lia). change (8 <? 8) with false. cbv iota.
    rewrite firstn_app, e8_length. change (8 - 8)%nat with 0%nat. cbn [firstn]. rewrite app_nil_r. reflexivity.
  - intros b H. unfold le_Uint64. replace (zlen b <? 8) with true by (symmetry; apply Z.ltb_lt; exact H). eauto.
Qed.
Theorem C45_node_round_trip : forall n, sknode_ok n -> SklearnNodeFromBytes (e_sknode n) = Ok n.
Proof. exact sknode_read. Qed.
Print Assumptions C45_float_round_trip.
Print Assumptions C45_int_round_trip.
Print Assumptions C45_node_round_trip.

(** Arrays of them, one record behind the other. *)
Theorem C45_node_array : forall ns, Forall sknode_ok ns -> Iterate (flat_map e_sknode ns) 56 append_node [] = Ok ns.
Proof.
  intros ns H. rewrite flat_map_concat_map, iterate_chunks; [|lia|].
  - apply (foldM_append _ SklearnNodeFromBytes e_sknode); [reflexivity|]. intros n I. rewrite Forall_forall in H. apply sknode_read. auto.
  - apply Forall_forall. intros c I. apply in_map_iff in I. destruct I as (n & <- & _). unfold zlen. rewrite e_sknode_length. reflexivity.
Qed.
Theorem C45_float_array : forall little xs, Forall (fun x => valid64 x = true) xs -> Iterate (flat_map (e_f64 little) xs) 8 (append_float little) [] = Ok xs.
Proof.
  intros little xs H. rewrite flat_map_concat_map, iterate_chunks; [|lia|].
  - apply (foldM_append _ (fun b => Float64FromBytes b little) (e_f64 little)); [reflexivity|]. intros n I. rewrite Forall_forall in H. apply Float64FromBytes_read. auto.
  - apply Forall_forall. intros c I. apply in_map_iff in I. destruct I as (n & <- & _). unfold zlen. rewrite e_f64_length. reflexivity.
Qed.
Theorem C45_int_array : forall zs, Forall int64 zs -> Iterate (flat_map e8 zs) 8 append_int [] = Ok zs.
Proof.
  intros zs H. rewrite flat_map_concat_map, iterate_chunks; [|lia|].
  - apply (foldM_append _ (fun b => let* z := le_Uint64 b in Ok (s64 z)) e8).
    + intros acc b. unfold append_int. destruct (le_Uint64 b); reflexivity.
    + intros n I. rewrite Forall_forall in H. destruct (le_Uint64_read n (H n I)) as (u & E & Eu). rewrite E. cbn [bind]. rewrite Eu. reflexivity.
  - apply Forall_forall. intros c I. apply in_map_iff in I. destruct I as (n & <- & _). apply e8_zlen.
Qed.
Print Assumptions C45_node_array.
Print Assumptions C45_float_array.
Print Assumptions C45_int_array.

(** ** The hypotheses can be met *)
Lemma one_line_check : forall t, existsb (Byte.eqb "010"%byte) t = false -> one_line t.
Proof. intros t H I. assert (X : existsb (Byte.eqb "010"%byte) t = true) by (apply existsb_exists; exists "010"%byte; split; auto). congruence. Qed.
Definition demo_obj : pyobj :=
  PTuple [PInt 7; PStr (bs "a\b"); PList [PInt (-3); PNone; PInt 12345678901]; PDict [(bs "x", PInt 1); (bs "y", PTuple [])];
          PBuild (PReduce (PGlobal (bs "numpy") (bs "dtype")) [PStr (bs "f8"); PInt 0]) (PTuple [PInt 3; PStr (bs "<")])].
Example C42_demo_dumpable : dumpable (fun _ => []) amd64 demo_obj.
Proof. repeat (constructor || lia || (intros I; cbn in I; intuition discriminate)). Qed.
Example C42_demo : exists v h, Decode amd64 (mkReader (dumps (fun _ => []) demo_obj) true) = Ok (v, h, mkReader [] true) /\ denotes h v demo_obj.
Proof. destruct (C42_dumps (fun _ => []) amd64 demo_obj [] true C42_demo_dumpable) as (v & h & E & D). rewrite app_nil_r in E. eauto. Qed.

(** a string memoised and fetched again, a list with appended elements *)
Example C42_demo_shared : exists s mu, enc amd64 false [] (PList [PStr (bs "s"); PStr (bs "s")]) s mu /\ In "g"%byte s.
Proof.
  eexists _, _. split.
  - eapply (e_list amd64 false [] [] _ _ [] [PStr (bs "s"); PStr (bs "s")]); [constructor|split; [constructor|intros k []]|].
    eapply (ap_cons _ _ _ _ _ (memoise (Some (PStr (bs "s"))) [bs "1"] [])); [eapply (e_put _ _ _ _ _ _ (bs "1")); [apply e_str|]|].
    + split; [repeat constructor; auto|]. intros k [<-|[]]. split; [apply one_line_check; reflexivity|intros []].
    + eapply ap_cons; [|constructor]. apply (e_get _ _ _ _ (bs "1")); [apply one_line_check; reflexivity|]. reflexivity.
  - cbn. tauto.
Qed.

(** the configuration after [n] instructions *)
Fixpoint demo_run (n : nat) (c : config) : option config :=
  match n, rd_bytes (snd c) with
  | O, _ => Some c
  | S n, op :: rest => match step amd64 op (fst c) (mkReader rest (rd_eof (snd c))) with Ok (Some c') => demo_run n c' | _ => None end
  | S _, [] => None
  end.
Lemma demo_run_next : forall c c', demo_run 1 c = Some c' -> next amd64 c c'.
Proof.
  intros [m [b e]] c' H. cbn [demo_run snd rd_bytes fst rd_eof] in H. destruct b as [|op rest]; [discriminate|].
  destruct (step amd64 op m (mkReader rest e)) as [[c1|]| | |] eqn:E; try discriminate. injection H as <-.
  exists op, (mkReader rest e). split; [split; reflexivity|exact E].
Qed.
Lemma demo_run_history : forall n c0 c c', history amd64 (fun _ => False) c0 c -> demo_run n c = Some c' -> history amd64 (fun _ => False) c0 c'.
Proof.
  induction n as [|n IH]; intros c0 c c' H E; [cbn in E; injection E as <-; exact H|].
  cbn [demo_run] in E. destruct (rd_bytes (snd c)) as [|op rest] eqn:B; [discriminate|].
  destruct (step amd64 op (fst c) (mkReader rest (rd_eof (snd c)))) as [[c1|]| | |] eqn:S; try discriminate.
  refine (IH c0 c1 c' _ E). refine (h_next _ _ _ _ _ H (fun F => F) _). exists op, (mkReader rest (rd_eof (snd c))). split; [split; [exact B|reflexivity]|exact S].
Qed.

(** the situation of [C43_dict_is_current]: {} ; put 0; 'k'; 5; setitem; get 0 *)
Definition demo_set : bytes := bs "(dp0" ++ nl1 ++ bs "Vk" ++ nl1 ++ bs "I5" ++ nl1 ++ bs "sg0" ++ nl1 ++ bs ".".
Definition demo_at (n : nat) : config :=
  match demo_run n (newPickleMachine, mkReader demo_set true) with Some c => c | None => (newPickleMachine, mkReader [] true) end.
Example C43_dict_demo : let c0 := demo_at 5 in let c1 := demo_at 6 in let c2 := demo_at 7 in
  occurs amd64 c0 /\ lookup (mMemory (fst c0)) (bs "0") = Some (VDict 0) /\
  at_setitem 0 (bs "k") (VInt 5) c0 /\ next amd64 c0 c1 /\ at_get (bs "0") c1 /\ next amd64 c1 c2.
Proof.
  cbv zeta. split; [exists (mkReader demo_set true); apply (demo_run_history 5 _ _ _ (h_now _ _ _)); vm_compute; reflexivity|].
  split; [vm_compute; reflexivity|]. split; [exists (mkReader (bs "g0" ++ nl1 ++ bs ".") true), []; split; [split; vm_compute; reflexivity|vm_compute; reflexivity]|].
  split; [apply demo_run_next; vm_compute; reflexivity|]. split; [|apply demo_run_next; vm_compute; reflexivity].
  exists (mkReader (bs "0" ++ nl1 ++ bs ".") true), (mkReader (bs ".") true). split; [split; vm_compute; reflexivity|]. split; [reflexivity|]. apply one_line_check; reflexivity.
Qed.

Definition demo_node : SklearnNode := mkSkNode 1 (-2) 3 (fint 5) (f64_of_bits 4591870180066957722) 12 (fneg (fint 1)).
Example C45_demo_node : sknode_ok demo_node.
Proof.
  unfold sknode_ok, int64, demo_node. cbn [skLeftChild skRightChild skFeature skThreshold skImpurity skNNodeSamples skWeightedNNodeSamples].
  repeat match goal with |- _ /\ _ => split end; (lia || (vm_compute; reflexivity)).
Qed.
