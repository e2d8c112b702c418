(** * The pickle reader on a stream that stalls *)

From Coq Require Import ZArith List Bool String Lia.
From Verif Require Import Go GoFloat GoText Ensembles Leaves Pickle SkClasses SkIO Stream Spec_Stream Pf_Stream.
Local Open Scope nat_scope.

Section Mim.
Context {R1 : Type} (sim : R1 -> reader -> Prop).

(** the same but for the text of the error; at most [k] bytes are left *)
Definition mim {A : Type} (k : nat) (x : outcome (A * R1)) (y : outcome (A * reader)) : Prop :=
  match x, y with
  | Ok (a, r), Ok (b, s) => a = b /\ sim r s /\ flat_size s <= k
  | Err _, Err _ => True
  | Panic m, Panic n => m = n
  | Hang, Hang => True
  | _, _ => False
  end.
Lemma mim_bind {A B} k k' (x : outcome (A * R1)) (y : outcome (A * reader)) (f : A * R1 -> outcome (B * R1)) (g : A * reader -> outcome (B * reader)) :
  mim k x y -> (forall a r s, sim r s -> flat_size s <= k -> mim k' (f (a, r)) (g (a, s))) -> mim k' (bind x f) (bind y g).
Proof.
  intros Hx Hf. destruct x as [[a r]| | |], y as [[b s]| | |]; cbn in *; try contradiction; auto.
  destruct Hx as (<- & Hs & Hk). apply Hf; auto.
Qed.
Lemma mim_pure {A B} k (x : outcome A) (f : A -> outcome (B * R1)) (g : A -> outcome (B * reader)) :
  (forall a, mim k (f a) (g a)) -> mim k (bind x f) (bind x g).
Proof. intros H. destruct x; cbn; auto. Qed.

Variables (rb1 : R1 -> outcome (byte * R1)) (size1 : R1 -> nat).
Hypothesis Hrb : forall r s, sim r s -> mim (flat_size s - 1) (rb1 r) (flat_rb s).
Hypothesis Hsize : forall r s, sim r s -> flat_size s <= size1 r.

Lemma rb_left : forall s c s', flat_rb s = Ok (c, s') -> 0 < flat_size s.
Proof. intros [bs eof] c s'. unfold flat_rb, flat_size. cbn. destruct bs; [discriminate|cbn; lia]. Qed.
Lemma rb_bind {B} k r s (f : byte * R1 -> outcome (B * R1)) (g : byte * reader -> outcome (B * reader)) :
  sim r s -> (forall c r' s', sim r' s' -> flat_size s' < flat_size s -> mim k (f (c, r')) (g (c, s'))) -> mim k (bind (rb1 r) f) (bind (flat_rb s) g).
Proof using Hrb.
  intros Hs H. specialize (Hrb r s Hs). destruct (rb1 r) as [[a r']| | |], (flat_rb s) as [[b s']| | |] eqn:E; cbn in *; try contradiction; auto.
  destruct Hrb as (<- & Hs' & Hk). apply H; auto. pose proof (rb_left _ _ _ E). lia.
Qed.
Lemma line_mim n1 : forall n2 line r s, sim r s -> flat_size s < n1 -> flat_size s < n2 -> mim (flat_size s) (r_line_loop rb1 n1 line r) (r_line_loop flat_rb n2 line s).
Proof using Hrb.
  induction n1 as [|n1 IH]; intros n2 line r s Hs H1 H2; [lia|]. destruct n2 as [|n2]; [lia|]. cbn [r_line_loop].
  apply rb_bind; [exact Hs|]. intros c r' s' Hs' Hl. destruct (Byte.eqb c nl); [cbn; repeat split; auto; lia|].
  specialize (IH n2 (line ++ [c]) r' s' Hs' ltac:(lia) ltac:(lia)).
  destruct (r_line_loop rb1 n1 _ r') as [[? ?]| | |], (r_line_loop flat_rb n2 _ s') as [[? ?]| | |]; cbn in *; try contradiction; auto.
  destruct IH as (? & ? & ?). repeat split; auto. lia.
Qed.
Lemma readLine_mim r s : sim r s -> mim (flat_size s) (r_readLine rb1 size1 r) (r_readLine flat_rb flat_size s).
Proof using Hrb Hsize. intros Hs. unfold r_readLine. pose proof (Hsize r s Hs). apply line_mim; [exact Hs|lia|lia]. Qed.

Ltac mim_tac :=
  repeat first
    [ match goal with
      | |- mim _ (Ok _) (Ok _) => split; [reflexivity | split; [assumption | lia]]
      | |- mim _ (Err _) (Err _) => exact I
      | |- mim _ (Panic _) (Panic _) => reflexivity
      | |- mim _ Hang Hang => exact I
      | |- mim _ (bind ?x _) (bind ?x _) => apply mim_pure; intros ?
      | |- mim _ (match ?x with _ => _ end) (match ?x with _ => _ end) => destruct x
      end ].
Lemma step_mim p op m r s : sim r s -> mim (flat_size s) (r_step rb1 size1 p op m r) (r_step flat_rb flat_size p op m s).
Proof using Hrb Hsize.
  intros Hs. unfold r_step, Errorf. destruct op; try exact I;
  try (eapply mim_bind; [apply readLine_mim; eassumption|]; intros line r1 s1 Hs1 Hk1);
  try (eapply mim_bind; [apply readLine_mim; eassumption|]; intros line2 r2 s2 Hs2 Hk2);
  mim_tac.
Qed.
Lemma decode_mim p n1 : forall n2 m r s, sim r s -> flat_size s < n1 -> flat_size s < n2 ->
  mim (flat_size s) (r_decode_loop rb1 size1 p n1 m r) (r_decode_loop flat_rb flat_size p n2 m s).
Proof using Hrb Hsize.
  induction n1 as [|n1 IH]; intros n2 m r s Hs H1 H2; [lia|]. destruct n2 as [|n2]; [lia|]. cbn [r_decode_loop].
  apply rb_bind; [exact Hs|]. intros op r' s' Hs' Hl. eapply mim_bind; [apply step_mim; exact Hs'|]. intros o r2 s2 Hs2 Hk2.
  destruct o as [m'|].
  - specialize (IH n2 m' r2 s2 Hs2 ltac:(lia) ltac:(lia)).
    destruct (r_decode_loop rb1 size1 p n1 m' r2) as [[? ?]| | |], (r_decode_loop flat_rb flat_size p n2 m' s2) as [[? ?]| | |]; cbn in *; try contradiction; auto.
    destruct IH as (? & ? & ?). repeat split; auto. lia.
  - apply mim_pure. intros v. cbn. repeat split; auto. lia.
Qed.

Lemma sk_mim p r s load : sim r s -> same_verdict (r_SKEnsembleFromReader rb1 size1 p r load) (r_SKEnsembleFromReader flat_rb flat_size p s load).
Proof using Hrb Hsize.
  intros Hs. unfold r_SKEnsembleFromReader, r_Decode. pose proof (Hsize r s Hs).
  pose proof (decode_mim p (S (size1 r)) (S (flat_size s)) newPickleMachine r s Hs ltac:(lia) ltac:(lia)) as K.
  destruct (r_decode_loop rb1 size1 p (S (size1 r)) newPickleMachine r) as [[[v h] r']| | |], (r_decode_loop flat_rb flat_size p (S (flat_size s)) newPickleMachine s) as [[[v' h'] s']| | |]; cbn in *; try contradiction; auto; try congruence.
  destruct K as (K & _). injection K as <- <-. unfold same_verdict. destruct (let* gb := ParseGradientBoosting p h v in SKEnsembleFromClass p gb); auto.
Qed.
End Mim.

(** the stream as the pickle reader sees it *)
Definition stalled (b : bufr) (r : reader) : Prop :=
  in_order (fun _ => True) b /\ br_buf b ++ List.concat (until_stall (src_pieces (br_src b))) = rd_bytes r.
Lemma until_stall_cons c rest : c <> [] -> until_stall (c :: rest) = c :: until_stall rest.
Proof. destruct c; [congruence|reflexivity]. Qed.
Lemma until_stall_le pieces : List.length (List.concat (until_stall pieces)) <= List.length (List.concat pieces).
Proof. induction pieces as [|[|x c] rest IH]; cbn; [lia|lia|]. rewrite !app_length. lia. Qed.
Lemma stalled_left b r : stalled b r -> flat_size r <= left b.
Proof. intros (_ & H). unfold flat_size, left, contents. rewrite <- H, !app_length. pose proof (until_stall_le (src_pieces (br_src b))). lia. Qed.
Lemma ReadOne_stalled b r : stalled b r -> mim stalled (flat_size r - 1) (buf_ReadOne b) (flat_rb r).
Proof.
  destruct b as [buf err src], r as [bs eof]. intros ((_ & Hlen & Herr) & H). cbn in *. unfold buf_ReadOne, buf_Read, flat_rb. cbn [br_buf br_err br_src rd_bytes rd_eof].
  destruct buf as [|c buf].
  - cbn in H. destruct err as [x|].
    { destruct (Herr x eq_refl) as [_ Hp]. rewrite Hp in H. cbn in H. subst bs. exact I. }
    replace (rbufsize <=? 1) with false by (symmetry; apply Nat.leb_gt; apply rbufsize_pos).
    unfold src_read. destruct (src_pieces src) as [|c rest] eqn:P; [cbn in H; subst bs; exact I|].
    destruct c as [|x c].
    { cbn in H. subst bs. cbn. destruct rest; [destruct (src_with_data src)|]; exact I. }
    rewrite until_stall_cons in H by discriminate. cbn [List.concat] in H.
    destruct (List.length (x :: c) <=? rbufsize) eqn:L.
    + apply Nat.leb_le in L. cbn [firstn skipn app] in *. subst bs. cbn. split; [reflexivity|]. split; [|unfold flat_size; cbn; lia]. split; [|reflexivity].
      split; [exact I|]. split; [cbn in *; lia|]. cbn. intros e He. destruct rest; [|discriminate]. destruct (src_with_data src); [|discriminate]. injection He as <-. split; reflexivity.
    + apply Nat.leb_gt in L. pose proof rbufsize_pos as P4. destruct rbufsize as [|n] eqn:N; [lia|]. cbn [firstn skipn app] in *. subst bs. cbn. split; [reflexivity|]. split; [|unfold flat_size; cbn; lia]. split.
      * split; [exact I|]. split; [rewrite N; cbn [br_buf]; rewrite firstn_length; lia|]. cbn. discriminate.
      * cbn [br_buf br_src src_next src_pieces rd_bytes]. rewrite until_stall_cons; [|intros E; apply (f_equal (@List.length byte)) in E; rewrite skipn_length in E; cbn in *; lia].
        cbn [List.concat]. rewrite app_assoc, firstn_skipn. reflexivity.
  - cbn in H. subst bs. cbn. split; [reflexivity|]. split; [|unfold flat_size; cbn; lia]. split; [|reflexivity].
    split; [exact I|]. split; [cbn in *; lia|]. cbn. exact Herr.
Qed.
