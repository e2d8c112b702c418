(** * Proofs about streams that arrive in pieces *)

From Coq Require Import ZArith List Bool Lia String.
From Verif Require Import Go GoFloat GoText UtilText LgTree Ensembles Transformation Leaves LgTextIO XgBin XgIO Pickle SkClasses SkIO Mat MatIO Stream Spec_Stream Pf_Text.
Local Open Scope Z_scope.

(** ** Two readers that behave alike *)
Section Sim.
Context {R1 R2 : Type} (sim : R1 -> R2 -> Prop).

Definition alike {A : Type} (x : outcome (A * R1)) (y : outcome (A * R2)) : Prop :=
  match x, y with
  | Ok (a, r), Ok (b, s) => a = b /\ sim r s
  | Err m, Err n => m = n
  | Panic m, Panic n => m = n
  | Hang, Hang => True
  | _, _ => False
  end.

Lemma alike_bind {A B} (x : outcome (A * R1)) (y : outcome (A * R2)) (f : A * R1 -> outcome (B * R1)) (g : A * R2 -> outcome (B * R2)) :
  alike x y -> (forall a r s, sim r s -> alike (f (a, r)) (g (a, s))) -> alike (bind x f) (bind y g).
Proof.
  intros Hx Hf. destruct x as [[a r]| | |], y as [[b s]| | |]; cbn in *; try contradiction; auto.
  destruct Hx as [<- Hs]. apply Hf; auto.
Qed.

Lemma alike_pure {A B} (x : outcome A) (f : A -> outcome (B * R1)) (g : A -> outcome (B * R2)) :
  (forall a, alike (f a) (g a)) -> alike (bind x f) (bind x g).
Proof. intros H. destruct x; cbn; auto. Qed.

(** results without the reader *)
Lemma alike_end {A B} (x : outcome (A * R1)) (y : outcome (A * R2)) (f : A * R1 -> outcome B) (g : A * R2 -> outcome B) :
  alike x y -> (forall a r s, sim r s -> f (a, r) = g (a, s)) -> bind x f = bind y g.
Proof.
  intros Hx Hf. destruct x as [[a r]| | |], y as [[b s]| | |]; cbn in *; try contradiction; try congruence.
  destruct Hx as [<- Hs]. apply Hf; auto.
Qed.

Ltac alike_tac :=
  repeat first
    [ assumption
    | progress cbn [fst snd]
    | match goal with
      | |- alike (Ok _) (Ok _) => split; [reflexivity | assumption]
      | |- alike (Err _) (Err _) => reflexivity
      | |- alike (Panic _) (Panic _) => reflexivity
      | |- alike Hang Hang => exact I
      | H : forall _ _, _ -> alike (?f _) (?g _) |- alike (?f _) (?g _) => apply H
      | H : forall _ _ _, _ -> alike (?f _ _) (?g _ _) |- alike (?f _ _) (?g _ _) => apply H
      | |- alike (bind ?x _) (bind ?x _) => apply alike_pure; intros ?
      | |- alike (bind _ _) (bind _ _) => apply alike_bind; [| intros ? ? ? ?]
      | |- alike (match ?x with _ => _ end) (match ?x with _ => _ end) => destruct x
      end ].

Section Lines.
Variables (rs1 : R1 -> outcome (bytes * rderr * R1)) (rs2 : R2 -> outcome (bytes * rderr * R2)) (size1 : R1 -> nat) (size2 : R2 -> nat).
Hypothesis Hrs : forall r s, sim r s -> alike (rs1 r) (rs2 s).
Hypothesis Hsize : forall r s, sim r s -> size1 r = size2 s.

Lemma params_loop_alike fuel : forall ps line r s, sim r s ->
  alike (r_params_loop rs1 fuel ps line r) (r_params_loop rs2 fuel ps line s).
Proof using Hrs.
  induction fuel as [|fuel IH]; intros ps line r s Hs; [exact I|]. cbn [r_params_loop].
  alike_tac; apply IH; assumption.
Qed.
Lemma ReadParams_alike r s : sim r s -> alike (r_ReadParamsUntilBlank rs1 size1 r) (r_ReadParamsUntilBlank rs2 size2 s).
Proof using Hrs Hsize.
  intros Hs. unfold r_ReadParamsUntilBlank. rewrite (Hsize r s Hs).
  alike_tac; apply params_loop_alike; assumption.
Qed.
Lemma read_trees_alike p n : forall r s, sim r s -> alike (r_read_trees rs1 size1 p n r) (r_read_trees rs2 size2 p n s).
Proof using Hrs Hsize.
  induction n as [|n IH]; intros r s Hs; [split; auto|]. cbn [r_read_trees]. unfold r_lgTreeFromReader.
  alike_tac; try apply ReadParams_alike; try apply IH; assumption.
Qed.
Lemma lg_alike p r s load : sim r s ->
  r_LGEnsembleFromReader rs1 size1 p r load = r_LGEnsembleFromReader rs2 size2 p s load.
Proof using Hrs Hsize.
  intros Hs. unfold r_LGEnsembleFromReader.
  apply alike_end; [apply ReadParams_alike; assumption|]. intros ps r' s' Hs'.
  destruct (lg_header ps) as [[e n]| | |]; cbn [bind]; auto.
  destruct (lg_transform _ _ _ _); cbn [bind]; auto.
  apply alike_end; [apply read_trees_alike; assumption|]. reflexivity.
Qed.
Lemma rows_alike {St} fuel limit parse (f : St -> _ -> outcome St) : forall rows st r s, sim r s ->
  alike (r_read_rows rs1 fuel limit parse f rows st r) (r_read_rows rs2 fuel limit parse f rows st s).
Proof using Hrs.
  induction fuel as [|fuel IH]; intros rows st r s Hs; [exact I|]. cbn [r_read_rows].
  alike_tac; apply IH; assumption.
Qed.
Lemma libsvm_alike p r s limit skip : sim r s ->
  alike (r_DenseMatFromLibsvm rs1 size1 p r limit skip) (r_DenseMatFromLibsvm rs2 size2 p s limit skip).
Proof using Hrs Hsize. intros Hs. unfold r_DenseMatFromLibsvm. rewrite (Hsize r s Hs). apply rows_alike; assumption. Qed.
Lemma csr_alike p r s limit skip : sim r s ->
  alike (r_CSRMatFromLibsvm rs1 size1 p r limit skip) (r_CSRMatFromLibsvm rs2 size2 p s limit skip).
Proof using Hrs Hsize. intros Hs. unfold r_CSRMatFromLibsvm. rewrite (Hsize r s Hs). apply rows_alike; assumption. Qed.
Lemma csv_alike p r s limit skip delim def : sim r s ->
  alike (r_DenseMatFromCsv rs1 size1 p r limit skip delim def) (r_DenseMatFromCsv rs2 size2 p s limit skip delim def).
Proof using Hrs Hsize. intros Hs. unfold r_DenseMatFromCsv. rewrite (Hsize r s Hs). apply rows_alike; assumption. Qed.
End Lines.

Section Blocks.
Variables (rf1 : Z -> R1 -> outcome (bytes * R1)) (rf2 : Z -> R2 -> outcome (bytes * R2)).
Hypothesis Hrf : forall n r s, sim r s -> alike (rf1 n r) (rf2 n s).

Ltac struct_tac :=
  intros Hs; apply alike_bind; [apply Hrf; assumption|]; intros b r' s' Hs';
  repeat match goal with |- context [dec_u32 ?b] => destruct (dec_u32 b) | |- context [dec_i32 ?b] => destruct (dec_i32 b)
                    | |- context [dec_i64 ?b] => destruct (dec_i64 b) | |- context [dec_list dec_i32 ?n ?b] => destruct (dec_list dec_i32 n b) end;
  split; [reflexivity | assumption].
Lemma Learner_alike r s : sim r s -> alike (r_ReadStruct_Learner rf1 r) (r_ReadStruct_Learner rf2 s).
Proof using Hrf. unfold r_ReadStruct_Learner. struct_tac. Qed.
Lemma GBTreeParam_alike r s : sim r s -> alike (r_ReadStruct_GBTreeParam rf1 r) (r_ReadStruct_GBTreeParam rf2 s).
Proof using Hrf. unfold r_ReadStruct_GBTreeParam. struct_tac. Qed.
Lemma TreeParam_alike r s : sim r s -> alike (r_ReadStruct_TreeParam rf1 r) (r_ReadStruct_TreeParam rf2 s).
Proof using Hrf. unfold r_ReadStruct_TreeParam. struct_tac. Qed.
Lemma Node_alike r s : sim r s -> alike (r_ReadStruct_Node rf1 r) (r_ReadStruct_Node rf2 s).
Proof using Hrf. unfold r_ReadStruct_Node. struct_tac. Qed.
Lemma Stat_alike r s : sim r s -> alike (r_ReadStruct_Stat rf1 r) (r_ReadStruct_Stat rf2 s).
Proof using Hrf. unfold r_ReadStruct_Stat. struct_tac. Qed.
Lemma GBLinearParam_alike r s : sim r s -> alike (r_ReadStruct_GBLinearParam rf1 r) (r_ReadStruct_GBLinearParam rf2 s).
Proof using Hrf. unfold r_ReadStruct_GBLinearParam. struct_tac. Qed.
Lemma u64_alike r s : sim r s -> alike (r_read_u64 rf1 r) (r_read_u64 rf2 s).
Proof using Hrf. intros Hs. unfold r_read_u64. alike_tac. Qed.
Lemma ReadString_alike p r s : sim r s -> alike (r_ReadString rf1 p r) (r_ReadString rf2 p s).
Proof using Hrf. intros Hs. unfold r_ReadString. alike_tac; try apply u64_alike; assumption. Qed.
Lemma Float32_alike p r s : sim r s -> alike (r_ReadFloat32Slice rf1 p r) (r_ReadFloat32Slice rf2 p s).
Proof using Hrf. intros Hs. unfold r_ReadFloat32Slice. alike_tac; try apply u64_alike; assumption. Qed.
Lemma ModelHeader_alike p r s : sim r s -> alike (r_ReadModelHeader rf1 p r) (r_ReadModelHeader rf2 p s).
Proof using Hrf. intros Hs. unfold r_ReadModelHeader. alike_tac; try apply Learner_alike; try apply ReadString_alike; assumption. Qed.
Lemma read_n_alike {A} (rd1 : R1 -> outcome (A * R1)) (rd2 : R2 -> outcome (A * R2)) :
  (forall r s, sim r s -> alike (rd1 r) (rd2 s)) ->
  forall n r s, sim r s -> alike (r_read_n rd1 n r) (r_read_n rd2 n s).
Proof.
  intros Hrd n. induction n as [|n IH]; intros r s Hs; [split; auto|]. cbn [r_read_n].
  apply alike_bind; [apply Hrd; assumption|]. intros x r' s' Hs'. apply alike_bind; [apply IH; assumption|].
  intros xs r'' s'' Hs''. split; auto.
Qed.
Lemma TreeModel_alike p r s : sim r s -> alike (r_ReadTreeModel rf1 p r) (r_ReadTreeModel rf2 p s).
Proof using Hrf.
  intros Hs. unfold r_ReadTreeModel. apply alike_bind; [apply TreeParam_alike; assumption|]. intros param r1 s1 Hs1.
  apply alike_pure. intros _.
  apply alike_bind; [apply read_n_alike; [exact Node_alike | assumption]|]. intros nodes r2 s2 Hs2.
  apply alike_bind; [apply read_n_alike; [exact Stat_alike | assumption]|]. intros stats r3 s3 Hs3.
  destruct (0 <? _); [|split; auto]. apply alike_bind; [apply Float32_alike; assumption|]. intros w r4 s4 Hs4. split; auto.
Qed.
Lemma GBTreeModel_alike p r s : sim r s -> alike (r_ReadGBTreeModel rf1 p r) (r_ReadGBTreeModel rf2 p s).
Proof using Hrf.
  intros Hs. unfold r_ReadGBTreeModel. apply alike_bind; [apply GBTreeParam_alike; assumption|]. intros param r1 s1 Hs1.
  apply alike_bind; [apply read_n_alike; [apply TreeModel_alike | assumption]|]. intros trees r2 s2 Hs2.
  destruct (0 <? _); [|split; auto]. apply alike_pure. intros _.
  apply alike_bind; [apply Hrf; assumption|]. intros b r3 s3 Hs3. split; auto.
Qed.
Lemma GBLinearModel_alike p r s : sim r s -> alike (r_ReadGBLinearModel rf1 p r) (r_ReadGBLinearModel rf2 p s).
Proof using Hrf.
  intros Hs. unfold r_ReadGBLinearModel. alike_tac; try apply GBLinearParam_alike; try apply Float32_alike; assumption.
Qed.
Lemma weights_alike p dart n r s : sim r s -> alike (r_xg_weights rf1 p dart n r) (r_xg_weights rf2 p dart n s).
Proof using Hrf.
  intros Hs. unfold r_xg_weights. apply alike_pure. intros _. destruct dart; [|split; auto].
  apply alike_bind; [apply Float32_alike; assumption|]. intros w r1 s1 Hs1. destruct (negb _); [reflexivity | split; auto].
Qed.
Lemma xg_rest_alike p r s load : sim r s -> alike (r_xg_ensemble_and_rest rf1 p r load) (r_xg_ensemble_and_rest rf2 p s load).
Proof using Hrf.
  intros Hs. unfold r_xg_ensemble_and_rest. apply alike_bind; [apply ModelHeader_alike; assumption|]. intros h r1 s1 Hs1.
  apply alike_pure. intros name. cbn zeta. destruct (lmNumFeatures _ =? 0); [reflexivity|].
  apply alike_bind; [apply GBTreeModel_alike; assumption|]. intros model r2 s2 Hs2.
  destruct (s32 _ <? _); [reflexivity|].
  apply alike_bind; [apply weights_alike; assumption|]. intros w r3 s3 Hs3.
  destruct (negb (gpNumRoots _ =? 1)); [reflexivity|]. destruct (negb (zlen _ =? _)); [reflexivity|].
  destruct (negb (check_tree_info _ _ _)); [reflexivity|]. apply alike_pure. intros tr.
  destruct (gpNumTrees _ =? 0); [reflexivity|]. apply alike_pure. intros ts. split; auto.
Qed.
Lemma xgblinear_rest_alike p r s load : sim r s -> alike (r_xgblinear_and_rest rf1 p r load) (r_xgblinear_and_rest rf2 p s load).
Proof using Hrf.
  intros Hs. unfold r_xgblinear_and_rest. apply alike_bind; [apply ModelHeader_alike; assumption|]. intros h r1 s1 Hs1.
  destruct (negb _); [reflexivity|]. destruct (_ =? 0); [reflexivity|].
  apply alike_bind; [apply GBLinearModel_alike; assumption|]. intros model r2 s2 Hs2.
  apply alike_pure. intros tr. split; auto.
Qed.
Lemma xg_alike p r s load : sim r s -> r_XGEnsembleFromReader rf1 p r load = r_XGEnsembleFromReader rf2 p s load.
Proof using Hrf. intros Hs. apply alike_end; [apply xg_rest_alike; assumption|]. reflexivity. Qed.
Lemma xgblinear_alike p r s load : sim r s -> r_XGBLinearFromReader rf1 p r load = r_XGBLinearFromReader rf2 p s load.
Proof using Hrf. intros Hs. apply alike_end; [apply xgblinear_rest_alike; assumption|]. reflexivity. Qed.
End Blocks.

Section Bytes_.
Variables (rb1 : R1 -> outcome (byte * R1)) (rb2 : R2 -> outcome (byte * R2)) (size1 : R1 -> nat) (size2 : R2 -> nat).
Hypothesis Hrb : forall r s, sim r s -> alike (rb1 r) (rb2 s).
Hypothesis Hsize : forall r s, sim r s -> size1 r = size2 s.
Lemma line_alike fuel : forall line r s, sim r s -> alike (r_line_loop rb1 fuel line r) (r_line_loop rb2 fuel line s).
Proof using Hrb.
  induction fuel as [|fuel IH]; intros line r s Hs; [exact I|]. cbn [r_line_loop].
  apply alike_bind; [apply Hrb; assumption|]. intros c r1 s1 Hs1. destruct (Byte.eqb c nl); [split; auto | apply IH; assumption].
Qed.
Lemma readLine_alike r s : sim r s -> alike (r_readLine rb1 size1 r) (r_readLine rb2 size2 s).
Proof using Hrb Hsize. intros Hs. unfold r_readLine. rewrite (Hsize r s Hs). apply line_alike; assumption. Qed.
Lemma step_alike p op m r s : sim r s -> alike (r_step rb1 size1 p op m r) (r_step rb2 size2 p op m s).
Proof using Hrb Hsize.
  intros Hs. unfold r_step, Errorf. destruct op; try reflexivity;
  try (apply alike_bind; [apply readLine_alike; assumption|]; intros line r1 s1 Hs1);
  try (apply alike_bind; [apply readLine_alike; assumption|]; intros line2 r2 s2 Hs2);
  alike_tac.
Qed.
Lemma decode_alike p fuel : forall m r s, sim r s -> alike (r_decode_loop rb1 size1 p fuel m r) (r_decode_loop rb2 size2 p fuel m s).
Proof using Hrb Hsize.
  induction fuel as [|fuel IH]; intros m r s Hs; [exact I|]. cbn [r_decode_loop].
  apply alike_bind; [apply Hrb; assumption|]. intros op r1 s1 Hs1.
  apply alike_bind; [apply step_alike; assumption|]. intros o r2 s2 Hs2.
  destruct o; [apply IH; assumption|]. apply alike_pure. intros v. split; auto.
Qed.
Lemma sk_alike p r s load : sim r s -> r_SKEnsembleFromReader rb1 size1 p r load = r_SKEnsembleFromReader rb2 size2 p s load.
Proof using Hrb Hsize.
  intros Hs. unfold r_SKEnsembleFromReader, r_Decode. rewrite (Hsize r s Hs).
  apply alike_end; [apply decode_alike; assumption|]. reflexivity.
Qed.
End Bytes_.
End Sim.

(** ** Over plain bytes the loaders are those of the other files *)
Definition flat_rs (r : reader) : outcome (bytes * rderr * reader) := Ok (read_string r).
Definition flat_rb (r : reader) : outcome (byte * reader) :=
  match rd_bytes r with [] => Err "read error" | c :: rest => Ok (c, mkReader rest (rd_eof r)) end.
Definition flat_size (r : reader) : nat := List.length (rd_bytes r).

Lemma params_loop_flat fuel ps line r : r_params_loop flat_rs fuel ps line r = params_loop fuel ps line r.
Proof. reflexivity. Qed.
Lemma LGEnsemble_flat p r load : r_LGEnsembleFromReader flat_rs flat_size p r load = LGEnsembleFromReader p r load.
Proof. reflexivity. Qed.
Lemma DenseMatFromLibsvm_flat p r limit skip : r_DenseMatFromLibsvm flat_rs flat_size p r limit skip = DenseMatFromLibsvm p r limit skip.
Proof. reflexivity. Qed.
Lemma CSRMatFromLibsvm_flat p r limit skip : r_CSRMatFromLibsvm flat_rs flat_size p r limit skip = CSRMatFromLibsvm p r limit skip.
Proof. reflexivity. Qed.
Lemma DenseMatFromCsv_flat p r limit skip delim def :
  r_DenseMatFromCsv flat_rs flat_size p r limit skip delim def = DenseMatFromCsv p r limit skip delim def.
Proof. reflexivity. Qed.
Lemma XGEnsemble_flat p r load : r_XGEnsembleFromReader read_full p r load = XGEnsembleFromReader p r load.
Proof. reflexivity. Qed.
Lemma XGBLinear_flat p r load : r_XGBLinearFromReader read_full p r load = XGBLinearFromReader p r load.
Proof. reflexivity. Qed.

Lemma line_flat eof fuel : forall bs acc, (List.length bs < fuel)%nat ->
  r_line_loop flat_rb fuel acc (mkReader bs eof) =
  match cut_line bs with Some (l, rest) => Ok (acc ++ removelast l, mkReader rest eof) | None => Err "read error" end.
Proof.
  induction fuel as [|fuel IH]; intros bs acc Hf; [lia|]. cbn [r_line_loop]. unfold flat_rb at 1. cbn [rd_bytes rd_eof].
  destruct bs as [|c bs]; [reflexivity|]. cbn [bind cut_line List.length] in *.
  destruct (Byte.eqb c nl); [now rewrite app_nil_r|].
  rewrite IH by lia. destruct (cut_line bs) as [[l rest]|] eqn:E; [|reflexivity].
  rewrite <- app_assoc. cbn [removelast app]. destruct l as [|d l]; [|reflexivity].
  exfalso. clear - E. destruct bs as [|x bs]; cbn in E; [discriminate|]. destruct (Byte.eqb x nl); [discriminate|].
  destruct (cut_line bs) as [[? ?]|]; discriminate.
Qed.
Lemma readLine_flat r : r_readLine flat_rb flat_size r = readLine r.
Proof.
  destruct r as [bs eof]. unfold r_readLine, readLine. rewrite line_flat by (cbn; lia). reflexivity.
Qed.
Lemma step_flat p op m r :
  r_step flat_rb flat_size p op m r =
  match step p op m r with
  | Ok (Some (m', r')) => Ok (Some m', r')
  | Ok None => Ok (None, r)
  | Err e => Err e | Panic e => Panic e | Hang => Hang
  end.
Proof.
  unfold r_step, step, Errorf. destruct op; try reflexivity; rewrite ?readLine_flat;
  repeat (first [ reflexivity
    | match goal with
      | |- context [bind (readLine ?r) _] => destruct (readLine r) as [[? ?]| | |]; cbn [bind]; rewrite ?readLine_flat
      | |- context [bind ?x _] => destruct x; cbn [bind]
      | |- context [match ?x with _ => _ end] => destruct x; cbn [bind]
      end ]).
Qed.
Lemma decode_flat p fuel : forall m r, r_decode_loop flat_rb flat_size p fuel m r = decode_loop p fuel m r.
Proof.
  induction fuel as [|fuel IH]; intros m r; [reflexivity|]. cbn [r_decode_loop decode_loop]. unfold flat_rb at 1.
  destruct (rd_bytes r) as [|op rest]; [reflexivity|]. cbn [bind]. rewrite step_flat.
  destruct (step p op m _) as [[[m' r']|]| | |]; cbn [bind]; auto.
Qed.
Lemma SKEnsemble_flat p r load : r_SKEnsembleFromReader flat_rb flat_size p r load = SKEnsembleFromReader p r load.
Proof. unfold r_SKEnsembleFromReader, SKEnsembleFromReader, r_Decode, Decode. now rewrite decode_flat. Qed.

(** ** bufio.Reader delivers the stream, however it arrives *)
Opaque rbufsize.
Lemma rbufsize_pos : (1 < rbufsize)%nat.
Proof. Transparent rbufsize. apply Nat.ltb_lt. vm_compute. reflexivity. Opaque rbufsize. Qed.

Lemma cut_line_app a : forall b l rest, cut_line a = Some (l, rest) -> cut_line (a ++ b) = Some (l, rest ++ b).
Proof.
  induction a as [|c a IH]; intros b l rest H; cbn [cut_line app] in *; [discriminate|]. destruct (Byte.eqb c nl).
  - now injection H as <- <-.
  - destruct (cut_line a) as [[l' r']|]; [|discriminate]. injection H as <- <-. now rewrite (IH b _ _ eq_refl).
Qed.
Lemma cut_line_app_none a b : cut_line a = None ->
  cut_line (a ++ b) = match cut_line b with Some (l, rest) => Some (a ++ l, rest) | None => None end.
Proof.
  induction a as [|c a IH]; intros H; cbn [cut_line app] in *.
  - destruct (cut_line b) as [[? ?]|]; reflexivity.
  - destruct (Byte.eqb c nl); [discriminate|]. destruct (cut_line a) as [[? ?]|]; [discriminate|].
    rewrite IH by reflexivity. destruct (cut_line b) as [[? ?]|]; reflexivity.
Qed.
Lemma cut_line_parts a l rest : cut_line a = Some (l, rest) -> a = l ++ rest.
Proof.
  revert l rest. induction a as [|c a IH]; intros l rest H; cbn [cut_line] in *; [discriminate|]. destruct (Byte.eqb c nl).
  - now injection H as <- <-.
  - destruct (cut_line a) as [[l' r']|]; [|discriminate]. injection H as <- <-. cbn. f_equal. now apply IH.
Qed.

Lemma patient_next n s rest c : patient n s -> src_pieces s = c :: rest -> patient n (src_next s rest).
Proof. intros H E before after E'. cbn in E'. apply (H (c :: before) after). rewrite E, E'. reflexivity. Qed.
Lemma patient_cut n s rest c d : (0 < n)%nat -> d <> [] -> patient n s -> src_pieces s = c :: rest -> patient n (src_next s (d :: rest)).
Proof.
  intros Hn Hd H E before after E'. cbn in E'. destruct before as [|x before].
  - destruct n; [lia|]. cbn in E'. congruence.
  - injection E' as E1 E2. apply (H (c :: before) after). rewrite E, E2. reflexivity.
Qed.

(** what one call of Read does *)
Lemma src_read_ok n s d e s' : (0 < n)%nat -> src_read n s = (d, e, s') ->
  delivers s = d ++ delivers s' /\ (List.length d <= n)%nat /\ src_eof s' = src_eof s /\
  (forall x, e = Some x -> x = src_end s' /\ src_pieces s' = []) /\
  (e = None -> (List.length (src_pieces s') + List.length (delivers s') < List.length (src_pieces s) + List.length (delivers s))%nat) /\
  (e = None -> d = [] -> src_pieces s = [] :: src_pieces s') /\
  (forall k, (0 < k)%nat -> patient k s -> patient k s').
Proof.
  intros Hn. unfold src_read, delivers. destruct (src_pieces s) as [|c rest] eqn:E.
  - intros H. injection H as <- <- <-. rewrite E. split; [reflexivity|]. split; [cbn; lia|]. split; [reflexivity|].
    split; [intros x Hx; injection Hx as <-; split; reflexivity|]. split; [discriminate|]. split; [discriminate|]. auto.
  - destruct (List.length c <=? n)%nat eqn:L.
    + apply Nat.leb_le in L. intros H. injection H as <- <- <-. cbn [src_next src_pieces src_eof List.concat].
      split; [reflexivity|]. split; [exact L|]. split; [reflexivity|].
      split. { intros x Hx. destruct rest; [|discriminate]. destruct (src_with_data s); [|discriminate]. injection Hx as <-. split; reflexivity. }
      split. { intros _. rewrite app_length. cbn [List.length]. lia. }
      split. { intros _ ->. reflexivity. }
      intros k Hk Hp. eapply patient_next; eauto.
    + apply Nat.leb_gt in L. intros H. injection H as <- <- <-. cbn [src_next src_pieces src_eof List.concat].
      split. { rewrite app_assoc, firstn_skipn. reflexivity. }
      split. { rewrite firstn_length. lia. }
      split; [reflexivity|]. split; [discriminate|].
      split. { intros _. cbn [List.length]. rewrite !app_length, skipn_length. lia. }
      split. { intros _ H. apply (f_equal (@List.length byte)) in H. rewrite firstn_length in H. cbn in H. lia. }
      intros k Hk Hp. eapply patient_cut; eauto. intros H. apply (f_equal (@List.length byte)) in H. rewrite skipn_length in H. cbn in H. lia.
Qed.

(** a bufio.Reader in order, about a stream of which [Q] holds *)
Definition in_order (Q : source -> Prop) (b : bufr) : Prop :=
  Q (br_src b) /\ (List.length (br_buf b) <= rbufsize)%nat /\
  (forall e, br_err b = Some e -> e = src_end (br_src b) /\ src_pieces (br_src b) = []).
Definition stays (Q : source -> Prop) : Prop := forall n s d e s', (0 < n)%nat -> src_read n s = (d, e, s') -> Q s -> Q s'.
Definition shows (Q : source -> Prop) (b : bufr) (r : reader) : Prop :=
  in_order Q b /\ contents b = rd_bytes r /\ src_eof (br_src b) = rd_eof r.

Lemma stays_patient n : (0 < n)%nat -> stays (patient n).
Proof. intros Hn m s d e s' Hm H Hp. destruct (src_read_ok m s d e s' Hm H) as (_ & _ & _ & _ & _ & _ & K). auto. Qed.
Lemma stays_any : stays (fun _ => True).
Proof. intros n s d e s'. auto. Qed.

Lemma patient_lasting n s : patient n s -> lasting n s.
Proof. intros H before after E. exfalso. now apply (H before after). Qed.
Lemma stays_lasting n : (0 < n)%nat -> stays (lasting n).
Proof.
  intros Hn m s d e s' Hm E H before after E'. unfold src_read in E. destruct (src_pieces s) as [|c rest] eqn:P.
  - injection E as <- <- <-. now apply (H before after).
  - destruct (List.length c <=? m)%nat eqn:L.
    + injection E as <- <- <-. cbn in *. apply (H (c :: before) after). rewrite P, E'. reflexivity.
    + injection E as <- <- <-. cbn [src_next src_pieces src_with_data] in *. apply Nat.leb_gt in L. destruct before as [|x before].
      * exfalso. destruct n; [lia|]. cbn in E'. injection E' as E' _. apply (f_equal (@List.length byte)) in E'. rewrite skipn_length in E'. cbn in E'. lia.
      * injection E' as E1 E2. apply (H (c :: before) after). rewrite P, E2. reflexivity.
Qed.
Lemma src_read_nothing n s s' : src_read n s = ([], None, s') -> src_with_data s' = src_with_data s /\ (src_pieces s' = [] -> src_with_data s = false).
Proof.
  unfold src_read. destruct (src_pieces s) as [|c rest]; [discriminate|]. destruct (List.length c <=? n)%nat.
  - intros E. injection E as -> E <-. split; [reflexivity|]. cbn. intros ->. now destruct (src_with_data s).
  - intros E. injection E as _ <-. split; [reflexivity|]. discriminate.
Qed.

Lemma fill_ok tries : forall b, in_order (lasting 100) b -> br_err b = None -> (List.length (br_buf b) < rbufsize)%nat ->
  (forall after, src_pieces (br_src b) = repeat [] tries ++ after -> src_with_data (br_src b) = true /\ after = [] /\ (0 < tries)%nat) ->
  in_order (lasting 100) (fill tries b) /\ contents (fill tries b) = contents b /\
  src_eof (br_src (fill tries b)) = src_eof (br_src b) /\
  (List.length (br_buf b) <= List.length (br_buf (fill tries b)))%nat /\
  (br_err (fill tries b) = None -> (List.length (br_buf b) < List.length (br_buf (fill tries b)))%nat).
Proof.
  induction tries as [|tries IH]; intros b Hin He Hl Hp.
  - exfalso. destruct (Hp (src_pieces (br_src b)) eq_refl) as (_ & _ & H). lia.
  - cbn [fill]. destruct (src_read (rbufsize - List.length (br_buf b)) (br_src b)) as [[d e] s] eqn:E.
    destruct Hin as (Hq & Hlen & _).
    destruct (src_read_ok (rbufsize - List.length (br_buf b)) (br_src b) d e s) as (K1 & K2 & K3 & K4 & K5 & K6 & K7); [lia | exact E |].
    assert (In' : in_order (lasting 100) (mkBufr (br_buf b ++ d) e s)).
    { unfold in_order. cbn [br_src br_buf br_err]. split; [refine (stays_lasting 100 _ _ _ _ _ _ _ E Hq); lia|]. split; [rewrite app_length; lia | exact K4]. }
    assert (Co : contents (mkBufr (br_buf b ++ d) e s) = contents b).
    { unfold contents, delivers in *. cbn [br_src br_buf]. rewrite K1, app_assoc. reflexivity. }
    destruct e as [x|]; [split; [exact In'|]; split; [exact Co|]; split; [exact K3|]; split; [cbn; rewrite app_length; lia|]; intros H; discriminate H|].
    destruct d as [|c d].
    + destruct (IH (mkBufr (br_buf b ++ []) None s)) as (J1 & J2 & J3 & J5 & J4); auto.
      * cbn. rewrite app_nil_r. exact Hl.
      * intros after H. cbn [br_src] in *. destruct (src_read_nothing _ _ _ E) as [W Z].
        destruct (Hp after) as (W1 & -> & _); [rewrite (K6 eq_refl eq_refl), H; reflexivity|].
        split; [congruence|]. split; [reflexivity|]. destruct tries; [|lia]. exfalso. cbn in H. specialize (Z H). congruence.
      * split; [exact J1|]. split; [rewrite J2; exact Co|]. split; [rewrite J3; exact K3|].
        split; [cbn in J5; rewrite app_length in J5; cbn in J5; lia|].
        intros H. specialize (J4 H). refine (Nat.le_lt_trans _ _ _ _ J4). cbn. rewrite app_length. lia.
    + split; [exact In'|]. split; [exact Co|]. split; [exact K3|].
      split; [|intros _]; cbn; rewrite app_length; cbn; lia.
Qed.

Lemma slice_ok fuel : forall b, in_order (lasting 100) b ->
  (rbufsize - List.length (br_buf b) + match br_err b with None => 1 | Some _ => 0 end < fuel)%nat ->
  exists l e b', read_slice fuel b = Ok (l, e, b') /\ in_order (lasting 100) b' /\ src_eof (br_src b') = src_eof (br_src b) /\
  match e with
  | SlFound => cut_line (contents b) = Some (l, contents b')
  | SlErr x => x = src_end (br_src b) /\ cut_line (contents b) = None /\ l = contents b /\ contents b' = []
  | SlFull => cut_line l = None /\ contents b = l ++ contents b' /\ l <> []
  end.
Proof.
  induction fuel as [|fuel IH]; intros b Hin Hf; [lia|]. cbn [read_slice].
  destruct Hin as (Hq & Hlen & Herr).
  destruct (cut_line (br_buf b)) as [[l rest]|] eqn:C.
  - exists l, SlFound, (mkBufr rest (br_err b) (br_src b)). split; [reflexivity|]. split.
    + split; [exact Hq|]. split; [|exact Herr]. cbn. rewrite (cut_line_parts _ _ _ C), app_length in Hlen. lia.
    + split; [reflexivity|]. unfold contents. cbn. apply cut_line_app. exact C.
  - destruct (br_err b) as [x|] eqn:X.
    + destruct (Herr x eq_refl) as [-> Hn].
      exists (br_buf b), (SlErr (src_end (br_src b))), (mkBufr [] None (br_src b)). split; [reflexivity|].
      split; [split; [exact Hq|]; split; [cbn; lia | intros e H; discriminate H]|]. split; [reflexivity|].
      unfold contents. cbn. rewrite Hn. cbn. rewrite app_nil_r. auto.
    + destruct (rbufsize <=? List.length (br_buf b))%nat eqn:L.
      * apply Nat.leb_le in L. exists (br_buf b), SlFull, (mkBufr [] None (br_src b)). split; [reflexivity|].
        split; [split; [exact Hq|]; split; [cbn; lia | intros e H; discriminate H]|]. split; [reflexivity|].
        split; [exact C|]. split; [reflexivity|]. intros H. rewrite H in L. cbn in L. pose proof rbufsize_pos. lia.
      * apply Nat.leb_gt in L.
        destruct (fill_ok 100 b) as (J1 & J2 & J3 & J5 & J4).
        { split; [exact Hq|]. split; [exact Hlen|]. rewrite X. exact Herr. }
        { exact X. } { exact L. } { intros after H. destruct (Hq [] after H) as [W Z]. split; [exact W|]. split; [exact Z|lia]. }
        remember (fill 100 b) as b1 eqn:E1.
        destruct (IH b1 J1) as (l & e & b' & R1 & R2 & R3 & R4).
        { destruct (br_err b1); [|specialize (J4 eq_refl)]; destruct J1 as (_ & J1 & _); lia. }
        exists l, e, b'. split; [exact R1|]. split; [exact R2|]. split; [congruence|].
        rewrite <- J2. destruct e; auto. destruct R4 as [-> R4]. split; [|exact R4]. unfold src_end. now rewrite J3.
Qed.

Lemma fragments_ok fuel : forall acc b, in_order (lasting 100) b -> (List.length (contents b) < fuel)%nat -> cut_line acc = None ->
  exists l e b', read_fragments fuel acc b = Ok (l, e, b') /\ in_order (lasting 100) b' /\ src_eof (br_src b') = src_eof (br_src b) /\
  match cut_line (acc ++ contents b) with
  | Some (l', rest) => l = l' /\ e = RdNil /\ contents b' = rest
  | None => l = acc ++ contents b /\ e = src_end (br_src b) /\ contents b' = []
  end.
Proof.
  induction fuel as [|fuel IH]; intros acc b Hin Hf Ha; [lia|]. cbn [read_fragments].
  destruct (slice_ok (S (S rbufsize)) b Hin) as (l & e & b' & R1 & R2 & R3 & R4).
  { destruct (br_err b); lia. }
  rewrite R1. cbn [bind]. rewrite (cut_line_app_none acc _ Ha). destruct e as [| |x].
  - exists (acc ++ l), RdNil, b'. rewrite R4. split; [reflexivity|]. split; [exact R2|]. split; [exact R3|]. auto.
  - destruct R4 as (C & Eq & Ne).
    destruct (IH (acc ++ l) b' R2) as (l2 & e2 & b2 & S1 & S2 & S3 & S4).
    + rewrite Eq, app_length in Hf. destruct l; [congruence|]. cbn in Hf. lia.
    + rewrite (cut_line_app_none acc _ Ha), C. reflexivity.
    + exists l2, e2, b2. split; [exact S1|]. split; [exact S2|]. split; [congruence|].
      rewrite <- (cut_line_app_none acc _ Ha), Eq, app_assoc.
      assert (Es : src_end (br_src b') = src_end (br_src b)) by (unfold src_end; now rewrite R3).
      destruct (cut_line ((acc ++ l) ++ contents b')) as [[l' rest]|] eqn:Q; [exact S4|]. now rewrite <- Es.
  - destruct R4 as (-> & C & -> & Z). rewrite C. eexists _, _, _. split; [reflexivity|]. split; [exact R2|]. split; [exact R3|]. auto.
Qed.

Lemma ReadString_shows b r : shows (lasting 100) b r -> alike (shows (lasting 100)) (buf_ReadString b) (flat_rs r).
Proof.
  intros (Hin & Hc & He). unfold buf_ReadString, flat_rs, read_string.
  destruct (fragments_ok (S (List.length (contents b))) [] b Hin) as (l & e & b' & R1 & R2 & R3 & R4); [lia | reflexivity |].
  rewrite R1. cbn [app] in R4. rewrite Hc in R4.
  destruct (cut_line (rd_bytes r)) as [[l' rest]|].
  - destruct R4 as (-> & -> & R4). split; [reflexivity|]. split; [exact R2|]. cbn. rewrite R3. auto.
  - destruct R4 as (-> & -> & R4). split; [unfold src_end; now rewrite He|]. split; [exact R2|]. cbn. rewrite R3. auto.
Qed.

(** one Read *)
Lemma Read_ok Q n b d e b' : stays Q -> (0 < n)%nat -> in_order Q b -> buf_Read n b = (d, e, b') ->
  in_order Q b' /\ src_eof (br_src b') = src_eof (br_src b) /\ contents b = d ++ contents b' /\ (List.length d <= n)%nat /\
  (e <> None -> contents b' = []) /\
  (e = None -> (List.length (src_pieces (br_src b')) + List.length (contents b') < List.length (src_pieces (br_src b)) + List.length (contents b))%nat) /\
  (e = None -> d = [] -> exists rest, src_pieces (br_src b) = [] :: rest).
Proof.
  intros HQ Hn (Hq & Hlen & Herr). unfold buf_Read. destruct (br_buf b) as [|c buf] eqn:B.
  - assert (Cb : contents b = delivers (br_src b)) by (unfold contents; rewrite B; reflexivity).
    destruct (br_err b) as [x|] eqn:X.
    + intros H. injection H as <- <- <-. destruct (Herr x eq_refl) as [-> Hp].
      split; [split; [exact Hq|]; split; [cbn; lia | intros e H; discriminate H]|]. split; [reflexivity|].
      rewrite Cb. unfold contents, delivers. cbn [br_buf br_src app]. split; [reflexivity|]. split; [cbn; lia|].
      rewrite Hp. split; [reflexivity|]. split; discriminate.
    + destruct (rbufsize <=? n)%nat eqn:L.
      * destruct (src_read n (br_src b)) as [[d1 e1] s1] eqn:E. intros H. injection H as <- <- <-.
        destruct (src_read_ok n (br_src b) d1 e1 s1 Hn E) as (K1 & K2 & K3 & K4 & K5 & K6 & K7).
        split; [split; [eapply HQ; eauto|]; split; [cbn; lia | intros e H; discriminate H]|]. split; [exact K3|].
        rewrite Cb. split; [exact K1|]. split; [exact K2|].
        split. { intros H. destruct e1 as [x|]; [|congruence]. destruct (K4 x eq_refl) as [_ K]. unfold contents. cbn. now rewrite K. }
        split; [exact K5|]. intros H1 H2. eauto.
      * destruct (src_read rbufsize (br_src b)) as [[d1 e1] s1] eqn:E. apply Nat.leb_gt in L.
        destruct (src_read_ok rbufsize (br_src b) d1 e1 s1) as (K1 & K2 & K3 & K4 & K5 & K6 & K7); [lia | exact E |].
        destruct d1 as [|c d1].
        -- intros H. injection H as <- <- <-.
           split; [split; [eapply HQ with (n := rbufsize); eauto; lia|]; split; [cbn; lia | intros e H; discriminate H]|]. split; [exact K3|].
           rewrite Cb. split; [exact K1|]. split; [cbn; lia|].
           split. { intros H. destruct e1 as [x|]; [|congruence]. destruct (K4 x eq_refl) as [_ K]. unfold contents. cbn. now rewrite K. }
           split; [exact K5|]. intros H1 H2. eauto.
        -- remember (c :: d1) as d0 eqn:D0. intros H. injection H as <- <- <-.
           split; [split; [eapply HQ with (n := rbufsize); eauto; lia|]; split; [cbn; rewrite skipn_length; lia | exact K4]|]. split; [exact K3|].
           rewrite Cb. unfold contents. cbn [br_buf br_src].
           split; [rewrite app_assoc, firstn_skipn; exact K1|]. split; [rewrite firstn_length; lia|].
           split; [intros H; congruence|].
           split. { intros _. rewrite K1. rewrite !app_length, skipn_length.
             assert (0 < List.length d0)%nat by (rewrite D0; cbn; lia).
             assert (List.length (src_pieces s1) <= List.length (src_pieces (br_src b)))%nat; [|unfold delivers; lia].
             unfold src_read in E. destruct (src_pieces (br_src b)) as [|c0 rest]; [congruence|].
             destruct (_ <=? _)%nat; injection E as _ _ <-; cbn; lia. }
           intros _ H. apply (f_equal (@List.length byte)) in H. rewrite firstn_length, D0 in H. cbn in H. lia.
  - remember (c :: buf) as b0 eqn:B0. intros H. injection H as <- <- <-.
    split; [split; [exact Hq|]; split; [cbn; rewrite skipn_length; lia | exact Herr]|]. split; [reflexivity|].
    unfold contents. cbn [br_buf br_src]. rewrite B. split; [rewrite app_assoc, firstn_skipn; reflexivity|].
    split; [rewrite firstn_length; lia|]. split; [congruence|].
    split; [intros _; rewrite !app_length, skipn_length, B0; cbn [List.length]; lia|].
    intros _ H. apply (f_equal (@List.length byte)) in H. rewrite firstn_length, B0 in H. cbn in H. lia.
Qed.

Lemma at_least_ok Q (HQ : stays Q) fuel : forall n acc b, in_order Q b ->
  (S (List.length (src_pieces (br_src b)) + List.length (contents b)) < fuel)%nat ->
  if (List.length (contents b) <? n)%nat then read_at_least fuel n acc b = Err "unexpected EOF"
  else exists b', read_at_least fuel n acc b = Ok (acc ++ firstn n (contents b), b') /\ in_order Q b' /\
       contents b' = skipn n (contents b) /\ src_eof (br_src b') = src_eof (br_src b).
Proof.
  induction fuel as [|fuel IH]; intros n acc b Hin Hf; [lia|]. cbn [read_at_least]. destruct n as [|n0].
  - cbn. exists b. rewrite app_nil_r. auto.
  - remember (S n0) as n eqn:En. destruct (buf_Read n b) as [[d e] b1] eqn:E.
    destruct (Read_ok Q n b d e b1 HQ) as (K1 & K2 & K3 & K4 & K5 & K6 & K7); [lia | exact Hin | exact E |].
    assert (Hl : List.length (contents b) = (List.length d + List.length (contents b1))%nat) by (rewrite K3, app_length; reflexivity).
    destruct e as [x|].
    + assert (Z : contents b1 = []) by (apply K5; discriminate).
      assert (Hd : contents b = d) by (rewrite K3, Z, app_nil_r; reflexivity). rewrite Hd.
      destruct (n - List.length d)%nat eqn:M.
      * replace (List.length d <? n)%nat with false by (symmetry; apply Nat.ltb_ge; lia).
        exists b1. rewrite firstn_all2, skipn_all2 by lia. auto.
      * replace (List.length d <? n)%nat with true by (symmetry; apply Nat.ltb_lt; lia). reflexivity.
    + specialize (IH (n - List.length d)%nat (acc ++ d) b1 K1).
      assert (Hf1 : (S (List.length (src_pieces (br_src b1)) + List.length (contents b1)) < fuel)%nat) by (specialize (K6 eq_refl); lia).
      specialize (IH Hf1).
      destruct (List.length (contents b) <? n)%nat eqn:Lt.
      * apply Nat.ltb_lt in Lt.
        replace (List.length (contents b1) <? n - List.length d)%nat with true in IH by (symmetry; apply Nat.ltb_lt; lia). exact IH.
      * apply Nat.ltb_ge in Lt.
        replace (List.length (contents b1) <? n - List.length d)%nat with false in IH by (symmetry; apply Nat.ltb_ge; lia).
        destruct IH as (b' & R1 & R2 & R3 & R4). exists b'.
        rewrite K3, firstn_app, skipn_app, (firstn_all2 d), (skipn_all2 d) by lia. rewrite app_assoc. cbn [app].
        split; [exact R1|]. split; [exact R2|]. split; [exact R3 | congruence].
Qed.

Lemma ReadFull_shows Q n b r : stays Q -> shows Q b r -> alike (shows Q) (buf_ReadFull n b) (read_full n r).
Proof.
  intros HQ (Hin & Hc & He). unfold buf_ReadFull, read_full.
  pose proof (at_least_ok Q HQ (S (S (List.length (src_pieces (br_src b)) + List.length (contents b)))) (Z.to_nat n) [] b Hin) as K.
  assert (Hlt : (List.length (contents b) <? Z.to_nat n)%nat = (zlen (rd_bytes r) <? n)).
  { rewrite Hc. unfold zlen. destruct (Z.ltb_spec (Z.of_nat (List.length (rd_bytes r))) n); [apply Nat.ltb_lt | apply Nat.ltb_ge]; lia. }
  rewrite Hlt in K. destruct (zlen (rd_bytes r) <? n).
  - rewrite K by lia. reflexivity.
  - destruct K as (b' & -> & R2 & R3 & R4); [lia|]. cbn [app]. split; [now rewrite Hc|]. split; [exact R2|]. cbn. rewrite R3, R4, Hc. auto.
Qed.

Lemma ReadOne_shows b r : shows (patient 1) b r -> alike (shows (patient 1)) (buf_ReadOne b) (flat_rb r).
Proof.
  intros (Hin & Hc & He). unfold buf_ReadOne, flat_rb. destruct (buf_Read 1 b) as [[d e] b'] eqn:E.
  destruct (Read_ok (patient 1) 1 b d e b') as (K1 & K2 & K3 & K4 & K5 & K6 & K7); auto.
  { apply stays_patient. lia. }
  rewrite <- Hc, K3. destruct e as [x|].
  - rewrite K5 by discriminate. rewrite app_nil_r. destruct d as [|c d]; [reflexivity|].
    exfalso. clear - E. unfold buf_Read in E. destruct (br_buf b); [|discriminate E].
    destruct (br_err b); [discriminate E|]. replace (rbufsize <=? 1)%nat with false in E by (symmetry; apply Nat.leb_gt; apply rbufsize_pos).
    destruct (src_read rbufsize (br_src b)) as [[d1 e1] s1]. destruct d1; discriminate E.
  - destruct d as [|c d].
    + destruct (K7 eq_refl eq_refl) as (rest & Hr). exfalso. destruct Hin as (Hq & _). apply (Hq [] rest). exact Hr.
    + destruct d; [|cbn in K4; lia]. cbn. split; [reflexivity|]. split; [exact K1|]. cbn. split; [reflexivity | congruence].
Qed.

Lemma shows_left Q b r : shows Q b r -> left b = flat_size r.
Proof. intros (_ & H & _). unfold left, flat_size. now rewrite H. Qed.
Lemma shows_new (Q : source -> Prop) s : Q s -> shows Q (NewReader s) (mkReader (delivers s) (src_eof s)).
Proof. intros H. split; [split; [exact H|]; split; [cbn; lia | intros e E; discriminate E]|]. split; reflexivity. Qed.
