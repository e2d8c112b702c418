(** * Loading takes what it needs from the front of the stream and nothing else *)

From Coq Require Import ZArith List Bool String Lia ZifyBool.
From Verif Require Import Go GoFloat GoText UtilText LgTree TreeBuild Transformation Ensembles Leaves XgBin XgIO LgTextIO Pickle SkClasses SkIO Sequence.
From Verif Require Import Spec_Sequence.
From Verif Require Import Pf_Go Pf_Text Pf_XgBin.
Local Open Scope Z_scope.

(** what was read ends itself, or ([end_ok]) the stream is at its end *)
Definition local {A : Type} (end_ok : bool) (rd : reader -> outcome (A * reader)) : Prop :=
  forall s eof a r, rd (mkReader s eof) = Ok (a, r) -> exists t, s = t ++ rd_bytes r /\ rd_eof r = eof /\
    (end_ok = true /\ rd_bytes r = [] \/ self_ended rd t a).

Lemma local_ret : forall b A (a : A), local b (fun r => Ok (a, r)).
Proof. intros b A a s eof a' r H. injection H as <- <-. exists []. cbn. repeat split; auto. right. intros rest eof'. reflexivity. Qed.
Lemma local_err : forall b A m, local b (fun _ => @Err (A * reader) m).
Proof. intros b A m s eof a r H. discriminate. Qed.
Lemma local_bind : forall b A B (rd : reader -> outcome (A * reader)) (f : A -> reader -> outcome (B * reader)),
  local b rd -> (forall a, local b (f a)) -> local b (fun r => let* (a, r) := rd r in f a r).
Proof.
  intros b A B rd f H1 H2 s eof c r H. apply bind_ok in H. destruct H as ([a [s1 e1]] & E & H).
  destruct (H1 _ _ _ _ E) as (t1 & E1 & Eo & D1). cbn [rd_bytes rd_eof] in *. subst s e1. destruct (H2 _ _ _ _ _ H) as (t2 & -> & Eo2 & D2).
  exists (t1 ++ t2). split; [apply app_assoc|]. split; [exact Eo2|].
  destruct D2 as [D2|D2]; [left; exact D2|]. destruct D1 as [[-> D1]|D1].
  - apply app_eq_nil in D1. left. tauto.
  - right. intros rest eof'. cbn beta. rewrite <- app_assoc, D1. cbn [bind]. apply D2.
Qed.
Lemma local_pure : forall b A B (x : outcome A) (f : A -> reader -> outcome (B * reader)),
  (forall a, local b (f a)) -> local b (fun r => let* a := x in f a r).
Proof. intros b A B [a|m|m|] f H s eof c r E; cbn [bind] in *; try discriminate. apply (H a _ _ _ _ E). Qed.
Lemma local_if : forall b A (c : bool) (f g : reader -> outcome (A * reader)), local b f -> local b g -> local b (fun r => if c then f r else g r).
Proof. intros b A [|] f g Hf Hg; auto. Qed.
Lemma local_ext : forall b A (f g : reader -> outcome (A * reader)), (forall r, f r = g r) -> local b f -> local b g.
Proof.
  intros b A f g E H s eof a r X. rewrite <- E in X. destruct (H _ _ _ _ X) as (t & H1 & H2 & H3). exists t. split; [exact H1|]. split; [exact H2|].
  destruct H3 as [H3|H3]; [left; exact H3|right]. intros rest eof'. rewrite <- E. apply H3.
Qed.

Lemma local_full : forall b n, local b (read_full n).
Proof.
  intros b n s eof a r H. unfold read_full in H. cbn [rd_bytes rd_eof] in H. destruct (Z.ltb_spec (zlen s) n) as [L|L]; [discriminate|]. injection H as <- <-. cbn [rd_bytes rd_eof].
  exists (firstn (Z.to_nat n) s). split; [symmetry; apply firstn_skipn|]. split; [reflexivity|]. right. intros rest eof'. unfold read_full. cbn [rd_bytes rd_eof].
  assert (K : (Z.to_nat n <= List.length s)%nat) by (unfold zlen in *; lia).
  assert (Lf : List.length (firstn (Z.to_nat n) s) = Z.to_nat n) by (rewrite firstn_length; lia).
  destruct (Z.ltb_spec (zlen (firstn (Z.to_nat n) s ++ rest)) n) as [L2|L2]; [rewrite zlen_app in L2; unfold zlen in L2; lia|].
  rewrite firstn_app, skipn_app, Lf, Nat.sub_diag, firstn_firstn, Nat.min_id. cbn [firstn skipn]. rewrite app_nil_r, skipn_all2 by lia. reflexivity.
Qed.

Ltac local_struct := apply (local_bind _ _ _ (read_full _)); [apply local_full|]; intro x; cbv zeta;
  repeat match goal with |- local _ (fun r => let (_, _) := ?d in _) => destruct d end; apply local_ret.
Section B.
Variable b : bool.
Lemma local_learner : local b ReadStruct_Learner. Proof. local_struct. Qed.
Lemma local_gbtree_param : local b ReadStruct_GBTreeParam. Proof. local_struct. Qed.
Lemma local_tree_param : local b ReadStruct_TreeParam. Proof. local_struct. Qed.
Lemma local_gblinear_param : local b ReadStruct_GBLinearParam. Proof. local_struct. Qed.
Lemma local_node : local b ReadStruct_Node. Proof. local_struct. Qed.
Lemma local_stat : local b ReadStruct_Stat. Proof. local_struct. Qed.
Lemma local_u64 : local b read_u64. Proof. local_struct. Qed.
Lemma local_string : forall p, local b (ReadString p).
Proof.
  intros p. apply (local_bind _ _ _ read_u64); [apply local_u64|]. intros n. apply local_if; [apply local_ret|].
  apply local_pure. intros _. apply local_full.
Qed.
Lemma local_floats : forall p, local b (ReadFloat32Slice p).
Proof.
  intros p. apply (local_bind _ _ _ read_u64); [apply local_u64|]. intros n. apply local_if; [apply local_ret|].
  apply local_pure. intros _. apply (local_bind _ _ _ (read_full _)); [apply local_full|]. intros x. apply local_ret.
Qed.
Lemma local_header : forall p, local b (ReadModelHeader p).
Proof.
  intros p. apply (local_bind _ _ _ ReadStruct_Learner); [apply local_learner|]. intros m. apply (local_bind _ _ _ (ReadString p)); [apply local_string|]. intros o.
  apply (local_bind _ _ _ (ReadString p)); [apply local_string|]. intros g. apply local_ret.
Qed.
Lemma local_n : forall A (rd : reader -> outcome (A * reader)) n, local b rd -> local b (read_n rd n).
Proof.
  intros A rd n H. induction n as [|n IH]; cbn [read_n]; [apply local_ret|]. apply (local_bind _ _ _ rd); [auto|]. intros x.
  apply (local_bind _ _ _ (read_n rd n)); [auto|]. intros xs. apply local_ret.
Qed.
Lemma local_tree : forall p, local b (ReadTreeModel p).
Proof.
  intros p. apply (local_bind _ _ _ ReadStruct_TreeParam); [apply local_tree_param|]. intros q. apply local_pure. intros _.
  apply (local_bind _ _ _ (read_n ReadStruct_Node _)); [apply local_n, local_node|]. intros ns. apply (local_bind _ _ _ (read_n ReadStruct_Stat _)); [apply local_n, local_stat|]. intros ss.
  apply local_if; [|apply local_ret]. apply (local_bind _ _ _ (ReadFloat32Slice p)); [apply local_floats|]. intros _. apply local_ret.
Qed.
Lemma local_gbtree : forall p, local b (ReadGBTreeModel p).
Proof.
  intros p. apply (local_bind _ _ _ ReadStruct_GBTreeParam); [apply local_gbtree_param|]. intros q. apply (local_bind _ _ _ (read_n (ReadTreeModel p) _)); [apply local_n, local_tree|]. intros ts.
  apply local_if; [|apply local_ret]. apply local_pure. intros _. apply (local_bind _ _ _ (read_full _)); [apply local_full|]. intros x. apply local_ret.
Qed.
Lemma local_gblinear : forall p, local b (ReadGBLinearModel p).
Proof.
  intros p. apply (local_bind _ _ _ ReadStruct_GBLinearParam); [apply local_gblinear_param|]. intros q. apply (local_bind _ _ _ (ReadFloat32Slice p)); [apply local_floats|]. intros w. apply local_ret.
Qed.
Lemma local_weights : forall p dart n, local b (xg_weights p dart n).
Proof.
  intros p dart n. unfold xg_weights. apply local_pure. intros _. apply local_if.
  - apply (local_bind _ _ _ (ReadFloat32Slice p)); [apply local_floats|]. intros w. apply local_if; [apply local_err|apply local_ret].
  - apply local_ret.
Qed.
Lemma local_xg : forall p load, local b (fun r => xg_ensemble_and_rest p r load).
Proof.
  intros p load. unfold xg_ensemble_and_rest. apply (local_bind _ _ _ (ReadModelHeader p)); [apply local_header|]. intros h.
  apply local_pure. intros name. cbv zeta. apply local_if; [apply local_err|]. apply (local_bind _ _ _ (ReadGBTreeModel p)); [apply local_gbtree|]. intros m.
  apply local_if; [apply local_err|]. apply (local_bind _ _ _ (xg_weights p _ _)); [apply local_weights|]. intros w.
  apply local_if; [apply local_err|]. apply local_if; [apply local_err|]. apply local_if; [apply local_err|].
  apply local_pure. intros tr. apply local_if; [apply local_err|]. apply local_pure. intros ts. apply local_ret.
Qed.
Lemma local_linear : forall p load, local b (fun r => xgblinear_and_rest p r load).
Proof.
  intros p load. unfold xgblinear_and_rest. apply (local_bind _ _ _ (ReadModelHeader p)); [apply local_header|]. intros h.
  apply local_if; [apply local_err|]. apply local_if; [apply local_err|]. apply (local_bind _ _ _ (ReadGBLinearModel p)); [apply local_gblinear|]. intros m. cbv zeta.
  apply local_pure. intros tr. apply local_ret.
Qed.

(** ** Pickle *)
Lemma cut_line_app : forall s l r, cut_line s = Some (l, r) -> s = l ++ r /\ l <> [] /\ forall more, cut_line (l ++ more) = Some (l, more).
Proof.
  induction s as [|c s IH]; intros l r H; cbn [cut_line] in H; [discriminate|]. destruct (Byte.eqb c nl) eqn:E.
  - injection H as <- <-. split; [reflexivity|]. split; [discriminate|]. intros more. cbn [app cut_line]. rewrite E. reflexivity.
  - destruct (cut_line s) as [[l' r']|]; [|discriminate]. injection H as <- <-. destruct (IH _ _ eq_refl) as (-> & _ & H). split; [reflexivity|]. split; [discriminate|].
    intros more. cbn [app cut_line]. rewrite E, H. reflexivity.
Qed.
Lemma local_readLine : local b readLine.
Proof.
  intros s eof a r H. unfold readLine in H. cbn [rd_bytes rd_eof] in H. destruct (cut_line s) as [[l rest]|] eqn:C; [|discriminate]. injection H as <- <-.
  destruct (cut_line_app _ _ _ C) as (-> & _ & M). exists l. cbn [rd_bytes rd_eof]. split; [reflexivity|]. split; [reflexivity|]. right.
  intros more eof'. unfold readLine. cbn [rd_bytes rd_eof]. rewrite M. reflexivity.
Qed.

(** one instruction: STOP, or a state and the reader *)
Definition local_step (st : reader -> outcome (option (machine * reader))) : Prop :=
  forall s eof o, st (mkReader s eof) = Ok o ->
  match o with
  | None => forall more eof', st (mkReader more eof') = Ok None
  | Some (m, r) => exists t, s = t ++ rd_bytes r /\ rd_eof r = eof /\ forall rest eof', st (mkReader (t ++ rest) eof') = Ok (Some (m, mkReader rest eof'))
  end.
Lemma ls_ret : forall m, local_step (fun r => Ok (Some (m, r))).
Proof. intros m s eof o H. injection H as <-. exists []. cbn. repeat split; auto. Qed.
Lemma ls_err : forall e, local_step (fun _ => Err e).
Proof. intros e s eof o H. discriminate. Qed.
Lemma ls_pure : forall A (x : outcome A) f, (forall a, local_step (f a)) -> local_step (fun r => let* a := x in f a r).
Proof. intros A [a|e|e|] f H s eof o E; cbn [bind] in *; try discriminate. apply (H a _ _ _ E). Qed.
Lemma ls_line : forall f, (forall a, local_step (f a)) -> (forall a r, f a r <> Ok None) -> local_step (fun r => let* (a, r) := readLine r in f a r).
Proof.
  intros f H N s eof o E. apply bind_ok in E. destruct E as ([l [s1 e1]] & E1 & E). destruct (local_readLine _ _ _ _ E1) as (t1 & -> & Eo & D). cbn [rd_bytes rd_eof] in *. subst e1.
  assert (D' : self_ended readLine t1 l).
  { destruct D as [[_ ->]|D]; [|exact D]. rewrite app_nil_r in E1. unfold readLine in E1. cbn [rd_bytes rd_eof] in E1. destruct (cut_line t1) as [[l' r']|] eqn:C; [|discriminate]. injection E1 as <- ->.
    destruct (cut_line_app _ _ _ C) as (-> & _ & M). rewrite app_nil_r in *. intros rest eof'. unfold readLine. cbn [rd_bytes rd_eof]. rewrite M. reflexivity. }
  specialize (H l _ _ _ E). destruct o as [[m r]|]; [|exfalso; eapply N; exact E]. destruct H as (t2 & -> & Eo & H).
  exists (t1 ++ t2). split; [apply app_assoc|]. split; [exact Eo|]. intros rest eof'. rewrite <- app_assoc, D'. cbn [bind]. apply H.
Qed.
Lemma ls_stop : local_step (fun _ => Ok None).
Proof. intros s eof o H. injection H as <-. reflexivity. Qed.
Ltac ls :=
  match goal with
  | |- local_step (fun r => Ok (Some (_, r))) => apply ls_ret
  | |- local_step (fun _ => Err _) => apply ls_err
  | |- local_step (fun _ => Ok None) => apply ls_stop
  | |- local_step (fun r => let* (_, _) := readLine r in _) => apply ls_line; [let l := fresh "l" in intros l; ls|let l := fresh "l" in let r := fresh "r" in intros l r; ls_some]
  | |- local_step (fun r => let* _ := _ in _) => apply ls_pure; let a := fresh "a" in intros a; try (destruct a); ls
  | |- local_step (fun r => let (_, _) := ?d in _) => destruct d; ls
  | |- local_step (fun r => if ?d then _ else _) => destruct d; ls
  | |- local_step (fun r => match ?d with _ => _ end) => destruct d; ls
  | |- local_step (fun r => Errorf _ _ _) => unfold Errorf; ls
  | |- local_step (fun _ => Panic _) => let s := fresh in intros ? ? ? s; discriminate
  end
with ls_some :=
  match goal with
  | |- Ok (Some _) <> Ok None => discriminate
  | |- Err _ <> Ok None => discriminate
  | |- (let* _ := ?x in _) <> Ok None => let a := fresh "a" in destruct x as [a| | |]; cbn [bind]; try discriminate; try (destruct a); ls_some
  | |- match ?d with _ => _ end <> Ok None => destruct d; ls_some
  end.
Lemma step_local : forall p op m, local_step (step p op m).
Proof. intros p op m. destruct op; unfold step; ls. Qed.

Lemma decode_local : forall p fuel m s eof v r, decode_loop p fuel m (mkReader s eof) = Ok (v, r) -> exists t, s = t ++ rd_bytes r /\ rd_eof r = eof /\
  forall fuel' rest eof', (List.length t <= fuel')%nat -> decode_loop p fuel' m (mkReader (t ++ rest) eof') = Ok (v, mkReader rest eof').
Proof.
  intros p. induction fuel as [|fuel IH]; intros m s eof v r H; cbn [decode_loop] in H; [discriminate|]. cbn [rd_bytes rd_eof] in H.
  destruct s as [|op s]; [discriminate|]. apply bind_ok in H. destruct H as (o & E & H). pose proof (step_local p op m _ _ _ E) as L. destruct o as [[m' [s' e']]|].
  - destruct L as (t1 & -> & Eo & L). cbn [rd_bytes rd_eof] in *. subst e'. apply IH in H. destruct H as (t2 & -> & Eo & H). exists (op :: t1 ++ t2). split; [cbn [app]; rewrite app_assoc; reflexivity|].
    split; [exact Eo|]. intros fuel' rest eof' F. cbn [List.length] in F. rewrite app_length in F. destruct fuel' as [|fuel']; [lia|]. cbn [decode_loop rd_bytes rd_eof app]. rewrite <- app_assoc, L. cbn [bind]. apply H. lia.
  - apply bind_ok in H. destruct H as (w & Eb & H). injection H as <- <-. cbn [rd_bytes rd_eof]. exists [op]. split; [reflexivity|]. split; [reflexivity|].
    intros fuel' rest eof' F. cbn [List.length] in F. destruct fuel' as [|fuel']; [lia|]. cbn [decode_loop rd_bytes rd_eof app]. rewrite L. cbn [bind]. rewrite Eb. reflexivity.
Qed.
Lemma local_decode : forall p, local b (Decode p).
Proof.
  intros p s eof v r H. unfold Decode in H. apply decode_local in H. destruct H as (t & -> & Eo & H). exists t. split; [reflexivity|]. split; [exact Eo|]. right.
  intros rest eof'. unfold Decode. apply H. cbn [rd_bytes]. rewrite app_length. lia.
Qed.
Lemma local_sk : forall p load, local b (fun r => sk_ensemble_and_rest p r load).
Proof.
  intros p load. unfold sk_ensemble_and_rest. apply (local_bind _ _ _ (Decode p)); [apply local_decode|]. intros [v h]. apply local_pure. intros gb. apply local_pure. intros e. apply local_ret.
Qed.
End B.

(** ** LightGBM text *)
Lemma params_local : forall fuel ps line s eof ps' r, params_loop fuel ps line (mkReader s eof) = Ok (ps', r) -> exists t, s = t ++ rd_bytes r /\ rd_eof r = eof /\
  (rd_bytes r = [] \/ forall fuel' rest eof', (List.length t < fuel')%nat -> params_loop fuel' ps line (mkReader (t ++ rest) eof') = Ok (ps', mkReader rest eof')).
Proof.
  induction fuel as [|fuel IH]; intros ps line s eof ps' r H; cbn [params_loop] in H; [discriminate|]. apply bind_ok in H. destruct H as (ps1 & E1 & H).
  unfold read_string in H. cbn [rd_bytes rd_eof] in H. destruct (cut_line s) as [[l rest]|] eqn:C.
  - destruct (cut_line_app _ _ _ C) as (-> & Nl & M). destruct (beqb (trim_space l) []) eqn:B.
    + injection H as <- <-. cbn [rd_bytes rd_eof]. exists l. split; [reflexivity|]. split; [reflexivity|]. right. intros fuel' rest' eof' F. destruct fuel' as [|fuel']; [lia|]. cbn [params_loop]. rewrite E1. cbn [bind].
      unfold read_string. cbn [rd_bytes rd_eof]. rewrite M, B. reflexivity.
    + apply IH in H. destruct H as (t & -> & Eo & H). exists (l ++ t). split; [apply app_assoc|]. split; [exact Eo|]. destruct H as [H|H]; [left; exact H|right].
      intros fuel' rest' eof' F. destruct fuel' as [|fuel']; [lia|]. cbn [params_loop]. rewrite E1. cbn [bind].
      unfold read_string. cbn [rd_bytes rd_eof]. rewrite <- app_assoc, M, B. apply H. rewrite app_length in F. destruct l; [contradiction|cbn [List.length] in F; lia].
  - exists s. destruct eof; [|discriminate]. assert (G : rd_bytes r = [] /\ rd_eof r = true).
    { destruct (beqb (trim_space s) []) eqn:B; [injection H as _ <-; split; reflexivity|]. apply IH in H. destruct H as (t & E & Eo & _). symmetry in E. apply app_eq_nil in E. split; [apply E|exact Eo]. }
    destruct G as [G1 G2]. rewrite G1, app_nil_r. split; [reflexivity|]. split; [exact G2|]. left. reflexivity.
Qed.
Lemma local_params : local true ReadParamsUntilBlank.
Proof.
  intros s eof ps r H. unfold ReadParamsUntilBlank in H. unfold read_string in H. cbn [rd_bytes rd_eof] in H. destruct (cut_line s) as [[l rest]|] eqn:C; [|destruct eof; discriminate].
  destruct (cut_line_app _ _ _ C) as (-> & Nl & M). apply params_local in H. destruct H as (t & -> & Eo & H). exists (l ++ t). split; [apply app_assoc|]. split; [exact Eo|].
  destruct H as [H|H]; [left; auto|right]. intros rest' eof'. unfold ReadParamsUntilBlank, read_string. cbn [rd_bytes rd_eof]. rewrite <- app_assoc, M. apply H.
  rewrite !app_length. lia.
Qed.
Lemma local_lg : forall p load, local true (fun r => lg_ensemble_and_rest p r load).
Proof.
  intros p load. unfold lg_ensemble_and_rest. apply (local_bind _ _ _ ReadParamsUntilBlank); [apply local_params|]. intros ps. apply local_pure. intros [e n]. apply local_pure. intros tr.
  apply (local_bind _ _ _ (lg_read_trees p (Z.to_nat n))); [|intros ts; apply local_ret].
  induction (Z.to_nat n) as [|k IH]; cbn [lg_read_trees]; [apply local_ret|]. apply (local_bind _ _ _ (lgTreeFromReader p)).
  - unfold lgTreeFromReader. apply (local_bind _ _ _ ReadParamsUntilBlank); [apply local_params|]. intros qs. apply local_pure. intros t. apply local_ret.
  - intros t. apply (local_bind _ _ _ (lg_read_trees p k)); [exact IH|]. intros ts. apply local_ret.
Qed.
