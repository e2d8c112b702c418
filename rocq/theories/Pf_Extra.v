(** * More feature values than needed change nothing *)

From Coq Require Import ZArith List Bool String Lia ZifyBool.
From Verif Require Import Go GoFloat Cmd LgTree Transformation Ensembles Leaves.
From Verif Require Import Pf_Go.
Local Open Scope Z_scope.

(** whatever the first computes, the second computes *)
Definition ole {A : Type} (x y : outcome A) : Prop := forall a, x = Ok a -> y = Ok a.
Definition cle (c c' : cmd) : Prop := forall m r, exec1 c m = Ok r -> exec1 c' m = Ok r.

Lemma ole_refl : forall A (x : outcome A), ole x x.
Proof. intros A x a H. exact H. Qed.
Lemma ole_bind : forall A B (x y : outcome A) (f g : A -> outcome B), ole x y -> (forall a, ole (f a) (g a)) -> ole (let* a := x in f a) (let* a := y in g a).
Proof. intros A B x y f g H K b Hb. destruct x as [a| | |]; try discriminate. rewrite (H a eq_refl). apply K. exact Hb. Qed.
Lemma cle_of : forall A (x y : outcome A) k, ole x y -> cle (cmd_of x k) (cmd_of y k).
Proof. intros A x y k H m r E. destruct x as [a| | |]; try discriminate. rewrite (H a eq_refl). exact E. Qed.
Lemma exec_cle : forall cs cs', Forall2 cle cs cs' -> forall m, ole (exec cs m) (exec cs' m).
Proof.
  intros cs cs' H. induction H as [|c c' cs cs' Hc H IH]; intros m; [apply ole_refl|]. cbn [exec]. apply ole_bind; [exact (Hc m)|apply IH].
Qed.
Lemma cle_list_refl : forall cs, Forall2 cle cs cs.
Proof. induction cs; constructor; auto. intros m r H. exact H. Qed.
Lemma cle_map : forall A (f g : A -> cmd) l, (forall a, cle (f a) (g a)) -> Forall2 cle (map f l) (map g l).
Proof. intros A f g l H. induction l; constructor; auto. Qed.
Lemma cle_flat_map : forall A (f g : A -> list cmd) l, (forall a, Forall2 cle (f a) (g a)) -> Forall2 cle (flat_map f l) (flat_map g l).
Proof. intros A f g l H. induction l; cbn [flat_map]; [constructor|]. apply Forall2_app; auto. Qed.

Section Extra.
Variables (p : platform) (x y : list f64).
Lemma at_more : forall i, ole (at_ x i) (at_ (x ++ y) i).
Proof.
  intros i a H. unfold at_ in *. destruct (zget x i) as [v|] eqn:E; try discriminate. rewrite zget_app_l by (apply zget_range in E; lia). rewrite E. exact H.
Qed.
Lemma step_more : forall t idx, ole (predict_step p t x idx) (predict_step p t (x ++ y) idx).
Proof. intros t idx. unfold predict_step. apply ole_bind; [apply ole_refl|]. intros node. apply ole_bind; [apply at_more|]. intros v. apply ole_refl. Qed.
Lemma loop_more : forall t fuel idx, ole (predict_loop p t x fuel idx) (predict_loop p t (x ++ y) fuel idx).
Proof.
  intros t fuel. induction fuel as [|fuel IH]; intros idx; [apply ole_refl|]. cbn [predict_loop]. apply ole_bind; [apply step_more|]. intros [r|i]; [apply ole_refl|apply IH].
Qed.
Lemma predict_more : forall t, ole (predict p t x) (predict p t (x ++ y)).
Proof. intros t. unfold predict. destruct (tNodes t); [apply ole_refl|apply loop_more]. Qed.

Lemma inner_more : forall b n s, Forall2 cle (b_predictInner p b x n s) (b_predictInner p b (x ++ y) n s).
Proof.
  induction b as [e|e|e|b IH t]; intros n s; cbn [b_predictInner]; auto.
  - unfold lg_predictInner. apply Forall2_app; [apply cle_list_refl|]. apply cle_flat_map. intros i. apply cle_map. intros k. apply cle_of. apply ole_bind; [apply ole_refl|]. intros t. apply predict_more.
  - unfold xg_predictInner. apply Forall2_app; [apply cle_list_refl|]. apply cle_flat_map. intros i. apply cle_map. intros k. apply cle_of. apply ole_bind; [apply ole_refl|]. intros t. apply ole_bind; [apply predict_more|]. intros r. apply ole_refl.
  - unfold xl_predictInner. apply cle_flat_map. intros k. constructor; [intros m r H; exact H|]. apply cle_map. intros i. apply cle_of. apply ole_bind; [apply at_more|]. intros v. apply ole_refl.
Qed.
Lemma leaves_more : forall b n s, Forall2 cle (b_predictLeafIndicesInner p b x n s) (b_predictLeafIndicesInner p b (x ++ y) n s).
Proof.
  induction b as [e|e|e|b IH t]; intros n s; cbn [b_predictLeafIndicesInner]; auto; try (unfold trees_predictLeafIndicesInner; apply Forall2_app; [apply cle_list_refl|]; apply cle_flat_map; intros i; apply cle_map; intros k; apply cle_of; apply ole_bind; [apply ole_refl|]; intros t; apply predict_more).
Qed.
Lemma exec_piat_more : forall e n s m, ole (exec (predictInnerAndTransform p e x n s) m) (exec (predictInnerAndTransform p e (x ++ y) n s) m).
Proof.
  intros e n s m. unfold predictInnerAndTransform. destruct (_ =? _); [apply exec_cle, inner_more|]. destruct (_ =? _); [apply exec_cle, leaves_more|].
  assert (H : ole (let* raw := make_f64 p (NRawOutputGroups e) in exec (b_predictInner p (eBase e) x n 0) raw) (let* raw := make_f64 p (NRawOutputGroups e) in exec (b_predictInner p (eBase e) (x ++ y) n 0) raw)).
  { apply ole_bind; [apply ole_refl|]. intros raw. apply exec_cle, inner_more. }
  intros r E. destruct (let* raw := make_f64 p (NRawOutputGroups e) in exec (b_predictInner p (eBase e) x n 0) raw) as [raw| | |]; try discriminate.
  rewrite (H raw eq_refl). exact E.
Qed.
Lemma Predict_more : forall e n m, ole (Predict p e x n m) (Predict p e (x ++ y) n m).
Proof.
  intros e n m. unfold Predict. destruct (_ <? _); [apply ole_refl|]. rewrite zlen_app. pose proof (zlen_nonneg _ y). destruct (Z.ltb_spec (zlen x) (NFeatures e)); [intros a E; discriminate|].
  replace (zlen x + zlen y <? NFeatures e) with false by lia. apply ole_bind; [apply ole_refl|]. intros n'. apply ole_bind; [apply ole_refl|]. intros _. apply exec_piat_more.
Qed.
End Extra.
