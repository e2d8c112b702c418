(** * C76: error messages about values that contain themselves *)

From Coq Require Import ZArith List Bool String Lia ZifyBool.
From Verif Require Import Go GoFloat GoText LgTree TreeBuild Transformation Ensembles Leaves XgBin Pickle SkClasses SkIO Spec_Pickle Spec_Fmt Pf_Go Pf_Text Pf_Fmt Pf_Pickle Pf_PickleDec Pf_PickleHist Prop_Pickle Demo.
Local Open Scope Z_scope.

(** the runtime does not end the program for want of stack *)
Definition safe {A : Type} (o : outcome A) : Prop := o <> Panic "stack overflow".

Lemma safe_ok : forall A (x : A), safe (Ok x).
Proof. discriminate. Qed.
Lemma safe_err : forall A m, safe (@Err A m).
Proof. discriminate. Qed.
Lemma safe_bind : forall A B (x : outcome A) (f : A -> outcome B), safe x -> (forall a, x = Ok a -> safe (f a)) -> safe (bind x f).
Proof. intros A B x f H K. destruct x; cbn [bind]; auto; unfold safe in *; congruence. Qed.
Lemma safe_at : forall A (l : list A) i, safe (at_ l i).
Proof. intros. unfold at_. destruct (zget l i); discriminate. Qed.
Lemma safe_set_at : forall A (l : list A) i x, safe (set_at l i x).
Proof. intros. unfold set_at. destruct (zset l i x); discriminate. Qed.
Lemma safe_slice : forall A (l : list A) a b, safe (slice l a b).
Proof. intros. unfold slice. destruct (_ || _); discriminate. Qed.
Lemma safe_make_check : forall p n, safe (make_check p n).
Proof. intros. unfold make_check. destruct (_ || _); discriminate. Qed.
Lemma safe_make_f64 : forall p n, safe (make_f64 p n).
Proof. intros. unfold make_f64. destruct (_ || _); discriminate. Qed.
Lemma safe_mapM : forall A B (f : A -> outcome B) l, (forall x, In x l -> safe (f x)) -> safe (mapM f l).
Proof.
  intros A B f l H. induction l as [|x l IH]; [discriminate|]. cbn [mapM]. apply safe_bind; [apply H; left; reflexivity|]. intros y _. apply safe_bind; [apply IH; intros; apply H; right; assumption|]. discriminate.
Qed.
Lemma safe_foldM : forall A B (f : B -> A -> outcome B) l b, (forall b x, safe (f b x)) -> safe (foldM f l b).
Proof. intros A B f l b H. revert b. induction l as [|x l IH]; intros b; [discriminate|]. cbn [foldM]. apply safe_bind; auto. Qed.
Ltac sf := repeat first
  [ discriminate | apply safe_at | apply safe_set_at | apply safe_slice | apply safe_make_check | apply safe_make_f64
  | apply safe_mapM; intros ? _ | apply safe_foldM; intros
  | match goal with |- safe (bind _ _) => apply safe_bind; [|intros ? _] end
  | match goal with |- safe (if ?b then _ else _) => destruct b | |- safe (match ?x with _ => _ end) => is_var x; destruct x end ].

(** ** After the class has been read *)
Lemma safe_value : forall values scale base i, safe (sk_value values scale base i).
Proof. intros. unfold sk_value. sf. Qed.
Lemma safe_create : forall nodes values scale base t i, safe (sk_createNode nodes values scale base t i).
Proof. intros. unfold sk_createNode. repeat first [apply safe_value|progress sf]. Qed.
Lemma safe_build : forall nodes values scale base n t, safe (build (sk_source nodes values scale base) n t).
Proof.
  intros. unfold build. cbv zeta. set (s := sk_source nodes values scale base). apply safe_bind; [apply safe_create|]. intros [node t1] _.
  generalize (2 * List.length (repeat false (Z.to_nat n)) + 2)%nat. intros fuel. generalize (mkB [0] [0] (repeat false (Z.to_nat n)) (tree_set_nodes t1 (tNodes t1 ++ [node]))).
  assert (PC : forall set o c b, safe (push_child s set o c b)). { intros. unfold push_child. apply safe_bind; [apply safe_create|]. intros. sf. }
  assert (SL : forall i, safe (src_left s i)) by (intros; cbn; sf). assert (SR : forall i, safe (src_right s i)) by (intros; cbn; sf).
  assert (BL : forall o c b pop, safe (build_left s o c b pop)). { intros. unfold build_left. repeat first [apply PC|apply SL|progress sf]. }
  induction fuel as [|fuel IH]; intros b; [discriminate|]. cbn [build_loop]. apply safe_bind; [|intros [b'|] _; [apply IH|discriminate]].
  unfold build_step. destruct (b_orig b); [discriminate|]. destruct (b_conv b); [discriminate|]. cbv zeta. repeat first [apply PC|apply SR|apply BL|progress sf].
Qed.
Lemma safe_class : forall p g, safe (SKEnsembleFromClass p g).
Proof.
  intros. unfold SKEnsembleFromClass, sk_base, sk_trees, lgTreeFromSklearnDecisionTreeRegressor. cbv zeta. repeat first [apply safe_build|apply safe_value|progress sf].
Qed.

(** ** Reading the class *)
Section Class.
Variable h : heap.
Definition fin (v : val) : Prop := ~ endless h v.
Lemma fin_in : forall v w, fin v -> holds h v w -> fin w.
Proof.
  intros v w F H (path & E & S). apply F. exists (fun n => match n with O => v | Datatypes.S n' => path n' end). split; [reflexivity|]. intros [|n]; [rewrite E; exact H|apply S].
Qed.
Lemma safe_Errorf : forall A vs msg, Forall fin vs -> safe (@Errorf A h vs msg).
Proof.
  intros A vs msg F. unfold Errorf. replace (forallb (printable h (heap_size h)) vs) with true; [discriminate|]. symmetry. apply forallb_forall. intros v Hv. apply printable_iff. rewrite Forall_forall in F. exact (F v Hv).
Qed.
Lemma fin_tuple : forall v n l, toTuple v n = Ok l -> fin v -> Forall fin l.
Proof.
  intros v n l H F. destruct v; try discriminate. cbn [toTuple] in H. destruct (_ && _); [discriminate|]. injection H as <-. apply Forall_forall. intros w Hw. eapply fin_in; [exact F|]. constructor. exact Hw.
Qed.
Lemma fin_at : forall l i (w : val), at_ l i = Ok w -> Forall fin l -> fin w.
Proof. intros l i w H F. unfold at_ in H. destruct (zget l i) eqn:E; [|discriminate]. injection H as <-. rewrite Forall_forall in F. apply F. eapply zget_in; eauto. Qed.
Lemma fin_dict : forall v a, toDict v = Ok a -> fin v -> fin (VDict a).
Proof. intros v a H F. destruct v; try discriminate. injection H as <-. exact F. Qed.
Lemma fin_value : forall a k w, dict_value (dict_at h a) k = Ok w -> fin (VDict a) -> fin w.
Proof. intros a k w H F. unfold dict_value in H. destruct (lookup _ _) eqn:E; [|discriminate]. injection H as <-. eapply fin_in; [exact F|]. econstructor. exact E. Qed.
Lemma safe_toGlobal : forall v m n, safe (toGlobal v m n).
Proof. intros. unfold toGlobal. sf. Qed.
Lemma safe_toTuple : forall v n, safe (toTuple v n).
Proof. intros. unfold toTuple. sf. Qed.
Lemma safe_toUnicode : forall v n, safe (toUnicode v n).
Proof. intros. unfold toUnicode. sf. Qed.
Lemma safe_toDict : forall v, safe (toDict v).
Proof. intros. unfold toDict. sf. Qed.
Lemma safe_asInt : forall v, safe (asInt v).
Proof. intros. unfold asInt. sf. Qed.
Lemma safe_dict_value : forall d k, safe (dict_value d k).
Proof. intros. unfold dict_value. destruct (lookup d k); discriminate. Qed.
Lemma safe_dict_toInt : forall a k, fin (VDict a) -> safe (dict_toInt h (dict_at h a) k).
Proof. intros a k F. unfold dict_toInt. apply safe_bind; [apply safe_dict_value|]. intros w E. pose proof (fin_value _ _ _ E F) as Fw. destruct w; try discriminate; apply safe_Errorf; auto. Qed.
Lemma safe_dict_toFloat : forall a k, fin (VDict a) -> safe (dict_toFloat h (dict_at h a) k).
Proof. intros a k F. unfold dict_toFloat. apply safe_bind; [apply safe_dict_value|]. intros w E. pose proof (fin_value _ _ _ E F) as Fw. destruct w; try discriminate; apply safe_Errorf; auto. Qed.
Lemma safe_parse : forall A (reduce : A -> val -> list val -> outcome A) (build : A -> val -> outcome A) e obj,
  (forall e c args, Forall fin args -> safe (reduce e c args)) -> (forall e args, fin args -> safe (build e args)) -> fin obj -> safe (ParseClass reduce build e obj).
Proof.
  intros A reduce build e obj HR HB F.
  assert (R : forall o e, fin o -> safe (let* (c, rargs) := toReduce o in reduce e c rargs)).
  { intros o e' Fo. destruct o; try discriminate. cbn [toReduce bind]. apply HR. apply Forall_forall. intros w Hw. eapply fin_in; [exact Fo|]. apply in_args. exact Hw. }
  destruct obj; try (apply (R _ e F)). unfold ParseClass. assert (F1 : fin obj1) by (eapply fin_in; [exact F|apply in_object]). assert (F2 : fin obj2) by (eapply fin_in; [exact F|apply in_state]).
  specialize (R obj1 e F1). destruct (toReduce obj1) as [[c rargs]| | |]; cbn [bind] in *; try exact R; try discriminate. apply safe_bind; [exact R|]. intros e' _. apply HB. exact F2.
Qed.
Ltac sg := repeat first
  [ discriminate | apply safe_at | apply safe_slice | apply safe_make_check | apply safe_toGlobal | apply safe_toTuple | apply safe_toUnicode | apply safe_toDict | apply safe_asInt | apply safe_dict_value
  | apply safe_Errorf; auto; fail | apply safe_dict_toInt; auto; fail | apply safe_dict_toFloat; auto; fail
  | apply safe_mapM; intros ? _ | apply safe_foldM; intros
  | match goal with |- safe (bind _ _) => apply safe_bind; [|let E := fresh "E" in intros ? E;
      repeat match goal with
      | E : toTuple _ _ = Ok ?l |- _ => lazymatch goal with G : Forall fin l |- _ => fail | _ => assert (Forall fin l) by (eapply fin_tuple; eauto) end
      | E : at_ _ _ = Ok ?w |- _ => lazymatch goal with G : fin w |- _ => fail | _ => assert (fin w) by (eapply fin_at; eauto) end
      | E : toDict _ = Ok ?a |- _ => lazymatch goal with G : fin (VDict a) |- _ => fail | _ => assert (fin (VDict a)) by (eapply fin_dict; eauto) end
      | E : dict_value _ _ = Ok ?w |- _ => lazymatch goal with G : fin w |- _ => fail | _ => assert (fin w) by (eapply fin_value; eauto) end
      end ] end
  | match goal with |- safe (if ?b then _ else _) => destruct b | |- safe (match ?x with _ => _ end) => is_var x; destruct x end ].
Lemma safe_dtype : forall d o, fin o -> safe (ParseClass (dtype_Reduce h) dtype_Build d o).
Proof. intros. apply safe_parse; auto; intros; [unfold dtype_Reduce|unfold dtype_Build]; sg. Qed.
Lemma safe_raw : forall d o, fin o -> safe (ParseClass (raw_Reduce h) raw_Build d o).
Proof. intros. apply safe_parse; auto; intros; [unfold raw_Reduce|unfold raw_Build]; sg. Qed.
Lemma safe_scalar : forall d o, fin o -> safe (ParseClass (scalar_Reduce h) scalar_Build d o).
Proof. intros. apply safe_parse; auto; intros; [unfold scalar_Reduce|unfold scalar_Build]; repeat first [apply safe_dtype; assumption|apply safe_raw; assumption|progress sg]. Qed.
Lemma safe_array : forall d o, fin o -> safe (ParseClass (array_Reduce h) (array_Build h) d o).
Proof.
  intros. apply safe_parse; auto; intros; [unfold array_Reduce; sg|]. unfold array_Build.
  repeat first [apply safe_dtype; assumption|apply safe_raw; assumption|progress sg].
Qed.
Lemma safe_u64 : forall b, safe (le_Uint64 b).
Proof. intros. unfold le_Uint64. destruct (_ <? _); discriminate. Qed.
Lemma safe_f64 : forall b le, safe (Float64FromBytes b le).
Proof. intros. unfold Float64FromBytes. destruct (_ <? _); discriminate. Qed.
Lemma safe_Iterate : forall A b n (f : A -> bytes -> outcome A) acc, (forall acc c, safe (f acc c)) -> safe (Iterate b n f acc).
Proof. intros. unfold Iterate. destruct (negb _); [discriminate|]. apply safe_foldM. intros. apply safe_bind; [apply safe_slice|]. auto. Qed.
Lemma safe_int : forall acc b, safe (append_int acc b).
Proof. intros. unfold append_int. apply safe_bind; [apply safe_u64|discriminate]. Qed.
Lemma safe_float : forall le acc b, safe (append_float le acc b).
Proof. intros. unfold append_float. apply safe_bind; [apply safe_f64|discriminate]. Qed.
Lemma safe_node : forall acc b, safe (append_node acc b).
Proof. intros. unfold append_node, SklearnNodeFromBytes. cbv zeta. repeat first [apply safe_u64|apply safe_f64|progress sf]. Qed.
Lemma safe_int_array : forall p w o, fin o -> safe (int_array p h w o).
Proof.
  intros. unfold int_array. apply safe_bind; [apply safe_array; auto|]. intros arr _. apply safe_bind; [unfold bad_shape; sf|]. intros bad _. destruct bad; [discriminate|]. destruct (not_i8 _); [discriminate|].
  apply safe_bind; [apply safe_make_check|]. intros _ _. apply safe_Iterate. apply safe_int.
Qed.
Ltac sc := repeat first [apply safe_array; assumption|apply safe_scalar; assumption|apply safe_int_array; assumption|apply safe_u64|apply safe_f64|apply safe_Iterate; intros; first [apply safe_int|apply safe_float|apply safe_node]|progress sg].
Lemma safe_tree : forall p t o, fin o -> safe (ParseClass (tree_Reduce p h) (tree_Build h) t o).
Proof. intros. apply safe_parse; auto; intros; [unfold tree_Reduce; sc|]. unfold tree_Build. sc. Qed.
Lemma safe_reconstructor : forall m n c args, Forall fin args -> safe (reconstructor_class h m n c args).
Proof. intros. unfold reconstructor_class. sg. Qed.
Lemma safe_reg : forall p t o, fin o -> safe (ParseClass (reg_Reduce h) (reg_Build p h) t o).
Proof.
  intros. apply safe_parse; auto; intros; [unfold reg_Reduce; apply safe_bind; [apply safe_reconstructor; auto|discriminate]|]. unfold reg_Build. repeat first [apply safe_tree; assumption|progress sc].
Qed.
Lemma safe_init : forall t o, fin o -> safe (ParseClass (init_Reduce h) (init_Build h) t o).
Proof.
  intros. apply safe_parse; auto; intros; [unfold init_Reduce; apply safe_bind; [apply safe_reconstructor; auto|discriminate]|]. unfold init_Build. sc.
  match goal with |- safe (match ?x with _ => _ end) => assert (N : safe x) by sc; destruct x; try discriminate; unfold safe in *; congruence end.
Qed.
Lemma fin_elements : forall o arr, ParseClass (array_Reduce h) (array_Build h) noArray o = Ok arr -> fin o -> Forall fin (naDataList arr).
Proof.
  intros o arr H F.
  assert (R : forall c args a, array_Reduce h noArray c args = Ok a -> a = noArray).
  { intros c args a E. unfold array_Reduce in E. apply bind_ok in E. destruct E as (g & _ & E). destruct (negb _); [exfalso; eapply Errorf_ok; eauto|]. apply bind_ok in E. destruct E as (a0 & _ & E). apply bind_ok in E. destruct E as (g' & _ & E). congruence. }
  destruct o; try discriminate.
  - unfold ParseClass in H. cbn [toReduce bind] in H. apply R in H. subst arr. constructor.
  - unfold ParseClass in H. destruct (toReduce o1) as [[c rargs]| | |]; try discriminate. cbn [bind] in H. apply bind_ok in H. destruct H as (a & E & H). apply R in E. subst a.
    assert (F2 : fin o2) by (eapply fin_in; [exact F|apply in_state]). unfold array_Build in H.
    apply bind_ok in H. destruct H as (args & Et & H). pose proof (fin_tuple _ _ _ Et F2) as Fa.
    repeat (apply bind_ok in H; let E := fresh "E" in destruct H as (? & E & H)). destruct (negb _); [discriminate|]. apply bind_ok in H. destruct H as (a4 & Ea4 & H). pose proof (fin_at _ _ _ Ea4 Fa) as F4.
    destruct a4; try discriminate.
    + injection H as <-. cbn [naDataList]. apply Forall_forall. intros w Hw. eapply fin_in; [exact F4|]. constructor. exact Hw.
    + apply bind_ok in H. destruct H as (d & _ & H). injection H as <-. constructor.
    + apply bind_ok in H. destruct H as (d & _ & H). injection H as <-. constructor.
Qed.
Lemma safe_gb : forall p v, fin v -> safe (ParseGradientBoosting p h v).
Proof.
  intros p v F. unfold ParseGradientBoosting. apply safe_parse; auto; intros; [unfold gb_Reduce; apply safe_bind; [apply safe_reconstructor; auto|discriminate]|]. unfold gb_Build.
  repeat first [apply safe_init; assumption|progress sc].
  match goal with E : ParseClass (array_Reduce h) _ _ _ = Ok _ |- _ => apply fin_elements in E; [|assumption]; rename E into FE end.
  match goal with |- safe (match ?x with _ => _ end) => destruct x as [|s0 [|s1 [|s2 ss]]] end; try discriminate. destruct (negb _); [discriminate|]. destruct (negb _); [discriminate|].
  apply safe_bind; [apply safe_make_check|]. intros _ _. apply safe_bind; [|discriminate]. apply safe_mapM. intros w Hw. apply safe_reg. rewrite Forall_forall in FE. exact (FE w Hw).
Qed.
End Class.

(** ** Decoding *)
Lemma finite_object : forall h v o, denotes h v o -> fin h v.
Proof.
  intros h. fix IH 3. intros v o D.
  assert (K : forall vs os, Forall2 (denotes h) vs os -> Forall (fin h) vs) by (fix IHl 3; intros vs os F; destruct F; constructor; [eapply IH; eassumption|eapply IHl; eassumption]).
  assert (G : forall u, (forall w, holds h u w -> fin h w) -> fin h u).
  { intros u H (path & E & S). apply (H (path 1%nat)); [subst u; apply S|]. exists (fun n => path (Datatypes.S n)). split; [reflexivity|]. intros n. apply S. }
  destruct D as [| | | |vs os F|a len cap l os N L F|a d kv vs N F L| |c args c' args' Dc F|ob st o' st' D1 D2]; apply G; intros w Hw; inversion Hw; subst.
  - specialize (K _ _ F). rewrite Forall_forall in K. auto.
  - specialize (K _ _ F). rewrite Forall_forall in K. apply K. match goal with E : In w (list_elems h a _) |- _ => unfold list_elems, arr_at in E; rewrite N in E; exact E end.
  - specialize (K _ _ F). rewrite Forall_forall in K. apply K. lazymatch goal with E : lookup (dict_at h a) _ = Some w |- _ => unfold dict_at in E; rewrite N, L in E; apply lookup_in in E; apply in_combine_r in E; exact E end.
  - eapply IH; eassumption.
  - specialize (K _ _ F). rewrite Forall_forall in K. auto.
  - eapply IH; eassumption.
  - eapply IH; eassumption.
Qed.
Lemma safe_step : forall p op m r, Forall (fin (mHeap m)) (mStack m) -> safe (step p op m r).
Proof.
  intros p op m r F.
  assert (RL : forall r, safe (readLine r)) by (intros; unfold readLine; destruct (cut_line _) as [[? ?]|]; discriminate).
  assert (PM : safe (popMark m)) by (unfold popMark; destruct (mMarks m); [discriminate|]; cbv zeta; destruct (_ <? 0); discriminate).
  assert (PP : forall m, safe (pop m)) by (intros m1; unfold pop; destruct (mStack m1); discriminate).
  assert (BB : forall m, safe (back m)) by (intros m1; unfold back; destruct (mStack m1); discriminate).
  assert (DF : forall n objs h a, (List.length objs <= n)%nat -> safe (dict_fill h a objs)).
  { induction n as [|n IH]; intros objs h a L; [destruct objs; [discriminate|cbn in L; lia]|]. destruct objs as [|k [|v objs]]; try discriminate. cbn [dict_fill]. apply safe_bind; [apply safe_toUnicode|]. intros key _. apply IH. cbn in L. lia. }
  destruct op; try discriminate; cbn [step]; cbv zeta.
  all: repeat first [discriminate|apply RL|apply PM|apply PP|apply BB|apply safe_toUnicode|apply safe_toDict|eapply DF; apply le_n|match goal with |- safe (bind (pop _) _) => apply safe_bind; [apply PP|]; intros [? ?] ? | |- safe (bind _ _) => apply safe_bind; [|intros ? _] | |- safe (let (_, _) := ?x in _) => destruct x | |- safe (if ?b then _ else _) => destruct b | |- safe (putMemory _ _) => unfold putMemory end].
  all: try (match goal with |- safe (toList ?v) => destruct v; discriminate end).
  all: try (match goal with |- safe (match ?x with _ => _ end) => destruct x; try discriminate end).
  all: apply pop_inv in H; destruct H as (st & ES & ->); apply pop_inv in H0; destruct H0 as (st2 & ES2 & ->); cbn [mHeap]; apply safe_Errorf; rewrite ES in F; inversion F; subst; auto.
Qed.
Lemma history_cons : forall p c0 c1 c2, next p c0 c1 -> history p (fun _ => False) c1 c2 -> history p (fun _ => False) c0 c2.
Proof. intros p c0 c1 c2 N H. induction H as [c|c c1 c2 H IH _ N2]; [apply (h_next p _ c0 c0 c); [constructor|tauto|exact N]|]. eapply h_next; [apply IH; exact N|tauto|exact N2]. Qed.
Lemma not_all_fin : forall h vs, ~ Forall (fin h) vs -> exists v, In v vs /\ endless h v.
Proof.
  intros h vs H. destruct (forallb (printable h (heap_size h)) vs) eqn:E.
  - exfalso. apply H. apply Forall_forall. intros v Hv. apply printable_iff. rewrite forallb_forall in E. apply E. exact Hv.
  - destruct (forallb_false _ _ _ E) as (v & I & F). exists v. split; [exact I|]. apply not_printable. exact F.
Qed.
Definition met (p : platform) (r : config) (P : machine -> Prop) : Prop := exists c, history p (fun _ => False) r c /\ P (fst c).
Lemma decode_met : forall p fuel m r,
  (decode_loop p fuel m r = Panic "stack overflow" -> met p (m, r) (fun m' => exists v, In v (mStack m') /\ endless (mHeap m') v)) /\
  (forall v h r', decode_loop p fuel m r = Ok (v, h, r') -> met p (m, r) (fun m' => In v (mStack m') /\ h = mHeap m')).
Proof.
  intros p. induction fuel as [|fuel IH]; intros m r; [split; discriminate|]. cbn [decode_loop]. destruct (rd_bytes r) as [|op rest] eqn:Er; [split; discriminate|].
  destruct (step p op m (mkReader rest (rd_eof r))) as [[[m' r']|]|e|e|] eqn:Es; cbn [bind].
  - assert (N : next p (m, r) (m', r')) by (exists op, (mkReader rest (rd_eof r)); split; [split; [exact Er|reflexivity]|exact Es]). destruct (IH m' r') as [I1 I2]. split.
    + intros H. destruct (I1 H) as (c & Hc & v & Hv). exists c. split; [eapply history_cons; eauto|eauto].
    + intros v h r2 H. destruct (I2 v h r2 H) as (c & Hc & Hv). exists c. split; [eapply history_cons; eauto|exact Hv].
  - split.
    + unfold back. destruct (mStack m); discriminate.
    + intros v h r' H. exists (m, r). split; [constructor|]. unfold back in H. cbn [fst]. destruct (mStack m) eqn:ES; [discriminate|]. cbn [bind] in H. injection H as <- <- _. split; [left; reflexivity|reflexivity].
  - split; discriminate.
  - split; [|discriminate]. intros H. assert (He : e = "stack overflow"%string) by congruence. subst e. exists (m, r). split; [constructor|]. cbn [fst]. apply not_all_fin. intros F. apply (safe_step p op m (mkReader rest (rd_eof r)) F). exact Es.
  - split; discriminate.
Qed.

(** ** The theorems *)

(** Formatting a message with the values [vs] gives the message if none of them contains itself,
    and ends the program otherwise. *)
Theorem C76_message :
  forall (A : Type) h vs msg,
  (Forall (fun v => ~ endless h v) vs -> @Errorf A h vs msg = Err msg) /\
  ((exists v, In v vs /\ endless h v) -> @Errorf A h vs msg = Panic "stack overflow").
Proof.
  intros A h vs msg. unfold Errorf. split.
  - intros F. replace (forallb (printable h (heap_size h)) vs) with true; [reflexivity|]. symmetry. apply forallb_forall. intros v Hv. apply printable_iff. rewrite Forall_forall in F. exact (F v Hv).
  - intros (v & I & E). destruct (forallb _ _) eqn:B; [|reflexivity]. exfalso. rewrite forallb_forall in B. pose proof (B v I) as P. apply printable_iff in P. contradiction.
Qed.
Print Assumptions C76_message.

(** Whatever is read as a scikit-learn model, the program can only be ended for want of stack if
    the decoder meets a value that contains itself. *)
Theorem C76_only_self_containing :
  forall p r load, SKEnsembleFromReader p r load = Panic "stack overflow" ->
  exists c v, history p (fun _ => False) (newPickleMachine, r) c /\ In v (mStack (fst c)) /\ endless (mHeap (fst c)) v.
Proof.
  intros p r load H. unfold SKEnsembleFromReader in H. destruct (decode_met p (S (List.length (rd_bytes r))) newPickleMachine r) as [D1 D2]. change (decode_loop _ _ _ _) with (Decode p r) in D1, D2.
  destruct (Decode p r) as [[[v h] r']|e|e|]; cbn [bind] in H; try discriminate.
  - destruct (D2 v h r' eq_refl) as (c & Hc & Hv & ->). exists c, v. split; [exact Hc|]. split; [exact Hv|]. apply not_printable_iff. destruct (printable _ _ v) eqn:E; [|reflexivity]. exfalso. apply printable_iff in E.
    pose proof (safe_gb (mHeap (fst c)) p v E) as S. destruct (ParseGradientBoosting p (mHeap (fst c)) v) as [g|e|e|]; cbn [bind] in H; try discriminate; [exact (safe_class p g H)|]. apply S. congruence.
  - assert (He : e = "stack overflow"%string) by congruence. subst e. destruct (D1 eq_refl) as (c & Hc & v & Hv & Ev). eauto.
Qed.
Print Assumptions C76_only_self_containing.

(** The pickle of any finite object is safe, whether it is a model or not. *)
Theorem C76_pickled :
  forall p shared o s mu rest eof load, enc p shared [] o s mu ->
  SKEnsembleFromReader p (mkReader (s ++ "."%byte :: rest) eof) load <> Panic "stack overflow".
Proof.
  intros p b o s mu rest eof load H. destruct (decode_enc p b o s mu rest eof H) as (v & h & D & N). unfold SKEnsembleFromReader. rewrite D. cbn [bind].
  apply safe_bind; [|intros g _; apply safe_class]. apply safe_gb. eapply finite_object. exact N.
Qed.
Print Assumptions C76_pickled.

(** The claim that every file gives a model, an error or a panic that can be recovered from is
    false.  A file of 15 bytes: a dict is put into itself and used as the arguments of a call. *)
Definition self_dict : bytes := bs "N(dp0" ++ nl1 ++ bs "Vk" ++ nl1 ++ bs "g0" ++ nl1 ++ bs "sR.".
Theorem C76_error_for_every_file_refuted :
  exists text load, zlen text = 15 /\ SKEnsembleFromReader amd64 (mkReader text true) load = Panic "stack overflow".
Proof. exists self_dict, false. split; vm_compute; reflexivity. Qed.
Print Assumptions C76_error_for_every_file_refuted.

(** the dict of the file is endless *)
Example C76_demo : endless [CDict [(bs "k", VDict 0)]] (VDict 0) /\ ~ endless [CDict [(bs "k", VInt 3); (bs "k", VDict 0)]] (VDict 0).
Proof. split; [apply not_printable_iff|apply printable_iff]; vm_compute; reflexivity. Qed.
