(** * The size of a model loaded from JSON: proofs *)

From Coq Require Import ZArith List Bool String Lia ZifyBool.
From Verif Require Import Go GoFloat GoText UtilBits LgTree TreeBuild Transformation Ensembles Leaves LgJsonIO JsonText
  Spec_JsonText Spec_Size Pf_Go Pf_JsonText Pf_Size.
Local Open Scope Z_scope.

(** number of values in a document, itself included *)
Fixpoint jcount (v : json) : Z :=
  match v with
  | JArr l => 1 + (fix sum (l : list json) : Z := match l with [] => 0 | x :: l' => jcount x + sum l' end) l
  | JObj l => 1 + (fix sum (l : list (bytes * json)) : Z := match l with [] => 0 | (_, x) :: l' => jcount x + sum l' end) l
  | _ => 1
  end.
Definition jcounts (l : list json) : Z := fold_right (fun x n => jcount x + n) 0 l.
Definition mcounts (l : list (bytes * json)) : Z := fold_right (fun x n => jcount (snd x) + n) 0 l.

Lemma jcount_arr : forall l, jcount (JArr l) = 1 + jcounts l.
Proof. intros l. cbn [jcount]. f_equal. Qed.
Lemma jcount_obj : forall l, jcount (JObj l) = 1 + mcounts l.
Proof. intros l. cbn [jcount]. f_equal. induction l as [|[k x] l IH]; [reflexivity|]. cbn [mcounts fold_right snd]. rewrite IH. reflexivity. Qed.

Lemma jcount_pos : forall v, 1 <= jcount v.
Proof.
  fix IH 1. intros [| | | |l|l]; try (cbn; lia).
  - rewrite jcount_arr. assert (0 <= jcounts l); [|lia]. induction l as [|x l IHl]; [cbn; lia|]. cbn [jcounts fold_right]. fold (jcounts l). pose proof (IH x). lia.
  - rewrite jcount_obj. assert (0 <= mcounts l); [|lia]. induction l as [|[k x] l IHl]; [cbn; lia|]. cbn [mcounts fold_right snd]. fold (mcounts l). pose proof (IH x). lia.
Qed.

Lemma mcounts_nonneg : forall l, 0 <= mcounts l.
Proof. induction l as [|[k x] l IH]; cbn [mcounts fold_right snd]; [lia|]. fold (mcounts l). pose proof (jcount_pos x). lia. Qed.

(** ** The text *)
Ltac zlens := rewrite ?zlen_app, ?zlen_cons, ?zlen_app, ?zlen_cons, ?zlen_app, ?zlen_cons, ?zlen_app, ?zlen_cons, ?zlen_app, ?zlen_cons, ?zlen_nil.
Lemma text_count : forall b,
  (forall v t, json_text b v t -> jcount v <= zlen t) /\ (forall l t, elements_text b l t -> jcounts l <= zlen t) /\
  (forall l t, members_text b l t -> mcounts l <= zlen t) /\ (forall k v t, member_text b k v t -> jcount v <= zlen t).
Proof.
  intros b. apply json_text_mutind.
  - vm_compute; discriminate.
  - vm_compute; discriminate.
  - vm_compute; discriminate.
  - intros lit H. destruct (number_start _ H) as (c & t & -> & _). rewrite zlen_cons. pose proof (zlen_nonneg _ t). cbn [jcount]. lia.
  - intros o t _. zlens. pose proof (zlen_nonneg _ t). cbn [jcount]. lia.
  - intros w _. zlens. pose proof (zlen_nonneg _ w). cbn [jcount]. lia.
  - intros l t _ H. rewrite jcount_arr. zlens. lia.
  - intros w _. zlens. pose proof (zlen_nonneg _ w). cbn [jcount]. lia.
  - intros l t _ H. rewrite jcount_obj. zlens. lia.
  - intros w1 v t w2 _ _ H _. zlens. pose proof (zlen_nonneg _ w1). pose proof (zlen_nonneg _ w2). cbn [jcounts fold_right]. lia.
  - intros w1 v t w2 l t' _ _ H _ _ H2. zlens. pose proof (zlen_nonneg _ w1). pose proof (zlen_nonneg _ w2).
    cbn [jcounts fold_right]. fold (jcounts l). lia.
  - intros k v m _ H. cbn [mcounts fold_right snd]. lia.
  - intros k v m l t' _ H _ H2. zlens. cbn [mcounts fold_right snd]. fold (mcounts l). lia.
  - intros w1 k kt w2 w3 v t w4 _ _ _ _ _ H _. zlens. pose proof (zlen_nonneg _ w1). pose proof (zlen_nonneg _ w2).
    pose proof (zlen_nonneg _ w3). pose proof (zlen_nonneg _ w4). pose proof (zlen_nonneg _ kt). lia.
Qed.

Lemma first_value_count : forall limit r v, first_value limit r = Some v -> jcount v <= zlen (rd_bytes r).
Proof.
  intros limit r v H. unfold first_value in H. destruct (value limit _ 0 (rd_bytes r)) as [[v' rest]|] eqn:E; [|discriminate].
  injection H as ->. apply value_sound_all in E. destruct E as (w & t & -> & _ & T & _). apply text_count in T. rewrite !zlen_app.
  pose proof (zlen_nonneg _ w). pose proof (zlen_nonneg _ rest). lia.
Qed.

(** ** Objects *)
Definition ocount (o : option json) : Z := match o with Some v => jcount v | None => 0 end.
Lemma ocount_nonneg : forall o, 0 <= ocount o.
Proof. intros [v|]; cbn [ocount]; [pose proof (jcount_pos v)|]; lia. Qed.

Lemma store_node_count : forall p n k v n', store_node p n (k, v) = Ok n' ->
  ocount (nj_LeftChildRaw n') + ocount (nj_RightChildRaw n') <= ocount (nj_LeftChildRaw n) + ocount (nj_RightChildRaw n) + jcount v.
Proof.
  intros p [si sf th dt dl mt lc rc] k v n' H. pose proof (jcount_pos v). pose proof (ocount_nonneg lc). pose proof (ocount_nonneg rc).
  cbn [nj_LeftChildRaw nj_RightChildRaw]. unfold store_node in H.
  repeat match goal with
  | X : (if ?c then _ else _) = Ok _ |- _ => destruct c
  | X : bind _ _ = Ok _ |- _ => apply bind_ok in X; destruct X as (? & _ & X)
  | X : Ok _ = Ok _ |- _ => injection X as <-; cbn [nj_LeftChildRaw nj_RightChildRaw ocount]; lia
  end.
Qed.

Lemma store_nodes_count : forall p l n n', foldM (store_node p) l n = Ok n' ->
  ocount (nj_LeftChildRaw n') + ocount (nj_RightChildRaw n') <= ocount (nj_LeftChildRaw n) + ocount (nj_RightChildRaw n) + mcounts l.
Proof.
  induction l as [|[k v] l IH]; intros n n' H; cbn [foldM] in H.
  - injection H as <-. cbn. lia.
  - apply bind_ok in H. destruct H as (n1 & H1 & H). apply store_node_count in H1. apply IH in H. cbn [mcounts fold_right snd]. fold (mcounts l). lia.
Qed.

(** inner nodes and leaves *)
Fixpoint jall (t : jnode) : Z := match t with NLeaf _ => 1 | NNode _ l r => 1 + jall l + jall r end.
Lemma jall_pos : forall t, 1 <= jall t.
Proof. induction t; cbn [jall]; lia. Qed.

Lemma unmarshal_count : forall p fuel raw t, unmarshal_node p fuel raw = Ok t -> jall t <= ocount raw.
Proof.
  induction fuel as [|fuel IH]; intros raw t H; cbn [unmarshal_node] in H; [discriminate|]. destruct raw as [v|]; [|discriminate].
  apply bind_ok in H. destruct H as (n & Hn & H). cbn [ocount]. destruct (beqb (nj_MissingType n) []).
  - apply bind_ok in H. destruct H as (x & _ & H). injection H as <-. apply jcount_pos.
  - apply bind_ok in H. destruct H as (l & Hl & H). apply bind_ok in H. destruct H as (r & Hr & H). injection H as <-.
    apply IH in Hl. apply IH in Hr. cbn [jall]. unfold dec_struct in Hn. destruct v as [| | | | |ms]; try discriminate.
    + injection Hn as <-. cbn [node_zero nj_LeftChildRaw ocount] in Hl. pose proof (jall_pos l). lia.
    + apply store_nodes_count in Hn. cbn [node_zero nj_LeftChildRaw nj_RightChildRaw ocount] in Hn. rewrite jcount_obj. lia.
Qed.

(** ** The stack loop *)
Definition leaf1 (t : jnode) : Z := match t with NLeaf _ => 1 | NNode _ _ _ => 0 end.

Lemma json_leaves_size : forall l r n t n' t', json_leaves l r (n, t) = (n', t') ->
  tNodes t' = tNodes t /\ zlen (tLeafValues t') = zlen (tLeafValues t) + leaf1 l + leaf1 r.
Proof.
  intros l r n t n' t' H. assert (E : snd (json_leaves l r (n, t)) = t') by (rewrite H; reflexivity). clear H. subst t'.
  assert (X : snd (json_leaves l r (n, t)) =
    let t1 := match l with NLeaf v => tree_set_leaves t (tLeafValues t ++ [v]) | NNode _ _ _ => t end in
    match r with NLeaf v => tree_set_leaves t1 (tLeafValues t1 ++ [v]) | NNode _ _ _ => t1 end).
  { destruct l; destruct r; reflexivity. }
  rewrite X. destruct l; destruct r; cbn [tNodes tLeafValues tree_set_leaves leaf1]; rewrite ?zlen_app, ?zlen_cons, ?zlen_nil; split; auto; lia.
Qed.

Lemma json_create_size : forall p t n l r nd t', json_createNode p t n l r = Ok (nd, t') ->
  tNodes t' = tNodes t /\ zlen (tLeafValues t') = zlen (tLeafValues t) + leaf1 l + leaf1 r.
Proof.
  intros p t n l r nd t' H. unfold json_createNode in H. destruct (beqb _ _) in H; [|destruct (beqb _ _) in H; [|discriminate]].
  - unfold json_createCategoricalNode in H. destruct (stringToMissingType _); [|discriminate]. destruct (nj_Threshold n) as [| |s|]; try discriminate.
    apply bind_ok in H. destruct H as ([[ci ct] t1] & H1 & H).
    assert (E : tNodes t1 = tNodes t /\ tLeafValues t1 = tLeafValues t).
    { unfold json_category in H1. destruct (split s _) as [|a [|b l']]; [discriminate| |].
      - destruct (atoi a); [|discriminate]. injection H1 as _ _ <-. auto.
      - apply bind_ok in H1. destruct H1 as (vs & _ & H1). apply bind_ok in H1. destruct H1 as (bits & _ & H1).
        destruct bits as [|w [|w2 ws]]; injection H1 as _ _ <-; auto. }
    destruct E as [<- <-].
    match type of H with Ok ?x = _ => assert (K : x = (nd, t')) by congruence end. apply json_leaves_size in K. auto.
  - unfold json_createNumericalNode in H. destruct (stringToMissingType _); [|discriminate]. cbv zeta in H. destruct (nj_Threshold n); try discriminate.
    match type of H with Ok ?x = _ => assert (K : x = (nd, t')) by congruence end. apply json_leaves_size in K. auto.
Qed.

Definition stack_all (st : list (option parentPtr * jnode)) : Z := fold_right (fun q n => jall (snd q) + n) 0 st.

Lemma push_all : forall b c s st, stack_all (push_json b c s st) + leaf1 c <= stack_all st + jall c.
Proof. intros b c s st. destruct c; cbn [push_json leaf1 jall stack_all fold_right snd]; fold (stack_all st); lia. Qed.

Lemma json_loop_size : forall p fuel st s t, json_loop p fuel st s = Ok t -> tree_size t <= tree_size (js_tree s) + stack_all st.
Proof.
  induction fuel as [|fuel IH]; intros st s t H; cbn [json_loop] in H; [discriminate|].
  destruct st as [|[ptr [v|n l r]] st]; [injection H as <-; cbn; lia|discriminate|].
  apply bind_ok in H. destruct H as ([nd t1] & H1 & H). apply json_create_size in H1. destruct H1 as [En El].
  apply bind_ok in H. destruct H as (s1 & H2 & H). cbv zeta in H.
  assert (W : tree_size (js_tree s1) = tree_size t1).
  { unfold write_ptr in H2. destruct ptr as [q|]; [|injection H2 as <-; reflexivity]. destruct (_ =? _) in H2; [|injection H2 as <-; reflexivity].
    apply bind_ok in H2. destruct H2 as (par & _ & H2). apply bind_ok in H2. destruct H2 as (ns & Hs & H2). injection H2 as <-.
    apply set_at_ok in Hs. apply zset_len in Hs. unfold tree_size. cbn [js_tree tNodes tLeafValues tree_set_nodes]. cbn [js_tree] in Hs. rewrite Hs. reflexivity. }
  assert (A : tree_size (js_tree (append_node p nd s1)) = tree_size (js_tree s1) + 1).
  { unfold append_node. cbv zeta. destruct (_ <=? _); unfold tree_size; cbn [js_tree tNodes tLeafValues tree_set_nodes]; rewrite zlen_app, zlen_cons, zlen_nil; lia. }
  apply IH in H. rewrite A, W in H. unfold tree_size in *. rewrite En, El in H. cbn [stack_all fold_right snd jall]. fold (stack_all st).
  pose proof (push_all true l (append_node p nd s1) st) as P1. pose proof (jall_pos l) as Jl. pose proof (jall_pos r) as Jr.
  assert (Ll : leaf1 l <= jall l) by (destruct l; cbn [leaf1 jall] in *; lia).
  assert (Lr : leaf1 r <= jall r) by (destruct r; cbn [leaf1 jall] in *; lia).
  set (st1 := if has (nFlags nd) leftLeaf then st else push_json true l (append_node p nd s1) st) in *.
  assert (S1 : stack_all st1 + leaf1 l <= stack_all st + jall l) by (unfold st1; destruct (has _ _); lia). clearbody st1.
  pose proof (push_all false r (append_node p nd s1) st1) as P2.
  set (st2 := if has (nFlags nd) rightLeaf then st1 else push_json false r (append_node p nd s1) st1) in *.
  assert (S2 : stack_all st2 + leaf1 r <= stack_all st1 + jall r) by (unfold st2; destruct (has _ _); lia). clearbody st2.
  lia.
Qed.

Lemma store_tree_count : forall p l n n', foldM (store_tree p) l n = Ok n' -> ocount (tj_RootRaw n') <= ocount (tj_RootRaw n) + mcounts l.
Proof.
  induction l as [|[k v] l IH]; intros n n' H; cbn [foldM] in H.
  - injection H as <-. cbn. lia.
  - apply bind_ok in H. destruct H as (n1 & H1 & H). apply IH in H. cbn [mcounts fold_right snd]. fold (mcounts l).
    assert (ocount (tj_RootRaw n1) <= ocount (tj_RootRaw n) + jcount v); [|lia]. clear - H1.
    destruct n as [a b root]. unfold store_tree in H1. pose proof (jcount_pos v). pose proof (ocount_nonneg root).
    repeat match goal with
    | X : (if ?c then _ else _) = Ok _ |- _ => destruct c
    | X : bind _ _ = Ok _ |- _ => apply bind_ok in X; destruct X as (? & _ & X)
    | X : Ok _ = Ok _ |- _ => injection X as <-; cbn [tj_RootRaw ocount]; lia
    end.
Qed.

Lemma json_tree_size : forall p raw t, unmarshalTree p raw = Ok t -> tree_size t <= jcount raw.
Proof.
  intros p raw t H. unfold unmarshalTree in H. apply bind_ok in H. destruct H as (tj & Hj & H). cbv zeta in H.
  set (t0 := if 0 <? tNCategorical (tree_set_ncat emptyTree (tj_NumCat tj)) then tree_set_cats (tree_set_ncat emptyTree (tj_NumCat tj)) [0] [] else tree_set_ncat emptyTree (tj_NumCat tj)) in H.
  assert (T0 : tNodes t0 = [] /\ tLeafValues t0 = []) by (unfold t0; destruct (0 <? _); auto).
  clearbody t0. destruct T0 as [En El]. destruct (_ <? 1); [discriminate|]. apply bind_ok in H. destruct H as (root & Hr & H).
  apply unmarshal_count in Hr. assert (B : ocount (tj_RootRaw tj) <= jcount raw).
  { unfold dec_struct in Hj. destruct raw as [| | | | |ms]; try discriminate.
    - injection Hj as <-. cbn. lia.
    - apply store_tree_count in Hj. cbn [tj_RootRaw ocount] in Hj. rewrite jcount_obj. lia. }
  destruct root as [v|n l r].
  - injection H as <-. unfold tree_size. cbn [tNodes tLeafValues tree_set_leaves]. rewrite En, El. cbn [app]. rewrite zlen_cons, !zlen_nil. cbn [jall] in Hr. lia.
  - unfold json_build in H. destruct (_ <? _); [discriminate|]. apply json_loop_size in H. cbn [js_tree stack_all fold_right snd] in H.
    unfold tree_size in H at 2. rewrite En, El, !zlen_nil in H. lia.
Qed.

Lemma store_ensemble_count : forall l e e', foldM store_ensemble l e = Ok e' -> jcounts (ej_Trees e') <= jcounts (ej_Trees e) + mcounts l.
Proof.
  induction l as [|[k v] l IH]; intros e e' H; cbn [foldM] in H.
  - injection H as <-. cbn. lia.
  - apply bind_ok in H. destruct H as (n1 & H1 & H). apply IH in H. cbn [mcounts fold_right snd]. fold (mcounts l).
    assert (jcounts (ej_Trees n1) <= jcounts (ej_Trees e) + jcount v); [|lia]. clear - H1.
    assert (N : forall l, 0 <= jcounts l).
    { induction l as [|x l IHl]; cbn [jcounts fold_right]; [lia|]. fold (jcounts l). pose proof (jcount_pos x). lia. }
    destruct e as [a b c d f ts]. unfold store_ensemble in H1. pose proof (jcount_pos v). pose proof (N ts).
    repeat match goal with
    | X : (if ?c then _ else _) = Ok _ |- _ => destruct c
    | X : bind (dec_slice _) _ = Ok _ |- _ => apply bind_ok in X; destruct X as (ts' & Hs & X); unfold dec_slice in Hs;
        destruct v; try discriminate; injection Hs as <-; rewrite ?jcount_arr in *
    | X : bind _ _ = Ok _ |- _ => apply bind_ok in X; destruct X as (? & _ & X)
    | X : Ok _ = Ok _ |- _ => injection X as <-; cbn [ej_Trees]; try change (jcounts []) with 0; lia
    end.
Qed.

Lemma json_doc_size : forall p v load e, LGEnsembleFromJSON p (Some v) load = Ok e -> model_size e <= jcount v.
Proof.
  intros p v load e H. unfold LGEnsembleFromJSON in H. destruct load; [discriminate|]. apply bind_ok in H. destruct H as (d & Hd & H).
  do 5 (match type of H with (if ?c then _ else _) = _ => destruct c; [discriminate|] end). cbv zeta in H.
  do 2 (match type of H with (if ?c then _ else _) = _ => destruct c; [discriminate|] end).
  apply bind_ok in H. destruct H as (ts & Ht & H). injection H as <-. unfold model_size. cbn [eBase base_size lgTrees].
  assert (S : trees_size ts <= jcounts (ej_Trees d)).
  { unfold trees_size, jcounts. eapply (mapM_sum _ _ _ tree_size jcount); [exact Ht|]. apply json_tree_size. }
  unfold dec_struct in Hd. destruct v as [| | | | |ms]; try discriminate.
  - injection Hd as <-. cbn in *. lia.
  - apply store_ensemble_count in Hd. cbn [ej_Trees] in Hd. change (jcounts []) with 0 in Hd. rewrite jcount_obj. lia.
Qed.

Lemma json_file_size : forall p limit r load e, LGEnsembleFromJSONReader p limit r load = Ok e -> model_size e <= zlen (rd_bytes r).
Proof.
  intros p limit r load e H. unfold LGEnsembleFromJSONReader in H. destruct (first_value limit r) as [v|] eqn:E.
  - apply json_doc_size in H. apply first_value_count in E. lia.
  - unfold LGEnsembleFromJSON in H. destruct load; discriminate.
Qed.
