(** * The size of a loaded model: proofs *)

From Coq Require Import ZArith List Bool String Lia ZifyBool.
From Verif Require Import Go GoFloat GoText UtilText UtilBits LgTree TreeBuild Transformation Ensembles Leaves LgTextIO XgBin XgIO
  Spec_Size Pf_Go Pf_Build Pf_Text.
Local Open Scope Z_scope.

(** ** The conversion loop *)
Lemma nodup_bound : forall (ids : list Z) n, NoDup ids -> Forall (fun i => 0 <= i < n) ids -> 0 <= n -> zlen ids <= n.
Proof.
  intros ids n N F Hn. assert (I : incl ids (zseq n)).
  { intros i Hi. apply in_zseq. rewrite Forall_forall in F. auto. }
  pose proof (NoDup_incl_length N I) as L. unfold zseq in L. rewrite map_length, seq_length in L. unfold zlen. lia.
Qed.

(** creating a node reads an entry below [n] and adds at most [k] leaf values *)
Definition bounded_source (s : source) (n k : Z) : Prop :=
  forall t i nd t', src_create s t i = Ok (nd, t') ->
    0 <= i < n /\ tNodes t' = tNodes t /\ zlen (tLeafValues t') <= zlen (tLeafValues t) + k.

Definition counted (n k l0 : Z) (b : bstate) : Prop :=
  exists ids, NoDup ids /\ Forall (fun i => 0 <= i < n) ids /\ (forall i, In i ids -> zget (b_visited b) i = Some true) /\
    zlen (tNodes (b_tree b)) = 1 + zlen ids /\ zlen (tLeafValues (b_tree b)) <= l0 + k * (1 + zlen ids).

Lemma push_counted : forall s set i c b b' n k l0, bounded_source s n k -> zget (b_visited b) i = Some false ->
  push_child s set i c b = Ok b' -> counted n k l0 b -> counted n k l0 b'.
Proof.
  intros s set i c b b' n k l0 B V H (ids & N & F & T & Ln & Ll). unfold push_child in H.
  apply bind_ok in H. destruct H as ([node t] & H1 & H). apply bind_ok in H. destruct H as (v' & H2 & H).
  apply bind_ok in H. destruct H as (par & H3 & H). apply bind_ok in H. destruct H as (ns & H4 & H).
  injection H as <-. destruct (B _ _ _ _ H1) as (Hi & En & Hl). apply set_at_ok in H2. apply set_at_ok in H4.
  exists (i :: ids). cbn [b_visited b_tree]. repeat split.
  - constructor; auto. intros Hin. apply T in Hin. congruence.
  - constructor; auto.
  - intros j [<-|Hj].
    + eapply zset_get_same; eauto.
    + destruct (Z.eq_dec j i) as [->|Hne]; [eapply zset_get_same; eauto|]. erewrite zset_get_other; eauto.
  - apply zset_len in H4. cbn [tNodes tree_set_nodes] in *. rewrite H4, zlen_app, En, Ln, !zlen_cons, zlen_nil. lia.
  - cbn [tLeafValues tree_set_nodes]. rewrite zlen_cons. nia.
Qed.

Lemma step_counted : forall s b b' n k l0, bounded_source s n k -> build_step s b = Ok (Some b') -> counted n k l0 b -> counted n k l0 b'.
Proof.
  intros s b b' n k l0 B H C. unfold build_step in H.
  destruct (b_orig b) as [|o orig]; [discriminate|]. destruct (b_conv b) as [|c conv]; [discriminate|]. cbv zeta in H.
  assert (P : counted n k l0 (mkB orig conv (b_visited b) (b_tree b))) by exact C.
  assert (L : forall b', build_left s o c b (mkB orig conv (b_visited b) (b_tree b)) = Ok (Some b') -> counted n k l0 b').
  { intros b2 H2. unfold build_left in H2. apply bind_ok in H2. destruct H2 as (nd & _ & H2).
    destruct (has (nFlags nd) leftLeaf); [injection H2 as <-; auto|].
    apply bind_ok in H2. destruct H2 as (i & _ & H2). apply bind_ok in H2. destruct H2 as (v & Hv & H2). apply at_ok in Hv.
    destruct v; [injection H2 as <-; auto|]. apply bind_ok in H2. destruct H2 as (b1 & Hp & H2). injection H2 as <-.
    eapply push_counted; eauto. }
  apply bind_ok in H. destruct H as (nd & _ & H). destruct (has (nFlags nd) rightLeaf); [auto|].
  apply bind_ok in H. destruct H as (i & _ & H). apply bind_ok in H. destruct H as (v & Hv & H). apply at_ok in Hv.
  destruct v; [auto|]. apply bind_ok in H. destruct H as (b1 & Hp & H). injection H as <-. eapply push_counted; eauto.
Qed.

Lemma loop_counted : forall s n k l0 fuel b t, bounded_source s n k -> build_loop s fuel b = Ok t -> counted n k l0 b ->
  exists b', b_tree b' = t /\ counted n k l0 b'.
Proof.
  induction fuel as [|fuel IH]; intros b t B H C; cbn [build_loop] in H; [discriminate|].
  apply bind_ok in H. destruct H as ([b1|] & H1 & H).
  - eapply IH; eauto. eapply step_counted; eauto.
  - injection H as <-. eauto.
Qed.

Lemma build_size : forall s n k nv t t', bounded_source s n k -> 0 <= n -> 0 <= k -> tNodes t = [] -> build s nv t = Ok t' ->
  zlen (tNodes t') <= n + 1 /\ zlen (tLeafValues t') <= zlen (tLeafValues t) + k * (n + 1).
Proof.
  intros s n k nv t t' B Hn Hk E H. unfold build in H. cbv zeta in H.
  apply bind_ok in H. destruct H as ([node t1] & H1 & H). destruct (B _ _ _ _ H1) as (_ & En & Hl).
  destruct (loop_counted _ n k (zlen (tLeafValues t)) _ _ _ B H) as (b' & <- & (ids & N & F & _ & Ln & Ll)).
  - exists []. cbn [b_visited b_tree]. cbn [tNodes tLeafValues tree_set_nodes]. rewrite zlen_app, En, E.
    split; [constructor|]. split; [constructor|]. split; [intros i []|]. rewrite !zlen_nil, zlen_cons, zlen_nil. lia.
  - pose proof (nodup_bound ids n N F Hn). split; [lia|nia].
Qed.

(** ** LightGBM text *)
Lemma convertf_len : forall A (f : bytes -> option A) ps key l s, convert_tokens f ps key = Ok l -> lookup ps key = Some s ->
  zlen l <= zlen s + 1.
Proof.
  intros A f ps key l s H L. unfold convert_tokens in H. rewrite L in H.
  assert (E : zlen l = zlen (split s [sp])).
  { clear L. revert l H. induction (split s [sp]) as [|tok toks IH]; intros l H; cbn [mapM] in H.
    - injection H as <-. reflexivity.
    - apply bind_ok in H. destruct H as (x & _ & H). apply bind_ok in H. destruct H as (xs & Hx & H). injection H as <-.
      rewrite !zlen_cons. rewrite (IH _ Hx). reflexivity. }
  rewrite E. clear. destruct (split_tokens sp s) as (_ & J & _). rewrite <- J at 2. generalize (split s [sp]). intros l.
  induction l as [|a l IH]; [cbn; lia|]. destruct l as [|b l]; [cbn [join]; rewrite zlen_cons; pose proof (zlen_nonneg _ a); cbn; lia|].
  change (join sp (a :: b :: l)) with (a ++ sp :: join sp (b :: l)). rewrite zlen_app, !zlen_cons in *. pose proof (zlen_nonneg _ a). lia.
Qed.

Definition weight (ps : stringParams) : Z := fold_right (fun kv n => zlen (fst kv) + zlen (snd kv) + n) 0 ps.

Lemma weight_nonneg : forall ps, 0 <= weight ps.
Proof.
  induction ps as [|[k v] ps IH]; cbn [weight fold_right fst snd]; [lia|].
  fold (weight ps). pose proof (zlen_nonneg _ k). pose proof (zlen_nonneg _ v). lia.
Qed.

Lemma params_line_weight : forall ps line ps', params_line ps line = Ok ps' -> weight ps' <= weight ps + zlen line.
Proof.
  intros ps line ps' H. unfold params_line in H. destruct (split_tokens eqc line) as (_ & J & _).
  destruct (split line [eqc]) as [|k [|v [|x l]]].
  - injection H as <-. pose proof (zlen_nonneg _ line). lia.
  - injection H as <-. cbn [join] in J. subst k. cbn [weight fold_right fst snd]. fold (weight ps). rewrite zlen_nil. lia.
  - injection H as <-. cbn [join] in J. rewrite <- J, zlen_app, zlen_cons. cbn [weight fold_right fst snd]. fold (weight ps). lia.
  - discriminate.
Qed.

Lemma cut_line_len : forall s l rest, cut_line s = Some (l, rest) -> zlen l + zlen rest = zlen s.
Proof.
  induction s as [|c s IH]; intros l rest H; cbn [cut_line] in H; [discriminate|].
  destruct (Byte.eqb c nl); [injection H as <- <-; rewrite !zlen_cons, zlen_nil; lia|].
  destruct (cut_line s) as [[l1 r1]|]; [|discriminate]. injection H as <- <-. specialize (IH _ _ eq_refl). rewrite !zlen_cons. lia.
Qed.

Lemma read_string_len : forall r line err r', read_string r = (line, err, r') -> zlen line + zlen (rd_bytes r') = zlen (rd_bytes r).
Proof.
  intros r line err r' H. unfold read_string in H. destruct (cut_line (rd_bytes r)) as [[l rest]|] eqn:E.
  - injection H as <- <- <-. cbn. apply cut_line_len; auto.
  - injection H as <- <- <-. cbn [rd_bytes]. rewrite zlen_nil. lia.
Qed.

Lemma params_loop_weight : forall fuel ps line r ps' r', params_loop fuel ps line r = Ok (ps', r') ->
  weight ps' + zlen (rd_bytes r') <= weight ps + zlen line + zlen (rd_bytes r).
Proof.
  induction fuel as [|fuel IH]; intros ps line r ps' r' H; cbn [params_loop] in H; [discriminate|].
  apply bind_ok in H. destruct H as (ps1 & H1 & H). apply params_line_weight in H1.
  destruct (read_string r) as [[line2 err] r2] eqn:E. apply read_string_len in E. pose proof (trim_space_shorter line2).
  pose proof (zlen_nonneg _ line2).
  assert (K : (if beqb (trim_space line2) [] then Ok (ps1, r2) else params_loop fuel ps1 (trim_space line2) r2) = Ok (ps', r') ->
    weight ps' + zlen (rd_bytes r') <= weight ps + zlen line + zlen (rd_bytes r)).
  { destruct (beqb (trim_space line2) []).
    - intros X. injection X as <- <-. lia.
    - intros X. apply IH in X. lia. }
  destruct err; auto. discriminate.
Qed.

Lemma block_weight : forall r ps r', ReadParamsUntilBlank r = Ok (ps, r') -> weight ps + zlen (rd_bytes r') <= zlen (rd_bytes r).
Proof.
  intros r ps r' H. unfold ReadParamsUntilBlank in H. destruct (read_string r) as [[line err] r1] eqn:E.
  apply read_string_len in E. destruct err; try discriminate. apply params_loop_weight in H. pose proof (trim_space_shorter line).
  change (weight []) with 0 in H. lia.
Qed.

Lemma lookup_weight : forall ps k v, lookup ps k = Some v -> zlen k + zlen v <= weight ps.
Proof.
  induction ps as [|[a b] ps IH]; intros k v H; cbn [lookup] in H; [discriminate|]. cbn [weight fold_right fst snd]. fold (weight ps).
  pose proof (zlen_nonneg _ a). pose proof (zlen_nonneg _ b). pose proof (weight_nonneg ps).
  destruct (beqb a k) eqn:E; [apply beqb_eq in E; subst; injection H as <-; lia|]. apply IH in H. lia.
Qed.

Lemma lookup_weight2 : forall ps k1 v1 k2 v2, k1 <> k2 -> lookup ps k1 = Some v1 -> lookup ps k2 = Some v2 ->
  zlen k1 + zlen v1 + zlen k2 + zlen v2 <= weight ps.
Proof.
  induction ps as [|[a b] ps IH]; intros k1 v1 k2 v2 N H1 H2; cbn [lookup] in H1, H2; [discriminate|].
  cbn [weight fold_right fst snd]. fold (weight ps). pose proof (zlen_nonneg _ a). pose proof (zlen_nonneg _ b).
  destruct (beqb a k1) eqn:E1; destruct (beqb a k2) eqn:E2.
  - apply beqb_eq in E1. apply beqb_eq in E2. congruence.
  - apply beqb_eq in E1. subst. injection H1 as <-. apply lookup_weight in H2. lia.
  - apply beqb_eq in E2. subst. injection H2 as <-. apply lookup_weight in H1. lia.
  - specialize (IH _ _ _ _ N H1 H2). lia.
Qed.

Lemma lg_source_bounded : forall p a, bounded_source (lg_source p a) (zlen (a_decision a)) 0.
Proof.
  intros p a t i nd t' H. cbn [src_create lg_source] in H. unfold lg_createNode in H.
  apply bind_ok in H. destruct H as (d & Hd & H). apply at_ok in Hd. apply zget_range in Hd. split; [auto|].
  destruct (has d 1).
  - unfold lg_createCategoricalNode in H. cbv zeta in H. apply bind_ok in H. destruct H as (d2 & _ & H).
    apply bind_ok in H. destruct H as (mt & _ & H). apply bind_ok in H. destruct H as (thr & _ & H).
    apply bind_ok in H. destruct H as (hi & _ & H). apply bind_ok in H. destruct H as (lo & _ & H).
    apply bind_ok in H. destruct H as (ts & _ & H). apply bind_ok in H. destruct H as ([[ci ct] t1] & H1 & H).
    apply bind_ok in H. destruct H as (f & _ & H). apply bind_ok in H. destruct H as (n & _ & H). injection H as _ <-.
    assert (E : tNodes t1 = tNodes t /\ tLeafValues t1 = tLeafValues t).
    { destruct (_ =? 0) in H1; [discriminate|]. destruct (_ =? 1) in H1.
      - destruct (FirstNonZeroBit ts); try discriminate. injection H1 as _ _ <-. auto.
      - destruct (_ =? 1) in H1.
        + apply bind_ok in H1. destruct H1 as (w & _ & H1). injection H1 as _ _ <-. auto.
        + injection H1 as _ _ <-. auto. }
    destruct E as [-> ->]. split; [auto|lia].
  - apply bind_ok in H. destruct H as (n & _ & H). injection H as _ <-. split; [auto|lia].
Qed.

Lemma lg_params_size : forall p ps t, lgTreeFromParams p ps = Ok t -> tree_size t <= weight ps.
Proof.
  intros p ps t H. unfold lgTreeFromParams in H. apply bind_ok in H. destruct H as (nc & _ & H). cbv zeta in H.
  apply bind_ok in H. destruct H as (nl & _ & H). destruct (nl <? 1); [discriminate|].
  apply bind_ok in H. destruct H as (lv & Hl & H). unfold ToFloat64Slice in Hl.
  destruct (lookup ps (bs "leaf_value")) as [sl|] eqn:Ll; [|unfold convert_tokens in Hl; rewrite Ll in Hl; discriminate].
  pose proof (convertf_len _ _ _ _ _ _ Hl Ll) as Bl. change (zlen (bs "leaf_value")) with 10 in *.
  destruct (nl =? 1).
  - injection H as <-. unfold tree_size. cbn [tNodes tLeafValues tree_set_leaves tree_set_ncat emptyTree]. rewrite zlen_nil.
    pose proof (lookup_weight _ _ _ Ll) as W. change (zlen (bs "leaf_value")) with 10 in W. lia.
  - apply bind_ok in H. destruct H as (lc & _ & H). apply bind_ok in H. destruct H as (rc & _ & H).
    apply bind_ok in H. destruct H as (dt & Hd & H). apply bind_ok in H. destruct H as (sf & _ & H).
    apply bind_ok in H. destruct H as (th & _ & H). apply bind_ok in H. destruct H as ([[t1 ct] cb] & H1 & H).
    assert (E : tNodes t1 = [] /\ tLeafValues t1 = lv).
    { destruct (0 <? nc) in H1.
      - apply bind_ok in H1. destruct H1 as (x & _ & H1). apply bind_ok in H1. destruct H1 as (y & _ & H1). injection H1 as <- _ _. auto.
      - injection H1 as <- _ _. auto. }
    destruct E as [En El]. destruct (pl_maxalloc p <? nl - 1); [discriminate|].
    unfold ToUint32Slice in Hd. destruct (lookup ps (bs "decision_type")) as [sd|] eqn:Ld; [|unfold convert_tokens in Hd; rewrite Ld in Hd; discriminate].
    pose proof (convertf_len _ _ _ _ _ _ Hd Ld) as Bd.
    destruct (build_size _ _ _ _ _ _ (lg_source_bounded p _) (zlen_nonneg _ _) (Z.le_refl 0) En H) as [S1 S2].
    cbn [a_decision] in S1, S2. rewrite El in S2. unfold tree_size.
    assert (N : bs "decision_type" <> bs "leaf_value") by discriminate.
    pose proof (lookup_weight2 _ _ _ _ _ N Ld Ll) as W. change (zlen (bs "leaf_value")) with 10 in W. change (zlen (bs "decision_type")) with 13 in W. lia.
Qed.

Lemma lg_trees_size : forall p n r ts r', lg_read_trees p n r = Ok (ts, r') ->
  trees_size ts + zlen (rd_bytes r') <= zlen (rd_bytes r).
Proof.
  induction n as [|n IH]; intros r ts r' H; cbn [lg_read_trees] in H.
  - injection H as <- <-. cbn. lia.
  - apply bind_ok in H. destruct H as ([t r1] & H1 & H). apply bind_ok in H. destruct H as ([ts1 r2] & H2 & H). injection H as <- <-.
    unfold lgTreeFromReader in H1. apply bind_ok in H1. destruct H1 as ([ps r3] & Hb & H1).
    apply bind_ok in H1. destruct H1 as (t' & Ht & H1). injection H1 as <- <-. apply block_weight in Hb. apply lg_params_size in Ht.
    apply IH in H2. cbn [trees_size fold_right]. fold (trees_size ts1). lia.
Qed.

Lemma lg_file_size : forall p r load e, LGEnsembleFromReader p r load = Ok e -> model_size e <= zlen (rd_bytes r).
Proof.
  intros p r load e H. unfold LGEnsembleFromReader in H. apply bind_ok in H. destruct H as ([ps r1] & Hb & H).
  apply bind_ok in H. destruct H as ([h n] & _ & H). apply bind_ok in H. destruct H as (tr & _ & H).
  apply bind_ok in H. destruct H as ([ts r2] & Ht & H). injection H as <-. unfold model_size. cbn [eBase base_size lgTrees].
  apply block_weight in Hb. apply lg_trees_size in Ht. pose proof (weight_nonneg ps). pose proof (zlen_nonneg _ (rd_bytes r2)). lia.
Qed.

(** ** XGBoost *)
Lemma read_full_len : forall n r b r', read_full n r = Ok (b, r') -> 0 <= n ->
  zlen b = n /\ zlen (rd_bytes r') = zlen (rd_bytes r) - n.
Proof.
  intros n r b r' H Hn. unfold read_full in H. destruct (zlen (rd_bytes r) <? n) eqn:E; [discriminate|]. injection H as <- <-.
  cbn [rd_bytes]. unfold zlen in *. rewrite firstn_length, skipn_length. lia.
Qed.

Lemma read_u64_len : forall r n r', read_u64 r = Ok (n, r') -> zlen (rd_bytes r') <= zlen (rd_bytes r).
Proof.
  intros r n r' H. unfold read_u64 in H. apply bind_ok in H. destruct H as ([b r1] & H1 & H). injection H as <- <-.
  apply read_full_len in H1; lia.
Qed.

Lemma dec_list_len : forall dec n b, zlen (fst (dec_list dec n b)) = Z.of_nat n.
Proof.
  induction n as [|n IH]; intros b; cbn [dec_list]; [reflexivity|]. destruct (dec b) as [z b1]. specialize (IH b1).
  destruct (dec_list dec n b1). cbn [fst] in *. rewrite zlen_cons. lia.
Qed.

Lemma floats_len : forall p r l r', ReadFloat32Slice p r = Ok (l, r') -> 4 * zlen l + zlen (rd_bytes r') <= zlen (rd_bytes r).
Proof.
  intros p r l r' H. unfold ReadFloat32Slice in H. apply bind_ok in H. destruct H as ([n r1] & H1 & H). apply read_u64_len in H1.
  destruct (n =? 0); [injection H as <- <-; rewrite zlen_nil; lia|].
  apply bind_ok in H. destruct H as (u & Hm & H). unfold make_check in Hm. destruct ((n <? 0) || (pl_maxalloc p <? n)) eqn:E; [discriminate|].
  apply bind_ok in H. destruct H as ([b r2] & H2 & H). injection H as <- <-. apply read_full_len in H2; [|lia].
  rewrite dec_list_len. lia.
Qed.

Lemma string_len : forall p r l r', ReadString p r = Ok (l, r') -> zlen (rd_bytes r') <= zlen (rd_bytes r).
Proof.
  intros p r l r' H. unfold ReadString in H. apply bind_ok in H. destruct H as ([n r1] & H1 & H). apply read_u64_len in H1.
  destruct (n =? 0); [injection H as <- <-; lia|].
  apply bind_ok in H. destruct H as (u & Hm & H). unfold make_check in Hm. destruct ((n <? 0) || (pl_maxalloc p <? n)) eqn:E; [discriminate|].
  apply read_full_len in H; lia.
Qed.

Lemma read_n_len : forall A (rd : reader -> outcome (A * reader)) (w : A -> Z),
  (forall r x r', rd r = Ok (x, r') -> w x + zlen (rd_bytes r') <= zlen (rd_bytes r)) ->
  forall n r xs r', read_n rd n r = Ok (xs, r') ->
    zlen xs = Z.of_nat n /\ fold_right (fun x m => w x + m) 0 xs + zlen (rd_bytes r') <= zlen (rd_bytes r).
Proof.
  intros A rd w H. induction n as [|n IH]; intros r xs r' E; cbn [read_n] in E.
  - injection E as <- <-. cbn. split; [reflexivity|lia].
  - apply bind_ok in E. destruct E as ([x r1] & H1 & E). apply bind_ok in E. destruct E as ([xs1 r2] & H2 & E). injection E as <- <-.
    apply H in H1. apply IH in H2. rewrite zlen_cons. cbn [fold_right]. lia.
Qed.

Lemma const_sum : forall A (c : Z) (l : list A), fold_right (fun _ m => c + m) 0 l = c * zlen l.
Proof. induction l as [|x l IH]; cbn [fold_right]; [rewrite zlen_nil; lia|]. rewrite zlen_cons, IH. lia. Qed.

Lemma node_len : forall r x r', ReadStruct_Node r = Ok (x, r') -> 20 + zlen (rd_bytes r') <= zlen (rd_bytes r).
Proof.
  intros r x r' H. unfold ReadStruct_Node in H. apply bind_ok in H. destruct H as ([b r1] & H1 & H).
  cbn [dec_i32 dec_u32] in H. injection H as _ <-. apply read_full_len in H1; lia.
Qed.

Lemma stat_len : forall r x r', ReadStruct_Stat r = Ok (x, r') -> 16 + zlen (rd_bytes r') <= zlen (rd_bytes r).
Proof.
  intros r x r' H. unfold ReadStruct_Stat in H. apply bind_ok in H. destruct H as ([b r1] & H1 & H).
  cbn [dec_i32 dec_u32] in H. injection H as _ <-. apply read_full_len in H1; lia.
Qed.

Lemma treeparam_len : forall r x r', ReadStruct_TreeParam r = Ok (x, r') -> 148 + zlen (rd_bytes r') <= zlen (rd_bytes r).
Proof.
  intros r x r' H. unfold ReadStruct_TreeParam in H. apply bind_ok in H. destruct H as ([b r1] & H1 & H).
  unfold dec_i32 in H. destruct (dec_list _ _ _) in H. injection H as _ <-. apply read_full_len in H1; lia.
Qed.

Lemma gbtreeparam_len : forall r x r', ReadStruct_GBTreeParam r = Ok (x, r') -> zlen (rd_bytes r') <= zlen (rd_bytes r).
Proof.
  intros r x r' H. unfold ReadStruct_GBTreeParam in H. apply bind_ok in H. destruct H as ([b r1] & H1 & H).
  unfold dec_i32, dec_i64 in H. destruct (dec_list _ _ _) in H. injection H as _ <-. apply read_full_len in H1; lia.
Qed.

Lemma learner_len : forall r x r', ReadStruct_Learner r = Ok (x, r') -> zlen (rd_bytes r') <= zlen (rd_bytes r).
Proof.
  intros r x r' H. unfold ReadStruct_Learner in H. apply bind_ok in H. destruct H as ([b r1] & H1 & H).
  unfold dec_i32, dec_u32 in H. destruct (dec_list _ _ _) in H. injection H as _ <-. apply read_full_len in H1; lia.
Qed.

Lemma linearparam_len : forall r x r', ReadStruct_GBLinearParam r = Ok (x, r') -> zlen (rd_bytes r') <= zlen (rd_bytes r).
Proof.
  intros r x r' H. unfold ReadStruct_GBLinearParam in H. apply bind_ok in H. destruct H as ([b r1] & H1 & H).
  unfold dec_i32, dec_u32 in H. destruct (dec_list _ _ _) in H. injection H as _ <-. apply read_full_len in H1; lia.
Qed.

Lemma header_len : forall p r x r', ReadModelHeader p r = Ok (x, r') -> zlen (rd_bytes r') <= zlen (rd_bytes r).
Proof.
  intros p r x r' H. unfold ReadModelHeader in H. apply bind_ok in H. destruct H as ([a r1] & H1 & H).
  apply bind_ok in H. destruct H as ([b r2] & H2 & H). apply bind_ok in H. destruct H as ([c r3] & H3 & H). injection H as _ <-.
  apply learner_len in H1. apply string_len in H2. apply string_len in H3. lia.
Qed.

(** the bytes of a stored tree *)
Definition treemodel_bytes (m : TreeModel) : Z := 148 + 36 * zlen (tmNodes m).

Lemma treemodel_len : forall p r m r', ReadTreeModel p r = Ok (m, r') -> treemodel_bytes m + zlen (rd_bytes r') <= zlen (rd_bytes r).
Proof.
  intros p r m r' H. unfold ReadTreeModel in H. apply bind_ok in H. destruct H as ([pr r1] & H1 & H). apply treeparam_len in H1.
  apply bind_ok in H. destruct H as (u & _ & H). apply bind_ok in H. destruct H as ([ns r2] & H2 & H).
  apply bind_ok in H. destruct H as ([ss r3] & H3 & H).
  apply (read_n_len _ _ (fun _ => 20) node_len) in H2. apply (read_n_len _ _ (fun _ => 16) stat_len) in H3.
  rewrite const_sum in H2, H3. destruct H2 as [N2 H2]. destruct H3 as [N3 H3].
  destruct (0 <? tpSizeLeafVector pr).
  - apply bind_ok in H. destruct H as ([l r4] & H4 & H). injection H as <- <-. apply floats_len in H4. unfold treemodel_bytes. cbn [tmNodes].
    pose proof (zlen_nonneg _ l). lia.
  - injection H as <- <-. unfold treemodel_bytes. cbn [tmNodes]. lia.
Qed.

Lemma leaf_grow : forall (b : bool) (f : lgNode * lgTree -> f64 -> lgNode * lgTree) n t v n' t', f = leaf_left \/ f = leaf_right ->
  (if b then f (n, t) v else (n, t)) = (n', t') -> tNodes t' = tNodes t /\ zlen (tLeafValues t') <= zlen (tLeafValues t) + 1.
Proof.
  intros b f n t v n' t' F H. assert (E : snd (if b then f (n, t) v else (n, t)) = t') by (rewrite H; reflexivity). clear H. subst t'.
  destruct b; [|cbn [snd]; split; [reflexivity|lia]].
  assert (X : snd (f (n, t) v) = tree_set_leaves t (tLeafValues t ++ [v])) by (destruct F; subst f; reflexivity).
  rewrite X. cbn [tNodes tLeafValues tree_set_leaves]. rewrite zlen_app, zlen_cons, zlen_nil. split; [reflexivity|lia].
Qed.

Lemma xg_source_bounded : forall ns, bounded_source (xg_source ns) (zlen ns) 2.
Proof.
  intros ns t i nd t' H. cbn [src_create xg_source] in H. unfold xg_createNode in H.
  apply bind_ok in H. destruct H as (o & Ho & H). apply at_ok in Ho. apply zget_range in Ho. split; [auto|]. cbv zeta in H.
  destruct (xCLeft o <? 0); [discriminate|]. destruct (xCRight o <? 0); [discriminate|].
  apply bind_ok in H. destruct H as (l & _ & H).
  destruct (if xgIsLeaf l then _ else _) as [n1 t1] eqn:E1. apply leaf_grow in E1; auto.
  apply bind_ok in H. destruct H as (r & _ & H).
  assert (E2 : (if xgIsLeaf r then leaf_right (n1, t1) (f64_of_f32bits (xInfo r)) else (n1, t1)) = (nd, t')) by congruence.
  apply leaf_grow in E2; auto. destruct E1 as [A1 E1]. destruct E2 as [A2 E2]. split; [congruence|lia].
Qed.

Lemma xg_tree_size : forall p m n t, xgTreeFromTreeModel p m n = Ok t -> 12 * tree_size t <= treemodel_bytes m.
Proof.
  intros p m n t H. unfold xgTreeFromTreeModel in H. destruct (s32 n <? _); [discriminate|]. destruct (negb _); [discriminate|].
  destruct (_ =? 0); [discriminate|]. pose proof (zlen_nonneg _ (tmNodes m)) as N0. unfold treemodel_bytes, tree_size. destruct (_ =? 1).
  - apply bind_ok in H. destruct H as (x & _ & H). injection H as <-. cbn [tNodes tLeafValues tree_set_leaves emptyTree].
    rewrite zlen_cons, !zlen_nil. lia.
  - apply bind_ok in H. destruct H as (u & _ & H).
    destruct (build_size _ _ _ _ emptyTree _ (xg_source_bounded _) N0 (Z.le_0_2) eq_refl H) as [S1 S2]. cbn [tLeafValues emptyTree] in S2. rewrite zlen_nil in S2. lia.
Qed.

Lemma mapM_sum : forall A B (f : A -> outcome B) (w : B -> Z) (v : A -> Z) l l', mapM f l = Ok l' ->
  (forall x y, f x = Ok y -> w y <= v x) -> fold_right (fun y m => w y + m) 0 l' <= fold_right (fun x m => v x + m) 0 l.
Proof.
  induction l as [|x l IH]; intros l' H Hw; cbn [mapM] in H.
  - injection H as <-. cbn. lia.
  - apply bind_ok in H. destruct H as (y & H1 & H). apply bind_ok in H. destruct H as (ys & H2 & H). injection H as <-.
    cbn [fold_right]. specialize (IH _ H2 Hw). apply Hw in H1. lia.
Qed.

Lemma xg_trees_sum : forall p ms f ts, mapM (fun i => let* t := at_ ms i in xgTreeFromTreeModel p t f) (zseq (zlen ms)) = Ok ts ->
  12 * trees_size ts <= fold_right (fun m n => treemodel_bytes m + n) 0 ms.
Proof.
  intros p ms f ts H.
  set (v := fun i => match zget ms i with Some m => treemodel_bytes m | None => 0 end).
  assert (B : fold_right (fun t n => 12 * tree_size t + n) 0 ts <= fold_right (fun i n => v i + n) 0 (zseq (zlen ms))).
  { eapply mapM_sum; [exact H|]. intros i t Hi. cbv beta in Hi. apply bind_ok in Hi. destruct Hi as (m & Hm & Hi). apply at_ok in Hm.
    unfold v. rewrite Hm. eapply xg_tree_size; eauto. }
  assert (E1 : fold_right (fun t n => 12 * tree_size t + n) 0 ts = 12 * trees_size ts).
  { clear. induction ts as [|t ts IH]; cbn [fold_right trees_size]; [reflexivity|]. fold (trees_size ts). lia. }
  assert (E2 : fold_right (fun i n => v i + n) 0 (zseq (zlen ms)) = fold_right (fun m n => treemodel_bytes m + n) 0 ms).
  { clear -v. assert (G : forall (g : Z -> Z) l, fold_right (fun i n => g i + n) 0 l = fold_right Z.add 0 (map g l)).
    { induction l as [|x l IH]; cbn [fold_right map]; congruence. }
    assert (G2 : forall l, fold_right (fun m n => treemodel_bytes m + n) 0 l = fold_right Z.add 0 (map treemodel_bytes l)).
    { induction l as [|x l IH]; cbn [fold_right map]; congruence. }
    rewrite G, G2. f_equal. apply zget_ext.
    - rewrite !zlen_map, zseq_zlen; [reflexivity|apply zlen_nonneg].
    - intros i Hi. rewrite zlen_map, zseq_zlen in Hi by apply zlen_nonneg. rewrite !zget_map, zget_zseq by lia. cbn [option_map]. unfold v.
      destruct (zget_some _ ms i Hi) as [m Hm]. rewrite Hm. reflexivity. }
  lia.
Qed.

Lemma xg_file_size : forall p r load e, XGEnsembleFromReader p r load = Ok e -> 12 * model_size e <= zlen (rd_bytes r).
Proof.
  intros p r load e H. unfold XGEnsembleFromReader in H. apply bind_ok in H. destruct H as ([e1 r1] & H & H0). injection H0 as <-.
  unfold xg_ensemble_and_rest in H. apply bind_ok in H. destruct H as ([h r2] & Hh & H). apply header_len in Hh.
  apply bind_ok in H. destruct H as (nm & _ & H). cbv zeta in H. destruct (_ =? 0) in H; [discriminate|].
  apply bind_ok in H. destruct H as ([m r3] & Hm & H). destruct (_ <? _) in H; [discriminate|].
  apply bind_ok in H. destruct H as ([w r4] & _ & H). destruct (negb _) in H; [discriminate|]. destruct (negb _) in H; [discriminate|].
  destruct (negb _) in H; [discriminate|]. apply bind_ok in H. destruct H as (tr & _ & H). destruct (_ =? 0) in H; [discriminate|].
  apply bind_ok in H. destruct H as (ts & Ht & H). injection H as <- _. unfold model_size. cbn [eBase base_size xgTrees].
  unfold ReadGBTreeModel in Hm. apply bind_ok in Hm. destruct Hm as ([pr r5] & Hp & Hm). apply gbtreeparam_len in Hp.
  apply bind_ok in Hm. destruct Hm as ([ms r6] & Hr & Hm). apply (read_n_len _ _ treemodel_bytes (treemodel_len p)) in Hr. destruct Hr as [Ln Hr].
  assert (E : gmTrees m = ms /\ gmParam m = pr).
  { destruct (0 <? gpNumTrees pr); [|injection Hm as <- _; auto].
    apply bind_ok in Hm. destruct Hm as (u & _ & Hm). apply bind_ok in Hm. destruct Hm as ([b r7] & _ & Hm). injection Hm as <- _. auto. }
  destruct E as [E1 E2]. rewrite E1, E2 in Ht.
  assert (Z0 : zseq (gpNumTrees pr) = zseq (zlen ms)) by (unfold zseq; rewrite Ln, Nat2Z.id; reflexivity).
  rewrite Z0 in Ht. apply xg_trees_sum in Ht. pose proof (zlen_nonneg _ (rd_bytes r6)). lia.
Qed.

Lemma xgblinear_file_size : forall p r load e, XGBLinearFromReader p r load = Ok e -> 4 * model_size e <= zlen (rd_bytes r).
Proof.
  intros p r load e H. unfold XGBLinearFromReader in H. apply bind_ok in H. destruct H as ([e1 r1] & H & H0). injection H0 as <-.
  unfold xgblinear_and_rest in H. apply bind_ok in H. destruct H as ([h r2] & Hh & H). apply header_len in Hh.
  destruct (negb _) in H; [discriminate|]. destruct (_ =? 0) in H; [discriminate|].
  apply bind_ok in H. destruct H as ([m r3] & Hm & H). cbv zeta in H. apply bind_ok in H. destruct H as (tr & _ & H). injection H as <- _.
  unfold model_size. cbn [eBase base_size xlWeights]. unfold ReadGBLinearModel in Hm. apply bind_ok in Hm. destruct Hm as ([pr r5] & Hp & Hm).
  apply linearparam_len in Hp. apply bind_ok in Hm. destruct Hm as ([l r6] & Hl & Hm). injection Hm as <- _. apply floats_len in Hl.
  cbn [blWeights]. pose proof (zlen_nonneg _ (rd_bytes r6)). lia.
Qed.
