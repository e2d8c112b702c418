(** * Decoding LightGBM JSON values into the loader's records *)

From Coq Require Import ZArith List Bool String Lia ZifyBool.
From Verif Require Import Go GoFloat GoText UtilBits LgTree TreeBuild LgJsonIO.
From Verif Require Import Spec_Split Spec_Tree Spec_LgJson.
From Verif Require Import Pf_Go Pf_Bits Pf_Text Pf_Words Pf_Build.
Local Open Scope Z_scope.

(** ** Keys *)
Lemma plain_lower : forall b, plain_char b = true -> lower b = b.
Proof. intros b H. unfold lower, plain_char in *. replace ((65 <=? byteZ b) && (byteZ b <=? 90)) with false by lia. reflexivity. Qed.
Lemma plain_not : forall b, plain_char b = true -> byteZ b <> 197 /\ byteZ b <> 226.
Proof. intros b H. unfold plain_char in H. lia. Qed.

Lemma fold_key_cons : forall c k, byteZ c <> 197 -> byteZ c <> 226 -> fold_key (c :: k) = lower c :: fold_key k.
Proof. intros c k H1 H2. destruct c; try reflexivity; exfalso; [apply H1|apply H2]; reflexivity. Qed.

Lemma fold_plain : forall k, forallb plain_char k = true -> fold_key k = k.
Proof.
  induction k as [|c k IH]; intros H; auto. cbn [forallb] in H. apply andb_prop in H. destruct H as [Hc Hk].
  destruct (plain_not c Hc). rewrite fold_key_cons, plain_lower, IH by auto. reflexivity.
Qed.

Lemma key_is_plain : forall k name, forallb plain_char k = true -> forallb plain_char name = true -> key_is k name = beqb k name.
Proof. intros k name Hk Hn. unfold key_is. rewrite !fold_plain by auto. reflexivity. Qed.

(** ** Folding over members *)
Lemma foldM_ok : forall A B (f : B -> A -> outcome B) (Q : A -> Prop), (forall b x, Q x -> exists b', f b x = Ok b') ->
  forall l b, Forall Q l -> exists b', foldM f l b = Ok b'.
Proof.
  intros A B f Q H l. induction l as [|x l IH]; intros b F; cbn [foldM]; [eauto|]. inversion F as [|? ? Hx Hl]; subst.
  destruct (H b x Hx) as [b' ->]. cbn [bind]. auto.
Qed.

Section Fields.
  Variables (A B : Type) (store : A -> bytes * json -> outcome A) (proj : A -> B) (name : bytes).
  Hypothesis keeps : forall n n' k w, forallb plain_char k = true -> k <> name -> store n (k, w) = Ok n' -> proj n' = proj n.

  Lemma fold_keeps : forall l n n', (forall k v, In (k, v) l -> forallb plain_char k = true) -> (forall k v, In (k, v) l -> k <> name) ->
    foldM store l n = Ok n' -> proj n' = proj n.
  Proof.
    induction l as [|[k v] l IH]; intros n n' Hp Hn E; cbn [foldM] in E; [injection E as <-; auto|].
    apply bind_ok in E. destruct E as (n1 & E1 & E). rewrite (IH n1 n'); auto.
    - eapply keeps; [eapply Hp; left; reflexivity|eapply Hn; left; reflexivity|exact E1].
    - intros k' v' I. apply (Hp k' v'). right. auto.
    - intros k' v' I. apply (Hn k' v'). right. auto.
  Qed.

  Lemma fold_field : forall l v n n' (P : B -> Prop), plain l -> In (name, v) l ->
    (forall n n', store n (name, v) = Ok n' -> P (proj n')) -> foldM store l n = Ok n' -> P (proj n').
  Proof.
    intros l v n n' P [ND Hp] I HP E. apply in_split in I. destruct I as (a & b & ->).
    rewrite foldM_app in E. apply bind_ok in E. destruct E as (n1 & E1 & E). cbn [foldM] in E. apply bind_ok in E. destruct E as (n2 & E2 & E).
    rewrite map_app in ND. cbn [map fst] in ND. apply NoDup_remove_2 in ND.
    rewrite (fold_keeps b n2 n'); auto.
    - eapply HP; eauto.
    - intros k w I. apply (Hp k w). apply in_or_app. right. right. auto.
    - intros k w I ->. apply ND. apply in_or_app. right. apply in_map_iff. exists (name, w). auto.
  Qed.
End Fields.

(** ** Numbers *)
Lemma numbers_fit_arr : forall p l, numbers_fit p (JArr l) = forallb (numbers_fit p) l.
Proof. reflexivity. Qed.
Lemma numbers_fit_obj : forall p l, numbers_fit p (JObj l) = forallb (fun kv => numbers_fit p (snd kv)) l.
Proof. intros p l. induction l as [|[k v] l IH]; [reflexivity|]. change (numbers_fit p (JObj ((k, v) :: l))) with (numbers_fit p v && numbers_fit p (JObj l)). rewrite IH. reflexivity. Qed.

Fixpoint json_ind' (P : json -> Prop) (H0 : P JNull) (H1 : forall b, P (JBool b)) (H2 : forall x, P (JNum x)) (H3 : forall s, P (JStr s))
  (H4 : forall l, Forall P l -> P (JArr l)) (H5 : forall l, Forall (fun kv => P (snd kv)) l -> P (JObj l)) (v : json) : P v :=
  match v with
  | JNull => H0 | JBool b => H1 b | JNum x => H2 x | JStr s => H3 s
  | JArr l => H4 l ((fix go l : Forall P l := match l with [] => Forall_nil _ | x :: l' => Forall_cons x (json_ind' P H0 H1 H2 H3 H4 H5 x) (go l') end) l)
  | JObj l => H5 l ((fix go l : Forall (fun kv => P (snd kv)) l :=
                       match l with [] => Forall_nil _ | x :: l' => Forall_cons x (json_ind' P H0 H1 H2 H3 H4 H5 (snd x)) (go l') end) l)
  end.

Lemma numeric_fit : forall p v, numeric (pl_parse_float p) v -> numbers_fit p v = true.
Proof.
  intros p v. induction v as [| | x | | l IH | l IH] using json_ind'; intros H; auto.
  - cbn [numbers_fit]. destruct (H x (oc_num x)) as [f ->]. reflexivity.
  - rewrite numbers_fit_arr. apply forallb_forall. intros y Hy. rewrite Forall_forall in IH. apply IH; auto.
    intros lit O. apply H. eapply oc_arr; eauto.
  - rewrite numbers_fit_obj. apply forallb_forall. intros [k y] Hy. rewrite Forall_forall in IH. apply (IH (k, y)); auto.
    intros lit O. apply H. eapply oc_obj; eauto.
Qed.
Lemma numeric_member : forall parse l k v, numeric parse (JObj l) -> In (k, v) l -> numeric parse v.
Proof. intros parse l k v H I lit O. apply H. eapply oc_obj; eauto. Qed.

Lemma dec_iface_ok : forall p v, numbers_fit p v = true -> exists i, dec_iface p v = Ok i.
Proof.
  intros p v H. unfold dec_iface. rewrite H. cbn [negb]. destruct v; eauto. cbn [numbers_fit] in H. destruct (pl_parse_float p literal); [eauto|discriminate].
Qed.

(** ** Depth *)
Lemma jdepth_member : forall l k v, In (k, v) l -> (jdepth v < jdepth (JObj l))%nat.
Proof.
  induction l as [|[k' v'] l IH]; intros k v I; [contradiction|]. cbn [jdepth]. destruct I as [E|I].
  - injection E as <- <-. lia.
  - specialize (IH _ _ I). cbn [jdepth] in IH. lia.
Qed.

(** ** Records *)

Ltac keep_tac :=
  intros n n' k w Hp Hn E; destruct n; unfold store_node, store_tree, store_ensemble in E; cbv beta iota zeta in E;
  repeat (match type of E with (if key_is k ?nm then _ else _) = _ =>
    let b := fresh "b" in destruct (key_is k nm) eqn:b;
      [try (exfalso; apply Hn; rewrite key_is_plain in b by (auto || reflexivity); apply beqb_eq in b; exact b);
       repeat (apply bind_ok in E; destruct E as (? & ? & E)); injection E as <-; reflexivity | ] end);
  injection E as <-; reflexivity.

Section Node.
  Variable p : platform.
  Lemma keep_sf : forall n n' k w, forallb plain_char k = true -> k <> bs "split_feature" -> store_node p n (k, w) = Ok n' -> nj_SplitFeature n' = nj_SplitFeature n.
  Proof. keep_tac. Qed.
  Lemma keep_th : forall n n' k w, forallb plain_char k = true -> k <> bs "threshold" -> store_node p n (k, w) = Ok n' -> nj_Threshold n' = nj_Threshold n.
  Proof. keep_tac. Qed.
  Lemma keep_dt : forall n n' k w, forallb plain_char k = true -> k <> bs "decision_type" -> store_node p n (k, w) = Ok n' -> nj_DecisionType n' = nj_DecisionType n.
  Proof. keep_tac. Qed.
  Lemma keep_dl : forall n n' k w, forallb plain_char k = true -> k <> bs "default_left" -> store_node p n (k, w) = Ok n' -> nj_DefaultLeft n' = nj_DefaultLeft n.
  Proof. keep_tac. Qed.
  Lemma keep_mt : forall n n' k w, forallb plain_char k = true -> k <> bs "missing_type" -> store_node p n (k, w) = Ok n' -> nj_MissingType n' = nj_MissingType n.
  Proof. keep_tac. Qed.
  Lemma keep_lc : forall n n' k w, forallb plain_char k = true -> k <> bs "left_child" -> store_node p n (k, w) = Ok n' -> nj_LeftChildRaw n' = nj_LeftChildRaw n.
  Proof. keep_tac. Qed.
  Lemma keep_rc : forall n n' k w, forallb plain_char k = true -> k <> bs "right_child" -> store_node p n (k, w) = Ok n' -> nj_RightChildRaw n' = nj_RightChildRaw n.
  Proof. keep_tac. Qed.
End Node.

Lemma plain_unique : forall A (l : list (bytes * A)) k v v', plain l -> In (k, v) l -> In (k, v') l -> v = v'.
Proof.
  intros A l k v v' [ND _]. induction l as [|[k0 v0] l IH]; intros I I'; [contradiction|]. cbn [map fst] in ND. inversion ND as [|? ? N1 N2]; subst.
  destruct I as [E|I], I' as [E'|I'].
  - congruence.
  - injection E as -> ->. exfalso. apply N1. apply in_map_iff. exists (k, v'). auto.
  - injection E' as -> ->. exfalso. apply N1. apply in_map_iff. exists (k, v). auto.
  - apply IH; auto.
Qed.

(** the node record of a split *)
Definition split_record (n : lgNodeJSON) (operator : bytes) (f : Z) (m : missing) (dl : bool) (th : iface) (lc rc : json) : Prop :=
  nj_DecisionType n = operator /\ nj_SplitFeature n = f /\ nj_MissingType n = missing_name m /\ nj_DefaultLeft n = dl /\
  nj_Threshold n = th /\ nj_LeftChildRaw n = Some lc /\ nj_RightChildRaw n = Some rc.


Lemma decode_split : forall p l op f m dl tv th lc rc, split_members l op f m lc rc -> numeric (pl_parse_float p) (JObj l) ->
  flag_is l (bs "default_left") dl -> In (bs "threshold", tv) l -> dec_iface p tv = Ok th ->
  exists n, dec_struct (store_node p) node_zero (JObj l) = Ok n /\ split_record n op f m dl th lc rc.
Proof.
  intros p l op f m dl tv th lc rc (P & Si & Sf & Dt & Mt & Lc & Rc) Nm Dl Th Et.
  assert (OK : exists n, foldM (store_node p) l node_zero = Ok n).
  { apply (foldM_ok _ _ (store_node p) (fun kv => In kv l)); [|apply Forall_forall; auto].
    intros [si sf t dt d mt lc' rc'] [k v] I. destruct P as [ND Pc]. pose proof (Pc k v I) as Hk. unfold store_node. cbv beta iota zeta.
    repeat match goal with |- context [if key_is k ?nm then _ else _] => destruct (key_is k nm) eqn:? end;
      try match goal with K : key_is k _ = true |- _ => rewrite key_is_plain in K by (auto || reflexivity); apply beqb_eq in K; subst k end; eauto.
    - destruct (Si v I) as (lit' & z & -> & E). apply uint32_iff in E. unfold dec_num. rewrite E. cbn [bind]. eauto.
    - destruct Sf as [(lit & Sf & Ef)|[_ Sf]].
      + apply uint32_iff in Ef. rewrite (plain_unique _ l _ v (JNum lit) (conj ND Pc) I Sf). unfold dec_num. rewrite Ef. cbn [bind]. eauto.
      + rewrite (Sf v I). cbn [dec_num bind]. eauto.
    - rewrite (plain_unique _ l _ v tv (conj ND Pc) I Th). rewrite Et. cbn [bind]. eauto.
    - rewrite (plain_unique _ l _ v _ (conj ND Pc) I Dt). cbn [dec_string bind]. eauto.
    - destruct Dl as [Dl|[-> Dl]]; [rewrite (plain_unique _ l _ v _ (conj ND Pc) I Dl)|rewrite (Dl v I)]; cbn [dec_bool bind]; eauto.
    - rewrite (plain_unique _ l _ v _ (conj ND Pc) I Mt). cbn [dec_string bind]. eauto.
    - destruct (dec_iface_ok p v) as [i ->]; [apply numeric_fit; eapply numeric_member; eauto|]. cbn [bind]. eauto.
    - destruct (dec_iface_ok p v) as [i ->]; [apply numeric_fit; eapply numeric_member; eauto|]. cbn [bind]. eauto. }
  destruct OK as [n E]. exists n. split; [exact E|]. unfold split_record.
  split; [|split; [|split; [|split; [|split; [|split]]]]].
  - apply (fold_field _ _ _ nj_DecisionType _ (keep_dt p) l (JStr op) node_zero n (fun b => b = op)); auto.
    intros [] n1 S. injection S as <-. reflexivity.
  - destruct Sf as [(lit & Sf & Ef)|[-> Sf]].
    + apply uint32_iff in Ef. apply (fold_field _ _ _ nj_SplitFeature _ (keep_sf p) l (JNum lit) node_zero n (fun b => b = f)); auto.
      intros [] n1 S. cbn in S. rewrite Ef in S. injection S as <-. reflexivity.
    + destruct P as [_ Pc]. clear - E Sf Pc. assert (D0 : nj_SplitFeature node_zero = 0) by reflexivity. revert E D0. generalize node_zero. induction l as [|[k v] l IH]; intros n0 E D0; cbn [foldM] in E; [injection E as <-; exact D0|].
      apply bind_ok in E. destruct E as (n1 & E1 & E2). refine (IH _ _ n1 E2 _); [intros k' w I; apply (Pc k' w); right; exact I|intros w I; apply Sf; right; exact I|].
      destruct (beqb k (bs "split_feature")) eqn:B.
      * apply beqb_eq in B. subst k. rewrite (Sf v (or_introl eq_refl)) in E1. destruct n0. injection E1 as <-. exact D0.
      * rewrite (keep_sf p n0 n1 k v); [exact D0|exact (Pc k v (or_introl eq_refl))| |exact E1]. intros ->. rewrite (proj2 (beqb_eq _ _) eq_refl) in B. discriminate.
  - apply (fold_field _ _ _ nj_MissingType _ (keep_mt p) l _ node_zero n (fun b => b = missing_name m) P Mt); auto.
    intros [] n1 S. injection S as <-. reflexivity.
  - destruct Dl as [Dl|[-> Dl]].
    + apply (fold_field _ _ _ nj_DefaultLeft _ (keep_dl p) l _ node_zero n (fun b => b = dl) P Dl); auto.
      intros [] n1 S. injection S as <-. reflexivity.
    + destruct P as [_ Pc]. clear - E Dl Pc. assert (D0 : nj_DefaultLeft node_zero = false) by reflexivity. revert E D0. generalize node_zero. induction l as [|[k v] l IH]; intros n0 E D0; cbn [foldM] in E; [injection E as <-; exact D0|].
      apply bind_ok in E. destruct E as (n1 & E1 & E2). refine (IH _ _ n1 E2 _); [intros k' w I; apply (Pc k' w); right; exact I|intros w I; apply Dl; right; exact I|].
      destruct (beqb k (bs "default_left")) eqn:B.
      * apply beqb_eq in B. subst k. rewrite (Dl v (or_introl eq_refl)) in E1. destruct n0. injection E1 as <-. exact D0.
      * rewrite (keep_dl p n0 n1 k v); [exact D0|exact (Pc k v (or_introl eq_refl))| |exact E1]. intros ->. rewrite (proj2 (beqb_eq _ _) eq_refl) in B. discriminate.
  - apply (fold_field _ _ _ nj_Threshold _ (keep_th p) l _ node_zero n (fun b => b = th) P Th); auto.
    intros [si sf t dt d mt a b] n1 S.
    change (store_node p (mkNodeJSON si sf t dt d mt a b) (bs "threshold", tv)) with (let* th := dec_iface p tv in Ok (mkNodeJSON si sf th dt d mt a b)) in S.
    rewrite Et in S. injection S as <-. reflexivity.
  - apply (fold_field _ _ _ nj_LeftChildRaw _ (keep_lc p) l _ node_zero n (fun b => b = Some lc) P Lc); auto.
    intros [] n1 S. injection S as <-. reflexivity.
  - apply (fold_field _ _ _ nj_RightChildRaw _ (keep_rc p) l _ node_zero n (fun b => b = Some rc) P Rc); auto.
    intros [] n1 S. injection S as <-. reflexivity.
Qed.

Lemma decode_leaf : forall p l lit v, plain l -> numeric (pl_parse_float p) (JObj l) -> In (bs "leaf_value", JNum lit) l -> pl_parse_float p lit = Some v ->
  (forall k x, In (k, x) l -> ~ In k [bs "split_index"; bs "split_feature"; bs "threshold"; bs "decision_type"; bs "default_left"; bs "missing_type"]) ->
  exists n, dec_struct (store_node p) node_zero (JObj l) = Ok n /\ nj_MissingType n = [] /\ leaf_value p (JObj l) = Ok v.
Proof.
  intros p l lit v P Nm I E NK.
  assert (OK : exists n, foldM (store_node p) l node_zero = Ok n).
  { apply (foldM_ok _ _ (store_node p) (fun kv => In kv l)); [|apply Forall_forall; auto].
    intros [si sf t dt d mt lc' rc'] [k w] I'. destruct P as [ND Pc]. pose proof (Pc k w I') as Hk. specialize (NK k w I'). unfold store_node. cbv beta iota zeta.
    repeat match goal with |- context [if key_is k ?nm then _ else _] => destruct (key_is k nm) eqn:? end;
      try match goal with K : key_is k _ = true |- _ => rewrite key_is_plain in K by (auto || reflexivity); apply beqb_eq in K; subst k end; eauto;
      try (exfalso; apply NK; cbn [In]; tauto).
    - destruct (dec_iface_ok p w) as [i ->]; [apply numeric_fit; eapply numeric_member; eauto|]. cbn [bind]. eauto.
    - destruct (dec_iface_ok p w) as [i ->]; [apply numeric_fit; eapply numeric_member; eauto|]. cbn [bind]. eauto. }
  destruct OK as [n En]. exists n. split; [exact En|]. split.
  - rewrite (fold_keeps _ _ _ nj_MissingType _ (keep_mt p) l node_zero n); auto; [apply P|].
    intros k w I' ->. apply (NK _ _ I'). cbn [In]. tauto.
  - unfold leaf_value. rewrite numeric_fit by auto. cbn [negb].
    assert (MV : map_value l (bs "leaf_value") = Some (JNum lit)).
    { destruct P as [ND _]. clear -ND I. induction l as [|[k w] l IH]; [contradiction|]. cbn [map fst] in ND. inversion ND as [|? ? N1 N2]; subst. cbn [map_value].
      destruct I as [Ek|I].
      - injection Ek as -> ->. rewrite beqb_refl. destruct (map_value l (bs "leaf_value")) as [w|] eqn:Em; auto. exfalso. apply N1.
        assert (G : forall l w, map_value l (bs "leaf_value") = Some w -> In (bs "leaf_value") (map fst l)).
        { induction l0 as [|[k0 w0] l0 IH0]; intros w' M; [discriminate|]. cbn [map_value] in M. destruct (map_value l0 (bs "leaf_value")) eqn:E0.
          - right. eapply IH0; eauto.
          - destruct (beqb k0 (bs "leaf_value")) eqn:B; [|discriminate]. left. apply beqb_eq in B. auto. }
        eapply G; eauto.
      - rewrite IH by auto. reflexivity. }
    rewrite MV. unfold dec_iface. cbn [numbers_fit]. rewrite E. reflexivity.
Qed.

(** ** Whole trees *)
Inductive ndescribes (p : platform) : jnode -> Z -> dtree -> Z -> Prop :=
| nd_leaf : forall first v, ndescribes p (NLeaf v) first (DLeaf first v) 0
| nd_numerical : forall n first f m dl thr lc rc l r dl' dr wl wr,
    split_record n (bs "<=") f m dl (IFloat thr) lc rc ->
    ndescribes p l first dl' wl -> ndescribes p r (first + zlen (leaves_of dl')) dr wr ->
    ndescribes p (NNode n l r) first (DNode f (numeric_left m dl thr) dl' dr) (wl + wr)
| nd_categorical : forall n first f m dl s cats lc rc l r dl' dr wl wr,
    split_record n (bs "==") f m dl (IString s) lc rc ->
    map atoi (split s (bs "||")) = map Some cats -> Forall (fun c => 0 <= c < 2 ^ 31) cats ->
    ndescribes p l first dl' wl -> ndescribes p r (first + zlen (leaves_of dl')) dr wr ->
    ndescribes p (NNode n l r) first
      (DNode f (category_left (f2i32 p) m (fun k => existsb (Z.eqb k) cats)) dl' dr) (set_words cats + wl + wr).

Lemma missing_name_not_empty : forall m, beqb (missing_name m) [] = false.
Proof. destruct m; reflexivity. Qed.

Lemma unmarshal_describes : forall p v first d w, jdescribes (pl_parse_float p) (f2i32 p) v first d w -> numeric (pl_parse_float p) v ->
  forall fuel, (jdepth v < fuel)%nat -> exists j, unmarshal_node p fuel (Some v) = Ok j /\ ndescribes p j first d w.
Proof.
  intros p v first d w H. induction H as [l first lit v P I E NK|l first f m dl lit thr lc rc dl' dr wl wr Sm Dl Th Et Hl IHl Hr IHr|l first f m dl s tokens cats lc rc dl' dr wl wr Sm Dl Th Pc Ec Fc Hl IHl Hr IHr];
    intros Nm fuel Hf; (destruct fuel as [|fuel]; [lia|]); cbn [unmarshal_node].
  - destruct (decode_leaf p l lit v P Nm I E NK) as (n & En & Mt & Lv). rewrite En. cbn [bind]. rewrite Mt. cbn [beqb]. rewrite Lv. cbn [bind].
    exists (NLeaf v). split; [reflexivity|constructor].
  - pose proof Sm as (_ & _ & _ & _ & _ & Lc & Rc).
    assert (Di : dec_iface p (JNum lit) = Ok (IFloat thr)) by (unfold dec_iface; cbn [numbers_fit]; rewrite Et; reflexivity).
    destruct (decode_split p l _ f m dl _ _ lc rc Sm Nm Dl Th Di) as (n & En & R).
    rewrite En. cbn [bind]. pose proof R as (R1 & R2 & R3 & R4 & R5 & R6 & R7). rewrite R3, missing_name_not_empty, R6, R7.
    pose proof (jdepth_member _ _ _ Lc). pose proof (jdepth_member _ _ _ Rc).
    destruct (IHl (numeric_member _ _ _ _ Nm Lc) fuel) as (jl & El & Nl); [lia|]. destruct (IHr (numeric_member _ _ _ _ Nm Rc) fuel) as (jr & Er & Nr); [lia|].
    rewrite El. cbn [bind]. rewrite Er. cbn [bind]. exists (NNode n jl jr). split; [reflexivity|]. eapply nd_numerical; eauto.
  - pose proof Sm as (_ & _ & _ & _ & _ & Lc & Rc). pose proof (pieces_numbers (bs "||") _ _ _ ltac:(discriminate) Pc Ec) as Es.
    destruct (decode_split p l _ f m dl _ (IString s) lc rc Sm Nm Dl Th eq_refl) as (n & En & R).
    rewrite En. cbn [bind]. pose proof R as (R1 & R2 & R3 & R4 & R5 & R6 & R7). rewrite R3, missing_name_not_empty, R6, R7.
    pose proof (jdepth_member _ _ _ Lc). pose proof (jdepth_member _ _ _ Rc).
    destruct (IHl (numeric_member _ _ _ _ Nm Lc) fuel) as (jl & El & Nl); [lia|]. destruct (IHr (numeric_member _ _ _ _ Nm Rc) fuel) as (jr & Er & Nr); [lia|].
    rewrite El. cbn [bind]. rewrite Er. cbn [bind]. exists (NNode n jl jr). split; [reflexivity|]. eapply nd_categorical; eauto.
Qed.
