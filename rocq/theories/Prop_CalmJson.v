(** * C66, LightGBM JSON models: the loader comes back *)

From Coq Require Import ZArith List Bool String Lia ZifyBool.
From Verif Require Import Go GoFloat GoText UtilBits LgTree TreeBuild Ensembles Leaves XgBin LgJsonIO JsonText.
From Verif Require Import Spec_Bits Spec_LgJson Spec_JsonText Spec_Calm.
From Verif Require Import Pf_Go Pf_Text Pf_Words Pf_XgBin Pf_LgJson Pf_Calm Pf_JsonText Prop_Bits Prop_LgJson Prop_JsonText Prop_Calm.
Local Open Scope Z_scope.

Lemma foldM_inv : forall A B (f : A -> B -> outcome A) (P : A -> Prop) l a a',
  (forall a x a', In x l -> P a -> f a x = Ok a' -> P a') -> P a -> foldM f l a = Ok a' -> P a'.
Proof.
  intros A B f P l. induction l as [|x l IH]; intros a a' H Pa E; cbn [foldM] in E; [injection E as <-; exact Pa|].
  apply bind_ok in E. destruct E as (b & E1 & E2). eapply IH; [intros; eapply H; eauto; right; assumption| |exact E2]. eapply H; eauto. left. reflexivity.
Qed.
Lemma calm_foldM' : forall A B (f : A -> B -> outcome A) l a, (forall a x, calm (f a x)) -> calm (foldM f l a).
Proof. intros A B f l a H. apply (calm_foldM _ _ f l (fun _ => True)); auto. Qed.
Lemma calm_struct : forall A (store : A -> bytes * json -> outcome A) zero v, (forall a kv, calm (store a kv)) -> calm (dec_struct store zero v).
Proof. intros A store zero v H. destruct v; try apply calm_err; [apply calm_ok|]. apply calm_foldM'. exact H. Qed.
Lemma calm_iface : forall p v, calm (dec_iface p v).
Proof. intros p v. unfold dec_iface. destruct (negb _); [apply calm_err|]. destruct v; try apply calm_ok. destruct (pl_parse_float p literal); [apply calm_ok|apply calm_err]. Qed.
Lemma calm_num : forall parse v old, calm (dec_num parse v old).
Proof. intros parse v old. destruct v; try apply calm_err; [apply calm_ok|]. cbn. destruct (parse literal); [apply calm_ok|apply calm_err]. Qed.
Lemma calm_string : forall v old, calm (dec_string v old). Proof. intros v old. destruct v; try apply calm_err; apply calm_ok. Qed.
Lemma calm_bool : forall v old, calm (dec_bool v old). Proof. intros v old. destruct v; try apply calm_err; apply calm_ok. Qed.
Ltac keys k := repeat match goal with |- context [if key_is k ?nm then _ else _] => destruct (key_is k nm) end.
Lemma calm_store_node : forall p n kv, calm (store_node p n kv).
Proof. intros p [si sf th dt dl mt lc rc] [k v]. unfold store_node. keys k; try apply calm_ok; (apply calm_bind; [|intros; apply calm_ok]); try apply calm_num; try apply calm_iface; try apply calm_string; apply calm_bool. Qed.
Lemma calm_store_tree : forall p t kv, calm (store_tree p t kv).
Proof. intros p [nl nc r] [k v]. unfold store_tree. keys k; try apply calm_ok; (apply calm_bind; [|intros; apply calm_ok]); try apply calm_num; apply calm_iface. Qed.
Lemma calm_store_ensemble : forall e kv, calm (store_ensemble e kv).
Proof. intros [a b c d e f] [k v]. unfold store_ensemble. keys k; try apply calm_ok; (apply calm_bind; [|intros; apply calm_ok]); try apply calm_num; try apply calm_string. destruct v; try apply calm_err; apply calm_ok. Qed.
Lemma calm_leaf : forall p v, calm (leaf_value p v).
Proof. intros p v. unfold leaf_value. destruct (negb _); [apply calm_err|]. destruct v; try apply calm_err. destruct (map_value _ _); [|apply calm_err]. apply calm_bind; [apply calm_iface|]. intros [] _; try apply calm_err; apply calm_ok. Qed.

(** ** What is stored comes from the members *)
Lemma threshold_member : forall p l n s, foldM (store_node p) l node_zero = Ok n -> nj_Threshold n = IString s ->
  exists k, In (k, JStr s) l /\ key_is k (bs "threshold") = true.
Proof.
  intros p l n s H. revert s. apply (foldM_inv _ _ _ (fun n => forall s, nj_Threshold n = IString s -> exists k, In (k, JStr s) l /\ key_is k (bs "threshold") = true) _ _ _ ) with (3 := H); [|discriminate].
  intros a [k v] a' Hin IH E s Es. destruct a as [si sf th dt dl mt lc rc]. cbn [nj_Threshold] in IH. unfold store_node in E.
  destruct (key_is k (bs "split_index")); [apply bind_ok in E; destruct E as (? & _ & E); injection E as <-; cbn in Es; eauto|].
  destruct (key_is k (bs "split_feature")); [apply bind_ok in E; destruct E as (? & _ & E); injection E as <-; cbn in Es; eauto|].
  destruct (key_is k (bs "threshold")) eqn:K.
  { apply bind_ok in E. destruct E as (i & Ei & E). injection E as <-. cbn [nj_Threshold] in Es. subst i. exists k. split; [|exact K]. unfold dec_iface in Ei. destruct (negb _); [discriminate|]. destruct v; try discriminate; [destruct (pl_parse_float p literal); discriminate|]. injection Ei as <-. exact Hin. }
  revert E. keys k; intros E; try (apply bind_ok in E; destruct E as (? & _ & E)); injection E as <-; cbn in Es; eauto.
Qed.
Lemma num_leaves_member : forall p l t, foldM (store_tree p) l (mkTreeJSON 0 0 None) = Ok t ->
  (tj_NumLeaves t = 0 \/ exists k lit, In (k, JNum lit) l /\ key_is k (bs "num_leaves") = true /\ atoi lit = Some (tj_NumLeaves t)) /\
  forall v, tj_RootRaw t = Some v -> exists k, In (k, v) l.
Proof.
  intros p l t H. apply (foldM_inv _ _ _ (fun t => (tj_NumLeaves t = 0 \/ exists k lit, In (k, JNum lit) l /\ key_is k (bs "num_leaves") = true /\ atoi lit = Some (tj_NumLeaves t)) /\ forall v, tj_RootRaw t = Some v -> exists k, In (k, v) l) _ _ _ ) with (3 := H).
  - intros [nl nc r] [k v] a' Hin (IH1 & IH2) E. cbn [tj_NumLeaves tj_RootRaw] in *. unfold store_tree in E. destruct (key_is k (bs "num_leaves")) eqn:K.
    + apply bind_ok in E. destruct E as (z & Ez & E). injection E as <-. cbn [tj_NumLeaves tj_RootRaw]. split; [|exact IH2]. destruct v; try discriminate; cbn in Ez; [injection Ez as <-; exact IH1|]. destruct (atoi literal) eqn:Ea; [injection Ez as <-|discriminate]. right. exists k, literal. auto.
    + destruct (key_is k (bs "num_cat")); [apply bind_ok in E; destruct E as (? & _ & E); injection E as <-; auto|].
      destruct (key_is k (bs "tree_structure")); [injection E as <-; cbn [tj_NumLeaves tj_RootRaw]; split; [exact IH1|]; intros w [= <-]; eauto|].
      destruct (key_is k (bs "Root")); [apply bind_ok in E; destruct E as (? & _ & E)|]; injection E as <-; auto.
  - split; [left; reflexivity|discriminate].
Qed.
Lemma trees_member : forall l e t, foldM store_ensemble l (mkEnsembleJSON [] [] 0 0 0 []) = Ok e -> In t (ej_Trees e) ->
  exists k ts, In (k, JArr ts) l /\ In t ts.
Proof.
  intros l e t H. apply (foldM_inv _ _ _ (fun e => In t (ej_Trees e) -> exists k ts, In (k, JArr ts) l /\ In t ts) _ _ _ ) with (3 := H); [|intros []].
  intros [a b c d e0 f] [k v] a' Hin IH E. cbn [ej_Trees] in IH. unfold store_ensemble in E. destruct (key_is k (bs "tree_info")) eqn:K.
  - revert E. keys k; intros E; apply bind_ok in E; destruct E as (x & Ex & E); injection E as <-; cbn [ej_Trees]; auto. destruct v; try discriminate; injection Ex as <-; [intros []|]. intros I. eauto.
  - revert E. keys k; intros E; try (apply bind_ok in E; destruct E as (x & Ex & E)); injection E as <-; cbn [ej_Trees]; auto.
Qed.

(** ** Keys *)
Lemma fold_key_cases : forall c k, fold_key (c :: k) = lower c :: fold_key k \/
  (exists k', c :: k = ("197" :: "191" :: k')%byte /\ fold_key (c :: k) = "s"%byte :: fold_key k') \/
  (exists k', c :: k = ("226" :: "132" :: "170" :: k')%byte /\ fold_key (c :: k) = "k"%byte :: fold_key k').
Proof.
  intros c k. destruct c; try (left; reflexivity).
  - destruct k as [|d k]; [left; reflexivity|]. destruct d; try (left; reflexivity). right. left. eauto.
  - destruct k as [|d k]; [left; reflexivity|]. destruct d; try (left; reflexivity). destruct k as [|e k]; [left; reflexivity|]. destruct e; try (left; reflexivity). right. right. eauto.
Qed.
Lemma fold_spells : forall n (k name : bytes), (List.length k <= n)%nat -> forallb plain_char name = true -> fold_key k = name -> spells k name.
Proof.
  induction n as [|n IH]; intros k name L P E; (destruct k as [|c k]; [cbn in E; subst; constructor|]); [cbn in L; lia|].
  destruct (fold_key_cases c k) as [F|[(k' & K & F)|(k' & K & F)]]; rewrite F in E; subst name; cbn [forallb] in P; apply andb_true_iff in P; destruct P as [P1 P2].
  - assert (I : spells k (fold_key k)) by (apply IH; auto; cbn in L; lia). unfold lower in *. destruct ((65 <=? byteZ c) && (byteZ c <=? 90)) eqn:B; [|apply sl_same; exact I].
    apply sl_capital; auto; [lia|]. rewrite byteZ_of_Z. apply Z.mod_small. lia.
  - injection K as -> ->. apply sl_long_s. apply IH; auto. cbn in L. lia.
  - injection K as -> ->. apply sl_kelvin. apply IH; auto. cbn in L. lia.
Qed.
Lemma spells_fold : forall k name, spells k name -> forallb plain_char name = true -> fold_key k = name.
Proof.
  intros k name S. induction S as [|c k name S IH|c d k name B E S IH|k name S IH|k name S IH]; intros P; [reflexivity|..]; cbn [forallb] in P; apply andb_true_iff in P; destruct P as [P1 P2]; specialize (IH P2).
  - destruct (plain_not c P1). rewrite fold_key_cons, plain_lower, IH by auto. reflexivity.
  - rewrite fold_key_cons, IH by lia. f_equal. unfold lower. replace ((65 <=? byteZ c) && (byteZ c <=? 90)) with true by lia. apply byteZ_inj. rewrite E. rewrite byteZ_of_Z. apply Z.mod_small. lia.
  - cbn [fold_key]. rewrite IH. reflexivity.
  - cbn [fold_key]. rewrite IH. reflexivity.
Qed.
(** a key is taken for a field exactly when it spells the field's name *)
Lemma key_is_spells : forall k name, forallb plain_char name = true -> (key_is k name = true <-> spells k name).
Proof.
  intros k name P. unfold key_is. rewrite (fold_plain name P). split.
  - intros E. apply beqb_eq in E. eapply fold_spells; eauto.
  - intros E. rewrite (spells_fold _ _ E P). apply beqb_eq. reflexivity.
Qed.

Lemma fits_member : forall alloc l k v, json_fits alloc (JObj l) -> In (k, v) l -> json_fits alloc v.
Proof. intros alloc l k v (H1 & H2) I. split; intros; [eapply H1|eapply H2]; eauto; eapply mb_object; eauto. Qed.
Lemma fits_array : forall alloc l v, json_fits alloc (JArr l) -> In v l -> json_fits alloc v.
Proof. intros alloc l v (H1 & H2) I. split; intros; [eapply H1|eapply H2]; eauto; eapply mb_array; eauto. Qed.

(** ** Nodes *)
Fixpoint cats_fit (alloc : Z) (t : jnode) : Prop :=
  match t with
  | NLeaf _ => True
  | NNode n l r => (forall s token c, nj_Threshold n = IString s -> In token (split s (bs "||")) -> atoi token = Some c -> 0 <= c < MaxInt /\ c / 32 < alloc) /\
                   cats_fit alloc l /\ cats_fit alloc r
  end.
Lemma node_calm : forall p fuel raw, (forall v, raw = Some v -> json_fits (pl_maxalloc p) v) ->
  calm (unmarshal_node p fuel raw) /\ forall t, unmarshal_node p fuel raw = Ok t -> cats_fit (pl_maxalloc p) t.
Proof.
  intros p. induction fuel as [|fuel IH]; intros raw Hf; cbn [unmarshal_node]; [split; [apply calm_hang|discriminate]|]. destruct raw as [v|]; [|split; [apply calm_err|discriminate]].
  specialize (Hf v eq_refl). destruct (dec_struct (store_node p) node_zero v) as [n|m|m|] eqn:E; cbn [bind]; [|split; [apply calm_err|discriminate]|exfalso; eapply calm_struct; [|exact E]; apply calm_store_node|split; [apply calm_hang|discriminate]].
  destruct (beqb (nj_MissingType n) []) eqn:Em. { split; [apply calm_bind; [apply calm_leaf|intros; apply calm_ok]|]. intros t K. apply bind_ok in K. destruct K as (x & _ & K). injection K as <-. exact I. }
  assert (C : forall c, nj_LeftChildRaw n = Some c \/ nj_RightChildRaw n = Some c -> json_fits (pl_maxalloc p) c).
  { intros c Hc. destruct v as [| | | | |l]; cbn [dec_struct] in E; try discriminate.
    - injection E as <-. destruct Hc; discriminate.
    - destruct (children_members _ _ _ _ E) as [HL HR]. destruct Hc as [Hc|Hc]; [destruct (HL c Hc) as [Q|[k Q]]|destruct (HR c Hc) as [Q|[k Q]]]; try discriminate; eapply fits_member; eauto. }
  destruct (IH (nj_LeftChildRaw n)) as (L1 & L2); [intros; apply C; auto|]. destruct (IH (nj_RightChildRaw n)) as (R1 & R2); [intros; apply C; auto|]. split.
  - apply calm_bind; [exact L1|]. intros lc _. apply calm_bind; [exact R1|]. intros; apply calm_ok.
  - intros t K. apply bind_ok in K. destruct K as (lc & El & K). apply bind_ok in K. destruct K as (rc & Er & K). injection K as <-. cbn [cats_fit]. split; [|auto].
    intros s token c Es It Ec. destruct v as [| | | | |l]; cbn [dec_struct] in E; try discriminate; [injection E as <-; discriminate|].
    destruct (threshold_member _ _ _ _ E Es) as (k & I & K). destruct Hf as (_ & Hf). apply key_is_spells in K; [|reflexivity]. apply int64_iff in Ec. assert (Pc : pieces (bs "||") s (split s (bs "||"))) by (apply pieces_split; [discriminate|reflexivity]).
    pose proof (Hf k s _ token c (mb_here _ _ _ I) K Pc It Ec) as Q. unfold MaxInt, two63. change (2 ^ 63) with 9223372036854775808 in Q. lia.
Qed.

Lemma mapM_atoi : forall toks values, mapM (fun s => match atoi s with Some v => Ok v | None => Err "can't convert" end) toks = Ok values ->
  forall v, In v values -> exists t, In t toks /\ atoi t = Some v.
Proof.
  induction toks as [|t toks IH]; intros values H v Hv; cbn [mapM] in H; [injection H as <-; destruct Hv|].
  apply bind_ok in H. destruct H as (x & E1 & H). apply bind_ok in H. destruct H as (xs & E2 & H). injection H as <-. destruct (atoi t) eqn:Et; [injection E1 as ->|discriminate].
  destruct Hv as [->|Hv]; [exists t; split; [left; reflexivity|exact Et]|]. destruct (IH xs E2 v Hv) as (t' & I & E). exists t'. split; [right; exact I|exact E].
Qed.

Lemma create_calm : forall p t n l r, cats_fit (pl_maxalloc p) (NNode n l r) ->
  calm (json_createNode p t n l r) /\ forall node t', json_createNode p t n l r = Ok (node, t') -> tNodes t' = tNodes t.
Proof.
  intros p t n l r (F & _ & _).
  assert (J : forall nd t0, tNodes (snd (json_leaves l r (nd, t0))) = tNodes t0).
  { intros nd t0. unfold json_leaves. destruct l, r; rewrite ?leaf_right_nodes, ?leaf_left_nodes; reflexivity. }
  assert (G : forall (nt : lgNode * lgTree) node t' t0, tNodes (snd nt) = tNodes t0 -> Ok nt = Ok (node, t') -> tNodes t' = tNodes t0).
  { intros nt node t' t0 E K. assert (nt = (node, t')) by congruence. subst nt. exact E. }
  unfold json_createNode. destruct (beqb _ _); [|destruct (beqb _ _); [|split; [apply calm_err|discriminate]]].
  - unfold json_createCategoricalNode. destruct (stringToMissingType _) as [m|]; [|split; [apply calm_err|discriminate]]. destruct (nj_Threshold n) as [|x|s|] eqn:Et; try (split; [apply calm_err|discriminate]).
    assert (Cc : calm (json_category p t s) /\ forall x y t', json_category p t s = Ok (x, y, t') -> tNodes t' = tNodes t).
    { unfold json_category. assert (It : forall token, In token (split s (bs "||")) -> forall c, atoi token = Some c -> 0 <= c < MaxInt /\ c / 32 < pl_maxalloc p) by (intros; eapply F; eauto).
      destruct (split s (bs "||")) as [|a [|b rest]]; [split; [apply calm_err|discriminate]| |].
      - destruct (atoi a); [split; [apply calm_ok|intros ? ? ? [= _ _ <-]; reflexivity]|split; [apply calm_err|discriminate]].
      - set (toks := a :: b :: rest) in *. destruct (mapM _ toks) as [values|m'|m'|] eqn:Em; cbn [bind]; [|split; [apply calm_err|discriminate]|exfalso; refine (calm_mapM _ _ _ _ _ _ Em); intros x _; destruct (atoi x); [apply calm_ok|apply calm_err]|split; [apply calm_hang|discriminate]].
        destruct (C27_construct_bitset p values) as (bits & Eb & _).
        { rewrite Forall_forall. intros v Hv. destruct (mapM_atoi _ _ Em v Hv) as (tk & I & Ev). eapply It; eauto. }
        rewrite Eb. cbn [bind]. destruct bits as [|w [|w' ws]]; (split; [apply calm_ok|]; intros x y t' K; injection K as _ _ K; subst t'; destruct t; reflexivity). }
    destruct Cc as (C1 & C2). destruct (json_category p t s) as [[[x y] t']|m'|m'|]; cbn [bind]; [|split; [apply calm_err|discriminate]|exfalso; eapply C1; reflexivity|split; [apply calm_hang|discriminate]].
    split; [apply calm_ok|]. intros node t'' K. rewrite <- (C2 x y t' eq_refl). eapply G; [|exact K]. apply J.
  - unfold json_createNumericalNode. destruct (stringToMissingType _) as [m|]; [|split; [apply calm_err|discriminate]]. destruct (nj_Threshold n) as [|x|s|]; try (split; [apply calm_err|discriminate]).
    split; [apply calm_ok|]. intros node t' K. eapply G; [|exact K]. apply J.
Qed.

(** ** The loop: pointers into the current array are in range *)
Definition ptr_ok (s : jstate) (ptr : option parentPtr) : Prop :=
  match ptr with None => True | Some q => 0 <= pp_gen q <= js_gen s /\ (pp_gen q = js_gen s -> 0 <= pp_index q < zlen (tNodes (js_tree s))) end.
Definition item_ok (p : platform) (s : jstate) (x : option parentPtr * jnode) : Prop :=
  ptr_ok s (fst x) /\ cats_fit (pl_maxalloc p) (snd x) /\ exists n l r, snd x = NNode n l r.

Lemma append_ptr : forall p node s ptr, ptr_ok s ptr -> ptr_ok (append_node p node s) ptr.
Proof.
  intros p node s [q|] H; [|exact I]. destruct H as (H1 & H2). unfold append_node. cbv zeta. destruct (_ <=? _); unfold ptr_ok; cbn [js_gen js_tree].
  - split; [exact H1|]. intros E. specialize (H2 E). destruct (js_tree s) as [nds lv cb ct nc]. cbn in *. rewrite zlen_app. change (zlen [node]) with 1. lia.
  - split; lia.
Qed.
Lemma loop_json_calm : forall p fuel stack s, 0 <= js_gen s -> Forall (item_ok p s) stack -> calm (json_loop p fuel stack s).
Proof.
  intros p. induction fuel as [|fuel IH]; intros stack s Gs F; cbn [json_loop]; [apply calm_hang|]. destruct stack as [|[ptr [v|n l r]] stack]; [apply calm_ok|inversion F as [|? ? (_ & _ & n & l & r & Q) _]; discriminate Q|].
  inversion F as [|? ? (P & C & _) F']; subst. cbn [fst snd] in P, C. destruct (create_calm p (js_tree s) n l r C) as (C1 & C2). apply calm_bind; [exact C1|]. intros [node t] E. specialize (C2 _ _ E).
  set (s0 := mkJ t (js_gen s) (js_cap s)).
  assert (P0 : forall q, ptr_ok s q -> ptr_ok s0 q) by (intros [q|] Q; [unfold ptr_ok, s0 in *; cbn [js_gen js_tree]; rewrite C2; exact Q|exact I]).
  assert (W : calm (write_ptr ptr s0) /\ forall s1, write_ptr ptr s0 = Ok s1 -> js_gen s1 = js_gen s0 /\ zlen (tNodes (js_tree s1)) = zlen (tNodes (js_tree s0))).
  { unfold write_ptr. destruct ptr as [q|]; [|split; [apply calm_ok|intros s1 [= <-]; auto]]. destruct (Z.eqb_spec (pp_gen q) (js_gen s0)) as [Eg|Eg]; [|split; [apply calm_ok|intros s1 [= <-]; auto]].
    destruct (P0 _ P) as (_ & R). specialize (R Eg). cbv zeta. destruct (zget_some _ _ _ R) as (par & Ep). unfold at_. rewrite Ep. cbn [bind]. split.
    - apply calm_bind; [apply calm_set; exact R|]. intros; apply calm_ok.
    - intros s1 K. apply bind_ok in K. destruct K as (nodes & En & K). injection K as <-. cbn [js_gen js_tree]. split; [reflexivity|]. unfold set_at in En. destruct (zset _ _ _) as [l'|] eqn:Ez; [injection En as <-|discriminate]. apply zset_len in Ez. unfold s0 in *; cbn [js_tree] in *. rewrite <- Ez. destruct t as [nds lv cb ct nc]. reflexivity. }
  destruct W as (W1 & W2). apply calm_bind; [exact W1|]. intros s1 E1. destruct (W2 s1 E1) as (Gg & Gl). cbv zeta.
  assert (P1 : forall q, ptr_ok s q -> ptr_ok (append_node p node s1) q).
  { intros q Q. apply append_ptr. apply P0 in Q. destruct q as [q|]; [|exact I]. unfold ptr_ok in *. rewrite Gg, Gl. exact Q. }
  assert (Gn : 0 <= js_gen (append_node p node s1)) by (unfold append_node; cbv zeta; destruct (_ <=? _); cbn [js_gen]; rewrite Gg; cbn [s0 js_gen]; lia).
  assert (Ln : 0 <= zlen (tNodes (js_tree (append_node p node s1))) - 1).
  { unfold append_node. cbv zeta. destruct (_ <=? _); cbn [js_tree]; destruct (js_tree s1) as [nds lv cb ct nc]; cbn [tNodes tree_set_nodes]; rewrite zlen_app; change (zlen [node]) with 1; pose proof (zlen_nonneg _ nds); lia. }
  destruct C as (_ & Cl & Cr).
  assert (Pu : forall b c st, cats_fit (pl_maxalloc p) c -> Forall (item_ok p (append_node p node s1)) st -> Forall (item_ok p (append_node p node s1)) (push_json b c (append_node p node s1) st)).
  { intros b c st Hc Hst. destruct c as [v|n' l' r']; cbn [push_json]; [exact Hst|]. constructor; [|exact Hst]. split; [|split; [exact Hc|exists n', l', r'; reflexivity]]. cbn [fst ptr_ok pp_gen pp_index]. split; [lia|]. intros _. lia. }
  assert (F1 : Forall (item_ok p (append_node p node s1)) stack).
  { rewrite Forall_forall in F' |- *. intros x Hx. destruct (F' x Hx) as (Q & Q'). split; [apply P1; exact Q|exact Q']. }
  apply IH; [exact Gn|]. destruct (has _ leftLeaf), (has _ rightLeaf); auto.
Qed.

Lemma json_tree_calm : forall p raw, json_fits (pl_maxalloc p) raw -> calm (unmarshalTree p raw).
Proof.
  intros p raw H. unfold unmarshalTree. apply calm_bind; [apply calm_struct; apply calm_store_tree|]. intros tj E. cbv zeta. destruct (Z.ltb_spec (tj_NumLeaves tj) 1); [apply calm_err|].
  assert (M : tj_NumLeaves tj - 1 <= pl_maxalloc p /\ forall v, tj_RootRaw tj = Some v -> json_fits (pl_maxalloc p) v).
  { destruct raw as [| | | | |l]; cbn [dec_struct] in E; try discriminate; [injection E as <-; cbn in *; lia|]. destruct (num_leaves_member _ _ _ E) as (N & R). split.
    - destruct N as [N|(k & lit & I & K & N)]; [lia|]. destruct H as (H & _). apply key_is_spells in K; [|reflexivity]. apply int64_iff in N. exact (H k lit _ (mb_here _ _ _ I) K N).
    - intros v Ev. destruct (R v Ev) as (k & I). eapply fits_member; eauto. }
  destruct M as (M & R). destruct (node_calm p (2 + match tj_RootRaw tj with Some v => jdepth v | None => O end) (tj_RootRaw tj) R) as (C1 & C2).
  apply calm_bind; [exact C1|]. intros [v|n l r] Er; [apply calm_ok|]. unfold json_build. replace (pl_maxalloc p <? tj_NumLeaves tj - 1) with false by lia.
  apply loop_json_calm; [cbn; lia|]. constructor; [|constructor]. split; [exact I|]. split; [apply (C2 _ Er)|]. eexists _, _, _. reflexivity.
Qed.

(** Any byte stream at all: if the JSON value it begins with holds no num_leaves and no category
    that would need more memory than there is, and no negative category, the call comes back. *)
Theorem C66_lightgbm_json :
  forall p limit s eof load,
  (forall doc, stream_says false doc s -> json_fits (pl_maxalloc p) doc) ->
  came_back (LGEnsembleFromJSONReader p limit (mkReader s eof) load).
Proof.
  intros p limit s eof load H. unfold LGEnsembleFromJSONReader. apply calm_back; [|apply C29_json_load_returns].
  unfold LGEnsembleFromJSON. destruct load; [apply calm_err|]. destruct (first_value limit (mkReader s eof)) as [v|] eqn:E; [|apply calm_err].
  assert (Fv : json_fits (pl_maxalloc p) v).
  { unfold first_value in E. cbn [rd_bytes] in E. destruct (value limit _ 0 s) as [[v' r]|] eqn:V; [|discriminate]. injection E as ->. destruct (proj1 (value_sound_all _ _) _ _ _ _ V) as (w & t & -> & B & J & N). apply H. exists w, t, r. auto. }
  apply calm_bind; [apply calm_struct; apply calm_store_ensemble|]. intros data Ed.
  repeat match goal with |- context [if ?c then Err _ else _] => destruct c; [apply calm_err|] end. cbv zeta.
  repeat match goal with |- context [if ?c then Err _ else _] => destruct c; [apply calm_err|] end.
  apply calm_bind; [|intros; apply calm_ok]. apply calm_mapM. intros t It. apply json_tree_calm.
  destruct v as [| | | | |l]; cbn [dec_struct] in Ed; try discriminate; [injection Ed as <-; destruct It|]. destruct (trees_member _ _ _ Ed It) as (k & ts & I1 & I2). eapply fits_array; [eapply fits_member; eauto|exact I2].
Qed.
Print Assumptions C66_lightgbm_json.
