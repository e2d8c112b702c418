(** * C66: loading a model does not crash the program *)

From Coq Require Import ZArith List Bool String Lia ZifyBool.
From Verif Require Import Go GoFloat GoText UtilText UtilBits LgTree TreeBuild Transformation Ensembles Leaves LgTextIO XgBin XgIO.
From Verif Require Import Spec_Tree Spec_LgText Spec_Params Spec_XgBin Spec_XgTree Spec_XgFile Spec_Calm.
From Verif Require Import Pf_Go Pf_Build Pf_Split Pf_Placed Pf_LgTree Pf_Text Pf_Words Pf_LgFile Pf_XgBin Pf_Calm Prop_LgText Prop_Xg.
Local Open Scope Z_scope.

(** the call came back: with a value or with an error *)
Definition came_back {A : Type} (o : outcome A) : Prop := (exists a, o = Ok a) \/ (exists msg, o = Err msg).
Lemma calm_back : forall A (o : outcome A), calm o -> o <> Hang -> came_back o.
Proof. intros A o C H. destruct o; [left; eauto|right; eauto|exfalso; eapply C; reflexivity|contradiction]. Qed.

(** ** XGBoost *)
Lemma leaf_left_nodes : forall nt v, tNodes (snd (leaf_left nt v)) = tNodes (snd nt).
Proof. intros [nd t] v. destruct t. reflexivity. Qed.
Lemma leaf_right_nodes : forall nt v, tNodes (snd (leaf_right nt v)) = tNodes (snd nt).
Proof. intros [nd t] v. destruct t. reflexivity. Qed.
Lemma xg_source_calm : forall nodes n, zlen nodes = n -> Forall (fun x => xCLeft x < n /\ xCRight x < n) nodes -> source_calm (xg_source nodes) n (fun i => 0 <= i < n).
Proof.
  intros nodes n L F t i Hi. split; [exact Hi|]. cbn [xg_source src_create src_left src_right]. unfold xg_createNode. unfold at_ at 1 4.
  destruct (zget_some _ nodes i ltac:(lia)) as (x & E). rewrite Forall_forall in F. destruct (F x (zget_in _ _ _ _ E)) as (Fl & Fr).
  assert (Ax : at_ nodes i = Ok x) by (unfold at_; rewrite E; reflexivity). rewrite Ax, E. cbn [bind]. cbv zeta.
  destruct (Z.ltb_spec (xCLeft x) 0) as [B|B]; [split; [apply calm_err|discriminate]|]. destruct (Z.ltb_spec (xCRight x) 0) as [C|C]; [split; [apply calm_err|discriminate]|].
  destruct (zget_some _ nodes (xCLeft x) ltac:(lia)) as (l & El). destruct (zget_some _ nodes (xCRight x) ltac:(lia)) as (r & Er).
  unfold at_. rewrite El, Er. cbn [bind].
  assert (G : forall nt node t', Ok nt = Ok (node, t') -> tNodes (snd nt) = tNodes t -> tNodes t' = tNodes t /\
    (has (nFlags node) leftLeaf = false -> exists k, Ok (xCLeft x) = Ok k /\ 0 <= k < n) /\ (has (nFlags node) rightLeaf = false -> exists k, Ok (xCRight x) = Ok k /\ 0 <= k < n)).
  { intros nt node t' K1 K2. assert (K : nt = (node, t')) by congruence. rewrite K in K2. split; [exact K2|]. split; intros _; [exists (xCLeft x)|exists (xCRight x)]; (split; [reflexivity|lia]). }
  generalize (numericalNode (xgSplitIndex x) missingNan (f64_of_f32bits (xInfo x)) (if xgDefaultLeft x then defaultLeft else 0)). intros nd.
  destruct (xgIsLeaf l); destruct (xgIsLeaf r); cbn [bind].
  - destruct (leaf_left (nd, t) _) as [nd1 t1] eqn:E1. split; [apply calm_ok|]. intros node t' K. eapply G; [exact K|]. rewrite leaf_right_nodes. apply (f_equal (fun nt => tNodes (snd nt))) in E1. rewrite leaf_left_nodes in E1. cbn [snd] in *. congruence.
  - destruct (leaf_left (nd, t) _) as [nd1 t1] eqn:E1. split; [apply calm_ok|]. intros node t' K. eapply G; [exact K|]. apply (f_equal (fun nt => tNodes (snd nt))) in E1. rewrite leaf_left_nodes in E1. cbn [snd] in *. congruence.
  - split; [apply calm_ok|]. intros node t' K. eapply G; [exact K|]. apply leaf_right_nodes.
  - split; [apply calm_ok|]. intros node t' K. eapply G; [exact K|]. reflexivity.
Qed.

Lemma xg_tree_calm : forall p t v nf, tree_ok_x (pl_maxalloc p) t v -> children_exist t -> calm (xgTreeFromTreeModel p t nf).
Proof.
  intros p t v nf (P & _ & _ & L & _ & A & _) F. unfold xgTreeFromTreeModel. destruct P as (_ & Pn & _). unfold int32 in Pn. pose proof (zlen_nonneg _ (tmNodes t)) as Z0.
  destruct (_ <? _); [apply calm_err|]. destruct (negb _); [apply calm_err|]. destruct (Z.eqb_spec (tpNumNodes (tmParam t)) 0); [apply calm_err|].
  destruct (Z.eqb_spec (tpNumNodes (tmParam t)) 1).
  - apply calm_bind; [apply calm_at; lia|]. intros; apply calm_ok.
  - apply calm_bind; [rewrite make_check_ok by lia; apply calm_ok|]. intros _ _. apply (build_calm _ _ (fun i => 0 <= i < tpNumNodes (tmParam t))); [change (2 ^ 31) with 2147483648 in Pn; change (2 ^ 32) with 4294967296; lia| |lia|reflexivity].
    apply xg_source_calm; [exact L|exact F].
Qed.

Lemma trees_ok_in : forall alloc ts vs t, Forall2 (tree_ok_x alloc) ts vs -> In t ts -> exists v, tree_ok_x alloc t v.
Proof. intros alloc ts vs t F. induction F as [|a b ts vs H F IH]; intros []; subst; eauto. Qed.

Lemma calm_weights : forall p dart n ws rest eof, 0 <= n <= pl_maxalloc p -> Forall uint32 ws -> vector_ok (pl_maxalloc p) (zlen ws) ->
  calm (xg_weights p dart n (mkReader ((if dart then e_vector ws else []) ++ rest) eof)).
Proof.
  intros p dart n ws rest eof Hn F V. unfold xg_weights. rewrite make_check_ok by lia. cbn [bind]. destruct dart; [|apply calm_ok]. rewrite rt_floats by auto. cbn [bind]. destruct (negb _); [apply calm_err|apply calm_ok].
Qed.

Lemma xg_calm : forall p h m vs ws load rest eof, xg_file_ok (pl_maxalloc p) h m vs ws -> Forall children_exist (gmTrees m) ->
  calm (xg_ensemble_and_rest p (mkReader (e_xg_file h m vs ws ++ rest) eof) load).
Proof.
  intros p h m vs ws load rest eof (H1 & H2 & H3 & H4) F. pose proof H2 as (_ & Ht & L & _ & _ & A). pose proof (zlen_nonneg _ (gmTrees m)) as Z0.
  unfold xg_ensemble_and_rest, e_xg_file. rewrite <- !app_assoc. rewrite rt_header by auto. cbn [bind].
  apply calm_bind; [destruct (beqb _ _); [apply calm_ok|]; destruct (beqb _ _); [apply calm_ok|apply calm_err]|]. intros name _. cbv zeta.
  destruct (_ =? 0); [apply calm_err|]. rewrite (rt_gbtree _ _ _ H2). cbn [bind]. destruct (_ <? _); [apply calm_err|].
  apply calm_bind; [apply calm_weights; auto; lia|]. intros [w r] _.
  destruct (negb _); [apply calm_err|]. destruct (negb _); [apply calm_err|]. destruct (negb _); [apply calm_err|].
  apply calm_bind; [unfold xg_transform; destruct load; [|apply calm_ok]; destruct (beqb _ _); [apply calm_ok|apply calm_err]|]. intros tr _.
  destruct (_ =? 0); [apply calm_err|]. apply calm_bind; [|intros; apply calm_ok]. apply calm_mapM. intros i Hi. apply in_zseq in Hi. unfold at_.
  destruct (zget_some _ (gmTrees m) i ltac:(lia)) as (t & Et). rewrite Et. cbn [bind]. apply zget_in in Et. rewrite Forall_forall in F. destruct (trees_ok_in _ _ _ _ Ht Et) as (v & Hv). eapply xg_tree_calm; eauto.
Qed.

Lemma calm_prefix : forall A (rd : reader -> outcome (A * reader)) s s' eof eof', extends rd -> calm (rd (mkReader (s ++ s') eof')) -> calm (rd (mkReader s eof)).
Proof. intros A rd s s' eof eof' E C m K. specialize (E s eof s' eof'). rewrite K in E. exact (C m E). Qed.

(** Every file written with its fields in range and no reference to a missing node, cut off
    anywhere or followed by anything. *)
Theorem C66_xgboost :
  forall p h m leaf_vectors weights rest text text' eof load,
  xg_file_ok (pl_maxalloc p) h m leaf_vectors weights ->
  Forall children_exist (gmTrees m) ->
  e_xg_file h m leaf_vectors weights ++ rest = text ++ text' ->
  came_back (XGEnsembleFromReader p (mkReader text eof) load).
Proof.
  intros p h m vs ws rest text text' eof load H F E. apply calm_back.
  - unfold XGEnsembleFromReader. apply calm_bind; [|intros [e r] _; apply calm_ok]. apply (calm_prefix _ (fun r => xg_ensemble_and_rest p r load) text text' eof eof (ext_ensemble p load)). rewrite <- E. apply xg_calm; auto.
  - apply C29_xgb_load_returns.
Qed.
Print Assumptions C66_xgboost.

(** ** LightGBM text *)
Lemma has_spec : forall x m, 0 <= m -> has x m = true <-> Z.land x m <> 0.
Proof. intros x m M. unfold has. pose proof (proj2 (Z.land_nonneg x m) (or_intror M)). split; intros H0; lia. Qed.
Lemma has_lor : forall x y m, 0 <= m -> has x m = true -> has (Z.lor x y) m = true.
Proof. intros x y m M. rewrite !has_spec, Z.land_lor_distr_l by auto. intros H E. apply Z.lor_eq_0_iff in E. lia. Qed.
Lemma has_self : forall x m, 0 < m -> has (Z.lor x m) m = true.
Proof. intros x m H. rewrite Z.lor_comm. apply has_lor; [lia|]. rewrite has_spec, Z.land_diag; lia. Qed.
Lemma first_calm : forall l pos, calm (FirstNonZeroBit_loop l pos).
Proof.
  induction l as [|w l IH]; intros pos; cbn [FirstNonZeroBit_loop]; [apply calm_err|]. destruct (0 <? w); [|apply IH].
  apply calm_bind; [|intros; apply calm_ok]. apply calm_at. change (zlen multiplyDeBruijnBitPosition) with 32. rewrite Z.shiftr_div_pow2 by lia. set (x := u32 _).
  assert (0 <= x < two32) by (unfold x, u32, two32; apply Z.mod_pos_bound; lia). unfold two32 in *. change (2 ^ 27) with 134217728. split; [apply Z.div_pos; lia|apply Z.div_lt_upper_bound; lia].
Qed.
Lemma calm_missing : forall d, calm (convertMissingType d).
Proof. intros d. unfold convertMissingType. cbv zeta. destruct (_ =? 0); [apply calm_ok|]. destruct (_ =? 1); [apply calm_ok|]. destruct (_ =? 2); [apply calm_ok|apply calm_err]. Qed.
Lemma calm_convert : forall A (f : bytes -> option A) ps key, calm (convert_tokens f ps key).
Proof. intros A f ps key. unfold convert_tokens. destruct (lookup ps key); [|apply calm_err]. apply calm_mapM. intros t _. destruct (f t); [apply calm_ok|apply calm_err]. Qed.
Lemma calm_ToInt : forall ps key, calm (ToInt ps key).
Proof. intros ps key. unfold ToInt. destruct (lookup ps key) as [s|]; [|apply calm_err]. destruct (atoi s); [apply calm_ok|apply calm_err]. Qed.

Section Text.
Variables (p : platform) (nl : Z) (a : text_tree).
Hypothesis (Hr : ranged a) (Hf : text_fits (pl_maxalloc p) nl a).
Let arr := arrays_of a.

Lemma marks : forall i n0, 0 <= i < nl - 1 -> exists n1, mark_leaves arr i n0 = Ok n1 /\
  (has (nFlags n1) leftLeaf = false -> exists k, at_ (a_left arr) i = Ok k /\ 0 <= k < nl - 1) /\
  (has (nFlags n1) rightLeaf = false -> exists k, at_ (a_right arr) i = Ok k /\ 0 <= k < nl - 1).
Proof.
  intros i n0 Hi. unfold mark_leaves. unfold arr, arrays_of. cbn [a_left a_right].
  pose proof (tf_left _ _ _ Hf) as L1. pose proof (tf_right _ _ _ Hf) as L2.
  destruct (zget_some _ (tt_left a) i ltac:(lia)) as (l & El). destruct (zget_some _ (tt_right a) i ltac:(lia)) as (r & Er).
  pose proof (tf_children _ _ _ Hf i l Hi (or_introl El)) as Cl. pose proof (tf_children _ _ _ Hf i r Hi (or_intror Er)) as Cr.
  unfold at_. rewrite El, Er. cbn [bind]. eexists. split; [reflexivity|]. split; intros F.
  - exists l. split; [reflexivity|]. destruct (Z.ltb_spec l 0) as [B|B]; [exfalso|lia]. revert F. destruct n0 as [th le ri fe fl]. destruct (r <? 0); unfold node_set_left, node_set_right, node_or_flags; cbn [nThreshold nLeft nRight nFeature nFlags]; intros F.
    + rewrite has_lor in F; [discriminate|unfold leftLeaf; lia|apply has_self; unfold leftLeaf; lia].
    + rewrite has_self in F; [discriminate|unfold leftLeaf, rightLeaf; lia].
  - exists r. split; [reflexivity|]. destruct (Z.ltb_spec r 0) as [B|B]; [exfalso|lia]. revert F. destruct n0 as [th le ri fe fl]. destruct (l <? 0); unfold node_set_left, node_set_right, node_or_flags; cbn [nThreshold nLeft nRight nFeature nFlags]; intros F; (rewrite has_self in F; [discriminate|unfold leftLeaf, rightLeaf; lia]).
Qed.

Lemma lg_source_calm : source_calm (lg_source p arr) (nl - 1) (fun i => 0 <= i < nl - 1).
Proof.
  intros t i Hi. split; [exact Hi|]. cbn [lg_source src_create src_left src_right]. destruct Hr as (R1 & R2 & R3 & R4 & R5).
  destruct (zget_some _ (tt_decision a) i ltac:(pose proof (tf_decision _ _ _ Hf); lia)) as (d & Ed).
  destruct (zget_some _ (tt_feature a) i ltac:(pose proof (tf_feature _ _ _ Hf); lia)) as (f & Ef).
  destruct (zget_some _ (tt_threshold a) i ltac:(pose proof (tf_threshold _ _ _ Hf); lia)) as (thr & Et).
  assert (Dd : 0 <= d < two32) by (apply (forall_zget _ _ _ _ _ R3 Ed)).
  assert (Ad : at_ (a_decision arr) i = Ok d) by (apply at_zget; exact Ed). assert (Af : at_ (a_feature arr) i = Ok f) by (apply at_zget; exact Ef). assert (At : at_ (a_threshold arr) i = Ok thr) by (apply at_zget; exact Et).
  unfold lg_createNode. rewrite Ad. cbn [bind]. rewrite has_1 by lia. destruct (is_categorical d) eqn:Ec.
  - destruct (tf_categories _ _ _ Hf i d thr Hi Ed Ec Et) as (k & lo & hi & Tk & Elo & Ehi & B).
    pose proof (zget_range _ _ _ _ Elo) as Rlo. pose proof (zget_range _ _ _ _ Ehi) as Rhi. pose proof (tf_boundaries _ _ _ Hf) as Bb. change (2 ^ 32) with two32 in Bb.
    assert (Fk : f2u32 p thr = k) by (unfold f2u32; rewrite Tk; replace ((0 <=? k) && (k <? two32)) with true by lia; auto).
    assert (Dlo : 0 <= lo < two32) by (apply (forall_zget _ _ _ _ _ R5 Elo)).
    assert (Dhi : 0 <= hi < two32) by (apply (forall_zget _ _ _ _ _ R5 Ehi)).
    unfold lg_createCategoricalNode. rewrite Ad. cbn [bind]. destruct (convertMissingType d) as [m|s|s|] eqn:Em; cbn [bind]; [|split; [apply calm_err|discriminate]|exfalso; eapply calm_missing; exact Em|split; [apply calm_hang|discriminate]].
    rewrite At. cbn [bind]. cbv zeta. rewrite Fk, u32_id by lia. rewrite (at_zget _ (a_catBoundaries arr) (k + 1) hi Ehi). cbn [bind]. rewrite (at_zget _ (a_catBoundaries arr) k lo Elo). cbn [bind].
    unfold slice. change (a_catThreshold arr) with (tt_cat_threshold a). replace ((lo <? 0) || (hi <? lo) || (zlen (tt_cat_threshold a) <? hi)) with false by lia. cbn [bind]. set (words := firstn _ _).
    set (cat := if NumberOfSetBits words =? 0 then _ else _).
    assert (Cc : calm cat /\ forall x y t', cat = Ok (x, y, t') -> tNodes t' = tNodes t).
    { unfold cat. destruct (_ =? 0); [split; [apply calm_err|discriminate]|]. destruct (NumberOfSetBits words =? 1).
      - destruct (FirstNonZeroBit words) as [z|s|s|] eqn:Ez; [split; [apply calm_ok|intros x y t' [= _ _ <-]; reflexivity]|split; [apply calm_err|discriminate]|exfalso; eapply first_calm; exact Ez|split; [apply calm_hang|discriminate]].
      - destruct (Z.eqb_spec (u32 (hi - lo)) 1) as [E1|E1].
        + rewrite u32_id in E1 by lia. destruct (zget_some _ (tt_cat_threshold a) lo ltac:(lia)) as (w & Ew). rewrite (at_zget _ _ _ _ Ew). cbn [bind]. split; [apply calm_ok|intros x y t' [= _ _ <-]; reflexivity].
        + split; [apply calm_ok|]. intros x y t' K. injection K as _ _ K. subst t'. destruct t; reflexivity. }
    destruct Cc as (C1 & C2). destruct cat as [[[x y] t']|s|s|]; cbn [bind]; [|split; [apply calm_err|discriminate]|exfalso; eapply C1; reflexivity|split; [apply calm_hang|discriminate]].
    rewrite Af. cbn [bind]. destruct (marks i (categoricalNode f m x y) Hi) as (n1 & En & Nl & Nr). rewrite En. cbn [bind]. split; [apply calm_ok|]. intros node t'' K. injection K as -> ->. split; [eapply C2; reflexivity|auto].
  - unfold lg_createNumericalNode. rewrite Ad. cbn [bind]. destruct (convertMissingType d) as [m|s|s|] eqn:Em; cbn [bind]; [|split; [apply calm_err|discriminate]|exfalso; eapply calm_missing; exact Em|split; [apply calm_hang|discriminate]].
    cbv zeta. rewrite Af. cbn [bind]. rewrite At. cbn [bind]. destruct (marks i (numericalNode f m thr (if has d 2 then defaultLeft else 0)) Hi) as (n1 & En & Nl & Nr). rewrite En. cbn [bind]. split; [apply calm_ok|]. intros node t'' K. injection K as -> ->. auto.
Qed.
End Text.

Lemma calm_tree : forall p ps kvs, (forall key, lookup ps key = last_value kvs key) ->
  (forall num_leaves num_cat a, 2 <= num_leaves -> text_block (pl_parse_float p) kvs num_leaves num_cat a -> text_fits (pl_maxalloc p) num_leaves a) ->
  calm (lgTreeFromParams p ps).
Proof.
  intros p ps kvs L H. unfold lgTreeFromParams. apply calm_bind; [apply calm_ToInt|]. intros nc Enc. cbv zeta. apply calm_bind; [apply calm_ToInt|]. intros nl Enl.
  destruct (Z.ltb_spec nl 1); [apply calm_err|]. apply calm_bind; [apply calm_convert|]. intros lv Elv. destruct (Z.eqb_spec nl 1); [apply calm_ok|].
  apply calm_bind; [apply calm_convert|]. intros le Ele. apply calm_bind; [apply calm_convert|]. intros ri Eri. apply calm_bind; [apply calm_convert|]. intros de Ede.
  apply calm_bind; [apply calm_convert|]. intros fe Efe. apply calm_bind; [apply calm_convert|]. intros th Eth.
  unfold ToFloat64Slice, ToInt32Slice, ToUint32Slice in *.
  assert (Sn : says kvs (bs "num_leaves") nl) by (apply (says_ToInt ps kvs L); exact Enl). assert (Sc : says kvs (bs "num_cat") nc) by (apply (says_ToInt ps kvs L); exact Enc).
  apply (lists_tokens ps kvs L _ _ _ _ _ int32_iff) in Ele, Eri. apply (lists_tokens ps kvs L _ _ _ _ _ uint32_iff) in Ede, Efe.
  apply (lists_tokens ps kvs L _ _ _ _ _ (float_iff (pl_parse_float p))) in Elv, Eth.
  assert (G : forall ct cb t, (if 0 <? nc then lists kvs (bs "cat_threshold") uint32_text ct /\ lists kvs (bs "cat_boundaries") uint32_text cb else ct = [] /\ cb = []) -> tNodes t = [] ->
    calm (if pl_maxalloc p <? nl - 1 then Panic "makeslice: cap out of range" else build (lg_source p (mkArrays le ri de fe th ct cb)) (nl - 1) t)).
  { intros ct cb t Hc Ht. set (a := mkText le ri de fe th ct cb lv).
    assert (B : text_block (pl_parse_float p) kvs nl nc a) by (unfold text_block, a; cbn; split; [exact Sn|]; split; [exact Sc|]; split; [exact Elv|]; intros _; repeat (split; [assumption|]); exact Hc).
    pose proof (H nl nc a ltac:(lia) B) as Fi. pose proof (tf_alloc _ _ _ Fi). pose proof (tf_nodes _ _ _ Fi). replace (pl_maxalloc p <? nl - 1) with false by lia.
    apply (build_calm _ _ (fun i => 0 <= i < nl - 1)); [lia| |lia|exact Ht]. apply (lg_source_calm p nl a); [eapply block_ranged; [exact B|lia]|exact Fi]. }
  destruct (0 <? nc) eqn:Ec.
  - apply calm_bind; [|].
    + apply calm_bind; [apply calm_convert|]. intros; apply calm_bind; [apply calm_convert|]. intros; apply calm_ok.
    + intros [[t ct] cb] E. apply bind_ok in E. destruct E as (ct' & E1 & E). apply bind_ok in E. destruct E as (cb' & E2 & E). injection E as <- <- <-. apply G; [|reflexivity].
      split; apply (lists_tokens ps kvs L _ _ _ _ _ uint32_iff); assumption.
  - cbn [bind]. apply G; [auto|reflexivity].
Qed.

Lemma calm_params : forall r, calm (ReadParamsUntilBlank r).
Proof.
  intros r. unfold ReadParamsUntilBlank. destruct (read_string r) as [[line err] r']. destruct err; try apply calm_err. generalize (S (List.length (rd_bytes r))) ([] : stringParams) (trim_space line) r'. clear.
  induction n as [|n IH]; intros ps line r; cbn [params_loop]; [apply calm_hang|]. apply calm_bind; [unfold params_line; destruct (split line [eqc]) as [|? [|? [|]]]; try apply calm_ok; apply calm_err|]. intros ps' _.
  destruct (read_string r) as [[l e] r2]. destruct e; try apply calm_err; destruct (beqb _ _); try apply calm_ok; apply IH.
Qed.
Lemma calm_header : forall ps, calm (lg_header ps).
Proof.
  intros ps. unfold lg_header. apply calm_bind; [unfold Compare; destruct (lookup ps (bs "version")); [|apply calm_err]; destruct (beqb b (bs "v2")); [apply calm_ok|]; destruct (beqb b (bs "v3")); [apply calm_ok|apply calm_err]|].
  intros _ _. apply calm_bind; [apply calm_ToInt|]. intros g _. apply calm_bind; [apply calm_ToInt|]. intros g' _. destruct (negb _); [apply calm_err|]. destruct (_ <? _); [apply calm_err|]. destruct (_ <? _); [apply calm_err|].
  apply calm_bind; [apply calm_ToInt|]. intros mf _. cbv zeta. destruct (lookup ps _); [|apply calm_err]. destruct (_ =? 0); [apply calm_err|]. destruct (negb _); [apply calm_err|apply calm_ok].
Qed.
Lemma calm_transform : forall ps load avg g, calm (lg_transform ps load avg g).
Proof.
  intros ps load avg g. unfold lg_transform. destruct (load && _); [|apply calm_ok]. apply calm_bind; [unfold ToString; destruct (lookup _ _); [apply calm_ok|apply calm_err]|]. intros o _.
  destruct (_ || _); [apply calm_ok|]. destruct (negb _); [|apply calm_ok]. apply calm_bind.
  - unfold lgObjectiveParse. destruct (split o [sp]) as [|? [|p0 [|]]]; try apply calm_err. destruct (split p0 _) as [|? [|v0 [|]]]; try apply calm_err. destruct (atoi v0); [apply calm_ok|apply calm_err].
  - intros ob _. destruct (_ && _); [destruct (negb _); [apply calm_err|apply calm_ok]|]. destruct (_ && _); [destruct (negb _); [apply calm_err|apply calm_ok]|apply calm_err].
Qed.

(** Any byte stream at all: if every tree block in it that holds all arrays holds arrays that
    fit, the call comes back. *)
Theorem C66_lightgbm_text :
  forall p text eof load,
  (forall header blocks_before kvs num_leaves num_cat a,
     blocks eof text (header :: blocks_before ++ [kvs]) -> 2 <= num_leaves ->
     text_block (pl_parse_float p) kvs num_leaves num_cat a -> text_fits (pl_maxalloc p) num_leaves a) ->
  came_back (LGEnsembleFromReader p (mkReader text eof) load).
Proof.
  intros p text eof load H. apply calm_back; [|apply C29_text_load_returns].
  unfold LGEnsembleFromReader. apply calm_bind; [apply calm_params|]. intros [ps r] Er. apply calm_bind; [apply calm_header|]. intros [e n] _. apply calm_bind; [apply calm_transform|]. intros tr _.
  apply calm_bind; [|intros [ts r'] _; apply calm_ok]. destruct (read_block_inv _ _ _ _ Er) as (header & B & Ee & _). destruct r as [rest eof']. cbn [rd_bytes rd_eof] in *. subst eof'.
  assert (H' : forall before kvs nl nc a, blocks eof rest (before ++ [kvs]) -> 2 <= nl -> text_block (pl_parse_float p) kvs nl nc a -> text_fits (pl_maxalloc p) nl a).
  { intros before kvs nl nc a Bs. apply (H header before kvs nl nc a). eapply blocks_cons; eauto. }
  clear H B Er. generalize (Z.to_nat n). intros k. revert rest H'. induction k as [|k IH]; intros rest H; cbn [lg_read_trees]; [apply calm_ok|].
  apply calm_bind.
  - unfold lgTreeFromReader. apply calm_bind; [apply calm_params|]. intros [ps' r'] E. apply calm_bind; [|intros; apply calm_ok].
    destruct (read_block_inv _ _ _ _ E) as (kvs & B & _ & L). apply (calm_tree p ps' kvs L). intros nl nc a Hnl. apply (H [] kvs nl nc a); [|exact Hnl]. eapply blocks_cons; [exact B|constructor].
  - intros [t r'] E. unfold lgTreeFromReader in E. apply bind_ok in E. destruct E as ([ps' r2] & E & E'). apply bind_ok in E'. destruct E' as (t' & _ & E'). injection E' as _ <-.
    destruct (read_block_inv _ _ _ _ E) as (kvs & B & Ee & _). destruct r2 as [rest2 eof2]. cbn [rd_bytes rd_eof] in *. subst eof2.
    apply calm_bind; [|intros [ts r3] _; apply calm_ok]. apply IH. intros before kvs' nl nc a Bs. apply (H (kvs :: before) kvs' nl nc a). cbn [app]. eapply blocks_cons; eauto.
Qed.
Print Assumptions C66_lightgbm_text.
