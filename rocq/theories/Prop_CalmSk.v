(** * C66: scikit-learn models, linear models and matrix files *)

From Coq Require Import ZArith List Bool String Lia ZifyBool.
From Verif Require Import Go GoFloat GoText LgTree TreeBuild Transformation Ensembles Leaves Mat MatIO XgBin XgIO Pickle SkClasses SkIO.
From Verif Require Import Spec_XgBin Spec_XgFile Spec_Pickle Spec_SkTree Spec_SkFile Spec_Calm.
From Verif Require Import Pf_Go Pf_Text Pf_Split Pf_XgBin Pf_SkFile Pf_Calm Prop_Xg Prop_Pickle Prop_Sk Prop_Calm.
Local Open Scope Z_scope.

(** ** Linear XGBoost models *)
Theorem C66_gblinear :
  forall p h m rest text text' eof load,
  xgl_file_ok (pl_maxalloc p) h m ->
  e_xgl_file h m ++ rest = text ++ text' ->
  came_back (XGBLinearFromReader p (mkReader text eof) load).
Proof.
  intros p h m rest text text' eof load (H1 & H2) E. apply calm_back; [|apply C29_xgb_load_returns].
  unfold XGBLinearFromReader. apply calm_bind; [|intros [e r] _; apply calm_ok].
  apply (calm_prefix _ (fun r => xgblinear_and_rest p r load) text text' eof eof (ext_linear p load)). rewrite <- E.
  unfold xgblinear_and_rest, e_xgl_file. rewrite <- app_assoc, rt_header by auto. cbn [bind]. destruct (negb _); [apply calm_err|]. destruct (_ =? 0); [apply calm_err|].
  rewrite rt_gblinear by auto. cbn [bind]. cbv zeta. apply calm_bind; [|intros; apply calm_ok]. unfold xg_transform. destruct load; [|apply calm_ok]. destruct (beqb _ _); [apply calm_ok|apply calm_err].
Qed.
Print Assumptions C66_gblinear.

(** ** scikit-learn *)
Section Tree.
Variables (nodes : list SklearnNode) (values : list f64) (scale base : f64).
Definition sk_inner (i : Z) : Prop := exists n, zget nodes i = Some n /\ 0 <= skLeftChild n.
Hypothesis (Hv : zlen nodes <= zlen values).
Hypothesis Hc : Forall (fun n => 0 <= skLeftChild n -> skLeftChild n < zlen nodes /\ 0 <= skRightChild n < zlen nodes) nodes.

Lemma calm_value : forall i, 0 <= i < zlen nodes -> exists v, sk_value values scale base i = Ok v.
Proof. intros i Hi. unfold sk_value. destruct (zget_some _ values i ltac:(lia)) as (v & E). rewrite (at_zget _ _ _ _ E). cbn [bind]. eauto. Qed.

Lemma sk_source_calm : forall n, zlen nodes <= n -> source_calm (sk_source nodes values scale base) n sk_inner.
Proof.
  intros n Hn t i (x & E & Hx). pose proof (zget_range _ _ _ _ E) as Ri. split; [lia|]. cbn [sk_source src_create src_left src_right]. unfold sk_createNode.
  rewrite Forall_forall in Hc. destruct (Hc x (zget_in _ _ _ _ E) Hx) as (Cl & Cr).
  assert (Ax : at_ nodes i = Ok x) by (apply at_zget; exact E). rewrite Ax. cbn [bind]. cbv zeta.
  destruct (zget_some _ nodes (skLeftChild x) ltac:(lia)) as (l & El). destruct (zget_some _ nodes (skRightChild x) ltac:(lia)) as (r & Er).
  rewrite (at_zget _ _ _ _ El), (at_zget _ _ _ _ Er). cbn [bind].
  destruct (calm_value (skLeftChild x) ltac:(lia)) as (lv & Elv). destruct (calm_value (skRightChild x) ltac:(lia)) as (rv & Erv). rewrite Elv, Erv. cbn [bind].
  generalize (numericalNode (u32 (skFeature x)) 0 (skThreshold x) 0). intros nd.
  assert (G : forall (nt : lgNode * lgTree) node t', Ok nt = Ok (node, t') -> tNodes (snd nt) = tNodes t ->
    (skLeftChild l < 0 -> has (nFlags (fst nt)) leftLeaf = true) -> (skLeftChild r < 0 -> has (nFlags (fst nt)) rightLeaf = true) ->
    tNodes t' = tNodes t /\ (has (nFlags node) leftLeaf = false -> exists k, Ok (skLeftChild x) = Ok k /\ sk_inner k) /\ (has (nFlags node) rightLeaf = false -> exists k, Ok (skRightChild x) = Ok k /\ sk_inner k)).
  { intros nt node t' K1 K2 K3 K4. assert (K : nt = (node, t')) by congruence. rewrite K in K2, K3, K4. cbn [fst snd] in K2, K3, K4. split; [exact K2|]. split; intros Fl.
    - exists (skLeftChild x). split; [reflexivity|]. exists l. split; [exact El|]. destruct (Z.ltb_spec (skLeftChild l) 0); [rewrite K3 in Fl by auto; discriminate|lia].
    - exists (skRightChild x). split; [reflexivity|]. exists r. split; [exact Er|]. destruct (Z.ltb_spec (skLeftChild r) 0); [rewrite K4 in Fl by auto; discriminate|lia]. }
  assert (FL : forall nt v, has (nFlags (fst (leaf_left nt v))) leftLeaf = true). { intros [[a b c d e] t0] v. cbn [leaf_left node_set_left node_or_flags fst nFlags]. apply has_self. unfold leftLeaf; lia. }
  assert (FR : forall nt v, has (nFlags (fst (leaf_right nt v))) rightLeaf = true). { intros [[a b c d e] t0] v. cbn [leaf_right node_set_right node_or_flags fst nFlags]. apply has_self. unfold rightLeaf; lia. }
  assert (FLR : forall nt v, has (nFlags (fst nt)) leftLeaf = true -> has (nFlags (fst (leaf_right nt v))) leftLeaf = true). { intros [[a b c d e] t0] v H. cbn [leaf_right node_set_right node_or_flags fst nFlags] in *. apply has_lor; [unfold leftLeaf; lia|exact H]. }
  destruct (Z.ltb_spec (skLeftChild l) 0) as [B|B]; destruct (Z.ltb_spec (skLeftChild r) 0) as [C|C]; cbn [bind].
  - destruct (leaf_left (nd, t) lv) as [nd1 t1] eqn:E1. pose proof (FL (nd, t) lv) as F1. rewrite E1 in F1. split; [apply calm_ok|]. intros node t' K. refine (G _ _ _ K _ _ _); auto.
    rewrite leaf_right_nodes. apply (f_equal (fun nt => tNodes (snd nt))) in E1. rewrite leaf_left_nodes in E1. cbn [snd] in *. congruence.
  - destruct (leaf_left (nd, t) lv) as [nd1 t1] eqn:E1. pose proof (FL (nd, t) lv) as F1. rewrite E1 in F1. split; [apply calm_ok|]. intros node t' K. refine (G _ _ _ K _ _ _); auto; [|lia].
    apply (f_equal (fun nt => tNodes (snd nt))) in E1. rewrite leaf_left_nodes in E1. cbn [snd] in *. congruence.
  - split; [apply calm_ok|]. intros node t' K. refine (G _ _ _ K (leaf_right_nodes _ _) _ _); auto; lia.
  - split; [apply calm_ok|]. intros node t' K. refine (G _ _ _ K _ _ _); auto; lia.
Qed.
End Tree.

Lemma sk_tree_calm : forall p r scale base, sk_tree_fits (pl_maxalloc p) (srTree r) -> calm (lgTreeFromSklearnDecisionTreeRegressor p r scale base).
Proof.
  intros p r scale base F. unfold lgTreeFromSklearnDecisionTreeRegressor. cbv zeta. pose proof (kt_alloc _ _ F) as A. pose proof (kt_nodes _ _ F) as N. pose proof (kt_values _ _ F) as V.
  pose proof (zlen_nonneg _ (stNodes (srTree r))) as Z0. set (leaves := zlen (filter _ _)).
  assert (Z1 : 0 <= leaves) by (unfold leaves, zlen; lia).
  assert (Z2 : leaves <= zlen (stNodes (srTree r))). { unfold leaves, zlen. clear. induction (stNodes (srTree r)) as [|n l IH]; [reflexivity|]. cbn [filter]. destruct (_ <? 0); cbn [List.length]; lia. }
  destruct (Z.eqb_spec (leaves - 1) (zlen (stNodes (srTree r)) - leaves)) as [E|E]; [|apply calm_err]. cbn [negb].
  destruct (Z.eqb_spec (zlen (stNodes (srTree r)) - leaves) 0) as [E0|E0].
  - destruct (calm_value _ _ scale base V 0 ltac:(lia)) as (v & ->). cbn [bind]. apply calm_ok.
  - rewrite make_check_ok by lia. cbn [bind]. apply (build_calm _ _ (sk_inner (stNodes (srTree r)))); [lia| | |reflexivity].
    + apply sk_source_calm; [exact V|apply (kt_children _ _ F)|lia].
    + destruct (zget_some _ (stNodes (srTree r)) 0 ltac:(lia)) as (root & Er). exists root. split; [exact Er|]. apply (kt_root _ _ F); [lia|exact Er].
Qed.

Lemma mapM_len : forall A B (f : A -> outcome B) l l', mapM f l = Ok l' -> zlen l' = zlen l.
Proof.
  intros A B f l. induction l as [|x l IH]; intros l' H; cbn [mapM] in H; [injection H as <-; reflexivity|]. apply bind_ok in H. destruct H as (y & _ & H). apply bind_ok in H. destruct H as (ys & E & H). injection H as <-. rewrite !zlen_cons, (IH _ E). reflexivity.
Qed.

Lemma sk_class_calm : forall p g, 0 <= gbNClasses g -> zlen (gbEstimators g) = gbNEstimators g * score_groups (gbNClasses g) ->
  sk_fits (pl_maxalloc p) g -> Forall (fun r => sk_tree_fits (pl_maxalloc p) (srTree r)) (gbEstimators g) ->
  (ieName (gbInit g) = bs "LogOddsEstimator" -> 1 <= zlen (iePrior (gbInit g))) -> calm (SKEnsembleFromClass p g).
Proof.
  intros p g H0 L S F P. pose proof (kf_classes _ _ S) as A1. pose proof (kf_trees _ _ S) as A2. pose proof (kf_alloc _ _ S) as A3. pose proof (zlen_nonneg _ (gbEstimators g)) as Z0.
  unfold SKEnsembleFromClass. fold (score_groups (gbNClasses g)). set (groups := score_groups (gbNClasses g)) in *. cbv zeta.
  assert (Hg : 0 <= groups <= gbNClasses g /\ gbNClasses g <= 2 * groups) by (unfold groups, score_groups; destruct (Z.eqb_spec (gbNClasses g) 2); lia).
  destruct (Z.eqb_spec (gbNEstimators g) 0); [apply calm_err|]. destruct (negb _); [apply calm_err|].
  assert (Hb : calm (sk_base p (gbInit g) groups) /\ forall base, sk_base p (gbInit g) groups = Ok base -> zlen base = groups).
  { unfold sk_base, make_f64. replace ((groups <? 0) || (pl_maxalloc p <? groups)) with false by lia. cbn [bind].
    assert (Lr : zlen (repeat fzero (Z.to_nat groups)) = groups) by (unfold zlen; rewrite repeat_length; lia).
    destruct (beqb (ieName (gbInit g)) (bs "LogOddsEstimator")) eqn:Eo.
    - apply beqb_eq in Eo. split; [apply calm_mapM; intros; apply calm_at; specialize (P Eo); lia|]. intros base E. rewrite (mapM_len _ _ _ _ _ E). exact Lr.
    - clear Eo. destruct (beqb (ieName (gbInit g)) (bs "PriorProbabilityEstimator")); [|split; [apply calm_err|discriminate]]. rewrite Lr. destruct (Z.eqb_spec (zlen (iePrior (gbInit g))) groups) as [E|E]; cbn [negb]; [|split; [apply calm_err|discriminate]].
      split; [apply calm_ok|]. intros base [= <-]. exact E. }
  destruct Hb as (C1 & C2). apply calm_bind; [exact C1|]. intros base Eb. specialize (C2 _ Eb).
  apply calm_bind.
  { assert (Bn : 0 <= gbNEstimators g * gbNClasses g) by nia. rewrite s64_id by (change (2 ^ 63) with two63 in A3; unfold two63 in *; lia). rewrite make_check_ok by lia. apply calm_ok. }
  intros _ _. apply calm_bind; [|intros; apply calm_ok]. unfold sk_trees. apply calm_bind; [|intros [ts b] _; apply calm_ok].
  refine (calm_foldM _ _ _ _ (fun acc => zlen (snd acc) = groups) _ _ ([], base) C2).
  - intros [ts b] i Hi Pb. cbn [snd] in Pb. apply in_zseq in Hi. apply calm_bind; [|intros; apply calm_ok]. apply calm_mapM. intros j Hj. apply in_zseq in Hj.
    destruct (zget_some _ (gbEstimators g) (i * groups + j)) as (r & Er). { rewrite L. nia. }
    rewrite (at_zget _ _ _ _ Er). cbn [bind]. apply calm_bind; [apply calm_at; lia|]. intros b0 _. apply sk_tree_calm. rewrite Forall_forall in F. apply F. eapply zget_in; exact Er.
  - intros [ts b] i acc Hi Pb E. cbn [snd] in Pb. apply bind_ok in E. destruct E as (new & _ & E). injection E as <-. cbn [snd]. unfold zlen in *. rewrite map_length. exact Pb.
Qed.

(** The file holds a classifier of the expected classes; its trees refer only to nodes they have. *)
Theorem C66_sklearn :
  forall p o s mu g rest eof load,
  enc p true [] o s mu -> gb_is g o ->
  0 <= gbNClasses g -> zlen (gbEstimators g) = gbNEstimators g * score_groups (gbNClasses g) ->
  sk_fits (pl_maxalloc p) g ->
  Forall (fun r => sk_tree_fits (pl_maxalloc p) (srTree r)) (gbEstimators g) ->
  came_back (SKEnsembleFromReader p (mkReader (s ++ "."%byte :: rest) eof) load).
Proof.
  intros p o s mu g rest eof load H Hg N L S F. apply calm_back; [|apply C29_sklearn_load_returns].
  destruct (C42_decode_stateless p o s mu rest eof H) as (v & h & D & Dn).
  pose proof (kf_trees _ _ S) as A1. pose proof (kf_alloc _ _ S) as A2. pose proof (kf_classes _ _ S) as A3. pose proof (zlen_nonneg _ (gbEstimators g)).
  assert (Hgr : 0 <= score_groups (gbNClasses g) <= gbNClasses g /\ gbNClasses g <= 2 * score_groups (gbNClasses g)) by (unfold score_groups; destruct (Z.eqb_spec (gbNClasses g) 2); lia).
  assert (PG : ParseGradientBoosting p h v = Ok g).
  { apply (read_gb p h g o v Hg Dn); auto; try lia; [apply (kf_outputs _ _ S)|]. rewrite L. destruct (Z.le_gt_cases 0 (gbNEstimators g)); nia. }
  unfold SKEnsembleFromReader. rewrite D. cbn [bind]. rewrite PG. cbn [bind]. apply sk_class_calm; auto.
  destruct Hg as [kv loss init classes ests os o' Hi B1 B2 B3 B4 In B5 Hc Fc B6 B7 B8 Ho Fr]. destruct In; [intros _; cbn; lia|]. intros K. vm_compute in K. discriminate.
Qed.
Print Assumptions C66_sklearn.

(** ** Matrix files *)
Lemma svm_tokens_calm : forall p tokens records, calm (svm_tokens p tokens records) /\ svm_tokens p tokens records <> Hang.
Proof.
  intros p. induction tokens as [|t ts IH]; intros rs; cbn [svm_tokens]; [split; [apply calm_ok|discriminate]|]. destruct (_ =? 0); [split; [apply calm_ok|discriminate]|].
  destruct (split t (bs ":")) as [|a [|b [|c l]]]; try (split; [apply calm_err|discriminate]). destruct (parse_uint32 a); [|split; [apply calm_err|discriminate]]. destruct (pl_parse_float p b); [apply IH|split; [apply calm_err|discriminate]].
Qed.
Lemma csv_tokens_calm : forall p d tokens col records, calm (csv_tokens p d tokens col records) /\ csv_tokens p d tokens col records <> Hang.
Proof.
  intros p d. induction tokens as [|t ts IH]; intros col rs; cbn [csv_tokens]; [split; [apply calm_ok|discriminate]|]. destruct (_ =? 0); cbn [bind]; [apply IH|]. destruct (pl_parse_float p t); cbn [bind]; [apply IH|split; [apply calm_err|discriminate]].
Qed.
Lemma dense_calm : forall m records, calm (recordsToDenseMat m records) /\ recordsToDenseMat m records <> Hang.
Proof.
  intros m records. unfold recordsToDenseMat.
  assert (V : forall rs i vs, calm (dense_values i vs rs) /\ dense_values i vs rs <> Hang).
  { induction rs as [|[c v] rs IH]; intros i vs; cbn [dense_values]; [split; [apply calm_ok|discriminate]|]. destruct (negb _); [split; [apply calm_err|discriminate]|apply IH]. }
  destruct (V records 0 (dmValues m)) as (V1 & V2). destruct (dense_values _ _ _); cbn [bind]; [|split; [apply calm_err|discriminate]|exfalso; eapply V1; reflexivity|contradiction].
  destruct (_ =? 0); [split; [apply calm_ok|discriminate]|]. destruct (negb _); (split; [first [apply calm_err|apply calm_ok]|discriminate]).
Qed.

Lemma rows_back : forall A limit parse (f : A -> list libsvmRecord -> outcome A),
  (forall line, calm (parse line) /\ parse line <> Hang) -> (forall a rs, calm (f a rs) /\ f a rs <> Hang) ->
  forall fuel rows a s eof, (List.length s < fuel)%nat -> came_back (read_rows fuel limit parse f rows a (mkReader s eof)).
Proof.
  intros A limit parse f Hp Hf. induction fuel as [|fuel IH]; intros rows a s eof L; [lia|]. cbn [read_rows]. unfold read_string. cbn [rd_bytes rd_eof].
  assert (Body : forall line s', (s' = [] -> (0 < fuel)%nat \/ trim_space line = []) -> (s' <> [] -> (List.length s' < fuel)%nat) ->
    came_back (if beqb (trim_space line) [] then Ok (a, mkReader s' eof) else
               let* records := parse (trim_space line) in let* a := f a records in
               if (0 <? limit) && (rows + 1 =? limit) then Ok (a, mkReader s' eof) else read_rows fuel limit parse f (rows + 1) a (mkReader s' eof))).
  { intros line s' N1 N2. destruct (beqb (trim_space line) []) eqn:Eb; [left; eauto|]. destruct (Hp (trim_space line)) as (P1 & P2).
    destruct (parse (trim_space line)) as [rs|e|e|]; cbn [bind]; [|right; eauto|exfalso; eapply P1; reflexivity|contradiction].
    destruct (Hf a rs) as (F1 & F2). destruct (f a rs) as [a'|e|e|]; cbn [bind]; [|right; eauto|exfalso; eapply F1; reflexivity|contradiction].
    destruct (_ && _); [left; eauto|]. apply IH. destruct s' as [|x s']; [destruct (N1 eq_refl) as [K|K]; [exact K|rewrite K in Eb; discriminate]|apply N2; discriminate]. }
  destruct (cut_line s) as [[l rest]|] eqn:Ec.
  - destruct (cut_line_inv _ _ _ Ec) as (l0 & _ & Sh & _). apply (f_equal (@List.length _)) in Sh. rewrite app_length in Sh. cbn [List.length] in Sh. apply Body; intros; lia.
  - destruct eof; [|right; eauto]. apply Body; [|congruence]. intros _. destruct s as [|x s]; [right; reflexivity|left; cbn [List.length] in L; lia].
Qed.

(** Any text whatsoever: a matrix or an error. *)
Theorem C66_matrix_files :
  forall p text eof limit skipFirstColumn,
  came_back (DenseMatFromLibsvm p (mkReader text eof) limit skipFirstColumn) /\
  came_back (CSRMatFromLibsvm p (mkReader text eof) limit skipFirstColumn) /\
  forall delimiter defValue, came_back (DenseMatFromCsv p (mkReader text eof) limit skipFirstColumn delimiter defValue).
Proof.
  intros p text eof limit skip.
  assert (Sv : forall line, calm (svm_line p skip line) /\ svm_line p skip line <> Hang).
  { intros line. unfold svm_line. cbv zeta. destruct (_ <? 2); [split; [apply calm_err|discriminate]|]. apply svm_tokens_calm. }
  split; [|split; [|intros delimiter d]]; apply rows_back; try (unfold read_fuel; cbn [rd_bytes]; lia); auto.
  - apply dense_calm.
  - intros a rs. unfold recordsToCSRMat. split; [apply calm_ok|discriminate].
  - intros line. apply csv_tokens_calm.
  - apply dense_calm.
Qed.
Print Assumptions C66_matrix_files.
