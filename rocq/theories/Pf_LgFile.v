(** * Lemmas about the LightGBM text loader above the tree level *)

From Coq Require Import ZArith List Bool String Lia ZifyBool.
From Verif Require Import Go GoFloat GoText UtilText UtilBits LgTree TreeBuild Transformation Ensembles Leaves LgTextIO
  Spec_Bits Spec_Split Spec_Tree Spec_LgText Spec_Params Spec_LgFile Pf_Go Pf_Build Pf_Placed Pf_LgTree Pf_Text Pf_Words Prop_Params.

(** ** Blocks *)
Lemma read_block : forall eof text kvs rest, block eof text kvs rest ->
  exists ps, ReadParamsUntilBlank (mkReader text eof) = Ok (ps, mkReader rest eof) /\ forall key, lookup ps key = last_value kvs key.
Proof.
  intros eof text kvs rest H. destruct H as [lines kvs b rest N Ho Hb Hs Hnb Hbb|lines kvs last -> N Ho Hl Hnb C].
  - apply C32_block; auto.
  - apply C32_end_of_input; auto.
Qed.

Lemma read_block_inv : forall eof text ps r, ReadParamsUntilBlank (mkReader text eof) = Ok (ps, r) ->
  exists kvs, block eof text kvs (rd_bytes r) /\ rd_eof r = eof /\ forall key, lookup ps key = last_value kvs key.
Proof.
  intros eof text ps r H. destruct (C32_exact (mkReader text eof)) as [[m E]|(lines & kvs & last & ps' & r' & E & L & N & Ho & Hl & Hnb & He & C)]; rewrite E in H; [discriminate|].
  injection H as -> ->. exists kvs. cbn [rd_bytes rd_eof] in *. split; [|auto]. destruct C as [(B & F & ->)|(-> & E2 & -> & C)].
  - apply block_blank; auto.
  - rewrite E2. apply block_end; auto.
Qed.

(** ** Values of parameters *)
Lemma dsize_leaves : forall d, dsize d + 1 = zlen (leaves_of d).
Proof. induction d; cbn [dsize leaves_of]; [reflexivity|]. rewrite zlen_app. lia. Qed.

Section Params.
Variables (ps : stringParams) (kvs : list (bytes * bytes)).
Hypothesis (L : forall key, lookup ps key = last_value kvs key).

Lemma says_ToInt : forall key z, says kvs key z <-> ToInt ps key = Ok z.
Proof.
  intros key z. unfold ToInt, says. rewrite L. destruct (last_value kvs key) as [v|].
  - destruct (atoi v) as [y|] eqn:E; split.
    + intros (v' & [= <-] & Hv). apply int64_iff in Hv. congruence.
    + intros [= ->]. apply int64_iff in E. eauto.
    + intros (v' & [= <-] & Hv). apply int64_iff in Hv. congruence.
    + discriminate.
  - split; [intros (v & H & _)|]; discriminate.
Qed.

Lemma convert_map : forall A (f : bytes -> option A) l toks, map f toks = map Some l ->
  mapM (fun tok => match f tok with Some v => Ok v | None => Err "can't convert" end) toks = Ok l.
Proof.
  intros A f l toks. revert l. induction toks as [|t toks IH]; intros l H; destruct l as [|x l]; try discriminate; [reflexivity|].
  cbn [map] in H. injection H as H1 H2. cbn [mapM]. rewrite H1. cbn [bind]. rewrite (IH l H2). reflexivity.
Qed.

Lemma lists_tokens : forall A key (reads : bytes -> A -> Prop) (f : bytes -> option A) l, (forall s x, reads s x <-> f s = Some x) ->
  (lists kvs key reads l <-> convert_tokens f ps key = Ok l).
Proof.
  intros A key reads f l R. unfold convert_tokens, lists. rewrite L. split.
  - intros (v & ts & -> & Hp & H). apply parts_split in Hp. subst ts. apply convert_map. apply (reads_map _ _ _ R). exact H.
  - destruct (last_value kvs key) as [v|]; [|discriminate]. intros H. exists v, (split v [sp]). split; [reflexivity|]. split; [apply parts_split; reflexivity|].
    apply (reads_map _ _ _ R). revert l H. induction (split v [sp]) as [|t ts IH]; intros l H; cbn [mapM] in H.
    + injection H as <-. reflexivity.
    + apply bind_ok in H. destruct H as (x & E1 & H). apply bind_ok in H. destruct H as (xs & E2 & H). injection H as <-. cbn [map].
      destruct (f t); [injection E1 as ->|discriminate]. rewrite (IH _ E2). reflexivity.
Qed.
Definition float_iff : forall (pf : bytes -> option f64) s x, pf s = Some x <-> pf s = Some x := fun pf s x => iff_refl _.
End Params.

Lemma lists_forall : forall A kvs key (reads : bytes -> A -> Prop) l (P : A -> Prop), lists kvs key reads l ->
  (forall t x, reads t x -> P x) -> Forall P l.
Proof.
  intros A kvs key reads l P (v & ts & _ & _ & H) HP. induction H; constructor; eauto.
Qed.

Lemma in_range_spec : forall lo hi o z, in_range lo hi o = Some z -> o = Some z /\ lo <= z <= hi.
Proof. intros lo hi [y|] z H; simpl in H; [|discriminate]. destruct ((lo <=? y) && (y <=? hi)) eqn:E; [|discriminate]. injection H as <-. split; auto. lia. Qed.
Lemma parse_int32_range : forall s z, int32_text s z -> - two31 <= z < two31.
Proof. intros s z (_ & H). exact H. Qed.
Lemma parse_uint32_range : forall s z, uint32_text s z -> 0 <= z < two32.
Proof. intros s z (H & B). apply natural_nonneg in H. change two32 with (2 ^ 32). lia. Qed.
Lemma atoi_range : forall s z, int64_text s z -> - two63 <= z < two63.
Proof. intros s z (_ & H). exact H. Qed.

(** ** One tree *)
Lemma block_ranged : forall pf kvs nl nc a, text_block pf kvs nl nc a -> 2 <= nl -> ranged a.
Proof.
  intros pf kvs nl nc a (_ & _ & _ & H) Hn. destruct (H Hn) as (H1 & H2 & H3 & H4 & H5 & H6).
  unfold ranged.
  split; [eapply lists_forall; [exact H1|]; apply parse_int32_range|].
  split; [eapply lists_forall; [exact H2|]; apply parse_int32_range|].
  split; [eapply lists_forall; [exact H3|]; apply parse_uint32_range|].
  destruct (0 <? nc).
  - destruct H6 as [H6 H7]. split; eapply lists_forall; eauto; apply parse_uint32_range.
  - destruct H6 as [-> ->]. split; constructor.
Qed.

(** the loaded tree behaves like [d] *)
Definition behaves (p : platform) (T : lgTree) (d : dtree) : Prop :=
  nLeaves T = zlen (leaves_of d) /\ forall x v id, walk d x = Some (v, id) -> predict p T x = Ok (v, id).

Lemma params_tree : forall p ps kvs nl d, (forall key, lookup ps key = last_value kvs key) ->
  tree_says (pl_parse_float p) (f2i32 p) kvs nl d -> nl - 1 <= pl_maxalloc p ->
  exists T, lgTreeFromParams p ps = Ok T /\ behaves p T d.
Proof.
  intros p ps kvs nl d L (nc & a & B & C) Hal. pose proof B as (B1 & B2 & B3 & B4).
  unfold lgTreeFromParams. rewrite (proj1 (says_ToInt ps kvs L _ _) B2). cbn [bind]. rewrite (proj1 (says_ToInt ps kvs L _ _) B1). cbn [bind].
  unfold ToFloat64Slice. rewrite (proj1 (lists_tokens ps kvs L _ _ _ _ _ (float_iff _)) B3). cbn [bind].
  destruct C as [(-> & v & rest & Ev & ->)|(Hnl & P)].
  - cbn [Z.ltb Z.compare Z.eqb Pos.eqb Pos.compare Pos.compare_cont]. eexists. split; [reflexivity|]. rewrite Ev. split; [reflexivity|].
    intros x v' id [= <- <-]. reflexivity.
  - replace (nl <? 1) with false by lia. replace (nl =? 1) with false by lia.
    destruct (B4 Hnl) as (H1 & H2 & H3 & H4 & H5 & H6).
    unfold ToInt32Slice, ToUint32Slice. rewrite (proj1 (lists_tokens ps kvs L _ _ _ _ _ int32_iff) H1), (proj1 (lists_tokens ps kvs L _ _ _ _ _ int32_iff) H2), (proj1 (lists_tokens ps kvs L _ _ _ _ _ uint32_iff) H3),
      (proj1 (lists_tokens ps kvs L _ _ _ _ _ uint32_iff) H4), (proj1 (lists_tokens ps kvs L _ _ _ _ _ (float_iff _)) H5). cbn [bind].
    pose proof (block_ranged _ _ _ _ _ B Hnl) as Ra.
    pose proof (lg_builds p a nl d (u32 nc) Ra Hnl P) as K. cbv zeta in K.
    destruct (0 <? nc).
    + destruct H6 as [H6 H7]. rewrite (proj1 (lists_tokens ps kvs L _ _ _ _ _ uint32_iff) H6), (proj1 (lists_tokens ps kvs L _ _ _ _ _ uint32_iff) H7). cbn [bind].
      replace (pl_maxalloc p <? nl - 1) with false by lia.
      destruct (K _ (or_intror eq_refl)) as (T & E1 & E2 & E3). exists T. split; [exact E1|]. split; [rewrite <- dsize_leaves; auto|auto].
    + destruct H6 as [H6 H7]. cbn [bind]. replace (pl_maxalloc p <? nl - 1) with false by lia. rewrite H7 in K.
      destruct (K _ (or_introl eq_refl)) as (T & E1 & E2 & E3). exists T. split; [|split; [rewrite <- dsize_leaves; auto|auto]].
      rewrite <- E1. unfold arrays_of. rewrite H6, H7. reflexivity.
Qed.

(** ** The list of trees *)
Lemma trees_read : forall p eof kvss text ds,
  blocks eof text kvss -> Forall2 (fun kvs d => exists nl, tree_says (pl_parse_float p) (f2i32 p) kvs nl d /\ nl - 1 <= pl_maxalloc p) kvss ds ->
  exists ts r, lg_read_trees p (List.length kvss) (mkReader text eof) = Ok (ts, r) /\ Forall2 (behaves p) ts ds.
Proof.
  intros p eof kvss. induction kvss as [|kvs kvss IH]; intros text ds Hb Hf; inversion Hf as [|? d ? ds' Hd Hf']; subst.
  - cbn [List.length lg_read_trees]. eauto.
  - inversion Hb as [|? ? rest ? Hb1 Hb2]; subst. cbn [List.length lg_read_trees]. destruct (read_block _ _ _ _ Hb1) as (ps & Er & L).
    unfold lgTreeFromReader. rewrite Er. cbn [bind]. destruct Hd as (nl & Hs & Ha).
    destruct (params_tree p ps kvs nl d L Hs Ha) as (T & ET & HT). rewrite ET. cbn [bind].
    destruct (IH rest ds' Hb2 Hf') as (ts & r & Ets & Hts). rewrite Ets. cbn [bind]. eauto.
Qed.

Lemma trees_read_length : forall p n r ts r', lg_read_trees p n r = Ok (ts, r') -> List.length ts = n.
Proof.
  intros p n. induction n as [|n IH]; intros r ts r' H; cbn [lg_read_trees] in H; [injection H as <- _; reflexivity|].
  apply bind_ok in H. destruct H as ([t r1] & H1 & H). apply bind_ok in H. destruct H as ([ts1 r2] & H2 & H). injection H as <- _.
  cbn [List.length]. erewrite IH; eauto.
Qed.

(** ** The header *)
Lemma compare_spec : forall ps kvs key v, (forall key, lookup ps key = last_value kvs key) ->
  (Compare ps key v = Ok tt /\ last_value kvs key = Some v) \/ (exists m, Compare ps key v = Err m) /\ last_value kvs key <> Some v.
Proof.
  intros ps kvs key v L. unfold Compare. rewrite L. destruct (last_value kvs key) as [w|].
  - destruct (beqb w v) eqn:E; [left|right].
    + apply beqb_eq in E. subst. auto.
    + split; [eauto|]. intros [= ->]. rewrite beqb_refl in E. discriminate.
  - right. split; [eauto|discriminate].
Qed.

Lemma split_pos : forall s c, 1 <= zlen (split s [c]).
Proof. intros s c. destruct (split_tokens c s) as (_ & _ & N). destruct (split s [c]); [contradiction|]. rewrite zlen_cons. pose proof (zlen_nonneg _ l). lia. Qed.

Definition model_name (average : bool) : bytes := if average then bs "lightgbm.rf" else bs "lightgbm.gbdt".

Lemma header_ok : forall ps kvs m n, (forall key, lookup ps key = last_value kvs key) ->
  (lg_header ps = Ok (m, n) <->
   exists groups maxf avg, header_says kvs groups maxf n avg /\ m = mkLgEnsemble [] maxf groups (model_name avg) avg).
Proof.
  intros ps kvs m n L. unfold lg_header. split.
  - intros H. apply bind_ok in H. destruct H as (u & H0 & H).
    assert (V : last_value kvs (bs "version") = Some (bs "v2") \/ last_value kvs (bs "version") = Some (bs "v3")).
    { destruct (compare_spec ps kvs (bs "version") (bs "v2") L) as [[E F]|[[? E] F]]; [auto|]. rewrite E in H0.
      destruct (compare_spec ps kvs (bs "version") (bs "v3") L) as [[E' F']|[[? E'] F']]; [auto|]. rewrite E' in H0. discriminate. }
    apply bind_ok in H. destruct H as (g & H1 & H). apply bind_ok in H. destruct H as (g' & H2 & H).
    destruct (negb (g =? g')) eqn:Eg; [discriminate|]. destruct (g <? 1) eqn:E1; [discriminate|]. destruct (g' <? 1) eqn:E1'; [discriminate|].
    apply bind_ok in H. destruct H as (mf & H3 & H). rewrite L in H. destruct (last_value kvs (bs "tree_sizes")) as [v|] eqn:Ev; [|discriminate].
    destruct (zlen (split v [sp]) =? 0) eqn:E0; [discriminate|]. destruct (negb (Z.rem (zlen (split v [sp])) g =? 0)) eqn:Er; [discriminate|].
    injection H as <- <-. assert (g' = g) by lia. subst g'. exists g, mf, (Contains ps (bs "average_output")). split; [|unfold model_name; reflexivity].
    pose proof (split_pos v sp). split; auto; try (apply (says_ToInt ps kvs L); auto); try lia.
    + exists v, (split v [sp]). split; [exact Ev|]. split; [apply parts_split|]; reflexivity.
    + exists (zlen (split v [sp]) / g). rewrite Z.rem_mod_nonneg in Er by lia. apply negb_false_iff, Z.eqb_eq in Er. pose proof (Z.div_mod (zlen (split v [sp])) g ltac:(lia)) as Dm. rewrite Er, Z.add_0_r in Dm. rewrite Z.mul_comm. exact Dm.
    + unfold Contains. rewrite L. destruct (last_value kvs (bs "average_output")); split; eauto; [discriminate|]. intros [? ?]. discriminate.
  - intros (g & mf & avg & [V H1 H2 G H3 (v & sizes & Ev & Ep & En) (k & Ek) A] & ->). apply parts_split in Ep. subst sizes.
    assert (HV : (match Compare ps (bs "version") (bs "v2") with Err _ => Compare ps (bs "version") (bs "v3") | r => r end) = Ok tt).
    { destruct (compare_spec ps kvs (bs "version") (bs "v2") L) as [[E F]|[[? E] F]]; rewrite E; auto.
      destruct (compare_spec ps kvs (bs "version") (bs "v3") L) as [[E' F']|[[? E'] F']]; auto. destruct V; contradiction. }
    rewrite HV. cbn [bind]. rewrite (proj1 (says_ToInt ps kvs L _ _) H1), (proj1 (says_ToInt ps kvs L _ _) H2). cbn [bind].
    rewrite Z.eqb_refl. cbn [negb]. replace (g <? 1) with false by lia. rewrite (proj1 (says_ToInt ps kvs L _ _) H3). cbn [bind].
    rewrite L, Ev. pose proof (split_pos v sp). rewrite <- En in *. replace (n =? 0) with false by lia.
    assert (Z.rem n g = 0) as -> by (rewrite Z.rem_mod_nonneg by lia; rewrite Ek; apply Z.mod_mul; lia). cbn [Z.eqb negb].
    assert (Contains ps (bs "average_output") = avg) as ->.
    { unfold Contains. rewrite L. destruct (last_value kvs (bs "average_output")); destruct avg; auto; [symmetry; apply A; eauto|]. destruct (proj1 A eq_refl); discriminate. }
    reflexivity.
Qed.

(** ** The objective *)
Lemma has_prefix_app : forall pre s, has_prefix (pre ++ s) pre = true.
Proof. induction pre as [|c pre IH]; intros s; [destruct s; reflexivity|]. cbn [app has_prefix]. rewrite byte_eqb_refl. apply IH. Qed.
Lemma has_prefix_inv : forall pre s, has_prefix s pre = true -> exists r, s = pre ++ r.
Proof.
  induction pre as [|c pre IH]; intros s H; [exists s; reflexivity|]. destruct s as [|d s]; [discriminate|]. cbn [has_prefix] in H.
  apply andb_true_iff in H. destruct H as [H1 H2]. apply byte_eqb_eq in H1. subst. destruct (IH s H2) as [r ->]. exists r. reflexivity.
Qed.

Definition number_char (c : byte) : Prop := (exists d, digit c = Some d) \/ c = "+"%byte \/ c = "-"%byte.
Lemma digits_chars : forall s acc z, digits s acc = Some z -> Forall (fun c => exists d, digit c = Some d) s.
Proof.
  induction s as [|c s IH]; intros acc z H; [constructor|]. cbn [digits] in H. destruct (digit c) as [d|] eqn:E; [|discriminate]. constructor; eauto.
Qed.
Lemma atoi_chars : forall s z, atoi s = Some z -> Forall number_char s.
Proof.
  intros s z H. apply in_range_spec in H. destruct H as [H _]. unfold parse_signed in H. destruct s as [|c s]; [discriminate|].
  assert (N : forall s z, parse_nat s = Some z -> Forall number_char s).
  { intros t y Ht. unfold parse_nat in Ht. destruct t as [|c' t]; [discriminate|]. apply digits_chars in Ht. eapply Forall_impl; [|exact Ht]. unfold number_char. auto. }
  destruct (Byte.eqb c "+") eqn:E1.
  - apply byte_eqb_eq in E1. constructor; [unfold number_char; auto|eauto].
  - destruct (Byte.eqb c "-") eqn:E2; [|eauto]. apply byte_eqb_eq in E2. destruct (parse_nat s) eqn:E; [|discriminate]. constructor; [unfold number_char; auto|eauto].
Qed.
Lemma number_no : forall s c, Forall number_char s -> digit c = None -> c <> "+"%byte -> c <> "-"%byte -> ~ In c s.
Proof.
  intros s c H Hd H1 H2 I. rewrite Forall_forall in H. destruct (H c I) as [[d E]|[E|E]]; congruence.
Qed.

Lemma split_two : forall c s a b, split s [c] = [a; b] -> s = a ++ c :: b /\ ~ In c a /\ ~ In c b.
Proof.
  intros c s a b H. destruct (split_tokens c s) as (F & J & _). rewrite H in *. cbn [join] in J. inversion F as [|? ? F1 F2]; subst. inversion F2; subst. auto.
Qed.

Lemma objective_parse : forall o name key v, lgObjectiveParse o = Ok (mkObjective name key v) <->
  exists value, o = name ++ sp :: key ++ ":"%byte :: value /\ atoi value = Some v /\
    ~ In sp name /\ ~ In sp key /\ ~ In ":"%byte key.
Proof.
  intros o name key v. unfold lgObjectiveParse. split.
  - intros H. destruct (split o [sp]) as [|n0 [|p0 [|? ?]]] eqn:E1; try discriminate. apply split_two in E1. destruct E1 as (-> & N1 & N2).
    destruct (split p0 [":"%byte]) as [|k0 [|v0 [|? ?]]] eqn:E2; try discriminate. apply split_two in E2. destruct E2 as (-> & N3 & N4).
    destruct (atoi v0) as [z|] eqn:E3; [|discriminate]. injection H as -> -> ->. exists v0. repeat split; auto. intros I. apply N2. apply in_or_app. auto.
  - intros (value & -> & E & N1 & N2 & N3). pose proof (atoi_chars _ _ E) as Hc.
    assert (N4 : ~ In sp value) by (apply number_no; auto; try reflexivity; discriminate).
    assert (N5 : ~ In ":"%byte value) by (apply number_no; auto; try reflexivity; discriminate).
    rewrite split_here by auto. rewrite split_none.
    2: { intros I. apply in_app_or in I. destruct I as [I|[I|I]]; auto. discriminate. }
    rewrite split_here by auto. rewrite split_none by auto. rewrite E. reflexivity.
Qed.

Lemma lg_transform_ok : forall ps kvs load avg groups t, (forall key, lookup ps key = last_value kvs key) ->
  (lg_transform ps load avg groups = Ok t <-> transform_says kvs load avg groups t).
Proof.
  intros ps kvs load avg groups t L. unfold lg_transform, transform_says. destruct (load && negb avg).
  2: { split; [intros [= ->]; auto|intros ->; auto]. }
  unfold ToString. rewrite L. destruct (last_value kvs (bs "objective")) as [o|]; cbn [bind].
  2: { split; [discriminate|intros (o & H & _); discriminate]. }
  assert (NI : forall (c : byte) s, existsb (Byte.eqb c) s = false -> ~ In c s).
  { intros c s H I. assert (existsb (Byte.eqb c) s = true) by (apply existsb_exists; exists c; split; auto; apply byte_eqb_refl). congruence. }
  split.
  - intros H. exists o. split; [reflexivity|].
    destruct (beqb o (bs "poisson") || beqb o (bs "gamma") || beqb o (bs "tweedie")) eqn:Ee.
    { injection H as <-. apply om_exponential. apply orb_prop in Ee. destruct Ee as [Ee|Ee]; [apply orb_prop in Ee; destruct Ee as [Ee|Ee]|]; apply beqb_eq in Ee; subst; cbn [In]; auto. }
    destruct (has_prefix o (bs "regression")) eqn:Er; cbn [negb] in H.
    { injection H as <-. apply has_prefix_inv in Er. destruct Er as [r ->]. apply om_regression. }
    apply bind_ok in H. destruct H as ([name key v] & Ho & H). apply objective_parse in Ho. destruct Ho as (value & -> & Ev & _).
    cbn [ob_name ob_param ob_value] in H. destruct (beqb name (bs "binary") && beqb key (bs "sigmoid")) eqn:Eb.
    + apply andb_true_iff in Eb. destruct Eb as [Eb1 Eb2]. apply beqb_eq in Eb1. apply beqb_eq in Eb2. subst. destruct (negb (v =? 1)) eqn:E1; [discriminate|]. injection H as <-.
      assert (v = 1) by lia. subst. apply (om_binary groups value). apply int64_iff. exact Ev.
    + destruct (beqb name (bs "multiclass") && beqb key (bs "num_class")) eqn:Em; [|discriminate].
      apply andb_true_iff in Em. destruct Em as [Eb1 Eb2]. apply beqb_eq in Eb1. apply beqb_eq in Eb2. subst. destruct (negb (v =? groups)) eqn:E1; [discriminate|]. injection H as <-.
      assert (v = groups) by lia. subst. apply (om_multiclass groups value). apply int64_iff. exact Ev.
  - intros (o' & [= <-] & H). destruct H as [o H|s|v Hv|v Hv].
    + cbn [In] in H. destruct H as [<-|[<-|[<-|[]]]]; reflexivity.
    + assert (E : beqb (bs "regression" ++ s) (bs "poisson") || beqb (bs "regression" ++ s) (bs "gamma") || beqb (bs "regression" ++ s) (bs "tweedie") = false) by reflexivity.
      rewrite E, has_prefix_app. reflexivity.
    + assert (E : beqb (bs "binary sigmoid:" ++ v) (bs "poisson") || beqb (bs "binary sigmoid:" ++ v) (bs "gamma") || beqb (bs "binary sigmoid:" ++ v) (bs "tweedie") = false) by reflexivity.
      rewrite E. assert (Er : has_prefix (bs "binary sigmoid:" ++ v) (bs "regression") = false) by reflexivity. rewrite Er. cbn [negb].
      assert (Eo : lgObjectiveParse (bs "binary sigmoid:" ++ v) = Ok (mkObjective (bs "binary") (bs "sigmoid") 1)).
      { apply objective_parse. exists v. split; [reflexivity|]. split; [apply int64_iff; exact Hv|]. repeat split; apply NI; reflexivity. }
      rewrite Eo. reflexivity.
    + assert (E : beqb (bs "multiclass num_class:" ++ v) (bs "poisson") || beqb (bs "multiclass num_class:" ++ v) (bs "gamma") || beqb (bs "multiclass num_class:" ++ v) (bs "tweedie") = false) by reflexivity.
      rewrite E. assert (Er : has_prefix (bs "multiclass num_class:" ++ v) (bs "regression") = false) by reflexivity. rewrite Er. cbn [negb].
      assert (Eo : lgObjectiveParse (bs "multiclass num_class:" ++ v) = Ok (mkObjective (bs "multiclass") (bs "num_class") groups)).
      { apply objective_parse. exists v. split; [reflexivity|]. split; [apply int64_iff; exact Hv|]. repeat split; apply NI; reflexivity. }
      rewrite Eo. cbn [bind ob_name ob_param ob_value]. cbn [beqb]. rewrite Z.eqb_refl. reflexivity.
Qed.

(** ** Nothing hangs *)
Lemma convert_not_hang : forall A (f : bytes -> option A) ps key, convert_tokens f ps key <> Hang.
Proof.
  intros A f ps key. unfold convert_tokens. destruct (lookup ps key) as [s|]; [|discriminate]. generalize (split s [sp]).
  induction l as [|t l IH]; cbn [mapM]; [discriminate|]. destruct (f t); cbn [bind]; [|discriminate]. apply bind_not_hang; auto. discriminate.
Qed.
Lemma ToInt_not_hang : forall ps key, ToInt ps key <> Hang.
Proof. intros ps key. unfold ToInt. destruct (lookup ps key) as [s|]; [destruct (atoi s)|]; discriminate. Qed.
Lemma slice_not_hang : forall A (l : list A) lo hi, slice l lo hi <> Hang.
Proof. intros A l lo hi. unfold slice. destruct (_ || _); discriminate. Qed.
Lemma mark_not_hang : forall a i n, mark_leaves a i n <> Hang.
Proof. intros a i n. unfold mark_leaves. apply bind_not_hang; [apply at_not_hang|]. intros l _. apply bind_not_hang; [apply at_not_hang|]. discriminate. Qed.
Lemma convertMissing_not_hang : forall d, convertMissingType d <> Hang.
Proof. intros d. unfold convertMissingType. cbv zeta. repeat destruct (_ =? _); discriminate. Qed.

Lemma first_not_hang : forall l pos, FirstNonZeroBit_loop l pos <> Hang.
Proof.
  induction l as [|w l IH]; intros pos; cbn [FirstNonZeroBit_loop]; [discriminate|]. destruct (0 <? w); [|apply IH].
  apply bind_not_hang; [apply at_not_hang|]. discriminate.
Qed.

Lemma lg_source_returns : forall p a, source_returns (lg_source p a).
Proof.
  intros p a. split; [|split; intros i; apply at_not_hang]. intros t i. cbn [lg_source src_create]. unfold lg_createNode.
  apply bind_not_hang; [apply at_not_hang|]. intros d _. destruct (has d 1).
  - unfold lg_createCategoricalNode. apply bind_not_hang; [apply at_not_hang|]. intros d' _. apply bind_not_hang; [apply convertMissing_not_hang|]. intros mt _.
    apply bind_not_hang; [apply at_not_hang|]. intros thr _. cbv zeta. apply bind_not_hang; [apply at_not_hang|]. intros hi _.
    apply bind_not_hang; [apply at_not_hang|]. intros lo _. apply bind_not_hang; [apply slice_not_hang|]. intros sl _. apply bind_not_hang.
    + destruct (_ =? 0); [discriminate|]. destruct (_ =? 1).
      * destruct (FirstNonZeroBit sl) eqn:E; try discriminate. exfalso. unfold FirstNonZeroBit in E.
        exact (first_not_hang _ _ E).
      * destruct (_ =? 1); [|discriminate]. apply bind_not_hang; [apply at_not_hang|]. discriminate.
    + intros [[c ct] t'] _. apply bind_not_hang; [apply at_not_hang|]. intros f _. apply bind_not_hang; [apply mark_not_hang|]. discriminate.
  - apply bind_not_hang; [|discriminate]. unfold lg_createNumericalNode. apply bind_not_hang; [apply at_not_hang|]. intros d' _.
    apply bind_not_hang; [apply convertMissing_not_hang|]. intros mt _. cbv zeta. apply bind_not_hang; [apply at_not_hang|]. intros f _.
    apply bind_not_hang; [apply at_not_hang|]. intros thr _. apply mark_not_hang.
Qed.
