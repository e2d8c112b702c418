(** * The XGBoost binary readers: round trip and truncation *)

From Coq Require Import ZArith List Bool String Lia ZifyBool.
From Verif Require Import Go GoFloat GoText XgBin Spec_XgBin Pf_Go.
Local Open Scope Z_scope.

(** ** Little endian numbers *)
Lemma byteZ_range : forall b, 0 <= byteZ b < 256.
Proof. intros b. unfold byteZ. pose proof (Byte.to_N_bounded b). lia. Qed.

Lemma byteZ_of_Z : forall z, byteZ (byte_of_Z z) = z mod 256.
Proof.
  intros z. unfold byteZ, byte_of_Z. pose proof (Z.mod_pos_bound z 256 ltac:(lia)) as R.
  destruct (Byte.of_N (Z.to_N (z mod 256))) as [b|] eqn:E.
  - apply Byte.to_of_N in E. rewrite E. lia.
  - apply Byte.of_N_None_iff in E. lia.
Qed.

Lemma byte_of_byteZ : forall b, byte_of_Z (byteZ b) = b.
Proof.
  intros b. unfold byte_of_Z. pose proof (byteZ_range b). rewrite Z.mod_small by lia. unfold byteZ.
  rewrite N2Z.id. rewrite Byte.of_to_N. reflexivity.
Qed.

Lemma le_length : forall n z, List.length (le n z) = n.
Proof. induction n; intros z; cbn [le List.length]; auto. Qed.

Lemma le_zlen : forall n z, zlen (le n z) = Z.of_nat n.
Proof. intros. unfold zlen. rewrite le_length. auto. Qed.

Lemma le_uint_le : forall n z, le_uint (le n z) = z mod 256 ^ Z.of_nat n.
Proof.
  induction n as [|n IH]; intros z.
  - cbn [le le_uint fold_right]. change (256 ^ Z.of_nat 0) with 1. rewrite Z.mod_1_r. auto.
  - cbn [le le_uint fold_right]. change (fold_right (fun c acc => byteZ c + 256 * acc) 0 (le n (z / 256))) with (le_uint (le n (z / 256))).
    rewrite IH, byteZ_of_Z. rewrite Nat2Z.inj_succ, Z.pow_succ_r by lia.
    rewrite Z.rem_mul_r; try lia.
Qed.

Lemma firstn_app_exact : forall A (a b : list A) n, List.length a = n -> firstn n (a ++ b) = a.
Proof. intros A a b n <-. rewrite firstn_app, firstn_all, Nat.sub_diag. cbn [firstn]. apply app_nil_r. Qed.
Lemma skipn_app_exact : forall A (a b : list A) n, List.length a = n -> skipn n (a ++ b) = b.
Proof. intros A a b n <-. rewrite skipn_app, skipn_all, Nat.sub_diag. reflexivity. Qed.

Lemma s32_mod : forall z, int32 z -> s32 (z mod 2 ^ 32) = z.
Proof.
  intros z H. unfold int32 in H. change (2 ^ 31) with 2147483648 in H. unfold s32. change two32 with (2 ^ 32). rewrite Z.mod_mod by lia. cbv zeta.
  change (2 ^ 32) with 4294967296. unfold two31.
  destruct (Z.leb_spec 0 z).
  - rewrite Z.mod_small by lia. destruct (Z.ltb_spec z 2147483648); lia.
  - assert (E : z mod 4294967296 = z + 4294967296) by (symmetry; apply Z.mod_unique with (-1); lia).
    rewrite E. destruct (Z.ltb_spec (z + 4294967296) 2147483648); lia.
Qed.
Lemma s64_mod : forall z, int64 z -> s64 (z mod 2 ^ 64) = z.
Proof.
  intros z H. unfold int64 in H. change (2 ^ 63) with 9223372036854775808 in H. unfold s64. change two64 with (2 ^ 64). rewrite Z.mod_mod by lia. cbv zeta.
  change (2 ^ 64) with 18446744073709551616. unfold two63.
  destruct (Z.leb_spec 0 z).
  - rewrite Z.mod_small by lia. destruct (Z.ltb_spec z 9223372036854775808); lia.
  - assert (E : z mod 18446744073709551616 = z + 18446744073709551616) by (symmetry; apply Z.mod_unique with (-1); lia).
    rewrite E. destruct (Z.ltb_spec (z + 18446744073709551616) 9223372036854775808); lia.
Qed.

Lemma le_uint_e4 : forall z, le_uint (e4 z) = z mod 2 ^ 32.
Proof. intros. unfold e4. rewrite le_uint_le. reflexivity. Qed.
Lemma le_uint_e8 : forall z, le_uint (e8 z) = z mod 2 ^ 64.
Proof. intros. unfold e8. rewrite le_uint_le. reflexivity. Qed.

Lemma dec_u32_e4 : forall z r, uint32 z -> dec_u32 (e4 z ++ r) = (z, r).
Proof.
  intros z r H. unfold dec_u32. rewrite firstn_app_exact, skipn_app_exact by apply le_length. rewrite le_uint_e4, Z.mod_small; auto.
Qed.
Lemma dec_i32_e4 : forall z r, int32 z -> dec_i32 (e4 z ++ r) = (z, r).
Proof.
  intros z r H. unfold dec_i32. rewrite firstn_app_exact, skipn_app_exact by apply le_length. rewrite le_uint_e4, s32_mod; auto.
Qed.
Lemma dec_i64_e8 : forall z r, int64 z -> dec_i64 (e8 z ++ r) = (z, r).
Proof.
  intros z r H. unfold dec_i64. rewrite firstn_app_exact, skipn_app_exact by apply le_length. rewrite le_uint_e8, s64_mod; auto.
Qed.
Lemma dec_list_i32 : forall l n, Forall int32 l -> List.length l = n -> forall r, dec_list dec_i32 n (e4s l ++ r) = (l, r).
Proof.
  intros l n H <-. induction H as [|z l Hz H IH]; intros r; [reflexivity|]. cbn [List.length dec_list].
  unfold e4s. cbn [flat_map]. rewrite <- app_assoc, dec_i32_e4 by auto. fold (e4s l). rewrite IH. reflexivity.
Qed.
Lemma dec_list_u32 : forall l n, Forall uint32 l -> List.length l = n -> forall r, dec_list dec_u32 n (e4s l ++ r) = (l, r).
Proof.
  intros l n H <-. induction H as [|z l Hz H IH]; intros r; [reflexivity|]. cbn [List.length dec_list].
  unfold e4s. cbn [flat_map]. rewrite <- app_assoc, dec_u32_e4 by auto. fold (e4s l). rewrite IH. reflexivity.
Qed.
Lemma dec_list_end : forall dec l n, (forall r, dec_list dec n (e4s l ++ r) = (l, r)) -> dec_list dec n (e4s l) = (l, []).
Proof. intros dec l n H. specialize (H []). rewrite app_nil_r in H. auto. Qed.

Lemma e4s_length : forall l, List.length (e4s l) = (4 * List.length l)%nat.
Proof. induction l as [|z l IH]; [reflexivity|]. unfold e4s in *. cbn [flat_map List.length]. rewrite app_length, IH. unfold e4. rewrite le_length. lia. Qed.
Lemma e4s_zlen : forall l, zlen (e4s l) = 4 * zlen l.
Proof. intros. unfold zlen. rewrite e4s_length. lia. Qed.

Lemma read_full_app : forall a rest eof n, zlen a = n -> read_full n (mkReader (a ++ rest) eof) = Ok (a, mkReader rest eof).
Proof.
  intros a rest eof n <-. unfold read_full. cbn [rd_bytes rd_eof]. pose proof (zlen_nonneg _ rest).
  destruct (Z.ltb_spec (zlen (a ++ rest)) (zlen a)); [rewrite zlen_app in *; lia|].
  unfold zlen at 1 2. rewrite !Nat2Z.id. rewrite firstn_app_exact, skipn_app_exact by auto. reflexivity.
Qed.

(** ** Round trips *)
Definition rt {A : Type} (rd : reader -> outcome (A * reader)) (enc : bytes) (x : A) : Prop :=
  forall rest eof, rd (mkReader (enc ++ rest) eof) = Ok (x, mkReader rest eof).

Ltac fields := repeat first [rewrite dec_u32_e4 by auto | rewrite dec_i32_e4 by auto | rewrite dec_i64_e8 by auto].
Ltac lens := repeat (rewrite zlen_app || rewrite e4s_zlen); unfold e4, e8; rewrite ?le_zlen; unfold zlen in *; lia.

Lemma rt_learner : forall m, learner_ok m -> rt ReadStruct_Learner (e_learner m) m.
Proof.
  intros [bs_ nf nc ex me rs] (H1 & H2 & H3 & H4 & H5 & H6 & H7) rest eof. unfold e_learner, ReadStruct_Learner in *. cbn [lmBaseScore lmNumFeatures lmNumClass lmContainExtraAttrs lmContainEvalMetrics lmReserved] in *.
  rewrite read_full_app by lens. cbn [bind]. fields. rewrite (dec_list_end _ _ _ (dec_list_i32 rs 29 H6 H7)). reflexivity.
Qed.
Lemma rt_tree_param : forall m, tree_param_ok m -> rt ReadStruct_TreeParam (e_tree_param m) m.
Proof.
  intros [a b c d e f rs] (H1 & H2 & H3 & H4 & H5 & H6 & H7 & H8) rest eof. unfold e_tree_param, ReadStruct_TreeParam in *.
  cbn [tpNumRoots tpNumNodes tpNumDeleted tpMaxDepth tpNumFeature tpSizeLeafVector tpReserved] in *.
  rewrite read_full_app by lens. cbn [bind]. fields. rewrite (dec_list_end _ _ _ (dec_list_i32 rs 31 H7 H8)). reflexivity.
Qed.
Lemma rt_gbtree_param : forall m, gbtree_param_ok m -> rt ReadStruct_GBTreeParam (e_gbtree_param m) m.
Proof.
  intros [a b c d e f g rs] (H1 & H2 & H3 & H4 & H5 & H6 & H7 & H8 & H9) rest eof. unfold e_gbtree_param, ReadStruct_GBTreeParam in *.
  cbn [gpNumTrees gpNumRoots gpNumFeature gpPad32bit gpNumPbufferDeprecated gpNumOutputGroup gpSizeLeafVector gpReserved] in *.
  rewrite read_full_app by lens. cbn [bind]. fields. rewrite (dec_list_end _ _ _ (dec_list_i32 rs 32 H8 H9)). reflexivity.
Qed.
Lemma rt_gblinear_param : forall m, uint32 (glNumFeature m) -> int32 (glNumOutputGroup m) -> Forall int32 (glReserved m) ->
  List.length (glReserved m) = 32%nat -> rt ReadStruct_GBLinearParam (e_gblinear_param m) m.
Proof.
  intros [a b rs] H1 H2 H3 H4 rest eof. unfold e_gblinear_param, ReadStruct_GBLinearParam in *. cbn [glNumFeature glNumOutputGroup glReserved] in *.
  rewrite read_full_app by lens. cbn [bind]. fields. rewrite (dec_list_end _ _ _ (dec_list_i32 rs 32 H3 H4)). reflexivity.
Qed.
Lemma rt_node : forall n, node_ok n -> rt ReadStruct_Node (e_node n) n.
Proof.
  intros [a b c d e] (H1 & H2 & H3 & H4 & H5) rest eof. unfold e_node, ReadStruct_Node in *. cbn [xParent xCLeft xCRight xSIndex xInfo] in *.
  rewrite read_full_app by lens. cbn [bind]. fields. rewrite <- (app_nil_r (e4 e)). fields. reflexivity.
Qed.
Lemma rt_stat : forall n, stat_ok n -> rt ReadStruct_Stat (e_stat n) n.
Proof.
  intros [a b c d] (H1 & H2 & H3 & H4) rest eof. unfold e_stat, ReadStruct_Stat in *. cbn [xsLossChg xsSumHess xsBaseWeight xsLeafChildCnt] in *.
  rewrite read_full_app by lens. cbn [bind]. fields. rewrite <- (app_nil_r (e4 d)). fields. reflexivity.
Qed.

Lemma rt_u64 : forall z, 0 <= z < 2 ^ 64 -> rt read_u64 (e8 z) z.
Proof.
  intros z H rest eof. unfold read_u64. rewrite read_full_app by (unfold e8; apply le_zlen). cbn [bind]. unfold dec_u64.
  rewrite <- (app_nil_r (e8 z)), firstn_app_exact by apply le_length. cbn [fst]. rewrite le_uint_e8, Z.mod_small by auto. reflexivity.
Qed.
Lemma make_check_ok : forall p n, 0 <= n -> n <= pl_maxalloc p -> make_check p n = Ok tt.
Proof. intros p n H1 H2. unfold make_check. replace ((n <? 0) || (pl_maxalloc p <? n)) with false by lia. auto. Qed.

Lemma rt_string : forall p s, vector_ok (pl_maxalloc p) (zlen s) -> rt (ReadString p) (e_string s) s.
Proof.
  intros p s (H1 & H2) rest eof. pose proof (zlen_nonneg _ s). unfold ReadString, e_string. rewrite <- app_assoc, rt_u64 by lia. cbn [bind].
  destruct (Z.eqb_spec (zlen s) 0) as [E|E].
  - destruct s; [reflexivity|]. rewrite zlen_cons in E. pose proof (zlen_nonneg _ s). lia.
  - rewrite make_check_ok by lia. cbn [bind]. apply read_full_app. auto.
Qed.
Lemma rt_floats : forall p l, Forall uint32 l -> vector_ok (pl_maxalloc p) (zlen l) -> rt (ReadFloat32Slice p) (e_vector l) l.
Proof.
  intros p l F (H1 & H2) rest eof. pose proof (zlen_nonneg _ l). unfold ReadFloat32Slice, e_vector. rewrite <- app_assoc, rt_u64 by lia. cbn [bind].
  destruct (Z.eqb_spec (zlen l) 0) as [E|E].
  - destruct l; [reflexivity|]. rewrite zlen_cons in E. pose proof (zlen_nonneg _ l). lia.
  - rewrite make_check_ok by lia. cbn [bind]. rewrite read_full_app by apply e4s_zlen. cbn [bind]. unfold zlen. rewrite Nat2Z.id.
    rewrite (dec_list_end _ _ _ (dec_list_u32 l _ F eq_refl)). reflexivity.
Qed.
Lemma rt_ints : forall p l, Forall int32 l -> vector_ok (pl_maxalloc p) (zlen l) -> rt (ReadInt32Slice p) (e_vector l) l.
Proof.
  intros p l F (H1 & H2) rest eof. pose proof (zlen_nonneg _ l). unfold ReadInt32Slice, e_vector. rewrite <- app_assoc, rt_u64 by lia. cbn [bind].
  destruct (Z.eqb_spec (zlen l) 0) as [E|E].
  - destruct l; [reflexivity|]. rewrite zlen_cons in E. pose proof (zlen_nonneg _ l). lia.
  - rewrite make_check_ok by lia. cbn [bind]. rewrite read_full_app by apply e4s_zlen. cbn [bind]. unfold zlen. rewrite Nat2Z.id.
    rewrite (dec_list_end _ _ _ (dec_list_i32 l _ F eq_refl)). reflexivity.
Qed.

Lemma rt_header : forall p h, header_ok_x (pl_maxalloc p) h -> rt (ReadModelHeader p) (e_header h) h.
Proof.
  intros p [m o g] (H1 & H2 & H3) rest eof. unfold ReadModelHeader, e_header. cbn [mhParam mhNameObj mhNameGbm] in *.
  rewrite <- !app_assoc, rt_learner by auto. cbn [bind]. rewrite rt_string by auto. cbn [bind]. rewrite rt_string by auto. reflexivity.
Qed.

Lemma rt_n : forall A (rd : reader -> outcome (A * reader)) (enc : A -> bytes) l, (forall x, In x l -> rt rd (enc x) x) ->
  rt (read_n rd (List.length l)) (flat_map enc l) l.
Proof.
  intros A rd enc l. induction l as [|x l IH]; intros H rest eof; [reflexivity|]. cbn [List.length read_n flat_map].
  rewrite <- app_assoc, H by (cbn; auto). cbn [bind]. rewrite IH by (cbn in H; auto). reflexivity.
Qed.

Lemma rt_tree : forall p t v, tree_ok_x (pl_maxalloc p) t v -> rt (ReadTreeModel p) (e_tree t v) t.
Proof.
  intros p [ns ss q] v (H1 & H2 & H3 & H4 & H5 & H6 & H7 & H8) rest eof. unfold ReadTreeModel, e_tree. cbn [tmParam tmNodes tmStats] in *.
  rewrite <- !app_assoc, rt_tree_param by auto. cbn [bind]. rewrite make_check_ok by (pose proof (zlen_nonneg _ ns); lia). cbn [bind].
  assert (E1 : Z.to_nat (tpNumNodes q) = List.length ns) by (unfold zlen in H4; lia).
  assert (E2 : Z.to_nat (tpNumNodes q) = List.length ss) by (unfold zlen in H5; lia).
  rewrite E1 at 1. rewrite (rt_n _ ReadStruct_Node e_node ns) by (intros x Hx; apply rt_node; rewrite Forall_forall in H2; auto). cbn [bind].
  rewrite E2. rewrite (rt_n _ ReadStruct_Stat e_stat ss) by (intros x Hx; apply rt_stat; rewrite Forall_forall in H3; auto). cbn [bind].
  destruct (0 <? tpSizeLeafVector q); [|reflexivity]. rewrite rt_floats by auto. reflexivity.
Qed.

Lemma rt_trees : forall p ts vs, Forall2 (tree_ok_x (pl_maxalloc p)) ts vs ->
  rt (read_n (ReadTreeModel p) (List.length ts)) (flat_map (fun tv => e_tree (fst tv) (snd tv)) (combine ts vs)) ts.
Proof.
  intros p ts vs H. induction H as [|t v ts vs H0 H IH]; intros rest eof; [reflexivity|]. cbn [List.length read_n combine flat_map fst snd].
  rewrite <- app_assoc, rt_tree by auto. cbn [bind]. rewrite IH. reflexivity.
Qed.

Lemma rt_gbtree : forall p m vs, gbtree_ok (pl_maxalloc p) m vs -> rt (ReadGBTreeModel p) (e_gbtree m vs) m.
Proof.
  intros p [q ts info] vs (H1 & H2 & H3 & H4 & H5 & H6) rest eof. unfold ReadGBTreeModel, e_gbtree. cbn [gmParam gmTrees gmTreeInfo] in *.
  rewrite <- !app_assoc, rt_gbtree_param by auto. cbn [bind].
  assert (E1 : Z.to_nat (gpNumTrees q) = List.length ts) by (unfold zlen in H3; lia).
  rewrite E1 at 1. rewrite rt_trees by auto. cbn [bind]. pose proof (zlen_nonneg _ info).
  destruct (Z.ltb_spec 0 (gpNumTrees q)).
  - rewrite make_check_ok by lia. cbn [bind]. rewrite read_full_app by (rewrite e4s_zlen; lia). cbn [bind].
    assert (E2 : Z.to_nat (gpNumTrees q) = List.length info) by (unfold zlen in H4; lia). rewrite E2.
    rewrite (dec_list_end _ _ _ (dec_list_i32 info _ H5 eq_refl)). reflexivity.
  - destruct info; [reflexivity|]. rewrite zlen_cons in *. pose proof (zlen_nonneg _ info). lia.
Qed.

Lemma rt_gblinear : forall p m, gblinear_ok (pl_maxalloc p) m -> rt (ReadGBLinearModel p) (e_gblinear m) m.
Proof.
  intros p [q w] (H1 & H2 & H3 & H4 & H5 & H6) rest eof. unfold ReadGBLinearModel, e_gblinear. cbn [blParam blWeights] in *.
  rewrite <- app_assoc, rt_gblinear_param by auto. cbn [bind]. rewrite rt_floats by auto. reflexivity.
Qed.

(** ** Reading does not look past what it consumes *)
Definition extends {A : Type} (rd : reader -> outcome (A * reader)) : Prop :=
  forall s eof more eof',
  match rd (mkReader s eof) with
  | Ok (a, r) => rd (mkReader (s ++ more) eof') = Ok (a, mkReader (rd_bytes r ++ more) eof')
  | Err _ => True
  | Panic m => rd (mkReader (s ++ more) eof') = Panic m
  | Hang => False
  end.

Lemma ext_ret : forall A (a : A), extends (fun r => Ok (a, r)).
Proof. intros A a s eof more eof'. cbn. auto. Qed.
Lemma ext_err : forall A m, extends (fun _ => @Err (A * reader) m).
Proof. intros A m s eof more eof'. cbn. auto. Qed.
Lemma ext_bind : forall A B (rd : reader -> outcome (A * reader)) (f : A -> reader -> outcome (B * reader)),
  extends rd -> (forall a, extends (f a)) -> extends (fun r => let* (a, r) := rd r in f a r).
Proof.
  intros A B rd f H1 H2 s eof more eof'. specialize (H1 s eof more eof'). destruct (rd (mkReader s eof)) as [[a [b e]]|m|m|]; cbn [bind]; auto.
  - rewrite H1. cbn [bind rd_bytes]. apply H2.
  - rewrite H1. reflexivity.
Qed.
Lemma ext_pure : forall A B (x : outcome A) (f : A -> reader -> outcome (B * reader)),
  x <> Hang -> (forall a, extends (f a)) -> extends (fun r => let* a := x in f a r).
Proof. intros A B [a|m|m|] f Hx H s eof more eof'; cbn [bind]; auto. apply H. Qed.
Lemma ext_if : forall A (c : bool) (f g : reader -> outcome (A * reader)), extends f -> extends g -> extends (fun r => if c then f r else g r).
Proof. intros A [|] f g Hf Hg; auto. Qed.

Lemma ext_full : forall n, extends (read_full n).
Proof.
  intros n s eof more eof'. unfold read_full. cbn [rd_bytes rd_eof]. destruct (Z.ltb_spec (zlen s) n) as [L|L]; [auto|].
  pose proof (zlen_nonneg _ more). destruct (Z.ltb_spec (zlen (s ++ more)) n); [rewrite zlen_app in *; lia|].
  assert (K : (Z.to_nat n <= List.length s)%nat) by (unfold zlen in *; lia). cbn [rd_bytes].
  rewrite firstn_app, skipn_app. replace (Z.to_nat n - List.length s)%nat with O by lia. cbn [firstn skipn]. rewrite app_nil_r. reflexivity.
Qed.

Lemma make_check_not_hang : forall p n, make_check p n <> Hang.
Proof. intros. unfold make_check. destruct (_ || _); discriminate. Qed.

Ltac ext_struct := apply (ext_bind _ _ (read_full _)); [apply ext_full|]; intro b; cbv zeta;
  repeat match goal with |- extends (fun r => let (_, _) := ?d in _) => destruct d end; apply ext_ret.

Lemma ext_learner : extends ReadStruct_Learner. Proof. ext_struct. Qed.
Lemma ext_gbtree_param : extends ReadStruct_GBTreeParam. Proof. ext_struct. Qed.
Lemma ext_tree_param : extends ReadStruct_TreeParam. Proof. ext_struct. Qed.
Lemma ext_gblinear_param : extends ReadStruct_GBLinearParam. Proof. ext_struct. Qed.
Lemma ext_node : extends ReadStruct_Node. Proof. ext_struct. Qed.
Lemma ext_stat : extends ReadStruct_Stat. Proof. ext_struct. Qed.
Lemma ext_u64 : extends read_u64. Proof. ext_struct. Qed.

Lemma ext_string : forall p, extends (ReadString p).
Proof.
  intros p. apply (ext_bind _ _ read_u64); [apply ext_u64|]. intros n. apply ext_if; [apply ext_ret|].
  apply ext_pure; [apply make_check_not_hang|]. intros _. apply ext_full.
Qed.
Lemma ext_floats : forall p, extends (ReadFloat32Slice p).
Proof.
  intros p. apply (ext_bind _ _ read_u64); [apply ext_u64|]. intros n. apply ext_if; [apply ext_ret|].
  apply ext_pure; [apply make_check_not_hang|]. intros _. apply (ext_bind _ _ (read_full _)); [apply ext_full|]. intros b. apply ext_ret.
Qed.
Lemma ext_header : forall p, extends (ReadModelHeader p).
Proof.
  intros p. apply (ext_bind _ _ ReadStruct_Learner); [apply ext_learner|]. intros m. apply (ext_bind _ _ (ReadString p)); [apply ext_string|]. intros o.
  apply (ext_bind _ _ (ReadString p)); [apply ext_string|]. intros g. apply ext_ret.
Qed.
Lemma ext_n : forall A (rd : reader -> outcome (A * reader)) n, extends rd -> extends (read_n rd n).
Proof.
  intros A rd n H. induction n as [|n IH]; cbn [read_n]; [apply ext_ret|]. apply (ext_bind _ _ rd); [auto|]. intros x.
  apply (ext_bind _ _ (read_n rd n)); [auto|]. intros xs. apply ext_ret.
Qed.
Lemma ext_tree : forall p, extends (ReadTreeModel p).
Proof.
  intros p. apply (ext_bind _ _ ReadStruct_TreeParam); [apply ext_tree_param|]. intros q. apply ext_pure; [apply make_check_not_hang|]. intros _.
  apply (ext_bind _ _ (read_n ReadStruct_Node _)); [apply ext_n, ext_node|]. intros ns. apply (ext_bind _ _ (read_n ReadStruct_Stat _)); [apply ext_n, ext_stat|]. intros ss.
  apply ext_if; [|apply ext_ret]. apply (ext_bind _ _ (ReadFloat32Slice p)); [apply ext_floats|]. intros _. apply ext_ret.
Qed.
Lemma ext_gbtree : forall p, extends (ReadGBTreeModel p).
Proof.
  intros p. apply (ext_bind _ _ ReadStruct_GBTreeParam); [apply ext_gbtree_param|]. intros q. apply (ext_bind _ _ (read_n (ReadTreeModel p) _)); [apply ext_n, ext_tree|]. intros ts.
  apply ext_if; [|apply ext_ret]. apply ext_pure; [apply make_check_not_hang|]. intros _. apply (ext_bind _ _ (read_full _)); [apply ext_full|]. intros b. apply ext_ret.
Qed.
Lemma ext_gblinear : forall p, extends (ReadGBLinearModel p).
Proof.
  intros p. apply (ext_bind _ _ ReadStruct_GBLinearParam); [apply ext_gblinear_param|]. intros q. apply (ext_bind _ _ (ReadFloat32Slice p)); [apply ext_floats|]. intros w. apply ext_ret.
Qed.

(** a reader that consumes all of [s] rejects every proper prefix with an error *)
Lemma truncated_err : forall A (rd : reader -> outcome (A * reader)) s a eof', extends rd ->
  rd (mkReader s eof') = Ok (a, mkReader [] eof') ->
  forall pre more eof, s = pre ++ more -> more <> [] -> exists m, rd (mkReader pre eof) = Err m.
Proof.
  intros A rd s a eof' H E pre more eof -> N. specialize (H pre eof more eof'). destruct (rd (mkReader pre eof)) as [[b r]|m|m|].
  - rewrite H in E. injection E as _ E. destruct (rd_bytes r); [|discriminate]. cbn in E. contradiction.
  - eauto.
  - rewrite H in E. discriminate.
  - contradiction.
Qed.
