(** * Proofs about matrices read in pieces *)

From Coq Require Import ZArith List Bool String Lia ZifyBool.
From Verif Require Import Go GoFloat GoText XgBin Mat MatIO.
From Verif Require Import Spec_Params Spec_Mat Spec_Pieces.
From Verif Require Import Pf_Go Pf_Text Pf_Words Pf_XgBin Pf_Mat Pf_MatRows.
Local Open Scope Z_scope.

Section Loop.
Context {A : Type}.
Variables (parse : bytes -> outcome (list libsvmRecord)) (f : A -> list libsvmRecord -> outcome A) (eof : bool).
Definition told (l : bytes) (es : list entry) : Prop := parse (trim_space l) = Ok es.

Lemma read_first : forall text line e r, read_string (mkReader text eof) = (line, e, r) -> e <> RdOther ->
  exists l rest, first_line eof text l rest /\ r = mkReader rest eof /\ trim_space line = trim_space l.
Proof.
  intros text line e r H N.
  assert (C : (exists l rest, first_line eof text l rest) \/ (eof = false /\ one_line text)).
  { destruct (first_occurrence nl text) as [No|(s1 & s2 & -> & No)].
    - destruct eof; [left; exists text, []; split; auto|right; auto].
    - left. exists s1, s2. split; auto. }
  destruct C as [(l & rest & F)|[E O]].
  - destruct (first_line_read _ _ _ _ F) as (line' & e' & R & _ & T). rewrite R in H. injection H as <- _ <-. eauto.
  - unfold read_string in H. cbn [rd_bytes rd_eof] in H. rewrite cut_line_none in H by auto. rewrite E in H. injection H as _ <- _. contradiction.
Qed.

Lemma read_rows_inv : forall limit fuel n s text s' r', read_rows fuel limit parse f n s (mkReader text eof) = Ok (s', r') ->
  exists rows rest, rows_of told limit eof n text rows rest /\ foldM f rows s = Ok s' /\ r' = mkReader rest eof.
Proof.
  intros limit. induction fuel as [|fuel IH]; intros n s text s' r' H; [discriminate|]. cbn [read_rows] in H.
  destruct (read_string (mkReader text eof)) as [[line e] r] eqn:R.
  assert (N : e <> RdOther) by (intros ->; discriminate).
  destruct (read_first _ _ _ _ R N) as (l & rest & F & -> & T). rewrite T in H.
  assert (H' : (if beqb (trim_space l) [] then Ok (s, mkReader rest eof) else
    let* records := parse (trim_space l) in let* s := f s records in
    if (0 <? limit) && (n + 1 =? limit) then Ok (s, mkReader rest eof) else read_rows fuel limit parse f (n + 1) s (mkReader rest eof)) = Ok (s', r'))
    by (destruct e; [exact H|exact H|contradiction]). clear H.
  destruct (beqb (trim_space l) []) eqn:B.
  - apply beqb_eq in B. injection H' as <- <-. exists [], rest. split; [|split; reflexivity]. eapply ro_blank; eauto. apply trim_blank. auto.
  - assert (Nb : ~ blank l) by (intros X; apply trim_blank in X; rewrite X in B; discriminate).
    apply bind_ok in H'. destruct H' as (row & P & H'). apply bind_ok in H'. destruct H' as (s1 & E1 & H').
    destruct ((0 <? limit) && (n + 1 =? limit)) eqn:L.
    + injection H' as <- <-. exists [row], rest. split; [|split; [cbn [foldM]; rewrite E1; reflexivity|reflexivity]]. eapply ro_limit; eauto; lia.
    + apply IH in H'. destruct H' as (rows & rest' & Ro & Fo & ->). exists (row :: rows), rest'. split; [|split; [cbn [foldM]; rewrite E1; exact Fo|reflexivity]].
      eapply ro_more; eauto. lia.
Qed.

Lemma read_rows_to : forall limit n text rows rest, rows_of told limit eof n text rows rest -> forall fuel s, (S (S (List.length text)) <= fuel)%nat ->
  read_rows fuel limit parse f n s (mkReader text eof) = let* s' := foldM f rows s in Ok (s', mkReader rest eof).
Proof. intros limit. apply (read_rows_says told parse f limit eof). intros l es H. exact H. Qed.

(** the number of rows before does not matter without a limit *)
Lemma rows_of_from : forall n text rows rest, rows_of told 0 eof n text rows rest -> forall n', rows_of told 0 eof n' text rows rest.
Proof.
  intros n text rows rest H. induction H as [n text l rest F B|n text l rest row F B Sy L1 L2|n text l rest row rows rest' F B Sy L H IH]; intros n'.
  - eapply ro_blank; eauto.
  - lia.
  - eapply ro_more; eauto. lia.
Qed.

(** the first piece of a text *)
Lemma rows_of_cut : forall k n text rows rest, rows_of told 0 eof n text rows rest -> forall j, 0 <= j < k ->
  (zlen rows < k - j /\ rows_of told k eof j text rows rest) \/
  (exists r1 r2 mid, rows = r1 ++ r2 /\ zlen r1 = k - j /\ rows_of told k eof j text r1 mid /\ rows_of told 0 eof 0 mid r2 rest).
Proof.
  intros k n text rows rest H. induction H as [n text l rest F B|n text l rest row F B Sy L1 L2|n text l rest row rows rest' F B Sy L H IH]; intros j J.
  - left. split; [rewrite zlen_nil; lia|eapply ro_blank; eauto].
  - lia.
  - destruct (Z.eq_dec (j + 1) k) as [E|E].
    + right. exists [row], rows, rest. split; [reflexivity|]. split; [rewrite zlen_cons, zlen_nil; lia|]. split; [eapply ro_limit; eauto; lia|]. eapply rows_of_from; eauto.
    + destruct (IH (j + 1) ltac:(lia)) as [[Hl Hr]|(r1 & r2 & mid & -> & Hl & H1 & H2)].
      * left. split; [rewrite zlen_cons; lia|]. eapply ro_more; eauto. lia.
      * right. exists (row :: r1), r2, mid. split; [reflexivity|]. split; [rewrite zlen_cons; lia|]. split; [|exact H2]. eapply ro_more; eauto. lia.
Qed.

(** pieces put together *)
Lemma rows_of_last : forall k j text rows rest, rows_of told k eof j text rows rest -> 0 <= j < k -> zlen rows < k - j -> rows_of told 0 eof 0 text rows rest.
Proof.
  intros k j text rows rest H. induction H as [n text l rest F B|n text l rest row F B Sy L1 L2|n text l rest row rows rest' F B Sy L H IH]; intros J Hl.
  - eapply ro_blank; eauto.
  - rewrite zlen_cons, zlen_nil in Hl. lia.
  - rewrite zlen_cons in Hl. pose proof (zlen_nonneg _ rows). eapply ro_more; eauto; [lia|]. eapply rows_of_from. apply IH; lia.
Qed.
Lemma rows_of_join : forall k j text r1 mid, rows_of told k eof j text r1 mid -> 0 <= j < k -> zlen r1 = k - j ->
  forall r2 rest, rows_of told 0 eof 0 mid r2 rest -> rows_of told 0 eof 0 text (r1 ++ r2) rest.
Proof.
  intros k j text r1 mid H. induction H as [n text l rest F B|n text l rest row F B Sy L1 L2|n text l rest row rows rest' F B Sy L H IH]; intros J Hl r2 rest2 H2.
  - rewrite zlen_nil in Hl. lia.
  - cbn [app]. eapply ro_more; eauto; [lia|]. eapply rows_of_from; eauto.
  - rewrite zlen_cons in Hl. cbn [app]. eapply ro_more; eauto; [lia|]. eapply rows_of_from. eapply IH; eauto; lia.
Qed.

Section Both.
Variables (init : A) (count : A -> Z) (k : Z).
Hypothesis k_pos : 0 < k.
Hypothesis f_count : forall s row s', f s row = Ok s' -> count s' = count s + 1.
Hypothesis init_count : count init = 0.
Lemma fold_count : forall rows s s', foldM f rows s = Ok s' -> count s' = count s + zlen rows.
Proof.
  induction rows as [|row rows IH]; intros s s' H; cbn [foldM] in H; [injection H as <-; rewrite zlen_nil; lia|].
  apply bind_ok in H. destruct H as (s1 & E & H). apply f_count in E. apply IH in H. rewrite zlen_cons. lia.
Qed.
Definition reading (limit : Z) (r : reader) : outcome (A * reader) := read_rows (read_fuel r) limit parse f 0 init r.

(** the rows of the pieces *)
Lemma pieces_rows : forall text ms r', in_pieces (reading k) count k (mkReader text eof) ms r' ->
  exists parts rest, Forall2 (fun rows m => foldM f rows init = Ok m) parts ms /\ r' = mkReader rest eof /\
    rows_of told 0 eof 0 text (List.concat parts) rest.
Proof.
  intros text ms r' H. remember (mkReader text eof) as r eqn:Er. revert text Er. induction H as [r m r' H L|r m r' ms r'' H L H2 IH]; intros text ->.
  - apply read_rows_inv in H. destruct H as (rows & rest & Ro & Fo & ->). exists [rows], rest. split; [constructor; [exact Fo|constructor]|]. split; [reflexivity|].
    cbn [List.concat]. rewrite app_nil_r. apply fold_count in Fo. eapply rows_of_last; [exact Ro|lia|lia].
  - apply read_rows_inv in H. destruct H as (rows & rest & Ro & Fo & ->). destruct (IH rest eq_refl) as (parts & rest' & F2 & -> & R2).
    exists (rows :: parts), rest'. split; [constructor; auto|]. split; [reflexivity|]. cbn [List.concat]. apply fold_count in Fo. eapply rows_of_join; [exact Ro|lia|lia|exact R2].
Qed.

(** what the pieces need in order to be read *)
Hypothesis split_fold : forall r1 r2 m, foldM f (r1 ++ r2) init = Ok m -> exists b, foldM f r2 init = Ok b.
Lemma rows_pieces : forall text rows rest, rows_of told 0 eof 0 text rows rest -> forall m, foldM f rows init = Ok m ->
  exists ms, in_pieces (reading k) count k (mkReader text eof) ms (mkReader rest eof).
Proof.
  intros text rows. remember (List.length rows) as len eqn:Len. revert text rows Len.
  induction len as [len IH] using lt_wf_ind. intros text rows -> rest Ro m Fo.
  destruct (rows_of_cut k _ _ _ _ Ro 0 ltac:(lia)) as [[Hl R1]|(r1 & r2 & mid & -> & Hl & R1 & R2)].
  - exists [m]. apply ip_last.
    + unfold reading. rewrite (read_rows_to _ _ _ _ _ R1) by (unfold read_fuel; cbn [rd_bytes]; lia). rewrite Fo. reflexivity.
    + apply fold_count in Fo. lia.
  - destruct (split_fold _ _ _ Fo) as [b Fb]. rewrite foldM_app in Fo. apply bind_ok in Fo. destruct Fo as (a & Fa & Fo).
    assert (Ln : (List.length r2 < List.length (r1 ++ r2))%nat) by (rewrite app_length; unfold zlen in Hl; lia).
    destruct (IH _ Ln mid r2 eq_refl rest R2 b Fb) as (ms & Hms). exists (a :: ms). eapply ip_more; [|apply fold_count in Fa; lia|exact Hms].
    unfold reading. rewrite (read_rows_to _ _ _ _ _ R1) by (unfold read_fuel; cbn [rd_bytes]; lia). rewrite Fa. reflexivity.
Qed.
End Both.
End Loop.

(** ** CSR *)
Definition csr_under (a b : CSRMat) : CSRMat :=
  mkCSR (cmRowHeaders a ++ map (Z.add (zlen (cmValues a))) (tl (cmRowHeaders b))) (cmColIndexes a ++ cmColIndexes b) (cmValues a ++ cmValues b).
Notation csr_init := (mkCSR [0] [] []).
Lemma csr_under_init : forall a, csr_under a csr_init = a.
Proof. intros [h c v]. unfold csr_under. cbn. rewrite !app_nil_r. reflexivity. Qed.
Lemma csr_under_step : forall a b row b', cmRowHeaders b <> [] -> recordsToCSRMat b row = Ok b' ->
  cmRowHeaders b' <> [] /\ recordsToCSRMat (csr_under a b) row = Ok (csr_under a b').
Proof.
  intros a b row b' N H. unfold recordsToCSRMat in *. injection H as <-. cbn [cmRowHeaders cmColIndexes cmValues csr_under]. split; [destruct (cmRowHeaders b); discriminate|].
  unfold csr_under. cbn [cmRowHeaders cmColIndexes cmValues]. f_equal. destruct (cmRowHeaders b) as [|h hs]; [contradiction|]. cbn [tl app].
  rewrite map_app, !zlen_app. cbn [map]. rewrite <- !app_assoc. f_equal. f_equal. f_equal. f_equal. lia.
Qed.
Lemma csr_under_rows : forall a rows b m, cmRowHeaders b <> [] -> foldM recordsToCSRMat rows b = Ok m ->
  cmRowHeaders m <> [] /\ foldM recordsToCSRMat rows (csr_under a b) = Ok (csr_under a m).
Proof.
  intros a. induction rows as [|row rows IH]; intros b m N H; cbn [foldM] in *; [injection H as <-; auto|].
  apply bind_ok in H. destruct H as (b' & E & H). destruct (csr_under_step a b row b' N E) as [N' E']. rewrite E'. cbn [bind]. apply IH; auto.
Qed.
Lemma csr_fold_total : forall rows b, exists m, foldM recordsToCSRMat rows b = Ok m.
Proof. induction rows as [|row rows IH]; intros b; cbn [foldM]; [eauto|]. unfold recordsToCSRMat at 1. cbn [bind]. apply IH. Qed.
Lemma csr_fold_init : forall rows m, foldM recordsToCSRMat rows csr_init = Ok m -> hd 0 (cmRowHeaders m) = 0 /\ cmRowHeaders m <> [].
Proof.
  assert (G : forall rows b m, cmRowHeaders b <> [] -> hd 0 (cmRowHeaders b) = 0 -> foldM recordsToCSRMat rows b = Ok m -> hd 0 (cmRowHeaders m) = 0 /\ cmRowHeaders m <> []).
  { induction rows as [|row rows IH]; intros b m N Hd H; cbn [foldM] in H; [injection H as <-; auto|]. unfold recordsToCSRMat at 1 in H. cbn [bind] in H.
    eapply IH; [| |exact H]; cbn [cmRowHeaders]; destruct (cmRowHeaders b); try contradiction; [discriminate|exact Hd]. }
  intros rows m H. eapply G; [| |exact H]; [discriminate|reflexivity].
Qed.
Lemma headers_shift : forall ms a b, map (Z.add a) (headers_from b ms) = headers_from (a + b) ms.
Proof.
  induction ms as [|m ms IH]; intros a b; cbn [headers_from map]; [reflexivity|]. rewrite map_app, map_map, IH. f_equal; [|f_equal; lia].
  apply map_ext. intros x. lia.
Qed.
Lemma csr_stack : forall parts ms, Forall2 (fun rows m => foldM recordsToCSRMat rows csr_init = Ok m) parts ms ->
  exists m, foldM recordsToCSRMat (List.concat parts) csr_init = Ok m /\ csr_stacked ms m.
Proof.
  intros parts ms H. induction H as [|rows a parts ms Ha H (b & Eb & V & C & Hd)]; cbn [List.concat foldM].
  - exists csr_init. split; [reflexivity|]. repeat split.
  - rewrite foldM_app, Ha. cbn [bind]. destruct (csr_under_rows a _ csr_init b ltac:(discriminate) Eb) as [N E]. rewrite csr_under_init in E.
    exists (csr_under a b). split; [exact E|]. unfold csr_stacked, csr_under. cbn [cmValues cmColIndexes cmRowHeaders map List.concat headers_from]. rewrite V, C, Hd.
    split; [reflexivity|]. split; [reflexivity|]. cbn [tl]. destruct (csr_fold_init _ _ Ha) as [H0 H1]. destruct (cmRowHeaders a) as [|h hs]; [contradiction|]. cbn [hd] in H0. subst h.
    cbn [tl app]. f_equal. rewrite headers_shift. f_equal; [rewrite <- (map_id hs) at 1; apply map_ext; intros x; lia|f_equal; lia].
Qed.

(** ** Dense *)
Lemma dense_step_inv : forall s row s', recordsToDenseMat s row = Ok s' ->
  full_from 0 row /\ dmValues s' = dmValues s ++ map snd row /\ dmRows s' = dmRows s + 1 /\
  dmCols s' = zlen row /\ (dmCols s = 0 \/ dmCols s = zlen row).
Proof.
  intros s row s' H. unfold recordsToDenseMat in H. destruct (dense_values_inv row 0 (dmValues s)) as [F|[m E]]; [|rewrite E in H; discriminate].
  rewrite dense_values_ok in H by auto. cbn [bind] in H. destruct (Z.eqb_spec (dmCols s) 0) as [E|E]; [injection H as <-; cbn [dmValues dmRows dmCols]; tauto|].
  destruct (Z.eqb_spec (dmCols s) (zlen row)) as [E2|E2]; cbn [negb] in H; [injection H as <-; cbn [dmValues dmRows dmCols]; tauto|discriminate].
Qed.
Lemma dense_step_ok : forall s row, full_from 0 row -> dmCols s = 0 \/ dmCols s = zlen row ->
  recordsToDenseMat s row = Ok (mkDense (dmValues s ++ map snd row) (zlen row) (dmRows s + 1)).
Proof.
  intros s row F C. unfold recordsToDenseMat. rewrite dense_values_ok by auto. cbn [bind]. destruct (Z.eqb_spec (dmCols s) 0) as [E|E]; [reflexivity|].
  destruct C as [C|C]; [contradiction|]. rewrite C, Z.eqb_refl. reflexivity.
Qed.
Lemma dense_fold_inv : forall rows s s', foldM recordsToDenseMat rows s = Ok s' ->
  dmValues s' = dmValues s ++ map snd (List.concat rows) /\ dmRows s' = dmRows s + zlen rows /\
  Forall (full_from 0) rows /\ Forall (fun row => zlen row = dmCols s' \/ zlen row = 0) rows /\
  (dmCols s = 0 \/ dmCols s = dmCols s' /\ Forall (fun row => zlen row = dmCols s') rows) /\
  (dmCols s' = dmCols s \/ Exists (fun row => zlen row = dmCols s') rows).
Proof.
  induction rows as [|row rows IH]; intros s s' H; cbn [foldM] in H.
  - injection H as <-. cbn [List.concat map]. rewrite app_nil_r, zlen_nil. repeat match goal with |- _ /\ _ => split end; auto; try lia.
  - apply bind_ok in H. destruct H as (s1 & E & H). apply dense_step_inv in E. destruct E as (F & V & R & C & C').
    apply IH in H. destruct H as (V2 & R2 & F2 & L2 & K2 & X2). cbn [List.concat]. rewrite map_app, app_assoc, <- V, zlen_cons.
    pose proof (zlen_nonneg _ row).
    repeat match goal with |- _ /\ _ => split end; auto; try lia.
    + constructor; auto. destruct K2 as [K2|[K2 _]]; [right; lia|left; lia].
    + destruct C' as [C'|C']; [left; exact C'|]. destruct (Z.eq_dec (dmCols s) 0); [left; auto|]. right. destruct K2 as [K2|[K2 K3]]; [lia|]. split; [lia|]. constructor; [lia|exact K3].
    + destruct X2 as [X2|X2]; [right; constructor 1; lia|right; constructor 2; exact X2].
Qed.
(** folds restart *)
Lemma dense_split : forall r1 r2 m, foldM recordsToDenseMat (r1 ++ r2) noDense = Ok m -> exists b, foldM recordsToDenseMat r2 noDense = Ok b.
Proof.
  assert (G : forall rows s b m, foldM recordsToDenseMat rows s = Ok m -> dmCols s = 0 \/ dmCols b = 0 \/ dmCols s = dmCols b -> (dmCols s = 0 -> dmCols b = 0) -> exists m', foldM recordsToDenseMat rows b = Ok m').
  { induction rows as [|row rows IH]; intros s b m H C C0; cbn [foldM] in *; [eauto|]. apply bind_ok in H. destruct H as (s1 & E & H). apply dense_step_inv in E. destruct E as (F & V & R & D & D').
    rewrite dense_step_ok; [cbn [bind]; eapply IH; [exact H| |]; cbn [dmCols]; [right; right; lia|lia]|auto|lia]. }
  intros r1 r2 m H. rewrite foldM_app in H. apply bind_ok in H. destruct H as (a & _ & H). eapply G; [exact H| |]; cbn; auto.
Qed.
Lemma concat_zlen : forall (A : Type) (ps : list (list A)), zlen (List.concat ps) = sum_of zlen ps.
Proof. induction ps as [|p ps IH]; cbn [List.concat sum_of]; [reflexivity|]. rewrite zlen_app, IH. reflexivity. Qed.
Lemma dense_parts : forall parts ms, Forall2 (fun rows m => foldM recordsToDenseMat rows noDense = Ok m) parts ms ->
  List.concat (map dmValues ms) = map snd (List.concat (List.concat parts)) /\ sum_of dmRows ms = zlen (List.concat parts).
Proof.
  intros parts ms H. induction H as [|rows a parts ms Ha H [IV IR]]; cbn [map List.concat sum_of]; [split; reflexivity|].
  apply dense_fold_inv in Ha. destruct Ha as (V & R & _). cbn [noDense dmValues dmRows app] in V, R. rewrite concat_app, map_app, IV, V, IR, R, zlen_app. split; [reflexivity|lia].
Qed.
Lemma dense_stack : forall parts ms, Forall2 (fun rows m => foldM recordsToDenseMat rows noDense = Ok m) parts ms ->
  forall m, foldM recordsToDenseMat (List.concat parts) noDense = Ok m -> dense_stacked ms m.
Proof.
  intros parts ms H m Hm. destruct (dense_parts _ _ H) as [PV PR]. apply dense_fold_inv in Hm. destruct Hm as (V & R & _ & L & _ & X). cbn [noDense dmValues dmRows dmCols app] in V, R, X.
  unfold dense_stacked. rewrite PV, PR. split; [exact V|]. split; [lia|]. clear V R PV PR.
  assert (G : Forall2 (fun rows a => dmCols a = 0 /\ Forall (fun row : list entry => zlen row = 0) rows \/ Exists (fun row => zlen row = dmCols a) rows /\ Forall (fun row => zlen row = dmCols a \/ zlen row = 0) rows) parts ms).
  { clear L X. induction H as [|rows a parts ms Ha H IH]; constructor; [clear IH|exact IH]. apply dense_fold_inv in Ha. destruct Ha as (_ & _ & _ & La & _ & [Xa|Xa]); cbn in *; [left; split; [exact Xa|]|right; auto].
    eapply Forall_impl; [|exact La]. intros row Hr. cbn in Hr. lia. }
  clear H. revert L X. generalize (dmCols m). clear m. intros c L X. split.
  - clear X. induction G as [|rows a parts ms Ha G IH]; [constructor|]. cbn [List.concat] in L. apply Forall_app in L. destruct L as [L1 L2]. constructor; [|apply IH; auto].
    destruct Ha as [[Ha _]|[Ha _]]; [right; exact Ha|]. apply Exists_exists in Ha. destruct Ha as (row & I & E). rewrite Forall_forall in L1. apply L1 in I. lia.
  - clear L. destruct (Z.eq_dec c 0) as [->|Nz]; [left; reflexivity|]. destruct X as [X|X]; [left; exact X|]. right.
    induction G as [|rows a parts ms Ha G IH]; [inversion X|]. cbn [List.concat] in X. apply Exists_app in X. destruct X as [X|X]; [|constructor 2; auto].
    constructor 1. apply Exists_exists in X. destruct X as (row & I & E). destruct Ha as [[_ Ha]|[_ Ha]]; rewrite Forall_forall in Ha; apply Ha in I; lia.
Qed.

(** pieces without holes and of the same width *)
Lemma dense_full_piece : forall c rows m, 0 < c -> foldM recordsToDenseMat rows noDense = Ok m -> dmRows m = 0 \/ dmCols m = c /\ zlen (dmValues m) = dmRows m * c ->
  Forall (full_row c) rows.
Proof.
  intros c rows m C H D. apply dense_fold_inv in H. destruct H as (V & R & F & L & _). cbn [noDense dmValues dmRows app] in V, R.
  destruct D as [D|[E D]]; [destruct rows; [constructor|rewrite zlen_cons in R; pose proof (zlen_nonneg _ rows); lia]|]. rewrite V, zlen_map', concat_zlen, R, E in *. clear V R.
  assert (G : forall rows : list (list entry), Forall (fun row => zlen row = c \/ zlen row = 0) rows -> sum_of zlen rows <= zlen rows * c /\ (sum_of zlen rows = zlen rows * c -> Forall (fun row => zlen row = c) rows)).
  { clear - C. induction rows as [|row rows IH]; intros L; cbn [sum_of]; [rewrite zlen_nil; split; [lia|constructor]|]. inversion L as [|? ? L1 L2]; subst. destruct (IH L2) as [I1 I2]. rewrite zlen_cons.
    split; [lia|]. intros S. constructor; [|apply I2]; lia. }
  rewrite Z.add_0_l in D. destruct (G _ L) as [_ G2]. specialize (G2 D). clear - F G2. induction F as [|row rows F1 F IH]; [constructor|]. inversion G2; subst. constructor; [apply full_full; auto|auto].
Qed.
Lemma dense_whole : forall c parts ms, 0 < c -> Forall2 (fun rows m => foldM recordsToDenseMat rows noDense = Ok m) parts ms ->
  Forall (fun m => dmRows m = 0 \/ dmCols m = c /\ zlen (dmValues m) = dmRows m * c) ms ->
  exists m, foldM recordsToDenseMat (List.concat parts) noDense = Ok m.
Proof.
  intros c parts ms C H D. assert (F : Forall (full_row c) (List.concat parts)).
  { induction H as [|rows a parts ms Ha H IH]; cbn [List.concat]; [constructor|]. inversion D; subst. apply Forall_app. split; [eapply dense_full_piece; eauto|auto]. }
  destruct (dense_rows c C _ noDense [] (or_introl (conj eq_refl eq_refl)) F) as (m & E & _). eauto.
Qed.
Lemma dense_count : forall s row s', recordsToDenseMat s row = Ok s' -> dmRows s' = dmRows s + 1.
Proof. intros s row s' H. apply dense_step_inv in H. tauto. Qed.
Lemma csr_count : forall s row s', recordsToCSRMat s row = Ok s' -> zlen (cmRowHeaders s') - 1 = zlen (cmRowHeaders s) - 1 + 1.
Proof. intros s row s' H. unfold recordsToCSRMat in H. injection H as <-. cbn [cmRowHeaders]. rewrite zlen_app, zlen_cons, zlen_nil. lia. Qed.
