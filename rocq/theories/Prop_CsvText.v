(** * C50, what is written: the exact text of every matrix *)

From Coq Require Import ZArith List Bool String Lia ZifyBool.
From Verif Require Import Go GoFloat GoText XgBin Mat MatIO.
From Verif Require Import Pf_Go Pf_Text Pf_Mat Pf_MatRows Pf_MatWrite Demo DemoText.
Local Open Scope Z_scope.

(** cells separated, not ended, by the delimiter; every row ended by a newline *)
Fixpoint separated (sep : bytes) (cells : list bytes) : bytes :=
  match cells with [] => [] | [c] => c | c :: cells => c ++ sep ++ separated sep cells end.
Definition csv_text (p : platform) (delimiter : bytes) (rows : list (list f64)) : bytes :=
  flat_map (fun row => separated delimiter (map (pl_print_float p) row) ++ [nl]) rows.

Lemma separated_joins : forall sep l, separated sep l = joins sep l.
Proof. intros sep l. induction l as [|x l IH]; [reflexivity|]. destruct l as [|y l]; [reflexivity|]. change (separated sep (x :: y :: l)) with (x ++ sep ++ separated sep (y :: l)). rewrite IH. reflexivity. Qed.

Lemma zget_concat : forall A (rows : list (list A)) cols i row k, 0 < cols -> Forall (fun r => zlen r = cols) rows ->
  zget rows i = Some row -> 0 <= k < cols -> zget (List.concat rows) (i * cols + k) = zget row k.
Proof.
  intros A rows cols i row k C F. revert i. induction F as [|r rows Hr F IH]; intros i Hi Hk.
  - apply zget_range in Hi. unfold zlen in Hi. cbn [List.length] in Hi. lia.
  - pose proof (zget_range _ _ _ _ Hi) as R. cbn [List.concat]. destruct (Z.eq_dec i 0) as [->|N].
    + rewrite zget_cons_0 in Hi. injection Hi as <-. rewrite zget_app_l by lia. f_equal.
    + rewrite zget_cons in Hi by lia. rewrite zget_app_r by nia. replace (i * cols + k - zlen r) with ((i - 1) * cols + k) by nia. apply IH; auto.
Qed.
Lemma zlen_concat : forall A (rows : list (list A)) cols, Forall (fun r => zlen r = cols) rows -> zlen (List.concat rows) = zlen rows * cols.
Proof. intros A rows cols F. induction F as [|r rows Hr F IH]; [reflexivity|]. cbn [List.concat]. rewrite zlen_app, zlen_cons, IH. lia. Qed.

(** A matrix of at least one cell, any delimiter. *)
Theorem C50_text :
  forall p rows cols delimiter,
  rows <> [] -> 0 < cols -> Forall (fun row => zlen row = cols) rows -> zlen rows * cols <= MaxInt ->
  WriteStr p (mkDense (List.concat rows) cols (zlen rows)) delimiter = Ok (csv_text p delimiter rows).
Proof.
  intros p rows cols d Nr C F M. pose proof (zlen_concat _ _ _ F) as L. pose proof (zlen_nonneg _ rows) as P.
  assert (R : 0 < zlen rows). { destruct rows; [contradiction|]. rewrite zlen_cons. pose proof (zlen_nonneg _ rows). lia. }
  unfold WriteStr. cbn [dmCols dmRows dmValues]. rewrite s64_id by (unfold MaxInt, two63 in *; nia). replace (cols * zlen rows =? _) with true by lia. cbn [negb].
  replace ((cols =? 0) || (zlen rows =? 0)) with false by lia.
  set (row := fun i => nth (Z.to_nat i) rows []).
  assert (Hrow : forall i, 0 <= i < zlen rows -> zget rows i = Some (row i)). { intros i Hi. rewrite zget_nth by lia. unfold row. apply nth_error_nth'. unfold zlen in Hi. lia. }
  rewrite (mapM_ok _ _ _ (fun i => separated d (map (pl_print_float p) (row i)) ++ [nl])).
  - cbn [bind]. apply (f_equal (@Ok bytes)). unfold csv_text. rewrite flat_map_concat_map. apply f_equal. apply zget_ext.
    + rewrite !zlen_map', zseq_zlen by lia. reflexivity.
    + intros i Hi. rewrite zlen_map', zseq_zlen in Hi by lia. rewrite !zget_map, zget_zseq, Hrow by lia. reflexivity.
  - intros i Hi. apply in_zseq in Hi. pose proof (Hrow i Hi) as Ei.
    assert (Li : zlen (row i) = cols). { apply zget_in in Ei. rewrite Forall_forall in F. apply F. exact Ei. }
    unfold write_row. cbn [dmValues dmCols].
    rewrite (mapM_ok _ _ _ (fun j => pl_print_float p (nth (Z.to_nat j) (row i) fzero) ++ if j =? cols - 1 then [] else d)).
    + cbn [bind]. apply (f_equal (@Ok bytes)). apply (f_equal (fun x => x ++ [nl])). rewrite separated_joins. etransitivity; [exact (cells_joins d (fun j => pl_print_float p (nth (Z.to_nat j) (row i) fzero)) cols C)|]. apply f_equal. apply zget_ext.
      * rewrite !zlen_map', zseq_zlen by lia. lia.
      * intros k Hk. rewrite zlen_map', zseq_zlen in Hk by lia. rewrite !zget_map, zget_zseq by lia. cbn [option_map]. rewrite zget_nth by lia. rewrite (nth_error_nth' (row i) fzero); [reflexivity|]. unfold zlen in Li. lia.
    + intros j Hj. apply in_zseq in Hj. unfold at_. rewrite (zget_concat _ _ _ _ _ _ C F Ei Hj). rewrite zget_nth by lia. rewrite (nth_error_nth' (row i) fzero); [reflexivity|]. unfold zlen in Li. lia.
Qed.
Print Assumptions C50_text.

(** A matrix without cells: one empty line, which reads back as a matrix without rows. *)
Theorem C50_empty_text :
  forall p cols rows delimiter limit skip def, cols = 0 \/ rows = 0 ->
  WriteStr p (mkDense [] cols rows) delimiter = Ok [nl] /\
  exists m rest, DenseMatFromCsv p (mkReader [nl] true) limit skip delimiter def = Ok (m, rest) /\ dmRows m = 0 /\ dmValues m = [].
Proof.
  intros p cols rows d limit skip def H. split.
  - unfold WriteStr. cbn [dmCols dmRows dmValues]. assert (E : cols * rows = 0) by (destruct H; subst; lia). rewrite E. change (negb (s64 0 =? zlen [])) with false. cbv iota. replace ((cols =? 0) || (rows =? 0)) with true by lia. reflexivity.
  - exists noDense, (mkReader [] true). split; [reflexivity|]. split; reflexivity.
Qed.
Print Assumptions C50_empty_text.
(** A matrix whose dimensions disagree with its values is refused. *)
Theorem C50_wrong_size :
  forall p values cols rows delimiter, - two63 <= cols * rows < two63 -> cols * rows <> zlen values ->
  exists msg, WriteStr p (mkDense values cols rows) delimiter = Err msg.
Proof.
  intros p values cols rows d B H. unfold WriteStr. cbn [dmCols dmRows dmValues]. rewrite s64_id by lia. replace (cols * rows =? zlen values) with false by lia. cbn [negb]. eauto.
Qed.
Print Assumptions C50_wrong_size.

Example C50_text_demo :
  let rows := [map fint [1; -2; 33]; map fint [0; 5; 600]] in
  rows <> [] /\ Forall (fun row => zlen row = 3) rows /\ csv_text amd64_text (bs "; ") [[fint 1]] = pl_print_float amd64_text (fint 1) ++ [nl].
Proof. cbv zeta. split; [discriminate|]. split; [repeat constructor|reflexivity]. Qed.
