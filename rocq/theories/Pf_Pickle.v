(** * The pickle decoder reads back what pickle writes *)

From Coq Require Import ZArith List Bool String Lia.
From Verif Require Import Go GoFloat GoText Pickle Spec_Pickle Pf_Go Pf_Text.
Local Open Scope Z_scope.

(** ** Byte strings *)
Lemma beqb_false : forall a b, a <> b -> beqb a b = false.
Proof. intros. apply beqb_neq. auto. Qed.

Lemma lookup_none : forall A (m : list (bytes * A)) k, ~ In k (map fst m) -> lookup m k = None.
Proof.
  induction m as [|[k' v] m IH]; intros k H; cbn [lookup]; auto. cbn in H. rewrite beqb_false by (intros ->; tauto). apply IH. tauto.
Qed.
Lemma lookup_in : forall A (m : list (bytes * A)) k v, lookup m k = Some v -> In (k, v) m.
Proof.
  induction m as [|[k' v'] m IH]; intros k v H; cbn [lookup] in H; [discriminate|]. destruct (beqb k k') eqn:E; [|right; auto].
  apply beqb_eq in E. injection H as <-. subst. left. auto.
Qed.
Lemma lookup_in_fst : forall A (m : list (bytes * A)) k v, lookup m k = Some v -> In k (map fst m).
Proof. intros A m k v H. apply lookup_in in H. apply in_map_iff. exists (k, v). auto. Qed.

(** ** Unicode *)
Lemma replace_plain : forall old new c s, Byte.eqb c backslash = false -> replace_go (backslash :: old) new (c :: s) O = c :: replace_go (backslash :: old) new s O.
Proof. intros old new c s H. cbn [replace_go has_prefix].
  destruct (Byte.eqb backslash c) eqn:E; [|reflexivity]. apply byte_eqb_eq in E. subst c. rewrite byte_eqb_refl in H. discriminate. Qed.

Definition escape_bsl (s : bytes) : bytes := flat_map (fun c => if Byte.eqb c backslash then esc_bsl else [c]) s.
Lemma has_prefix_self : forall a b, has_prefix (a ++ b) a = true.
Proof. induction a as [|x a IH]; intros b; cbn [app has_prefix]; [destruct b; auto|]. rewrite IH. rewrite byte_eqb_refl. auto. Qed.
Lemma replace_skip : forall old new a s n, n = List.length a -> replace_go old new (a ++ s) n = replace_go old new s O.
Proof. intros old new a. induction a as [|x a IH]; intros s n ->; [reflexivity|]. cbn [app List.length replace_go]. apply IH. auto. Qed.
Lemma unescape_nl : forall s, replace_all (escape s) esc_nl [nl] = escape_bsl s.
Proof.
  unfold replace_all. induction s as [|c s IH]; [reflexivity|]. unfold escape in *. cbn [flat_map escape_bsl]. unfold escape1 at 1.
  destruct (Byte.eqb c "010") eqn:E1.
  - apply byte_eqb_eq in E1. subst c. change (Byte.eqb "010" backslash) with false. cbn iota. unfold esc_nl.
    change ("\"%byte :: bs "u000a") with (backslash :: bs "u000a"). 
    cbn [app replace_go]. change (backslash :: bs "u000a" ++ flat_map escape1 s) with ((backslash :: bs "u000a") ++ flat_map escape1 s). rewrite has_prefix_self. cbn [app]. f_equal.
    rewrite (replace_skip _ _ (bs "u000a")) by reflexivity. apply IH.
  - destruct (Byte.eqb c "\") eqn:E2.
    + apply byte_eqb_eq in E2. subst c. change (Byte.eqb "\" backslash) with true. cbn iota. unfold escape_bsl in IH. rewrite <- IH. reflexivity.
    + change (Byte.eqb c backslash) with (Byte.eqb c "\"). rewrite E2. cbn [app]. unfold esc_nl. rewrite replace_plain by exact E2. f_equal. apply IH.
Qed.
Lemma unescape_bsl : forall s, replace_all (escape_bsl s) esc_bsl [backslash] = s.
Proof.
  unfold replace_all. induction s as [|c s IH]; [reflexivity|]. unfold escape_bsl in *. cbn [flat_map].
  destruct (Byte.eqb c backslash) eqn:E.
  - apply byte_eqb_eq in E. subst c. unfold esc_bsl. cbn [app replace_go].
    change (backslash :: bs "u005c" ++ flat_map (fun c => if Byte.eqb c backslash then backslash :: bs "u005c" else [c]) s) with ((backslash :: bs "u005c") ++ flat_map (fun c => if Byte.eqb c backslash then backslash :: bs "u005c" else [c]) s).
    rewrite has_prefix_self. cbn [app]. f_equal. rewrite (replace_skip _ _ (bs "u005c")) by reflexivity. exact IH.
  - cbn [app]. unfold esc_bsl in *. rewrite replace_plain by exact E. f_equal. exact IH.
Qed.
Lemma decode_escape : forall s, decodeUnicode (escape s) = s.
Proof. intros. unfold decodeUnicode. rewrite unescape_nl. apply unescape_bsl. Qed.

Lemma escape_one_line : forall s, one_line (escape s).
Proof.
  intros s H. unfold escape in H. apply in_flat_map in H. destruct H as (c & _ & H). unfold escape1 in H.
  destruct (Byte.eqb c "010") eqn:E; [cbn in H; intuition discriminate|]. destruct (Byte.eqb c "\"); [cbn in H; intuition discriminate|].
  destruct H as [->|[]]. discriminate.
Qed.

(** ** Reading lines *)
Lemma cut_one_line : forall t rest, one_line t -> cut_line (t ++ nl :: rest) = Some (t ++ [nl], rest).
Proof.
  induction t as [|c t IH]; intros rest H; cbn [app cut_line].
  - reflexivity.
  - replace (Byte.eqb c nl) with false by (symmetry; destruct (Byte.eqb c nl) eqn:E; auto; apply byte_eqb_eq in E; subst; exfalso; apply H; left; auto).
    rewrite IH; auto. intros I. apply H. right. auto.
Qed.
Lemma readLine_line : forall t rest eof, one_line t -> readLine (mkReader (t ++ nl :: rest) eof) = Ok (t, mkReader rest eof).
Proof. intros. unfold readLine. cbn [rd_bytes rd_eof]. rewrite cut_one_line by auto. rewrite removelast_last. reflexivity. Qed.

(** ** Runs of the decoder *)
Section Runs.
Variable p : platform.
Definition runs (m : machine) (s : bytes) (m' : machine) : Prop :=
  forall fuel rest eof, (List.length s + List.length rest < fuel)%nat ->
    exists fuel', (List.length rest < fuel')%nat /\
      decode_loop p fuel m (mkReader (s ++ rest) eof) = decode_loop p fuel' m' (mkReader rest eof).

Lemma runs_nil : forall m, runs m [] m.
Proof. intros m fuel rest eof H. exists fuel. split; [exact H|reflexivity]. Qed.
Lemma runs_trans : forall m1 s1 m2 s2 m3, runs m1 s1 m2 -> runs m2 s2 m3 -> runs m1 (s1 ++ s2) m3.
Proof.
  intros m1 s1 m2 s2 m3 H1 H2 fuel rest eof H. rewrite app_length in H. rewrite <- app_assoc.
  destruct (H1 fuel (s2 ++ rest) eof) as (f1 & F1 & E1). { rewrite app_length. lia. }
  rewrite app_length in F1. destruct (H2 f1 rest eof F1) as (f2 & F2 & E2). exists f2. split; auto. rewrite E1. exact E2.
Qed.
Lemma runs_step : forall m op args m',
  (forall rest eof, step p op m (mkReader (args ++ rest) eof) = Ok (Some (m', mkReader rest eof))) -> runs m (op :: args) m'.
Proof.
  intros m op args m' H fuel rest eof L. destruct fuel as [|fuel]; [lia|]. exists fuel. cbn [List.length] in L. split; [lia|].
  cbn [decode_loop rd_bytes app]. rewrite H. reflexivity.
Qed.
Lemma runs_line : forall m op t m',
  one_line t ->
  (forall r' r, readLine r' = Ok (t, r) -> step p op m r' = Ok (Some (m', r))) -> runs m (op :: t ++ [nl]) m'.
Proof.
  intros m op t m' Ht H. apply runs_step. intros rest eof. apply H. rewrite <- app_assoc. apply readLine_line. auto.
Qed.
End Runs.
