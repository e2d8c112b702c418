(** * What pickle.dumps writes is an encoding *)

From Coq Require Import ZArith List Bool String Lia ZifyBool.
From Verif Require Import Go GoFloat GoText Pickle Spec_Decimal Spec_Pickle Spec_Dump Pf_Go Pf_Words Pf_Decimal Pf_Pickle Pf_PickleDec.
Local Open Scope Z_scope.

Section Ind.
Variable P : pyobj -> Prop.
Hypothesis Hnone : P PNone.
Hypothesis Hint : forall z, P (PInt z).
Hypothesis Hfloat : forall f, P (PFloat f).
Hypothesis Hstr : forall s, P (PStr s).
Hypothesis Htuple : forall l, Forall P l -> P (PTuple l).
Hypothesis Hlist : forall l, Forall P l -> P (PList l).
Hypothesis Hdict : forall l, Forall (fun kx => P (snd kx)) l -> P (PDict l).
Hypothesis Hglobal : forall m n, P (PGlobal m n).
Hypothesis Hreduce : forall c args, P c -> Forall P args -> P (PReduce c args).
Hypothesis Hbuild : forall o st, (forall c args, o = PReduce c args -> P c /\ Forall P args) -> P st -> P (PBuild o st).
Definition pyobj_nested_ind : forall o, P o.
Proof.
  fix IH 1. intros o.
  assert (IHl : forall l, Forall P l). { fix IHl 1. intros [|x l]; constructor; [apply IH|apply IHl]. }
  destruct o.
  - exact Hnone.
  - apply Hint.
  - apply Hfloat.
  - apply Hstr.
  - apply Htuple, IHl.
  - apply Hlist, IHl.
  - apply Hdict. clear IHl. revert l. fix IHd 1. intros [|[k x] l]; constructor; [apply IH|apply IHd].
  - apply Hglobal.
  - apply Hreduce; [apply IH|apply IHl].
  - apply Hbuild; [|apply IH]. destruct o1; intros c args' E; try discriminate. injection E as <- <-. split; [apply IH|apply IHl].
Defined.
End Ind.

Definition below (mu : memo) (n : Z) : Prop := 0 <= n /\ forall k, In k (map fst mu) -> exists j, 0 <= j < n /\ k = decimal j.

Lemma below_fresh : forall mu n, below mu n -> fresh [decimal n] mu.
Proof.
  intros mu n [H0 H]. split; [repeat constructor; auto|]. intros k [<-|[]]. split; [apply decimal_one_line|]. intros I. apply H in I.
  destruct I as (j & J & E). apply decimal_inj in E. lia.
Qed.
Lemma below_memoise : forall mu n o, below mu n -> below (memoise o [decimal n] mu) (n + 1).
Proof.
  intros mu n o [H0 H]. split; [lia|]. intros k I. cbn in I. destruct I as [<-|I]; [exists n; split; [lia|auto]|]. destruct (H k I) as (j & J & ->). exists j. split; [lia|auto].
Qed.
Lemma below_seal : forall mu n ks o, below mu n -> below (seal ks o mu) n.
Proof. intros mu n ks o [H0 H]. split; auto. intros k I. apply H. rewrite <- (seal_dom ks o mu). auto. Qed.

Section Dump.
Variables (repr : f64 -> bytes) (p : platform) (lossy : bool).
Notation enc := (enc p lossy).
Notation encs := (encs p lossy).
Notation appends := (appends p lossy).
Notation setitems := (setitems p lossy).
Notation dump := (dump repr).
Notation dumpable := (dumpable repr p).

Definition works (o : pyobj) : Prop := forall mu n, dumpable o -> below mu n ->
  exists mu', enc mu o (fst (dump o n)) mu' /\ below mu' (snd (dump o n)).

Lemma enc_memoised : forall mu o s mu' n, enc mu o s mu' -> below mu' n ->
  exists mu'', enc mu o (fst (memoised s n)) mu'' /\ below mu'' (snd (memoised s n)).
Proof.
  intros mu o s mu' n H B. exists (memoise (Some o) [decimal n] mu'). split; [apply e_put; [exact H|apply below_fresh; exact B]|apply below_memoise; exact B].
Qed.

Lemma many_cons : forall A (f : A -> Z -> bytes * Z) x l n,
  many f (x :: l) n = (fst (f x n) ++ fst (many f l (snd (f x n))), snd (many f l (snd (f x n)))).
Proof. intros A f x l n. unfold many at 1. destruct (f x n) as [s n1]. fold (many f). cbn [fst snd]. destruct (many f l n1). reflexivity. Qed.

Lemma works_encs : forall l, Forall works l -> forall mu n, Forall dumpable l -> below mu n ->
  exists mu', encs mu l (fst (many dump l n)) mu' /\ below mu' (snd (many dump l n)).
Proof.
  induction l as [|o l IH]; intros W mu n D B.
  - exists mu. split; [constructor|exact B].
  - inversion W; subst. inversion D; subst. rewrite many_cons. cbn [fst snd]. destruct (H1 mu n H3 B) as (mu1 & E1 & B1).
    destruct (IH H2 mu1 _ H4 B1) as (mu2 & E2 & B2). exists mu2. split; [econstructor; eauto|auto].
Qed.

Definition dump_tuple (l : list pyobj) (n : Z) : bytes * Z :=
  match l with
  | [] => (bs "(t", n)
  | _ => let (s, n1) := many dump l n in memoised (bs "(" ++ s ++ bs "t") n1
  end.
Definition dump_call (c : pyobj) (args : list pyobj) (n : Z) : bytes * Z :=
  let (s1, n1) := dump c n in let (s2, n2) := dump_tuple args n1 in memoised (s1 ++ s2 ++ bs "R") n2.

Lemma works_tuple : forall l, Forall works l -> forall mu n, Forall dumpable l -> below mu n ->
  exists mu', enc mu (PTuple l) (fst (dump_tuple l n)) mu' /\ below mu' (snd (dump_tuple l n)).
Proof.
  intros l W mu n D B. destruct (works_encs l W mu n D B) as (mu1 & E1 & B1). unfold dump_tuple. destruct l as [|o l].
  - exists mu. split; [|exact B]. change (fst (bs "(t", n)) with ("("%byte :: [] ++ bs "t"). apply e_tuple. constructor.
  - destruct (many dump (o :: l) n) as [s n1]. eapply enc_memoised; [|exact B1]. apply e_tuple. exact E1.
Qed.

(** the call, before it is memoised *)
Lemma works_call : forall c args, works c -> Forall works args -> forall mu n, dumpable c -> Forall dumpable args -> below mu n ->
  exists s1 s2 mu1 mu2 n2, dump_call c args n = memoised (s1 ++ s2 ++ bs "R") n2 /\ enc mu c s1 mu1 /\ enc mu1 (PTuple args) s2 mu2 /\ below mu2 n2.
Proof.
  intros c args W1 W2 mu n D1 D2 B. unfold dump_call. destruct (W1 mu n D1 B) as (mu1 & E1 & B1). destruct (dump c n) as [s1 n1].
  destruct (works_tuple args W2 mu1 n1 D2 B1) as (mu2 & E2 & B2). destruct (dump_tuple args n1) as [s2 n2]. exists s1, s2, mu1, mu2, n2. auto.
Qed.

Lemma works_all : forall o, works o.
Proof.
  apply pyobj_nested_ind.
  - intros mu n D B. exists mu. split; [constructor|exact B].
  - intros z mu n D B. exists mu. split; [|exact B]. inversion D; subst. cbn [Spec_Dump.dump fst]. unfold dump_int, line.
    assert (N : numeral (decimal z) z) by (split; [apply decimal_one_line|split; [apply integer_iff; apply parse_decimal|auto]]).
    destruct (_ && _); [apply e_int; auto|]. rewrite <- app_assoc. apply e_long. auto.
  - intros f mu n D B. exists mu. split; [|exact B]. inversion D; subst. apply e_float; auto.
  - intros s mu n D B. eapply enc_memoised; [|exact B]. apply e_str.
  - intros l W mu n D B. inversion D; subst. apply (works_tuple l W mu n); auto.
  - intros l W mu n D B. inversion D as [| | | | |l' DL| | | |]; subst.
    assert (A : forall l, Forall works l -> Forall dumpable l -> forall mu n, below mu n ->
      exists mu', appends mu l (fst (many (fun x n => let (s, n') := dump x n in (s ++ bs "a", n')) l n)) mu' /\
                  below mu' (snd (many (fun x n => let (s, n') := dump x n in (s ++ bs "a", n')) l n))).
    { clear. induction l as [|o l IH]; intros W D mu n B; [exists mu; split; [constructor|exact B]|]. inversion W; subst. inversion D; subst.
      rewrite many_cons. destruct (H1 mu n H3 B) as (mu1 & E1 & B1). destruct (dump o n) as [s n1]. cbn [fst snd] in *.
      destruct (IH H2 H4 mu1 n1 B1) as (mu2 & E2 & B2). exists mu2. split; [|exact B2]. rewrite <- app_assoc. econstructor; eauto. }
    cbn [Spec_Dump.dump]. unfold memoised at 1 2. destruct (A l W DL (memoise None [decimal n] mu) (n + 1) (below_memoise _ _ _ B)) as (mu2 & E2 & B2).
    destruct (many _ l (n + 1)) as [s2 n2]. cbn [fst snd] in *. exists mu2. split; [|exact B2].
    change (bs "(l" ++ put (decimal n)) with ("("%byte :: [] ++ bs "l" ++ put (decimal n)).
    replace (("("%byte :: [] ++ bs "l" ++ put (decimal n)) ++ s2) with ("("%byte :: [] ++ bs "l" ++ puts [decimal n] ++ s2).
    2: { unfold puts. cbn [flat_map]. rewrite app_nil_r. reflexivity. }
    change l with ([] ++ l). eapply e_list; [constructor|apply below_fresh; exact B|exact E2].
  - intros l W mu n D B. inversion D as [| | | | | |l' ND DL| | |]; subst.
    set (g := fun (kx : bytes * pyobj) n => let (k, x) := kx in let (s, n1) := dump_str k n in let (s', n2) := dump x n1 in (s ++ s' ++ bs "s", n2)).
    assert (A : forall l, Forall (fun kx => works (snd kx)) l -> Forall dumpable (map snd l) -> forall mu n, below mu n ->
      exists mu', setitems mu l (fst (many g l n)) mu' /\ below mu' (snd (many g l n))).
    { clear. induction l as [|[k o] l IH]; intros W D mu n B; [exists mu; split; [constructor|exact B]|]. inversion W; subst. inversion D; subst.
      cbn [snd] in *.
      destruct (enc_memoised mu (PStr k) ("V"%byte :: line (escape k)) mu n) as (mu1 & E1 & B1); [apply e_str|exact B|].
      fold (dump_str k n) in E1, B1. destruct (dump_str k n) as [s1 n1] eqn:Q1. cbn [fst snd] in *. destruct (H1 mu1 n1 H3 B1) as (mu2 & E2 & B2).
      destruct (dump o n1) as [s2 n2] eqn:Q2. assert (EG : g (k, o) n = (s1 ++ s2 ++ bs "s", n2)) by (unfold g; rewrite Q1, Q2; reflexivity).
      rewrite many_cons, EG. cbn [fst snd] in *.
      destruct (IH H2 H4 mu2 n2 B2) as (mu3 & E3 & B3). exists mu3. split; [|exact B3]. rewrite <- !app_assoc. econstructor; eauto. }
    change (dump (PDict l) n) with (let (s1, n1) := memoised (bs "(d") n in let (s2, n2) := many g l n1 in (s1 ++ s2, n2)). unfold memoised. destruct (A l W DL (memoise None [decimal n] mu) (n + 1) (below_memoise _ _ _ B)) as (mu2 & E2 & B2).
    destruct (many g l (n + 1)) as [s2 n2]. cbn [fst snd] in *. exists (seal [decimal n] (PDict l) mu2). split; [|apply below_seal; exact B2].
    replace ((bs "(d" ++ put (decimal n)) ++ s2) with ("("%byte :: [] ++ bs "d" ++ puts [decimal n] ++ s2).
    2: { unfold puts. cbn [flat_map]. rewrite app_nil_r. reflexivity. }
    change (PDict l) with (PDict ([] ++ l)). eapply e_dict; [constructor|apply below_fresh; exact B|exact E2|exact ND].
  - intros m c mu n D B. inversion D; subst. eapply enc_memoised; [|exact B]. unfold line. rewrite <- app_assoc. apply e_global; auto.
  - intros c args W1 W2 mu n D B. inversion D; subst. change (dump (PReduce c args) n) with (dump_call c args n).
    destruct (works_call c args W1 W2 mu n) as (s1 & s2 & mu1 & mu2 & n2 & -> & E1 & E2 & B2); auto. eapply enc_memoised; [|exact B2]. eapply e_reduce; eauto.
  - intros o st W1 W2 mu n D B. inversion D as [| | | | | | | | |c args st' D1 D2]; subst. inversion D1; subst.
    destruct (W1 c args eq_refl) as [WC WA].
    change (dump (PBuild (PReduce c args) st) n) with (let (s1, n1) := dump_call c args n in let (s2, n2) := dump st n1 in (s1 ++ s2 ++ bs "b", n2)).
    destruct (works_call c args WC WA mu n) as (s1 & s2 & mu1 & mu2 & n2 & -> & E1 & E2 & B2); auto. unfold memoised.
    destruct (W2 (memoise (if lossy then Some (PReduce c args) else None) [decimal n2] mu2) (n2 + 1) D2 (below_memoise _ _ _ B2)) as (mu3 & E3 & B3). destruct (dump st (n2 + 1)) as [s3 n3]. cbn [fst snd] in *.
    exists mu3. split; [|exact B3]. replace (((s1 ++ s2 ++ bs "R") ++ put (decimal n2)) ++ s3 ++ bs "b") with (s1 ++ s2 ++ bs "R" ++ puts [decimal n2] ++ s3 ++ bs "b").
    2: { unfold puts. cbn [flat_map]. rewrite app_nil_r, <- !app_assoc. reflexivity. }
    eapply e_build; eauto. apply below_fresh. exact B2.
Qed.
End Dump.
