(** * Formatting of values in error messages *)

From Coq Require Import ZArith List Bool String Lia.
From Verif Require Import Go GoFloat GoText Pickle Spec_Fmt Pf_Text.
Import ListNotations.
Local Open Scope nat_scope.

Lemma Errorf_ok : forall A h vs msg (x : A), Errorf h vs msg = Ok x -> False.
Proof. intros A h vs msg x H. unfold Errorf in H. destruct (forallb _ _); discriminate. Qed.
Lemma Errorf_not_hang : forall A h vs msg, @Errorf A h vs msg <> Hang.
Proof. intros. unfold Errorf. destruct (forallb _ _); discriminate. Qed.

(** ** Induction over values *)
Section Ind.
Variable P : val -> Prop.
Hypotheses (Hnil : P VNil) (Hnone : P VNone) (Hint : forall z, P (VInt z)) (Hfloat : forall f, P (VFloat f)) (Huni : forall s, P (VUnicode s))
  (Htuple : forall l, Forall P l -> P (VTuple l)) (Hlist : forall a len cap, P (VList a len cap)) (Hdict : forall a, P (VDict a)) (Hglobal : forall m n, P (VGlobal m n))
  (Hreduce : forall c args, P c -> Forall P args -> P (VReduce c args)) (Hbuild : forall o args, P o -> P args -> P (VBuild o args)).
Fixpoint val_nested (v : val) : P v :=
  let all := fix all (l : list val) : Forall P l := match l with [] => Forall_nil P | w :: l' => Forall_cons w (val_nested w) (all l') end in
  match v with
  | VNil => Hnil | VNone => Hnone | VInt z => Hint z | VFloat f => Hfloat f | VUnicode s => Huni s
  | VTuple l => Htuple l (all l) | VList a len cap => Hlist a len cap | VDict a => Hdict a | VGlobal m n => Hglobal m n
  | VReduce c args => Hreduce c args (val_nested c) (all args) | VBuild o args => Hbuild o args (val_nested o) (val_nested args)
  end.
End Ind.

Section Heap.
Variable h : heap.
Notation P := (printable h).

Definition held (v : val) : list val :=
  match v with
  | VTuple l => l
  | VReduce c args => c :: args
  | VBuild o args => [o; args]
  | VDict a => flat_map (fun kv => match lookup (dict_at h a) (fst kv) with Some w => [w] | None => [] end) (dict_at h a)
  | VList a len _ => list_elems h a len
  | _ => []
  end.
Lemma lookup_key : forall A (d : list (bytes * A)) k w, lookup d k = Some w -> exists kv, In kv d /\ lookup d (fst kv) = Some w.
Proof.
  intros A d k w H. assert (G : exists kv, In kv d /\ beqb k (fst kv) = true).
  { revert H. induction d as [|[k' v'] d IH]; cbn [lookup]; [discriminate|]. destruct (beqb k k') eqn:E; intros H.
    - exists (k', v'). split; [left; reflexivity|exact E].
    - destruct (IH H) as (kv & I & B). exists kv. split; [right; exact I|exact B]. }
  destruct G as (kv & I & B). exists kv. split; [exact I|]. apply beqb_eq in B. rewrite <- B. exact H.
Qed.
Lemma held_holds : forall v w, In w (held v) <-> holds h v w.
Proof.
  intros v w. split.
  - destruct v; cbn [held]; intros H; try contradiction.
    + constructor. exact H.
    + constructor. exact H.
    + apply in_flat_map in H. destruct H as (kv & _ & H). destruct (lookup _ _) eqn:E; [|contradiction]. destruct H as [<-|[]]. econstructor. exact E.
    + destruct H as [<-|H]; [apply in_callable|apply in_args; exact H].
    + destruct H as [<-|[<-|[]]]; [apply in_object|apply in_state].
  - intros H. destruct H; cbn [held In]; auto. apply in_flat_map. destruct (lookup_key _ _ _ _ H) as (kv & I & E). exists kv. split; [exact I|]. rewrite E. left. reflexivity.
Qed.

(** ** One step of [printable] *)
Lemma p_tuple : forall k l, P k (VTuple l) = forallb (P k) l.
Proof. intros [|k] l; reflexivity. Qed.
Lemma p_reduce : forall k c args, P k (VReduce c args) = P k c && forallb (P k) args.
Proof. intros [|k] c args; reflexivity. Qed.
Lemma p_build : forall k o args, P k (VBuild o args) = P k o && P k args.
Proof. intros [|k] o args; reflexivity. Qed.
Lemma p_dict : forall k a, P (S k) (VDict a) = forallb (P k) (held (VDict a)).
Proof.
  intros k a. cbn [printable held]. set (d := dict_at h a).
  assert (G : forall l : list (bytes * val), forallb (fun kv => match lookup d (fst kv) with Some w => P k w | None => true end) l = forallb (P k) (flat_map (fun kv => match lookup d (fst kv) with Some w => [w] | None => [] end) l)).
  { induction l as [|kv l IH]; [reflexivity|]. cbn [forallb flat_map]. rewrite forallb_app, IH. destruct (lookup d (fst kv)); cbn [forallb]; [rewrite andb_true_r|]; reflexivity. }
  apply G.
Qed.
Lemma p_list : forall k a len cap, P (S k) (VList a len cap) = forallb (P k) (held (VList a len cap)).
Proof. reflexivity. Qed.
Lemma forallb_imp : forall A (f g : A -> bool) l, Forall (fun x => f x = true -> g x = true) l -> forallb f l = true -> forallb g l = true.
Proof. intros A f g l F. induction F as [|x l Hx F IH]; [reflexivity|]. cbn [forallb]. rewrite !andb_true_iff. intros [? ?]. auto. Qed.
Lemma p_mono : forall k v, P k v = true -> P (S k) v = true.
Proof.
  induction k as [|k IHk]; induction v as [| | | | |l F|a len cap|a| |c args Hc F|o args Ho Ha] using val_nested; intros H; try reflexivity; try discriminate H.
  all: rewrite ?p_tuple, ?p_reduce, ?p_build in *; try (apply andb_prop in H; destruct H as [H1 H2]; apply andb_true_iff; split; auto); try (eapply forallb_imp; eauto; fail).
  - rewrite p_list in *. eapply forallb_imp; [|exact H]. apply Forall_forall. intros. apply IHk. assumption.
  - rewrite p_dict in *. eapply forallb_imp; [|exact H]. apply Forall_forall. intros. apply IHk. assumption.
Qed.
Lemma p_le : forall k n v, k <= n -> P k v = true -> P n v = true.
Proof. intros k n v L H. induction L; auto using p_mono. Qed.
Lemma p_up : forall k v, (forall w, In w (held v) -> P k w = true) -> P (S k) v = true.
Proof.
  intros k v H. assert (F : forallb (P k) (held v) = true) by (apply forallb_forall; exact H).
  destruct v; try reflexivity; cbn [held] in *.
  - rewrite p_tuple. eapply forallb_imp; [|exact F]. apply Forall_forall. intros. apply p_mono. assumption.
  - rewrite p_list. exact F.
  - rewrite p_dict. exact F.
  - rewrite p_reduce. apply andb_true_iff. split; [apply p_mono; apply H; left; reflexivity|]. cbn [forallb] in F. apply andb_prop in F. destruct F as [_ F]. eapply forallb_imp; [|exact F]. apply Forall_forall. intros. apply p_mono. assumption.
  - rewrite p_build. apply andb_true_iff. split; apply p_mono; apply H; cbn; auto.
Qed.

(** ** Printable values are well founded *)
Lemma p_acc : forall k v, P k v = true -> Acc (fun w v => In w (held v)) v.
Proof.
  induction k as [|k IHk]; induction v as [| | | | |l F|a len cap|a| |c args Hc F|o args Ho Ha] using val_nested; intros H; try discriminate H; constructor; cbn [held]; intros w Hw; try contradiction.
  all: rewrite ?p_tuple, ?p_reduce, ?p_build in *.
  all: try (rewrite Forall_forall in F; rewrite ?andb_true_iff, ?forallb_forall in H; destruct Hw as [<-|Hw]; [apply Hc|apply F]; intuition auto; fail).
  all: try (rewrite Forall_forall in F; rewrite forallb_forall in H; apply F; auto; fail).
  all: try (apply andb_prop in H; destruct H as [H1 H2]; destruct Hw as [<-|[<-|[]]]; auto; fail).
  all: apply IHk.
  - rewrite p_list, forallb_forall in H. apply H. exact Hw.
  - rewrite p_dict, forallb_forall in H. apply H. exact Hw.
Qed.
Lemma acc_ends : forall v, Acc (fun w v => In w (held v)) v -> ~ endless h v.
Proof.
  intros v A. induction A as [v _ IH]. intros (path & E & S). apply (IH (path 1)).
  - subst v. apply held_holds. apply S.
  - exists (fun n => path (Datatypes.S n)). split; [reflexivity|]. intros n. apply S.
Qed.

(** ** The fuel is enough *)
Inductive ref : Type := RNil | RDict (a : nat) | RList (a n : nat).
Definition ref_dec : forall r s : ref, {r = s} + {r <> s}.
Proof. decide equality; apply Nat.eq_dec. Defined.
Definition deref (r : ref) : list val :=
  match r with RNil => [] | RDict a => held (VDict a) | RList a n => firstn n (arr_at h a) end.
Definition dict_ref (a : nat) : ref := match held (VDict a) with [] => RNil | _ => RDict a end.
Definition list_ref (a : nat) (len : Z) : ref := match list_elems h a len with [] => RNil | l => RList a (List.length l) end.
Fixpoint refs (v : val) : list ref :=
  match v with
  | VTuple l => flat_map refs l
  | VReduce c args => refs c ++ flat_map refs args
  | VBuild o args => refs o ++ refs args
  | VDict a => [dict_ref a]
  | VList a len _ => [list_ref a len]
  | _ => []
  end.
Definition Q (k : nat) (r : ref) : bool := match k with O => false | S k' => forallb (P k') (deref r) end.
Lemma deref_dict : forall a, deref (dict_ref a) = held (VDict a).
Proof. intros a. unfold dict_ref. destruct (held (VDict a)) eqn:E; [reflexivity|]. cbn [deref]. exact E. Qed.
Lemma deref_list : forall a len cap, deref (list_ref a len) = held (VList a len cap).
Proof.
  intros a len cap. unfold list_ref. cbn [held]. destruct (list_elems h a len) as [|w l] eqn:E; [reflexivity|]. rewrite <- E. cbn [deref]. unfold list_elems.
  generalize (arr_at h a). generalize (Z.to_nat len). clear. induction n as [|n IH]; intros [|x l]; cbn; try reflexivity. rewrite IH. reflexivity.
Qed.
Lemma forallb_flat : forall A B (f : A -> list B) (g : B -> bool) l, forallb g (flat_map f l) = forallb (fun x => forallb g (f x)) l.
Proof. intros. induction l as [|x l IH]; [reflexivity|]. cbn [flat_map forallb]. rewrite forallb_app, IH. reflexivity. Qed.
Lemma forallb_eq : forall A (f g : A -> bool) l, Forall (fun x => f x = g x) l -> forallb f l = forallb g l.
Proof. intros A f g l F. induction F; [reflexivity|]. cbn [forallb]. congruence. Qed.
Lemma p_refs : forall k v, P k v = forallb (Q k) (refs v).
Proof.
  intros k. induction v as [| | | | |l F|a len cap|a| |c args Hc F|o args Ho Ha] using val_nested; try (destruct k; reflexivity).
  - rewrite p_tuple. cbn [refs]. rewrite forallb_flat. apply forallb_eq. exact F.
  - cbn [refs forallb]. rewrite andb_true_r. destruct k; [reflexivity|]. cbn [Q]. rewrite (deref_list a len cap). apply p_list.
  - cbn [refs forallb]. rewrite andb_true_r. destruct k; [reflexivity|]. cbn [Q]. rewrite deref_dict. apply p_dict.
  - rewrite p_reduce. cbn [refs]. rewrite forallb_app, forallb_flat, <- Hc. f_equal. apply forallb_eq. exact F.
  - rewrite p_build. cbn [refs]. rewrite forallb_app. congruence.
Qed.
Lemma Q_mono : forall k n r, k <= n -> Q k r = true -> Q n r = true.
Proof.
  intros [|k] [|n] r L H; try discriminate; [lia|]. cbn [Q] in *. eapply forallb_imp; [|exact H]. apply Forall_forall. intros w _. apply p_le. lia.
Qed.

Fixpoint cell_refs (cells : list cell) (a : nat) : list ref :=
  match cells with
  | [] => []
  | CDict _ :: cells' => RDict a :: cell_refs cells' (S a)
  | CArr l :: cells' => map (RList a) (seq 1 (List.length l)) ++ cell_refs cells' (S a)
  end.
Definition all_refs : list ref := RNil :: cell_refs h O.
Lemma cell_refs_length : forall cells a, S (List.length (cell_refs cells a)) = heap_size cells.
Proof.
  induction cells as [|[d|l] cells IH]; intros a; [reflexivity| |]; unfold heap_size in *; cbn [cell_refs fold_right List.length].
  - rewrite (IH (S a)). reflexivity.
  - rewrite app_length, map_length, seq_length. specialize (IH (S a)). lia.
Qed.
Lemma in_cells : forall cells b a c, nth_error cells a = Some c ->
  match c with CDict _ => In (RDict (b + a)) (cell_refs cells b) | CArr l => forall n, 1 <= n <= List.length l -> In (RList (b + a) n) (cell_refs cells b) end.
Proof.
  induction cells as [|x cells IH]; intros b a c H; [destruct a; discriminate|]. destruct a as [|a].
  - injection H as ->. rewrite Nat.add_0_r. destruct c as [d|l]; cbn [cell_refs]; [left; reflexivity|]. intros n Hn. apply in_or_app. left. apply in_map. apply in_seq. lia.
  - specialize (IH (S b) a c H). replace (b + S a) with (S b + a) by lia. destruct c as [d|l].
    + destruct x as [d'|l']; cbn [cell_refs]; [right; exact IH|apply in_or_app; right; exact IH].
    + intros n Hn. specialize (IH n Hn). destruct x as [d'|l']; cbn [cell_refs]; [right; exact IH|apply in_or_app; right; exact IH].
Qed.
Lemma refs_all : forall v, incl (refs v) all_refs.
Proof.
  induction v as [| | | | |l F|a len cap|a| |c args Hc F|o args Ho Ha] using val_nested; cbn [refs]; try (intros r Hr; contradiction).
  - intros r Hr. apply in_flat_map in Hr. destruct Hr as (w & Hw & Hr). rewrite Forall_forall in F. exact (F w Hw r Hr).
  - intros r [<-|[]]. unfold list_ref. destruct (list_elems h a len) as [|w l] eqn:E; [left; reflexivity|]. right.
    assert (L : List.length (list_elems h a len) <= List.length (arr_at h a)) by (unfold list_elems; rewrite firstn_length; lia). rewrite E in L. unfold arr_at in L.
    destruct (nth_error h a) as [[d|l']|] eqn:N; [cbn in L; lia| |cbn in L; lia]. apply (in_cells h O a (CArr l') N). cbn [List.length] in *. lia.
  - intros r [<-|[]]. unfold dict_ref. destruct (held (VDict a)) eqn:E; [left; reflexivity|]. right. cbn [held] in E. unfold dict_at in E. destruct (nth_error h a) as [[d|l']|] eqn:N; [|discriminate|discriminate].
    exact (in_cells h O a (CDict d) N).
  - intros r Hr. apply in_app_or in Hr. destruct Hr as [Hr|Hr]; [exact (Hc r Hr)|]. apply in_flat_map in Hr. destruct Hr as (w & Hw & Hr). rewrite Forall_forall in F. exact (F w Hw r Hr).
  - intros r Hr. apply in_app_or in Hr. destruct Hr as [Hr|Hr]; [exact (Ho r Hr)|exact (Ha r Hr)].
Qed.
Lemma forallb_false : forall A (f : A -> bool) l, forallb f l = false -> exists x, In x l /\ f x = false.
Proof. intros A f l. induction l as [|x l IH]; [discriminate|]. cbn [forallb]. destruct (f x) eqn:E; [|exists x; split; [left; reflexivity|exact E]]. intros H. destruct (IH H) as (y & I & F). exists y. split; [right; exact I|exact F]. Qed.

Lemma chain : forall j v, P (S j) v = true -> P j v = false ->
  exists L, NoDup L /\ List.length L = S j /\ forall r, In r L -> In r all_refs /\ exists i, i <= j /\ Q (S i) r = true /\ Q i r = false.
Proof.
  induction j as [|j IH]; intros v H N; rewrite p_refs in H, N; rewrite forallb_forall in H; destruct (forallb_false _ _ _ N) as (r & I & F).
  - exists [r]. split; [constructor; [intros []|constructor]|]. split; [reflexivity|]. intros s [<-|[]]. split; [apply (refs_all v); exact I|]. exists O. auto.
  - pose proof (H r I) as T. cbn [Q] in F. destruct (forallb_false _ _ _ F) as (w & Iw & Fw).
    assert (Tw : P (S j) w = true). { cbn [Q] in T. rewrite forallb_forall in T. apply T. exact Iw. }
    destruct (IH w Tw Fw) as (L & ND & Len & A). exists (r :: L). split; [|split].
    + constructor; [|exact ND]. intros IL. destruct (A r IL) as (_ & i & Hi & Qi & _). assert (X : Q (S j) r = true) by (apply (Q_mono (S i)); [lia|exact Qi]). cbn [Q] in X. rewrite X in F. discriminate.
    + cbn [List.length]. congruence.
    + intros s [<-|Hs]; [split; [apply (refs_all v); exact I|]; exists (S j); auto|]. destruct (A s Hs) as (B & i & Hi & C). split; [exact B|]. exists i. split; [lia|exact C].
Qed.
Lemma enough : forall k v, P k v = true -> P (heap_size h) v = true.
Proof.
  intros k v H. destruct (Nat.le_gt_cases k (heap_size h)) as [L|L]; [eapply p_le; eauto|].
  induction k as [|k IH]; [lia|]. destruct (P k v) eqn:E.
  - destruct (Nat.eq_dec k (heap_size h)) as [->|]; [exact E|]. apply IH; [reflexivity|lia].
  - exfalso. destruct (chain k v H E) as (Ls & ND & Len & A). assert (I : incl Ls all_refs) by (intros r Hr; apply A; exact Hr).
    pose proof (NoDup_incl_length ND I) as B. unfold all_refs in B. cbn [List.length] in B. rewrite cell_refs_length in B. lia.
Qed.

(** ** What is not printable is endless *)
Definition inner (v : val) : val := match find (fun w => negb (P (heap_size h) w)) (held v) with Some w => w | None => v end.
Lemma inner_ok : forall v, P (heap_size h) v = false -> holds h v (inner v) /\ P (heap_size h) (inner v) = false.
Proof.
  intros v N. unfold inner. destruct (find _ _) as [w|] eqn:E.
  - apply find_some in E. destruct E as [I F]. split; [apply held_holds; exact I|]. apply negb_true_iff. exact F.
  - exfalso. assert (U : P (S (heap_size h)) v = true). { apply p_up. intros w Hw. pose proof (find_none _ _ E w Hw) as F. apply negb_false_iff. exact F. }
    apply enough in U. congruence.
Qed.
Lemma not_printable : forall v, P (heap_size h) v = false -> endless h v.
Proof.
  intros v N. exists (fun n => Nat.iter n inner v). split; [reflexivity|]. assert (F : forall n, P (heap_size h) (Nat.iter n inner v) = false) by (induction n as [|n IH]; [exact N|cbn [Nat.iter]; apply inner_ok; exact IH]).
  intros n. cbn [Nat.iter]. apply inner_ok. apply F.
Qed.
Lemma printable_iff : forall v, P (heap_size h) v = true <-> ~ endless h v.
Proof.
  intros v. split.
  - intros H. apply acc_ends. eapply p_acc. exact H.
  - intros H. destruct (P (heap_size h) v) eqn:E; [reflexivity|]. exfalso. apply H. apply not_printable. exact E.
Qed.
Lemma not_printable_iff : forall v, P (heap_size h) v = false <-> endless h v.
Proof.
  intros v. split; [apply not_printable|]. intros H. destruct (P (heap_size h) v) eqn:E; [|reflexivity]. apply printable_iff in E. contradiction.
Qed.
End Heap.
