(** * Properties of a single tree: C23, C24, C52 *)

From Coq Require Import ZArith List Bool String Lia ZifyBool.
From Verif Require Import Go GoFloat GoText UtilBits LgTree Spec_Walk Demo Pf_Go Pf_Tree.

(** ** C52 *)
Theorem C52_traversal_bounded_or_divergent :
  forall p t fvals, tNodes t <> [] ->
  (exists n r, stops p t fvals n r /\ predict p t fvals = r /\
     Z.of_nat n <= nNodes t + 1 /\ (is_ok r = true -> Z.of_nat n <= nNodes t)) \/
  (predict p t fvals = Hang /\ diverges p t fvals).
Proof.
  intros p t fv Hne. unfold predict. destruct (tNodes t) as [|nd nds] eqn:E; [congruence|]. rewrite <- E.
  destruct (loop_cases p t fv (S (List.length (tNodes t))) O 0 (visits_O _ _ _)) as [(n & r & Hn & Hs & Hl)|[Hl [i Hi]]].
  - left. exists n, r. repeat split; auto; unfold nNodes, zlen.
    + lia.
    + intros Hok. destruct (Nat.eq_dec n (S (List.length (tNodes t)))) as [->|]; [|lia].
      exfalso. pose proof Hs as (k & i & Ek & Hv & Hst). injection Ek as <-.
      destruct (predict_step p t fv i) as [s| | |] eqn:Es; try (rewrite Hst in Hok; discriminate).
      pose proof (step_in_range _ _ _ _ _ Es) as Hr.
      (* the visited nodes together with the last one are too many *)
      destruct (visits_list p t fv _ _ Hv) as (l & Hlen & Hvl).
      destruct (pigeon (l ++ [i]) (zlen (tNodes t)) (zlen_nonneg _ _)) as (a & b & x & Hab & Ha & Hb).
      * intros x Hx. apply in_app_or in Hx. destruct Hx as [Hx|[<-|[]]]; auto.
        apply In_nth_error in Hx. destruct Hx as [k' Hk']. apply (Hvl k' x Hk').
      * rewrite zlen_app. unfold zlen. simpl. lia.
      * assert (Hall : forall k x, nth_error (l ++ [i]) k = Some x -> visits p t fv k x).
        { intros k x' Hk. destruct (Nat.lt_ge_cases k (List.length l)) as [Hlt|Hge].
          - rewrite nth_error_app1 in Hk by auto. apply Hvl; auto.
          - rewrite nth_error_app2 in Hk by auto. destruct (k - List.length l)%nat eqn:Ek2.
            + simpl in Hk. injection Hk as <-. replace k with (List.length (tNodes t)) by lia. auto.
            + destruct n; discriminate. }
        eapply (stops_not_diverges p t fv _ _ Hs).
        eapply repeat_diverges; [exact Hab|apply Hall; eauto|apply Hall; eauto].
  - right. split; auto. eapply long_diverges; eauto. unfold zlen. lia.
Qed.
Print Assumptions C52_traversal_bounded_or_divergent.

(** exhausting the fuel of the model means that the Go loop never ends *)
Theorem predict_hang_is_divergence :
  forall p t fvals, predict p t fvals = Hang <-> (tNodes t <> [] /\ diverges p t fvals).
Proof.
  intros p t fv. destruct (tNodes t) eqn:E.
  - unfold predict. rewrite E. unfold at_. destruct (zget _ _); simpl; split; try discriminate; intros [H _]; congruence.
  - assert (Hne : tNodes t <> []) by congruence.
    destruct (C52_traversal_bounded_or_divergent p t fv Hne) as [(n & r & Hs & Hp & _)|[Hp Hd]].
    + split.
      * intros H. rewrite H in Hp. subst r. exfalso.
        destruct Hs as (k & i & _ & _ & Hst).
        assert (Hnh : predict_step p t fv i <> Hang).
        { unfold predict_step, at_. destruct (zget (tNodes t) i); simpl; [|discriminate].
          destruct (zget fv _); simpl; [|discriminate].
          unfold decision. destruct (has _ categorical).
          - unfold categoricalDecision, findInBitset, at_.
            repeat (match goal with |- context [match ?x with _ => _ end] => destruct x end; simpl; try discriminate).
          - simpl. repeat (match goal with |- context [match ?x with _ => _ end] => destruct x end; simpl; try discriminate). }
        destruct (predict_step p t fv i) as [[|]| | |]; try discriminate; try contradiction; congruence.
      * intros [_ Hd]. exfalso. eapply stops_not_diverges; eauto.
    + split; intros _; auto. split; auto; congruence.
Qed.
Print Assumptions predict_hang_is_divergence.

Example C52_case_stops : stops amd64 (tree3 (fint 1) (fint 2) (fint 3)) (map fint [1; 9]) 2 (Ok (fint 3, 2)).
Proof.
  exists 1%nat, 1. split; auto. split; [|vm_compute; reflexivity].
  eapply visits_S; [apply visits_O|]. vm_compute. reflexivity.
Qed.
(** a node whose left child is itself *)
Example C52_case_diverges :
  predict amd64 (mkTree [mkNode fzero 0 1 0 rightLeaf] [fone; fone] [] [] 0) [fzero] = Hang.
Proof. vm_compute. reflexivity. Qed.
