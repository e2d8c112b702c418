(** * C92: a class of a model is a model of its own *)

From Coq Require Import ZArith List Bool String Lia ZifyBool.
From Verif Require Import Go GoFloat GoText Cmd LgTree Transformation Ensembles Leaves
  Spec_Predict Spec_OneClass Demo Pf_Go Pf_Cmd Pf_Exec Pf_Leaves Pf_Rows Pf_Values Prop_Values Pf_OneClass.

(** When the whole model predicts, the class alone predicts, and gives the score the
    whole model gives for that class, bit for bit. *)
Theorem C92_class_alone :
  forall p e k e1 fvals nEstimators predictions out cell,
  well_formed e -> raw_output e -> table_fits e -> well_formed e1 -> one_class e k e1 ->
  Predict p e fvals nEstimators predictions = Ok out ->
  exists s, zget out k = Some s /\ Predict p e1 fvals nEstimators [cell] = Ok [s].
Proof.
  intros p e k e1 fv nE preds out cell Wf R T Wf1 O H. pose proof O as (Hk & G1 & Tr1 & N1 & F1 & _).
  destruct (Predict_raw p e fv nE preds Wf R) as (n & N & HN & En & Ln & EP).
  destruct (Predict_raw p e1 fv nE [cell] Wf1 (ex_intro _ 1 Tr1)) as (n1 & N1' & HN1 & En1 & _ & EP1).
  assert (N1' = N) by congruence. subst N1'. assert (Enn : n1 = n) by congruence. rewrite Enn in EP1. clear n1 En1 Enn.
  rewrite EP in H. destruct (Z.ltb_spec (zlen preds) (NRawOutputGroups e)); [discriminate|].
  destruct (Z.ltb_spec (zlen fv) (NFeatures e)) as [|Lf]; [discriminate|].
  unfold NRawOutputGroups in *. rewrite (core_NRaw (eBase e)) in *. rewrite (core_NRaw (eBase e1)) in G1.
  destruct (inner_score p (core (eBase e)) fv n preds out (flat_core _) ltac:(lia) H k Hk) as [Fi Z].
  destruct (class_fine p e k e1 fv n N O T HN Ln) as [Ff Fs].
  destruct (inner_runs p (core (eBase e1)) fv n [cell] (flat_core _)) as [out1 H1].
  { rewrite G1. reflexivity. }
  { intros j Hj. assert (j = 0) by lia. subst j. apply Ff. exact Fi. }
  exists (score_of p (core (eBase e)) fv n k). split; [exact Z|].
  rewrite EP1, F1. destruct (Z.ltb_spec (zlen fv) (NFeatures e)); [lia|].
  rewrite (core_NRaw (eBase e1)), G1. cbn [zlen List.length Z.of_nat Z.ltb Z.compare Pos.of_succ_nat Pos.compare Pos.compare_cont].
  destruct (inner_score p (core (eBase e1)) fv n [cell] out1 (flat_core _) ltac:(lia) H1 0 ltac:(lia)) as [_ Z1].
  rewrite H1. rewrite <- Fs. pose proof (exec_len _ _ _ H1) as L1.
  destruct out1 as [|a [|b l]]; unfold zlen in L1; cbn [List.length] in L1; try lia.
  cbn in Z1. congruence.
Qed.
Print Assumptions C92_class_alone.

(** And the whole model fails only when one of its classes does. *)
Theorem C92_classes_together :
  forall p e fvals nEstimators predictions,
  well_formed e -> raw_output e -> table_fits e -> NRawOutputGroups e <= zlen predictions ->
  (forall k, 0 <= k < NRawOutputGroups e -> exists e1 cell s,
     well_formed e1 /\ one_class e k e1 /\ Predict p e1 fvals nEstimators [cell] = Ok [s]) ->
  exists out, Predict p e fvals nEstimators predictions = Ok out.
Proof.
  intros p e fv nE preds Wf R T L H.
  destruct (Predict_raw p e fv nE preds Wf R) as (n & N & HN & En & Ln & EP).
  rewrite EP. destruct (Z.ltb_spec (zlen preds) (NRawOutputGroups e)); [lia|].
  assert (One : 0 <= 0 < NRawOutputGroups e) by (destruct Wf; lia).
  assert (K : forall k, 0 <= k < NRawOutputGroups e -> NFeatures e <= zlen fv /\ cell_fine p (core (eBase e)) fv n k).
  { intros k Hk. destruct (H k Hk) as (e1 & cell & s & Wf1 & O & P1). pose proof O as (_ & G1 & Tr1 & N1 & F1 & _).
    destruct (Predict_raw p e1 fv nE [cell] Wf1 (ex_intro _ 1 Tr1)) as (n1 & N1' & HN1 & En1 & _ & EP1).
    assert (N1' = N) by congruence. subst N1'. assert (Enn : n1 = n) by congruence. rewrite Enn in EP1. clear n1 En1 Enn.
    rewrite EP1 in P1. destruct (Z.ltb_spec (zlen [cell]) (NRawOutputGroups e1)); [discriminate|].
    rewrite F1 in P1. destruct (Z.ltb_spec (zlen fv) (NFeatures e)) as [|Lf]; [discriminate|]. split; [lia|].
    unfold NRawOutputGroups in G1. rewrite (core_NRaw (eBase e1)) in G1.
    destruct (inner_score p (core (eBase e1)) fv n [cell] [s] (flat_core _) ltac:(lia) P1 0 ltac:(lia)) as [Fi _].
    apply (class_fine p e k e1 fv n N O T HN Ln). exact Fi. }
  destruct (Z.ltb_spec (zlen fv) (NFeatures e)) as [Lf|Lf]; [destruct (K 0 One); lia|].
  unfold NRawOutputGroups in *. rewrite (core_NRaw (eBase e)) in *.
  apply inner_runs; [apply flat_core|exact L|]. intros k Hk. exact (proj2 (K k Hk)).
Qed.
Print Assumptions C92_classes_together.

(** the second class of the demonstration model, and the first column of the linear one *)
Definition class_raw : Ensemble :=
  mkEnsemble (BLg (mkLgEnsemble [tree3 (fint 1) (fint 2) (fint 3); stump 1 (fint 3) (fint 7) (fint 8)]
    1 1 (bs "lightgbm.gbdt") false)) (TransformRaw 1).
Definition class_lin : Ensemble :=
  mkEnsemble (BLinear (mkXgLinear 2 1 (fint 1) [1065353216; 1077936128; 1084227584])) (TransformRaw 1).

Example C92_hypotheses :
  well_formed demo_raw /\ raw_output demo_raw /\ table_fits demo_raw /\ well_formed class_raw /\ one_class demo_raw 1 class_raw /\
  Predict amd64 demo_raw [fint 2; fint 4] 0 (zeros 2) = Ok [fint 25; fint 10] /\
  Predict amd64 class_raw [fint 2; fint 4] 0 (zeros 1) = Ok [fint 10] /\
  well_formed demo_lin /\ raw_output demo_lin /\ table_fits demo_lin /\ well_formed class_lin /\ one_class demo_lin 0 class_lin /\
  Predict amd64 demo_lin [fint 2; fint 4] 0 (zeros 2) = Ok [fint 20; fint 27] /\
  Predict amd64 class_lin [fint 2; fint 4] 0 (zeros 1) = Ok [fint 20].
Proof.
  assert (A : well_formed demo_raw) by (repeat split; try reflexivity; vm_compute; discriminate).
  assert (B : well_formed class_raw) by (repeat split; try reflexivity; vm_compute; discriminate).
  assert (C : well_formed demo_lin) by (repeat split; try reflexivity; vm_compute; discriminate).
  assert (D : well_formed class_lin) by (repeat split; try reflexivity; vm_compute; discriminate).
  assert (E : one_class demo_raw 1 class_raw).
  { split; [split; [discriminate|reflexivity]|]. do 4 (split; [reflexivity|]). cbn [core eBase demo_raw class_raw]. split; [reflexivity|].
    intros n i Hn Hi. assert (n = 2) by (vm_compute in Hn; congruence). subst n.
    assert (J : i = 0 \/ i = 1) by lia. destruct J; subst i; reflexivity. }
  assert (F : one_class demo_lin 0 class_lin).
  { split; [split; [discriminate|reflexivity]|]. do 4 (split; [reflexivity|]). cbn [core eBase demo_lin class_lin]. split; [reflexivity|].
    intros i Hi. cbn [xlNumFeature demo_linear] in Hi. assert (J : i = 0 \/ i = 1 \/ i = 2) by lia. destruct J as [|[|]]; subst i; reflexivity. }
  repeat match goal with |- _ /\ _ => split end; try assumption; try (vm_compute; reflexivity); try (exists 2; reflexivity); try exact I;
    vm_compute; try discriminate.
  split; discriminate.
Qed.
