(** * C80: the two formats of LightGBM say the same *)

From Coq Require Import ZArith List Bool String Lia.
From Verif Require Import Go GoFloat GoText Transformation Ensembles Leaves LgTextIO LgJsonIO JsonText Spec_Predict Spec_LgFile Spec_Decimal Spec_Write Pf_Go Prop_WriteJson Prop_WriteText.
Local Open Scope Z_scope.

Lemma values_of_unique : forall R V (gl : R -> f64 -> bool) (val : V -> f64) ts g k n x vs ws, values_of gl val ts g k n x vs -> values_of gl val ts g k n x ws -> vs = ws.
Proof.
  intros R V gl val ts g k n x vs ws [L1 A] [L2 B]. apply zget_ext; [congruence|]. intros i Hi. rewrite L1 in Hi. destruct (A i Hi) as (t & v & T & X & Y), (B i Hi) as (t' & v' & T' & X' & Y').
  rewrite T in T'. injection T' as <-. rewrite X in X'. injection X' as <-. congruence.
Qed.

(** An ensemble that can be written in both formats: a text file and a JSON document whose models have the same shape
    and the same raw scores, bit for bit. *)
Theorem C80_formats_agree :
  forall p limit features groups objective tr trees,
  reads_integers p -> reads_indices p -> 2 ^ 26 <= pl_maxalloc p -> 1 <= features <= 2 ^ 32 -> 1 <= groups <= pl_maxalloc p -> groups < 2 ^ 63 ->
  1 <= zlen trees <= MaxInt -> zlen trees mod groups = 0 ->
  value_ok objective -> objective_means groups objective tr ->
  Forall (fun t => made_of features (fun r => trule_ok p r /\ lrule_ok p r) (fun v => token_ok p v /\ lit_ok p v) t /\
                   leaves_in t <= 2 ^ 31 /\ leaves_in t - 1 <= pl_maxalloc p /\ words_in t < 2 ^ 32 /\ 3 + depth_of t <= limit) trees ->
  exists text json, forall rest1 rest2 eof1 eof2, exists e1 e2,
    LGEnsembleFromReader p (mkReader (text ++ rest1) eof1) false = Ok e1 /\
    LGEnsembleFromJSONReader p limit (mkReader (json ++ rest2) eof2) false = Ok e2 /\
    NRawOutputGroups e1 = NRawOutputGroups e2 /\ NFeatures e1 = NFeatures e2 /\ NEstimators e1 = NEstimators e2 /\
    forall x nEstimators predictions1 predictions2, features <= zlen x -> groups <= zlen predictions1 -> groups <= zlen predictions2 ->
    exists out1 out2,
      Predict p (EnsembleWithRawPredictions e1) x nEstimators predictions1 = Ok out1 /\ Predict p e2 x nEstimators predictions2 = Ok out2 /\
      forall k, 0 <= k < groups -> exists score, zget out1 k = Some score /\ zget out2 k = Some score.
Proof.
  intros p limit features groups objective tr trees R1 R2 Ha Hf Hg Hg' Hn Hm Ho Hom Ht.
  assert (W : forall t, made_of features (fun r => trule_ok p r /\ lrule_ok p r) (fun v => token_ok p v /\ lit_ok p v) t -> made_of features (trule_ok p) (token_ok p) t /\ made_of features (lrule_ok p) (lit_ok p) t).
  { induction t as [v|f r l IHl r' IHr]; cbn [made_of]; [tauto|]. intros (A & [B C] & D & E). specialize (IHl D). specialize (IHr E). tauto. }
  destruct (C80_lightgbm_text p features groups false objective tr trees) as (text & T); auto.
  { eapply Forall_impl; [|exact Ht]. intros t (M & A & B & C & D). destruct (W t M). tauto. }
  destruct (C80_lightgbm_json p limit features groups trees) as (json & J); auto.
  { eapply Forall_impl; [|exact Ht]. intros t (M & A & B & C & D). destruct (W t M). repeat split; try assumption. lia. }
  exists text, json. intros rest1 rest2 eof1 eof2. destruct (T rest1 eof1 false) as (e1 & E1 & G1 & F1 & _ & N1 & P1). destruct (J rest2 eof2) as (e2 & E2 & G2 & F2 & _ & N2 & P2).
  exists e1, e2. split; [exact E1|]. split; [exact E2|]. split; [congruence|]. split; [congruence|]. split; [congruence|]. intros x nE pr1 pr2 Hx H1 H2.
  destruct (P1 x nE pr1 Hx H1) as (o1 & n1 & Q1 & U1 & K1). destruct (P2 x nE pr2 Hx H2) as (o2 & n2 & Q2 & U2 & K2). exists o1, o2. split; [exact Q1|]. split; [exact Q2|].
  assert (n1 = n2) as <-. { destruct U1 as (k1 & V1 & U1), U2 as (k2 & V2 & U2). rewrite N1 in V1. rewrite N2 in V2. injection V1 as <-. injection V2 as <-. lia. }
  intros k Hk. destruct (K1 k Hk) as (vs & A & B), (K2 k Hk) as (ws & C & D). rewrite (values_of_unique _ _ _ _ _ _ _ _ _ _ _ C A) in D. eauto.
Qed.
