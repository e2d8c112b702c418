(** * C75: raw scores lie between the sums of the smallest and of the largest leaf values *)

From Coq Require Import ZArith List Bool String Lia ZifyBool Reals Lra.
From Coq Require Import Floats.SpecFloat.
From Flocq Require Import Core.Core IEEE754.BinarySingleNaN.
From Verif Require Import Go GoFloat Cmd UtilMath LgTree Transformation Ensembles Leaves Parallel Spec_Predict Spec_Split
  Spec_Transform Pf_Go Pf_Cmd Pf_Exec Pf_Leaves Pf_Calls Pf_Rows Pf_Float Pf_Split Pf_Range Pf_Tree Pf_Values Prop_Values Prop_Order Prop_Round Demo.
Local Open Scope Z_scope.

(** ** Monotonicity of addition *)
Lemma inf_le : forall x, is_nan x = false -> le64 (S754_infinity true) x.
Proof. intros [s|[|]| |s m e] H; simpl; auto; discriminate. Qed.
Lemma B2R_sign : forall x : B64, is_finite x = true -> if Bsign x then (B2R x <= 0)%R else (0 <= B2R x)%R.
Proof.
  intros [s|s| |s m e H] F; try discriminate; cbn [Bsign B2R]; [destruct s; lra|]. destruct s; [apply F2R_le_0|apply F2R_ge_0]; cbn; lia.
Qed.
(** a sum of finite values: rounded, or overflowed in one direction *)
Lemma fadd_any : forall x y : B64, is_finite x = true -> is_finite y = true ->
  (is_finite (Bplus mode_NE x y) = true /\ B2R (Bplus mode_NE x y) = rnd64 (B2R x + B2R y) /\ (- bpow radix2 emax < rnd64 (B2R x + B2R y) < bpow radix2 emax)%R) \/
  (B2SF (Bplus mode_NE x y) = S754_infinity false /\ (bpow radix2 emax <= rnd64 (B2R x + B2R y))%R) \/
  (B2SF (Bplus mode_NE x y) = S754_infinity true /\ (rnd64 (B2R x + B2R y) <= - bpow radix2 emax)%R).
Proof.
  intros x y Fx Fy. pose proof (Bplus_correct prec emax Hprec Hmax mode_NE x y Fx Fy) as HB. fold rnd64 in HB.
  destruct (Rlt_bool_spec (Rabs (rnd64 (B2R x + B2R y))) (bpow radix2 emax)) as [L|L].
  - destruct HB as (HR & HF & _). left. split; [exact HF|]. split; [exact HR|]. apply Rabs_def2 in L. lra.
  - right. destruct HB as (HO & HS). pose proof (B2R_sign x Fx) as Sx. pose proof (B2R_sign y Fy) as Sy. rewrite <- HS in Sy. rewrite HO. destruct (Bsign x).
    + right. split; [reflexivity|]. assert (rnd64 (B2R x + B2R y) <= 0)%R by (rewrite <- rnd64_0; apply rnd64_mono; lra). rewrite Rabs_left1 in L by lra. lra.
    + left. split; [reflexivity|]. assert (0 <= rnd64 (B2R x + B2R y))%R by (rewrite <- rnd64_0; apply rnd64_mono; lra). rewrite Rabs_pos_eq in L by lra. lra.
Qed.
Lemma not_nan_cases : forall x, valid64 x = true -> is_nan x = false -> x = S754_infinity true \/ x = S754_infinity false \/ exists b : B64, x = B2SF b /\ is_finite b = true.
Proof.
  intros x V N. destruct (valid_B x V) as [b <-]. destruct b as [s|[|]| |s m e H]; auto; try discriminate; right; right; eexists; split; reflexivity.
Qed.
Definition finite_number (x : f64) : Prop := valid64 x = true /\ finite64 x = true.
Lemma finite_cases : forall x, finite_number x -> exists b : B64, x = B2SF b /\ is_finite b = true.
Proof. intros x [V F]. destruct (valid_B x V) as [b <-]. exists b. rewrite finite_B in F. auto. Qed.
Lemma fadd_not_nan : forall a c, valid64 a = true -> is_nan a = false -> finite_number c -> valid64 (fadd a c) = true /\ is_nan (fadd a c) = false.
Proof.
  intros a c V N Fc. destruct (finite_cases c Fc) as (z & -> & Fz). destruct (not_nan_cases a V N) as [-> |[-> |(x & -> & Fx)]].
  - destruct z as [s|[|]| |s m e H]; try discriminate; split; reflexivity.
  - destruct z as [s|[|]| |s m e H]; try discriminate; split; reflexivity.
  - rewrite fadd_B. split; [apply B_valid|]. destruct (fadd_any x z Fx Fz) as [(F & _)|[(E & _)|(E & _)]]; [|rewrite E; reflexivity|rewrite E; reflexivity].
    destruct (Bplus mode_NE x z); try discriminate; reflexivity.
Qed.
Lemma fadd_le : forall a b c d, valid64 a = true -> valid64 b = true -> is_nan a = false -> is_nan b = false -> finite_number c -> finite_number d ->
  le64 a b -> le64 c d -> le64 (fadd a c) (fadd b d).
Proof.
  intros a b c d Va Vb Na Nb Fc Fd H1 H2. pose proof (proj2 (fadd_not_nan a c Va Na Fc)) as N1. pose proof (proj2 (fadd_not_nan b d Vb Nb Fd)) as N2.
  destruct (finite_cases c Fc) as (z & -> & Fz). destruct (finite_cases d Fd) as (w & -> & Fw).
  destruct (not_nan_cases a Va Na) as [-> |[-> |(x & -> & Fx)]].
  - replace (fadd (S754_infinity true) (B2SF z)) with (S754_infinity true); [apply inf_le; exact N2|]. destruct z as [s|[|]| |s m e H]; try discriminate; reflexivity.
  - apply inf_le64 in H1. subst b. replace (fadd (S754_infinity false) (B2SF w)) with (S754_infinity false); [apply le64_inf; exact N1|]. destruct w as [s|[|]| |s m e H]; try discriminate; reflexivity.
  - destruct (not_nan_cases b Vb Nb) as [-> |[-> |(y & -> & Fy)]].
    + exfalso. destruct x as [s|[|]| |s m e H]; try discriminate; exact H1.
    + replace (fadd (S754_infinity false) (B2SF w)) with (S754_infinity false); [apply le64_inf; exact N1|]. destruct w as [s|[|]| |s m e H]; try discriminate; reflexivity.
    + apply le64_B in H1; auto. apply le64_B in H2; auto. rewrite !fadd_B in *.
      assert (M : (rnd64 (B2R x + B2R z) <= rnd64 (B2R y + B2R w))%R) by (apply rnd64_mono; lra). pose proof (bpow_gt_0 radix2 emax) as P.
      destruct (fadd_any y w Fy Fw) as [(F2 & R2 & L2)|[(E2 & L2)|(E2 & L2)]]; [|rewrite E2; apply le64_inf; exact N1|].
      * destruct (fadd_any x z Fx Fz) as [(F1 & R1 & L1)|[(E1 & L1)|(E1 & L1)]]; [|lra|rewrite E1; apply inf_le; exact N2]. apply le64_B; auto. rewrite R1, R2. exact M.
      * destruct (fadd_any x z Fx Fz) as [(F1 & R1 & L1)|[(E1 & L1)|(E1 & L1)]]; [lra|lra|]. rewrite E1. apply inf_le. exact N2.
Qed.

(** ** Sums *)
Lemma sum_le : forall us vs a b, valid64 a = true -> valid64 b = true -> is_nan a = false -> is_nan b = false -> le64 a b ->
  Forall finite_number us -> Forall finite_number vs -> Forall2 le64 us vs -> le64 (sum_from a us) (sum_from b vs).
Proof.
  intros us vs a b Va Vb Na Nb H Fu Fv L. revert a b Va Vb Na Nb H Fu Fv. induction L as [|u v us vs Huv L IH]; intros a b Va Vb Na Nb H Fu Fv; [exact H|].
  inversion Fu as [|? ? Fu1 Fu2]; subst. inversion Fv as [|? ? Fv1 Fv2]; subst. unfold sum_from. cbn [fold_left]. change (le64 (sum_from (fadd a u) us) (sum_from (fadd b v) vs)).
  destruct (fadd_not_nan a u Va Na Fu1) as [V1 N1]. destruct (fadd_not_nan b v Vb Nb Fv1) as [V2 N2]. apply IH; auto. apply fadd_le; auto.
Qed.
Lemma between_finite : forall l v h, finite_number l -> finite_number h -> valid64 v = true -> le64 l v -> le64 v h -> finite_number v.
Proof. intros l v h [_ Fl] [_ Fh] V L H. split; [exact V|]. destruct v as [s|[|]| |s m e]; auto; destruct l as [sl|[|]| |sl ml el]; destruct h as [sh|[|]| |sh mh eh]; try discriminate; contradiction. Qed.
Lemma sum_between : forall (lo hi : Z -> f64) vs n a, valid64 a = true -> is_nan a = false -> zlen vs = n ->
  (forall i v, zget vs i = Some v -> finite_number (lo i) /\ finite_number (hi i) /\ valid64 v = true /\ le64 (lo i) v /\ le64 v (hi i)) ->
  le64 (sum_from a (map lo (zseq n))) (sum_from a vs) /\ le64 (sum_from a vs) (sum_from a (map hi (zseq n))).
Proof.
  intros lo hi vs n a Va Na L H. pose proof (zlen_nonneg _ vs) as N0.
  assert (Z2 : forall f : Z -> f64, zlen (map f (zseq n)) = n) by (intros f; unfold zlen, zseq; rewrite !map_length, seq_length; lia).
  assert (E : forall (R : f64 -> f64 -> Prop) us ws, zlen us = zlen ws -> (forall i u w, zget us i = Some u -> zget ws i = Some w -> R u w) -> Forall2 R us ws).
  { intros Q us. induction us as [|u us IH]; intros ws Lw HR; (destruct ws as [|w ws]; [|]); try (exfalso; unfold zlen in Lw; cbn [List.length] in Lw; lia); [constructor|constructor].
    - apply (HR 0); reflexivity.
    - apply IH; [unfold zlen in *; cbn [List.length] in Lw; lia|]. intros i u' w' H1 H2. pose proof (zget_range _ _ _ _ H1) as R1. apply (HR (i + 1)); rewrite zget_cons by lia; replace (i + 1 - 1) with i by lia; assumption. }
  assert (G : forall i v, zget vs i = Some v -> 0 <= i < n) by (intros i v Hi; apply zget_range in Hi; lia).
  assert (Fv : Forall finite_number vs). { apply Forall_forall. intros v Hv. apply in_zget in Hv. destruct Hv as [i Hi]. destruct (H i v Hi) as (A & B & C & D & F). exact (between_finite _ _ _ A B C D F). }
  assert (Fl : forall f : Z -> f64, (forall i v, zget vs i = Some v -> finite_number (f i)) -> Forall finite_number (map f (zseq n))).
  { intros f Hf. apply Forall_forall. intros w Hw. apply in_map_iff in Hw. destruct Hw as (i & <- & Hi). apply in_zseq in Hi. destruct (zget_some _ vs i ltac:(lia)) as [v Hv]. eauto. }
  split; apply sum_le; auto using le64_refl.
  - apply Fl. intros i v Hi. apply (H i v Hi).
  - apply E; [rewrite Z2; lia|]. intros i u w Hu Hw. rewrite zget_map_zseq in Hu by eauto. injection Hu as <-. apply (H i w Hw).
  - apply Fl. intros i v Hi. apply (H i v Hi).
  - apply E; [rewrite Z2; lia|]. intros i u w Hu Hw. rewrite zget_map_zseq in Hw by eauto. injection Hw as <-. apply (H i u Hu).
Qed.

Lemma zget_combine : forall A B (us : list A) (ws : list B) i u w, zget (combine us ws) i = Some (u, w) -> zget us i = Some u /\ zget ws i = Some w.
Proof.
  intros A B us. induction us as [|a us IH]; intros ws i u w H; [pose proof (zget_range _ _ _ _ H) as R; cbn in R; lia|].
  destruct ws as [|b ws]; [pose proof (zget_range _ _ _ _ H) as R; cbn in R; lia|].
  cbn [combine] in H. pose proof (zget_range _ _ _ _ H) as R. destruct (Z.eq_dec i 0) as [->|Hi].
  - cbn in H. injection H as <- <-. auto.
  - rewrite zget_cons in H by lia. rewrite !zget_cons by lia. auto.
Qed.

(** ** The theorems *)

(** [lo i] and [hi i] are finite numbers around everything tree number [i] can contribute *)
Definition spans (trees : list lgTree) (contribution : Z -> f64 -> f64) (lo hi : Z -> f64) : Prop :=
  forall i t, zget trees i = Some t -> finite_number (lo i) /\ finite_number (hi i) /\
    Forall (fun v => valid64 (contribution i v) = true /\ le64 (lo i) (contribution i v) /\ le64 (contribution i v) (hi i)) (tLeafValues t).
(** the bounds of the first [n] trees of group [k], added up from [start] as floating point numbers *)
Definition total (start : f64) (bound : Z -> f64) (g k n : Z) : f64 := sum_from start (map (fun i => bound (i * g + k)) (zseq n)).

(** LightGBM and scikit-learn: whatever the features, each raw score lies between the sum of the
    smallest and the sum of the largest leaf values of the trees used, sums taken with the same
    rounding as the score.  It is never NaN. *)
Theorem C75_score_range :
  forall p e m lo hi fvals nEstimators predictions out,
  well_formed e -> raw_output e -> core (eBase e) = BLg m -> lgAverageOutput m = false -> spans (lgTrees m) (fun _ v => v) lo hi ->
  Predict p e fvals nEstimators predictions = Ok out ->
  exists n, used_estimators e nEstimators n /\
  forall k, 0 <= k < NRawOutputGroups e -> exists y, zget out k = Some y /\
    le64 (total fzero lo (NRawOutputGroups e) k n) y /\ le64 y (total fzero hi (NRawOutputGroups e) k n).
Proof.
  intros p e m lo hi fv nE preds out W R C A Sp H.
  assert (V : valid_leaves (lgTrees m)).
  { apply Forall_forall. intros t Ht. apply in_zget in Ht. destruct Ht as [i Hi]. destruct (Sp i t Hi) as (_ & _ & F). eapply Forall_impl; [|exact F]. cbv beta. intros v Hv. apply Hv. }
  destruct (C11_raw_score_is_plain_sum p e m fv nE preds out W R C A V H) as (n & U & K). exists n. split; [exact U|].
  intros k Hk. destruct (K k Hk) as (vs & T & Z). eexists. split; [exact Z|]. destruct T as [L T]. unfold total.
  apply (sum_between (fun i => lo (i * NRawOutputGroups e + k)) (fun i => hi (i * NRawOutputGroups e + k)) vs n fzero); auto.
  intros i v Hi. destruct (T i) as (t & v' & leaf & Ht & Hp & Hv). { apply zget_range in Hi. lia. } assert (v' = v) by congruence. subst v'.
  destruct (Sp _ t Ht) as (F1 & F2 & F). rewrite Forall_forall in F. split; [exact F1|]. split; [exact F2|]. apply F. eapply predict_leaf_in; eauto.
Qed.
Print Assumptions C75_score_range.

(** random forests: the contributions are the leaf values times the rounded 1/n *)
Theorem C75_forest_range :
  forall p e m fvals nEstimators predictions out,
  well_formed e -> raw_output e -> core (eBase e) = BLg m -> lgAverageOutput m = true ->
  Predict p e fvals nEstimators predictions = Ok out ->
  exists n, used_estimators e nEstimators n /\
  forall lo hi, spans (lgTrees m) (fun _ v => fmul v (fdiv fone (f64_of_Z n))) lo hi ->
  forall k, 0 <= k < NRawOutputGroups e -> exists y, zget out k = Some y /\
    le64 (total fzero lo (NRawOutputGroups e) k n) y /\ le64 y (total fzero hi (NRawOutputGroups e) k n).
Proof.
  intros p e m fv nE preds out W R C A H.
  destruct (C12_average_output p e m fv nE preds out W R C A H) as (n & U & K). exists n. split; [exact U|]. intros lo hi Sp.
  intros k Hk. destruct (K k Hk) as (vs & T & Z). eexists. split; [exact Z|]. destruct T as [L T]. unfold total.
  apply (sum_between (fun i => lo (i * NRawOutputGroups e + k)) (fun i => hi (i * NRawOutputGroups e + k)) _ n fzero); auto; [unfold zlen in *; rewrite map_length; exact L|].
  intros i c Hi. rewrite zget_map in Hi. destruct (zget vs i) as [v|] eqn:Ev; [|discriminate]. injection Hi as <-. destruct (T i) as (t & v' & leaf & Ht & Hp & Hv). { apply zget_range in Ev. lia. } assert (v' = v) by congruence. subst v'.
  destruct (Sp _ t Ht) as (F1 & F2 & F). rewrite Forall_forall in F. split; [exact F1|]. split; [exact F2|]. apply (F v). eapply predict_leaf_in; eauto.
Qed.
Print Assumptions C75_forest_range.

(** XGBoost: the contributions are the leaf values times the weights of the trees, added to the
    base score *)
Theorem C75_xgboost_range :
  forall p e m lo hi fvals nEstimators predictions out,
  well_formed e -> raw_output e -> core (eBase e) = BXg m -> finite_number (xgBaseScore m) ->
  spans (xgTrees m) (fun i v => fmul v (match zget (xgWeightDrop m) i with Some w => w | None => fone end)) lo hi ->
  Predict p e fvals nEstimators predictions = Ok out ->
  exists n, used_estimators e nEstimators n /\
  forall k, 0 <= k < NRawOutputGroups e -> exists y, zget out k = Some y /\
    le64 (total (xgBaseScore m) lo (NRawOutputGroups e) k n) y /\ le64 y (total (xgBaseScore m) hi (NRawOutputGroups e) k n).
Proof.
  intros p e m lo hi fv nE preds out W R C [Vb Fb] Sp H.
  destruct (C13_xgboost_score p e m fv nE preds out W R C H) as (n & U & K). exists n. split; [exact U|].
  intros k Hk. destruct (K k Hk) as (vs & ws & T & Lw & Gw & Z). eexists. split; [exact Z|]. destruct T as [L T]. unfold total.
  apply (sum_between (fun i => lo (i * NRawOutputGroups e + k)) (fun i => hi (i * NRawOutputGroups e + k)) _ n); auto.
  { destruct (xgBaseScore m); auto; discriminate. }
  { unfold zlen in *. rewrite map_length, combine_length. lia. }
  intros i c Hi. rewrite zget_map in Hi. destruct (zget (combine vs ws) i) as [[v w]|] eqn:Ev; [|discriminate]. injection Hi as <-.
  pose proof (zget_range _ _ _ _ Ev) as Ri. assert (Ri' : 0 <= i < n) by (unfold zlen in *; rewrite combine_length in Ri; lia).
  destruct (zget_combine _ _ _ _ _ _ _ Ev) as [Ev1 Ev2].
  destruct (T i Ri') as (t & v' & leaf & Ht & Hp & Hv). assert (v' = v) by congruence. subst v'.
  destruct (Sp _ t Ht) as (F1 & F2 & F). rewrite <- Gw, Ev2 in F by lia. rewrite Forall_forall in F. split; [exact F1|]. split; [exact F2|]. cbn [fst snd]. apply (F v). eapply predict_leaf_in; eauto.
Qed.
Print Assumptions C75_xgboost_range.

(** the bounds of the four trees of [demo_lg] and of the two of [demo_xg]; the scores computed by
    [values_case_lg], [values_case_rf] and [values_case_xg] lie between them *)
Definition pick (l : list Z) (i : Z) : f64 := match zget l i with Some z => fint z | None => fzero end.
Definition spansb (trees : list lgTree) (contribution : Z -> f64 -> f64) (lo hi : Z -> f64) : bool :=
  forallb (fun i => match zget trees i with None => true | Some t =>
    (valid64 (lo i) && finite64 (lo i)) && (valid64 (hi i) && finite64 (hi i)) &&
    forallb (fun v => valid64 (contribution i v) && fle (lo i) (contribution i v) && fle (contribution i v) (hi i)) (tLeafValues t) end) (zseq (zlen trees)).
Lemma spansb_ok : forall trees c lo hi, spansb trees c lo hi = true -> spans trees c lo hi.
Proof.
  intros trees c lo hi H i t Ht. unfold spansb in H. rewrite forallb_forall in H. specialize (H i). rewrite Ht in H. rewrite in_zseq in H. specialize (H (zget_range _ _ _ _ Ht)).
  apply andb_prop in H. destruct H as [H F]. apply andb_prop in H. destruct H as [A B]. apply andb_prop in A. apply andb_prop in B. split; [exact A|]. split; [exact B|]. rewrite forallb_forall in F. apply Forall_forall. intros v Hv. specialize (F v Hv).
  rewrite !andb_true_iff in F. destruct F as [[F1 F2] F3]. destruct A, B. split; [exact F1|]. split; apply fle_le64; auto.
Qed.
Example C75_demo :
  spans (lgTrees demo_lg) (fun _ v => v) (pick [10; 1; 4; 7]) (pick [20; 3; 6; 8]) /\
  (total fzero (pick [10; 1; 4; 7]) 2 0 2, total fzero (pick [20; 3; 6; 8]) 2 0 2) = (fint 14, fint 26) /\
  (total fzero (pick [10; 1; 4; 7]) 2 1 2, total fzero (pick [20; 3; 6; 8]) 2 1 2) = (fint 8, fint 11) /\
  spans (lgTrees demo_lg) (fun _ v => fmul v (fdiv fone (f64_of_Z 2))) (pick [5; 0; 2; 3]) (pick [10; 2; 3; 4]) /\
  (finite_number (xgBaseScore demo_xg) /\ spans (xgTrees demo_xg) (fun i v => fmul v (match zget (xgWeightDrop demo_xg) i with Some w => w | None => fone end)) (pick [10; 2]) (pick [20; 6])) /\
  (total (xgBaseScore demo_xg) (pick [10; 2]) 1 0 2, total (xgBaseScore demo_xg) (pick [20; 6]) 1 0 2) = (fint 15, fint 29).
Proof.
  split; [apply spansb_ok; vm_compute; reflexivity|]. split; [vm_compute; reflexivity|]. split; [vm_compute; reflexivity|]. split; [apply spansb_ok; vm_compute; reflexivity|].
  split; [split; [split; vm_compute; reflexivity|apply spansb_ok; vm_compute; reflexivity]|vm_compute; reflexivity].
Qed.
