(** Library particles, the negative and the undefined minimum mass (C54, C69, C70). *)
From Coq Require Import Reals ZArith String Lia Lra Bool.
From Coquelicot Require Import Coquelicot.
From Coq Require Import List.
From Verif Require Import Base XrFacts Nucleus_Model Nuclear_Model Particle_Model CrossSection_Model Distribution_Model Atom_Model Crystal_Model Rates_Model
  Kinematics_Proofs Detector_Model DetectorTypes_Model Poisson_Proofs Reach_Proofs.
Import ListNotations.
Local Open Scope R_scope.

(** * Contact interactions of light particles scatter off exactly the isotopes they couple to *)
Lemma contact_targets Integrate p m a b v l : kind p = SI -> low_mass p = true -> FF_DM p = "Contact"%string -> mass p = Fin m -> 0 < m -> fp p = Fin a -> fn p = Fin b ->
  (forall t, In t l -> exists M, imass t = Fin M /\ 0 < M) ->
  targets (Sigma_Total_Nucleus Integrate p) v l /\
  forall t, In t l -> (scatters (Sigma_Total_Nucleus Integrate p) v t <-> a * IZR (iZ t) + b * IZR (u32 (iA t - iZ t)) <> 0).
Proof.
  intros K L F Hm M0 Ha Hb HT. assert (P := PI_RGT_0).
  assert (S : forall t M, imass t = Fin M -> 0 < M -> Sigma_Total_Nucleus Integrate p t (Fin v) = Ok (Fin (mu m M ^ 2 / PI * (a * IZR (iZ t) + b * IZR (u32 (iA t - iZ t))) ^ 2))).
  { intros t M IM HM. clear HT. unfold Sigma_Total_Nucleus, IR_divergent, SI_coupling. rewrite K, L, F, Hm, IM, Ha, Hb. cbn [String.eqb Ascii.eqb Bool.eqb negb andb].
    rewrite Reduced_Mass_fin, !xmul_fin, xadd_fin, !xpow_fin, xdiv_fin, xmul_fin by lra. reflexivity. }
  split.
  - apply Forall_forall; intros t I. destruct (HT t I) as (M & IM & HM). exists M. eexists. split; [exact IM|]. split; [exact HM|]. apply (S t M); auto.
  - intros t I. destruct (HT t I) as (M & IM & HM). unfold scatters. rewrite (S t M IM HM). set (k := a * IZR (iZ t) + _). assert (h := mu_pos m M M0 HM).
    assert (Q : 0 < mu m M ^ 2 / PI) by (apply Rdiv_lt_0_compat; auto; apply pow_lt; auto). split.
    + intros (s & E & S0) Z. apply Ok_inj, Fin_inj in E. rewrite Z in E. subst s. replace (mu m M ^ 2 / PI * 0 ^ 2) with 0 in S0 by ring. lra.
    + intros N. eexists. split; [reflexivity|]. apply Rmult_lt_0_compat; auto. rewrite <- Rsqr_pow2. apply Rlt_0_sqr. auto.
Qed.

(** * Hydrogen and beryllium, threshold 8 keV, fastest particle at a thousandth of the speed of light: the light nucleus
      cannot reach the threshold at any mass and its formula turns negative. *)
Definition hydrogen : Isotope := mkIsotope 1 1 (Fin 1) (Fin 0) (Fin 0) (Fin 0) "H1" (Fin 1).
Definition beryllium : Isotope := mkIsotope 4 9 (Fin 1) (Fin 0) (Fin 0) (Fin 0) "Be9" (Fin 9).
Definition nBeH : list Nucleus := [mkNucleus (Some 1%Z) [hydrogen] "H"; mkNucleus (Some 4%Z) [beryllium] "Be"].
(** A detector of these nuclei with threshold [th] and resolution [rs]. *)
Definition nR (nuclei : list Nucleus) (th rs : R) : nuclear :=
  mkNuclear (with_range (Fin th) (Fin (1 / 10)) (with_using true false (Initialize_Poisson (Detector_ctor "test" (Fin 1) "Nuclei")))) nuclei (map (fun _ => Fin (1 / INR (List.length nuclei))) nuclei) (Fin rs) false [].
(** A light particle with contact interaction and couplings 1 and 1. *)
Definition probe : particle := mkParticle SI true (Fin 100) (Fin 1) true (Fin 1) (Fin 1) (Fin 1) true (Fin 0.5) (Fin 0.5) (Fin (1 / 10 ^ 40 * cm * cm)) "Contact" (Fin 0).

Lemma sqrt_value x y : 0 <= y -> x = y * y -> sqrt x = y.
Proof. intros H ->. apply sqrt_square. auto. Qed.
Lemma probe_targets Integrate v l : (forall t, In t l -> t = hydrogen \/ t = beryllium) ->
  targets (Sigma_Total_Nucleus Integrate probe) v l /\ forall t, In t l -> scatters (Sigma_Total_Nucleus Integrate probe) v t.
Proof.
  intros H. destruct (contact_targets Integrate probe 100 1 1 v l) as [T S]; try reflexivity; [lra| |].
  - intros t I. destruct (H t I) as [-> | ->]; [exists 1|exists 9]; split; try reflexivity; lra.
  - split; auto. intros t I. apply S; auto. destruct (H t I) as [-> | ->]; cbn [iZ iA hydrogen beryllium]; [change (u32 (1 - 1)) with 0%Z|change (u32 (9 - 4)) with 5%Z]; lra.
Qed.
Lemma nBeH_isotopes th rs t : In t (all_isotopes (nR nBeH th rs)) -> t = hydrogen \/ t = beryllium.
Proof. intros [<- | [<- | []]]; auto. Qed.

Lemma negative_mass_refuted : exists Integrate p n v r, n = nR nBeH (8 / 10 ^ 6) 0 /\ v = 1 / 1000 /\
  targets (Sigma_Total_Nucleus Integrate p) v (all_isotopes n) /\ (exists t, In t (all_isotopes n) /\ scatters (Sigma_Total_Nucleus Integrate p) v t /\ reachable (8 / 10 ^ 6) v t) /\
  Nuclear_Minimum_Mass (Sigma_Total_Nucleus Integrate p) (Fin v) n = Ok (Fin r) /\ r < 0 /\
  (forall m u t, 0 < m < 18 -> 0 <= u <= v -> In t (all_isotopes n) -> ~ recoils (8 / 10 ^ 6) u m t).
Proof.
  set (I0 := fun (_ : xr -> res xr) (_ _ : xr) => Ok (Fin 0)). exists I0, probe, (nR nBeH (8 / 10 ^ 6) 0), (1 / 1000), (-2). split; auto. split; auto.
  destruct (probe_targets I0 (1 / 1000) (all_isotopes (nR nBeH (8 / 10 ^ 6) 0)) (nBeH_isotopes _ _)) as [T S]. split; auto.
  assert (IB : In beryllium (all_isotopes (nR nBeH (8 / 10 ^ 6) 0))) by (right; left; auto). assert (IH : In hydrogen (all_isotopes (nR nBeH (8 / 10 ^ 6) 0))) by (left; auto).
  assert (P8 : 8 / 10 ^ 6 = 1 / 125000) by lra.
  split; [exists beryllium; split; auto; split; [apply S; auto|]; exists 9; split; [reflexivity|lra]|]. split; [|split; [lra|]].
  - destruct (S hydrogen IH) as (s1 & S1 & P1). destruct (S beryllium IB) as (s2 & S2 & P2). unfold Nuclear_Minimum_Mass. change (all_isotopes (nR nBeH (8 / 10 ^ 6) 0)) with [hydrogen; beryllium].
    cbn [mass_loop]. rewrite S1, S2. cbn [bind]. rewrite !xlt_true by lra. unfold mass_bound, nR. cbn [n_base n_resolution b_threshold with_range imass hydrogen beryllium].
    rewrite !xmul_fin, xsub_fin, !xdiv_fin by lra. rewrite !xsqrt_fin by lra.
    rewrite (sqrt_value _ 500), (sqrt_value _ 1500) by lra. rewrite !xmul_fin, !xsub_fin, !xdiv_fin by lra. unfold min_element. cbn [fold_left]. rewrite xlt_false by lra. do 2 f_equal. lra.
  - intros m u t [M0 M1] [U0 U1] I R.
    assert (V : recoils (8 / 10 ^ 6) (1 / 1000) m t) by (apply (slower _ u); auto; destruct I as [<- | [<- | []]]; eexists; split; try reflexivity; lra).
    clear R. rewrite P8 in V. destruct I as [<- | [<- | []]].
    + specialize (V 1 eq_refl). set (z := m * 1 / (m + 1)) in V. assert (Z : z * (m + 1) = m) by (unfold z; field; lra). assert (Z0 : 0 < z) by (apply Rdiv_lt_0_compat; lra). assert (Z1 : z < 1) by (apply (Rmult_lt_reg_r (m + 1)); lra). nra.
    + specialize (V 9 eq_refl). set (z := m * 9 / (m + 9)) in V. assert (Z : z * (m + 9) = 9 * m) by (unfold z; field; lra). assert (Z0 : 0 < z) by (apply Rdiv_lt_0_compat; lra). assert (Z1 : z < 6) by (apply (Rmult_lt_reg_r (m + 9)); lra). nra.
Qed.

(** No isotope couples (protons and neutrons cancel in the deuteron): the minimum of an empty list is read. *)
Definition deuterium : Isotope := mkIsotope 1 2 (Fin 1) (Fin 1) (Fin 0) (Fin 0) "H2" (Fin 1).
Definition opposite : particle := mkParticle SI true (Fin 100) (Fin 1) true (Fin 1) (Fin (-1)) (Fin 1) true (Fin 1) (Fin (-1)) (Fin (1 / 10 ^ 40 * cm * cm)) "Contact" (Fin 0).
Lemma undefined_mass_refuted : exists Integrate p n, (forall v, 0 < v -> targets (Sigma_Total_Nucleus Integrate p) v (all_isotopes n)) /\ all_isotopes n <> [] /\
  forall v, 0 < v -> Nuclear_Minimum_Mass (Sigma_Total_Nucleus Integrate p) (Fin v) n = UB.
Proof.
  set (I0 := fun (_ : xr -> res xr) (_ _ : xr) => Ok (Fin 0)). exists I0, opposite, (nR [mkNucleus (Some 1%Z) [deuterium] "H"] (1 / 1000) 0).
  assert (T : forall v, targets (Sigma_Total_Nucleus I0 opposite) v [deuterium] /\ forall t, In t [deuterium] -> (scatters (Sigma_Total_Nucleus I0 opposite) v t <-> 1 * IZR (iZ t) + (-1) * IZR (u32 (iA t - iZ t)) <> 0)).
  { intros v. apply (contact_targets I0 opposite 100); try reflexivity; [lra|]. intros t [<- | []]. exists 1. split; [reflexivity|lra]. }
  split; [intros v _; apply T|]. split; [discriminate|]. intros v Hv. apply minimum_mass_undefined. intros t [<- | []]. destruct (T v) as [T1 T2].
  assert (F := T1). inversion F as [|? ? (M & s & IM & HM & S) _]; subst. exists s. split; auto. apply Rnot_lt_le. intros Q. assert (N : scatters (Sigma_Total_Nucleus I0 opposite) v deuterium) by (exists s; auto).
  apply (T2 deuterium (or_introl eq_refl)) in N. apply N. cbn [iZ iA deuterium]. change (u32 (2 - 1)) with 1%Z. lra.
Qed.

(** Long range forces: asking for the minimum mass ends the program. *)
Lemma long_range_exits Integrate p n v : kind p = SI -> IR_divergent p = true -> all_isotopes n <> [] -> Nuclear_Minimum_Mass (Sigma_Total_Nucleus Integrate p) v n = Exit.
Proof.
  intros K F N. unfold Nuclear_Minimum_Mass. destruct (all_isotopes n) as [|t l]; [congruence|]. cbn [mass_loop]. unfold Sigma_Total_Nucleus at 1. rewrite K, F. reflexivity.
Qed.

(** Threshold below twice the resolution: the minimum mass is no number, and the minimum speed is the speed of light although every recoil counts. *)
Lemma resolution_refuted : exists Integrate p n, n = nR nBeH (1 / 10 ^ 6) (1 / 10 ^ 6) /\ (forall v, targets (Sigma_Total_Nucleus Integrate p) v (all_isotopes n)) /\
  (forall v t, In t (all_isotopes n) -> scatters (Sigma_Total_Nucleus Integrate p) v t) /\
  Nuclear_Minimum_Mass (Sigma_Total_Nucleus Integrate p) (Fin (1 / 1000)) n = Ok NaN /\ Nuclear_Minimum_Speed (Sigma_Total_Nucleus Integrate p) (mass p) n = Ok (Fin 1).
Proof.
  set (I0 := fun (_ : xr -> res xr) (_ _ : xr) => Ok (Fin 0)). exists I0, probe, (nR nBeH (1 / 10 ^ 6) (1 / 10 ^ 6)). split; auto.
  assert (TS := fun v => probe_targets I0 v (all_isotopes (nR nBeH (1 / 10 ^ 6) (1 / 10 ^ 6))) (nBeH_isotopes _ _)). split; [intros v; apply TS|]. split; [intros v; apply TS|].
  assert (SN : forall x, x < 0 -> xsqrt (Fin x) = NaN). { intros x Hx. unfold xsqrt. rewrite rneg_true by auto. reflexivity. }
  split.
  - destruct (TS (1 / 1000)) as [_ S]. destruct (S hydrogen (or_introl eq_refl)) as (s1 & S1 & P1). destruct (S beryllium (or_intror (or_introl eq_refl))) as (s2 & S2 & P2). unfold Nuclear_Minimum_Mass. change (all_isotopes (nR nBeH (1 / 10 ^ 6) (1 / 10 ^ 6))) with [hydrogen; beryllium].
    cbn [mass_loop]. rewrite S1, S2. cbn [bind]. rewrite !xlt_true by lra. unfold mass_bound, nR. cbn [n_base n_resolution b_threshold with_range imass hydrogen beryllium].
    rewrite !xmul_fin, xsub_fin, !xdiv_fin by lra. rewrite !SN by lra. reflexivity.
  - unfold Nuclear_Minimum_Speed, nR. cbn [n_base n_resolution b_threshold with_range]. change (all_isotopes _) with [hydrogen; beryllium]. cbn [speed_loop imass hydrogen beryllium mass probe].
    replace (Fin 1.0) with (Fin 1) by (f_equal; lra). unfold vMinimal_Nucleus. rewrite !Reduced_Mass_fin by lra. rewrite !xmul_fin, xsub_fin, !xmul_fin, !xpow_fin. assert (h1 := mu_pos 100 1 ltac:(lra) ltac:(lra)). assert (h9 := mu_pos 100 9 ltac:(lra) ltac:(lra)).
    assert (0 < mu 100 1 ^ 2) by (apply pow_lt; auto). assert (0 < mu 100 9 ^ 2) by (apply pow_lt; auto). rewrite !xdiv_fin by lra.
    assert (NEG : forall x y z, 0 < x -> 0 < y -> 0 < z -> (- x / y / z) < 0). { intros x y z X Y Z. assert (0 < x / y / z) by (apply Rdiv_lt_0_compat; auto; apply Rdiv_lt_0_compat; auto). replace (- x / y / z) with (- (x / y / z)) by (field; lra). lra. }
    replace (1 * (1 / 10 ^ 6 - 2.0 * (1 / 10 ^ 6))) with (- (1 / 10 ^ 6)) by lra. replace (9 * (1 / 10 ^ 6 - 2.0 * (1 / 10 ^ 6))) with (- (9 / 10 ^ 6)) by lra.
    rewrite !SN by (apply NEG; lra). reflexivity.
Qed.
