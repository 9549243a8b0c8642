(** Property theorems about cross sections and scattering angles (C12-C19). *)
From Coq Require Import Reals List ZArith String Lra Lia.
From Coquelicot Require Import Coquelicot.
From Verif Require Import Base XrFacts Quadrature Nucleus_Model Particle_Model Particle_Proofs CrossSection_Model CrossSection_Proofs Helm_Proofs Angle_Proofs.
Import ListNotations.
Local Open Scope R_scope.

(** C12: the value returned for the total cross section is the integral over 0 <= q2 <= q2max of the particle's own
    differential cross section. *)
Theorem C12_light_nuclei : forall Integrate s t m p n se mm M v,
  kind s = SI -> low_mass s = true -> regular s m p n se mm -> IR_finite s mm -> imass t = Fin M -> 0 < M -> 0 < v ->
  exists g I, (forall x, 0 <= x <= q2_max m M v -> dSigma_dq2_Nucleus s (xsqrt (Fin x)) t (Fin v) = Ok (Fin (g x))) /\
    is_RInt g 0 (q2_max m M v) I /\ Sigma_Total_Nucleus Integrate s t (Fin v) = Ok (Fin I).
Proof. exact analytic_total_nucleus_SI. Qed.
Print Assumptions C12_light_nuclei.

Theorem C12_electrons : forall s m p n se mm v,
  regular s m p n se mm -> (kind s = SD \/ IR_finite s mm) -> 0 < v ->
  exists g I, (forall x, 0 <= x <= q2_max m mElectron v -> dSigma_dq2_Electron s (xsqrt (Fin x)) (Fin v) = Ok (Fin (g x))) /\
    is_RInt g 0 (q2_max m mElectron v) I /\ Sigma_Total_Electron s (Fin v) = Ok (Fin I).
Proof. exact analytic_total_electron. Qed.
Print Assumptions C12_electrons.

Theorem C12_spin_dependent : forall Integrate s t m p n se mm M v j sp sn,
  kind s = SD -> regular s m p n se mm -> imass t = Fin M -> 0 < M -> 0 < v ->
  ispin t = Fin j -> isp t = Fin sp -> isn t = Fin sn ->
  exists g I, (forall x, 0 <= x <= q2_max m M v -> dSigma_dq2_Nucleus s (xsqrt (Fin x)) t (Fin v) = Ok (Fin (g x))) /\
    is_RInt g 0 (q2_max m M v) I /\ Sigma_Total_Nucleus Integrate s t (Fin v) = Ok (Fin I).
Proof. exact analytic_total_nucleus_SD. Qed.
Print Assumptions C12_spin_dependent.

(** Hence the closed formulas agree with the generic numerical integration. *)
Theorem C12_closed_equals_generic : forall Integrate s t m p n se mm M v, ideal_quadrature Integrate ->
  kind s = SI -> low_mass s = true -> regular s m p n se mm -> IR_finite s mm -> imass t = Fin M -> 0 < M -> 0 < v ->
  Sigma_Total_Nucleus_Base Integrate s t (Fin v) = Sigma_Total_Nucleus Integrate s t (Fin v) /\
  Sigma_Total_Electron_Base Integrate s (Fin v) = Sigma_Total_Electron s (Fin v).
Proof. exact closed_equals_base. Qed.
Print Assumptions C12_closed_equals_generic.

(** Instances: a reachable light particle, and its mediator variant, on xenon 131. *)
Example C12_instance : reachable light /\ kind light = SI /\ low_mass light = true /\
  regular light 10 c0 c0 (1 / 10 ^ 40 * cm * cm) 0 /\ IR_finite light 0 /\
  regular (Set_Mediator_Mass (Fin 2) massless) 10 c0 c0 (1 / 10 ^ 40 * cm * cm) 2 /\ IR_finite (Set_Mediator_Mass (Fin 2) massless) 2 /\
  imass Xe131 = Fin (131 * mNucleon) /\ 0 < 131 * mNucleon.
Proof.
  split; [exact light_reachable|]. split; [reflexivity|]. split; [reflexivity|]. split; [exact light_regular|].
  split; [left; reflexivity|]. split; [unfold regular; cbn; repeat split; lra|]. split; [right; split; [reflexivity|lra]|].
  split; [reflexivity|exact Xe131_mass_pos].
Qed.

(** C13: v^2 dSigma/dq2 is the same at any two speeds. *)
Theorem C13_nucleus : forall s q t v1 v2 a, 0 < v1 -> 0 < v2 ->
  dSigma_dq2_Nucleus s q t (Fin v1) = Ok (Fin a) ->
  exists b, dSigma_dq2_Nucleus s q t (Fin v2) = Ok (Fin b) /\ v1 ^ 2 * a = v2 ^ 2 * b.
Proof. exact speed_scaling_nucleus. Qed.
Print Assumptions C13_nucleus.

Theorem C13_electron : forall s q v1 v2 a, 0 < v1 -> 0 < v2 ->
  dSigma_dq2_Electron s q (Fin v1) = Ok (Fin a) ->
  exists b, dSigma_dq2_Electron s q (Fin v2) = Ok (Fin b) /\ v1 ^ 2 * a = v2 ^ 2 * b.
Proof. exact speed_scaling_electron. Qed.
Print Assumptions C13_electron.

Theorem C13_ionization : forall s q Ee ff v1 v2 a, 0 < v1 -> 0 < v2 ->
  d2Sigma_dq2_dEe_Ionization s q Ee (Fin v1) ff = Ok (Fin a) ->
  exists b, d2Sigma_dq2_dEe_Ionization s q Ee (Fin v2) ff = Ok (Fin b) /\ v1 ^ 2 * a = v2 ^ 2 * b.
Proof. exact speed_scaling_ionization. Qed.
Print Assumptions C13_ionization.

Theorem C13_crystal : forall s q Ee ff v1 v2 a, 0 < v1 -> 0 < v2 ->
  d2Sigma_dq2_dEe_Crystal s q Ee (Fin v1) ff = Ok (Fin a) ->
  exists b, d2Sigma_dq2_dEe_Crystal s q Ee (Fin v2) ff = Ok (Fin b) /\ v1 ^ 2 * a = v2 ^ 2 * b.
Proof. exact speed_scaling_crystal. Qed.
Print Assumptions C13_crystal.

(** Instance: the differential cross sections of a reachable particle are finite. *)
Example C13_instance : exists a b c d,
  dSigma_dq2_Nucleus light (Fin (sqrt 3)) Xe131 (Fin 2) = Ok (Fin a) /\
  dSigma_dq2_Electron light (Fin (sqrt 3)) (Fin 2) = Ok (Fin b) /\
  d2Sigma_dq2_dEe_Ionization light (Fin (sqrt 3)) (Fin 5) (Fin 2) (Fin 7) = Ok (Fin c) /\
  d2Sigma_dq2_dEe_Crystal light (Fin (sqrt 3)) (Fin 5) (Fin 2) (Fin 7) = Ok (Fin d).
Proof.
  assert (S : 0 < sqrt 3) by (apply sqrt_lt_R0; lra).
  assert (EN := dSigma_N_SI light Xe131 10 c0 c0 _ 0 _ 2 3 _ eq_refl eq_refl light_regular (or_introl eq_refl) eq_refl
    (SI_coupling_fin light Xe131 c0 c0 eq_refl eq_refl) ltac:(lra) ltac:(lra)).
  assert (EE := dSigma_E light 10 c0 c0 _ 0 2 3 light_regular (or_intror (or_introl eq_refl)) ltac:(lra) ltac:(lra)).
  rewrite xsqrt_fin in EN, EE by lra.
  eexists _, _, _, _. split; [exact EN|]. split; [exact EE|].
  unfold d2Sigma_dq2_dEe_Ionization, d2Sigma_dq2_dEe_Crystal. cbn [kind light]. rewrite EE. cbn [bind].
  rewrite !xmul_fin. repeat (rewrite xdiv_fin by lra). rewrite !xmul_fin. split; reflexivity.
Qed.

(** C14: wherever a closed form is used, it is a probability density with its cumulative function. *)
Theorem C14_light_nuclei : forall Integrate s t m p n se mm M v, regular s m p n se mm -> low_mass s = true ->
  (kind s = SD \/ IR_finite s mm) -> imass t = Fin M -> 0 < M ->
  exists pdf cdf, angular_distribution pdf cdf /\
    forall c, -1 <= c <= 1 -> PDF_Scattering_Angle_Nucleus Integrate s (Fin c) t (Fin v) = Ok (Fin (pdf c)) /\
                              CDF_Scattering_Angle_Nucleus Integrate s (Fin c) t (Fin v) = Ok (Fin (cdf c)).
Proof. exact closed_nucleus_distribution. Qed.
Print Assumptions C14_light_nuclei.

Theorem C14_electrons : forall s m p n se mm v, regular s m p n se mm -> (kind s = SD \/ IR_finite s mm) ->
  exists pdf cdf, angular_distribution pdf cdf /\
    forall c, -1 <= c <= 1 -> PDF_Scattering_Angle_Electron s (Fin c) (Fin v) = Ok (Fin (pdf c)) /\
                              CDF_Scattering_Angle_Electron s (Fin c) (Fin v) = Ok (Fin (cdf c)).
Proof. exact closed_electron_distribution. Qed.
Print Assumptions C14_electrons.

(** The closed density is the one obtained from the particle's own differential and total cross section. *)
Theorem C14_matches_cross_section : forall Integrate s t m p n se mm M v c,
  kind s = SI -> low_mass s = true -> regular s m p n se mm -> IR_finite s mm ->
  imass t = Fin M -> 0 < M -> 0 < v -> sees s t p n -> -1 <= c <= 1 ->
  PDF_Scattering_Angle_Nucleus Integrate s (Fin c) t (Fin v) =
  PDF_Angle_Base s (imass t) (Fin v) (Sigma_Total_Nucleus Integrate s t (Fin v)) (fun q => dSigma_dq2_Nucleus s q t (Fin v)) (Fin c).
Proof. exact closed_is_own. Qed.
Print Assumptions C14_matches_cross_section.

(** The general form factor can be selected without a mediator mass; then there is no distribution at all. *)
Theorem C14_massless_mediator_refuted : exists s, reachable s /\ low_mass s = true /\ FF_DM s = "General"%string /\
  forall Integrate t M v, imass t = Fin M -> 0 < M -> 0 < v ->
  (~ exists pdf cdf, angular_distribution pdf cdf /\
     forall c, -1 <= c <= 1 -> PDF_Scattering_Angle_Nucleus Integrate s (Fin c) t (Fin v) = Ok (Fin (pdf c))) /\
  CDF_Scattering_Angle_Nucleus Integrate s (Fin 1) t (Fin v) = Ok NaN.
Proof. exact massless_mediator. Qed.
Print Assumptions C14_massless_mediator_refuted.

Example C14_instance : regular light 10 c0 c0 (1 / 10 ^ 40 * cm * cm) 0 /\ low_mass light = true /\ IR_finite light 0 /\
  sees light Xe131 c0 c0.
Proof.
  split; [exact light_regular|]. split; [reflexivity|]. split; [left; reflexivity|].
  unfold sees; cbn. assert (h := c0_pos). lra.
Qed.

(** C15: inverse-transform sampling, for closed forms and through the root finder alike. *)
Theorem C15_nuclei : forall Integrate Find_Root s t m p n se mm M v, ideal_quadrature Integrate -> ideal_root_finder Find_Root ->
  regular s m p n se mm -> (kind s = SD \/ IR_finite s mm) -> imass t = Fin M -> 0 < M -> 0 < v ->
  (low_mass s = false -> sees s t p n) ->
  exists cdf sample, inverse_sampling cdf sample /\
    (forall c, -1 <= c <= 1 -> CDF_Scattering_Angle_Nucleus Integrate s (Fin c) t (Fin v) = Ok (Fin (cdf c))) /\
    (forall x, 0 <= x <= 1 -> Sample_Scattering_Angle_Nucleus Integrate Find_Root s (Fin x) t (Fin v) = Ok (Fin (sample x))).
Proof. exact nucleus_sampling. Qed.
Print Assumptions C15_nuclei.

Theorem C15_electrons : forall s m p n se mm v, regular s m p n se mm -> (kind s = SD \/ IR_finite s mm) ->
  exists cdf sample, inverse_sampling cdf sample /\
    (forall c, -1 <= c <= 1 -> CDF_Scattering_Angle_Electron s (Fin c) (Fin v) = Ok (Fin (cdf c))) /\
    (forall x, 0 <= x <= 1 -> Sample_Scattering_Angle_Electron s (Fin x) (Fin v) = Ok (Fin (sample x))).
Proof. exact electron_sampling. Qed.
Print Assumptions C15_electrons.

Example C15_instance : ideal_quadrature reference_Integrate /\ ideal_root_finder reference_Find_Root /\
  regular start 10 c0 c0 (1 / 10 ^ 40 * cm * cm) 0 /\ low_mass start = false /\ sees start Xe131 c0 c0.
Proof.
  split; [exact ideal_quadrature_exists|]. split; [exact ideal_root_finder_exists|]. rewrite start_eq.
  split; [unfold regular; cbn; repeat split; lra|]. split; [reflexivity|]. unfold sees; cbn. assert (h := c0_pos). lra.
Qed.

(** C16: the generic angular functions, for any differential cross section. *)
Theorem C16_generic_density : forall Integrate s m M v SigmaTot dSigma d T, ideal_quadrature Integrate ->
  base_setting s m M v SigmaTot dSigma d T ->
  exists pdf cdf,
    (forall c, -1 <= c <= 1 -> PDF_Angle_Base s (Fin M) (Fin v) SigmaTot dSigma (Fin c) = Ok (Fin (pdf c)) /\
       CDF_Angle_Base Integrate s (Fin M) (Fin v) SigmaTot dSigma (Fin c) = Ok (Fin (cdf c)) /\ is_RInt pdf (-1) c (cdf c)) /\
    cdf 1 = 1 /\ (forall c, continuous cdf c) /\
    ((forall x, 0 <= x <= q2_max m M v -> 0 <= d x) -> angular_distribution pdf cdf /\
       forall x y, -1 <= x -> x <= y -> y <= 1 -> 0 <= cdf x <= cdf y /\ cdf y <= 1).
Proof. exact base_distribution. Qed.
Print Assumptions C16_generic_density.

Theorem C16_generic_outside : forall Integrate s mT v SigmaTot dSigma c,
  (xle c (Fin (-1)) = true -> CDF_Angle_Base Integrate s mT v SigmaTot dSigma c = Ok (Fin 0)) /\
  (xle (Fin 1) c = true -> CDF_Angle_Base Integrate s mT v SigmaTot dSigma c = Ok (Fin 1)).
Proof. exact base_clamped. Qed.
Print Assumptions C16_generic_outside.

(** Heavy nuclei with the Helm form factor meet the hypotheses of the generic theorem. *)
Theorem C16_heavy_nuclei : forall Integrate s t m p n se mm M v, ideal_quadrature Integrate ->
  kind s = SI -> low_mass s = false -> regular s m p n se mm -> IR_finite s mm -> imass t = Fin M -> 0 < M -> 0 < v ->
  sees s t p n ->
  exists d T, 0 < T /\ (forall x, 0 <= d x) /\
    base_setting s m M v (Sigma_Total_Nucleus Integrate s t (Fin v)) (fun q => dSigma_dq2_Nucleus s q t (Fin v)) d T.
Proof. exact heavy_nuclei. Qed.
Print Assumptions C16_heavy_nuclei.

Example C16_instance : exists d T, 0 < T /\
  base_setting start 10 (131 * mNucleon) 2 (Sigma_Total_Nucleus reference_Integrate start Xe131 (Fin 2)) (fun q => dSigma_dq2_Nucleus start q Xe131 (Fin 2)) d T.
Proof.
  destruct C15_instance as (HQ & _ & Hr & Hl & HS).
  destruct (C16_heavy_nuclei reference_Integrate start Xe131 _ _ _ _ _ (131 * mNucleon) 2 HQ ltac:(rewrite start_eq; reflexivity) Hl Hr
    ltac:(left; rewrite start_eq; reflexivity) eq_refl Xe131_mass_pos ltac:(lra) HS) as (d & T & HT & _ & B).
  exists d, T; auto.
Qed.

(** C17 *)
Theorem C17_heavy_nuclei_clamped : forall Integrate s t v c,
  low_mass s = false -> (kind s = SD \/ FF_DM s = "Contact"%string \/ FF_DM s = "General"%string) ->
  (c <= -1 -> CDF_Scattering_Angle_Nucleus Integrate s (Fin c) t v = Ok (Fin 0)) /\
  (1 <= c -> CDF_Scattering_Angle_Nucleus Integrate s (Fin c) t v = Ok (Fin 1)).
Proof. exact heavy_clamped. Qed.
Print Assumptions C17_heavy_nuclei_clamped.

(** Inside [-1,1] every cumulative function of nuclear scattering is between 0 and 1 and non-decreasing. *)
Theorem C17_inside : forall Integrate s t m p n se mm M v, ideal_quadrature Integrate ->
  regular s m p n se mm -> (kind s = SD \/ IR_finite s mm) -> imass t = Fin M -> 0 < M -> 0 < v ->
  (low_mass s = false -> sees s t p n) ->
  forall x y, -1 <= x -> x <= y -> y <= 1 ->
  exists a b, CDF_Scattering_Angle_Nucleus Integrate s (Fin x) t (Fin v) = Ok (Fin a) /\
    CDF_Scattering_Angle_Nucleus Integrate s (Fin y) t (Fin v) = Ok (Fin b) /\ 0 <= a <= b /\ b <= 1.
Proof. exact cdf_inside. Qed.
Print Assumptions C17_inside.

Example C17_instance : ideal_quadrature reference_Integrate /\ regular start 10 c0 c0 (1 / 10 ^ 40 * cm * cm) 0 /\ low_mass start = false /\ sees start Xe131 c0 c0 /\
  (kind start = SD \/ FF_DM start = "Contact"%string \/ FF_DM start = "General"%string) /\ IR_finite start 0 /\ imass Xe131 = Fin (131 * mNucleon) /\ 0 < 131 * mNucleon.
Proof.
  destruct C15_instance as (HQ & _ & Hr & Hl & HS). do 4 (split; [assumption|]). split; [right; left; rewrite start_eq; reflexivity|].
  split; [left; rewrite start_eq; reflexivity|]. split; [reflexivity|exact Xe131_mass_pos].
Qed.

(** The closed forms are not clamped. *)
Theorem C17_closed_forms_refuted : exists s, reachable s /\ forall Integrate t v,
  CDF_Scattering_Angle_Nucleus Integrate s (Fin 2) t v = Ok (Fin 1.5) /\
  CDF_Scattering_Angle_Nucleus Integrate s (Fin (-2)) t v = Ok (Fin (-0.5)) /\
  CDF_Scattering_Angle_Electron s (Fin 2) v = Ok (Fin 1.5).
Proof. exact (ex_intro _ light (conj light_reachable closed_cdf_not_clamped)). Qed.
Print Assumptions C17_closed_forms_refuted.

(** C18 *)
Theorem C18_flag_truthful : forall Integrate s t v1 v2, Is_Sigma_Total_V_Dependent s = false ->
  Sigma_Total_Nucleus Integrate s t v1 = Sigma_Total_Nucleus Integrate s t v2 /\
  Sigma_Total_Electron s v1 = Sigma_Total_Electron s v2.
Proof. exact flag_truthful. Qed.
Print Assumptions C18_flag_truthful.

Example C18_instance : Is_Sigma_Total_V_Dependent light = false /\ Is_Sigma_Total_V_Dependent start = true.
Proof. rewrite start_eq. split; reflexivity. Qed.

(** C19 *)
Theorem C19_normalised : forall s m, mMediator s = Fin m ->
  In (FF_DM s) ["Contact"; "General"; "Long-Range"; "Electric-Dipole"]%string ->
  FormFactor2_DM s (Fin (aEM * mElectron)) = Ok (Fin 1).
Proof. exact FF_normalised. Qed.
Print Assumptions C19_normalised.

Theorem C19_general_between : forall s m q, FF_DM s = "General"%string -> mMediator s = Fin m -> 0 < q ->
  exists x, FormFactor2_DM s (Fin q) = Ok (Fin x) /\ Rmin 1 ((aEM * mElectron / q) ^ 4) <= x <= Rmax 1 ((aEM * mElectron / q) ^ 4).
Proof. exact FF_between. Qed.
Print Assumptions C19_general_between.

Theorem C19_long_range : forall s q, FF_DM s = "Long-Range"%string -> 0 < q ->
  FormFactor2_DM s (Fin q) = Ok (Fin ((aEM * mElectron / q) ^ 4)).
Proof. exact FF_long_range. Qed.
Print Assumptions C19_long_range.

Theorem C19_massless_is_long_range : forall s q, FF_DM s = "General"%string -> mMediator s = Fin 0 -> 0 < q ->
  FormFactor2_DM s (Fin q) = Ok (Fin ((aEM * mElectron / q) ^ 4)).
Proof. exact FF_massless. Qed.
Print Assumptions C19_massless_is_long_range.

Theorem C19_heavy_is_contact : forall s q eps, FF_DM s = "General"%string -> 0 < q -> 0 < eps ->
  exists M, 0 < M /\ forall m, M <= m ->
    exists x, FormFactor2_DM (Set_Mediator_Mass (Fin m) s) (Fin q) = Ok (Fin x) /\ Rabs (x - 1) < eps.
Proof. exact FF_heavy_limit. Qed.
Print Assumptions C19_heavy_is_contact.

Theorem C19_form_factor_names : forall s q, (exists x, FormFactor2_DM s q = Ok x) <->
  In (FF_DM s) ["Contact"; "General"; "Long-Range"; "Electric-Dipole"]%string.
Proof. exact FF_names. Qed.
Print Assumptions C19_form_factor_names.

Example C19_instance : reachable massless /\ FF_DM massless = "General"%string /\ mMediator massless = Fin 0.
Proof. split; [exact massless_reachable|split; reflexivity]. Qed.

(** C32: the nuclear form factor is a suppression. *)
Theorem C32_bounded : forall iso q, 0 <= q -> exists F, Helm_Form_Factor iso (Fin q) = Fin F /\ Rabs F <= 1.
Proof. exact helm_suppression. Qed.
Print Assumptions C32_bounded.

Theorem C32_one_at_zero : forall iso, Helm_Form_Factor iso (Fin 0) = Fin 1.
Proof. exact helm_zero. Qed.
Print Assumptions C32_one_at_zero.

Example C32_instance : exists F, Helm_Form_Factor Xe131 (Fin 0.05) = Fin F /\ Rabs F <= 1.
Proof. apply C32_bounded; lra. Qed.
