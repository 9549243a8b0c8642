(** C57, C58, C72, C73: electron numbers, electron thresholds and bins, and the reach of ionization and semiconductor detectors. *)
From Coq Require Import Reals ZArith String Lia Lra Bool.
From Coquelicot Require Import Coquelicot.
From Coq Require Import List.
From Verif Require Import Base XrFacts Quadrature Nucleus_Model Nuclear_Model Particle_Model CrossSection_Model Distribution_Model Atom_Model
  Crystal_Model Rates_Model Crystal_Proofs Detector_Model DetectorTypes_Model DetectorWitness_Proofs DetectorModes_Proofs Electrons_Proofs ElectronBins_Proofs IonizationReach_Proofs SemiconductorReach_Proofs.
Import ListNotations.
Local Open Scope R_scope.

(** C57: the numbers 1, 2, ... of electrons have non-negative probabilities, 0 above the possible maximum and with sum 1. *)
Theorem C57_probabilities : forall PMF Ee w n, ideal_binomial PMF -> 0 <= Ee -> 0 < w -> (0 <= n)%Z -> IZR n + Ee / w < 2 ^ 31 ->
  exists p top, (0 <= top)%Z /\ IZR top <= IZR n + Ee / w < IZR top + 1 /\ (forall ne, (1 <= ne < 2 ^ 31)%Z -> PDF_ne PMF ne (Fin Ee) (Fin w) n = Ok (Fin (p ne)) /\ 0 <= p ne /\ ((top + 1 < ne)%Z -> p ne = 0)) /\
    (forall K, (top + 1 <= K)%Z -> Rsum (map p (numbers 1 K)) = 1).
Proof. exact electron_numbers. Qed.
Print Assumptions C57_probabilities.

(** No events are lost: the rates of a shell for 1, 2, ... electrons add up to the rate of the shell (the sum over its momentum grid). *)
Theorem C57_rates : forall X DM D s w n shell ks dl r N, ideal_binomial (x_PMF_Binomial X) -> k_Grid shell = map Fin ks -> dlogk shell = Fin dl -> 0 < w -> (0 <= number_of_secondary_electrons shell < 2 ^ 31)%Z ->
  (forall k, In k ks -> Ionization_dRdE_shell X DM D s (Fin (shell_energy k)) n shell = Ok (Fin (r k))) ->
  (forall k, In k ks -> IZR (number_of_secondary_electrons shell) + shell_energy k / w <= IZR N) -> (N < 2 ^ 31 - 1)%Z ->
  exists rate, (forall ne, (1 <= ne < 2 ^ 31)%Z -> R_ne_shell X DM D s ne (Fin w) n shell = Ok (Fin (rate ne))) /\
    (forall K, (N + 1 <= K)%Z -> Rsum (map rate (numbers 1 K)) = Rsum (map (fun k => shell_weight dl k (r k)) ks)).
Proof. exact shell_rates. Qed.
Print Assumptions C57_rates.

(** Beyond 2^31 quanta the conversion to int is undefined. *)
Theorem C57_overflow : forall PMF ne Ee w n, 0 < w -> (0 <= n)%Z -> 2 ^ 31 <= Ee / w -> PDF_ne PMF ne (Fin Ee) (Fin w) n = UB.
Proof. exact electron_overflow. Qed.
Print Assumptions C57_overflow.

(** Instances: a primary energy of 30 with W = 13.8 and 3 secondary electrons; the shell of the test atom. *)
Example C57_instance : exists X DM D s n, ideal_binomial (x_PMF_Binomial X) /\ 0 <= 30 /\ 0 < 13.8 /\ (0 <= 3)%Z /\ IZR 3 + 30 / 13.8 < 2 ^ 31 /\ k_Grid shell1 = map Fin [mElectron] /\
  exists r, 0 < r /\ Ionization_dRdE_shell X DM D s (Fin (shell_energy mElectron)) n shell1 = Ok (Fin r) /\ IZR (number_of_secondary_electrons shell1) + shell_energy mElectron / 1 <= IZR 1.
Proof.
  exists X1, DM1, D1, ion1, (at_nucleus atom1). split; [exact exact_binomial_ideal|]. split; [lra|]. split; [lra|]. split; [lia|]. split; [rewrite two31; cbn; lra|]. split; [reflexivity|].
  destruct (shell1_rate (mElectron / 2)) as [r [Hr R]]; [unfold mElectron; lra|]. exists (1.0 * r). split; [lra|]. rewrite energy1. split; [|cbn; unfold mElectron; lra].
  unfold Ionization_dRdE_shell. change (i_channel ion1) with Electron_Recoil. cbv iota. change (x_Integrate X1) with reference_Integrate. rewrite mass1, R. cbn [bind]. apply f_equal. apply xmul_fin.
Qed.

(** C58: a range t..m with t < m is accepted and exactly these electron numbers are counted. *)
Theorem C58_range : forall t m s, (0 <= t < m)%Z -> (m < 2 ^ 32 - 1)%Z -> exists s2, Use_Electron_Threshold t m s = Ok s2 /\ counts s s2 t m.
Proof. exact electron_threshold_range. Qed.
Print Assumptions C58_range.

(** Without an upper end: t..100. *)
Theorem C58_default : forall t s, (0 <= t <= 100)%Z -> exists s2, Use_Electron_Threshold t 0 s = Ok s2 /\ counts s s2 t 100.
Proof. exact electron_threshold_default. Qed.
Print Assumptions C58_default.

(** A threshold above 100 without an upper end above it is refused. *)
Theorem C58_refused : forall t m s, (100 < t)%Z -> (m <= 0 \/ m <= t)%Z -> Use_Electron_Threshold t m s = Exit.
Proof. exact electron_threshold_refused. Qed.
Print Assumptions C58_refused.

(** Any other upper end, in particular m = t and m < t, is read as 100. *)
Theorem C58_other_range : forall t m s, (0 <= t <= 100)%Z -> (m <= 0 \/ m <= t)%Z -> exists s2, Use_Electron_Threshold t m s = Ok s2 /\ counts s s2 t 100.
Proof. exact electron_threshold_other. Qed.
Print Assumptions C58_other_range.

(** Hence one electron number alone cannot be requested: t = m = 1 also counts two electrons. *)
Theorem C58_single_refuted : exists s t m s2, (1 <= t <= m)%Z /\ Use_Electron_Threshold t m s = Ok s2 /\ ~ counts s s2 t m.
Proof. exact electron_threshold_single_refuted. Qed.
Print Assumptions C58_single_refuted.

(** And an empty range is not refused. *)
Theorem C58_empty_refuted : exists s t m s2, (1 <= m < t)%Z /\ Use_Electron_Threshold t m s = Ok s2 /\ counts s s2 t 100.
Proof. exact electron_threshold_empty_refuted. Qed.
Print Assumptions C58_empty_refuted.

(** With the largest unsigned int as the upper end the sum over electron numbers does not end. *)
Theorem C58_endless : forall t s, (0 <= t < 2 ^ 32 - 1)%Z -> exists s2, Use_Electron_Threshold t (2 ^ 32 - 1) s = Ok s2 /\ forall X DM D, Ionization_Total X DM D s2 = UB.
Proof. exact electron_threshold_endless. Qed.
Print Assumptions C58_endless.

(** Bins: bin i counts t + i electrons. *)
Theorem C58_bins : forall t N s, b_analysis (i_base s) <> Binned_Poisson -> b_using_bins (i_base s) = false -> (0 <= t)%Z -> (1 <= N)%Z -> (t + N - 1 < 2 ^ 32)%Z ->
  exists s2, Use_Electron_Bins t N s = Ok s2 /\ counts_bins s s2 t N.
Proof. exact electron_bins. Qed.
Print Assumptions C58_bins.

(** Bins beyond the largest unsigned int, or no bins from t >= 1, are refused, *)
Theorem C58_bins_refused : forall t N s, (0 <= t < 2 ^ 32)%Z -> (0 <= N < 2 ^ 32)%Z -> (2 ^ 32 <= t + N - 1 \/ N = 0 /\ 1 <= t)%Z -> Use_Electron_Bins t N s = Exit.
Proof. exact electron_bins_refused. Qed.
Print Assumptions C58_bins_refused.

(** as is a second binning. *)
Theorem C58_bins_twice : forall t N s, b_analysis (i_base s) = Binned_Poisson -> Use_Electron_Bins t N s = Exit.
Proof. exact electron_bins_twice. Qed.
Print Assumptions C58_bins_twice.

(** No bins from 0 on are accepted. *)
Theorem C58_bins_none_refuted : exists s s2, Use_Electron_Bins 0 0 s = Ok s2 /\ forall X DM D, Ionization_Binned X DM D s2 = Ok [].
Proof. exact electron_bins_none_refuted. Qed.
Print Assumptions C58_bins_none_refuted.

(** Instance: a detector with rates for every electron number, positive for two electrons. *)
Example C58_instance : (exists X DM D r, b_exposure (i_base ion2) = Fin 1 /\ (forall ne, (1 <= ne < 2 ^ 31)%Z -> R_ne X DM D ion2 ne = Ok (Fin (r ne))) /\ 0 < r 2%Z) /\ b_analysis (i_base ion2) <> Binned_Poisson /\ b_using_bins (i_base ion2) = false.
Proof.
  destruct R_ne_2 as (c & Hc & R). split; [|split; [discriminate|reflexivity]]. exists X1, DM1, D1, (fun ne => electron_law 1 ne * c). split; [reflexivity|]. split; [exact R|]. rewrite law_1_2. lra.
Qed.

(** C72: with an electron threshold (or electron bins), below the reported mass no event has that many electrons. Premise: a shell that frees n secondary electrons is bound by at least the gap plus n W. *)
Theorem C72_electrons : forall X DM D s v m mm gap w eff ne, ideal_quadrature (x_Integrate X) -> ideal_binomial (x_PMF_Binomial X) -> b_using_threshold (i_base s) = false -> (i_using_ne_bins s || i_using_ne_threshold s)%bool = true ->
  Energy_Gap s = Fin gap -> Lowest_W s = Fin w -> 0 <= w -> (forall a, In a (i_atoms s) -> atom_numbers gap a) -> finite_fractions s -> b_flat_efficiency (i_base s) = Fin eff -> finite_rates X DM D s ->
  d_vmax D = Fin v -> 0 < v -> dm_mass DM = Fin m -> 0 < m -> Ionization_Minimum_Mass (Fin v) s = Fin mm -> m < mm -> (1 <= ne)%Z -> (i_ne_threshold s <= ne < 2 ^ 31)%Z -> R_ne X DM D s ne = Ok (Fin 0).
Proof. exact electron_reach. Qed.
Print Assumptions C72_electrons.

(** So nothing is expected. *)
Theorem C72_total : forall X DM D s v m mm gap w eff e, ideal_quadrature (x_Integrate X) -> ideal_binomial (x_PMF_Binomial X) -> b_analysis (i_base s) = Poisson -> b_using_threshold (i_base s) = false -> i_using_ne_threshold s = true ->
  Energy_Gap s = Fin gap -> Lowest_W s = Fin w -> 0 <= w -> (forall a, In a (i_atoms s) -> atom_numbers gap a) -> finite_fractions s -> b_flat_efficiency (i_base s) = Fin eff -> finite_rates X DM D s ->
  d_vmax D = Fin v -> 0 < v -> dm_mass DM = Fin m -> 0 < m -> Ionization_Minimum_Mass (Fin v) s = Fin mm -> m < mm -> (1 <= i_ne_threshold s)%Z -> (i_ne_max s < 2 ^ 31)%Z -> b_exposure (i_base s) = Fin e ->
  Ionization_Total X DM D s = Ok (Fin 0).
Proof. exact electron_reach_total. Qed.
Print Assumptions C72_total.

(** With an energy threshold, or with no threshold at all, the spectrum is 0 where the detector looks. *)
Theorem C72_spectrum : forall X DM D s v m mm gap eff E, ideal_quadrature (x_Integrate X) -> Energy_Gap s = Fin gap -> (forall a, In a (i_atoms s) -> plain_atom gap a) -> finite_fractions s -> b_flat_efficiency (i_base s) = Fin eff ->
  d_vmax D = Fin v -> 0 < v -> dm_mass DM = Fin m -> 0 < m -> Ionization_Minimum_Mass (Fin v) s = Fin mm -> m < mm ->
  (b_using_threshold (i_base s) = true /\ (exists th, b_threshold (i_base s) = Fin th /\ th <= E)) \/ (b_using_threshold (i_base s) = false /\ i_using_ne_bins s = false /\ i_using_ne_threshold s = false /\ 0 <= E) ->
  Ionization_dRdE X DM D s (Fin E) = Ok (Fin 0).
Proof. exact spectrum_reach. Qed.
Print Assumptions C72_spectrum.

(** The reported mass is the smallest that can transfer gap + (n - 1) W to an electron at the maximum speed. *)
Theorem C72_attained : forall s v gap w, b_using_threshold (i_base s) = false -> (i_using_ne_bins s || i_using_ne_threshold s)%bool = true -> Energy_Gap s = Fin gap -> Lowest_W s = Fin w -> 0 < v ->
  exists mm, Ionization_Minimum_Mass (Fin v) s = Fin mm /\ forall m, 0 < m -> (mm <= m <-> exists q, 0 < q /\ (gap + (IZR (i_ne_threshold s) - 1) * w) / q + q / (2 * m) <= v).
Proof. exact electron_mass_kinematics. Qed.
Print Assumptions C72_attained.

(** The reported speed is the least at which any electron can be freed with any momentum transfer. *)
Theorem C72_speed : forall s m gap, Energy_Gap s = Fin gap -> 0 < gap -> 0 < m -> (forall a, In a (i_atoms s) -> plain_atom gap a) -> (exists a sh, In a (i_atoms s) /\ In sh (electrons a) /\ binding_energy sh = Fin gap) ->
  exists u, Ionization_Minimum_Speed (Fin m) s = Fin u /\
    (forall a sh q Ee, In a (i_atoms s) -> In sh (electrons a) -> 0 < q -> 0 <= Ee -> exists x, vMinimal_Electrons (Fin q) (binding_energy sh + Fin Ee)%xr (Fin m) = Fin x /\ u <= x) /\
    (exists a sh q, In a (i_atoms s) /\ In sh (electrons a) /\ 0 < q /\ vMinimal_Electrons (Fin q) (binding_energy sh + Fin 0)%xr (Fin m) = Fin u).
Proof. exact ionization_speed. Qed.
Print Assumptions C72_speed.

(** The gap is the smallest binding energy among all shells of all atoms. *)
Theorem C72_gap : forall s, i_atoms s <> [] -> (forall a, In a (i_atoms s) -> electrons a <> [] /\ forall sh, In sh (electrons a) -> exists E, binding_energy sh = Fin E /\ 0 < E < 1) ->
  exists gap, Energy_Gap s = Fin gap /\ (forall a sh E, In a (i_atoms s) -> In sh (electrons a) -> binding_energy sh = Fin E -> gap <= E) /\
    exists a sh, In a (i_atoms s) /\ In sh (electrons a) /\ binding_energy sh = Fin gap.
Proof. exact gap_is. Qed.
Print Assumptions C72_gap.

(** The xenon and argon atoms of the library meet the premises. *)
Theorem C72_shipped : forall s, i_atoms s <> [] -> (forall a, In a (i_atoms s) -> nucleus_numbers (at_nucleus a) /\ exists IT wd name wd', Atom_by_name IT wd name = Ok (a, wd')) ->
  exists gap w, Energy_Gap s = Fin gap /\ Lowest_W s = Fin w /\ 0 < gap /\ 0 < w /\ forall a, In a (i_atoms s) -> atom_numbers gap a /\ plain_atom gap a.
Proof. exact shipped_detector. Qed.
Print Assumptions C72_shipped.

(** The premise is needed: atoms given by the user can yield events below the reported mass. *)
Theorem C72_secondary_refuted : exists s X DM D v m mm r, Use_Electron_Threshold 2 5 ion2 = Ok s /\ ideal_quadrature (x_Integrate X) /\ ideal_binomial (x_PMF_Binomial X) /\ d_vmax D = Fin v /\ dm_mass DM = Fin m /\ 0 < v /\ 0 < m /\
  Ionization_Minimum_Mass (Fin v) s = Fin mm /\ m < mm /\ R_ne X DM D s 2 = Ok (Fin r) /\ 0 < r.
Proof. exact secondary_refuted. Qed.
Print Assumptions C72_secondary_refuted.

Example C72_instance : exists s mm, Use_Electron_Threshold 2 5 ion1 = Ok s /\ ideal_quadrature (x_Integrate X1) /\ ideal_binomial (x_PMF_Binomial X1) /\ b_using_threshold (i_base s) = false /\ i_using_ne_threshold s = true /\
  Energy_Gap s = Fin (3 / 4) /\ Lowest_W s = Fin 1 /\ (forall a, In a (i_atoms s) -> atom_numbers (3 / 4) a) /\ finite_fractions s /\ b_flat_efficiency (i_base s) = Fin 1.0 /\ finite_rates X1 DM1 D1 s /\
  d_vmax D1 = Fin 1 /\ dm_mass DM1 = Fin 2 /\ Ionization_Minimum_Mass (Fin 1) s = Fin mm /\ 2 < mm.
Proof. exact electron_reach_instance. Qed.

(** C73: below the mass reported by a semiconductor detector the spectrum is 0 from the threshold on. *)
Theorem C73_spectrum : forall X DM D s v m mm th eff E, crystal_numbers (c_crystal s) -> b_threshold (c_base s) = Fin th -> b_flat_efficiency (c_base s) = Fin eff ->
  d_vmax D = Fin v -> 0 < v -> dm_mass DM = Fin m -> 0 < m -> Semiconductor_Minimum_Mass (Fin v) s = Fin mm -> m < mm -> th <= E -> Semiconductor_dRdE X DM D s (Fin E) = Ok (Fin 0).
Proof. exact semiconductor_reach. Qed.
Print Assumptions C73_spectrum.

(** With a threshold in electron hole pairs: no events with that many pairs, bin by bin and in total, *)
Theorem C73_pairs : forall X DM D s v m mm g e d Qt Q, crystal_numbers (c_crystal s) -> energy_gap (c_crystal s) = Fin g -> epsilon (c_crystal s) = Fin e -> dE (c_crystal s) = Fin d -> b_threshold (c_base s) = Minimum_Electron_Energy Qt (c_crystal s) ->
  d_vmax D = Fin v -> 0 < v -> dm_mass DM = Fin m -> 0 < m -> Semiconductor_Minimum_Mass (Fin v) s = Fin mm -> m < mm -> (1 <= Qt <= Q)%Z -> pair_energy g e Q / d < 2 ^ 31 ->
  R_Q_Crystal (x_Integrate X) Q DM D (c_crystal s) = Ok (Fin 0) /\ R_total_Crystal (x_Integrate X) Q DM D (c_crystal s) = Ok (Fin 0).
Proof. exact pairs_reach. Qed.
Print Assumptions C73_pairs.

(** so that nothing is expected after Use_Q_Threshold. *)
Theorem C73_total : forall X DM D s0 v m mm g e d Qt eff ex, let s := Use_Q_Threshold Qt s0 in crystal_numbers (c_crystal s0) -> energy_gap (c_crystal s0) = Fin g -> epsilon (c_crystal s0) = Fin e -> dE (c_crystal s0) = Fin d ->
  b_using_threshold (c_base s0) = false -> b_exposure (c_base s0) = Fin ex -> b_flat_efficiency (c_base s0) = Fin eff -> d_vmax D = Fin v -> 0 < v -> dm_mass DM = Fin m -> 0 < m -> Semiconductor_Minimum_Mass (Fin v) s = Fin mm -> m < mm ->
  (1 <= Qt < 2 ^ 31)%Z -> pair_energy g e Qt / d < 2 ^ 31 -> Semiconductor_Total X DM D s = Ok (Fin 0).
Proof. exact threshold_reach. Qed.
Print Assumptions C73_total.

(** Use_Q_Bins sets the threshold to the energy for its first bin. *)
Theorem C73_bins : forall Qt N s s2, (0 <= Qt < 2 ^ 31)%Z -> Use_Q_Bins Qt N s = Ok s2 -> b_threshold (c_base s2) = Minimum_Electron_Energy Qt (c_crystal s2) /\ c_crystal s2 = c_crystal s.
Proof. exact pairs_threshold. Qed.
Print Assumptions C73_bins.

(** From the reported mass on the threshold energy can be transferred. *)
Theorem C73_attained : forall s v th, b_threshold (c_base s) = Fin th -> 0 < v -> exists mm, Semiconductor_Minimum_Mass (Fin v) s = Fin mm /\ forall m, 0 < m -> (mm <= m <-> exists q, 0 < q /\ th / q + q / (2 * m) <= v).
Proof. exact semiconductor_kinematics. Qed.
Print Assumptions C73_attained.

(** The reported speed is the least at which the threshold energy can be transferred. *)
Theorem C73_speed : forall s m th, b_threshold (c_base s) = Fin th -> 0 < th -> 0 < m -> exists u, Semiconductor_Minimum_Speed (Fin m) s = Fin u /\
  (forall q E, 0 < q -> th <= E -> exists x, vMinimal_Electrons (Fin q) (Fin E) (Fin m) = Fin x /\ u <= x) /\ exists q, 0 < q /\ vMinimal_Electrons (Fin q) (Fin th) (Fin m) = Fin u.
Proof. exact semiconductor_speed. Qed.
Print Assumptions C73_speed.

(** The crystals of the library meet the premises. *)
Theorem C73_shipped : forall Import_List target c, Crystal_ctor Import_List target = Ok c -> crystal_numbers c /\ exists g e d, energy_gap c = Fin g /\ epsilon c = Fin e /\ dE c = Fin d /\ forall Q, (1 <= Q <= Q_max c)%Z -> pair_energy g e Q / d < 2 ^ 31.
Proof. exact shipped_crystal. Qed.
Print Assumptions C73_shipped.

Example C73_instance : exists c s0 g e d mm, Crystal_ctor IL0 "Si" = Ok c /\ s0 = mkSemiconductor (Detector_ctor "test" (Fin 1) "Electrons") c None None None /\ crystal_numbers (c_crystal s0) /\ energy_gap (c_crystal s0) = Fin g /\ epsilon (c_crystal s0) = Fin e /\
  dE (c_crystal s0) = Fin d /\ pair_energy g e 1 / d < 2 ^ 31 /\ d_vmax D1 = Fin 1 /\ dm_mass featherweight = Fin eV /\ Semiconductor_Minimum_Mass (Fin 1) (Use_Q_Threshold 1 s0) = Fin mm /\ eV < mm.
Proof. exact threshold_reach_instance. Qed.
