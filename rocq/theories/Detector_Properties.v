(** Configuration of detectors: properties C40 to C44. *)
From Coq Require Import Reals ZArith String Lia Lra Bool.
From Coquelicot Require Import Coquelicot.
From Coq Require Import List.
From Verif Require Import Base XrFacts Quadrature Interpolation Nucleus_Model Nuclear_Model Particle_Model CrossSection_Model Distribution_Model Atom_Model
  Crystal_Model Rates_Model Crystal_Proofs Detector_Model DetectorTypes_Model Detector_Proofs DetectorModes_Proofs DetectorWitness_Proofs
  DetectorSafety_Proofs DetectorBins_Proofs.
Import ListNotations.
Local Open Scope R_scope.

(** C40: in binned mode there is one observed count, one background and one efficiency per bin, after every sequence of configuration calls with arguments of the right C++ types. *)
Theorem C40_nuclear : forall label expo nuclei abund n0 ops n, Nuclear_ctor label expo nuclei abund = Ok n0 ->
  Forall nuclear_args ops -> nuclear_run n0 ops = Ok n -> tables_match (n_base n).
Proof. exact nuclear_tables. Qed.
Print Assumptions C40_nuclear.

Theorem C40_ionization : forall ch label expo atoms fractions ops s, Forall ionization_args ops ->
  ionization_run (Ionization_start ch label expo atoms fractions) ops = Ok s -> tables_match (i_base s).
Proof. exact ionization_tables. Qed.
Print Assumptions C40_ionization.

Theorem C40_semiconductor : forall Import_List label expo crys s0 ops s, Semiconductor_ctor Import_List label expo crys = Ok s0 ->
  Forall semiconductor_args ops -> semiconductor_run s0 ops = Ok s -> tables_match (c_base s).
Proof. exact semiconductor_tables. Qed.
Print Assumptions C40_semiconductor.

(** The setters accept exactly the lists with one entry per bin (in binned mode) and terminate the program otherwise. *)
Theorem C40_setters : forall d,
  (forall l, accepts d l -> exists d', base_step d (BBin_Observed l) = Ok d' /\ b_bin_observed d' = l) /\
  (forall l, accepts d l -> exists d', base_step d (BBin_Background l) = Ok d' /\ b_bin_background d' = l /\ b_background d' = xsum l) /\
  (forall l, accepts d l -> exists d', base_step d (BBin_Efficiencies l) = Ok d' /\ b_efficiencies d' = l) /\
  (forall l, ~ accepts d l -> base_step d (BBin_Observed l) = Exit) /\
  (forall l, ~ accepts d l -> base_step d (BBin_Background l) = Exit) /\
  (forall l, ~ accepts d l -> base_step d (BBin_Efficiencies l) = Exit).
Proof. exact setter_spec. Qed.
Print Assumptions C40_setters.

(** Instance: a detector with 3 energy bins, given 3 counts; 2 counts are refused. *)
Example C40_instance : exists d d', binned_example 3 = Ok d /\ base_step d (BBin_Observed [1; 0; 2]%Z) = Ok d' /\ length (b_efficiencies d') = 3%nat /\ base_step d (BBin_Observed [1; 0]%Z) = Exit.
Proof.
  unfold binned_example; cbn [base_step]. unfold Use_Energy_Bins, Initialize_Binned_Poisson; cbn [b_analysis Detector_ctor bind].
  rewrite xlt_false by lra. eexists; eexists; split; [reflexivity|]. split; [reflexivity|]. split; reflexivity.
Qed.

(** C41: below 2^31 events the total is the sum of the counts. *)
Theorem C41_observed_total : forall l d d', Forall is_u64 l -> (Zsum l < 2 ^ 31)%Z -> base_step d (BBin_Observed l) = Ok d' -> b_observed d' = Zsum l.
Proof. exact observed_total. Qed.
Print Assumptions C41_observed_total.

(** For every list: the sum is accumulated in an int, so the total is the sum reduced to 32 bits with sign, then converted to unsigned long. *)
Theorem C41_any_total : forall l d d', base_step d (BBin_Observed l) = Ok d' -> b_observed d' = u64 (s32 (Zsum l)).
Proof. exact observed_total_any. Qed.
Print Assumptions C41_any_total.

(** 2^30 events in each of two bins (sum 2^31) make a total of 2^64 - 2^31. *)
Theorem C41_refuted : exists d d' l, binned_example 2 = Ok d /\ Forall is_u64 l /\ base_step d (BBin_Observed l) = Ok d' /\
  Zsum l = (2 ^ 31)%Z /\ b_observed d' = (2 ^ 64 - 2 ^ 31)%Z.
Proof. exact observed_total_wrong. Qed.
Print Assumptions C41_refuted.

Example C41_instance : exists d d', binned_example 3 = Ok d /\ base_step d (BBin_Observed [1; 0; 2]%Z) = Ok d' /\ b_observed d' = 3%Z.
Proof.
  destruct (binned_example_ok 3) as (d & E & A & B). exists d. cbn [base_step]. unfold Set_Observed_Events_Binned. rewrite A, B. eexists. split; [exact E|]. split; reflexivity.
Qed.

(** C42: after every history the predictions of a nuclear detector are those of a detector on which the last spectrum selecting call was the only one. *)
Theorem C42_nuclear : forall n0 ops n u, nuclear_run n0 ops = Ok n -> last_such nuclear_use ops = Some u -> nuclear_predicts_as n u.
Proof. exact nuclear_last_wins. Qed.
Print Assumptions C42_nuclear.

(** The same for ionization detectors, provided none of the calls that take precedence was made earlier ([not_overridden]): nothing for electron thresholds, photoelectron thresholds and energy bins. *)
Theorem C42_ionization : forall ch label expo atoms fractions ops s u, ionization_run (Ionization_start ch label expo atoms fractions) ops = Ok s -> last_such ionization_use ops = Some u ->
  not_overridden u ops -> ionization_predicts_as s u.
Proof. exact ionization_last_wins. Qed.
Print Assumptions C42_ionization.

(** The same for crystal detectors. *)
Theorem C42_semiconductor : forall Import_List label expo crys s0 ops s u, Semiconductor_ctor Import_List label expo crys = Ok s0 ->
  semiconductor_run s0 ops = Ok s -> last_such semiconductor_use ops = Some u -> Q_not_overridden u ops -> semiconductor_predicts_as s u.
Proof. exact semiconductor_last_wins. Qed.
Print Assumptions C42_semiconductor.

(** Without those provisos the property is false: an energy threshold set after an electron threshold is ignored. *)
Theorem C42_energy_threshold_refuted : exists ops s u, ionization_run ion1 ops = Ok s /\ last_such ionization_use ops = Some u /\ ~ ionization_predicts_as s u.
Proof. exact energy_threshold_ignored. Qed.
Print Assumptions C42_energy_threshold_refuted.

(** Electron bins set after energy bins are ignored, and the prediction reads past the end of the bin edges. *)
Theorem C42_electron_bins_refuted : exists ops s u, ionization_run ion1 ops = Ok s /\ last_such ionization_use ops = Some u /\
  Ionization_Binned X1 DM1 D1 s = UB /\ ~ ionization_predicts_as s u.
Proof. exact electron_bins_ignored. Qed.
Print Assumptions C42_electron_bins_refuted.

(** A pair number threshold set after an energy threshold is ignored: at 14 pairs in silicon the prediction is 0. *)
Theorem C42_Q_threshold_refuted : exists s0 ops s u, Semiconductor_ctor IL0 "test" (Fin 1) "Si" = Ok s0 /\ semiconductor_run s0 ops = Ok s /\
  last_such semiconductor_use ops = Some u /\ Semiconductor_Total X1 DM1 D1 s = Ok (Fin 0) /\ ~ semiconductor_predicts_as s u.
Proof. exact Q_threshold_ignored. Qed.
Print Assumptions C42_Q_threshold_refuted.

(** Pair number bins set after energy bins are ignored, with the same overrun. *)
Theorem C42_Q_bins_refuted : exists s0 ops s u, Semiconductor_ctor IL0 "test" (Fin 1) "Si" = Ok s0 /\ semiconductor_run s0 ops = Ok s /\
  last_such semiconductor_use ops = Some u /\ Semiconductor_Binned X1 DM1 D1 s = UB /\ ~ semiconductor_predicts_as s u.
Proof. exact Q_bins_ignored. Qed.
Print Assumptions C42_Q_bins_refuted.

(** In maximum gap mode an ionization detector predicts 0 events, whatever its spectrum. *)
Theorem C42_gap_total : forall ch label expo atoms fractions l s X DM D, ionization_run (Ionization_start ch label expo atoms fractions) [IBase (BMaximum_Gap l)] = Ok s -> Ionization_Total X DM D s = Ok (Fin 0).
Proof. exact gap_total_zero. Qed.
Print Assumptions C42_gap_total.

(** Instance: a history to which C42_ionization applies: energy bins, then an energy threshold, then an electron threshold. *)
Example C42_instance : exists s, ionization_run ion1 [IBase (BBins (Fin 0) (Fin 1) 4); IBase (BThreshold (Fin 1) (Fin 2)); IElectron_Threshold 2 7] = Ok s /\
  ionization_predicts_as s (IElectron_Threshold 2 7).
Proof.
  assert (L : xlt (Fin 2) (Fin 1) = false) by (apply xlt_false; lra).
  assert (L2 : xlt (Fin 1) (Fin 0) = false) by (apply xlt_false; lra).
  match goal with |- exists s, ?r = Ok s /\ _ => assert (H : exists s, r = Ok s) end.
  { eexists. cbn [ionization_run ionization_step base_step bind]. unfold Use_Energy_Bins, Use_Energy_Threshold, Use_Electron_Threshold.
    cbn [Initialize_Binned_Poisson ion1 Ionization_start i_base Detector_ctor b_analysis bind]. rewrite L2. cbn [bind]. rewrite L. cbn [bind].
    cbn [with_ne i_ne_max i_ne_threshold Z.ltb Z.compare Pos.compare Pos.compare_cont andb]. reflexivity. }
  destruct H as [s H]. exists s. split; [exact H|]. unfold ion1 in H. eapply ionization_last_wins; [exact H|reflexivity|exact I].
Qed.

(** C43: no read outside a vector, for every history of a nuclear detector built with as many abundances as elements (or none), any library routines, particle and halo that do not misbehave themselves. The number of bins, an int, must not be negative. *)
Theorem C43_nuclear : forall label expo nuclei abund n0 ops n, Nuclear_ctor label expo nuclei abund = Ok n0 -> (abund = [] \/ (length nuclei <= length abund)%nat) ->
  nuclear_run n0 ops = Ok n -> Forall nuclear_args ops -> (forall o, In (NBase o) ops -> sensible_bins o) ->
  forall X DM D, safe_externals X -> safe_particle DM -> safe_halo D ->
  safe (Nuclear_Total X DM D n) /\ safe (Nuclear_Binned X DM D n) /\ forall E, safe (Nuclear_dRdE X DM D n E).
Proof. exact nuclear_safe. Qed.
Print Assumptions C43_nuclear.

(** Ionization detectors: every history without photoelectron analyses that does not mix energy bins with electron bins, electron numbers below 2^32 - 1. *)
Theorem C43_ionization : forall ch label expo atoms fractions ops s X DM, safe_material X DM atoms fractions ->
  ionization_run (Ionization_start ch label expo atoms fractions) ops = Ok s -> Forall ionization_args ops -> (forall o, In (IBase o) ops -> sensible_bins o) ->
  Forall sensible_electrons ops -> never is_PE_threshold ops -> never is_PE_bins ops -> never (on_base is_energy_bins) ops \/ never is_electron_bins ops ->
  forall D, safe_externals X -> safe_particle DM -> safe_halo D ->
  safe (Ionization_Total X DM D s) /\ safe (Ionization_Binned X DM D s) /\ forall E, safe (Ionization_dRdE X DM D s E).
Proof. exact ionization_safe. Qed.
Print Assumptions C43_ionization.

(** Crystal detectors: every history that selects some spectrum, up to 10^6 pairs, pair bins starting at one pair, not mixed with energy bins. *)
Theorem C43_semiconductor : forall Import_List label expo crys s0 ops s u, Semiconductor_ctor Import_List label expo crys = Ok s0 ->
  semiconductor_run s0 ops = Ok s -> Forall semiconductor_args ops -> Forall moderate_pairs ops -> last_such semiconductor_use ops = Some u ->
  never (on_base_c is_energy_bins) ops \/ never is_Q_bins ops ->
  Q_not_overridden u ops ->
  forall X DM D, safe_externals X -> safe_particle DM -> safe_halo D ->
  safe (Semiconductor_Total X DM D s) /\ safe (Semiconductor_Binned X DM D s) /\ forall E, safe (Semiconductor_dRdE X DM D s E).
Proof. exact semiconductor_safe. Qed.
Print Assumptions C43_semiconductor.

(** The particles of the library meet the hypotheses of these theorems. *)
Theorem C43_library_particles : forall (X : externals) p, (forall t x y, safe (x_I2 X t x y)) -> safe_particle (interface_of (x_I2 X) p) /\
  forall w s, (1 <= length (atomic_response_interpolations s))%nat ->
    (forall k, In k (k_Grid s) -> forall ne, safe (PDF_ne (x_PMF_Binomial X) ne (k * k / Fin 2.0 / Fin mElectron)%xr w (s32 (number_of_secondary_electrons s)))) ->
    safe_shell X (interface_of (x_I2 X) p) w s.
Proof. exact library_particle_safe. Qed.
Print Assumptions C43_library_particles.

(** Two elements with a single relative abundance are accepted and the rate reads past the end of the abundances. *)
Theorem C43_short_abundances_refuted : exists nuclei abund n0, Nuclear_ctor "test" (Fin 1) nuclei abund = Ok n0 /\ nuclei = [at_nucleus atom1; at_nucleus atom1] /\
  Nuclear_dRdE X1 DM1 D1 n0 (Fin 1) = UB.
Proof. exact short_abundances. Qed.
Print Assumptions C43_short_abundances_refuted.

(** A photoelectron threshold never gives a prediction: after every history ending in one the total is undefined (or the program ends), because 100 entries are read from a spectrum of 99. *)
Theorem C43_photoelectron_threshold : forall s0 ops s mu sigma lo hi, ionization_run s0 ops = Ok s -> last_such ionization_use ops = Some (IPE_Threshold mu sigma lo hi) ->
  forall X DM D v, Ionization_Total X DM D s <> Ok v.
Proof. exact PE_threshold_never. Qed.
Print Assumptions C43_photoelectron_threshold.

Theorem C43_photoelectron_refuted : exists ops s, ionization_run ion1 ops = Ok s /\ Ionization_Total X1 DM1 D1 s = UB.
Proof. exact PE_threshold_UB. Qed.
Print Assumptions C43_photoelectron_refuted.

(** Pair number bins starting at two pairs read past the end of the bin efficiencies. *)
Theorem C43_Q_bins_refuted : exists s0 s, Semiconductor_ctor IL0 "test" (Fin 1) "Si" = Ok s0 /\ semiconductor_run s0 [CQ_Bins 2 3] = Ok s /\ Semiconductor_Binned X1 DM1 D1 s = UB.
Proof. exact Q_bins_UB. Qed.
Print Assumptions C43_Q_bins_refuted.

(** A crystal detector on which no spectrum was selected reads an uninitialised member. *)
Theorem C43_fresh_crystal_refuted : exists s0, Semiconductor_ctor IL0 "test" (Fin 1) "Si" = Ok s0 /\ forall X DM D, Semiconductor_Total X DM D s0 = UB.
Proof. exact fresh_crystal_UB. Qed.
Print Assumptions C43_fresh_crystal_refuted.

(** Instance: the routines, particle, halo and atom of the witnesses meet the hypotheses of C43. *)
Example C43_instance : exists s, ionization_run ion1 [IElectron_Threshold 2 7] = Ok s /\ safe (Ionization_Total X1 DM1 D1 s).
Proof.
  match goal with |- exists s, ?r = Ok s /\ _ => assert (H : exists s, r = Ok s) end.
  { eexists. cbn [ionization_run ionization_step bind]. unfold Use_Electron_Threshold. cbn [with_ne i_ne_max i_ne_threshold Z.ltb Z.compare Pos.compare Pos.compare_cont andb bind]. reflexivity. }
  destruct H as [s H]. exists s. split; [exact H|]. unfold ion1 in H.
  assert (A1 : Forall ionization_args [IElectron_Threshold 2 7]) by (constructor; [split; unfold is_u32; lia|constructor]).
  assert (A2 : Forall sensible_electrons [IElectron_Threshold 2 7]) by (constructor; [cbn [sensible_electrons]; lia|constructor]).
  assert (A3 : forall o, In (IBase o) [IElectron_Threshold 2 7] -> sensible_bins o) by (intros o [K | []]; discriminate).
  apply (ionization_safe _ _ _ _ _ _ _ X1 DM1 safe_atom1 H A1 A3 A2 eq_refl eq_refl (or_introl eq_refl) D1 safe_X1 safe_DM1 safe_D1).
Qed.

(** C44: for every spectrum, range and number of bins, bin i holds exposure times the integral over the i-th of the equal intervals, and the bins add up to exposure times the integral over the range. (The spectrum includes the flat efficiency; bin efficiencies are 1 after Use_Energy_Bins.) *)
Theorem C44_energy_bins : forall Integrate f (g : R -> R) lo hi n d d' w, ideal_quadrature Integrate -> (1 <= n < 2 ^ 31)%Z -> Use_Energy_Bins (Fin lo) (Fin hi) n d = Ok d' ->
  b_exposure d = Fin w -> (forall E, lo <= E <= hi -> f (Fin E) = Ok (Fin (g E))) -> ex_RInt g lo hi ->
  exists l, DM_Signals_Binned_Base Integrate f d' = Ok (map Fin l) /\ Z.of_nat (length l) = n /\
    l = map (fun i => w * RInt g (edge lo hi (Z.to_nat n) i) (edge lo hi (Z.to_nat n) (S i))) (seq 0 (Z.to_nat n)) /\
    Rsum l = w * RInt g lo hi.
Proof. exact energy_bins_total. Qed.
Print Assumptions C44_energy_bins.

(** For nuclear detectors: the total prediction in binned mode is the integral over the range, however many bins. *)
Theorem C44_nuclear : forall X DM D n0 (g : R -> R) lo hi n n' w, ideal_quadrature (x_Integrate X) -> (1 <= n < 2 ^ 31)%Z -> nuclear_step n0 (NBase (BBins (Fin lo) (Fin hi) n)) = Ok n' ->
  b_exposure (n_base n0) = Fin w -> (forall E, lo <= E <= hi -> Nuclear_dRdE X DM D n' (Fin E) = Ok (Fin (g E))) -> ex_RInt g lo hi ->
  exists l, Nuclear_Binned X DM D n' = Ok (map Fin l) /\ Z.of_nat (length l) = n /\ Rsum l = w * RInt g lo hi /\ Nuclear_Total X DM D n' = Ok (Fin (w * RInt g lo hi)).
Proof. exact nuclear_bins. Qed.
Print Assumptions C44_nuclear.

(** In threshold mode the integral is replaced with that of an interpolation through 200 points: this, times the exposure, is the total. So the two totals differ exactly by the error of the interpolation. *)
Theorem C44_nuclear_threshold : forall X DM D n0 lo hi n1 w I, nuclear_step n0 (NBase (BThreshold (Fin lo) (Fin hi))) = Ok n1 -> b_exposure (n_base n0) = Fin w ->
  (exists values, map_res (Nuclear_dRdE X DM D n1) (Log_Space (Fin lo) (Fin hi) 200) = Ok values /\ x_Interpolate X (Log_Space (Fin lo) (Fin hi) 200) values (Fin lo) (Fin hi) = Ok (Fin I)) ->
  Nuclear_Total X DM D n1 = Ok (Fin (w * I)).
Proof. exact nuclear_threshold_total. Qed.
Print Assumptions C44_nuclear_threshold.

Theorem C44_ionization : forall X DM D s0 (g : R -> R) lo hi n s w, ideal_quadrature (x_Integrate X) -> (1 <= n < 2 ^ 31)%Z -> ionization_step s0 (IBase (BBins (Fin lo) (Fin hi) n)) = Ok s ->
  b_exposure (i_base s0) = Fin w -> (forall E, lo <= E <= hi -> Ionization_dRdE X DM D s (Fin E) = Ok (Fin (g E))) -> ex_RInt g lo hi ->
  exists l, Ionization_Binned X DM D s = Ok (map Fin l) /\ Z.of_nat (length l) = n /\ Rsum l = w * RInt g lo hi /\ Ionization_Total X DM D s = Ok (Fin (w * RInt g lo hi)).
Proof. exact ionization_bins. Qed.
Print Assumptions C44_ionization.

(** For crystals the threshold total over the same range is the same number. *)
Theorem C44_semiconductor : forall X DM D s0 (g : R -> R) lo hi n s w, ideal_quadrature (x_Integrate X) -> (1 <= n < 2 ^ 31)%Z -> semiconductor_step s0 (CBase (BBins (Fin lo) (Fin hi) n)) = Ok s ->
  b_exposure (c_base s0) = Fin w -> (forall E, lo <= E <= hi -> Semiconductor_dRdE X DM D s0 (Fin E) = Ok (Fin (g E))) -> ex_RInt g lo hi ->
  exists l s1, Semiconductor_Binned X DM D s = Ok (map Fin l) /\ Z.of_nat (length l) = n /\ Rsum l = w * RInt g lo hi /\
    Semiconductor_Total X DM D s = Ok (Fin (w * RInt g lo hi)) /\
    semiconductor_step s0 (CBase (BThreshold (Fin lo) (Fin hi))) = Ok s1 /\ Semiconductor_Total X DM D s1 = Ok (Fin (w * RInt g lo hi)).
Proof. exact semiconductor_bins. Qed.
Print Assumptions C44_semiconductor.

(** Threshold counting of ionization detectors does not depend on the upper end of the range. *)
Theorem C44_ionization_upper_end : forall X DM D s0 lo hi hi' s s', ionization_step s0 (IBase (BThreshold lo hi)) = Ok s -> ionization_step s0 (IBase (BThreshold lo hi')) = Ok s' ->
  Ionization_Total X DM D s = Ionization_Total X DM D s'.
Proof. exact ionization_upper_end. Qed.
Print Assumptions C44_ionization_upper_end.

(** So the property is false for them: a range covering half of the electron energies counts twice as many events with a threshold as with a bin. *)
Theorem C44_ionization_refuted : exists s1 s2 a b, ionization_step ion1 (IBase (BThreshold (Fin 0) (Fin (small / 2)))) = Ok s1 /\
  ionization_step ion1 (IBase (BBins (Fin 0) (Fin (small / 2)) 1)) = Ok s2 /\
  Ionization_Total X1 DM1 D1 s1 = Ok (Fin a) /\ Ionization_Total X1 DM1 D1 s2 = Ok (Fin b) /\ 0 < b /\ a = 2 * b.
Proof. exact ionization_threshold_differs. Qed.
Print Assumptions C44_ionization_refuted.

Example C44_instance : exists s l, ionization_step ion1 (IBase (BBins (Fin 0) (Fin (small / 2)) 5)) = Ok s /\ Ionization_Binned X1 DM1 D1 s = Ok (map Fin l) /\ length l = 5%nat /\ 0 < Rsum l.
Proof.
  assert (Hs : 0 < small) by (unfold small, mElectron; lra).
  assert (L : xlt (Fin (small / 2)) (Fin 0) = false) by (apply xlt_false; lra).
  assert (S2 : exists s2, ionization_step ion1 (IBase (BBins (Fin 0) (Fin (small / 2)) 5)) = Ok s2 /\ i_channel s2 = Electron_Recoil /\ i_atoms s2 = [atom1] /\ i_fractions s2 = [Fin 1] /\
    b_flat_efficiency (i_base s2) = Fin 1.0).
  { eexists. split; [cbn [ionization_step base_step]; unfold Use_Energy_Bins; cbn [Initialize_Binned_Poisson ion1 Ionization_start i_base Detector_ctor b_analysis bind]; rewrite L; cbn [bind]; reflexivity|]. repeat split. }
  destruct S2 as (s2 & R2 & F1 & F2 & F3 & F4). destruct (ion_rate_constant s2 F1 F2 F3 F4) as [c [Hc K2]].
  destruct (ionization_bins X1 DM1 D1 ion1 (fun _ => c) 0 (small / 2) 5 s2 1 ideal_quadrature_exists) as (l & L1 & L2 & L3 & _); [lia|exact R2|reflexivity|intros; apply K2; lra|apply ex_RInt_const|].
  exists s2, l. split; [exact R2|]. split; [exact L1|]. split; [lia|]. rewrite L3, RInt_const. change (scal (small / 2 - 0) c) with ((small / 2 - 0) * c).
  assert (0 < small / 2 * c) by (apply Rmult_lt_0_compat; lra). lra.
Qed.
