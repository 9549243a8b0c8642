(** C114: nested windows. *)
From Coq Require Import Reals ZArith String Lia Lra Bool.
From Coquelicot Require Import Coquelicot.
From Coq Require Import List Sorted.
From Verif Require Import Base XrFacts Quadrature Nucleus_Model Nuclear_Model Particle_Model CrossSection_Model CrossSection_Proofs Distribution_Model Astronomy_Model Halo_Model Atom_Model Crystal_Model Crystal_Proofs Rates_Model
  Kinematics_Proofs Eta_Proofs HaloState_Proofs HaloFinal_Proofs Detector_Model DetectorTypes_Model Electrons_Proofs ElectronBins_Proofs Formulas_Proofs FormulasHalo_Proofs DetectorWitness_Proofs DetectorSafety_Proofs Scaling_Proofs LimitsWitness_Proofs Fractions_Proofs
  Nuclear_Proofs Atom_Proofs AtomTables_Proofs Exposure_Proofs DetectorModes_Proofs Positivity_Proofs PositivityLibrary_Proofs PositivityWitness_Proofs Windows_Proofs WindowsWitness_Proofs.
Import ListNotations.
Local Open Scope R_scope.

(** C114: after every history of sensible calls, if an ionization detector returns a prediction for lo1..hi1 electrons, it returns one for every range lo2..hi2 of at least two numbers inside, and that is not larger. *)
Theorem C114_electrons : forall X IT w ch label expo names fr ops s DM D m vmax lo1 hi1 lo2 hi2 s1 s2, positive_externals X -> good_particle DM m -> good_halo D vmax -> Forall (fun a => 0 <= a) fr -> nn expo ->
  ionization_history IT w ch label expo names (map Fin fr) ops = Ok s -> (forall a, In a (i_atoms s) -> good_atom X DM ch a) -> Forall sensible_ionization ops ->
  (0 <= lo1 <= lo2)%Z -> (lo2 < hi2 <= hi1)%Z -> (hi1 < 2 ^ 32 - 1)%Z -> Use_Electron_Threshold lo1 hi1 s = Ok s1 -> Use_Electron_Threshold lo2 hi2 s = Ok s2 ->
  no_more (Ionization_Total X DM D s1) (Ionization_Total X DM D s2).
Proof. exact electrons_nested. Qed.
Print Assumptions C114_electrons.

(** Instances: the hypotheses hold for xenon in both channels; and in the detector of C58 the inner range has fewer events, but some. *)
Example C114_electrons_hypotheses : forall ch, exists s, ionization_history IT2 (fresh_world shipped_rows) ch "test" (Fin 1) ["Xe"%string] (map Fin [1]) opsI = Ok s /\
  (forall a, In a (i_atoms s) -> good_atom XW (interface_of (x_I2 XW) even) ch a) /\ Forall sensible_ionization opsI /\ i_atoms s <> [].
Proof. exact ionization_positive_instance. Qed.
Example C114_electrons_instance : exists s1 s2 t1 t2, Use_Electron_Threshold 1 5 ion2 = Ok s1 /\ Use_Electron_Threshold 2 3 ion2 = Ok s2 /\ Ionization_Total X1 DM1 D1 s1 = Ok (Fin t1) /\ Ionization_Total X1 DM1 D1 s2 = Ok (Fin t2) /\ 0 < t2 < t1.
Proof. exact electrons_strict. Qed.

(** Raising the threshold on the number of electron-hole pairs never raises the prediction of a semiconductor detector that has not been given an energy threshold. *)
Theorem C114_pairs : forall X IL label expo crys ops s DM D m vmax Q1 Q2, positive_externals X -> good_particle DM m -> good_halo D vmax -> nn expo ->
  semiconductor_history IL label expo crys ops = Ok s -> good_crystal DM (c_crystal s) -> Forall (sensible_semiconductor (c_crystal s)) ops -> never (on_base_c is_energy_threshold) ops ->
  (1 <= Q1 <= Q2)%Z -> (Q2 <= 100)%Z -> no_more (Semiconductor_Total X DM D (Use_Q_Threshold Q1 s)) (Semiconductor_Total X DM D (Use_Q_Threshold Q2 s)).
Proof. exact pairs_nested. Qed.
Print Assumptions C114_pairs.

Example C114_pairs_instance : exists s v, semiconductor_history IL0 "test" (Fin 1) "Si" [] = Ok s /\ positive_externals XW /\ good_particle DM1 2 /\ good_halo D1 1 /\ good_crystal DM1 (c_crystal s) /\ Semiconductor_Total XW DM1 D1 (Use_Q_Threshold 1 s) = Ok v.
Proof. exact pairs_instance. Qed.

(** Of two nested energy windows of a semiconductor detector the inner one has no more events, if the spectrum is integrable and the quadrature exact. *)
Theorem C114_semiconductor_energies : forall X IL label expo crys ops s DM D m vmax (g : R -> R) lo1 hi1 lo2 hi2 s1 s2, positive_externals X -> ideal_quadrature (x_Integrate X) -> good_particle DM m -> good_halo D vmax -> nn expo ->
  semiconductor_history IL label expo crys ops = Ok s -> good_crystal DM (c_crystal s) -> Forall (sensible_semiconductor (c_crystal s)) ops -> 0 < lo1 <= lo2 -> lo2 <= hi2 <= hi1 ->
  (forall E, lo1 <= E <= hi1 -> Semiconductor_dRdE X DM D s (Fin E) = Ok (Fin (g E))) -> ex_RInt g lo1 hi1 ->
  semiconductor_step s (CBase (BThreshold (Fin lo1) (Fin hi1))) = Ok s1 -> semiconductor_step s (CBase (BThreshold (Fin lo2) (Fin hi2))) = Ok s2 ->
  exists t1 t2, Semiconductor_Total X DM D s1 = Ok (Fin t1) /\ Semiconductor_Total X DM D s2 = Ok (Fin t2) /\ 0 <= t2 <= t1.
Proof. exact semiconductor_energies_nested. Qed.
Print Assumptions C114_semiconductor_energies.

Example C114_semiconductor_energies_instance : exists s g s1 s2, semiconductor_history IL0 "test" (Fin 1) "Si" [] = Ok s /\ ideal_quadrature (x_Integrate XW) /\ good_crystal DM1 (c_crystal s) /\
  (forall E, 10 * eV <= E <= 40 * eV -> Semiconductor_dRdE XW DM1 D1 s (Fin E) = Ok (Fin (g E))) /\ ex_RInt g (10 * eV) (40 * eV) /\ (forall E, 0 < g E) /\
  semiconductor_step s (CBase (BThreshold (Fin (10 * eV)) (Fin (40 * eV)))) = Ok s1 /\ semiconductor_step s (CBase (BThreshold (Fin (20 * eV)) (Fin (30 * eV)))) = Ok s2.
Proof. exact semiconductor_energies_instance. Qed.

(** The same for the energy bins of a nuclear recoil detector without energy resolution, whatever the numbers of bins. *)
Theorem C114_nuclear_energies : forall X label expo nuclei masses am ops n DM D m vmax (g : R -> R) lo1 hi1 k1 lo2 hi2 k2 n1 n2, positive_externals X -> ideal_quadrature (x_Integrate X) -> good_particle DM m -> good_halo D vmax -> good_targets DM nuclei -> nuclei_masses nuclei masses ->
  (am = [] \/ List.length am = List.length nuclei) -> Forall (fun a => 0 <= a) am -> nn expo ->
  nuclear_history label expo nuclei (map Fin am) ops = Ok n -> Forall (sensible_nuclear X) ops -> xlt (n_resolution n) (Fin (1e-6 * eV)) = true -> 0 < lo1 <= lo2 -> lo2 < hi2 <= hi1 ->
  (1 <= k1 < 2 ^ 31)%Z -> (1 <= k2 < 2 ^ 31)%Z -> nuclear_step n (NBase (BBins (Fin lo1) (Fin hi1) k1)) = Ok n1 -> nuclear_step n (NBase (BBins (Fin lo2) (Fin hi2) k2)) = Ok n2 ->
  (forall E, lo1 <= E <= hi1 -> Nuclear_dRdE X DM D n (Fin E) = Ok (Fin (g E))) -> ex_RInt g lo1 hi1 ->
  exists t1 t2, Nuclear_Total X DM D n1 = Ok (Fin t1) /\ Nuclear_Total X DM D n2 = Ok (Fin t2) /\ 0 <= t2 <= t1.
Proof. exact nuclear_energies_nested. Qed.
Print Assumptions C114_nuclear_energies.

Example C114_nuclear_energies_instance : exists n g n1 n2, nuclear_history "test" (Fin 1) [heavy_hydrogen] (map Fin [1]) [] = Ok n /\ xlt (n_resolution n) (Fin (1e-6 * eV)) = true /\
  nuclear_step n (NBase (BBins (Fin (1/10)) (Fin (1/2)) 4)) = Ok n1 /\ nuclear_step n (NBase (BBins (Fin (1/5)) (Fin (2/5)) 2)) = Ok n2 /\
  (forall E, 1/10 <= E <= 1/2 -> Nuclear_dRdE XW (interface_of (x_I2 XW) even) D1 n (Fin E) = Ok (Fin (g E))) /\ ex_RInt g (1/10) (1/2) /\ exists E, 0 < g E.
Proof. exact nuclear_energies_instance. Qed.

(** Not for a range of one number: 1..1 is read as 1..100, so it can have more events than 0..1. *)
Theorem C114_single_refuted : exists s s1 s2 X DM D t1 t2, Use_Electron_Threshold 0 1 s = Ok s1 /\ Use_Electron_Threshold 1 1 s = Ok s2 /\ Ionization_Total X DM D s1 = Ok (Fin t1) /\ Ionization_Total X DM D s2 = Ok (Fin t2) /\ t1 < t2.
Proof. exact single_nested_refuted. Qed.
Print Assumptions C114_single_refuted.
