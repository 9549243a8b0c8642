(** C110: predicted spectra and event numbers are finite and not negative. *)
From Coq Require Import Reals ZArith String Lra Lia Bool.
From Coquelicot Require Import Coquelicot.
From Coq Require Import List Sorted.
From Verif Require Import Base XrFacts Quadrature Nucleus_Model Nuclear_Model Particle_Model CrossSection_Model CrossSection_Proofs Distribution_Model Astronomy_Model Halo_Model Atom_Model Crystal_Model Crystal_Proofs Rates_Model
  Kinematics_Proofs Eta_Proofs HaloState_Proofs HaloFinal_Proofs Detector_Model DetectorTypes_Model Electrons_Proofs Formulas_Proofs FormulasHalo_Proofs DetectorWitness_Proofs DetectorSafety_Proofs Scaling_Proofs LimitsWitness_Proofs Fractions_Proofs
  Nuclear_Proofs Atom_Proofs AtomTables_Proofs Exposure_Proofs DetectorModes_Proofs Positivity_Proofs PositivityLibrary_Proofs PositivityWitness_Proofs.
Import ListNotations.
Local Open Scope R_scope.

(** C110: in a nuclear recoil detector after every history of sensible calls, the spectrum above the threshold, the bins and the total, whenever returned, are finite and not negative. *)
Theorem C110_nuclear : forall X label expo nuclei masses am ops n DM D m vmax, positive_externals X -> good_particle DM m -> good_halo D vmax -> good_targets DM nuclei -> nuclei_masses nuclei masses ->
  (am = [] \/ List.length am = List.length nuclei) -> Forall (fun a => 0 <= a) am -> nn expo ->
  nuclear_history label expo nuclei (map Fin am) ops = Ok n -> Forall (sensible_nuclear X) ops ->
  (forall E th, 0 < E -> b_threshold (n_base n) = Fin th -> th <= E -> fine (Nuclear_dRdE X DM D n (Fin E))) /\
  fine_list (Nuclear_Binned X DM D n) /\ (existsb nuclear_use ops = true -> fine (Nuclear_Total X DM D n)).
Proof. exact nuclear_positive. Qed.
Print Assumptions C110_nuclear.

(** The same for ionization detectors, with the rate of every number of electrons ... *)
Theorem C110_ionization : forall X IT w ch label expo names fr ops s DM D m vmax, positive_externals X -> good_particle DM m -> good_halo D vmax -> Forall (fun a => 0 <= a) fr -> nn expo ->
  ionization_history IT w ch label expo names (map Fin fr) ops = Ok s -> (forall a, In a (i_atoms s) -> good_atom X DM ch a) -> Forall sensible_ionization ops ->
  (forall E, 0 < E -> fine (Ionization_dRdE X DM D s (Fin E))) /\ (forall ne, fine (R_ne X DM D s ne)) /\ fine_list (Ionization_Binned X DM D s) /\ fine (Ionization_Total X DM D s).
Proof. exact ionization_positive. Qed.
Print Assumptions C110_ionization.

(** ... and for semiconductor detectors, with the rate of every number of electron-hole pairs. *)
Theorem C110_semiconductor : forall X IL label expo crys ops s DM D m vmax, positive_externals X -> good_particle DM m -> good_halo D vmax -> nn expo ->
  semiconductor_history IL label expo crys ops = Ok s -> good_crystal DM (c_crystal s) -> Forall (sensible_semiconductor (c_crystal s)) ops ->
  (forall E, 0 < E -> fine (Semiconductor_dRdE X DM D s (Fin E))) /\
  (forall Q, (1 <= Q)%Z -> fine (R_Q_Crystal (x_Integrate X) Q DM D (c_crystal s)) /\ fine (R_total_Crystal (x_Integrate X) Q DM D (c_crystal s))) /\
  fine_list (Semiconductor_Binned X DM D s) /\ fine (Semiconductor_Total X DM D s).
Proof. exact semiconductor_positive. Qed.
Print Assumptions C110_semiconductor.

(** The hypotheses hold for the standard halo after every history of calls, if the observer is not faster than the escape velocity, *)
Theorem C110_halo : forall s v0 vel ve, halo_history s v0 vel ve -> 0 < v0 -> 0 < ve -> vnorm vel <= ve -> nn (h_rho s) -> good_halo (halo_interface s) (ve + vnorm vel).
Proof. exact library_halo. Qed.
Print Assumptions C110_halo.

(** for the particles of the library *)
Theorem C110_particle : forall I2 p m, ordinary_particle p m -> good_particle (interface_of I2 p) m.
Proof. exact library_particle. Qed.
Print Assumptions C110_particle.

(** and their cross sections with nuclei, *)
Theorem C110_particle_nuclear : forall I2 p m t, ordinary_particle p m -> (kind p = SD -> ordinary_spins t) -> good_nuclear (interface_of I2 p) t.
Proof. exact library_nuclear. Qed.
Print Assumptions C110_particle_nuclear.

(** and crystals, *)
Theorem C110_particle_crystal : forall I2 p m c, ordinary_particle p m -> good_crystal_table I2 c -> good_crystal (interface_of I2 p) c.
Proof. exact library_crystal. Qed.
Print Assumptions C110_particle_crystal.

(** for every element of the shipped nuclear data, *)
Theorem C110_nuclei : forall w z n w' p m I2, world_history shipped_rows w -> Get_Nucleus w z = Ok (n, w') -> ordinary_particle p m -> good_nucleus n /\ nuclear_cross (interface_of I2 p) n.
Proof. exact shipped_nucleus_good. Qed.
Print Assumptions C110_nuclei.

(** and for xenon and argon, scattering on electrons or by the Migdal effect. *)
Theorem C110_atoms : forall X IT w name a w' p m ch, proper_tables IT -> world_history shipped_rows w -> (name = "Xe" \/ name = "Ar")%string -> Atom_by_name IT w name = Ok (a, w') ->
  (forall sh t, In sh (electrons a) -> In t (atomic_response_interpolations sh) -> good_table (x_I2 X) t) -> ordinary_particle p m -> good_atom X (interface_of (x_I2 X) p) ch a.
Proof. exact shipped_atom_good. Qed.
Print Assumptions C110_atoms.

(** Instances: one window in deuterium (the total is positive), three electron bins in xenon in both channels, three pair bins in silicon, a halo. *)
Example C110_instance : positive_externals XW /\ good_particle (interface_of (x_I2 XW) even) 2 /\ good_halo D1 1 /\ good_targets (interface_of (x_I2 XW) even) [heavy_hydrogen] /\ nuclei_masses [heavy_hydrogen] [1] /\
  nuclear_history "test" (Fin 1) [heavy_hydrogen] (map Fin [1]) [NBase (BThreshold (Fin (1/10)) (Fin (1/2)))] = Ok nW /\ Forall (sensible_nuclear XW) [NBase (BThreshold (Fin (1/10)) (Fin (1/2)))] /\
  exists t, Nuclear_Total XW (interface_of (x_I2 XW) even) D1 nW = Ok (Fin t) /\ 0 < t.
Proof. exact nuclear_positive_instance. Qed.
Example C110_ionization_instance : forall ch, exists s, ionization_history IT2 (fresh_world shipped_rows) ch "test" (Fin 1) ["Xe"%string] (map Fin [1]) opsI = Ok s /\
  (forall a, In a (i_atoms s) -> good_atom XW (interface_of (x_I2 XW) even) ch a) /\ Forall sensible_ionization opsI /\ i_atoms s <> [].
Proof. exact ionization_positive_instance. Qed.
Example C110_semiconductor_instance : exists s, semiconductor_history IL0 "test" (Fin 1) "Si" [CQ_Bins 1 3; CBase (BBin_Efficiencies [Fin 1; Fin (1/2); Fin (1/4)])] = Ok s /\
  good_crystal (interface_of (x_I2 XW) even) (c_crystal s) /\ Forall (sensible_semiconductor (c_crystal s)) [CQ_Bins 1 3; CBase (BBin_Efficiencies [Fin 1; Fin (1/2); Fin (1/4)])].
Proof. exact semiconductor_positive_instance. Qed.
Example C110_halo_instance : exists s, halo_history s 2 (V3 0 3 4) 6 /\ vnorm (V3 0 3 4) <= 6 /\ nn (h_rho s).
Proof. exact halo_positive_instance. Qed.

(** Beyond the sensible calls it fails: in silicon a threshold of 15 pairs after an energy threshold gives a negative number of events. No call reports an error. *)
Theorem C110_reversed_refuted : exists s t, semiconductor_history IL0 "test" (Fin 1) "Si" opsR = Ok s /\ good_particle DM1 2 /\ good_halo D1 1 /\ good_crystal DM1 (c_crystal s) /\
  Semiconductor_Total XW DM1 D1 s = Ok (Fin t) /\ t < 0.
Proof. exact reversed_negative. Qed.
Print Assumptions C110_reversed_refuted.
