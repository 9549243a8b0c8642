(** Properties C95 - C97: exposure, efficiencies, and the shells of the atoms. *)
From Coq Require Import Reals ZArith String Lra Lia.
From Coquelicot Require Import Coquelicot.
From Coq Require Import List.
From Verif Require Import Base XrFacts Quadrature Nuclear_Model Nucleus_Model Particle_Model CrossSection_Model Distribution_Model Atom_Model Crystal_Model Rates_Model
  Detector_Model DetectorTypes_Model Scaling_Proofs Nuclear_Proofs Atom_Proofs Crystal_Proofs DetectorWitness_Proofs LimitsWitness_Proofs
  Exposure_Proofs Efficiency_Proofs ExposureWitness_Proofs AtomTables_Proofs.
Import ListNotations.
Local Open Scope R_scope.

(** C95: built with c times the exposure and configured by the same calls, a nuclear recoil detector has the same spectrum and rate per exposure, and c times the expected events in total and in every bin. *)
Theorem C95_nuclear : forall X D p label expo nuclei abund ops n c, 0 < c -> nuclear_history label expo nuclei abund ops = Ok n ->
  exists n', nuclear_history label (xmul (Fin c) expo) nuclei abund ops = Ok n' /\
    counts_scale c (nuclear_virtuals X D n) (nuclear_virtuals X D n') (n_base n) (n_base n') p.
Proof. exact nuclear_counts. Qed.
Print Assumptions C95_nuclear.

(** One target, one threshold: the expected number of events is positive. *)
Example C95_nuclear_instance : homogeneous_externals XW /\ nuclear_history "test" (Fin 1) [heavy_hydrogen] [Fin 1] opsW = Ok nW /\
  exists s, 0 < s /\ v_total (nuclear_virtuals XW D1 nW) (n_base nW) even = Ok (Fin s).
Proof. exact nuclear_instance. Qed.

(** The same holds of both kinds of ionization detectors, whatever is counted: energies, electrons or photoelectrons ... *)
Theorem C95_ionization : forall X D p Import_Table w ch label expo atoms fractions ops s c, homogeneous (x_Integrate X) -> 0 < c ->
  ionization_history Import_Table w ch label expo atoms fractions ops = Ok s ->
  exists s', ionization_history Import_Table w ch label (xmul (Fin c) expo) atoms fractions ops = Ok s' /\
    counts_scale c (ionization_virtuals X D s) (ionization_virtuals X D s') (i_base s) (i_base s') p.
Proof. exact ionization_counts. Qed.
Print Assumptions C95_ionization.

(** A xenon detector counting 1, 2 and 3 electrons. *)
Example C95_ionization_instance : forall ch, exists s, ionization_history IT0 (fresh_world shipped_rows) ch "test" (Fin 1) ["Xe"%string] [Fin 1]
  [IElectron_Bins 1 3; IBase (BBin_Efficiencies [Fin 1; Fin (1/2); Fin (1/4)])] = Ok s /\ List.length (i_atoms s) = 1%nat /\ b_bins (i_base s) = 3%Z.
Proof. exact ionization_instance. Qed.

(** ... and of semiconductor detectors. *)
Theorem C95_semiconductor : forall X D p Import_List label expo crys ops s c, 0 < c ->
  semiconductor_history Import_List label expo crys ops = Ok s ->
  exists s', semiconductor_history Import_List label (xmul (Fin c) expo) crys ops = Ok s' /\
    counts_scale c (semiconductor_virtuals X D s) (semiconductor_virtuals X D s') (c_base s) (c_base s') p.
Proof. exact semiconductor_counts. Qed.
Print Assumptions C95_semiconductor.

(** A silicon detector counting 1, 2 and 3 electron-hole pairs. *)
Example C95_semiconductor_instance : exists s, semiconductor_history IL0 "test" (Fin 1) "Si" [CQ_Bins 1 3] = Ok s /\ c_Q_threshold s = Some 1%Z /\ b_bins (c_base s) = 3%Z /\
  (b_bins (c_base s) < 2 ^ 32 - 1)%Z /\ (exists s1, semiconductor_step s (CBase (BBin_Efficiencies [Fin 1; Fin (1/2); Fin (1/4)])) = Ok s1).
Proof. exact semiconductor_instance. Qed.

(** C96: setting c times the flat efficiency multiplies spectrum, total and all bins by c, for a nuclear recoil detector in any state, ... *)
Theorem C96_flat_nuclear : forall X D p n f c n1 n2, homogeneous_externals X -> 0 < c ->
  nuclear_step n (NBase (BFlat f)) = Ok n1 -> nuclear_step n (NBase (BFlat (xmul (Fin c) f))) = Ok n2 ->
  all_scale c (nuclear_virtuals X D n1) (nuclear_virtuals X D n2) (n_base n1) (n_base n2) p.
Proof. exact nuclear_flat. Qed.
Print Assumptions C96_flat_nuclear.

(** ... an ionization detector in any state ... *)
Theorem C96_flat_ionization : forall X D p s f c s1 s2, homogeneous (x_Integrate X) -> 0 < c ->
  ionization_step s (IBase (BFlat f)) = Ok s1 -> ionization_step s (IBase (BFlat (xmul (Fin c) f))) = Ok s2 ->
  all_scale c (ionization_virtuals X D s1) (ionization_virtuals X D s2) (i_base s1) (i_base s2) p.
Proof. exact ionization_flat. Qed.
Print Assumptions C96_flat_ionization.

(** ... and a semiconductor detector in any state. *)
Theorem C96_flat_semiconductor : forall X D p s f c s1 s2, homogeneous (x_Integrate X) -> 0 < c ->
  semiconductor_step s (CBase (BFlat f)) = Ok s1 -> semiconductor_step s (CBase (BFlat (xmul (Fin c) f))) = Ok s2 ->
  all_scale c (semiconductor_virtuals X D s1) (semiconductor_virtuals X D s2) (c_base s1) (c_base s2) p.
Proof. exact semiconductor_flat. Qed.
Print Assumptions C96_flat_semiconductor.

(** Multiplying the efficiency of each bin by a number of its own multiplies the expected events in that bin by this number and changes no other bin: nuclear recoils, ... *)
Theorem C96_bins_nuclear : forall X DM D n cs e n1 n2, positives cs -> List.length cs = List.length e ->
  nuclear_step n (NBase (BBin_Efficiencies e)) = Ok n1 -> nuclear_step n (NBase (BBin_Efficiencies (zip_mul cs e))) = Ok n2 ->
  Nuclear_Binned X DM D n2 = (let* l := Nuclear_Binned X DM D n1 in Ok (zip_mul cs l)).
Proof. exact nuclear_efficiency. Qed.
Print Assumptions C96_bins_nuclear.

(** ... ionization (energy, electron and photoelectron bins), ... *)
Theorem C96_bins_ionization : forall X DM D s cs e s1 s2, positives cs -> List.length cs = List.length e ->
  ionization_step s (IBase (BBin_Efficiencies e)) = Ok s1 -> ionization_step s (IBase (BBin_Efficiencies (zip_mul cs e))) = Ok s2 ->
  Ionization_Binned X DM D s2 = (let* l := Ionization_Binned X DM D s1 in Ok (zip_mul cs l)).
Proof. exact ionization_efficiency. Qed.
Print Assumptions C96_bins_ionization.

(** ... semiconductors with energy bins, or with charge bins starting at one pair (for larger thresholds see C43_Q_bins_refuted). *)
Theorem C96_bins_semiconductor : forall X DM D s cs e s1 s2, positives cs -> List.length cs = List.length e ->
  b_using_bins (c_base s) = true \/ c_Q_threshold s = Some 1%Z -> (b_bins (c_base s) < 2 ^ 32 - 1)%Z ->
  semiconductor_step s (CBase (BBin_Efficiencies e)) = Ok s1 -> semiconductor_step s (CBase (BBin_Efficiencies (zip_mul cs e))) = Ok s2 ->
  Semiconductor_Binned X DM D s2 = (let* l := Semiconductor_Binned X DM D s1 in Ok (zip_mul cs l)).
Proof. exact semiconductor_efficiency. Qed.
Print Assumptions C96_bins_semiconductor.

(** Two energy bins whose efficiencies are multiplied with 1/2 and 1/4. *)
Example C96_instance : nuclear_history "test" (Fin 1) [heavy_hydrogen] [Fin 1] opsB = Ok nB /\
  nuclear_step nB (NBase (BBin_Efficiencies [Fin 1; Fin 1])) = Ok nB /\
  exists n2, nuclear_step nB (NBase (BBin_Efficiencies (zip_mul [1/2; 1/4] [Fin 1; Fin 1]))) = Ok n2.
Proof. exact bins_instance. Qed.

(** C97: the shells of xenon, outermost first: names, quantum numbers, binding energies, secondary electrons, momentum ranges, and the four response functions with the numbers of the files named after the shell on logarithmic grids whose steps are the recorded ones. *)
Theorem C97_xenon : forall IT rows w, proper_tables IT -> well_formed rows -> full_table rows -> world_history rows w ->
  exists a w', Atom_by_name IT w "Xe" = Ok (a, w') /\ element_of_table rows 54 (at_nucleus a) /\ Forall2 (shell_as_listed IT 500) listed_xenon (electrons a) /\ W a = Fin (13.8 * eV).
Proof. exact xenon_listed. Qed.
Print Assumptions C97_xenon.

(** The shells of argon. *)
Theorem C97_argon : forall IT rows w, proper_tables IT -> well_formed rows -> full_table rows -> world_history rows w ->
  exists a w', Atom_by_name IT w "Ar" = Ok (a, w') /\ element_of_table rows 18 (at_nucleus a) /\ Forall2 (shell_as_listed IT 100) listed_argon (electrons a) /\ W a = Fin (19.6 * eV).
Proof. exact argon_listed. Qed.
Print Assumptions C97_argon.

Example C97_instance : proper_tables IT2 /\ well_formed shipped_rows /\ full_table shipped_rows /\ world_history shipped_rows (fresh_world shipped_rows).
Proof. exact listed_instance. Qed.
