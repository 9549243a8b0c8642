(** C102 to C104: the printed summaries. *)
From Coq Require Import Reals ZArith String Lra Lia Bool.
From Coq Require Import List.
From Verif Require Import Base XrFacts Nucleus_Model Nuclear_Model Particle_Model Particle_Proofs CrossSection_Model Astronomy_Model Distribution_Model Halo_Model Atom_Model
  Crystal_Model Rates_Model Crystal_Proofs Detector_Model DetectorTypes_Model Experiments_Model Configuration_Model Average_Model Detector_Proofs DetectorModes_Proofs
  DetectorWitness_Proofs DetectorSafety_Proofs Configuration_Proofs ConfigurationWitness_Proofs Summary_Model Summary_Proofs SummaryValues_Proofs.
Import ListNotations.
Local Open Scope R_scope.

(** C102: on any process but number 0 nothing is printed by detectors for nuclear recoils, particles, distributions, isotopes, nuclei, shells, atoms and configurations. *)
Theorem C102_silent : forall (Round : rounding) (Q : integrals) rank, rank <> 0%Z ->
  (forall d, print_base Round rank d = Ok []) /\ (forall n, print_nuclear Round rank n = Ok []) /\
  (forall spin p, print_particle Round rank spin p = []) /\ (forall h, print_halo Round Q rank h = Ok []) /\
  (forall i, print_isotope Round rank i = []) /\ (forall n, print_nucleus Round rank n = []) /\
  (forall s, print_shell rank s = []) /\ (forall a, print_atom rank a = Ok []) /\
  (forall c, print_configuration Round Q rank c = Ok []).
Proof. exact silent. Qed.
Print Assumptions C102_silent.

(** Detectors for ionization print the same on every process, and never nothing ... *)
Theorem C102_ionization : forall (Round : rounding) rank s, print_ionization Round rank s = print_ionization Round 0 s /\
  forall out, print_ionization Round rank s = Ok out -> out <> [].
Proof. exact ionization_loud. Qed.
Print Assumptions C102_ionization.

(** ... and so do semiconductor detectors. *)
Theorem C102_semiconductor : forall (Round : rounding) rank s, print_semiconductor Round rank s = print_semiconductor Round 0 s /\
  forall out, print_semiconductor Round rank s = Ok out -> out <> [].
Proof. exact semiconductor_loud. Qed.
Print Assumptions C102_semiconductor.

(** A freshly constructed ionization detector prints on every process. *)
Theorem C102_refuted : exists s0 ops s, s0 = ion1 /\ ionization_run s0 ops = Ok s /\ forall Round rank, exists out, print_ionization Round rank s = Ok out /\ out <> [].
Proof. exact loud_refuted. Qed.
Print Assumptions C102_refuted.

(** Instance: process 1 and a particle of 10 GeV. *)
Example C102_instance : 1%Z <> 0%Z /\ print_particle (fun x => x) 1 (Fin 0.5) (Particle_ctor SI (Fin 10) (Fin 1)) = [] /\
  print_particle (fun x => x) 0 (Fin 0.5) (Particle_ctor SI (Fin 10) (Fin 1)) <> [].
Proof. split; [lia|]. split; [reflexivity|]. intros H. destruct (values_particle (fun x => x) (Fin 0.5) (Particle_ctor SI (Fin 10) (Fin 1))) as (V & _). rewrite H in V. discriminate V. Qed.

(** C103: printing is defined for a nuclear recoil detector after every history of configuration calls ... *)
Theorem C103_nuclear : forall label expo nuclei abund n0 ops n Round rank, Nuclear_ctor label expo nuclei abund = Ok n0 ->
  (abund = [] \/ (List.length nuclei <= List.length abund)%nat) ->
  nuclear_run n0 ops = Ok n -> Forall nuclear_args ops -> (forall o, In (NBase o) ops -> sensible_bins o) ->
  exists out, print_nuclear Round rank n = Ok out.
Proof. exact nuclear_printable. Qed.
Print Assumptions C103_nuclear.

(** ... for an ionization detector after every history with at most one kind of bins ... *)
Theorem C103_ionization : forall ch label expo atoms fractions ops s Round rank, (List.length atoms <= List.length fractions)%nat ->
  ionization_run (Ionization_start ch label expo atoms fractions) ops = Ok s -> Forall ionization_args ops ->
  (forall b, In (IBase b) ops -> sensible_bins b) -> Forall sensible_PE ops -> one_binning ops ->
  exists out, print_ionization Round rank s = Ok out.
Proof. exact ionization_printable. Qed.
Print Assumptions C103_ionization.

(** ... and for a semiconductor detector after every history with a pair number threshold and without a mix of energy bins and pair number bins. *)
Theorem C103_semiconductor : forall Import_List label expo crys s0 ops s Round rank, Semiconductor_ctor Import_List label expo crys = Ok s0 ->
  semiconductor_run s0 ops = Ok s -> Forall semiconductor_args ops -> (forall o, In (CBase o) ops -> sensible_bins o) ->
  (never (on_base_c is_energy_bins) ops \/ never is_Q_bins ops) -> (exists Q, In (CQ_Threshold Q) ops) ->
  exists out, print_semiconductor Round rank s = Ok out.
Proof. exact semiconductor_printable. Qed.
Print Assumptions C103_semiconductor.

(** Instance: a binned ionization detector. *)
Example C103_instance : exists s, ionization_run ion1 [IElectron_Bins 3 4] = Ok s /\ ion1 = Ionization_start Electron_Recoil "test" (Fin 1) [atom1] [Fin 1] /\
  Forall ionization_args [IElectron_Bins 3 4] /\ one_binning [IElectron_Bins 3 4] /\ Forall sensible_PE [IElectron_Bins 3 4].
Proof.
  eexists. split; [reflexivity|]. split; [reflexivity|]. split; [repeat constructor; unfold is_u32; lia|]. split; [right; left; split; reflexivity|repeat constructor].
Qed.

(** Without a pair number threshold the summary of a semiconductor detector is undefined behaviour, after any other calls. *)
Theorem C103_no_threshold : forall Import_List label expo crys s0 ops s Round rank, Semiconductor_ctor Import_List label expo crys = Ok s0 ->
  semiconductor_run s0 ops = Ok s -> never is_Q_threshold ops -> print_semiconductor Round rank s = UB.
Proof. exact semiconductor_unprintable. Qed.
Print Assumptions C103_no_threshold.

(** The detector of a configuration file: undefined for the six predefined semiconductor experiments, defined for everything else that can be asked for. *)
Theorem C103_configured : forall E cfg w i w' x, Construct_DM_Detector E cfg w = Ok (i, w') -> read_string cfg "DD_experiment" = Ok x ->
  (In x crystal_experiments -> summary_undefined i) /\ (~ In x crystal_experiments -> summary_defined i).
Proof. exact configured_summary. Qed.
Print Assumptions C103_configured.

(** The summary of a whole configuration accordingly. *)
Theorem C103_configuration : forall E fs w path rank cfg c w' x, loaded E fs path cfg -> value_of cfg "DD_experiment" = Some (SString x) ->
  snd (Configuration_ctor E fs w path rank) = Ok (c, w') ->
  (In x crystal_experiments -> forall Round Q out, print_configuration Round Q 0 c <> Ok out) /\
  (~ In x crystal_experiments -> forall Round Q h lines, cf_distr c = Some h -> print_halo Round Q 0 h = Ok lines -> exists out, print_configuration Round Q 0 c = Ok out).
Proof. exact configuration_printing. Qed.
Print Assumptions C103_configuration.

(** Such an experiment, with readable data files. *)
Theorem C103_predefined_refuted : exists i w', supported_experiment F0 world0 "SENSEI@MINOS" = Ok (i, w') /\ summary_undefined i.
Proof. exact SENSEI_unprintable. Qed.
Print Assumptions C103_predefined_refuted.

(** Energy bins followed by more electron bins: the edges of energy bins that do not exist are read. *)
Theorem C103_mixed_refuted : exists ops s, ionization_run ion1 ops = Ok s /\ Forall ionization_args ops /\ (forall o, In (IBase o) ops -> sensible_bins o) /\
  forall Round rank, print_ionization Round rank s = UB.
Proof. exact mixed_bins_refuted. Qed.
Print Assumptions C103_mixed_refuted.

(** C104: a particle shows its mass, as a number times a named unit, between 1 and 1000 for masses from 1 eV to 1000 GeV. *)
Theorem C104_mass : forall (Round : rounding) spin p m, mass p = Fin m ->
  exists cells, values "Mass" (print_particle Round 0 spin p) = [cells] /\ shows_mass m cells.
Proof. exact mass_printed. Qed.
Print Assumptions C104_mass.

(** The mass of the mediator likewise, if there is one. *)
Theorem C104_mediator : forall (Round : rounding) spin p m, mMediator p = Fin m ->
  ((kind p = SI /\ FF_DM p = "General"%string) -> exists cells, values "Mediator mass" (print_particle Round 0 spin p) = [cells] /\ shows_mass m cells) /\
  (~ (kind p = SI /\ FF_DM p = "General"%string) -> values "Mediator mass" (print_particle Round 0 spin p) = []).
Proof. exact mediator_printed. Qed.
Print Assumptions C104_mediator.

(** The cross sections shown are those given to the setters, in cm^2: for protons ... *)
Theorem C104_sigma_p : forall (Round : rounding) spin s x, reachable s -> 0 <= x -> (fixed s = true -> fp_relative s <> Fin 0) ->
  values "Sigma_P[cm^2]" (print_particle Round 0 spin (Set_Sigma_Proton (Fin x) s)) = [[Num (Round (Fin (x / (cm * cm))))]].
Proof. exact proton_printed. Qed.
Print Assumptions C104_sigma_p.

(** ... neutrons ... *)
Theorem C104_sigma_n : forall (Round : rounding) spin s x, reachable s -> 0 <= x -> (fixed s = true -> fn_relative s <> Fin 0) ->
  values "Sigma_N[cm^2]" (print_particle Round 0 spin (Set_Sigma_Neutron (Fin x) s)) = [[Num (Round (Fin (x / (cm * cm))))]].
Proof. exact neutron_printed. Qed.
Print Assumptions C104_sigma_n.

(** ... and electrons. *)
Theorem C104_sigma_e : forall (Round : rounding) spin s x, values "Sigma_E[cm^2]" (print_particle Round 0 spin (Set_Sigma_Electron (Fin x) s)) = [[Num (Round (Fin (x / (cm * cm))))]].
Proof. exact electron_printed. Qed.
Print Assumptions C104_sigma_e.

(** The coupling ratio shown is the one that was fixed, through all calls that keep it, while the particle couples to nucleons at all. *)
Theorem C104_ratio : forall k m0 x0 ops0 s p n, 0 < m0 -> 0 <= x0 -> safe_run (Particle_ctor k (Fin m0) (Fin x0)) ops0 s -> p + n <> 0 -> Sigma_Proton s <> Fin 0 ->
  exists s', Fix_Coupling_Ratio (Fin p) (Fin n) s = Ok s' /\
  forall ops s'' Round spin, Forall valid_call ops -> Forall keeps_relation ops -> prun s' ops = Ok s'' ->
    (Sigma_Proton s'' <> Fin 0 -> values "Coupling ratio" (print_particle Round 0 spin s'') = [[Txt "fn/fp = "; Num (Round (Fin (n / p)))]]) /\
    (Sigma_Proton s'' = Fin 0 -> Sigma_Neutron s'' <> Fin 0 -> values "Coupling ratio" (print_particle Round 0 spin s'') = [[Txt "fp/fn = "; Num (Round (Fin (p / n)))]]).
Proof. exact ratio_printed. Qed.
Print Assumptions C104_ratio.

(** A particle of vanishing cross section whose ratio is fixed to 1 shows a ratio that is not a number. *)
Theorem C104_ratio_refuted : exists p, reachable p /\ fixed p = true /\ fp_relative p = fn_relative p /\ forall (Round : rounding) spin,
  values "Coupling ratio" (print_particle Round 0 spin p) = [[Txt "fp/fn = "; Num (Round NaN)]].
Proof. exact ratio_not_shown. Qed.
Print Assumptions C104_ratio_refuted.

(** The bins shown after Use_Energy_Bins(lo, hi, b) are b intervals with the edges lo + i (hi - lo) / b in keV, and the range and the number are shown. *)
Theorem C104_bins : forall label expo nuclei abund n0 ops n Round lo hi b, Nuclear_ctor label expo nuclei abund = Ok n0 ->
  (abund = [] \/ (List.length nuclei <= List.length abund)%nat) -> nuclear_run n0 ops = Ok n -> Forall nuclear_args ops ->
  (forall o, In (NBase o) ops -> sensible_bins o) -> last_such nuclear_use ops = Some (NBase (BBins (Fin lo) (Fin hi) b)) -> (1 <= b)%Z ->
  exists out, print_nuclear Round 0 n = Ok out /\
    values "Bin range [keV]" out = map (fun i => [Int (Z.of_nat (Datatypes.S i)); Num (Round (Fin (edge lo hi (Z.to_nat b) i / keV)));
      Num (Round (Fin (edge lo hi (Z.to_nat b) (Datatypes.S i) / keV)))]) (seq 0 (Z.to_nat b)) /\
    values "Recoil energies [keV]" out = [[Num (Round (Fin (lo / keV))); Num (Round (Fin (hi / keV)))]] /\
    values "Number of bins" out = [[Int b]].
Proof. exact nuclear_bins_printed. Qed.
Print Assumptions C104_bins.

(** These edges start at lo and end at hi. *)
Theorem C104_edges : forall lo hi n, (1 <= n)%nat -> edge lo hi n 0 = lo /\ edge lo hi n n = hi.
Proof. exact edges_cover. Qed.
Print Assumptions C104_edges.

(** Instance: a particle of 10 MeV; two bins between 1 and 3 keV. *)
Example C104_instance : reachable (Particle_ctor SI (Fin 0.01) (Fin 1)) /\ mass (Particle_ctor SI (Fin 0.01) (Fin 1)) = Fin 0.01 /\ edge 1 3 2 0 = 1 /\ edge 1 3 2 1 = 2 /\ edge 1 3 2 2 = 3 /\
  exists n0 n, Nuclear_ctor "test" (Fin 1) [] [] = Ok n0 /\ nuclear_run n0 [NBase (BBins (Fin (1 * keV)) (Fin (3 * keV)) 2)] = Ok n /\
    last_such nuclear_use [NBase (BBins (Fin (1 * keV)) (Fin (3 * keV)) 2)] = Some (NBase (BBins (Fin (1 * keV)) (Fin (3 * keV)) 2)) /\
    Forall nuclear_args [NBase (BBins (Fin (1 * keV)) (Fin (3 * keV)) 2)].
Proof.
  split; [exists SI, 0.01, 1, []; repeat split; try lra; constructor|]. split; [unfold Particle_ctor; destruct (Set_Sigma_Proton_frame (Fin 1) (Standard_ctor SI (Fin 0.01))) as (_ & _ & M & _); rewrite M; reflexivity|]. unfold edge. split; [cbn; lra|]. split; [cbn; lra|]. split; [cbn; lra|].
  assert (X : xlt (Fin (3 * keV)) (Fin (1 * keV)) = false) by (apply xlt_false; unfold keV; lra).
  do 2 eexists. split; [reflexivity|]. split; [cbn -[xlt Linear_Space]; rewrite X; reflexivity|]. split; [reflexivity|]. repeat constructor; unfold is_i32; lia.
Qed.
