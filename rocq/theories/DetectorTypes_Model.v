(** The detector classes: nuclear recoils, ionization by electron or Migdal scattering, semiconductors.
    Source: /repo/src/Direct_Detection_Nucleus.cpp, /repo/src/Direct_Detection_Ionization.cpp, /repo/src/Direct_Detection_ER.cpp,
    /repo/src/Direct_Detection_Migdal.cpp, /repo/src/Direct_Detection_Crystal.cpp. *)
From Coq Require Import Reals List ZArith String.
From Verif Require Import Base Nucleus_Model Nuclear_Model Particle_Model CrossSection_Model Distribution_Model Atom_Model Crystal_Model
  Rates_Model Detector_Model.
Import ListNotations.
Local Open Scope xr_scope.

(** The routines of libphysica used below (external): Integrate, Interpolation_2D, Interpolation, Interpolation::Integrate, PMF_Binomial
    (/repo/src/Direct_Detection_Nucleus.cpp:117,168, /repo/src/Direct_Detection_Ionization.cpp:178,237). *)
Record externals : Type := mkExternals {
  x_Integrate : integrator; x_I2 : interpolator2; x_Interpolation : interpolator; x_Interpolate : interpolation_integral;
  x_PMF_Binomial : Z -> xr -> Z -> res xr }.

(** libphysica::PDF_Gauss(x, mu, sigma) (external, given by its formula; /repo/src/Direct_Detection_Nucleus.cpp:166). *)
Definition PDF_Gauss (x mu sigma : xr) : xr :=
  #1.0 / xsqrt (#2.0 * Fin PI) / sigma * xexp (- xpow ((x - mu) / sigma) 2 / #2.0).

(** * Nuclear recoil detectors *)

(** class DM_Detector_Nucleus, /repo/include/obscura/Direct_Detection_Nucleus.hpp:22-32. Interpolation objects are kept by their nodes. *)
Record nuclear : Type := mkNuclear {
  n_base : detector;
  n_targets : list Nucleus;
  n_fractions : list xr;
  n_resolution : xr;
  n_using_tables : bool;
  n_efficiencies : list (list (xr * xr)) }.

(** Assignments to members (e.g. /repo/src/Direct_Detection_Nucleus.cpp:109,114). *)
Definition with_n_base (d : detector) (n : nuclear) : nuclear :=
  mkNuclear (d) (n_targets n) (n_fractions n) (n_resolution n) (n_using_tables n) (n_efficiencies n).
Definition with_resolution (r : xr) (n : nuclear) : nuclear :=
  mkNuclear (n_base n) (n_targets n) (n_fractions n) (r) (n_using_tables n) (n_efficiencies n).
Definition with_tables (b : bool) (l : list (list (xr * xr))) (n : nuclear) : nuclear :=
  mkNuclear (n_base n) (n_targets n) (n_fractions n) (n_resolution n) (b) (l).

(** DM_Detector_Nucleus::DM_Detector_Nucleus(label, expo, nuclei, abund), /repo/src/Direct_Detection_Nucleus.cpp:54-73. *)
Definition relative_fractions (nuclei : list Nucleus) (abund : list xr) : res (list xr) :=
  let tot := xsum abund in
  match abund with
  | [] =>
      let ms := map (fun n => #1.0 * Average_Nuclear_Mass n) nuclei in
      Ok (map (fun m => m / xsum ms) ms)
  | _ =>
      if xlt #1.0 tot then
        let* ms := map_res (fun i =>
          let* n := at_ub nuclei i in
          let* proportion := at_ub abund i in
          Ok (proportion * Average_Nuclear_Mass n)) (seq 0 (List.length nuclei)) in
        Ok (map (fun m => m / xsum ms) ms)
      else Ok abund
  end.
Definition Nuclear_ctor (label : string) (expo : xr) (nuclei : list Nucleus) (abund : list xr) : res nuclear :=
  let* f := relative_fractions nuclei abund in
  Ok (mkNuclear (Detector_ctor label expo "Nuclei") nuclei f #0.0 false []).

(** DM_Detector_Nucleus::DM_Detector_Nucleus(), /repo/src/Direct_Detection_Nucleus.cpp:49-52. *)
Definition Nuclear_default (w : nuclear_world) : res (nuclear * nuclear_world) :=
  let* (n, w') := Get_Nucleus w 54 in
  Ok (mkNuclear (Detector_ctor "Nuclear recoil experiment" (Fin kg * Fin day) "Nuclei") [n] [#1.0] #0.0 false [], w').

(** All isotopes in the order of the nested loops (e.g. /repo/src/Direct_Detection_Nucleus.cpp:79-81). *)
Definition all_isotopes (n : nuclear) : list Isotope := flat_map nisotopes (n_targets n).

(** DM_Detector_Nucleus::Maximum_Energy_Deposit, /repo/src/Direct_Detection_Nucleus.cpp:75-89; [sigma] is DM.Sigma_Total_Nucleus. *)
Fixpoint deposit_loop (sigma : Isotope -> xr -> res xr) (vDM mDM Emax : xr) (l : list Isotope) : res xr :=
  match l with
  | [] => Ok Emax
  | t :: r =>
      let ERmax := Maximum_Nuclear_Recoil_Energy vDM mDM (imass t) in
      if xlt Emax ERmax then
        let* s := sigma t vDM in
        deposit_loop sigma vDM mDM (if xlt #0.0 s then ERmax else Emax) r
      else deposit_loop sigma vDM mDM Emax r
  end.
Definition Nuclear_Deposit (sigma : Isotope -> xr -> res xr) (mDM vMax : xr) (n : nuclear) : res xr :=
  let* E := deposit_loop sigma vMax mDM #0.0 (all_isotopes n) in
  Ok (E + #6.0 * n_resolution n).

(** DM_Detector_Nucleus::Minimum_DM_Mass, /repo/src/Direct_Detection_Nucleus.cpp:91-105. *)
Definition mass_bound (E vMax : xr) (t : Isotope) : xr := imass t / (xsqrt (#2.0 * imass t / E) * vMax - #1.0).
Fixpoint mass_loop (sigma : Isotope -> xr -> res xr) (E vMax : xr) (l : list Isotope) : res (list xr) :=
  match l with
  | [] => Ok []
  | t :: r =>
      let* s := sigma t vMax in
      let* rest := mass_loop sigma E vMax r in
      Ok (if xlt #0.0 s then mass_bound E vMax t :: rest else rest)
  end.
Definition Nuclear_Minimum_Mass (sigma : Isotope -> xr -> res xr) (vMax : xr) (n : nuclear) : res xr :=
  let* aux := mass_loop sigma (b_threshold (n_base n) - #2.0 * n_resolution n) vMax (all_isotopes n) in
  min_element aux.

(** DM_Detector_Nucleus::Minimum_DM_Speed, /repo/src/Direct_Detection_Nucleus.cpp:175-189. *)
Fixpoint speed_loop (sigma : Isotope -> xr -> res xr) (E mDM vcut : xr) (l : list Isotope) : res xr :=
  match l with
  | [] => Ok vcut
  | t :: r =>
      let vmin := vMinimal_Nucleus E mDM (imass t) in
      if xlt vmin vcut then
        let* s := sigma t #1.0e-3 in
        speed_loop sigma E mDM (if xlt #0.0 s then vmin else vcut) r
      else speed_loop sigma E mDM vcut r
  end.
Definition Nuclear_Minimum_Speed (sigma : Isotope -> xr -> res xr) (mDM : xr) (n : nuclear) : res xr :=
  speed_loop sigma (b_threshold (n_base n) - #2.0 * n_resolution n) mDM #1.0 (all_isotopes n).

(** DM_Detector_Nucleus::Set_Resolution, /repo/src/Direct_Detection_Nucleus.cpp:107-110. *)
Definition Set_Resolution (r : xr) (n : nuclear) : nuclear := with_resolution r n.

(** DM_Detector_Nucleus::Import_Efficiency, /repo/src/Direct_Detection_Nucleus.cpp:112-125. A file is given by its rows; the first
    column is multiplied with the unit (libphysica::Interpolation, external). *)
Definition Import_Efficiency_File (rows : list (xr * xr)) (dim : xr) (n : nuclear) : nuclear :=
  with_tables true (n_efficiencies n ++ [map (fun p => (fst p * dim, snd p)) rows]) n.
Definition Import_Efficiency_Files (files : list (list (xr * xr))) (dim : xr) (n : nuclear) : nuclear :=
  fold_left (fun n rows => Import_Efficiency_File rows dim n) files (with_tables (n_using_tables n) [] n).

(** The efficiency of target i in DM_Detector_Nucleus::dRdE, /repo/src/Direct_Detection_Nucleus.cpp:136-142,159-165. *)
Definition table_efficiency (X : externals) (n : nuclear) (i : nat) (E : xr) : res xr :=
  if n_using_tables n then
    if (List.length (n_efficiencies n) =? 1)%nat then let* t := at_ub (n_efficiencies n) 0 in x_Interpolation X t E
    else if (List.length (n_efficiencies n) =? List.length (n_targets n))%nat then let* t := at_ub (n_efficiencies n) i in x_Interpolation X t E
    else Ok #1.0
  else Ok #1.0.

(** The sum over targets, /repo/src/Direct_Detection_Nucleus.cpp:134-144,156-167: efficiencies at the detected energy E, spectrum at ER. *)
Definition Nuclear_sum (X : externals) (DM : DM_interface) (D : Distr_interface) (n : nuclear) (E ER : xr) : res xr :=
  sum_res (fun i =>
    let* t := at_ub (n_targets n) i in
    let* eff := table_efficiency X n i E in
    let* f := at_ub (n_fractions n) i in
    let* r := dRdER_Nucleus (x_Integrate X) ER DM D t in
    Ok (eff * b_flat_efficiency (n_base n) * f * r)) (seq 0 (List.length (n_targets n))).

(** DM_Detector_Nucleus::dRdE, /repo/src/Direct_Detection_Nucleus.cpp:127-173. *)
Definition Nuclear_dRdE (X : externals) (DM : DM_interface) (D : Distr_interface) (n : nuclear) (E : xr) : res xr :=
  if xlt (n_resolution n) (#1e-6 * Fin eV) then Nuclear_sum X DM D n E E
  else
    let* eMin := max_element [E - #6.0 * n_resolution n; b_threshold (n_base n) - #3.0 * n_resolution n; #2.0 * n_resolution n] in
    let eMax := E + #6.0 * n_resolution n in
    x_Integrate X (fun ER => let* r := Nuclear_sum X DM D n E ER in Ok (PDF_Gauss E ER (n_resolution n) * r)) eMin eMax.

(** The inherited signal functions, /repo/src/Direct_Detection.cpp:314-355. *)
Definition Nuclear_Total (X : externals) (DM : DM_interface) (D : Distr_interface) (n : nuclear) : res xr :=
  DM_Signals_Total_Base (x_Integrate X) (x_Interpolate X) (Nuclear_dRdE X DM D n) (n_base n).
Definition Nuclear_Binned (X : externals) (DM : DM_interface) (D : Distr_interface) (n : nuclear) : res (list xr) :=
  DM_Signals_Binned_Base (x_Integrate X) (Nuclear_dRdE X DM D n) (n_base n).

(** The public configuration calls (/repo/include/obscura/Direct_Detection_Nucleus.hpp:38-40 and those of the base class). *)
Inductive nuclear_op : Type :=
| NBase (o : base_op)
| NResolution (r : xr)
| NEfficiency (rows : list (xr * xr)) (dim : xr)
| NEfficiencies (files : list (list (xr * xr))) (dim : xr).
Definition nuclear_step (n : nuclear) (o : nuclear_op) : res nuclear :=
  match o with
  | NBase o => let* d := base_step (n_base n) o in Ok (with_n_base d n)
  | NResolution r => Ok (Set_Resolution r n)
  | NEfficiency rows dim => Ok (Import_Efficiency_File rows dim n)
  | NEfficiencies files dim => Ok (Import_Efficiency_Files files dim n)
  end.
Fixpoint nuclear_run (n : nuclear) (l : list nuclear_op) : res nuclear :=
  match l with
  | [] => Ok n
  | o :: t => let* n' := nuclear_step n o in nuclear_run n' t
  end.

(** The virtual functions of a nuclear detector (/repo/include/obscura/Direct_Detection_Nucleus.hpp:42-45). *)
Definition nuclear_virtuals (X : externals) (D : Distr_interface) (n : nuclear) : virtuals :=
  mkVirtuals
    (fun d p => Nuclear_Deposit (Sigma_Total_Nucleus (x_Integrate X) p) (mass p) (d_vmax D) (with_n_base d n))
    (fun d p => Nuclear_Minimum_Mass (Sigma_Total_Nucleus (x_Integrate X) p) (d_vmax D) (with_n_base d n))
    (fun d p E => Nuclear_dRdE X (interface_of (x_I2 X) p) D (with_n_base d n) E)
    (fun d p => Nuclear_Total X (interface_of (x_I2 X) p) D (with_n_base d n))
    (fun d p => Nuclear_Binned X (interface_of (x_I2 X) p) D (with_n_base d n)).

(** * Ionization detectors *)

(** Which of the two classes DM_Detector_Ionization_ER / DM_Detector_Ionization_Migdal an object belongs to
    (/repo/include/obscura/Direct_Detection_ER.hpp:13, /repo/include/obscura/Direct_Detection_Migdal.hpp:14). *)
Inductive channel : Type := Electron_Recoil | Migdal.

(** class DM_Detector_Ionization, /repo/include/obscura/Direct_Detection_Ionization.hpp:12-39. *)
Record ionization : Type := mkIonization {
  i_base : detector;
  i_channel : channel;
  i_atoms : list Atom;
  i_fractions : list xr;
  i_ne_threshold : Z;
  i_ne_max : Z;
  i_using_ne_threshold : bool;
  i_using_ne_bins : bool;
  i_PE_threshold : Z;
  i_PE_max : Z;
  i_S2_mu : xr;
  i_S2_sigma : xr;
  i_trigger : list xr;
  i_acceptance : list xr;
  i_using_S2_threshold : bool;
  i_using_S2_bins : bool;
  i_S2_ranges : list Z }.

(** Assignments to members (e.g. /repo/src/Direct_Detection_Ionization.cpp:271-276,333-341). *)
Definition with_i_base (d : detector) (s : ionization) : ionization :=
  mkIonization (d) (i_channel s) (i_atoms s) (i_fractions s) (i_ne_threshold s) (i_ne_max s) (i_using_ne_threshold s) (i_using_ne_bins s) (i_PE_threshold s) (i_PE_max s) (i_S2_mu s) (i_S2_sigma s) (i_trigger s) (i_acceptance s) (i_using_S2_threshold s) (i_using_S2_bins s) (i_S2_ranges s).
Definition with_ne (lo hi : Z) (s : ionization) : ionization :=
  mkIonization (i_base s) (i_channel s) (i_atoms s) (i_fractions s) (lo) (hi) (i_using_ne_threshold s) (i_using_ne_bins s) (i_PE_threshold s) (i_PE_max s) (i_S2_mu s) (i_S2_sigma s) (i_trigger s) (i_acceptance s) (i_using_S2_threshold s) (i_using_S2_bins s) (i_S2_ranges s).
Definition with_i_flags (t b u v : bool) (s : ionization) : ionization :=
  mkIonization (i_base s) (i_channel s) (i_atoms s) (i_fractions s) (i_ne_threshold s) (i_ne_max s) (t) (b) (i_PE_threshold s) (i_PE_max s) (i_S2_mu s) (i_S2_sigma s) (i_trigger s) (i_acceptance s) (u) (v) (i_S2_ranges s).
Definition with_S2 (mu sigma : xr) (s : ionization) : ionization :=
  mkIonization (i_base s) (i_channel s) (i_atoms s) (i_fractions s) (i_ne_threshold s) (i_ne_max s) (i_using_ne_threshold s) (i_using_ne_bins s) (i_PE_threshold s) (i_PE_max s) (mu) (sigma) (i_trigger s) (i_acceptance s) (i_using_S2_threshold s) (i_using_S2_bins s) (i_S2_ranges s).
Definition with_PE (lo hi : Z) (s : ionization) : ionization :=
  mkIonization (i_base s) (i_channel s) (i_atoms s) (i_fractions s) (i_ne_threshold s) (i_ne_max s) (i_using_ne_threshold s) (i_using_ne_bins s) (lo) (hi) (i_S2_mu s) (i_S2_sigma s) (i_trigger s) (i_acceptance s) (i_using_S2_threshold s) (i_using_S2_bins s) (i_S2_ranges s).
Definition with_S2_ranges (l : list Z) (s : ionization) : ionization :=
  mkIonization (i_base s) (i_channel s) (i_atoms s) (i_fractions s) (i_ne_threshold s) (i_ne_max s) (i_using_ne_threshold s) (i_using_ne_bins s) (i_PE_threshold s) (i_PE_max s) (i_S2_mu s) (i_S2_sigma s) (i_trigger s) (i_acceptance s) (i_using_S2_threshold s) (i_using_S2_bins s) (l).
Definition with_trigger (l : list xr) (s : ionization) : ionization :=
  mkIonization (i_base s) (i_channel s) (i_atoms s) (i_fractions s) (i_ne_threshold s) (i_ne_max s) (i_using_ne_threshold s) (i_using_ne_bins s) (i_PE_threshold s) (i_PE_max s) (i_S2_mu s) (i_S2_sigma s) (l) (i_acceptance s) (i_using_S2_threshold s) (i_using_S2_bins s) (i_S2_ranges s).
Definition with_acceptance (l : list xr) (s : ionization) : ionization :=
  mkIonization (i_base s) (i_channel s) (i_atoms s) (i_fractions s) (i_ne_threshold s) (i_ne_max s) (i_using_ne_threshold s) (i_using_ne_bins s) (i_PE_threshold s) (i_PE_max s) (i_S2_mu s) (i_S2_sigma s) (i_trigger s) (l) (i_using_S2_threshold s) (i_using_S2_bins s) (i_S2_ranges s).

(** The argument target_particle of the constructors, /repo/src/Direct_Detection_ER.cpp:63-71, /repo/src/Direct_Detection_Migdal.cpp:77-82. *)
Definition channel_targets (ch : channel) : string := match ch with Electron_Recoil => "Electrons" | Migdal => "Nuclei" end.

(** The initial values of the other members, /repo/src/Direct_Detection_Ionization.cpp:105,110. *)
Definition Ionization_start (ch : channel) (label : string) (expo : xr) (atoms : list Atom) (fractions : list xr) : ionization :=
  mkIonization (Detector_ctor label expo (channel_targets ch)) ch atoms fractions 3 100 false false 0 0 #0.0 #0.0 [] [] false false [].

(** DM_Detector_Ionization::DM_Detector_Ionization(label, expo, target_particle, atom), /repo/src/Direct_Detection_Ionization.cpp:104-107. *)
Definition Ionization_ctor1 (Import_Table : string -> res (list (list xr))) (w : nuclear_world) (ch : channel) (label : string) (expo : xr)
    (atom : string) : res (ionization * nuclear_world) :=
  let* (a, w') := Atom_by_name Import_Table w atom in
  Ok (Ionization_start ch label expo [a] [#1.0], w').

(** The construction of all atoms, /repo/src/Direct_Detection_Ionization.cpp:113-114. *)
Fixpoint make_atoms (Import_Table : string -> res (list (list xr))) (w : nuclear_world) (names : list string) : res (list Atom * nuclear_world) :=
  match names with
  | [] => Ok ([], w)
  | s :: t =>
      let* (a, w1) := Atom_by_name Import_Table w s in
      let* (r, w2) := make_atoms Import_Table w1 t in
      Ok (a :: r, w2)
  end.

(** The mass fractions, /repo/src/Direct_Detection_Ionization.cpp:115-128. *)
Definition ionization_fractions (n : nat) (mass_fractions : list xr) : res (list xr) :=
  match mass_fractions with
  | [] => Ok (repeat (#1.0 / Fin (INR n)) n)
  | _ =>
      if (List.length mass_fractions =? n)%nat then
        let total := xsum mass_fractions in
        Ok (if xlt #1.0 total then map (fun e => e / total) mass_fractions else mass_fractions)
      else Exit
  end.

(** DM_Detector_Ionization::DM_Detector_Ionization(label, expo, target_particle, atoms, mass_fractions),
    /repo/src/Direct_Detection_Ionization.cpp:109-129. *)
Definition Ionization_ctor (Import_Table : string -> res (list (list xr))) (w : nuclear_world) (ch : channel) (label : string) (expo : xr)
    (atoms : list string) (mass_fractions : list xr) : res (ionization * nuclear_world) :=
  let* (l, w') := make_atoms Import_Table w atoms in
  let* f := ionization_fractions (List.length l) mass_fractions in
  Ok (Ionization_start ch label expo l f, w').

(** DM_Detector_Ionization::Energy_Gap and Lowest_W, /repo/src/Direct_Detection_Ionization.cpp:15-31. *)
Definition Energy_Gap (s : ionization) : xr :=
  fold_left (fun gap a => if xlt (Lowest_Binding_Energy a) gap then Lowest_Binding_Energy a else gap) (i_atoms s) #1e10.
Definition Lowest_W (s : ionization) : xr := fold_left (fun w a => if xlt (W a) w then W a else w) (i_atoms s) #1e10.

(** DM_Detector_Ionization::Maximum_Energy_Deposit, /repo/src/Direct_Detection_Ionization.cpp:33-37. *)
Definition Ionization_Deposit (mDM vMax : xr) : xr := mDM / #2.0 * vMax * vMax.

(** DM_Detector_Ionization::Minimum_DM_Mass, /repo/src/Direct_Detection_Ionization.cpp:131-142. *)
Definition Ionization_Minimum_Mass (vMax : xr) (s : ionization) : xr :=
  let E_min := if b_using_threshold (i_base s) then b_threshold (i_base s)
               else if (i_using_ne_bins s || i_using_ne_threshold s)%bool
               then Energy_Gap s + (Fin (IZR (i_ne_threshold s)) - #1.0) * Lowest_W s
               else Energy_Gap s in
  #2.0 * E_min / vMax / vMax.

(** DM_Detector_Ionization::Minimum_DM_Speed, /repo/src/Direct_Detection_Ionization.cpp:144-147. *)
Definition Ionization_Minimum_Speed (mDM : xr) (s : ionization) : xr := xsqrt (#2.0 * Energy_Gap s / mDM).

(** dRdE_Ionization for one shell: the overriding functions, /repo/src/Direct_Detection_ER.cpp:73-76,
    /repo/src/Direct_Detection_Migdal.cpp:84-87. *)
Definition Ionization_dRdE_shell (X : externals) (DM : DM_interface) (D : Distr_interface) (s : ionization) (E : xr) (n : Nucleus) (shell : Atomic_Electron) : res xr :=
  let* r := match i_channel s with
            | Electron_Recoil => dRdEe_ER_shell (x_Integrate X) E DM D (Average_Nuclear_Mass n) shell
            | Migdal => dRdEe_Migdal_nucleus (x_Integrate X) (x_I2 X) E DM D n shell
            end in
  Ok (b_flat_efficiency (i_base s) * r).

(** dRdE_Ionization for an atom, /repo/src/Direct_Detection_Ionization.cpp:221-227. *)
Definition Ionization_dRdE_atom (X : externals) (DM : DM_interface) (D : Distr_interface) (s : ionization) (E : xr) (a : Atom) : res xr :=
  sum_res (Ionization_dRdE_shell X DM D s E (at_nucleus a)) (electrons a).

(** The sums over targets weighted with the mass fractions, /repo/src/Direct_Detection_Ionization.cpp:151-154,261-265. *)
Definition weighted (s : ionization) (f : Atom -> res xr) : res xr :=
  sum_res (fun i =>
    let* a := at_ub (i_atoms s) i in
    let* w := at_ub (i_fractions s) i in
    let* r := f a in
    Ok (w * r)) (seq 0 (List.length (i_atoms s))).

(** DM_Detector_Ionization::dRdE, /repo/src/Direct_Detection_Ionization.cpp:149-155. *)
Definition Ionization_dRdE (X : externals) (DM : DM_interface) (D : Distr_interface) (s : ionization) (E : xr) : res xr :=
  weighted s (Ionization_dRdE_atom X DM D s E).

(** PDF_ne, /repo/src/Direct_Detection_Ionization.cpp:231-238. neMax is a double passed as an int, ne - 1 is unsigned and passed as
    an int. *)
Definition PDF_ne (PMF_Binomial : Z -> xr -> Z -> res xr) (ne : Z) (Ee w : xr) (n_secondary : Z) : res xr :=
  let fR := #0.0 in
  let NxNi := #0.2 in
  let fe := (#1.0 - fR) / (#1.0 + NxNi) in
  let neMax := Fin (IZR n_secondary) + xfloor (Ee / w) in
  let* trials := to_int neMax in
  PMF_Binomial trials fe (s32 (u32 (ne - 1))).

(** DM_Detector_Ionization::R_ne for a shell, an atom and the detector, /repo/src/Direct_Detection_Ionization.cpp:240-266.
    number_of_secondary_electrons is unsigned and passed as an int. *)
Definition R_ne_shell (X : externals) (DM : DM_interface) (D : Distr_interface) (s : ionization) (ne : Z) (w : xr) (n : Nucleus) (shell : Atomic_Electron) : res xr :=
  sum_res (fun k =>
    let Ee := k * k / #2.0 / Fin mElectron in
    let* p := PDF_ne (x_PMF_Binomial X) ne Ee w (s32 (number_of_secondary_electrons shell)) in
    let* r := Ionization_dRdE_shell X DM D s Ee n shell in
    Ok (xlog #10.0 * dlogk shell * k * k / Fin mElectron * p * r)) (k_Grid shell).
Definition R_ne_atom (X : externals) (DM : DM_interface) (D : Distr_interface) (s : ionization) (ne : Z) (a : Atom) : res xr :=
  sum_res (R_ne_shell X DM D s ne (W a) (at_nucleus a)) (electrons a).
Definition R_ne (X : externals) (DM : DM_interface) (D : Distr_interface) (s : ionization) (ne : Z) : res xr :=
  weighted s (R_ne_atom X DM D s ne).

(** DM_Detector_Ionization::DM_Signals_Electron_Bins, /repo/src/Direct_Detection_Ionization.cpp:40-58. *)
Definition DM_Signals_Electron_Bins (X : externals) (DM : DM_interface) (D : Distr_interface) (s : ionization) : res (list xr) :=
  if negb (i_using_ne_bins s) then Exit
  else map_res (fun bin =>
    let ne := u32 (i_ne_threshold s + Z.of_nat bin) in
    let* R_bin := R_ne X DM D s ne in
    let* e := at_ub (b_efficiencies (i_base s)) bin in
    Ok (e * b_exposure (i_base s) * R_bin)) (seq 0 (Z.to_nat (b_bins (i_base s)))).

(** R_S2_aux, /repo/src/Direct_Detection_Ionization.cpp:299-305. *)
Definition R_S2_aux (nPE : Z) (mu_PE sigma_PE : xr) (spectrum : list xr) : res xr :=
  sum_res (fun ne =>
    let* r := at_ubZ spectrum (ne - 1) in
    Ok (PDF_Gauss (Fin (IZR nPE)) (mu_PE * Fin (IZR ne)) (xsqrt (Fin (IZR ne)) * sigma_PE) * r)) (Zrange 1 101).

(** DM_Detector_Ionization::R_S2 for one shell, one atom and the detector, /repo/src/Direct_Detection_Ionization.cpp:307-329. *)
Definition R_S2_shell (X : externals) (DM : DM_interface) (D : Distr_interface) (s : ionization) (S2 : Z) (w : xr) (n : Nucleus)
    (shell : Atomic_Electron) (spectrum : list xr) : res xr :=
  let* l := match spectrum with [] => map_res (fun ne => R_ne_shell X DM D s ne w n shell) (Zrange 1 101) | _ => Ok spectrum end in
  R_S2_aux S2 (i_S2_mu s) (i_S2_sigma s) l.
Definition R_S2_atom (X : externals) (DM : DM_interface) (D : Distr_interface) (s : ionization) (S2 : Z) (a : Atom) (spectrum : list xr) : res xr :=
  let* l := match spectrum with [] => map_res (fun ne => R_ne_atom X DM D s ne a) (Zrange 1 101) | _ => Ok spectrum end in
  R_S2_aux S2 (i_S2_mu s) (i_S2_sigma s) l.
Definition R_S2 (X : externals) (DM : DM_interface) (D : Distr_interface) (s : ionization) (S2 : Z) (spectrum : list xr) : res xr :=
  let* l := match spectrum with [] => map_res (R_ne X DM D s) (Zrange 1 101) | _ => Ok spectrum end in
  R_S2_aux S2 (i_S2_mu s) (i_S2_sigma s) l.

(** PE_eff, /repo/src/Direct_Detection_Ionization.cpp:70-74. *)
Definition PE_efficiency (s : ionization) (PE : Z) : res xr :=
  let* t := match i_trigger s with [] => Ok #1.0 | l => let* e := at_ubZ l (u32 (PE - 1)) in Ok (#1.0 * e) end in
  match i_acceptance s with [] => Ok t | l => let* e := at_ubZ l (u32 (PE - 1)) in Ok (t * e) end.

(** DM_Detector_Ionization::R_S2_Bin, /repo/src/Direct_Detection_Ionization.cpp:61-78. With S2_2 = 2^32 - 1 the loop has no end; this is
    modelled as UB. *)
Definition R_S2_Bin (X : externals) (DM : DM_interface) (D : Distr_interface) (s : ionization) (S2_1 S2_2 : Z) (spectrum : list xr) : res xr :=
  let* l := match spectrum with [] => map_res (R_ne X DM D s) (Zrange 1 100) | _ => Ok spectrum end in
  if (S2_2 =? 2 ^ 32 - 1)%Z then UB
  else sum_res (fun PE =>
    let* e := PE_efficiency s PE in
    let* r := R_S2 X DM D s PE l in
    Ok (e * r)) (Zrange S2_1 (S2_2 + 1)).

(** DM_Detector_Ionization::DM_Signals_PE_Bins, /repo/src/Direct_Detection_Ionization.cpp:80-102. *)
Definition DM_Signals_PE_Bins (X : externals) (DM : DM_interface) (D : Distr_interface) (s : ionization) : res (list xr) :=
  if negb (i_using_S2_bins s) then Exit
  else
    let* spectrum := map_res (R_ne X DM D s) (Zrange 1 100) in
    map_res (fun bin =>
      let* lo := at_ub (i_S2_ranges s) bin in
      let* hi := at_ub (i_S2_ranges s) (S bin) in
      let* R_bin := R_S2_Bin X DM D s lo (u32 (hi - 1)) spectrum in
      let* e := at_ub (b_efficiencies (i_base s)) bin in
      Ok (e * b_exposure (i_base s) * R_bin)) (seq 0 (Z.to_nat (b_bins (i_base s)))).

(** DM_Detector_Ionization::DM_Signals_Binned, /repo/src/Direct_Detection_Ionization.cpp:189-213. *)
Definition Ionization_Binned (X : externals) (DM : DM_interface) (D : Distr_interface) (s : ionization) : res (list xr) :=
  match b_analysis (i_base s) with
  | Binned_Poisson =>
      if b_using_bins (i_base s) then DM_Signals_Energy_Bins (x_Integrate X) (Ionization_dRdE X DM D s) (i_base s)
      else if i_using_ne_bins s then DM_Signals_Electron_Bins X DM D s
      else if i_using_S2_bins s then DM_Signals_PE_Bins X DM D s
      else Exit
  | _ => Exit
  end.

(** The energy threshold branch of DM_Signals_Total, /repo/src/Direct_Detection_Ionization.cpp:169-182: one term per target and shell. *)
Definition threshold_term (X : externals) (DM : DM_interface) (D : Distr_interface) (s : ionization) (w : xr) (n : Nucleus) (shell : Atomic_Electron) : res xr :=
  let Emax := k_max shell * k_max shell / #2.0 / Fin mElectron in
  if xlt (b_threshold (i_base s)) Emax then
    let* integral := x_Integrate X (fun E => let* r := Ionization_dRdE_shell X DM D s E n shell in Ok (b_exposure (i_base s) * r))
                     (b_threshold (i_base s)) Emax in
    Ok (w * integral)
  else Ok #0.

(** DM_Detector_Ionization::DM_Signals_Total, /repo/src/Direct_Detection_Ionization.cpp:157-187. The loop over electron numbers with
    ne_max = 2^32 - 1 has no end; this is modelled as UB. *)
Definition Ionization_Total (X : externals) (DM : DM_interface) (D : Distr_interface) (s : ionization) : res xr :=
  match b_analysis (i_base s) with
  | Binned_Poisson => let* l := Ionization_Binned X DM D s in Ok (xsum l)
  | _ =>
      if i_using_ne_threshold s then
        if (i_ne_max s =? 2 ^ 32 - 1)%Z then UB
        else sum_res (fun ne => let* r := R_ne X DM D s ne in Ok (b_exposure (i_base s) * r)) (Zrange (i_ne_threshold s) (i_ne_max s + 1))
      else if b_using_threshold (i_base s) then
        let* terms := map_res (fun i =>
          let* a := at_ub (i_atoms s) i in
          let* w := at_ub (i_fractions s) i in
          map_res (threshold_term X DM D s w (at_nucleus a)) (electrons a)) (seq 0 (List.length (i_atoms s))) in
        Ok (xsum (List.concat terms))
      else if i_using_S2_threshold s then
        let* r := R_S2_Bin X DM D s (i_PE_threshold s) (i_PE_max s) [] in
        Ok (b_exposure (i_base s) * r)
      else Ok #0
  end.

(** DM_Detector_Ionization::Use_Electron_Threshold, /repo/src/Direct_Detection_Ionization.cpp:268-282. *)
Definition Use_Electron_Threshold (ne_thr nemax : Z) (s : ionization) : res ionization :=
  let d := Initialize_Poisson (i_base s) in
  let s1 := with_i_base (with_using false (b_using_bins d) d) (with_i_flags true (i_using_ne_bins s) false (i_using_S2_bins s) s) in
  let s2 := with_ne ne_thr (if ((0 <? nemax) && (ne_thr <? nemax))%Z%bool then nemax else 100%Z) s1 in
  if (i_ne_max s2 <? i_ne_threshold s2)%Z then Exit else Ok s2.

(** DM_Detector_Ionization::Use_Electron_Bins, /repo/src/Direct_Detection_Ionization.cpp:284-296. *)
Definition Use_Electron_Bins (ne_thr N_bins : Z) (s : ionization) : res ionization :=
  let* d := Initialize_Binned_Poisson N_bins (i_base s) in
  let s1 := with_i_base d (with_i_flags (i_using_ne_threshold s) true (i_using_S2_threshold s) (i_using_S2_bins s) s) in
  let s2 := with_ne ne_thr (u32 (ne_thr + N_bins - 1)) s1 in
  if (i_ne_max s2 <? i_ne_threshold s2)%Z then Exit else Ok s2.

(** DM_Detector_Ionization::Use_PE_Threshold, /repo/src/Direct_Detection_Ionization.cpp:331-348. *)
Definition Use_PE_Threshold (mu sigma : xr) (nPE_thr nPE_max : Z) (s : ionization) : res ionization :=
  let d := Initialize_Poisson (i_base s) in
  let s1 := with_i_base (with_using false (b_using_bins d) d) (with_i_flags false (i_using_ne_bins s) true (i_using_S2_bins s) s) in
  let s2 := with_PE nPE_thr nPE_max (with_S2 mu sigma s1) in
  if (i_PE_max s2 <? i_PE_threshold s2)%Z then Exit else Ok s2.

(** DM_Detector_Ionization::Import_Trigger_Efficiency_PE and Import_Acceptance_Efficiency_PE,
    /repo/src/Direct_Detection_Ionization.cpp:350-374; a file is given by its numbers. *)
Definition Import_Trigger_Efficiency_PE (l : list xr) (s : ionization) : res ionization :=
  if (negb (i_using_S2_bins s) && negb (i_using_S2_threshold s))%bool then Exit else Ok (with_trigger l s).
Definition Import_Acceptance_Efficiency_PE (l : list xr) (s : ionization) : res ionization :=
  if (negb (i_using_S2_bins s) && negb (i_using_S2_threshold s))%bool then Exit else Ok (with_acceptance l s).

(** DM_Detector_Ionization::Use_PE_Bins, /repo/src/Direct_Detection_Ionization.cpp:377-386. size() - 1 wraps around for an empty list
    and is converted to unsigned int. *)
Definition Use_PE_Bins (mu sigma : xr) (bin_ranges : list Z) (s : ionization) : res ionization :=
  let* d := Initialize_Binned_Poisson (u32 (u64 (Z.of_nat (List.length bin_ranges) - 1))) (i_base s) in
  let s1 := with_i_base d (with_i_flags (i_using_ne_threshold s) (i_using_ne_bins s) (i_using_S2_threshold s) true s) in
  Ok (with_S2_ranges bin_ranges (with_S2 mu sigma s1)).

(** The public configuration calls (/repo/include/obscura/Direct_Detection_Ionization.hpp:64-78 and those of the base class). *)
Inductive ionization_op : Type :=
| IBase (o : base_op)
| IElectron_Threshold (lo hi : Z)
| IElectron_Bins (lo n : Z)
| IPE_Threshold (mu sigma : xr) (lo hi : Z)
| ITrigger (l : list xr)
| IAcceptance (l : list xr)
| IPE_Bins (mu sigma : xr) (l : list Z).
Definition ionization_step (s : ionization) (o : ionization_op) : res ionization :=
  match o with
  | IBase o => let* d := base_step (i_base s) o in Ok (with_i_base d s)
  | IElectron_Threshold lo hi => Use_Electron_Threshold lo hi s
  | IElectron_Bins lo n => Use_Electron_Bins lo n s
  | IPE_Threshold mu sigma lo hi => Use_PE_Threshold mu sigma lo hi s
  | ITrigger l => Import_Trigger_Efficiency_PE l s
  | IAcceptance l => Import_Acceptance_Efficiency_PE l s
  | IPE_Bins mu sigma l => Use_PE_Bins mu sigma l s
  end.
Fixpoint ionization_run (s : ionization) (l : list ionization_op) : res ionization :=
  match l with
  | [] => Ok s
  | o :: t => let* s' := ionization_step s o in ionization_run s' t
  end.

(** The virtual functions of an ionization detector (/repo/include/obscura/Direct_Detection_Ionization.hpp:47-53). *)
Definition ionization_virtuals (X : externals) (D : Distr_interface) (s : ionization) : virtuals :=
  mkVirtuals
    (fun d p => Ok (Ionization_Deposit (mass p) (d_vmax D)))
    (fun d p => Ok (Ionization_Minimum_Mass (d_vmax D) (with_i_base d s)))
    (fun d p E => Ionization_dRdE X (interface_of (x_I2 X) p) D (with_i_base d s) E)
    (fun d p => Ionization_Total X (interface_of (x_I2 X) p) D (with_i_base d s))
    (fun d p => Ionization_Binned X (interface_of (x_I2 X) p) D (with_i_base d s)).

(** * Semiconductor detectors *)

(** class DM_Detector_Crystal, /repo/include/obscura/Direct_Detection_Crystal.hpp:21-34. [None] stands for an indeterminate value: no
    constructor initialises the last three members. *)
Record semiconductor : Type := mkSemiconductor {
  c_base : detector;
  c_crystal : Crystal;
  c_Q_threshold : option Z;
  c_using_Q_threshold : option bool;
  c_using_Q_bins : option bool }.

(** Assignments to members (e.g. /repo/src/Direct_Detection_Crystal.cpp:179-182). *)
Definition with_c_base (d : detector) (s : semiconductor) : semiconductor :=
  mkSemiconductor (d) (c_crystal s) (c_Q_threshold s) (c_using_Q_threshold s) (c_using_Q_bins s).
Definition with_Q (q : option Z) (t b : option bool) (s : semiconductor) : semiconductor :=
  mkSemiconductor (c_base s) (c_crystal s) (q) (t) (b).

(** Reading a member that may be indeterminate is undefined behaviour (/repo/src/Direct_Detection_Crystal.cpp:146,164,199). *)
Definition read_init {A : Type} (o : option A) : res A := match o with Some a => Ok a | None => UB end.

(** DM_Detector_Crystal::DM_Detector_Crystal, /repo/src/Direct_Detection_Crystal.cpp:100-108. *)
Definition Semiconductor_ctor (Import_List : string -> res (list xr)) (label : string) (expo : xr) (crys : string) : res semiconductor :=
  let* c := Crystal_ctor Import_List crys in
  Ok (mkSemiconductor (Detector_ctor label expo "Electrons") c None None None).
Definition Semiconductor_default (Import_List : string -> res (list xr)) : res semiconductor :=
  Semiconductor_ctor Import_List "Crystal experiment" (Fin gram * Fin year) "Si".

(** Maximum_Energy_Deposit, Minimum_DM_Mass, Minimum_DM_Speed, /repo/src/Direct_Detection_Crystal.cpp:111-124. *)
Definition Semiconductor_Deposit (mDM vMax : xr) : xr := mDM / #2.0 * xpow vMax 2.
Definition Semiconductor_Minimum_Mass (vMax : xr) (s : semiconductor) : xr := #2.0 * b_threshold (c_base s) * (#1 / xpow vMax 2).
Definition Semiconductor_Minimum_Speed (mDM : xr) (s : semiconductor) : xr := xsqrt (#2.0 * b_threshold (c_base s) / mDM).

(** DM_Detector_Crystal::dRdE, /repo/src/Direct_Detection_Crystal.cpp:126-129. *)
Definition Semiconductor_dRdE (X : externals) (DM : DM_interface) (D : Distr_interface) (s : semiconductor) (E : xr) : res xr :=
  let* r := dRdEe_Crystal (x_Integrate X) E DM D (c_crystal s) in
  Ok (b_flat_efficiency (c_base s) * r).

(** DM_Detector_Crystal::DM_Signals_Q_Bins, /repo/src/Direct_Detection_Crystal.cpp:197-213. Q_threshold + number_of_bins is unsigned
    arithmetic; the unsigned Q is passed as an int. *)
Definition DM_Signals_Q_Bins (X : externals) (DM : DM_interface) (D : Distr_interface) (s : semiconductor) : res (list xr) :=
  let* u := read_init (c_using_Q_bins s) in
  if negb u then Exit
  else
    let* Qt := read_init (c_Q_threshold s) in
    map_res (fun Q =>
      let* e := at_ubZ (b_efficiencies (c_base s)) (u32 (Q - 1)) in
      let* r := R_Q_Crystal (x_Integrate X) (s32 Q) DM D (c_crystal s) in
      Ok (b_exposure (c_base s) * b_flat_efficiency (c_base s) * e * r)) (Zrange Qt (u32 (Qt + b_bins (c_base s)))).

(** DM_Detector_Crystal::DM_Signals_Binned, /repo/src/Direct_Detection_Crystal.cpp:153-173. *)
Definition Semiconductor_Binned (X : externals) (DM : DM_interface) (D : Distr_interface) (s : semiconductor) : res (list xr) :=
  match b_analysis (c_base s) with
  | Binned_Poisson =>
      if b_using_bins (c_base s) then DM_Signals_Energy_Bins (x_Integrate X) (Semiconductor_dRdE X DM D s) (c_base s)
      else
        let* u := read_init (c_using_Q_bins s) in
        if u then DM_Signals_Q_Bins X DM D s else Exit
  | _ => Exit
  end.

(** DM_Detector_Crystal::DM_Signals_Total, /repo/src/Direct_Detection_Crystal.cpp:131-151. *)
Definition Semiconductor_Total (X : externals) (DM : DM_interface) (D : Distr_interface) (s : semiconductor) : res xr :=
  let d := c_base s in
  match b_analysis d with
  | Binned_Poisson => let* l := Semiconductor_Binned X DM D s in Ok (xsum l)
  | a =>
      if (b_using_threshold d || match a with Maximum_Gap => true | _ => false end)%bool then
        let* integral := x_Integrate X (Semiconductor_dRdE X DM D s) (b_threshold d) (b_energy_max d) in
        Ok (b_exposure d * integral)
      else
        let* u := read_init (c_using_Q_threshold s) in
        if u then
          let* Qt := read_init (c_Q_threshold s) in
          let* r := R_total_Crystal (x_Integrate X) (s32 Qt) DM D (c_crystal s) in
          Ok (b_exposure d * b_flat_efficiency d * r)
        else Ok #0
  end.

(** DM_Detector_Crystal::Use_Q_Threshold, /repo/src/Direct_Detection_Crystal.cpp:176-183. *)
Definition Use_Q_Threshold (Q_thr : Z) (s : semiconductor) : semiconductor :=
  let d := with_range (Minimum_Electron_Energy (s32 Q_thr) (c_crystal s)) (Minimum_Electron_Energy (s32 (Q_max (c_crystal s))) (c_crystal s))
             (Initialize_Poisson (c_base s)) in
  with_c_base d (with_Q (Some Q_thr) (Some true) (c_using_Q_bins s) s).

(** DM_Detector_Crystal::Use_Q_Bins, /repo/src/Direct_Detection_Crystal.cpp:185-195. *)
Definition Use_Q_Bins (Q_thr N_bins : Z) (s : semiconductor) : res semiconductor :=
  let Qm := if (N_bins =? 0)%Z then Q_max (c_crystal s) else u32 (N_bins + Q_thr - 1) in
  let n := u32 (Qm - Q_thr + 1) in
  let* d := Initialize_Binned_Poisson n (c_base s) in
  let d1 := with_range (Minimum_Electron_Energy (s32 Q_thr) (c_crystal s)) (Minimum_Electron_Energy (s32 Qm) (c_crystal s)) d in
  Ok (with_c_base d1 (with_Q (Some Q_thr) (c_using_Q_threshold s) (Some true) s)).

(** The public configuration calls (/repo/include/obscura/Direct_Detection_Crystal.hpp:50-52 and those of the base class). *)
Inductive semiconductor_op : Type :=
| CBase (o : base_op)
| CQ_Threshold (Q : Z)
| CQ_Bins (Q n : Z).
Definition semiconductor_step (s : semiconductor) (o : semiconductor_op) : res semiconductor :=
  match o with
  | CBase o => let* d := base_step (c_base s) o in Ok (with_c_base d s)
  | CQ_Threshold Q => Ok (Use_Q_Threshold Q s)
  | CQ_Bins Q n => Use_Q_Bins Q n s
  end.
Fixpoint semiconductor_run (s : semiconductor) (l : list semiconductor_op) : res semiconductor :=
  match l with
  | [] => Ok s
  | o :: t => let* s' := semiconductor_step s o in semiconductor_run s' t
  end.

(** The virtual functions of a semiconductor detector (/repo/include/obscura/Direct_Detection_Crystal.hpp:41-46). *)
Definition semiconductor_virtuals (X : externals) (D : Distr_interface) (s : semiconductor) : virtuals :=
  mkVirtuals
    (fun d p => Ok (Semiconductor_Deposit (mass p) (d_vmax D)))
    (fun d p => Ok (Semiconductor_Minimum_Mass (d_vmax D) (with_c_base d s)))
    (fun d p E => Semiconductor_dRdE X (interface_of (x_I2 X) p) D (with_c_base d s) E)
    (fun d p => Semiconductor_Total X (interface_of (x_I2 X) p) D (with_c_base d s))
    (fun d p => Semiconductor_Binned X (interface_of (x_I2 X) p) D (with_c_base d s)).
