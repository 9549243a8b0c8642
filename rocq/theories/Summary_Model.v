(** The summaries that objects print on the terminal.
    Source: the Print_Summary functions in /repo/src. Simplified everywhere: a summary is a list of lines, a line is its label with the
    values printed behind it; tabs, brackets, rulers and empty lines are left out. *)
From Coq Require Import Reals List ZArith String Bool.
From Verif Require Import Base Nucleus_Model Nuclear_Model Particle_Model Astronomy_Model Distribution_Model Halo_Model Atom_Model Crystal_Model Rates_Model
  Detector_Model DetectorTypes_Model Experiments_Model Configuration_Model Average_Model.
Import ListNotations.
Local Open Scope xr_scope.

(** What is sent to std::cout, e.g. /repo/src/Direct_Detection.cpp:474-482: a text, a floating point number, an integer. *)
Inductive cell : Type := Txt (s : string) | Num (x : xr) | Int (z : Z).
Definition line : Type := string * list cell.

(** libphysica::Round (external, e.g. /repo/src/Direct_Detection.cpp:477): some function of the number. *)
Definition rounding : Type := xr -> xr.

(** libphysica::In_Units (external, e.g. /repo/src/Direct_Detection.cpp:477): the quotient. *)
Definition In_Units (x : xr) (unit : R) : xr := x / Fin unit.

(** The boxes printed for a flag, e.g. /repo/src/DM_Particle.cpp:97. *)
Definition box (b : bool) : cell := Txt (if b then "[x]" else "[ ]").

(** * Detectors *)

(** The values of statistical_analysis, /repo/src/Direct_Detection.cpp:133,174,241. *)
Definition analysis_name (a : analysis) : string :=
  match a with Poisson => "Poisson" | Binned_Poisson => "Binned Poisson" | Maximum_Gap => "Maximum Gap" end.

(** The table of the bins, /repo/src/Direct_Detection.cpp:483-492. The loop runs over bin_observed_events and reads three vectors. *)
Definition print_bins (d : detector) : res (list line) :=
  match b_analysis d with
  | Binned_Poisson =>
      let* rows := map_res (fun i =>
        let* e := at_ub (b_efficiencies d) i in
        let* n := at_ub (b_bin_observed d) i in
        let* b := at_ub (b_bin_background d) i in
        Ok ("Bin"%string, [Int (Z.of_nat i + 1); Num (#100.0 * e); Int n; Num b])) (seq 0 (List.length (b_bin_observed d))) in
      Ok (("Number of bins"%string, [Int (b_bins d)]) :: rows)
  | _ => Ok []
  end.

(** The table of the energy bins, /repo/src/Direct_Detection.cpp:495-502. *)
Definition print_energy_bins (Round : rounding) (d : detector) : res (list line) :=
  if b_using_bins d then
    map_res (fun bin =>
      let* lo := at_ubZ (b_bin_energies d) bin in
      let* hi := at_ubZ (b_bin_energies d) (u32 (bin + 1)) in
      Ok ("Bin range [keV]"%string, [Int (u32 (bin + 1)); Num (Round (In_Units lo keV)); Num (Round (In_Units hi keV))])) (Zrange 0 (b_bins d))
  else Ok [].

(** DM_Detector::Print_Summary_Base, /repo/src/Direct_Detection.cpp:468-505. *)
Definition print_base (Round : rounding) (rank : Z) (d : detector) : res (list line) :=
  if (rank =? 0)%Z then
    let head :=
      [("Experiment summary", [Txt (b_name d)]); ("Target particles", [Txt (b_targets d)]);
       ("Exposure [kg year]", [Num (Round (In_Units (b_exposure d) (kg * year)))]);
       ("Flat efficiency [%]", [Num (Round (#100.0 * b_flat_efficiency d))]);
       ("Observed events", [Int (b_observed d)]); ("Expected background", [Num (b_background d)]);
       ("Statistical analysis", [Txt (analysis_name (b_analysis d))])]%string in
    let* bins := print_bins d in
    let range :=
      if (b_using_threshold d || b_using_bins d || match b_analysis d with Maximum_Gap => true | _ => false end)%bool
      then [("Recoil energies [keV]"%string, [Num (Round (b_threshold d / Fin keV)); Num (Round (b_energy_max d / Fin keV))])] else [] in
    let* energies := print_energy_bins Round d in
    Ok (head ++ bins ++ range ++ energies)
  else Ok [].

(** DM_Detector_Nucleus::Print_Summary, /repo/src/Direct_Detection_Nucleus.cpp:191-212. *)
Definition print_nuclear (Round : rounding) (rank : Z) (n : nuclear) : res (list line) :=
  if (rank =? 0)%Z then
    let* base := print_base Round rank (n_base n) in
    let* targets := map_res (fun i =>
      let* t := at_ub (n_targets n) i in
      let* f := at_ub (n_fractions n) i in
      Ok ("Nucl."%string, [Txt (nname t); Num (Round (#100.0 * f))])) (seq 0 (List.length (n_targets n))) in
    Ok (base ++ [("Nuclear recoil experiment."%string, [])] ++ targets ++
        [("Threshold [keV]", [Num (In_Units (b_threshold (n_base n)) keV)]); ("ER_max [keV]", [Num (In_Units (b_energy_max (n_base n)) keV)]);
         ("ER resolution [keV]", [Num (In_Units (n_resolution n) keV)])]%string)
  else Ok [].

(** The table of the photoelectron bins, /repo/src/Direct_Detection_Ionization.cpp:404-411. *)
Definition print_S2_bins (s : ionization) : res (list line) :=
  if i_using_S2_bins s then
    map_res (fun bin =>
      let* lo := at_ubZ (i_S2_ranges s) bin in
      let* hi := at_ubZ (i_S2_ranges s) (u32 (bin + 1)) in
      Ok ("Bin range [S2]"%string, [Int (u32 (bin + 1)); Int lo; Int hi])) (Zrange 0 (b_bins (i_base s)))
  else Ok [].

(** DM_Detector_Ionization::Print_Summary, /repo/src/Direct_Detection_Ionization.cpp:387-420. The argument MPI_rank is not used, and
    Print_Summary_Base is called with its default argument 0 (/repo/include/obscura/Direct_Detection.hpp:57). *)
Definition print_ionization (Round : rounding) (rank : Z) (s : ionization) : res (list line) :=
  let* base := print_base Round 0 (i_base s) in
  let* targets := map_res (fun i =>
    let* a := at_ub (i_atoms s) i in
    let* f := at_ub (i_fractions s) i in
    Ok ("Target(s)"%string, [Txt (nname (at_nucleus a)); Num (Round (#100.0 * f))])) (seq 0 (List.length (i_atoms s))) in
  let* mode :=
    if (i_using_S2_bins s || i_using_S2_threshold s)%bool then
      let* bins := print_S2_bins s in
      Ok ([("mu_PE", [Num (i_S2_mu s)]); ("sigma_PE", [Num (i_S2_sigma s)]);
           ("Imported trigger efficiencies", [box (match i_trigger s with [] => false | _ => true end)]);
           ("Imported acc. efficiencies", [box (match i_acceptance s with [] => false | _ => true end)])]%string ++ bins)
    else if (i_using_ne_bins s || i_using_ne_threshold s)%bool then
      Ok [("Ne threshold", [Int (i_ne_threshold s)]); ("Ne max", [Int (i_ne_max s)])]%string
    else Ok [] in
  Ok (base ++ [("Electron recoil experiment (ionization)."%string, [])] ++ targets ++
      [("Electron bins", [box (i_using_ne_bins s)]); ("PE (S2) bins", [box (i_using_S2_bins s)])]%string ++ mode).

(** DM_Detector_Crystal::Print_Summary, /repo/src/Direct_Detection_Crystal.cpp:215-225. The rank is not used here either; the condition
    using_Q_threshold || using_Q_bins reads the second member only if the first is false, and both may be indeterminate. *)
Definition print_semiconductor (Round : rounding) (rank : Z) (s : semiconductor) : res (list line) :=
  let* base := print_base Round 0 (c_base s) in
  let* t := read_init (c_using_Q_threshold s) in
  let* q := if t then Ok true else read_init (c_using_Q_bins s) in
  let* pairs := if q then let* Q := read_init (c_Q_threshold s) in Ok [("eh pair threshold"%string, [Int Q])] else Ok [] in
  Ok (base ++ [("Electron recoil experiment (semiconductor)."%string, []); ("Target"%string, [Txt (cr_name (c_crystal s))])] ++ pairs).

(** The virtual call DM_detector->Print_Summary(MPI_rank), /repo/src/Configuration.cpp:122. *)
Definition print_instrument (Round : rounding) (rank : Z) (i : instrument) : res (list line) :=
  match i with
  | DNuclear n => print_nuclear Round rank n
  | DIonization s => print_ionization Round rank s
  | DSemiconductor s => print_semiconductor Round rank s
  end.

(** * Particles *)

(** massunit and massunitstr, /repo/src/DM_Particle.cpp:92-93, /repo/src/DM_Particle_Standard.cpp:493-494. *)
Definition mass_unit (m : xr) : R * string :=
  if xlt m (Fin keV) then (eV, "eV"%string) else if xlt m (Fin MeV) then (keV, "keV"%string)
  else if xlt m (Fin GeV) then (MeV, "MeV"%string) else (GeV, "GeV"%string).
Definition mass_cells (m : xr) : list cell := [Num (In_Units m (fst (mass_unit m))); Txt (snd (mass_unit m))].

(** DM_Particle::Print_Summary_Base, /repo/src/DM_Particle.cpp:84-99. The member spin, left out of [particle], is an argument. *)
Definition print_particle_base (rank : Z) (spin : xr) (p : particle) : list line :=
  if (rank =? 0)%Z then
    [("DM particle summary", []); ("Mass", mass_cells (mass p)); ("Spin", [Num spin]); ("Low mass", [box (low_mass p)])]%string
  else [].

(** DM_Particle_Standard::Print_Summary_Standard, /repo/src/DM_Particle_Standard.cpp:214-231. *)
Definition print_standard (Round : rounding) (rank : Z) (p : particle) : list line :=
  if (rank =? 0)%Z then
    [("Coupling ratio fixed", [box (fixed p)]); ("Isospin conservation", [box (xeq (fn p) (fp p))])]%string ++
    (if fixed p then
      [("Coupling ratio"%string, if xne (fp p) #0.0 then [Txt "fn/fp = "; Num (Round (fn p / fp p))] else [Txt "fp/fn = "; Num (Round (fp p / fn p))])]
     else []) ++
    [("Sigma_P[cm^2]", [Num (Round (In_Units (Sigma_Proton p) (cm * cm)))]);
     ("Sigma_N[cm^2]", [Num (Round (In_Units (Sigma_Neutron p) (cm * cm)))]);
     ("Sigma_E[cm^2]", [Num (Round (In_Units (Sigma_Electron p) (cm * cm)))])]%string
  else [].

(** DM_Particle_SI::Print_Summary, /repo/src/DM_Particle_Standard.cpp:481-499, and DM_Particle_SD::Print_Summary, 589-600. The inner calls
    without argument use the default rank 0. *)
Definition print_particle (Round : rounding) (rank : Z) (spin : xr) (p : particle) : list line :=
  if (rank =? 0)%Z then
    match kind p with
    | SI => print_particle_base 0 spin p ++ [("Interaction"%string, [Txt "Spin-Independent (SI)"])] ++ print_standard Round 0 p ++
            [("Interaction type"%string, [Txt (FF_DM p)])] ++
            (if (FF_DM p =? "General")%string then [("Mediator mass"%string, mass_cells (mMediator p))] else [])
    | SD => print_particle_base rank spin p ++ [("Interaction"%string, [Txt "Spin-Dependent (SD)"])] ++ print_standard Round 0 p
    end
  else [].

(** * Distributions *)

(** DM_Distribution::Print_Summary_Base, /repo/src/DM_Distribution.cpp:146-156. The last arguments are the results of the virtual calls
    Average_Velocity() and Average_Speed(). *)
Definition print_distribution_base (Round : rounding) (name : string) (rho dmin dmax : xr) (velocity : res (xr * xr * xr)) (speed : res xr)
    : res (list line) :=
  let* (x, y, z) := velocity in
  let* v := speed in
  Ok [("Dark matter distribution - Summary", [Txt name]);
      ("Local DM density[GeV/cm^3]", [Num (In_Units rho (GeV / cm / cm / cm))]);
      ("Speed domain [km/sec]", [Num (Round (In_Units dmin (km / sec))); Num (Round (In_Units dmax (km / sec)))]);
      ("Average DM velocity [km/sec]",
        [Num (Round (In_Units x (km / sec))); Num (Round (In_Units y (km / sec))); Num (Round (In_Units z (km / sec)))]);
      ("Average DM speed [km/sec]", [Num (Round (In_Units v (km / sec)))])]%string.

(** Standard_Halo_Model::Print_Summary_SHM, /repo/src/DM_Halo_Models.cpp:158-165. *)
Definition print_SHM (Round : rounding) (s : SHM) : list line :=
  [("Speed dispersion v_0[km/sec]", [Num (In_Units (h_v0 s) (km / sec))]);
   ("Gal. escape velocity [km/sec]", [Num (In_Units (h_vesc s) (km / sec))]);
   ("Observer's velocity [km/sec]", [Num (Round (In_Units (Fin (vx (h_velobs s))) (km / sec))); Num (Round (In_Units (Fin (vy (h_velobs s))) (km / sec)));
      Num (Round (In_Units (Fin (vz (h_velobs s))) (km / sec)))]);
   ("Observer's speed [km/sec]", [Num (Round (In_Units (h_vobs s) (km / sec)))])]%string.

(** The routines a summary of a distribution needs (external; /repo/src/DM_Distribution.cpp:88,99). *)
Record integrals : Type := mkIntegrals {
  q_Integrate : integrator; q_Integrate_2D : integrator2; q_Integrate_3D : integrator3; q_Interpolation : interpolator }.

(** Average_Speed with its default argument -1, /repo/include/obscura/DM_Distribution.hpp:44, /repo/src/DM_Distribution.cpp:93-119. *)
Definition average_speed (Q : integrals) (pdf_speed : xr -> res xr) (dmin dmax : xr) : res xr :=
  Average_Speed (q_Integrate Q) pdf_speed (fun _ => Ok NaN) dmin dmax (- #1.0).

(** Imported_DM_Distribution::Print_Summary, /repo/src/DM_Distribution.cpp:241-249; Standard_Halo_Model::Print_Summary,
    /repo/src/DM_Halo_Models.cpp:167-174; SHM_Plus_Plus::Print_Summary, 252-257 and 333-341. *)
Definition print_halo (Round : rounding) (Q : integrals) (rank : Z) (h : halo) : res (list line) :=
  if (rank =? 0)%Z then
    match h with
    | HImported s =>
        let* base := print_distribution_base Round (im_name s) (im_rho s) (im_dmin s) (im_dmax s)
          (Average_Velocity (q_Integrate_3D Q) PDF_Velocity_default (im_dmin s) (im_dmax s))
          (average_speed Q (Imported_PDF_Speed (q_Interpolation Q) s) (im_dmin s) (im_dmax s)) in
        Ok (base ++ [("File path"%string, [Txt (im_file s)])])
    | HStandard s =>
        let* base := print_distribution_base Round (h_name s) (h_rho s) (h_dmin s) (h_dmax s)
          (Average_Velocity (q_Integrate_3D Q) (PDF_Velocity s) (h_dmin s) (h_dmax s))
          (average_speed Q (fun v => Ok (PDF_Speed_SHM s v)) (h_dmin s) (h_dmax s)) in
        Ok (base ++ print_SHM Round s)
    | HPlusPlus s =>
        let b := p_base s in
        let* base := print_distribution_base Round (h_name b) (h_rho b) (h_dmin b) (h_dmax b)
          (Average_Velocity (q_Integrate_3D Q) (PDF_Velocity_pp s) (h_dmin b) (h_dmax b))
          (average_speed Q (PDF_Speed_pp (q_Integrate_2D Q) s) (h_dmin b) (h_dmax b)) in
        Ok (base ++ print_SHM Round b ++ [("Eta parameter", [Num (p_eta s)]); ("Beta parameter", [Num (p_beta s)])]%string)
    end
  else Ok [].

(** * Nuclei and atoms *)

(** Isotope::Print_Summary, /repo/src/Target_Nucleus.cpp:61-65. *)
Definition print_isotope (Round : rounding) (rank : Z) (i : Isotope) : list line :=
  if (rank =? 0)%Z then
    [(iname i, [Int (iZ i); Int (iA i); Num (Round (#100.0 * iabundance i)); Num (ispin i); Num (isp i); Num (isn i)])]
  else [].

(** Nucleus::Print_Summary, /repo/src/Target_Nucleus.cpp:103-120. *)
Definition print_nucleus (Round : rounding) (rank : Z) (n : Nucleus) : list line :=
  if (rank =? 0)%Z then
    [(nname n, [])] ++ flat_map (print_isotope Round rank) (nisotopes n) ++
    [("Total"%string, [Num (Round (Average_Nuclear_Mass n / Fin mNucleon));
                       Num (fold_left (fun total i => total + #100.0 * iabundance i) (nisotopes n) #0.0)])]
  else [].

(** Atomic_Electron::Print_Summary, /repo/src/Target_Atom.cpp:99-103. *)
Definition print_shell (rank : Z) (s : Atomic_Electron) : list line :=
  if (rank =? 0)%Z then [(sh_name s, [Num (In_Units (binding_energy s) eV); Int (number_of_secondary_electrons s)])] else [].

(** Atom::Print_Summary, /repo/src/Target_Atom.cpp:178-194. The charge of the nucleus may be indeterminate
    (/repo/src/Target_Nucleus.cpp:68-71,79-83). *)
Definition print_atom (rank : Z) (a : Atom) : res (list line) :=
  if (rank =? 0)%Z then
    let* z := read_init (nZ (at_nucleus a)) in
    Ok ([("Atom", [Txt (nname (at_nucleus a))]); ("Z", [Int z]); ("Mass [GeV]", [Num (Average_Nuclear_Mass (at_nucleus a))]);
         ("W [eV]", [Num (In_Units (W a) eV)])]%string ++ flat_map (print_shell 0) (electrons a))
  else Ok [].

(** * Configurations *)

(** Configuration::Print_Summary_Base, /repo/src/Configuration.cpp:111-130. A null pointer is dereferenced. *)
Definition print_configuration (Round : rounding) (Q : integrals) (rank : Z) (c : configuration) : res (list line) :=
  if (rank =? 0)%Z then
    let* DM := deref (cf_DM c) in
    let* distr := deref (cf_distr c) in
    let* detector := deref (cf_detector c) in
    let* halo_lines := print_halo Round Q rank distr in
    let* detector_lines := print_instrument Round rank detector in
    Ok ([("Config file", [Txt (cf_file c)]); ("ID", [Txt (cf_ID c)])]%string ++ print_particle Round rank (snd DM) (fst DM) ++
        halo_lines ++ detector_lines ++
        [("Certainty level [%]", [Num (#100.0 * Fin (cf_certainty c))]);
         ("Mass range [GeV]", [Num (Fin (cf_mass_min c)); Num (Fin (cf_mass_max c))]); ("Mass steps", [Int (cf_masses c)])]%string)
  else Ok [].
