(** Reading a configuration file.
    Source: /repo/src/Configuration.cpp, /repo/include/obscura/Configuration.hpp. *)
From Coq Require Import Reals List ZArith String.
From Verif Require Import Base Nucleus_Model Nuclear_Model Particle_Model Distribution_Model Astronomy_Model Halo_Model Atom_Model Crystal_Model
  Detector_Model DetectorTypes_Model Experiments_Model.
Import ListNotations.
Local Open Scope xr_scope.

(** Values in a configuration file: libconfig::Setting (external, /repo/include/obscura/Configuration.hpp:4,18). Simplified: groups, arrays
    and lists are one constructor; number literals are exact and finite. *)
Inductive setting : Type :=
| SBool (b : bool)
| SInt (z : Z)
| SInt64 (z : Z)
| SFloat (r : R)
| SString (s : string)
| SAggregate (l : list setting).

(** The settings of a file by name (/repo/include/obscura/Configuration.hpp:18). *)
Definition settings : Type := list (string * setting).

(** The file system as far as it is touched: which directories exist and what the files contain (/repo/src/Configuration.cpp:68-109).
    Simplified: a path is a string, two different strings are different places. *)
Record filesystem : Type := mkFs { fs_dir : string -> bool; fs_file : string -> option string }.

(** What the program gets from outside: the constants of version.hpp (TOP_LEVEL_DIR and the header line written in
    /repo/src/Configuration.cpp:104), the parser of libconfig, the success of mkdir and of opening a file for writing, the value libconfig
    gives a negative integer read as unsigned, data files and the numerical routines of libphysica. *)
Record environment : Type := mkEnv {
  e_top : string;
  e_header : string;
  e_parse : string -> option settings;
  e_mkdir : filesystem -> string -> bool;
  e_open : filesystem -> string -> bool;
  e_negative : Z -> res Z;
  e_files : data_files;
  e_Integrate : integrator;
  e_Integrate_2D : integrator2;
  e_Interpolation : interpolator }.

(** Config::lookup (external, e.g. /repo/src/Configuration.cpp:157): a missing setting throws SettingNotFoundException; every call in
    Configuration.cpp stands in a try block whose handler ends the program, so the outcome is [Exit]. *)
Definition find_setting (cfg : settings) (name : string) : res setting :=
  match find (fun p => (fst p =? name)%string) cfg with Some p => Ok (snd p) | None => Exit end.

(** Conversions of a Setting (external, e.g. /repo/src/Configuration.cpp:157,184,197,592): a value of another type throws SettingTypeException,
    which no handler in Configuration.cpp catches. Automatic conversion is off by default. *)
Definition as_double (s : setting) : res R := match s with SFloat r => Ok r | _ => Throw end.
Definition as_bool (s : setting) : res bool := match s with SBool b => Ok b | _ => Throw end.
Definition as_string (s : setting) : res string := match s with SString t => Ok t | _ => Throw end.
Definition as_int (s : setting) : res Z := match s with SInt z => Ok z | _ => Throw end.
Definition as_unsigned (E : environment) (s : setting) : res Z :=
  match s with SInt z => if (z <? 0)%Z then e_negative E z else Ok z | _ => Throw end.

(** Setting::operator[](int) and getLength (external, /repo/src/Configuration.cpp:291,379,544). *)
Definition element (s : setting) (i : nat) : res setting :=
  match s with SAggregate l => match nth_error l i with Some x => Ok x | None => Exit end | _ => Throw end.
Definition length_of (s : setting) : nat := match s with SAggregate l => List.length l | _ => 0%nat end.

(** The frequent pattern [x = config.lookup(name)], e.g. /repo/src/Configuration.cpp:157,167,184. *)
Definition read_double (cfg : settings) (name : string) : res R := let* s := find_setting cfg name in as_double s.
Definition read_bool (cfg : settings) (name : string) : res bool := let* s := find_setting cfg name in as_bool s.
Definition read_string (cfg : settings) (name : string) : res string := let* s := find_setting cfg name in as_string s.
Definition read_unsigned (E : environment) (cfg : settings) (name : string) : res Z := let* s := find_setting cfg name in as_unsigned E s.

(** Dereferencing a pointer that may be null, e.g. /repo/src/Configuration.cpp:214-217,297. *)
Definition deref {A : Type} (o : option A) : res A := match o with Some a => Ok a | None => UB end.

(** Configuration::Construct_DM_Particle_Standard, /repo/src/Configuration.cpp:220-324. *)
Definition configure_SI (cfg : settings) : res particle :=
  let* ff := read_string cfg "DM_form_factor" in
  let* mMed := if (ff =? "General")%string then
                 let* m := read_double cfg "DM_mediator_mass" in
                 let mMed := Fin m * Fin MeV in
                 if xlt mMed #1e-60 then Exit else Ok mMed
               else Ok #(-1.0) in
  Set_FormFactor_DM ff mMed (Particle_default SI).
Definition relative_couplings (cfg : settings) : res (xr * xr) :=
  let* conserved := read_bool cfg "DM_isospin_conserved" in
  if conserved then Ok (#1.0, #1.0)
  else
    let* s := find_setting cfg "DM_relative_couplings" in
    let* sp := element s 0 in
    let* p := as_double sp in
    let* sn := element s 1 in
    let* n := as_double sn in
    Ok (Fin p, Fin n).
Definition Construct_DM_Particle_Standard (cfg : settings) (DM_interaction : string) : res particle :=
  let* DM := if (DM_interaction =? "SI")%string then let* p := configure_SI cfg in Ok (Some p)
             else if (DM_interaction =? "SD")%string then Ok (Some (Particle_default SD))
             else Ok None in
  let* (fp_rel, fn_rel) := relative_couplings cfg in
  let* p0 := deref DM in
  let* p1 := Fix_Coupling_Ratio fp_rel fn_rel p0 in
  let* sigma_n := read_double cfg "DM_cross_section_nucleon" in
  let* p2 := Set_Interaction_Parameter (Fin sigma_n * (Fin cm * Fin cm)) "Nuclei" p1 in
  let* sigma_e := read_double cfg "DM_cross_section_electron" in
  Ok (Set_Sigma_Electron (Fin sigma_e * (Fin cm * Fin cm)) p2).

(** Configuration::Construct_DM_Particle, /repo/src/Configuration.cpp:150-218. The spin is not part of [particle] and returned beside it. *)
Definition Construct_DM_Particle (cfg : settings) : res (particle * xr) :=
  let* m := read_double cfg "DM_mass" in
  let DM_mass := Fin m * Fin GeV in
  let* spin := read_double cfg "DM_spin" in
  let* fraction := read_double cfg "DM_fraction" in
  let* light := read_bool cfg "DM_light" in
  let* interaction := read_string cfg "DM_interaction" in
  if ((interaction =? "SI") || (interaction =? "SD"))%string%bool then
    let* p := Construct_DM_Particle_Standard cfg interaction in
    Ok (with_low_mass light (with_density (Fin fraction) (Set_Mass DM_mass p)), Fin spin)
  else Exit.

(** What DM_distr may point to (/repo/include/obscura/Configuration.hpp:52, /repo/src/Configuration.cpp:400,423,451). *)
Inductive halo : Type := HStandard (s : SHM) | HPlusPlus (s : SHMpp) | HImported (s : Imported).

(** Configuration::Construct_DM_Halo_Model, /repo/src/Configuration.cpp:350-425. *)
Definition observer_velocity (cfg : settings) : res vec3 :=
  let* s := find_setting cfg "SHM_vObserver" in
  if (length_of s =? 3)%nat then
    let* l := map_res (fun i => let* x := element s i in as_double x) [0%nat; 1%nat; 2%nat] in
    match l with
    | [x; y; z] => Ok (V3 (x * km / sec) (y * km / sec) (z * km / sec))%R
    | _ => UB
    end
  else Exit.
Definition Construct_DM_Halo_Model (E : environment) (cfg : settings) (label : string) : res (option halo) :=
  let* rho := read_double cfg "DM_local_density" in
  let rho := (rho * (GeV / cm / cm / cm))%R in
  let* v0 := read_double cfg "SHM_v0" in
  let v0 := (v0 * (km / sec))%R in
  let* vel := observer_velocity cfg in
  let* vesc := read_double cfg "SHM_vEscape" in
  let vesc := (vesc * (km / sec))%R in
  if (label =? "SHM")%string then Ok (Some (HStandard (SHM_of_velocity rho v0 vel vesc)))
  else if (label =? "SHM++")%string then
    let* eta := read_double cfg "SHMpp_eta" in
    let* beta := read_double cfg "SHMpp_beta" in
    let* s := SHMpp_of_velocity (e_Integrate E) (e_Integrate_2D E) rho v0 vel vesc eta beta in
    Ok (Some (HPlusPlus s))
  else Ok None.

(** Configuration::Construct_Imported_Distribution, /repo/src/Configuration.cpp:427-452. *)
Definition Construct_Imported_Distribution (E : environment) (cfg : settings) : res (option halo) :=
  let* rho := read_double cfg "DM_local_density" in
  let rho := (rho * (GeV / cm / cm / cm))%R in
  let* path := read_string cfg "file_path" in
  let* rows := f_rows (e_files E) path in
  let* s := Imported_of_file (e_Integrate E) (e_Interpolation E) (Fin rho) path rows in
  Ok (Some (HImported s)).

(** Configuration::Construct_DM_Distribution, /repo/src/Configuration.cpp:326-348. *)
Definition Construct_DM_Distribution (E : environment) (cfg : settings) : res (option halo) :=
  let* d := read_string cfg "DM_distribution" in
  if ((d =? "SHM") || (d =? "SHM++"))%string%bool then Construct_DM_Halo_Model E cfg d
  else if (d =? "File")%string then Construct_Imported_Distribution E cfg
  else Exit.

(** What DM_detector may point to (/repo/include/obscura/Configuration.hpp:53, /repo/src/Configuration.cpp:469-528). *)
Inductive instrument : Type := DNuclear (n : nuclear) | DIonization (s : ionization) | DSemiconductor (s : semiconductor).
Definition instrument_base (d : instrument) : detector :=
  match d with DNuclear n => n_base n | DIonization s => i_base s | DSemiconductor s => c_base s end.

(** The copies made by new DM_Detector_...(...), /repo/src/Configuration.cpp:477-528. *)
Definition as_nuclear (r : res (nuclear * nuclear_world)) : res (instrument * nuclear_world) := let* (n, w) := r in Ok (DNuclear n, w).
Definition as_ionization (r : res (ionization * nuclear_world)) : res (instrument * nuclear_world) := let* (s, w) := r in Ok (DIonization s, w).
Definition as_semiconductor (r : res semiconductor) (w : nuclear_world) : res (instrument * nuclear_world) := let* s := r in Ok (DSemiconductor s, w).

(** The else-if chain of the supported experiments in its order, /repo/src/Configuration.cpp:476-528. *)
Definition supported : list (string * (data_files -> nuclear_world -> res (instrument * nuclear_world))) :=
  [("DAMIC_N_2011", fun F w => as_nuclear (DAMIC_N_2011 w));
   ("XENON1T_N_2017", fun F w => as_nuclear (XENON1T_N_2017 w));
   ("CRESST-II", fun F w => as_nuclear (CRESST_II F w));
   ("CRESST-surface", fun F w => as_nuclear (CRESST_surface F w));
   ("CRESST-III", fun F w => as_nuclear (CRESST_III F w));
   ("XENON10_S2", fun F w => as_ionization (XENON10_S2_ER F w));
   ("XENON100_S2", fun F w => as_ionization (XENON100_S2_ER F w));
   ("XENON1T_S2", fun F w => as_ionization (XENON1T_S2_ER F w));
   ("DarkSide-50_S2", fun F w => as_ionization (DarkSide50_S2_ER F w));
   ("DarkSide-50_S2_2023", fun F w => as_ionization (DarkSide50_S2_ER_2023 F w));
   ("PandaX-4T_S2", fun F w => as_ionization (PandaX_4T_S2_ER F w));
   ("LZ_S2", fun F w => as_ionization (LZ_S2_ER F w));
   ("XENON10_S2_Migdal", fun F w => as_ionization (XENON10_S2_Migdal F w));
   ("XENON100_S2_Migdal", fun F w => as_ionization (XENON100_S2_Migdal F w));
   ("XENON1T_S2_Migdal", fun F w => as_ionization (XENON1T_S2_Migdal F w));
   ("DarkSide-50_S2_Migdal", fun F w => as_ionization (DarkSide50_S2_Migdal F w));
   ("DarkSide-50_S2_Migdal_2023", fun F w => as_ionization (DarkSide50_S2_Migdal_2023 F w));
   ("PandaX-4T_S2_Migdal", fun F w => as_ionization (PandaX_4T_S2_Migdal F w));
   ("LZ_S2_Migdal", fun F w => as_ionization (LZ_S2_Migdal F w));
   ("protoSENSEI@surface", fun F w => as_semiconductor (protoSENSEI_at_Surface F) w);
   ("protoSENSEI@MINOS", fun F w => as_semiconductor (protoSENSEI_at_MINOS F) w);
   ("SENSEI@MINOS", fun F w => as_semiconductor (SENSEI_at_MINOS F) w);
   ("CDMS-HVeV_2018", fun F w => as_semiconductor (CDMS_HVeV_2018 F) w);
   ("CDMS-HVeV_2020", fun F w => as_semiconductor (CDMS_HVeV_2020 F) w);
   ("DAMIC-M_2023", fun F w => as_semiconductor (DAMIC_M_2023 F) w)]%string.
Definition supported_experiment (F : data_files) (w : nuclear_world) (name : string) : res (instrument * nuclear_world) :=
  match find (fun p => (fst p =? name)%string) supported with Some p => snd p F w | None => Exit end.

(** Configuration::Construct_DM_Detector_Nuclear, /repo/src/Configuration.cpp:537-634. *)
Fixpoint read_targets (w : nuclear_world) (l : setting) (js : list nat) : res (list (xr * Nucleus) * nuclear_world) :=
  match js with
  | [] => Ok ([], w)
  | j :: t =>
      let* row := element l j in
      let* sa := element row 0 in
      let* abund := as_double sa in
      let* sz := element row 1 in
      let* Z := as_int sz in
      let* (n, w1) := Get_Nucleus w Z in
      let* (r, w2) := read_targets w1 l t in
      Ok ((Fin abund, n) :: r, w2)
  end.
Definition Construct_DM_Detector_Nuclear (E : environment) (cfg : settings) (w : nuclear_world) : res (instrument * nuclear_world) :=
  let* l := find_setting cfg "DD_targets_nuclear" in
  let* (targets, w1) := read_targets w l (seq 0 (length_of l)) in
  let* threshold := read_double cfg "DD_threshold_nuclear" in
  let* Emax := read_double cfg "DD_Emax_nuclear" in
  let* expo := read_double cfg "DD_exposure" in
  let* efficiency := read_double cfg "DD_efficiency" in
  let* observed := read_unsigned E cfg "DD_observed_events" in
  let* background := read_double cfg "DD_expected_background" in
  let* resolution := read_double cfg "DD_energy_resolution" in
  let* d := Nuclear_ctor "Nuclear recoil" (Fin expo * (Fin kg * Fin year)) (map snd targets) (map fst targets) in
  let* d1 := nuclear_run d [NBase (BFlat (Fin efficiency)); NBase (BThreshold (Fin threshold * Fin keV) (Fin Emax * Fin keV));
                            NBase (BObserved observed); NBase (BBackground (Fin background))] in
  let r := Fin resolution * Fin keV in
  let* d2 := if xlt #0.0 r then nuclear_run d1 [NResolution r] else Ok d1 in
  Ok (DNuclear d2, w1).

(** Configuration::Construct_DM_Detector_Ionization, /repo/src/Configuration.cpp:636-705. Use_Electron_Threshold has the default second
    argument 0 (/repo/include/obscura/Direct_Detection_Ionization.hpp:64). *)
Definition Construct_DM_Detector_Ionization (E : environment) (cfg : settings) (w : nuclear_world) (label : string)
    : res (instrument * nuclear_world) :=
  let* target := read_string cfg "DD_target_electron" in
  let* threshold := read_unsigned E cfg "DD_threshold_electron" in
  let* expo := read_double cfg "DD_exposure" in
  let* efficiency := read_double cfg "DD_efficiency" in
  let* observed := read_unsigned E cfg "DD_observed_events" in
  let* background := read_double cfg "DD_expected_background" in
  let expo := Fin expo * (Fin kg * Fin year) in
  let* (d, w1) := if (label =? "Electron recoil")%string then
                    let* (d, w1) := Ionization_ctor1 (f_table (e_files E)) w Electron_Recoil label expo target in Ok (Some d, w1)
                  else if (label =? "Migdal")%string then
                    let* (d, w1) := Ionization_ctor1 (f_table (e_files E)) w Migdal label expo target in Ok (Some d, w1)
                  else Ok (None, w) in
  let* d0 := deref d in
  let* d1 := ionization_run d0 [IBase (BFlat (Fin efficiency)); IElectron_Threshold threshold 0;
                                IBase (BObserved observed); IBase (BBackground (Fin background))] in
  Ok (DIonization d1, w1).

(** Configuration::Construct_DM_Detector_Crystal, /repo/src/Configuration.cpp:707-773. *)
Definition Construct_DM_Detector_Crystal (E : environment) (cfg : settings) (w : nuclear_world) : res (instrument * nuclear_world) :=
  let* target := read_string cfg "DD_target_electron" in
  let* threshold := read_unsigned E cfg "DD_threshold_electron" in
  let* expo := read_double cfg "DD_exposure" in
  let* efficiency := read_double cfg "DD_efficiency" in
  let* observed := read_unsigned E cfg "DD_observed_events" in
  let* background := read_double cfg "DD_expected_background" in
  let* d := Semiconductor_ctor (f_list (e_files E)) "Semiconductor" (Fin expo * (Fin kg * Fin year)) target in
  let* d1 := semiconductor_run d [CBase (BFlat (Fin efficiency)); CQ_Threshold threshold;
                                  CBase (BObserved observed); CBase (BBackground (Fin background))] in
  Ok (DSemiconductor d1, w).

(** Configuration::Construct_DM_Detector, /repo/src/Configuration.cpp:454-535. *)
Definition Construct_DM_Detector (E : environment) (cfg : settings) (w : nuclear_world) : res (instrument * nuclear_world) :=
  let* x := read_string cfg "DD_experiment" in
  if (x =? "Nuclear recoil")%string then Construct_DM_Detector_Nuclear E cfg w
  else if ((x =? "Electron recoil") || (x =? "Migdal"))%string%bool then Construct_DM_Detector_Ionization E cfg w x
  else if (x =? "Semiconductor")%string then Construct_DM_Detector_Crystal E cfg w
  else supported_experiment (e_files E) w x.

(** Configuration::Initialize_Parameters, /repo/src/Configuration.cpp:775-816: certainty, lowest and highest mass, number of masses. *)
Definition Initialize_Parameters (E : environment) (cfg : settings) : res (R * R * R * Z) :=
  let* certainty := read_double cfg "constraints_certainty" in
  let* lo := read_double cfg "constraints_mass_min" in
  let* hi := read_double cfg "constraints_mass_max" in
  let* n := read_unsigned E cfg "constraints_masses" in
  Ok (certainty, lo, hi, n).

(** The public members after construction, /repo/include/obscura/Configuration.hpp:42-53. [None] is a null pointer. *)
Record configuration : Type := mkConfiguration {
  cf_file : string;
  cf_ID : string;
  cf_results : string;
  cf_DM : option (particle * xr);
  cf_distr : option halo;
  cf_detector : option instrument;
  cf_certainty : R; cf_mass_min : R; cf_mass_max : R; cf_masses : Z }.

(** Configuration::Read_Config_File, /repo/src/Configuration.cpp:132-148. A file that does not exist and a syntax error end the program. *)
Definition Read_Config_File (E : environment) (fs : filesystem) (path : string) : res settings :=
  match fs_file fs path with
  | None => Exit
  | Some text => match e_parse E text with Some cfg => Ok cfg | None => Exit end
  end.

(** mkdir (external, /repo/src/Configuration.cpp:79,87): an error leaves the file system as it is. *)
Definition make_directory (E : environment) (path : string) (fs : filesystem) : filesystem :=
  if e_mkdir E fs path then mkFs (fun p => if (p =? path)%string then true else fs_dir fs p) (fs_file fs) else fs.

(** Contents of a file replaced (std::ofstream, /repo/src/Configuration.cpp:103-105). *)
Definition put_file (path content : string) (fs : filesystem) : filesystem :=
  mkFs (fs_dir fs) (fun p => if (p =? path)%string then Some content else fs_file fs p).

(** The paths of the result folder and the copied configuration, /repo/src/Configuration.cpp:63,73,103. *)
Definition results_root (E : environment) : string := (e_top E ++ "results")%string.
Definition results_path (E : environment) (ID : string) : string := (e_top E ++ "results/" ++ ID ++ "/")%string.
Definition copy_path (E : environment) (ID : string) : string := (e_top E ++ "results/" ++ ID ++ "/" ++ ID ++ ".cfg")%string.

(** Configuration::Create_Result_Folder, /repo/src/Configuration.cpp:68-95. *)
Definition Create_Result_Folder (E : environment) (ID : string) (rank : Z) (fs : filesystem) : filesystem :=
  if (rank =? 0)%Z then make_directory E (results_path E ID) (make_directory E (results_root E) fs) else fs.

(** Configuration::Copy_Config_File, /repo/src/Configuration.cpp:96-109. Opening truncates the file; the header line is flushed by
    std::endl before the configuration file is read. *)
Definition Copy_Config_File (E : environment) (path ID : string) (rank : Z) (fs : filesystem) : filesystem :=
  if (rank =? 0)%Z then
    if e_open E fs (copy_path E ID) then
      let fs1 := put_file (copy_path E ID) (e_header E) fs in
      let text := match fs_file fs1 path with Some t => t | None => ""%string end in
      put_file (copy_path E ID) (e_header E ++ text)%string fs1
    else fs
  else fs.

(** Configuration::Initialize_Result_Folder, /repo/src/Configuration.cpp:52-66. *)
Definition Initialize_Result_Folder (E : environment) (path : string) (rank : Z) (cfg : settings) (fs : filesystem) : filesystem * res string :=
  match read_string cfg "ID" with
  | Ok ID => (Copy_Config_File E path ID rank (Create_Result_Folder E ID rank fs), Ok ID)
  | r => (fs, r)
  end.

(** Steps 3 to 6 of the constructor, /repo/src/Configuration.cpp:39-49. *)
Definition construct_members (E : environment) (w : nuclear_world) (cfg : settings) (path ID : string) : res (configuration * nuclear_world) :=
  let* DM := Construct_DM_Particle cfg in
  let* distr := Construct_DM_Distribution E cfg in
  let* (detector, w1) := Construct_DM_Detector E cfg w in
  let* (certainty, lo, hi, n) := Initialize_Parameters E cfg in
  Ok (mkConfiguration path ID (results_path E ID) (Some DM) distr (Some detector) certainty lo hi n, w1).

(** Configuration::Configuration(std::string, int), /repo/src/Configuration.cpp:30-50. *)
Definition Configuration_ctor (E : environment) (fs : filesystem) (w : nuclear_world) (path : string) (rank : Z)
    : filesystem * res (configuration * nuclear_world) :=
  match Read_Config_File E fs path with
  | Ok cfg =>
      let '(fs1, r) := Initialize_Result_Folder E path rank cfg fs in
      (fs1, let* ID := r in construct_members E w cfg path ID)
  | Exit => (fs, Exit)
  | UB => (fs, UB)
  | Throw => (fs, Throw)
  end.
