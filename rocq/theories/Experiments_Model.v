(** The predefined experiments.
    Source: /repo/src/Experiments.cpp. *)
From Coq Require Import Reals List ZArith String.
From Verif Require Import Base Nucleus_Model Nuclear_Model Atom_Model Crystal_Model Detector_Model DetectorTypes_Model.
Import ListNotations.
Local Open Scope xr_scope.

(** Units of libphysica/Natural_Units.hpp (external) used here only, /repo/src/Experiments.cpp:208,242,439. *)
Definition minute : R := (60 * sec)%R.
Definition tonne : R := (1000 * kg)%R.

(** The data files as read by libphysica::Import_Table and Import_List (external); [f_table] for the atomic response tables, [f_list] for
    one-column files in the units of the file, [f_rows] for two-column files (/repo/src/Experiments.cpp:56,63,130). A file that cannot be
    read ends the program. *)
Record data_files : Type := mkFiles {
  f_table : string -> res (list (list xr));
  f_list : string -> res (list xr);
  f_rows : string -> res (list (xr * xr)) }.

(** libphysica::Import_List(path, unit) (external; e.g. /repo/src/Experiments.cpp:56): every entry multiplied with the unit. *)
Definition Import_List_Unit (F : data_files) (path : string) (unit : R) : res (list xr) :=
  let* l := f_list F path in Ok (map (fun x => x * Fin unit) l).

(** The braced lists {Get_Nucleus(a), Get_Nucleus(b), ...}, evaluated from left to right (e.g. /repo/src/Experiments.cpp:49). *)
Fixpoint Get_Nuclei (w : nuclear_world) (zs : list Z) : res (list Nucleus * nuclear_world) :=
  match zs with
  | [] => Ok ([], w)
  | z :: t =>
      let* (n, w1) := Get_Nucleus w z in
      let* (l, w2) := Get_Nuclei w1 t in
      Ok (n :: l, w2)
  end.

(** The reading of several files in order (/repo/src/Direct_Detection_Nucleus.cpp:120-125). *)
Definition read_rows (F : data_files) (paths : list string) : res (list (list (xr * xr))) := map_res (f_rows F) paths.

(** * Nuclear recoils *)

(** DAMIC_N_2011, /repo/src/Experiments.cpp:11-25. *)
Definition DAMIC_N_2011 (w : nuclear_world) : res (nuclear * nuclear_world) :=
  let expo := #0.107 * Fin kg * Fin day in
  let* (targets, w1) := Get_Nuclei w [14%Z] in
  let threshold := #0.55 * Fin keV in
  let Emax := #7.0 * Fin keV in
  let* d := Nuclear_ctor "DAMIC_N_2011" expo targets [] in
  let* d1 := nuclear_run d [NBase (BThreshold threshold Emax); NBase (BObserved 106)] in
  Ok (d1, w1).

(** XENON1T_N_2017, /repo/src/Experiments.cpp:27-43. *)
Definition XENON1T_N_2017 (w : nuclear_world) : res (nuclear * nuclear_world) :=
  let expo := #34.2 * Fin day * #1042 * Fin kg in
  let* (targets, w1) := Get_Nuclei w [54%Z] in
  let threshold := #5.0 * Fin keV in
  let Emax := #40.0 * Fin keV in
  let* d := Nuclear_ctor "XENON1T_N_2017" expo targets [] in
  let* d1 := nuclear_run d [NBase (BFlat #0.82); NBase (BThreshold threshold Emax); NBase (BObserved 0)] in
  Ok (d1, w1).

(** CRESST_II, /repo/src/Experiments.cpp:45-65. *)
Definition CRESST_II (F : data_files) (w : nuclear_world) : res (nuclear * nuclear_world) :=
  let expo := #52.15 * Fin kg * Fin day in
  let* (targets, w1) := Get_Nuclei w [8%Z; 20%Z; 74%Z] in
  let threshold := #307 * Fin eV in
  let Emax := #40.0 * Fin keV in
  let resolution := threshold / #5.0 in
  let* d := Nuclear_ctor "CRESST-II" expo targets [#4; #1; #1] in
  let* events := Import_List_Unit F "data/CRESST-II/Lise_AR.dat" keV in
  let* d1 := nuclear_run d [NBase (BMaximum_Gap (events ++ [threshold; Emax])); NResolution resolution] in
  let* files := read_rows F ["data/CRESST-II/Lise_eff_AR_O.dat"; "data/CRESST-II/Lise_eff_AR_Ca.dat"; "data/CRESST-II/Lise_eff_AR_W.dat"]%string in
  let* d2 := nuclear_run d1 [NEfficiencies files (Fin keV)] in
  Ok (d2, w1).

(** CRESST_III, /repo/src/Experiments.cpp:67-89. *)
Definition CRESST_III (F : data_files) (w : nuclear_world) : res (nuclear * nuclear_world) :=
  let expo := #5.594 * Fin kg * Fin day in
  let* (targets, w1) := Get_Nuclei w [8%Z; 20%Z; 74%Z] in
  let threshold := #30.1 * Fin eV in
  let Emax := #16 * Fin keV in
  let resolution := #4.6 * Fin eV in
  let* d := Nuclear_ctor "CRESST-III" expo targets [#4; #1; #1] in
  let* d0 := nuclear_run d [NBase (BFlat #0.5)] in
  let* events := Import_List_Unit F "data/CRESST-III/C3P1_DetA_AR.dat" keV in
  let* d1 := nuclear_run d0 [NBase (BMaximum_Gap (events ++ [threshold; Emax])); NResolution resolution] in
  let* files := read_rows F ["data/CRESST-III/C3P1_DetA_eff_AR_O.dat"; "data/CRESST-III/C3P1_DetA_eff_AR_Ca.dat";
                             "data/CRESST-III/C3P1_DetA_eff_AR_W.dat"]%string in
  let* d2 := nuclear_run d1 [NEfficiencies files (Fin keV)] in
  Ok (d2, w1).

(** CRESST_surface, /repo/src/Experiments.cpp:91-109. *)
Definition CRESST_surface (F : data_files) (w : nuclear_world) : res (nuclear * nuclear_world) :=
  let expo := #0.046 * Fin gram * Fin day in
  let* (targets, w1) := Get_Nuclei w [8%Z; 13%Z] in
  let threshold := #19.7 * Fin eV in
  let Emax := #600 * Fin eV in
  let resolution := #3.74 * Fin eV in
  let* d := Nuclear_ctor "CRESST-surface" expo targets [#3; #2] in
  let* events := Import_List_Unit F "data/CRESST-surface/data.txt" keV in
  let* d1 := nuclear_run d [NBase (BMaximum_Gap (events ++ [threshold; Emax])); NResolution resolution] in
  Ok (d1, w1).

(** * Ionization *)

(** XENON10_S2_ER, /repo/src/Experiments.cpp:112-131. *)
Definition XENON10_S2_ER (F : data_files) (w : nuclear_world) : res (ionization * nuclear_world) :=
  let expo := #15 * Fin kg * Fin day in
  let* (d, w1) := Ionization_ctor1 (f_table F) w Electron_Recoil "XENON10_S2" expo "Xe" in
  let* d1 := ionization_run d [IBase (BFlat #0.92);
    IPE_Bins #27.0 #6.7 [14%Z; 41%Z; 68%Z; 95%Z; 122%Z; 149%Z; 176%Z; 203%Z];
    IBase (BBin_Observed [126%Z; 60%Z; 12%Z; 3%Z; 2%Z; 0%Z; 2%Z])] in
  let* l1 := f_list F "data/XENON10e/PE_Trigger_Efficiency.txt" in
  let* d2 := ionization_run d1 [ITrigger l1] in
  Ok (d2, w1).

(** XENON100_S2_ER, /repo/src/Experiments.cpp:133-152. *)
Definition XENON100_S2_ER (F : data_files) (w : nuclear_world) : res (ionization * nuclear_world) :=
  let expo := #30 * Fin kg * Fin year in
  let* (d, w1) := Ionization_ctor1 (f_table F) w Electron_Recoil "XENON100_S2" expo "Xe" in
  let* d1 := ionization_run d [IPE_Bins #19.7 #6.2 [80%Z; 90%Z; 110%Z; 130%Z; 150%Z; 170%Z; 190%Z; 210%Z; 230%Z; 250%Z; 270%Z];
    IBase (BBin_Observed [794%Z; 1218%Z; 924%Z; 776%Z; 669%Z; 630%Z; 528%Z; 488%Z; 433%Z; 387%Z])] in
  let* l1 := f_list F "data/XENON100e/PE_Trigger_Efficiency.txt" in
  let* d2 := ionization_run d1 [ITrigger l1] in
  let* l2 := f_list F "data/XENON100e/PE_Acceptance_Efficiency.txt" in
  let* d3 := ionization_run d2 [IAcceptance l2] in
  Ok (d3, w1).

(** XENON1T_S2_ER, /repo/src/Experiments.cpp:154-169. *)
Definition XENON1T_S2_ER (F : data_files) (w : nuclear_world) : res (ionization * nuclear_world) :=
  let expo := #0.7 * #21900 * Fin kg * Fin day in
  let* (d, w1) := Ionization_ctor1 (f_table F) w Electron_Recoil "XENON1T_S2" expo "Xe" in
  let* d1 := ionization_run d [IElectron_Bins 5 6;
    IBase (BBin_Observed [5%Z; 5%Z; 4%Z; 2%Z; 1%Z; 0%Z]);
    IBase (BBin_Efficiencies [#0.0; #2.59712 / #21.9; #9.76999 / #21.9; #13.5103 / #21.9; #15.5974 / #21.9; #16.9158 / #21.9])] in
  Ok (d1, w1).

(** DarkSide50_S2_ER, /repo/src/Experiments.cpp:171-184. *)
Definition DarkSide50_S2_ER (F : data_files) (w : nuclear_world) : res (ionization * nuclear_world) :=
  let expo := #6786.0 * Fin kg * Fin day in
  let* (d, w1) := Ionization_ctor1 (f_table F) w Electron_Recoil "DarkSide-50_S2" expo "Ar" in
  let* d1 := ionization_run d [IElectron_Bins 3 13;
    IBase (BBin_Observed [6131%Z; 673%Z; 252%Z; 227%Z; 198%Z; 199%Z; 189%Z; 247%Z; 230%Z; 261%Z; 249%Z; 329%Z; 336%Z])] in
  Ok (d1, w1).

(** DarkSide50_S2_ER_2023, /repo/src/Experiments.cpp:186-202. *)
Definition DarkSide50_S2_ER_2023 (F : data_files) (w : nuclear_world) : res (ionization * nuclear_world) :=
  let expo := #12306 * Fin kg * Fin day in
  let* (d, w1) := Ionization_ctor1 (f_table F) w Electron_Recoil "DarkSide-50_S2_2023" expo "Ar" in
  let* d1 := ionization_run d [IElectron_Bins 4 6;
    IBase (BBin_Observed [284%Z; 324%Z; 292%Z; 285%Z; 287%Z; 360%Z]);
    IBase (BBin_Background [#271.314; #284.115; #301.652; #318.913; #342.763; #369.199])] in
  Ok (d1, w1).

(** PandaX_4T_S2_ER, /repo/src/Experiments.cpp:204-220. The double ne_threshold = 4.0 is converted to unsigned. *)
Definition PandaX_4T_S2_ER (F : data_files) (w : nuclear_world) : res (ionization * nuclear_world) :=
  let expo := #0.55 * Fin tonne * Fin year in
  let* (d, w1) := Ionization_ctor1 (f_table F) w Electron_Recoil "PandaX-4T_S2" expo "Xe" in
  let* d1 := ionization_run d [IElectron_Bins 4 7;
    IBase (BFlat #0.14);
    IBase (BBin_Observed [34%Z; 14%Z; 13%Z; 7%Z; 11%Z; 12%Z; 14%Z])] in
  Ok (d1, w1).

(** LZ_S2_ER, /repo/src/Experiments.cpp:222-236. *)
Definition LZ_S2_ER (F : data_files) (w : nuclear_world) : res (ionization * nuclear_world) :=
  let* (d, w1) := Ionization_ctor1 (f_table F) w Electron_Recoil "LZ_S2" (#550 * Fin kg * Fin day) "Ar" in
  Exit.

(** * Semiconductors *)

(** protoSENSEI_at_Surface, /repo/src/Experiments.cpp:239-254. *)
Definition protoSENSEI_at_Surface (F : data_files) : res semiconductor :=
  let expo := #0.07 * Fin gram * #456 * Fin minute in
  let* d := Semiconductor_ctor (f_list F) "protoSENSEI@surface" expo "Si" in
  semiconductor_run d [CQ_Bins 1 5;
    CBase (BBin_Observed [140302%Z; 4676%Z; 131%Z; 1%Z; 0%Z]);
    CBase (BBin_Efficiencies [#0.668; #0.41; #0.32; #0.27; #0.24])].

(** protoSENSEI_at_MINOS, /repo/src/Experiments.cpp:256-271. *)
Definition protoSENSEI_at_MINOS (F : data_files) : res semiconductor :=
  let expo := #0.246 * Fin gram * Fin day in
  let* d := Semiconductor_ctor (f_list F) "protoSENSEI@MINOS" expo "Si" in
  semiconductor_run d [CQ_Bins 1 3;
    CBase (BBin_Observed [8516%Z; 87%Z; 0%Z]);
    CBase (BBin_Efficiencies [#1.0; #0.62; #0.48])].

(** SENSEI_at_MINOS, /repo/src/Experiments.cpp:273-288. *)
Definition SENSEI_at_MINOS (F : data_files) : res semiconductor :=
  let expo := #9.1 * Fin gram * Fin day in
  let* d := Semiconductor_ctor (f_list F) "SENSEI@MINOS" expo "Si" in
  semiconductor_run d [CQ_Bins 1 4;
    CBase (BBin_Observed [578%Z; 5%Z; 0%Z; 0%Z]);
    CBase (BBin_Efficiencies [#1.38 / #9.1; #2.09 / #9.1; #9.03 / #9.1; #1.0])].

(** CDMS_HVeV_2018, /repo/src/Experiments.cpp:290-307. *)
Definition CDMS_HVeV_2018 (F : data_files) : res semiconductor :=
  let expo := #0.487 * Fin gram * Fin day in
  let* d := Semiconductor_ctor (f_list F) "CDMS-HVeV_2018" expo "Si" in
  semiconductor_run d [CBase (BFlat #0.9545);
    CQ_Bins 1 6;
    CBase (BBin_Observed [53000%Z; 400%Z; 74%Z; 18%Z; 7%Z; 14%Z]);
    CBase (BBin_Efficiencies [#0.88; #0.91; #0.91; #0.91; #0.91; #0.91])].

(** CDMS_HVeV_2020, /repo/src/Experiments.cpp:309-322. *)
Definition CDMS_HVeV_2020 (F : data_files) : res semiconductor :=
  let expo := #1.2 * Fin gram * Fin day in
  let* d := Semiconductor_ctor (f_list F) "CDMS-HVeV_2020" expo "Si" in
  semiconductor_run d [CQ_Bins 1 6;
    CBase (BBin_Observed [178800%Z; 1320%Z; 248%Z; 64%Z; 19%Z; 6%Z])].

(** DAMIC_M_2023, /repo/src/Experiments.cpp:324-338. *)
Definition DAMIC_M_2023 (F : data_files) : res semiconductor :=
  let expo := #0.4 * #85.23 * Fin gram * Fin day in
  let* d := Semiconductor_ctor (f_list F) "DAMIC-M_2023" expo "Si" in
  semiconductor_run d [CQ_Bins 1 3;
    CBase (BBin_Observed [4216354%Z; 11345%Z; 19%Z])].

(** * Migdal scattering *)

(** XENON10_S2_Migdal, /repo/src/Experiments.cpp:342-361. *)
Definition XENON10_S2_Migdal (F : data_files) (w : nuclear_world) : res (ionization * nuclear_world) :=
  let expo := #15 * Fin kg * Fin day in
  let* (d, w1) := Ionization_ctor1 (f_table F) w Migdal "XENON10_S2" expo "Xe" in
  let* d1 := ionization_run d [IBase (BFlat #0.92);
    IPE_Bins #27.0 #6.7 [14%Z; 41%Z; 68%Z; 95%Z; 122%Z; 149%Z; 176%Z; 203%Z];
    IBase (BBin_Observed [126%Z; 60%Z; 12%Z; 3%Z; 2%Z; 0%Z; 2%Z])] in
  let* l1 := f_list F "data/XENON10e/PE_Trigger_Efficiency.txt" in
  let* d2 := ionization_run d1 [ITrigger l1] in
  Ok (d2, w1).

(** XENON100_S2_Migdal, /repo/src/Experiments.cpp:363-382. *)
Definition XENON100_S2_Migdal (F : data_files) (w : nuclear_world) : res (ionization * nuclear_world) :=
  let expo := #30 * Fin kg * Fin year in
  let* (d, w1) := Ionization_ctor1 (f_table F) w Migdal "XENON100_S2" expo "Xe" in
  let* d1 := ionization_run d [IPE_Bins #19.7 #6.2 [80%Z; 90%Z; 110%Z; 130%Z; 150%Z; 170%Z; 190%Z; 210%Z; 230%Z; 250%Z; 270%Z];
    IBase (BBin_Observed [794%Z; 1218%Z; 924%Z; 776%Z; 669%Z; 630%Z; 528%Z; 488%Z; 433%Z; 387%Z])] in
  let* l1 := f_list F "data/XENON100e/PE_Trigger_Efficiency.txt" in
  let* d2 := ionization_run d1 [ITrigger l1] in
  let* l2 := f_list F "data/XENON100e/PE_Acceptance_Efficiency.txt" in
  let* d3 := ionization_run d2 [IAcceptance l2] in
  Ok (d3, w1).

(** XENON1T_S2_Migdal, /repo/src/Experiments.cpp:384-399. *)
Definition XENON1T_S2_Migdal (F : data_files) (w : nuclear_world) : res (ionization * nuclear_world) :=
  let expo := #0.7 * #21900 * Fin kg * Fin day in
  let* (d, w1) := Ionization_ctor1 (f_table F) w Migdal "XENON1T_S2" expo "Xe" in
  let* d1 := ionization_run d [IElectron_Bins 5 6;
    IBase (BBin_Observed [5%Z; 5%Z; 4%Z; 2%Z; 1%Z; 0%Z]);
    IBase (BBin_Efficiencies [#0.0; #2.59712 / #21.9; #9.76999 / #21.9; #13.5103 / #21.9; #15.5974 / #21.9; #16.9158 / #21.9])] in
  Ok (d1, w1).

(** DarkSide50_S2_Migdal, /repo/src/Experiments.cpp:401-414. *)
Definition DarkSide50_S2_Migdal (F : data_files) (w : nuclear_world) : res (ionization * nuclear_world) :=
  let expo := #6786.0 * Fin kg * Fin day in
  let* (d, w1) := Ionization_ctor1 (f_table F) w Migdal "DarkSide-50_S2" expo "Ar" in
  let* d1 := ionization_run d [IElectron_Bins 3 13;
    IBase (BBin_Observed [6131%Z; 673%Z; 252%Z; 227%Z; 198%Z; 199%Z; 189%Z; 247%Z; 230%Z; 261%Z; 249%Z; 329%Z; 336%Z])] in
  Ok (d1, w1).

(** DarkSide50_S2_Migdal_2023, /repo/src/Experiments.cpp:417-433. *)
Definition DarkSide50_S2_Migdal_2023 (F : data_files) (w : nuclear_world) : res (ionization * nuclear_world) :=
  let expo := #12306 * Fin kg * Fin day in
  let* (d, w1) := Ionization_ctor1 (f_table F) w Migdal "DarkSide-50_S2_2023" expo "Ar" in
  let* d1 := ionization_run d [IElectron_Bins 4 6;
    IBase (BBin_Observed [284%Z; 324%Z; 292%Z; 285%Z; 287%Z; 360%Z]);
    IBase (BBin_Background [#271.314; #284.115; #301.652; #318.913; #342.763; #369.199])] in
  Ok (d1, w1).

(** PandaX_4T_S2_Migdal, /repo/src/Experiments.cpp:435-451. The double ne_threshold = 4.0 is converted to unsigned. *)
Definition PandaX_4T_S2_Migdal (F : data_files) (w : nuclear_world) : res (ionization * nuclear_world) :=
  let expo := #0.55 * Fin tonne * Fin year in
  let* (d, w1) := Ionization_ctor1 (f_table F) w Migdal "PandaX-4T_S2" expo "Xe" in
  let* d1 := ionization_run d [IElectron_Bins 4 7;
    IBase (BFlat #0.14);
    IBase (BBin_Observed [34%Z; 14%Z; 13%Z; 7%Z; 11%Z; 12%Z; 14%Z])] in
  Ok (d1, w1).

(** LZ_S2_Migdal, /repo/src/Experiments.cpp:453-467. *)
Definition LZ_S2_Migdal (F : data_files) (w : nuclear_world) : res (ionization * nuclear_world) :=
  let* (d, w1) := Ionization_ctor1 (f_table F) w Migdal "LZ_S2" (#550 * Fin kg * Fin day) "Ar" in
  Exit.
