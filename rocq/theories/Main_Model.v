(** The program itself.
    Source: /repo/src/main.cpp. *)
From Coq Require Import Reals List ZArith String DecimalString Decimal.
From Verif Require Import Base Nucleus_Model Nuclear_Model Particle_Model Distribution_Model Astronomy_Model Halo_Model Atom_Model Crystal_Model Rates_Model
  Detector_Model DetectorTypes_Model Experiments_Model Configuration_Model Summary_Model.
Import ListNotations.
Local Open Scope xr_scope.

(** What the program takes from outside: the surroundings of a configuration, the routines of libphysica used for limits and printing, what
    libphysica::Log_Space gives for fewer than two points (/repo/src/main.cpp:35), and the text libphysica::Export_Table writes for the numbers
    of a table (/repo/src/main.cpp:44). *)
Record libraries : Type := mkLibraries {
  l_env : environment;
  l_Round : rounding;
  l_integrals : integrals;
  l_externals : externals;
  l_statistics : statistics;
  l_Find_Root : root_finder;
  l_few : xr -> xr -> Z -> list xr;
  l_text : list (list xr) -> string }.

(** The functions of the distribution that detectors call through DM_Distribution&, /repo/src/main.cpp:37: the overrides of the class that the
    configuration constructed (/repo/src/Configuration.cpp:334-465). *)
Definition distribution_interface (E : environment) (h : halo) : Distr_interface :=
  match h with
  | HStandard s => mkDistr (h_rho s) (h_dmin s) (h_dmax s) (h_use_eta s) (fun v => Ok (PDF_Speed_SHM s v)) (fun v => Ok (Eta_Function_SHM s v))
  | HPlusPlus s => let b := p_base s in
      mkDistr (h_rho b) (h_dmin b) (h_dmax b) (h_use_eta b) (PDF_Speed_pp (e_Integrate_2D E) s) (Eta_Function_pp (e_Interpolation E) s)
  | HImported s => mkDistr (im_rho s) (im_dmin s) (im_dmax s) (im_use_eta s) (Imported_PDF_Speed (e_Interpolation E) s)
      (Imported_Eta_Function (e_Interpolation E) s)
  end.

(** The functions of the detector called through DM_Detector*, /repo/src/main.cpp:37. *)
Definition instrument_virtuals (X : externals) (D : Distr_interface) (i : instrument) : virtuals :=
  match i with
  | DNuclear n => nuclear_virtuals X D n
  | DIonization s => ionization_virtuals X D s
  | DSemiconductor s => semiconductor_virtuals X D s
  end.

(** The masses, /repo/src/main.cpp:35. The unsigned number of masses becomes the number of points. *)
Definition requested_masses (L : libraries) (c : configuration) : list xr :=
  if (cf_masses c <? 2)%Z then l_few L (Fin (cf_mass_min c)) (Fin (cf_mass_max c)) (cf_masses c)
  else Log_Space (Fin (cf_mass_min c)) (Fin (cf_mass_max c)) (Z.to_nat (cf_masses c)).

(** One line of progress, /repo/src/main.cpp:39-41. *)
Definition progress_line (Round : rounding) (total : nat) (i : nat) (row : list xr) : res line :=
  let* m := at_ub row 0 in
  let* u := at_ub row 1 in
  let unit := if xlt m (Fin GeV) then MeV else GeV in
  let name := if xlt m (Fin GeV) then " MeV"%string else " GeV"%string in
  Ok ("mDM"%string, [Int (u32 (Z.of_nat i + 1)); Int (Z.of_nat total); Num (Round (In_Units m unit)); Txt name; Num (Round (In_Units u (cm * cm)))]).

(** The loop over the table, /repo/src/main.cpp:38-41. *)
Definition progress (Round : rounding) (rows : list (list xr)) : res (list line) :=
  map_res (fun '(i, row) => progress_line Round (List.length rows) i row) (combine (seq 0 (List.length rows)) rows).

(** std::round (/repo/src/main.cpp:43): to the nearest integer, halves away from zero. *)
Definition round_away (x : R) : Z :=
  if Rlt_dec x 0 then (- Int_part (- x + 1 / 2))%Z else Int_part (x + 1 / 2).

(** The conversion to int, /repo/src/main.cpp:43: undefined for values an int cannot hold. *)
Definition confidence_level (certainty : R) : res Z :=
  let z := round_away (100.0 * certainty) in
  if ((- 2147483648 <=? z) && (z <=? 2147483647))%Z%bool then Ok z else UB.

(** std::to_string(int), /repo/src/main.cpp:44: the decimal digits, without leading zeros. *)
Definition to_string (z : Z) : string := NilZero.string_of_int (Z.to_int z).

(** The name of the file, /repo/src/main.cpp:44. *)
Definition constraints_path (E : environment) (ID : string) (CL : Z) : string :=
  (e_top E ++ "results/" ++ ID ++ "/DD_Constraints_" ++ to_string CL ++ ".txt")%string.

(** The numbers of libphysica::Export_Table(path, table, {GeV, cm * cm}) (external, /repo/src/main.cpp:44): every column in its unit. *)
Definition exported (rows : list (list xr)) : res (list (list xr)) :=
  map_res (fun row => let* m := at_ub row 0 in let* u := at_ub row 1 in Ok [In_Units m GeV; In_Units u (cm * cm)]) rows.

(** main from the summary on, /repo/src/main.cpp:33-44: the lines printed, the file to be written and its content. *)
Definition main_body (L : libraries) (c : configuration) : res (list line * string * list (list xr)) :=
  let* summary := print_configuration (l_Round L) (l_integrals L) 0 c in
  match cf_DM c, cf_distr c, cf_detector c with
  | Some (p, _), Some h, Some i =>
      let V := instrument_virtuals (l_externals L) (distribution_interface (l_env L) h) i in
      let* (rows, _, _) := Upper_Limit_Curve (l_Find_Root L) (l_statistics L) V (instrument_base i) p (requested_masses L c) (Fin (cf_certainty c)) in
      let* lines := progress (l_Round L) rows in
      let* CL := confidence_level (cf_certainty c) in
      let* table := exported rows in
      Ok ((summary ++ lines)%list, constraints_path (l_env L) (cf_ID c) CL, table)
  | _, _, _ => UB
  end.

(** main, /repo/src/main.cpp:16-53. [args] is argv[0], argv[1], ...; without argv[1] a std::string is made from a null pointer. Simplified:
    times, version and logo are left out; what was printed before an end of the program is not kept; a file that cannot be opened is not
    written. *)
Definition main (L : libraries) (fs : filesystem) (w : nuclear_world) (args : list string) : filesystem * res (list line) :=
  match args with
  | _ :: path :: _ =>
      let '(fs1, r) := Configuration_ctor (l_env L) fs w path 0 in
      match r with
      | Ok (c, _) =>
          match main_body L c with
          | Ok (lines, target, table) => (if e_open (l_env L) fs1 target then put_file target (l_text L table) fs1 else fs1, Ok lines)
          | Exit => (fs1, Exit)
          | UB => (fs1, UB)
          | Throw => (fs1, Throw)
          end
      | Exit => (fs1, Exit)
      | UB => (fs1, UB)
      | Throw => (fs1, Throw)
      end
  | _ => (fs, UB)
  end.
