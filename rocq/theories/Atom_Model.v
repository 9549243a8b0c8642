(** Bound electrons and atoms.
    Source: /repo/src/Target_Atom.cpp, /repo/include/obscura/Target_Atom.hpp. *)
From Coq Require Import Reals List ZArith String DecimalString.
From Verif Require Import Base Nucleus_Model Nuclear_Model.
Import ListNotations.
Local Open Scope xr_scope.

(** vMinimal_Electrons, /repo/src/Target_Atom.cpp:14-17. *)
Definition vMinimal_Electrons (q Delta_E mDM : xr) : xr := Delta_E / q + q / #2 / mDM.

(** libphysica::Log_Space(min, max, steps) (external; /repo/src/Target_Atom.cpp:33-34) for steps >= 2. *)
Definition Log_Space (lo hi : xr) (steps : nat) : list xr :=
  map (fun i => xexp (xlog lo + Fin (INR i) * ((xlog hi - xlog lo) / Fin (INR (steps - 1))))) (seq 0 steps).

(** C [log10] (/repo/src/Target_Atom.cpp:36-37). *)
Definition xlog10 (a : xr) : xr := xlog a / Fin (ln 10).

(** A table with its two grids: what libphysica::Interpolation_2D(k_Grid, q_Grid, table) is built from
    (/repo/src/Target_Atom.cpp:35, /repo/src/Target_Crystal.cpp:54), and the type of its call operator (external). *)
Record table2 : Type := mkTable2 { t2_x : list xr; t2_y : list xr; t2_f : list (list xr) }.
Definition interpolator2 : Type := table2 -> xr -> xr -> res xr.

(** struct Atomic_Electron, /repo/include/obscura/Target_Atom.hpp:20-35. The interpolation objects are kept by their nodes.
    n, l, Nk, Nq and number_of_secondary_electrons are unsigned int. *)
Record Atomic_Electron : Type := mkShell {
  k_min : xr; k_max : xr; q_min : xr; q_max : xr; dlogk : xr; dlogq : xr; Nk : Z; Nq : Z;
  k_Grid : list xr; q_Grid : list xr; atomic_response_interpolations : list table2;
  sh_n : Z; sh_l : Z; sh_name : string; binding_energy : xr; number_of_secondary_electrons : Z; have_warned : bool }.

Definition with_warned (b : bool) (s : Atomic_Electron) : Atomic_Electron :=
  mkShell (k_min s) (k_max s) (q_min s) (q_max s) (dlogk s) (dlogq s) (Nk s) (Nq s) (k_Grid s) (q_Grid s)
    (atomic_response_interpolations s) (sh_n s) (sh_l s) (sh_name s) (binding_energy s) (number_of_secondary_electrons s) b.

(** s_names, /repo/src/Target_Atom.cpp:20. *)
Definition s_names : list string := ["s"; "p"; "d"; "f"; "g"]%string.

(** std::to_string of a non-negative int (/repo/src/Target_Atom.cpp:25,29). *)
Definition to_string (z : Z) : string := NilZero.string_of_int (Z.to_int z).

(** One table of the constructor's loop, /repo/src/Target_Atom.cpp:29-35. [Import_Table] is libphysica::Import_Table
    (external: the numbers of a file, or termination). *)
Definition import_response (Import_Table : string -> res (list (list xr))) (name : string) (kMin kMax qMin qMax : xr) (response : Z)
    : res (nat * nat * table2) :=
  let* t := Import_Table ("data/Atomic_Response_Functions/" ++ name ++ "_" ++ to_string response ++ ".txt")%string in
  let* r0 := at_ub t 0 in
  Ok (Datatypes.length t, Datatypes.length r0,
      mkTable2 (Log_Space kMin kMax (Datatypes.length t)) (Log_Space qMin qMax (Datatypes.length r0)) t).

(** Atomic_Electron::Atomic_Electron, /repo/src/Target_Atom.cpp:22-39. Each pass overwrites Nk, Nq, the grids and the step sizes, so
    they end up with the values of the last table. An index l outside s_names is undefined behaviour. *)
Definition Atomic_Electron_ctor (Import_Table : string -> res (list (list xr)))
    (element : string) (n l : Z) (Ebinding kMin kMax qMin qMax : xr) (neSecondary : Z) : res Atomic_Electron :=
  let* sn := at_ubZ s_names l in
  let name := (element ++ "_" ++ to_string n ++ sn)%string in
  let* ts := map_res (import_response Import_Table name kMin kMax qMin qMax) [1; 2; 3; 4]%Z in
  let* last_t := at_ub ts 3 in
  let '(nk, nq, t4) := last_t in
  Ok (mkShell kMin kMax qMin qMax
        (xlog10 (kMax / kMin) / (Fin (INR nk) - #1)) (xlog10 (qMax / qMin) / (Fin (INR nq) - #1))
        (Z.of_nat nk) (Z.of_nat nq) (t2_x t4) (t2_y t4) (map snd ts) n l name Ebinding neSecondary false).

(** The test for arguments outside the tables, /repo/src/Target_Atom.cpp:44. *)
Definition response_out_of_bounds (s : Atomic_Electron) (q k : xr) : bool :=
  (xlt (#1.000001 * q_max s) q || xlt (#1.000001 * k_max s) k || xlt k (#0.999999 * k_min s))%bool.

(** Atomic_Electron::Atomic_Response_Function, /repo/src/Target_Atom.cpp:41-92. The result is the returned value, the object
    afterwards, and whether a warning was printed. *)
Definition Atomic_Response_Function (I2 : interpolator2) (s : Atomic_Electron) (response : Z) (q E : xr)
    : res (xr * Atomic_Electron * bool) :=
  let k := xsqrt (#2 * Fin mElectron * E) in
  if response_out_of_bounds s q k then Ok (#0, with_warned true s, negb (have_warned s))
  else if (response =? 1)%Z then
    let* t := at_ub (atomic_response_interpolations s) 0 in
    if xlt (q_min s) q then let* f := I2 t k q in Ok (f, s, false)
    else
      let q_0 := q_min s in
      let* FF_0 := I2 t k q_0 in
      Ok (q * q / q_0 / q_0 * FF_0, s, false)
  else if ((response =? 2) || (response =? 3) || (response =? 4))%Z%bool then
    if xlt (q_min s) q then
      let* t := at_ubZ (atomic_response_interpolations s) (response - 1) in
      let* f := I2 t k q in Ok (f, s, false)
    else Ok (#0, with_warned true s, negb (have_warned s))
  else Exit.

(** Atomic_Electron::Ionization_Form_Factor, /repo/src/Target_Atom.cpp:94-97. *)
Definition Ionization_Form_Factor (I2 : interpolator2) (s : Atomic_Electron) (q E : xr) : res (xr * Atomic_Electron * bool) :=
  Atomic_Response_Function I2 s 1 q E.

(** struct Atom, /repo/include/obscura/Target_Atom.hpp:46-50. *)
Record Atom : Type := mkAtom { at_nucleus : Nucleus; electrons : list Atomic_Electron; W : xr }.

(** Atom::Atom(int z, double w, shells), /repo/src/Target_Atom.cpp:105-108. *)
Definition Atom_of_shells (w : nuclear_world) (z : Z) (wt : xr) (shells : list Atomic_Electron) : res (Atom * nuclear_world) :=
  let* p := Get_Nucleus w (u32 z) in
  Ok (mkAtom (fst p) shells wt, snd p).

(** The shells (n, l, binding energy in eV, secondary electrons) in the order of construction: xenon
    /repo/src/Target_Atom.cpp:119-129, argon 140-144. *)
Definition xenon_shells : list (Z * Z * R * Z) :=
  [(1, 0, 33317.6%R, 0); (2, 0, 5149.21%R, 0); (2, 1, 4837.71%R, 0); (3, 0, 1093.24%R, 0); (3, 1, 958.43%R, 0); (3, 2, 710.73%R, 0);
   (4, 0, 213.781%R, 3); (4, 1, 163.495%R, 6); (4, 2, 75.5897%R, 4); (5, 0, 25.6986%R, 0); (5, 1, 12.4433%R, 0)]%Z.
Definition argon_shells : list (Z * Z * R * Z) :=
  [(1, 0, 3227.55%R, 0); (2, 0, 335.303%R, 0); (2, 1, 260.453%R, 0); (3, 0, 34.7585%R, 0); (3, 1, 16.0824%R, 0)]%Z.

(** The construction of all shells of an element with q in [1, 1000] keV and k in [0.1, kmax] keV, and their order in
    the member [electrons] (outermost first), /repo/src/Target_Atom.cpp:115-132,136-147. *)
Definition make_shells (Import_Table : string -> res (list (list xr))) (element : string) (kmax : R) (l : list (Z * Z * R * Z))
    : res (list Atomic_Electron) :=
  let* shells := map_res (fun p => let '(n, l, E, ns) := p in
      Atomic_Electron_ctor Import_Table element n l (Fin E * Fin eV) (#0.1 * Fin keV) (Fin kmax * Fin keV) (#1.0 * Fin keV) (#1000.0 * Fin keV) ns) l in
  Ok (rev shells).

(** Atom::Atom(const std::string&), /repo/src/Target_Atom.cpp:110-154. *)
Definition Atom_by_name (Import_Table : string -> res (list (list xr))) (w : nuclear_world) (element_name : string) : res (Atom * nuclear_world) :=
  let* p := Get_Nucleus_by_name w element_name in
  if ((element_name =? "Xe") || (element_name =? "Xenon"))%string%bool then
    let* e := make_shells Import_Table "Xe" 500.0 xenon_shells in
    Ok (mkAtom (fst p) e (#13.8 * Fin eV), snd p)
  else if ((element_name =? "Ar") || (element_name =? "Argon"))%string%bool then
    let* e := make_shells Import_Table "Ar" 100.0 argon_shells in
    Ok (mkAtom (fst p) e (#19.6 * Fin eV), snd p)
  else Exit.

(** Atom::Lowest_Binding_Energy, /repo/src/Target_Atom.cpp:156-165. *)
Definition Lowest_Binding_Energy (a : Atom) : xr :=
  fold_left (fun m s => if xlt (xabs (binding_energy s)) m then xabs (binding_energy s) else m) (electrons a) #1.0.

(** Atom::Electron(n, l), /repo/src/Target_Atom.cpp:167-176. *)
Fixpoint Electron_loop (l : list Atomic_Electron) (n l0 : Z) : res Atomic_Electron :=
  match l with
  | [] => Exit
  | s :: t => if ((sh_n s =? n) && (sh_l s =? l0))%Z%bool then Ok s else Electron_loop t n l0
  end.
Definition Atom_Electron (a : Atom) (n l : Z) : res Atomic_Electron := Electron_loop (electrons a) n l.
