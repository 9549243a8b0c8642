(** Semiconductor crystals.
    Source: /repo/src/Target_Crystal.cpp, /repo/include/obscura/Target_Crystal.hpp, /repo/src/Direct_Detection_Crystal.cpp:19-28. *)
From Coq Require Import Reals List ZArith String.
From Verif Require Import Base Distribution_Model Atom_Model.
Import ListNotations.
Local Open Scope xr_scope.

(** Conversion of a double to an integer type with values lo..hi: truncation towards zero, undefined behaviour when the result does
    not fit (e.g. /repo/src/Target_Crystal.cpp:28, /repo/src/Direct_Detection_Crystal.cpp:75). [Rfloor] is the mathematical floor. *)
Definition Rfloor (r : R) : Z := (up r - 1)%Z.
Definition Rtrunc (r : R) : Z := if Rlt_dec r 0 then (- Rfloor (- r))%Z else Rfloor r.
Definition double_to_int (lo hi : Z) (a : xr) : res Z :=
  match a with
  | Fin r => let z := Rtrunc r in if ((lo <=? z) && (z <=? hi))%Z%bool then Ok z else UB
  | _ => UB
  end.
Definition to_int (a : xr) : res Z := double_to_int (- 2 ^ 31) (2 ^ 31 - 1) a.
Definition to_unsigned (a : xr) : res Z := double_to_int 0 (2 ^ 32 - 1) a.

(** C [floor] (/repo/src/Target_Crystal.cpp:28, /repo/src/Direct_Detection_Crystal.cpp:26). *)
Definition xfloor (a : xr) : xr := match a with Fin r => Fin (IZR (Rfloor r)) | x => x end.

(** class Crystal, /repo/include/obscura/Target_Crystal.hpp:9-23. The interpolation object is kept by its nodes. *)
Record Crystal : Type := mkCrystal {
  form_factor_table : table2; N_E : Z; N_q : Z; cr_name : string; dE : xr; dq : xr; E_max : xr; cr_q_max : xr;
  M_cell : xr; energy_gap : xr; epsilon : xr; Q_max : Z }.

(** The filling of form_factor_table, /repo/src/Target_Crystal.cpp:46-51: for Ei = 0..499, qi = 0..899 the entry [qi][Ei] is computed from
    aux_list[i] with i = 900 Ei + qi. *)
Definition crystal_entry (aux : list xr) (prefactor dE : xr) (qi Ei : nat) : res xr :=
  let* a := at_ubZ aux (900 * Z.of_nat Ei + Z.of_nat qi) in
  Ok (prefactor * Fin (INR qi + 1) / dE * (#2.0 / #137.0) / #4.0 * a).
Definition crystal_table (aux : list xr) (prefactor dE : xr) : res (list (list xr)) :=
  map_res (fun qi => map_res (fun Ei => crystal_entry aux prefactor dE qi Ei) (seq 0 500)) (seq 0 900).

(** The element dependent constants (gap, epsilon, mass, prefactor), /repo/src/Target_Crystal.cpp:21-42. *)
Definition crystal_constants (target : string) : res (xr * xr * xr * xr) :=
  if (target =? "Si")%string then Ok (#1.11 * Fin eV, #3.6 * Fin eV, #2.0 * #28.08 * Fin mNucleon, #2.0 * Fin eV)
  else if (target =? "Ge")%string then Ok (#0.67 * Fin eV, #2.9 * Fin eV, #2.0 * #72.6 * Fin mNucleon, #1.8 * Fin eV)
  else Exit.

(** Crystal::Crystal, /repo/src/Target_Crystal.cpp:15-55. [Import_List] is libphysica::Import_List (external). *)
Definition Crystal_ctor (Import_List : string -> res (list xr)) (target : string) : res Crystal :=
  let dE := #0.1 * Fin eV in
  let dq := #0.02 * Fin aEM * Fin mElectron in
  let E_max := #500 * dE in
  let q_max := #900 * dq in
  let* c := crystal_constants target in
  let '(gap, eps, M, prefactor) := c in
  let* Q := to_unsigned (xfloor ((E_max - gap + eps) / eps)) in
  let* aux := Import_List ("data/Semiconductors/C." ++ target ++ "137.dat")%string in
  let* t := crystal_table aux prefactor dE in
  Ok (mkCrystal (mkTable2 (Linear_Space dq q_max 900) (Linear_Space dE E_max 500) t)
        500 900 target dE dq E_max q_max M gap eps Q).

(** Crystal::Crystal_Form_Factor, /repo/src/Target_Crystal.cpp:57-73. [warned] is the global flag have_warned; the result is the
    value, the flag afterwards, and whether a warning was printed. *)
Definition Crystal_Form_Factor (I2 : interpolator2) (c : Crystal) (warned : bool) (q E : xr) : res (xr * bool * bool) :=
  if (xlt q (dq c) || xlt (cr_q_max c) q || xlt E (dE c) || xlt (E_max c) E)%bool then
    let warn := (negb warned && (xlt q (#0.999999 * dq c) || xlt (#1.000001 * cr_q_max c) q
                                 || xlt E (#0.999999 * dE c) || xlt (#1.000001 * E_max c) E))%bool in
    Ok (#0, (warned || warn)%bool, warn)
  else let* f := I2 (form_factor_table c) q E in Ok (f, warned, false).

(** Minimum_Electron_Energy(int Q, target), /repo/src/Direct_Detection_Crystal.cpp:19-22. *)
Definition Minimum_Electron_Energy (Q : Z) (c : Crystal) : xr := epsilon c * Fin (IZR (Q - 1)) + energy_gap c.

(** Electron_Hole_Pairs(Ee, target), /repo/src/Direct_Detection_Crystal.cpp:24-27. *)
Definition Electron_Hole_Pairs (Ee : xr) (c : Crystal) : res Z :=
  to_unsigned (xfloor ((Ee - energy_gap c) / epsilon c + #1)).
