(** Event spectra per target mass.
    Source: /repo/src/Direct_Detection_Nucleus.cpp:15-45, /repo/src/Direct_Detection_ER.cpp, /repo/src/Direct_Detection_Migdal.cpp,
    /repo/src/Direct_Detection_Crystal.cpp:19-97, /repo/src/DM_Particle.cpp:100-111. *)
From Coq Require Import Reals List ZArith String.
From Verif Require Import Base Nucleus_Model Particle_Model CrossSection_Model Distribution_Model Atom_Model Crystal_Model.
Import ListNotations.
Local Open Scope xr_scope.

(** What the rate functions use of a DM_Particle (/repo/include/obscura/DM_Particle.hpp:36-70): members and virtual functions. Every
    derived class, also one written by a user, is some value of this record. *)
Record DM_interface : Type := mkDM {
  dm_mass : xr; dm_fraction : xr; dm_use_eta : bool;
  dm_dSigma_dq2_Nucleus : xr -> Isotope -> xr -> res xr;
  dm_d2Sigma_Ionization : xr -> xr -> xr -> Atomic_Electron -> res xr;
  dm_d2Sigma_Crystal : xr -> xr -> xr -> Crystal -> res xr }.

(** What they use of a DM_Distribution (/repo/include/obscura/DM_Distribution.hpp:14-48): density, speed domain, flag,
    and the virtual functions PDF_Speed and Eta_Function. Simplified: none of the classes overrides Differential_DM_Flux, which is
    computed from these. *)
Record Distr_interface : Type := mkDistr {
  d_rho : xr; d_vmin : xr; d_vmax : xr; d_use_eta : bool; d_pdf_speed : xr -> res xr; d_eta : xr -> res xr }.

(** DM_Distribution::Differential_DM_Flux, /repo/src/DM_Distribution.cpp:67-70. *)
Definition flux (D : Distr_interface) (v mDM : xr) : res xr := Differential_DM_Flux (d_pdf_speed D) (d_rho D) v mDM.

(** The returned number of Ionization_Form_Factor and Crystal_Form_Factor (/repo/src/Target_Atom.cpp:94-97,
    /repo/src/Target_Crystal.cpp:57-73). Simplified: the warning flags, the only thing these calls change, are dropped. *)
Definition ionization_value (I2 : interpolator2) (s : Atomic_Electron) (q E : xr) : res xr :=
  let* x := Ionization_Form_Factor I2 s q E in Ok (fst (fst x)).
Definition crystal_value (I2 : interpolator2) (c : Crystal) (q E : xr) : res xr :=
  let* x := Crystal_Form_Factor I2 c false q E in Ok (fst (fst x)).

(** The particles of /repo/src/DM_Particle_Standard.cpp:294-313,522-530 as such an interface. *)
Definition interface_of (I2 : interpolator2) (s : particle) : DM_interface :=
  mkDM (mass s) (fractional_density s) (use_eta s) (dSigma_dq2_Nucleus s)
    (fun q Ee v shell => let* f := ionization_value I2 shell q Ee in d2Sigma_dq2_dEe_Ionization s q Ee v f)
    (fun q Ee v c => let* f := crystal_value I2 c q Ee in d2Sigma_dq2_dEe_Crystal s q Ee v f).

(** DM_Particle::dSigma_dER_Nucleus for any particle, /repo/src/DM_Particle.cpp:100-104. *)
Definition dm_dSigma_dER (DM : DM_interface) (ER : xr) (t : Isotope) (v : xr) : res xr :=
  let q := xsqrt (#2 * imass t * ER) in
  let* d := dm_dSigma_dq2_Nucleus DM q t v in Ok (#2 * imass t * d).

(** DM_Particle::d2Sigma_dER_dEe_Migdal for any particle, /repo/src/DM_Particle.cpp:106-111. *)
Definition dm_d2Sigma_Migdal (I2 : interpolator2) (DM : DM_interface) (ER Ee v : xr) (t : Isotope) (shell : Atomic_Electron) : res xr :=
  let q := xsqrt (#2 * imass t * ER) in
  let qe := Fin mElectron / imass t * q in
  let* d := dm_dSigma_dER DM ER t v in
  let* f := ionization_value I2 shell qe Ee in
  Ok (#1 / #4 / Ee * d * f).

(** The loops [for(auto& x : l) result += f(x)] starting from 0 (/repo/src/Direct_Detection_Nucleus.cpp:40-42,
    /repo/src/Direct_Detection_ER.cpp:57-58, /repo/src/Direct_Detection_Migdal.cpp:56-57,64-65). *)
Definition sum_res {A : Type} (f : A -> res xr) (l : list A) : res xr :=
  let* vs := map_res f l in Ok (xsum vs).

(** dRdER_Nucleus for one isotope, /repo/src/Direct_Detection_Nucleus.cpp:16-36. *)
Definition dRdER_Isotope (Integrate : integrator) (ER : xr) (DM : DM_interface) (D : Distr_interface) (t : Isotope) : res xr :=
  let vMin := vMinimal_Nucleus ER (dm_mass DM) (imass t) in
  let vMax := d_vmax D in
  if xlt vMax vMin then Ok #0.0
  else if (dm_use_eta DM && d_use_eta D)%bool then
    let rhoDM := d_rho D * dm_fraction DM in
    let vDM := #1.0e-3 in
    let* d := dm_dSigma_dER DM ER t vDM in
    let* e := d_eta D vMin in
    Ok (#1.0 / imass t * rhoDM / dm_mass DM * (vDM * vDM * d) * e)
  else
    let* integral := Integrate (fun v => let* f := flux D v (dm_mass DM) in let* d := dm_dSigma_dER DM ER t v in Ok (f * d)) vMin vMax in
    Ok (dm_fraction DM / imass t * integral).

(** dRdER_Nucleus for a nucleus, /repo/src/Direct_Detection_Nucleus.cpp:38-45. *)
Definition dRdER_Nucleus (Integrate : integrator) (ER : xr) (DM : DM_interface) (D : Distr_interface) (n : Nucleus) : res xr :=
  sum_res (fun t => let* r := dRdER_Isotope Integrate ER DM D t in Ok (iabundance t * r)) (nisotopes n).

(** The momentum window of dRdEe_Ionization_ER, /repo/src/Direct_Detection_ER.cpp:16-26: [None] when 0 is returned. *)
Definition ER_window (DM : DM_interface) (D : Distr_interface) (shell : Atomic_Electron) : option (xr * xr) :=
  let vMax := d_vmax D in
  let E_DM_max := dm_mass DM / #2.0 * vMax * vMax in
  if xlt E_DM_max (binding_energy shell) then None
  else
    let root := xsqrt (dm_mass DM * dm_mass DM * vMax * vMax - #2.0 * dm_mass DM * binding_energy shell) in
    let qMin := dm_mass DM * vMax - root in
    let qMax := dm_mass DM * vMax + root in
    if xlt (q_max shell) qMin then None
    else if xlt (q_max shell) qMax then Some (qMin, q_max shell)
    else Some (qMin, qMax).

(** One term of its sum over momenta, /repo/src/Direct_Detection_ER.cpp:33-49. *)
Definition ER_term (Integrate : integrator) (Ee : xr) (DM : DM_interface) (D : Distr_interface) (shell : Atomic_Electron) (d_lnq q : xr) : res xr :=
  let vMax := d_vmax D in
  let vMin := vMinimal_Electrons q (binding_energy shell + Ee) (dm_mass DM) in
  if xlt vMin vMax then
    if (dm_use_eta DM && d_use_eta D)%bool then
      let vDM := #1.0e-3 in
      let* d := dm_d2Sigma_Ionization DM q Ee vDM shell in
      let* e := d_eta D vMin in
      Ok (#2.0 * d_lnq * q * q * d * vDM * vDM * d_rho D / dm_mass DM * e)
    else
      let* i := Integrate (fun v => let* f := flux D v (dm_mass DM) in let* d := dm_d2Sigma_Ionization DM q Ee v shell in Ok (f * d)) vMin vMax in
      Ok (#2.0 * d_lnq * q * q * i)
  else Ok #0.

(** dRdEe_Ionization_ER for one shell, /repo/src/Direct_Detection_ER.cpp:13-52. A momentum that is kinematically impossible is skipped,
    which is the same as adding 0. *)
Definition dRdEe_ER_shell (Integrate : integrator) (Ee : xr) (DM : DM_interface) (D : Distr_interface) (m_nucleus : xr) (shell : Atomic_Electron) : res xr :=
  let N_T := #1.0 / m_nucleus in
  match ER_window DM D shell with
  | None => Ok #0.0
  | Some (qMin, qMax) =>
      let q_grid := Log_Space qMin qMax 100 in
      let* q1 := at_ub q_grid 1 in
      let* q0 := at_ub q_grid 0 in
      let d_lnq := xlog (q1 / q0) in
      let* integral := sum_res (ER_term Integrate Ee DM D shell d_lnq) q_grid in
      Ok (N_T * integral)
  end.

(** dRdEe_Ionization_ER for an atom, /repo/src/Direct_Detection_ER.cpp:53-60. *)
Definition dRdEe_ER_atom (Integrate : integrator) (Ee : xr) (DM : DM_interface) (D : Distr_interface) (a : Atom) : res xr :=
  sum_res (dRdEe_ER_shell Integrate Ee DM D (Average_Nuclear_Mass (at_nucleus a))) (electrons a).

(** vMinimal_Migdal, /repo/src/Direct_Detection_Migdal.cpp:12-17. *)
Definition vMinimal_Migdal (ER Ee mDM mN Eb : xr) : xr :=
  let mu := Reduced_Mass mDM mN in
  xsqrt (mN * ER / #2.0 / mu / mu) + (Ee + Eb) / xsqrt (#2.0 * mN * ER).

(** ER_integrand in dRdEe_Ionization_Migdal, /repo/src/Direct_Detection_Migdal.cpp:23-41. *)
Definition Migdal_integrand (Integrate : integrator) (I2 : interpolator2) (Ee : xr) (DM : DM_interface) (D : Distr_interface)
    (t : Isotope) (shell : Atomic_Electron) (ER : xr) : res xr :=
  let vMin := if xlt #0 ER then vMinimal_Migdal ER Ee (dm_mass DM) (imass t) (binding_energy shell) else #1.0e-20 * Fin cm / Fin sec in
  if xle (d_vmax D) vMin then Ok #0.0
  else if (dm_use_eta DM && d_use_eta D)%bool then
    let vDM := #1.0e-3 in
    let* e := d_eta D vMin in
    let* d := dm_d2Sigma_Migdal I2 DM ER Ee vDM t shell in
    Ok (d_rho D / dm_mass DM * e * d * vDM * vDM)
  else
    Integrate (fun v => let* f := flux D v (dm_mass DM) in let* d := dm_d2Sigma_Migdal I2 DM ER Ee v t shell in Ok (f * d)) vMin (d_vmax D).

(** The recoil energy window, /repo/src/Direct_Detection_Migdal.cpp:44-48. *)
Definition Migdal_window (DM : DM_interface) (D : Distr_interface) (t : Isotope) (shell : Atomic_Electron) : xr * xr :=
  let vMax := d_vmax D in
  let qMin := binding_energy shell / vMax in
  let qMax := #2.0 * Reduced_Mass (dm_mass DM) (imass t) * vMax in
  (qMin * qMin / #2.0 / imass t, qMax * qMax / #2.0 / imass t).

(** dRdEe_Ionization_Migdal for one isotope and shell, /repo/src/Direct_Detection_Migdal.cpp:19-51. *)
Definition dRdEe_Migdal_isotope (Integrate : integrator) (I2 : interpolator2) (Ee : xr) (DM : DM_interface) (D : Distr_interface)
    (t : Isotope) (shell : Atomic_Electron) : res xr :=
  let NT := #1.0 / imass t in
  let '(ER_min, ER_max) := Migdal_window DM D t shell in
  let* i := Integrate (Migdal_integrand Integrate I2 Ee DM D t shell) ER_min ER_max in
  Ok (NT * i).

(** dRdEe_Ionization_Migdal for a nucleus and shell, and for an atom, /repo/src/Direct_Detection_Migdal.cpp:53-67. *)
Definition dRdEe_Migdal_nucleus (Integrate : integrator) (I2 : interpolator2) (Ee : xr) (DM : DM_interface) (D : Distr_interface)
    (n : Nucleus) (shell : Atomic_Electron) : res xr :=
  sum_res (fun t => let* r := dRdEe_Migdal_isotope Integrate I2 Ee DM D t shell in Ok (iabundance t * r)) (nisotopes n).
Definition dRdEe_Migdal_atom (Integrate : integrator) (I2 : interpolator2) (Ee : xr) (DM : DM_interface) (D : Distr_interface) (a : Atom) : res xr :=
  sum_res (dRdEe_Migdal_nucleus Integrate I2 Ee DM D (at_nucleus a)) (electrons a).

(** One term of the sum over momenta of dRdEe_Crystal, /repo/src/Direct_Detection_Crystal.cpp:45-63. A skipped momentum adds 0. *)
Definition Crystal_term (Integrate : integrator) (Ee : xr) (DM : DM_interface) (D : Distr_interface) (c : Crystal) (qi : Z) : res xr :=
  let q := Fin (IZR (qi + 1)) * dq c in
  let vMin := vMinimal_Electrons q Ee (dm_mass DM) in
  let vMax := d_vmax D in
  if xlt vMax vMin then Ok #0
  else if (dm_use_eta DM && d_use_eta D)%bool then
    let vDM := #1e-3 in
    let* e := d_eta D vMin in
    let* d := dm_d2Sigma_Crystal DM q Ee vDM c in
    Ok (#2.0 * q * dq c * d_rho D / dm_mass DM * e * vDM * vDM * d)
  else
    let* i := Integrate (fun v => let* f := flux D v (dm_mass DM) in let* d := dm_d2Sigma_Crystal DM q Ee v c in Ok (f * d)) vMin vMax in
    Ok (#2.0 * q * dq c * i).

(** The integers lo, lo + 1, ..., hi - 1: the values of the loop variables in /repo/src/Direct_Detection_Crystal.cpp:45,75,91. *)
Definition Zrange (lo hi : Z) : list Z := map (fun i => (lo + Z.of_nat i)%Z) (seq 0 (Z.to_nat (hi - lo))).

(** dRdEe_Crystal, /repo/src/Direct_Detection_Crystal.cpp:30-66. The warning is dropped. *)
Definition dRdEe_Crystal (Integrate : integrator) (Ee : xr) (DM : DM_interface) (D : Distr_interface) (c : Crystal) : res xr :=
  if xlt (E_max c) Ee then Ok #0
  else
    let N_T := #1.0 / M_cell c in
    let* integral := sum_res (Crystal_term Integrate Ee DM D c) (Zrange 0 (N_q c)) in
    Ok (N_T * integral).

(** The loop of R_Q_Crystal, /repo/src/Direct_Detection_Crystal.cpp:75-81: stops at the first energy above Emax. *)
Fixpoint R_Q_loop (Integrate : integrator) (Emax : xr) (DM : DM_interface) (D : Distr_interface) (c : Crystal) (sum : xr) (l : list Z) : res xr :=
  match l with
  | [] => Ok sum
  | Ei :: t =>
      let E := Fin (IZR (Ei + 1)) * dE c in
      if xlt Emax E then Ok sum
      else let* r := dRdEe_Crystal Integrate E DM D c in R_Q_loop Integrate Emax DM D c (sum + dE c * r) t
  end.

(** R_Q_Crystal, /repo/src/Direct_Detection_Crystal.cpp:68-83. The start index is a double converted to int. Simplified: overflow of Q + 1
    at the largest int is not modelled. *)
Definition R_Q_Crystal (Integrate : integrator) (Q : Z) (DM : DM_interface) (D : Distr_interface) (c : Crystal) : res xr :=
  let Emin := Minimum_Electron_Energy Q c in
  let Emax := Minimum_Electron_Energy (Q + 1) c in
  let* start := to_int (Emin / dE c) in
  R_Q_loop Integrate Emax DM D c #0.0 (Zrange start (N_E c)).

(** The loop of R_total_Crystal, /repo/src/Direct_Detection_Crystal.cpp:91-95. *)
Fixpoint R_total_loop (Integrate : integrator) (DM : DM_interface) (D : Distr_interface) (c : Crystal) (sum : xr) (l : list Z) : res xr :=
  match l with
  | [] => Ok sum
  | Ei :: t =>
      let E := Fin (IZR (Ei + 1)) * dE c in
      let* r := dRdEe_Crystal Integrate E DM D c in R_total_loop Integrate DM D c (sum + dE c * r) t
  end.

(** R_total_Crystal, /repo/src/Direct_Detection_Crystal.cpp:85-97. *)
Definition R_total_Crystal (Integrate : integrator) (Q : Z) (DM : DM_interface) (D : Distr_interface) (c : Crystal) : res xr :=
  let E_min := Minimum_Electron_Energy Q c in
  let* start := to_int (E_min / dE c) in
  R_total_loop Integrate DM D c #0.0 (Zrange start (N_E c)).
