(** Dark matter particles with spin-independent and spin-dependent interactions.
    Source: /repo/src/DM_Particle.cpp, /repo/src/DM_Particle_Standard.cpp. *)
From Coq Require Import Reals List ZArith String.
From Verif Require Import Base Nucleus_Model.
Import ListNotations.
Local Open Scope xr_scope.

(** Which of the two classes DM_Particle_SI / DM_Particle_SD an object belongs to
    (/repo/include/obscura/DM_Particle_Standard.hpp:74,117). *)
Inductive interaction : Type := SI | SD.

(** Data members of DM_Particle (/repo/include/obscura/DM_Particle.hpp:18,39-40),
    DM_Particle_Standard (/repo/include/obscura/DM_Particle_Standard.hpp:18-29) and
    DM_Particle_SI (77-80). Simplified: [spin] and [using_cross_section] are
    dropped (constant, no effect on any modelled function); [qRef] is the constant
    aEM * mElectron assigned by every SI constructor. *)
Record particle : Type := mkParticle {
  kind : interaction;
  low_mass : bool;
  mass : xr;
  fractional_density : xr;
  use_eta : bool;
  fp : xr;
  fn : xr;
  prefactor : xr;
  fixed : bool;
  fp_relative : xr;
  fn_relative : xr;
  sigma_electron : xr;
  FF_DM : string;
  mMediator : xr
}.

(** Assignments to the members mass, fp, fn, ... of one object
    (e.g. /repo/src/DM_Particle_Standard.cpp:35,57,132-136,196). *)
Definition with_mass (m : xr) (s : particle) : particle :=
  mkParticle (kind s) (low_mass s) m (fractional_density s) (use_eta s) (fp s) (fn s) (prefactor s)
    (fixed s) (fp_relative s) (fn_relative s) (sigma_electron s) (FF_DM s) (mMediator s).
Definition with_fp (x : xr) (s : particle) : particle :=
  mkParticle (kind s) (low_mass s) (mass s) (fractional_density s) (use_eta s) x (fn s) (prefactor s)
    (fixed s) (fp_relative s) (fn_relative s) (sigma_electron s) (FF_DM s) (mMediator s).
Definition with_fn (x : xr) (s : particle) : particle :=
  mkParticle (kind s) (low_mass s) (mass s) (fractional_density s) (use_eta s) (fp s) x (prefactor s)
    (fixed s) (fp_relative s) (fn_relative s) (sigma_electron s) (FF_DM s) (mMediator s).
Definition with_relation (b : bool) (p n : xr) (s : particle) : particle :=
  mkParticle (kind s) (low_mass s) (mass s) (fractional_density s) (use_eta s) (fp s) (fn s) (prefactor s)
    b p n (sigma_electron s) (FF_DM s) (mMediator s).
Definition with_sigma_electron (x : xr) (s : particle) : particle :=
  mkParticle (kind s) (low_mass s) (mass s) (fractional_density s) (use_eta s) (fp s) (fn s) (prefactor s)
    (fixed s) (fp_relative s) (fn_relative s) x (FF_DM s) (mMediator s).
Definition with_low_mass (b : bool) (s : particle) : particle :=
  mkParticle (kind s) b (mass s) (fractional_density s) (use_eta s) (fp s) (fn s) (prefactor s)
    (fixed s) (fp_relative s) (fn_relative s) (sigma_electron s) (FF_DM s) (mMediator s).
Definition with_density (x : xr) (s : particle) : particle :=
  mkParticle (kind s) (low_mass s) (mass s) x (use_eta s) (fp s) (fn s) (prefactor s)
    (fixed s) (fp_relative s) (fn_relative s) (sigma_electron s) (FF_DM s) (mMediator s).
Definition with_FF (x : string) (s : particle) : particle :=
  mkParticle (kind s) (low_mass s) (mass s) (fractional_density s) (use_eta s) (fp s) (fn s) (prefactor s)
    (fixed s) (fp_relative s) (fn_relative s) (sigma_electron s) x (mMediator s).
Definition with_mMediator (x : xr) (s : particle) : particle :=
  mkParticle (kind s) (low_mass s) (mass s) (fractional_density s) (use_eta s) (fp s) (fn s) (prefactor s)
    (fixed s) (fp_relative s) (fn_relative s) (sigma_electron s) (FF_DM s) x.

(** DM_Particle_Standard::Sigma_Proton, /repo/src/DM_Particle_Standard.cpp:199-202. *)
Definition Sigma_Proton (s : particle) : xr :=
  prefactor s * fp s * fp s * Reduced_Mass (mass s) (Fin mProton) * Reduced_Mass (mass s) (Fin mProton) / Fin PI.

(** DM_Particle_Standard::Sigma_Neutron, /repo/src/DM_Particle_Standard.cpp:204-207
    (the proton mass is used for neutrons, too). *)
Definition Sigma_Neutron (s : particle) : xr :=
  prefactor s * fn s * fn s * Reduced_Mass (mass s) (Fin mProton) * Reduced_Mass (mass s) (Fin mProton) / Fin PI.

(** DM_Particle_Standard::Sigma_Electron, /repo/src/DM_Particle_Standard.cpp:209-212. *)
Definition Sigma_Electron (s : particle) : xr := sigma_electron s.

(** sqrt(M_PI * sigma / prefactor) / Reduced_Mass(mass, mProton),
    /repo/src/DM_Particle_Standard.cpp:57 and 73. *)
Definition coupling_of_sigma (s : particle) (sigma : xr) : xr :=
  xsqrt (Fin PI * sigma / prefactor s) / Reduced_Mass (mass s) (Fin mProton).

(** DM_Particle_Standard::Set_Sigma_Proton, /repo/src/DM_Particle_Standard.cpp:55-69
    (the warning text is not modelled). *)
Definition Set_Sigma_Proton (sigma : xr) (s0 : particle) : particle :=
  let s := with_fp (coupling_of_sigma s0 sigma) s0 in
  if fixed s then
    if xeq (fp_relative s) #0 then with_fp #0 s
    else with_fn (fn_relative s / fp_relative s * fp s) s
  else s.

(** DM_Particle_Standard::Set_Sigma_Neutron, /repo/src/DM_Particle_Standard.cpp:71-85. *)
Definition Set_Sigma_Neutron (sigma : xr) (s0 : particle) : particle :=
  let s := with_fn (coupling_of_sigma s0 sigma) s0 in
  if fixed s then
    if xeq (fn_relative s) #0 then with_fn #0 s
    else with_fp (fp_relative s / fn_relative s * fn s) s
  else s.

(** DM_Particle_Standard::Set_Sigma_Electron, /repo/src/DM_Particle_Standard.cpp:87-90. *)
Definition Set_Sigma_Electron (sigma : xr) (s : particle) : particle := with_sigma_electron sigma s.

(** DM_Particle_Standard::Set_Mass, /repo/src/DM_Particle_Standard.cpp:28-53. *)
Definition Set_Mass (mDM : xr) (s : particle) : particle :=
  if fixed s then
    if xne (fp_relative s) #0 then
      let sigma_p := Sigma_Proton s in
      Set_Sigma_Proton sigma_p (with_mass mDM s)
    else
      let sigma_n := Sigma_Neutron s in
      Set_Sigma_Neutron sigma_n (with_mass mDM s)
  else
    let sigma_p := Sigma_Proton s in
    let sigma_n := Sigma_Neutron s in
    Set_Sigma_Neutron sigma_n (Set_Sigma_Proton sigma_p (with_mass mDM s)).

(** DM_Particle_Standard::Get_Interaction_Parameter, /repo/src/DM_Particle_Standard.cpp:93-109. *)
Definition Get_Interaction_Parameter (target : string) (s : particle) : res xr :=
  if (target =? "Nuclei")%string then
    Ok (if xlt #0 (fp_relative s) then Sigma_Proton s else Sigma_Neutron s)
  else if (target =? "Electrons")%string then Ok (Sigma_Electron s)
  else Exit.

(** DM_Particle_Standard::Set_Interaction_Parameter, /repo/src/DM_Particle_Standard.cpp:111-127. *)
Definition Set_Interaction_Parameter (par : xr) (target : string) (s : particle) : res particle :=
  if (target =? "Nuclei")%string then
    Ok (if xlt #0 (fp_relative s) then Set_Sigma_Proton par s else Set_Sigma_Neutron par s)
  else if (target =? "Electrons")%string then Ok (Set_Sigma_Electron par s)
  else Exit.

(** DM_Particle_Standard::Fix_Coupling_Ratio, /repo/src/DM_Particle_Standard.cpp:129-155. *)
Definition Fix_Coupling_Ratio (fp_rel fn_rel : xr) (s0 : particle) : res particle :=
  let tot := fp_rel + fn_rel in
  let s := with_relation true (fp_rel / tot) (fn_rel / tot) s0 in
  if xeq fp_rel #0 then Ok (with_fp #0 (with_fn (fp s) s))
  else if xeq fn_rel #0 then Ok (with_fn #0 (with_fp (fn s) s))
  else if xne (fp s) #0 then Ok (with_fn (fn_relative s / fp_relative s * fp s) s)
  else if xne (fn s) #0 then Ok (with_fp (fp_relative s / fn_relative s * fp s) s)
  else Exit.

(** DM_Particle_Standard::Fix_fn_over_fp, /repo/src/DM_Particle_Standard.cpp:157-172. *)
Definition Fix_fn_over_fp (ratio : xr) (s0 : particle) : res particle :=
  let s := with_relation true (#1 / (#1 + ratio)) (ratio / (#1 + ratio)) s0 in
  if xne (fp s) #0 then Ok (with_fn (fn_relative s / fp_relative s * fp s) s)
  else if xne (fn s) #0 then Ok (with_fp (fp_relative s / fn_relative s * fp s) s)
  else Exit.

(** DM_Particle_Standard::Fix_fp_over_fn, /repo/src/DM_Particle_Standard.cpp:174-191. *)
Definition Fix_fp_over_fn (ratio : xr) (s0 : particle) : res particle :=
  let s := with_relation true ratio #1 s0 in
  if xeq ratio #0 then Ok (with_fp #0 s)
  else if xne (fp s) #0 then Ok (with_fn (fn_relative s / fp_relative s * fp s) s)
  else if xne (fn s) #0 then Ok (with_fp (fp_relative s / fn_relative s * fp s) s)
  else Exit.

(** DM_Particle_Standard::Unfix_Coupling_Ratios, /repo/src/DM_Particle_Standard.cpp:193-196. *)
Definition Unfix_Coupling_Ratios (s : particle) : particle :=
  with_relation false (fp_relative s) (fn_relative s) s.

(** DM_Particle_SI::Set_FormFactor_DM, /repo/src/DM_Particle_Standard.cpp:255-266. *)
Definition Set_FormFactor_DM (ff : string) (mMed : xr) (s : particle) : res particle :=
  if ((ff =? "Contact") || (ff =? "Electric-Dipole") || (ff =? "Long-Range") || (ff =? "General"))%string%bool
  then
    let s1 := with_FF ff s in
    if ((FF_DM s1 =? "General")%string && xlt #0 mMed)%bool then Ok (with_mMediator mMed s1) else Ok s1
  else Exit.

(** DM_Particle_SI::Set_Mediator_Mass, /repo/src/DM_Particle_Standard.cpp:268-271. *)
Definition Set_Mediator_Mass (m : xr) (s : particle) : particle := with_mMediator m s.

(** Constructors: DM_Particle(mDM), /repo/src/DM_Particle.cpp:21-24;
    DM_Particle_Standard(mDM, pre), /repo/src/DM_Particle_Standard.cpp:21-26;
    DM_Particle_SI(mDM, sigmaP), 248-253; DM_Particle_SD(mDM, sigmaP), 515-519.
    Simplified: fp and fn are indeterminate before the constructor body runs (modelled as NaN);
    the body assigns both before anything reads them. The SD class has no form factor members. *)
Definition Standard_ctor (k : interaction) (mDM : xr) : particle :=
  mkParticle k false mDM #1 true NaN NaN (match k with SI => #1 | SD => #3 end)
    true #0.5 #0.5 (Fin (1 / 10 ^ 40 * cm * cm)) "Contact" #0.
Definition Particle_ctor (k : interaction) (mDM sigmaP : xr) : particle :=
  Set_Sigma_Proton sigmaP (Standard_ctor k mDM).

(** Default constructors, /repo/src/DM_Particle_Standard.cpp:234-246 and 503-513. *)
Definition Particle_default (k : interaction) : particle :=
  Particle_ctor k (Fin (10 * GeV)) (Fin (1 / 10 ^ 40 * cm * cm)).

(** The public mutators of DM_Particle, DM_Particle_Standard and DM_Particle_SI
    (/repo/include/obscura/DM_Particle.hpp:46-60, /repo/include/obscura/DM_Particle_Standard.hpp:36-52,88-89).
    Simplified: direct assignment to the public members mass, spin, fractional_density is left out,
    and on SD objects the two form factor setters (which that class lacks) are ignored. *)
Inductive pop : Type :=
| PSet_Mass (m : xr)
| PSet_Sigma_Proton (x : xr)
| PSet_Sigma_Neutron (x : xr)
| PSet_Sigma_Electron (x : xr)
| PSet_Interaction (x : xr) (target : string)
| PFix_Ratio (p n : xr)
| PFix_fn_over_fp (r : xr)
| PFix_fp_over_fn (r : xr)
| PUnfix
| PLow_Mass (b : bool)
| PDensity (f : xr)
| PForm_Factor (ff : string) (m : xr)
| PMediator (m : xr).

(** One public call (same sources as [pop]); DM_Particle::Set_Low_Mass_Mode and
    Set_Fractional_Density are /repo/src/DM_Particle.cpp:45-53. *)
Definition pstep (s : particle) (o : pop) : res particle :=
  match o with
  | PSet_Mass m => Ok (Set_Mass m s)
  | PSet_Sigma_Proton x => Ok (Set_Sigma_Proton x s)
  | PSet_Sigma_Neutron x => Ok (Set_Sigma_Neutron x s)
  | PSet_Sigma_Electron x => Ok (Set_Sigma_Electron x s)
  | PSet_Interaction x t => Set_Interaction_Parameter x t s
  | PFix_Ratio p n => Fix_Coupling_Ratio p n s
  | PFix_fn_over_fp r => Fix_fn_over_fp r s
  | PFix_fp_over_fn r => Fix_fp_over_fn r s
  | PUnfix => Ok (Unfix_Coupling_Ratios s)
  | PLow_Mass b => Ok (with_low_mass b s)
  | PDensity f => Ok (with_density f s)
  | PForm_Factor ff m => match kind s with SI => Set_FormFactor_DM ff m s | SD => Ok s end
  | PMediator m => match kind s with SI => Ok (Set_Mediator_Mass m s) | SD => Ok s end
  end.

(** A history of public calls on one object (user code; no line in /repo). *)
Definition prun (s : particle) (ops : list pop) : res particle :=
  fold_left (fun r o => let* x := r in pstep x o) ops (Ok s).
