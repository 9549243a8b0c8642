(** Differential and total cross sections and scattering angles.
    Source: /repo/src/DM_Particle.cpp, /repo/src/DM_Particle_Standard.cpp. *)
From Coq Require Import Reals List ZArith String.
From Verif Require Import Base Nucleus_Model Particle_Model.
Import ListNotations.
Local Open Scope xr_scope.

(** The reference momentum qRef = aEM * mElectron assigned in every SI constructor,
    /repo/src/DM_Particle_Standard.cpp:237,244,251. *)
Definition qRef : xr := Fin aEM * Fin mElectron.

(** DM_Particle_SI::FormFactor2_DM, /repo/src/DM_Particle_Standard.cpp:274-292. *)
Definition FormFactor2_DM (s : particle) (q : xr) : res xr :=
  let* FF :=
    (if (FF_DM s =? "Contact")%string then Ok #1
     else if (FF_DM s =? "General")%string then
       Ok ((qRef * qRef + mMediator s * mMediator s) / (q * q + mMediator s * mMediator s))
     else if (FF_DM s =? "Long-Range")%string then Ok (qRef * qRef / q / q)
     else if (FF_DM s =? "Electric-Dipole")%string then Ok (qRef / q)
     else Exit) in
  Ok (FF * FF).

(** fp * Z + fn * (A - Z), /repo/src/DM_Particle_Standard.cpp:297,337. Z and A are unsigned int, so the
    difference wraps. *)
Definition SI_coupling (s : particle) (t : Isotope) : xr :=
  fp s * Fin (IZR (iZ t)) + fn s * Fin (IZR (u32 (iA t - iZ t))).

(** fp * sp + fn * sn, /repo/src/DM_Particle_Standard.cpp:524,541. *)
Definition SD_coupling (s : particle) (t : Isotope) : xr := fp s * isp t + fn s * isn t.

(** dSigma_dq2_Nucleus: DM_Particle_SI, /repo/src/DM_Particle_Standard.cpp:294-298;
    DM_Particle_SD, 522-525. The unused argument [param] is dropped here and below. *)
Definition dSigma_dq2_Nucleus (s : particle) (q : xr) (t : Isotope) (vDM : xr) : res xr :=
  match kind s with
  | SI =>
      let nuclear_form_factor := if low_mass s then #1 else Helm_Form_Factor t q in
      let* F2 := FormFactor2_DM s q in
      Ok (#1 / #4 / Fin PI / vDM / vDM * xpow (SI_coupling s t) 2 * F2 * nuclear_form_factor * nuclear_form_factor)
  | SD =>
      Ok (if xeq (ispin t) #0 then #0
          else #1 / Fin PI / vDM / vDM * (ispin t + #1) / ispin t * xpow (SD_coupling s t) 2)
  end.

(** dSigma_dq2_Electron: DM_Particle_SI, /repo/src/DM_Particle_Standard.cpp:300-303; DM_Particle_SD, 527-530. *)
Definition dSigma_dq2_Electron (s : particle) (q vDM : xr) : res xr :=
  let d := sigma_electron s / xpow (#2 * Reduced_Mass (mass s) (Fin mElectron) * vDM) 2 in
  match kind s with
  | SI => let* F2 := FormFactor2_DM s q in Ok (d * F2)
  | SD => Ok d
  end.

(** d2Sigma_dq2_dEe_Ionization: DM_Particle_SI, /repo/src/DM_Particle_Standard.cpp:305-308 (DM_Particle default 0,
    /repo/include/obscura/DM_Particle.hpp:69). Simplified: the tabulated value
    shell.Ionization_Form_Factor(q, Ee) is an argument. *)
Definition d2Sigma_dq2_dEe_Ionization (s : particle) (q Ee vDM form_factor : xr) : res xr :=
  match kind s with
  | SI => let* d := dSigma_dq2_Electron s q vDM in Ok (#1 / #4 / Ee * d * form_factor)
  | SD => Ok #0
  end.

(** d2Sigma_dq2_dEe_Crystal: DM_Particle_SI, /repo/src/DM_Particle_Standard.cpp:310-313 (DM_Particle default 0,
    /repo/include/obscura/DM_Particle.hpp:70). Simplified: the tabulated value
    crystal.Crystal_Form_Factor(q, Ee) is an argument. *)
Definition d2Sigma_dq2_dEe_Crystal (s : particle) (q Ee vDM form_factor : xr) : res xr :=
  match kind s with
  | SI => let* d := dSigma_dq2_Electron s q vDM in
          Ok (#2 * Fin aEM * Fin mElectron * Fin mElectron / q / q / q * d * form_factor)
  | SD => Ok #0
  end.

(** DM_Particle::dSigma_dER_Nucleus, /repo/src/DM_Particle.cpp:100-104. *)
Definition dSigma_dER_Nucleus (s : particle) (ER : xr) (t : Isotope) (vDM : xr) : res xr :=
  let q := xsqrt (#2 * imass t * ER) in
  let* d := dSigma_dq2_Nucleus s q t vDM in Ok (#2 * imass t * d).

(** DM_Particle::d2Sigma_dER_dEe_Migdal, /repo/src/DM_Particle.cpp:106-111. Simplified: the tabulated ionization
    form factor of the shell is an argument, a function of (qe, Ee). *)
Definition d2Sigma_dER_dEe_Migdal (s : particle) (ER Ee vDM : xr) (t : Isotope) (form_factor : xr -> xr -> xr) : res xr :=
  let q := xsqrt (#2 * imass t * ER) in
  let qe := Fin mElectron / imass t * q in
  let* d := dSigma_dER_Nucleus s ER t vDM in
  Ok (#1 / #4 / Ee * d * form_factor qe Ee).

(** q2max = 4.0 * pow(Reduced_Mass(mass, target.mass) * vDM, 2.0),
    /repo/src/DM_Particle.cpp:64,76 and /repo/src/DM_Particle_Standard.cpp:340. *)
Definition q2max_of (s : particle) (mTarget vDM : xr) : xr :=
  #4 * xpow (Reduced_Mass (mass s) mTarget * vDM) 2.

(** DM_Particle::Sigma_Total_Nucleus_Base and Sigma_Total_Electron_Base, /repo/src/DM_Particle.cpp:60-82.
    [Integrate] is libphysica::Integrate (external). *)
Definition Sigma_Total_Nucleus_Base (Integrate : (xr -> res xr) -> xr -> xr -> res xr)
    (s : particle) (t : Isotope) (vDM : xr) : res xr :=
  Integrate (fun q2 => dSigma_dq2_Nucleus s (xsqrt q2) t vDM) #0 (q2max_of s (imass t) vDM).
Definition Sigma_Total_Electron_Base (Integrate : (xr -> res xr) -> xr -> xr -> res xr)
    (s : particle) (vDM : xr) : res xr :=
  Integrate (fun q2 => dSigma_dq2_Electron s (xsqrt q2) vDM) #0 (q2max_of s (Fin mElectron) vDM).

(** Is_Sigma_Total_V_Dependent: DM_Particle_SI, /repo/src/DM_Particle_Standard.cpp:317-323; DM_Particle_SD, 533-536. *)
Definition Is_Sigma_Total_V_Dependent (s : particle) : bool :=
  match kind s with
  | SI => (negb (low_mass s) || (FF_DM s =? "General")%string)%bool
  | SD => false
  end.

(** The factor pow(qRef^2 + m^2, 2) / m / m / (m^2 + q2max) of the general mediator,
    /repo/src/DM_Particle_Standard.cpp:341 and 361. *)
Definition mediator_factor (s : particle) (q2max : xr) : xr :=
  xpow (qRef * qRef + mMediator s * mMediator s) 2 / mMediator s / mMediator s / (mMediator s * mMediator s + q2max).

(** FF_DM != "Contact" && FF_DM != "General" (the infrared divergent cases),
    /repo/src/DM_Particle_Standard.cpp:328,350,370,389,406,425,442,466. *)
Definition IR_divergent (s : particle) : bool :=
  (negb (FF_DM s =? "Contact")%string && negb (FF_DM s =? "General")%string)%bool.

(** Sigma_Total_Nucleus: DM_Particle_SI, /repo/src/DM_Particle_Standard.cpp:325-345; DM_Particle_SD, 538-541. *)
Definition Sigma_Total_Nucleus (Integrate : (xr -> res xr) -> xr -> xr -> res xr)
    (s : particle) (t : Isotope) (vDM : xr) : res xr :=
  match kind s with
  | SI =>
      if IR_divergent s then Exit
      else if negb (low_mass s) then Sigma_Total_Nucleus_Base Integrate s t vDM
      else
        let sigmatot := xpow (Reduced_Mass (mass s) (imass t)) 2 / Fin PI * xpow (SI_coupling s t) 2 in
        if (FF_DM s =? "General")%string then Ok (sigmatot * mediator_factor s (q2max_of s (imass t) vDM))
        else Ok sigmatot
  | SD =>
      Ok (if xne (ispin t) #0
          then #4 * xpow (Reduced_Mass (mass s) (imass t)) 2 / Fin PI * (ispin t + #1) / ispin t * xpow (SD_coupling s t) 2
          else #0)
  end.

(** Sigma_Total_Electron: DM_Particle_SI, /repo/src/DM_Particle_Standard.cpp:347-365; DM_Particle_SD, 543-546. *)
Definition Sigma_Total_Electron (s : particle) (vDM : xr) : res xr :=
  match kind s with
  | SI =>
      if IR_divergent s then Exit
      else
        let sigmatot := Sigma_Electron s in
        if (FF_DM s =? "General")%string then Ok (sigmatot * mediator_factor s (q2max_of s (Fin mElectron) vDM))
        else Ok sigmatot
  | SD => Ok (Sigma_Electron s)
  end.

(** Generic angular density, DM_Particle::PDF_Scattering_Angle_Nucleus_Base and _Electron_Base,
    /repo/src/DM_Particle.cpp:128-148. [dSigma] is the particle's dSigma_dq2 as a function of q and
    [SigmaTot] the result of its total cross section. *)
Definition PDF_Angle_Base (s : particle) (mTarget vDM : xr) (SigmaTot : res xr) (dSigma : xr -> res xr) (cos_alpha : xr) : res xr :=
  let q := Reduced_Mass mTarget (mass s) * vDM * xsqrt (#2 * (#1 - cos_alpha)) in
  let q2max := #4 * Reduced_Mass mTarget (mass s) * Reduced_Mass mTarget (mass s) * vDM * vDM in
  let* st := SigmaTot in
  if xne st #0 then let* d := dSigma q in Ok (q2max / #2 / st * d) else Ok #0.

(** Generic cumulative function, DM_Particle::CDF_Scattering_Angle_Nucleus_Base and _Electron_Base,
    /repo/src/DM_Particle.cpp:150-176. *)
Definition CDF_Angle_Base (Integrate : (xr -> res xr) -> xr -> xr -> res xr)
    (s : particle) (mTarget vDM : xr) (SigmaTot : res xr) (dSigma : xr -> res xr) (cos_alpha : xr) : res xr :=
  if xle cos_alpha (Fin (-1)) then Ok #0
  else if xle #1 cos_alpha then Ok #1
  else Integrate (PDF_Angle_Base s mTarget vDM SigmaTot dSigma) (Fin (-1)) cos_alpha.

(** Closed angular density of a general mediator, /repo/src/DM_Particle_Standard.cpp:382-385 and 398-401. *)
Definition PDF_Angle_General (s : particle) (q2max cos_alpha : xr) : xr :=
  let m2 := mMediator s * mMediator s in
  #2 * m2 * (m2 + q2max) / xpow (#2 * m2 + q2max * (#1 - cos_alpha)) 2.

(** Closed cumulative function of a general mediator, /repo/src/DM_Particle_Standard.cpp:417-420 and 434-437. *)
Definition CDF_Angle_General (s : particle) (q2max cos_alpha : xr) : xr :=
  let m2 := mMediator s * mMediator s in
  (#1 + cos_alpha) * m2 / (#2 * m2 + q2max * (#1 - cos_alpha)).

(** Closed sampling formula of a general mediator, /repo/src/DM_Particle_Standard.cpp:456-460 and 474-478. *)
Definition Sample_Angle_General (s : particle) (q2max xi : xr) : xr :=
  let m2 := mMediator s * mMediator s in
  (m2 * (#2 * xi - #1) + q2max * xi) / (m2 + q2max * xi).

(** PDF_Scattering_Angle_Nucleus: DM_Particle_SI, /repo/src/DM_Particle_Standard.cpp:368-386; DM_Particle_SD, 549-555. *)
Definition PDF_Scattering_Angle_Nucleus (Integrate : (xr -> res xr) -> xr -> xr -> res xr)
    (s : particle) (cos_alpha : xr) (t : Isotope) (vDM : xr) : res xr :=
  let base := PDF_Angle_Base s (imass t) vDM (Sigma_Total_Nucleus Integrate s t vDM)
                (fun q => dSigma_dq2_Nucleus s q t vDM) cos_alpha in
  match kind s with
  | SI =>
      if IR_divergent s then Exit
      else if negb (low_mass s) then base
      else if (FF_DM s =? "Contact")%string then Ok #0.5
      else Ok (PDF_Angle_General s (q2max_of s (imass t) vDM) cos_alpha)
  | SD => if negb (low_mass s) then base else Ok #0.5
  end.

(** PDF_Scattering_Angle_Electron: DM_Particle_SI, /repo/src/DM_Particle_Standard.cpp:387-402; DM_Particle_SD, 557-560. *)
Definition PDF_Scattering_Angle_Electron (s : particle) (cos_alpha vDM : xr) : res xr :=
  match kind s with
  | SI =>
      if IR_divergent s then Exit
      else if (FF_DM s =? "Contact")%string then Ok #0.5
      else Ok (PDF_Angle_General s (q2max_of s (Fin mElectron) vDM) cos_alpha)
  | SD => Ok #0.5
  end.

(** CDF_Scattering_Angle_Nucleus: DM_Particle_SI, /repo/src/DM_Particle_Standard.cpp:404-421; DM_Particle_SD, 562-568. *)
Definition CDF_Scattering_Angle_Nucleus (Integrate : (xr -> res xr) -> xr -> xr -> res xr)
    (s : particle) (cos_alpha : xr) (t : Isotope) (vDM : xr) : res xr :=
  let base := CDF_Angle_Base Integrate s (imass t) vDM (Sigma_Total_Nucleus Integrate s t vDM)
                (fun q => dSigma_dq2_Nucleus s q t vDM) cos_alpha in
  match kind s with
  | SI =>
      if IR_divergent s then Exit
      else if negb (low_mass s) then base
      else if (FF_DM s =? "Contact")%string then Ok ((#1 + cos_alpha) / #2)
      else Ok (CDF_Angle_General s (q2max_of s (imass t) vDM) cos_alpha)
  | SD => if negb (low_mass s) then base else Ok ((#1 + cos_alpha) / #2)
  end.

(** CDF_Scattering_Angle_Electron: DM_Particle_SI, /repo/src/DM_Particle_Standard.cpp:423-438; DM_Particle_SD, 569-572. *)
Definition CDF_Scattering_Angle_Electron (s : particle) (cos_alpha vDM : xr) : res xr :=
  match kind s with
  | SI =>
      if IR_divergent s then Exit
      else if (FF_DM s =? "Contact")%string then Ok ((#1 + cos_alpha) / #2)
      else Ok (CDF_Angle_General s (q2max_of s (Fin mElectron) vDM) cos_alpha)
  | SD => Ok ((#1 + cos_alpha) / #2)
  end.

(** Sample_Scattering_Angle_Nucleus_Base: the function whose root is searched on [-1, 1],
    /repo/src/DM_Particle.cpp:178-186 (and 188-196 for electrons). The root finder itself is external. *)
Definition Sample_Base_target (cdf : xr -> res xr) (xi cosa : xr) : res xr :=
  let* F := cdf cosa in Ok (xi - F).

(** Sample_Scattering_Angle_Nucleus: DM_Particle_SI, /repo/src/DM_Particle_Standard.cpp:440-461; DM_Particle_SD, 573-582.
    [xi] is the uniform random number; [Find_Root] is libphysica::Find_Root (external). *)
Definition Sample_Scattering_Angle_Nucleus (Integrate : (xr -> res xr) -> xr -> xr -> res xr)
    (Find_Root : (xr -> res xr) -> xr -> xr -> res xr)
    (s : particle) (xi : xr) (t : Isotope) (vDM : xr) : res xr :=
  let base := Find_Root (Sample_Base_target (fun c => CDF_Scattering_Angle_Nucleus Integrate s c t vDM) xi) (Fin (-1)) #1 in
  match kind s with
  | SI =>
      if IR_divergent s then Exit
      else if negb (low_mass s) then base
      else if (FF_DM s =? "Contact")%string then Ok (#2 * xi - #1)
      else Ok (Sample_Angle_General s (q2max_of s (imass t) vDM) xi)
  | SD => if negb (low_mass s) then base else Ok (#2 * xi - #1)
  end.

(** Sample_Scattering_Angle_Electron: DM_Particle_SI, /repo/src/DM_Particle_Standard.cpp:463-479; DM_Particle_SD, 583-587. *)
Definition Sample_Scattering_Angle_Electron (s : particle) (xi vDM : xr) : res xr :=
  match kind s with
  | SI =>
      if IR_divergent s then Exit
      else if (FF_DM s =? "Contact")%string then Ok (#2 * xi - #1)
      else Ok (Sample_Angle_General s (q2max_of s (Fin mElectron) vDM) xi)
  | SD => Ok (#2 * xi - #1)
  end.
