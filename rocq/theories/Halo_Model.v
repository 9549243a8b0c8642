(** Model of the standard halo model and SHM++.
    Source: /repo/src/DM_Halo_Models.cpp, /repo/include/obscura/DM_Halo_Models.hpp. *)
From Coq Require Import Reals List ZArith String.
From Verif Require Import Base Erf Astronomy_Model Distribution_Model.
Import ListNotations.
Local Open Scope xr_scope.

(** C [erf], [sinh] and libphysica::Erfi, libphysica::StepFunction on double
    (/repo/src/DM_Halo_Models.cpp:80,98,187; StepFunction and Erfi are external). *)
Definition xerf (a : xr) : xr :=
  match a with Fin x => Fin (erf x) | PInf => #1 | NInf => - #1 | NaN => NaN end.
Definition xsinh (a : xr) : xr :=
  match a with Fin x => Fin (sinh x) | PInf => PInf | NInf => NInf | NaN => NaN end.
Definition xerfi (a : xr) : xr :=
  match a with Fin x => Fin (erfi x) | PInf => PInf | NInf => NInf | NaN => NaN end.
Definition StepFunction (a : xr) : xr := if xle #0 a then #1 else #0.

(** Data members of Standard_Halo_Model and its base class, /repo/include/obscura/DM_Halo_Models.hpp:13-17 and
    /repo/include/obscura/DM_Distribution.hpp:17-24. [h_dmin], [h_dmax] are v_domain[0], v_domain[1]. *)
Record SHM := {
  h_name : string; h_rho : xr; h_dmin : xr; h_dmax : xr; h_use_eta : bool;
  h_v0 : xr; h_vesc : xr; h_vobs : xr; h_velobs : vec3; h_N : xr }.

(** Standard_Halo_Model::Normalize_PDF, /repo/src/DM_Halo_Models.cpp:78-81: the value assigned to N_esc. *)
Definition N_esc_of (v0 vesc : xr) : xr :=
  xerf (vesc / v0) - #2 * vesc / v0 / xsqrt (Fin PI) * xexp (- vesc * vesc / v0 / v0).

(** The assignment to N_esc, /repo/src/DM_Halo_Models.cpp:80. *)
Definition Normalize_PDF (s : SHM) : SHM :=
  {| h_name := h_name s; h_rho := h_rho s; h_dmin := h_dmin s; h_dmax := h_dmax s; h_use_eta := h_use_eta s;
     h_v0 := h_v0 s; h_vesc := h_vesc s; h_vobs := h_vobs s; h_velobs := h_velobs s;
     h_N := N_esc_of (h_v0 s) (h_vesc s) |}.

(** Standard_Halo_Model(), /repo/src/DM_Halo_Models.cpp:18-25. *)
Definition SHM_default : SHM :=
  Normalize_PDF {| h_name := "Standard halo model (SHM)"; h_rho := Fin (0.4 * GeV / cm / cm / cm)%R; h_dmin := #0;
     h_dmax := Fin ((544 + 232.58) * km / sec)%R; h_use_eta := true; h_v0 := Fin (220 * km / sec)%R;
     h_vesc := Fin (544 * km / sec)%R;
     h_velobs := vadd (V3 0 (220 * km / sec) 0) (V3 (11.1 * km / sec) (12.2 * km / sec) (7.3 * km / sec));
     h_vobs := Fin (vnorm (vadd (V3 0 (220 * km / sec) 0) (V3 (11.1 * km / sec) (12.2 * km / sec) (7.3 * km / sec))));
     h_N := NaN |}.

(** Standard_Halo_Model(rho, v0, vobs, vesc), /repo/src/DM_Halo_Models.cpp:27-33. Here and below the arguments of
    constructors and setters are finite numbers. *)
Definition SHM_of_speed (rho v0 vobs vesc : R) : SHM :=
  Normalize_PDF {| h_name := "Standard halo model (SHM)"; h_rho := Fin rho; h_dmin := #0; h_dmax := Fin vesc + Fin vobs;
     h_use_eta := true; h_v0 := Fin v0; h_vesc := Fin vesc; h_vobs := Fin vobs; h_velobs := V3 0 vobs 0; h_N := NaN |}.

(** Standard_Halo_Model(rho, v0, vel_obs, vesc), /repo/src/DM_Halo_Models.cpp:35-41. *)
Definition SHM_of_velocity (rho v0 : R) (vel_obs : vec3) (vesc : R) : SHM :=
  Normalize_PDF {| h_name := "Standard halo model"; h_rho := Fin rho; h_dmin := #0;
     h_dmax := Fin vesc + Fin (vnorm vel_obs);
     h_use_eta := true; h_v0 := Fin v0; h_vesc := Fin vesc; h_vobs := Fin (vnorm vel_obs); h_velobs := vel_obs; h_N := NaN |}.

(** The assignments of Set_Speed_Dispersion, Set_Escape_Velocity and Set_Observer_Velocity to the data members,
    /repo/src/DM_Halo_Models.cpp:46, 51-53 and 58-61 (also 66-69), without the renormalisation. *)
Definition put_v0 (s : SHM) (v0 : R) : SHM :=
  {| h_name := h_name s; h_rho := h_rho s; h_dmin := h_dmin s; h_dmax := h_dmax s; h_use_eta := h_use_eta s;
     h_v0 := Fin v0; h_vesc := h_vesc s; h_vobs := h_vobs s; h_velobs := h_velobs s; h_N := h_N s |}.
Definition put_vesc (s : SHM) (vesc : R) : SHM :=
  {| h_name := h_name s; h_rho := h_rho s; h_dmin := h_dmin s; h_dmax := Fin vesc + h_vobs s; h_use_eta := h_use_eta s;
     h_v0 := h_v0 s; h_vesc := Fin vesc; h_vobs := h_vobs s; h_velobs := h_velobs s; h_N := h_N s |}.
Definition put_velobs (s : SHM) (vel : vec3) : SHM :=
  {| h_name := h_name s; h_rho := h_rho s; h_dmin := h_dmin s; h_dmax := h_vesc s + Fin (vnorm vel); h_use_eta := h_use_eta s;
     h_v0 := h_v0 s; h_vesc := h_vesc s; h_vobs := Fin (vnorm vel); h_velobs := vel; h_N := h_N s |}.

(** The public setters, /repo/src/DM_Halo_Models.cpp:44-70. *)
Inductive hop : Type :=
| Set_Speed_Dispersion (v0 : R)
| Set_Escape_Velocity (vesc : R)
| Set_Observer_Velocity (vel : vec3)
| Set_Observer_Date (d m y h mi : Z).

(** One setter call on a Standard_Halo_Model, /repo/src/DM_Halo_Models.cpp:44-70. *)
Definition hstep (s : SHM) (o : hop) : res SHM :=
  match o with
  | Set_Speed_Dispersion v0 => Ok (Normalize_PDF (put_v0 s v0))
  | Set_Escape_Velocity vesc => Ok (Normalize_PDF (put_vesc s vesc))
  | Set_Observer_Velocity vel => Ok (put_velobs s vel)
  | Set_Observer_Date d m y h mi =>
      let* vel := Earth_Velocity (Fractional_Days_since_J2000 d m y (IZR h) (IZR mi) 0) in
      Ok (put_velobs s vel)
  end.

(** A history of setter calls (/repo/src/DM_Halo_Models.cpp:44-70). *)
Fixpoint hrun (s : SHM) (l : list hop) : res SHM :=
  match l with
  | [] => Ok s
  | o :: r => let* s' := hstep s o in hrun s' r
  end.

(** Standard_Halo_Model::PDF_Velocity_SHM, /repo/src/DM_Halo_Models.cpp:84-91. *)
Definition PDF_Velocity_SHM (s : SHM) (vel : vec3) : xr :=
  let v := Fin (vnorm vel) in
  if (xlt (h_vesc s) v || xle v (h_dmin s))%bool then #0
  else #1 / h_N s * (#1 / xpow (h_v0 s * xsqrt (Fin PI)) 3) * xexp (- #1 * Fin (vdot vel vel) / h_v0 s / h_v0 s).

(** Standard_Halo_Model::PDF_Speed_SHM, /repo/src/DM_Halo_Models.cpp:93-101. *)
Definition PDF_Speed_SHM (s : SHM) (v : xr) : xr :=
  let v0 := h_v0 s in let vo := h_vobs s in let ve := h_vesc s in
  if (xlt v (h_dmin s) || xlt (h_dmax s) v)%bool then #0
  else if xlt #0 vo then
    v / h_N s / v0 / xsqrt (Fin PI) / vo *
    (#2 * xexp (- (v * v + vo * vo) / v0 / v0) * xsinh (#2 * v * vo / v0 / v0) +
     (xexp (- xpow (v + vo) 2 / v0 / v0) - xexp (- ve * ve / v0 / v0)) * StepFunction (xabs (v + vo) - ve))
  else
    #4 * v * v / h_N s / xsqrt (Fin PI) / v0 / v0 / v0 * xexp (- v * v / v0 / v0) * StepFunction (h_dmax s - v).

(** Standard_Halo_Model::CDF_Speed_SHM, /repo/src/DM_Halo_Models.cpp:103-118. *)
Definition CDF_Speed_SHM (s : SHM) (v : xr) : xr :=
  let v0 := h_v0 s in let vo := h_vobs s in let ve := h_vesc s in let N := h_N s in
  if xle v (h_dmin s) then #0
  else if xle (h_dmax s) v then #1
  else if xlt #0 vo then
    let cdf := #1 / #2 / N * (xerf ((v - vo) / v0) + xerf ((v + vo) / v0) -
                 v0 / vo / xsqrt (Fin PI) * (xexp (- (v - vo) * (v - vo) / v0 / v0) - xexp (- (v + vo) * (v + vo) / v0 / v0))) in
    if xlt (ve - vo) v then
      cdf + #1 / #2 / N * (xerf (ve / v0) - xerf ((v + vo) / v0) - v0 / vo / xsqrt (Fin PI) * xexp (- (v + vo) * (v + vo) / v0 / v0) +
              (v0 * v0 - v * v + (ve - vo) * (ve - vo)) / vo / v0 / xsqrt (Fin PI) * xexp (- ve * ve / v0 / v0))
    else cdf
  else #1 / N * (xerf (v / v0) - #2 * v / xsqrt (Fin PI) / v0 * xexp (- v * v / v0 / v0)).

(** Standard_Halo_Model::PDF_Velocity, /repo/src/DM_Halo_Models.cpp:120-123. *)
Definition PDF_Velocity (s : SHM) (vel : vec3) : xr := PDF_Velocity_SHM s (vadd vel (h_velobs s)).

(** Standard_Halo_Model::Eta_Function_SHM, /repo/src/DM_Halo_Models.cpp:134-151 (and Eta_Function, 153-156). *)
Definition Eta_Function_SHM (s : SHM) (vMin : xr) : xr :=
  let v0 := h_v0 s in let N := h_N s in
  let xMin := vMin / v0 in let xEsc := h_vesc s / v0 in let xE := h_vobs s / v0 in
  let eps := Fin (1 / 10 ^ 8)%R in
  if xlt (xE + xEsc) xMin then #0
  else if xlt (xabs (xMin - xE - xEsc)) eps then #0
  else if xlt xE eps then #2 / N / xsqrt (Fin PI) / v0 * (xexp (- xMin * xMin) - xexp (- xEsc * xEsc))
  else if xlt (xabs (xE - xEsc)) xMin then
    #1 / v0 / #2 / N / xE * (xerf xEsc - xerf (xMin - xE) - #2 / xsqrt (Fin PI) * (xE + xEsc - xMin) * xexp (- xEsc * xEsc))
  else if xlt xE xEsc then
    #1 / v0 / #2 / N / xE * (xerf (xMin + xE) - xerf (xMin - xE) - #4 / xsqrt (Fin PI) * xE * xexp (- xEsc * xEsc))
  else #1 / v0 / xE.

(** Data members of SHM_Plus_Plus, /repo/include/obscura/DM_Halo_Models.hpp:57-72. [p_table] keeps the object
    eta_interpolation_s by its nodes. *)
Record SHMpp := {
  p_base : SHM; p_eta : xr; p_beta : xr; p_sr : xr; p_st : xr; p_sp : xr; p_NS : xr; p_table : list (xr * xr) }.

(** SHM_Plus_Plus::Compute_Sigmas, /repo/src/DM_Halo_Models.cpp:177-182. *)
Definition sigma_r_of (v0 beta : xr) : xr := xsqrt (#3 * v0 * v0 / #2 / (#3 - #2 * beta)).
Definition sigma_theta_of (v0 beta : xr) : xr := xsqrt (#3 * v0 * v0 * (#1 - beta) / #2 / (#3 - #2 * beta)).
Definition Compute_Sigmas (s : SHMpp) : SHMpp :=
  {| p_base := p_base s; p_eta := p_eta s; p_beta := p_beta s; p_sr := sigma_r_of (h_v0 (p_base s)) (p_beta s);
     p_st := sigma_theta_of (h_v0 (p_base s)) (p_beta s); p_sp := sigma_theta_of (h_v0 (p_base s)) (p_beta s);
     p_NS := p_NS s; p_table := p_table s |}.

(** SHM_Plus_Plus::Normalize_PDF, /repo/src/DM_Halo_Models.cpp:184-188. *)
Definition N_S_of (vesc beta sr st : xr) : xr :=
  xerf (vesc / xsqrt #2 / sr) -
  xsqrt ((#1 - beta) / beta) * xexp (- vesc * vesc / #2 / st / st) * xerfi (vesc / xsqrt #2 / sr * xsqrt (beta / (#1 - beta))).
Definition Normalize_PDF_pp (s : SHMpp) : SHMpp :=
  {| p_base := Normalize_PDF (p_base s); p_eta := p_eta s; p_beta := p_beta s; p_sr := p_sr s; p_st := p_st s; p_sp := p_sp s;
     p_NS := N_S_of (h_vesc (p_base s)) (p_beta s) (p_sr s) (p_st s); p_table := p_table s |}.

(** SHM_Plus_Plus::PDF_Velocity_S, /repo/src/DM_Halo_Models.cpp:190-202; v_r, v_theta, v_phi are the components
    0, 2, 1. std::pow(2 pi, 1.5) is written 2 pi sqrt(2 pi). *)
Definition PDF_Velocity_S (s : SHMpp) (vel : vec3) : xr :=
  if xlt (h_vesc (p_base s)) (Fin (vnorm vel)) then #0
  else
    let vr := Fin (vx vel) in let vt := Fin (vz vel) in let vp := Fin (vy vel) in
    #1 / p_NS s / (#2 * Fin PI * xsqrt (#2 * Fin PI)) / p_sr s / p_st s / p_sp s *
    xexp (- vr * vr / #2 / p_sr s / p_sr s - vt * vt / #2 / p_st s / p_st s - vp * vp / #2 / p_sp s / p_sp s).

(** SHM_Plus_Plus::PDF_Speed_S, /repo/src/DM_Halo_Models.cpp:204-213. *)
Definition PDF_Speed_S (Integrate_2D : integrator2) (s : SHMpp) (v : xr) : res xr :=
  if (xle v (h_dmin (p_base s)) || xle (h_dmax (p_base s)) v)%bool then Ok #0
  else Integrate_2D (angular_integrand (fun vel => PDF_Velocity_S s (vadd vel (h_velobs (p_base s)))) v) (- #1) #1 #0 (#2 * Fin PI).

(** SHM_Plus_Plus::CDF_Speed_S, /repo/src/DM_Halo_Models.cpp:215-228. *)
Definition CDF_Speed_S (Integrate : integrator) (Integrate_2D : integrator2) (s : SHMpp) (v : xr) : res xr :=
  if xle v (h_dmin (p_base s)) then Ok #0
  else if xle (h_dmax (p_base s)) v then Ok #1
  else Integrate (PDF_Speed_S Integrate_2D s) (h_dmin (p_base s)) v.

(** SHM_Plus_Plus::Eta_Function_S, /repo/src/DM_Halo_Models.cpp:230-241. *)
Definition Eta_Function_S (Integrate : integrator) (Integrate_2D : integrator2) (s : SHMpp) (vMin : xr) : res xr :=
  if (xlt vMin (h_dmin (p_base s)) || xle (h_dmax (p_base s)) vMin)%bool then Ok #0
  else Integrate (fun v => let* f := PDF_Speed_S Integrate_2D s v in Ok (f / v)) vMin (h_dmax (p_base s)).

(** SHM_Plus_Plus::Interpolate_Eta_Function_S, /repo/src/DM_Halo_Models.cpp:243-250 with v_points = 100. *)
Definition Interpolate_Eta_Function_S (Integrate : integrator) (Integrate_2D : integrator2) (s : SHMpp) : res SHMpp :=
  let* t := map_res (fun v => let* e := Eta_Function_S Integrate Integrate_2D s v in Ok (v, e))
                    (Linear_Space (h_dmin (p_base s)) (h_dmax (p_base s)) 100) in
  Ok {| p_base := p_base s; p_eta := p_eta s; p_beta := p_beta s; p_sr := p_sr s; p_st := p_st s; p_sp := p_sp s;
        p_NS := p_NS s; p_table := t |}.

(** The name assigned in the SHM++ constructors, /repo/src/DM_Halo_Models.cpp:262,271,280. *)
Definition renamed (b : SHM) : SHM :=
  {| h_name := "Refined Standard Halo Model (SHM++)"; h_rho := h_rho b; h_dmin := h_dmin b; h_dmax := h_dmax b;
     h_use_eta := h_use_eta b; h_v0 := h_v0 b; h_vesc := h_vesc b; h_vobs := h_vobs b; h_velobs := h_velobs b; h_N := h_N b |}.

(** The SHM++ constructors, /repo/src/DM_Halo_Models.cpp:259-284: the base constructor followed by the same three
    calls. *)
Definition SHMpp_of_base (Integrate : integrator) (Integrate_2D : integrator2) (b : SHM) (e be : R) : res SHMpp :=
  Interpolate_Eta_Function_S Integrate Integrate_2D (Normalize_PDF_pp (Compute_Sigmas
    {| p_base := renamed b; p_eta := Fin e; p_beta := Fin be; p_sr := NaN; p_st := NaN; p_sp := NaN; p_NS := NaN; p_table := [] |})).
Definition SHMpp_default (Integrate : integrator) (Integrate_2D : integrator2) (e be : R) : res SHMpp :=
  SHMpp_of_base Integrate Integrate_2D
    (SHM_of_speed (0.55 * GeV / cm / cm / cm) (233 * km / sec) (240 * km / sec) (528 * km / sec)) e be.
Definition SHMpp_of_speed Integrate Integrate_2D (rho v0 vobs vesc e be : R) : res SHMpp :=
  SHMpp_of_base Integrate Integrate_2D (SHM_of_speed rho v0 vobs vesc) e be.
Definition SHMpp_of_velocity Integrate Integrate_2D (rho v0 : R) (vel : vec3) (vesc e be : R) : res SHMpp :=
  SHMpp_of_base Integrate Integrate_2D (SHM_of_velocity rho v0 vel vesc) e be.

(** The public setters available on an SHM++ object: those of the base class (Set_Speed_Dispersion overridden) and
    Set_Eta, Set_Beta, /repo/include/obscura/DM_Halo_Models.hpp:34-37,83-86. *)
Inductive ppop : Type :=
| PBase (o : hop)
| Set_Eta (e : R)
| Set_Beta (b : R).

(** Replacing the base part, eta or beta (/repo/src/DM_Halo_Models.cpp:288,295,300). *)
Definition put_base (s : SHMpp) (b : SHM) : SHMpp :=
  {| p_base := b; p_eta := p_eta s; p_beta := p_beta s; p_sr := p_sr s; p_st := p_st s; p_sp := p_sp s; p_NS := p_NS s; p_table := p_table s |}.
Definition put_eta (s : SHMpp) (e : R) : SHMpp :=
  {| p_base := p_base s; p_eta := Fin e; p_beta := p_beta s; p_sr := p_sr s; p_st := p_st s; p_sp := p_sp s; p_NS := p_NS s; p_table := p_table s |}.
Definition put_beta (s : SHMpp) (b : R) : SHMpp :=
  {| p_base := p_base s; p_eta := p_eta s; p_beta := Fin b; p_sr := p_sr s; p_st := p_st s; p_sp := p_sp s; p_NS := p_NS s; p_table := p_table s |}.

(** One setter call on an SHM++ object, /repo/src/DM_Halo_Models.cpp:286-303 and 49-70 (Set_Escape_Velocity calls the
    overridden, virtual Normalize_PDF). *)
Definition ppstep (s : SHMpp) (o : ppop) : res SHMpp :=
  match o with
  | PBase (Set_Speed_Dispersion v0) => Ok (Normalize_PDF_pp (Compute_Sigmas (put_base s (put_v0 (p_base s) v0))))
  | PBase (Set_Escape_Velocity vesc) => Ok (Normalize_PDF_pp (put_base s (put_vesc (p_base s) vesc)))
  | PBase o' => let* b := hstep (p_base s) o' in Ok (put_base s b)
  | Set_Eta e => Ok (put_eta s e)
  | Set_Beta b => Ok (Normalize_PDF_pp (Compute_Sigmas (put_beta s b)))
  end.

(** A history of setter calls on an SHM++ object (/repo/src/DM_Halo_Models.cpp:49-70,286-303). *)
Fixpoint pprun (s : SHMpp) (l : list ppop) : res SHMpp :=
  match l with
  | [] => Ok s
  | o :: r => let* s' := ppstep s o in pprun s' r
  end.

(** SHM_Plus_Plus::PDF_Velocity, PDF_Speed, CDF_Speed, /repo/src/DM_Halo_Models.cpp:305-318. *)
Definition PDF_Velocity_pp (s : SHMpp) (vel : vec3) : xr :=
  (#1 - p_eta s) * PDF_Velocity_SHM (p_base s) (vadd vel (h_velobs (p_base s))) +
  p_eta s * PDF_Velocity_S s (vadd vel (h_velobs (p_base s))).
Definition PDF_Speed_pp (Integrate_2D : integrator2) (s : SHMpp) (v : xr) : res xr :=
  let* f := PDF_Speed_S Integrate_2D s v in Ok ((#1 - p_eta s) * PDF_Speed_SHM (p_base s) v + p_eta s * f).
Definition CDF_Speed_pp (Integrate : integrator) (Integrate_2D : integrator2) (s : SHMpp) (v : xr) : res xr :=
  let* f := CDF_Speed_S Integrate Integrate_2D s v in Ok ((#1 - p_eta s) * CDF_Speed_SHM (p_base s) v + p_eta s * f).

(** SHM_Plus_Plus::Eta_Function, /repo/src/DM_Halo_Models.cpp:320-331. *)
Definition Eta_Function_pp (Interpolation : interpolator) (s : SHMpp) (vMin : xr) : res xr :=
  if xlt vMin (h_dmin (p_base s)) then Exit
  else if xlt (h_dmax (p_base s)) vMin then Ok #0
  else let* e := Interpolation (p_table s) vMin in
       Ok ((#1 - p_eta s) * Eta_Function_SHM (p_base s) vMin + p_eta s * e).
