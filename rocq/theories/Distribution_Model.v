(** Model of the base class of velocity distributions and of imported distributions.
    Source: /repo/src/DM_Distribution.cpp, /repo/include/obscura/DM_Distribution.hpp. *)
From Coq Require Import Reals List ZArith String.
From Verif Require Import Base Astronomy_Model.
Import ListNotations.
Local Open Scope xr_scope.

(** Types of the external routines libphysica::Integrate, Integrate_2D, Integrate_3D, Interpolation and
    Interpolation::Integrate as called in /repo/src/DM_Distribution.cpp:41,55,77,88,185,197,205. *)
Definition integrator : Type := (xr -> res xr) -> xr -> xr -> res xr.
Definition integrator2 : Type := (xr -> xr -> res xr) -> xr -> xr -> xr -> xr -> res xr.
Definition interpolator : Type := list (xr * xr) -> xr -> res xr.

(** C [acos] (/repo/src/DM_Distribution.cpp:38): NaN outside [-1,1]. *)
Definition xacos (a : xr) : xr :=
  match a with Fin c => if Rle_dec (-1) c then if Rle_dec c 1 then Fin (acos c) else NaN else NaN | _ => NaN end.

(** libphysica::Spherical_Coordinates(v, theta, phi) (external; /repo/src/DM_Distribution.cpp:38). *)
Definition Spherical_Coordinates (v theta phi : R) : vec3 :=
  V3 (v * sin theta * cos phi) (v * sin theta * sin phi) (v * cos theta).

(** The integrand of DM_Distribution::PDF_Speed, /repo/src/DM_Distribution.cpp:37-40 (also
    /repo/src/DM_Halo_Models.cpp:210-213). Simplified: a velocity with a NaN or infinite component gives NaN. *)
Definition angular_integrand (pdf : vec3 -> xr) (v cos_theta phi : xr) : res xr :=
  match v, xacos cos_theta, phi with
  | Fin w, Fin th, Fin p => Ok (v * v * pdf (Spherical_Coordinates w th p))
  | _, _, _ => Ok NaN
  end.

(** DM_Distribution::PDF_Speed, /repo/src/DM_Distribution.cpp:35-42. *)
Definition PDF_Speed_Base (Integrate_2D : integrator2) (pdf : vec3 -> xr) (v : xr) : res xr :=
  Integrate_2D (angular_integrand pdf v) (- #1) #1 #0 (#2 * Fin PI).

(** DM_Distribution::CDF_Speed, /repo/src/DM_Distribution.cpp:44-57. [dmin], [dmax] are v_domain[0], v_domain[1];
    [pdf_speed] is the (virtual) PDF_Speed of the object. *)
Definition CDF_Speed_Base (Integrate : integrator) (pdf_speed : xr -> res xr) (dmin dmax v : xr) : res xr :=
  if xlt v dmin then Ok #0
  else if xlt dmax v then Ok #1
  else Integrate pdf_speed dmin v.

(** DM_Distribution::PDF_Norm, /repo/src/DM_Distribution.cpp:59-65. *)
Definition PDF_Norm (Integrate : integrator) (pdf_speed : xr -> res xr) (dmin dmax : xr) : res xr :=
  Integrate pdf_speed dmin dmax.

(** DM_Distribution::Differential_DM_Flux, /repo/src/DM_Distribution.cpp:67-70. *)
Definition Differential_DM_Flux (pdf_speed : xr -> res xr) (rho v mDM : xr) : res xr :=
  let* f := pdf_speed v in Ok (rho / mDM * v * f).

(** DM_Distribution::Total_DM_Flux, /repo/src/DM_Distribution.cpp:72-78. *)
Definition Total_DM_Flux (Integrate : integrator) (pdf_speed : xr -> res xr) (rho dmin dmax mDM : xr) : res xr :=
  Integrate (fun v => Differential_DM_Flux pdf_speed rho v mDM) dmin dmax.

(** DM_Distribution::Average_Speed, /repo/src/DM_Distribution.cpp:93-119. [cdf_speed] is the (virtual) CDF_Speed. *)
Definition Average_Speed (Integrate : integrator) (pdf_speed cdf_speed : xr -> res xr) (dmin dmax vMin : xr) : res xr :=
  let integrand := fun v => let* f := pdf_speed v in Ok (v * f) in
  if xlt vMin #0 then Integrate integrand dmin dmax
  else if (xlt vMin dmin || xle dmax vMin)%bool then Exit
  else
    let* v_average := Integrate integrand vMin dmax in
    let* c := cdf_speed vMin in
    Ok (v_average / (#1 - c)).

(** DM_Distribution::Eta_Function_Base, /repo/src/DM_Distribution.cpp:121-139. *)
Definition Eta_Function_Base (Integrate : integrator) (pdf_speed : xr -> res xr) (dmin dmax vMin : xr) : res xr :=
  if xlt vMin dmin then Exit
  else if xle dmax vMin then Ok #0
  else Integrate (fun v => let* f := pdf_speed v in Ok (#1 / v * f)) vMin dmax.

(** libphysica::Linear_Space(min, max, steps) (external; /repo/src/DM_Distribution.cpp:166,193,
    /repo/src/DM_Halo_Models.cpp:246) for steps >= 2. *)
Definition Linear_Space (lo hi : xr) (steps : nat) : list xr :=
  map (fun i => lo + Fin (INR i) * ((hi - lo) / Fin (INR (steps - 1)))) (seq 0 steps).

(** DM_Distribution::Export_PDF_Speed, /repo/src/DM_Distribution.cpp:164-171, with log_scale = false: the rows written to the file,
    i.e. libphysica::Export_Function (external) with the units {km / sec, sec / km}. Simplified: numbers are written exactly. *)
Definition Export_PDF_Speed (pdf_speed : xr -> res xr) (dmin dmax : xr) (v_points : nat) : res (list (xr * xr)) :=
  map_res (fun v => let* f := pdf_speed v in Ok (v / (Fin km / Fin sec), f / (Fin sec / Fin km))) (Linear_Space dmin dmax v_points).

(** Imported_DM_Distribution: the data members of /repo/include/obscura/DM_Distribution.hpp:16-24,57-60 that
    influence a query. [pdf_table] keeps the interpolation object by its nodes. *)
Record Imported := {
  im_name : string; im_file : string; im_rho : xr; im_dmin : xr; im_dmax : xr; im_use_eta : bool;
  im_pdf_table : list (xr * xr); im_eta_table : list (xr * xr) }.

(** Imported_DM_Distribution::PDF_Speed, /repo/src/DM_Distribution.cpp:220-226. *)
Definition Imported_PDF_Speed (Interpolation : interpolator) (s : Imported) (v : xr) : res xr :=
  if (xlt v (im_dmin s) || xlt (im_dmax s) v)%bool then Ok #0 else Interpolation (im_pdf_table s) v.

(** Imported_DM_Distribution::Interpolate_Eta, /repo/src/DM_Distribution.cpp:191-198. *)
Definition Interpolate_Eta (Integrate : integrator) (Interpolation : interpolator) (s : Imported) : res (list (xr * xr)) :=
  map_res (fun v => let* e := Eta_Function_Base Integrate (Imported_PDF_Speed Interpolation s) (im_dmin s) (im_dmax s) v in Ok (v, e))
          (Linear_Space (im_dmin s) (im_dmax s) 500).

(** First and last abscissa of a table: Interpolation::domain, /repo/src/DM_Distribution.cpp:206,215. *)
Definition table_domain (t : list (xr * xr)) : res (xr * xr) :=
  match t with
  | [] => Exit
  | p :: r => Ok (fst p, fst (last r p))
  end.

(** The common part of both constructors, /repo/src/DM_Distribution.cpp:205-208 and 214-217. Check_Normalization
    (183-189) only prints a warning and is left out. *)
Definition import_table (Integrate : integrator) (Interpolation : interpolator)
    (nm file : string) (rho : xr) (flag : bool) (t : list (xr * xr)) : res Imported :=
  let* d := table_domain t in
  let s := {| im_name := nm; im_file := file; im_rho := rho; im_dmin := fst d; im_dmax := snd d; im_use_eta := flag;
              im_pdf_table := t; im_eta_table := [] |} in
  let* e := Interpolate_Eta Integrate Interpolation s in
  Ok {| im_name := nm; im_file := file; im_rho := rho; im_dmin := fst d; im_dmax := snd d; im_use_eta := flag;
        im_pdf_table := t; im_eta_table := e |}.

(** libphysica::Import_Table(path, {km / sec, sec / km}) (external; /repo/src/DM_Distribution.cpp:204): the numbers
    of the file times the units. *)
Definition Import_Table (rows : list (xr * xr)) : list (xr * xr) :=
  map (fun p => (fst p * (Fin km / Fin sec), snd p * (Fin sec / Fin km))) rows.

(** Imported_DM_Distribution(rho, filepath), /repo/src/DM_Distribution.cpp:200-209. [rows] is the file content. *)
Definition Imported_of_file (Integrate : integrator) (Interpolation : interpolator) (rho : xr) (path : string)
    (rows : list (xr * xr)) : res Imported :=
  import_table Integrate Interpolation "Imported DM distribution" path rho true (Import_Table rows).

(** Imported_DM_Distribution(pdf_table, rho), /repo/src/DM_Distribution.cpp:211-218: the flag keeps the value false of
    the base constructor (21-24). *)
Definition Imported_of_table (Integrate : integrator) (Interpolation : interpolator) (t : list (xr * xr)) (rho : xr) : res Imported :=
  import_table Integrate Interpolation "Tabulated DM distribution" "-" rho false t.

(** Imported_DM_Distribution::Eta_Function, /repo/src/DM_Distribution.cpp:228-239. *)
Definition Imported_Eta_Function (Interpolation : interpolator) (s : Imported) (vMin : xr) : res xr :=
  if xlt vMin (im_dmin s) then Exit
  else if xlt (im_dmax s) vMin then Ok #0
  else Interpolation (im_eta_table s) vMin.
