(** Model of the average velocity of a distribution and of its exported tables.
    Source: /repo/src/DM_Distribution.cpp, /repo/include/obscura/DM_Distribution.hpp. *)
From Coq Require Import Reals List ZArith.
From Verif Require Import Base Astronomy_Model Distribution_Model Atom_Model.
Import ListNotations.
Local Open Scope xr_scope.

(** libphysica::Integrate_3D (external), the overload for a function of a vector called in /repo/src/DM_Distribution.cpp:88:
    radius, cosine of the polar angle and azimuth with their limits. *)
Definition integrator3 : Type := (vec3 -> res xr) -> xr -> xr -> xr -> xr -> xr -> xr -> res xr.

(** vel[i] for the three components that the loop of /repo/src/DM_Distribution.cpp:83-89 visits. *)
Inductive component := cx | cy | cz.
Definition comp (i : component) (v : vec3) : R := match i with cx => vx v | cy => vy v | cz => vz v end.

(** DM_Distribution::Average_Velocity, one pass of the loop, /repo/src/DM_Distribution.cpp:85-88. [pdf] is the (virtual) PDF_Velocity. *)
Definition Average_Component (Integrate_3D : integrator3) (pdf : vec3 -> xr) (dmin dmax : xr) (i : component) : res xr :=
  Integrate_3D (fun vel => Ok (Fin (comp i vel) * pdf vel)) dmin dmax (- #1) #1 #0 (#2 * Fin PI).

(** DM_Distribution::Average_Velocity, /repo/src/DM_Distribution.cpp:80-91. *)
Definition Average_Velocity (Integrate_3D : integrator3) (pdf : vec3 -> xr) (dmin dmax : xr) : res (xr * xr * xr) :=
  let* x := Average_Component Integrate_3D pdf dmin dmax cx in
  let* y := Average_Component Integrate_3D pdf dmin dmax cy in
  let* z := Average_Component Integrate_3D pdf dmin dmax cz in
  Ok (x, y, z).

(** DM_Distribution::PDF_Velocity as declared in the base class, /repo/include/obscura/DM_Distribution.hpp:34, which
    Imported_DM_Distribution does not override (/repo/include/obscura/DM_Distribution.hpp:65-88). *)
Definition PDF_Velocity_default (vel : vec3) : xr := #0.

(** The abscissas of both export functions, /repo/src/DM_Distribution.cpp:166 and 175. *)
Definition speed_list (dmin dmax : xr) (v_points : nat) (log_scale : bool) : list xr :=
  if log_scale then Log_Space dmin dmax v_points else Linear_Space dmin dmax v_points.

(** libphysica::Export_Function(path, f, list, {km / sec, sec / km}) (external; /repo/src/DM_Distribution.cpp:170,179): the rows written
    to the file. Simplified: numbers are written exactly. *)
Definition Export_Function (f : xr -> res xr) (l : list xr) : res (list (xr * xr)) :=
  map_res (fun v => let* y := f v in Ok (v / (Fin km / Fin sec), y / (Fin sec / Fin km))) l.

(** DM_Distribution::Export_PDF_Speed, /repo/src/DM_Distribution.cpp:164-171. *)
Definition Export_Speed_Density (pdf_speed : xr -> res xr) (dmin dmax : xr) (v_points : nat) (log_scale : bool) : res (list (xr * xr)) :=
  Export_Function pdf_speed (speed_list dmin dmax v_points log_scale).

(** DM_Distribution::Export_Eta_Function, /repo/src/DM_Distribution.cpp:173-180. [eta] is the (virtual) Eta_Function. *)
Definition Export_Eta_Function (eta : xr -> res xr) (dmin dmax : xr) (v_points : nat) (log_scale : bool) : res (list (xr * xr)) :=
  Export_Function eta (speed_list dmin dmax v_points log_scale).
