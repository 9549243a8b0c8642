(** Property theorems about generic and imported distributions (C27-C29, C65, C66). *)
From Coq Require Import Reals List ZArith String Lra Lia.
From Coquelicot Require Import Coquelicot.
From Verif Require Import Base XrFacts Analysis Quadrature Erf Astronomy_Model Distribution_Model Interpolation Halo_Model Halo_Proofs Eta_Proofs
  HaloState_Proofs HaloFinal_Proofs Distribution_Proofs.
Import ListNotations.
Local Open Scope R_scope.

(** C27: for any normalised density f on [a, b] the default CDF_Speed is the integral of f from a, 0 below and 1 above, and it is
    monotone with values in [0, 1]. *)
Theorem C27_generic_cdf : forall Integrate pdf f a b, ideal_quadrature Integrate -> speed_density pdf f a b ->
  exists F, (forall v, CDF_Speed_Base Integrate pdf (Fin a) (Fin b) (Fin v) = Ok (Fin (F v))) /\
  (forall v, v < a -> F v = 0) /\ (forall v, b <= v -> F v = 1) /\
  (forall v, a <= v <= b -> is_RInt f a v (F v)) /\
  (forall v w, v <= w -> 0 <= F v <= F w /\ F w <= 1).
Proof. exact generic_cdf. Qed.
Print Assumptions C27_generic_cdf.

(** The closed formula of the standard halo is the default function of its density. *)
Theorem C27_halo_agrees : forall Integrate s v0 vel ve v,
  ideal_quadrature Integrate -> halo_history s v0 vel ve -> 0 < v0 -> 0 < ve -> vnorm vel <= ve ->
  CDF_Speed_Base Integrate (fun x => Ok (PDF_Speed_SHM s x)) (h_dmin s) (h_dmax s) (Fin v) = Ok (CDF_Speed_SHM s (Fin v)).
Proof. exact halo_generic_cdf. Qed.
Print Assumptions C27_halo_agrees.

(** Instance for C27, C28, C66: the halo of [halo_example]; also the uniform density on [1, 3]. *)
Example C27_instance : (exists s f, speed_density (fun v => Ok (PDF_Speed_SHM s v)) f 0 11) /\ ideal_quadrature reference_Integrate.
Proof. exact density_instance. Qed.
Example C27_instance_uniform : speed_density (fun _ => Ok (Fin (1/2))) (fun _ => 1/2) 1 3.
Proof. exact uniform_instance. Qed.

(** C28: the total flux is rho/m times the mean speed and the integral of the differential flux. *)
Theorem C28_flux : forall Integrate pdf f a b, ideal_quadrature Integrate -> speed_density pdf f a b -> forall rho m, 0 < m -> exists mean,
  Average_Speed Integrate pdf (CDF_Speed_Base Integrate pdf (Fin a) (Fin b)) (Fin a) (Fin b) (Fin (-1)) = Ok (Fin mean) /\
  Total_DM_Flux Integrate pdf (Fin rho) (Fin a) (Fin b) (Fin m) = Ok (Fin (rho / m * mean)) /\
  exists dF, (forall v, a <= v <= b -> Differential_DM_Flux pdf (Fin rho) (Fin v) (Fin m) = Ok (Fin (dF v))) /\
    is_RInt dF a b (rho / m * mean).
Proof. exact flux_consistent. Qed.
Print Assumptions C28_flux.

(** The mean speed above a cut lies between the cut and the maximum speed, as long as some of the density lies above the cut. *)
Theorem C28_mean_above_cut : forall Integrate pdf f a b, ideal_quadrature Integrate -> speed_density pdf f a b -> forall x c, 0 <= x -> a <= x < b ->
  CDF_Speed_Base Integrate pdf (Fin a) (Fin b) (Fin x) = Ok (Fin c) -> c < 1 ->
  exists mean, Average_Speed Integrate pdf (CDF_Speed_Base Integrate pdf (Fin a) (Fin b)) (Fin a) (Fin b) (Fin x) = Ok (Fin mean) /\
    x <= mean <= b.
Proof. exact average_between. Qed.
Print Assumptions C28_mean_above_cut.

Example C28_instance : CDF_Speed_Base reference_Integrate (fun _ => Ok (Fin (1/2))) (Fin 1) (Fin 3) (Fin 2) = Ok (Fin (1/2)) /\ 1/2 < 1.
Proof. exact cut_instance. Qed.

(** C29: the same table from a file and from memory gives the same densities, eta functions and domains ... *)
Theorem C29_same_queries : forall Integrate Interp rho path rows s1 s2,
  Imported_of_file Integrate Interp rho path rows = Ok s1 -> Imported_of_table Integrate Interp (Import_Table rows) rho = Ok s2 ->
  (forall v, Imported_PDF_Speed Interp s1 v = Imported_PDF_Speed Interp s2 v) /\
  (forall v, Imported_Eta_Function Interp s1 v = Imported_Eta_Function Interp s2 v) /\
  im_rho s1 = im_rho s2 /\ im_dmin s1 = im_dmin s2 /\ im_dmax s1 = im_dmax s2.
Proof. exact import_same_queries. Qed.
Print Assumptions C29_same_queries.

(** ... and one constructor succeeds exactly when the other does ... *)
Theorem C29_same_success : forall Integrate Interp rho path rows,
  (exists s1, Imported_of_file Integrate Interp rho path rows = Ok s1) <-> exists s2, Imported_of_table Integrate Interp (Import_Table rows) rho = Ok s2.
Proof. exact import_both. Qed.
Print Assumptions C29_same_success.

(** ... but the flag that selects the rate formula in the detectors differs, for every table. *)
Theorem C29_rate_formula : forall Integrate Interp rho path rows s1 s2,
  Imported_of_file Integrate Interp rho path rows = Ok s1 -> Imported_of_table Integrate Interp (Import_Table rows) rho = Ok s2 ->
  im_use_eta s1 = true /\ im_use_eta s2 = false.
Proof. exact import_flag. Qed.
Print Assumptions C29_rate_formula.

Theorem C29_rate_formula_refuted : exists Integrate Interp rho path rows s1 s2, Imported_of_file Integrate Interp rho path rows = Ok s1 /\ Imported_of_table Integrate Interp (Import_Table rows) rho = Ok s2 /\
  im_use_eta s1 = true /\ im_use_eta s2 = false.
Proof. exact import_refuted. Qed.
Print Assumptions C29_rate_formula_refuted.

Example C29_instance : exists s1 s2, Imported_of_file reference_Integrate reference_Interpolation (Fin 1) "f.txt" [(Fin 100, Fin 1); (Fin 200, Fin 3)] = Ok s1 /\
  Imported_of_table reference_Integrate reference_Interpolation (Import_Table [(Fin 100, Fin 1); (Fin 200, Fin 3)]) (Fin 1) = Ok s2.
Proof. exact import_instance. Qed.

(** C65: a density exported with any number (at least two) of points and imported again has the same domain, the same values at
    every exported speed, and stays within the bounds of the exported density. *)
Theorem C65_export_import : forall Integrate Interp pdf f a b n rows rho path s, ideal_interpolation Interp -> a < b ->
  (forall v, a <= v <= b -> pdf (Fin v) = Ok (Fin (f v))) ->
  Export_PDF_Speed pdf (Fin a) (Fin b) (S (S n)) = Ok rows ->
  Imported_of_file Integrate Interp rho path rows = Ok s ->
  im_dmin s = Fin a /\ im_dmax s = Fin b /\
  (forall i, (i <= S n)%nat -> let v := a + INR i * ((b - a) / INR (S n)) in Imported_PDF_Speed Interp s (Fin v) = Ok (Fin (f v))) /\
  (forall lo hi v, (forall x, a <= x <= b -> lo <= f x <= hi) -> a <= v <= b ->
     exists y, Imported_PDF_Speed Interp s (Fin v) = Ok (Fin y) /\ lo <= y <= hi).
Proof. exact export_import. Qed.
Print Assumptions C65_export_import.

Example C65_instance : exists rows s, Export_PDF_Speed (fun v => Ok (xmul (Fin 2) v)) (Fin 1) (Fin 3) (S (S 3)) = Ok rows /\
  Imported_of_file reference_Integrate reference_Interpolation (Fin 1) "f.txt" rows = Ok s.
Proof. exact export_instance. Qed.

(** C66: the default eta function of any density: defined from the lower end of the domain on (terminates below), the integral of
    f(v)/v, non-negative, non-increasing, zero from the upper end on, and at most (1 - CDF)/vMin. *)
Theorem C66_generic_eta : forall Integrate pdf f a b, ideal_quadrature Integrate -> speed_density pdf f a b ->
  exists E, (forall x, 0 < x -> a <= x -> Eta_Function_Base Integrate pdf (Fin a) (Fin b) (Fin x) = Ok (Fin (E x))) /\
  (forall x, x < a -> Eta_Function_Base Integrate pdf (Fin a) (Fin b) (Fin x) = Exit) /\
  (forall x, b <= x -> E x = 0) /\
  (forall x, 0 < x -> a <= x <= b -> is_RInt (fun v => f v / v) x b (E x)) /\
  (forall x y, 0 < x -> a <= x -> x <= y -> 0 <= E y <= E x) /\
  (forall x c, 0 < x -> a <= x <= b -> CDF_Speed_Base Integrate pdf (Fin a) (Fin b) (Fin x) = Ok (Fin c) -> x * E x <= 1 - c).
Proof. exact generic_eta. Qed.
Print Assumptions C66_generic_eta.

(** The closed formula of the standard halo is the default eta function of its density, away from the 1e-8 cut-off. *)
Theorem C66_halo_agrees : forall Integrate s v0 vel ve x, ideal_quadrature Integrate -> halo_history s v0 vel ve -> 0 < v0 -> 0 < ve -> vnorm vel <= ve ->
  (vnorm vel = 0 \/ eps8 * v0 <= vnorm vel) -> 0 < x <= ve + vnorm vel - eps8 * v0 ->
  Eta_Function_Base Integrate (fun x => Ok (PDF_Speed_SHM s x)) (h_dmin s) (h_dmax s) (Fin x) = Ok (Eta_Function_SHM s (Fin x)).
Proof. exact halo_generic_eta. Qed.
Print Assumptions C66_halo_agrees.

Example C66_instance : ideal_quadrature reference_Integrate /\ speed_density (fun _ => Ok (Fin (1/2))) (fun _ => 1/2) 1 3 /\
  exists s, halo_history s 2 (V3 0 3 4) 6 /\ vnorm (V3 0 3 4) <= 6 /\ eps8 * 2 <= vnorm (V3 0 3 4) /\ 0 < 1 <= 6 + vnorm (V3 0 3 4) - eps8 * 2.
Proof.
  split; [apply density_instance|]. split; [exact uniform_instance|].
  destruct example_history as (s & H & _ & _ & E & L & B). exists s. split; [exact H|]. split; [exact L|]. split; [exact B|]. rewrite E in *. unfold eps8 in *. lra.
Qed.
