(** C99 to C101: average velocities and exported tables. *)
From Coq Require Import Reals ZArith Lra Lia.
From Coquelicot Require Import Coquelicot.
From Coq Require Import List.
From Verif Require Import Base XrFacts Quadrature Interpolation Astronomy_Model Distribution_Model Distribution_Proofs Halo_Model HaloState_Proofs HaloMarginal_Proofs HaloFinal_Proofs HaloEta_Proofs
  Average_Model Average_Proofs Export_Proofs AverageHalo_Proofs.
Import ListNotations.
Local Open Scope R_scope.

(** C99: a distribution symmetric around the polar axis has no average velocity across it, and along it the integral of 2 pi v^3 cos(theta) f. *)
Theorem C99_axial : forall I3 pdf f a b m q, ideal_quadrature_3D I3 -> 0 <= a <= b ->
  (forall v c phi, a <= v <= b -> -1 <= c <= 1 -> pdf (Spherical_Coordinates v (acos c) phi) = Fin (f v c)) ->
  (forall v, a <= v <= b -> is_RInt (fun c => 2 * PI * v ^ 3 * c * f v c) (-1) 1 (m v)) -> is_RInt m a b q ->
  Average_Velocity I3 pdf (Fin a) (Fin b) = Ok (Fin 0, Fin 0, Fin q).
Proof. exact average_axial. Qed.
Print Assumptions C99_axial.

(** An isotropic one has none at all. *)
Theorem C99_isotropic : forall I3 pdf g a b, ideal_quadrature_3D I3 -> 0 <= a <= b ->
  (forall w, a <= vnorm w <= b -> pdf w = Fin (g (vnorm w))) -> Average_Velocity I3 pdf (Fin a) (Fin b) = Ok (Fin 0, Fin 0, Fin 0).
Proof. exact average_isotropic. Qed.
Print Assumptions C99_isotropic.

(** The average velocity is never longer than the average speed of the same non-negative density. *)
Theorem C99_below_speed : forall I I2 I3 pdf cdf f a b x y z s, ideal_quadrature I -> ideal_quadrature_2D I2 -> ideal_quadrature_3D I3 -> 0 <= a <= b ->
  (forall v c phi, a <= v <= b -> -1 <= c <= 1 -> 0 <= phi <= 2 * PI -> pdf (Spherical_Coordinates v (acos c) phi) = Fin (f v c phi)) ->
  (forall v c phi, a <= v <= b -> -1 <= c <= 1 -> 0 <= phi <= 2 * PI -> 0 <= f v c phi) ->
  volume_integral (fun v c phi => vx (Spherical_Coordinates v (acos c) phi) * f v c phi) a b (-1) 1 0 (2 * PI) x ->
  volume_integral (fun v c phi => vy (Spherical_Coordinates v (acos c) phi) * f v c phi) a b (-1) 1 0 (2 * PI) y ->
  volume_integral (fun v c phi => vz (Spherical_Coordinates v (acos c) phi) * f v c phi) a b (-1) 1 0 (2 * PI) z ->
  volume_integral (fun v c phi => v * f v c phi) a b (-1) 1 0 (2 * PI) s ->
  Average_Velocity I3 pdf (Fin a) (Fin b) = Ok (Fin x, Fin y, Fin z) /\
  Average_Speed I (PDF_Speed_Base I2 pdf) cdf (Fin a) (Fin b) (Fin (-1)) = Ok (Fin s) /\
  vnorm (V3 x y z) <= s.
Proof. exact velocity_below_speed. Qed.
Print Assumptions C99_below_speed.

(** A density that is not isotropic. *)
Example C99_instance : ideal_quadrature_3D reference_quadrature_3D /\ volume_integral (fun v c phi => vz (Spherical_Coordinates v (acos c) phi) * (1 + c)) 0 1 (-1) 1 0 (2 * PI) (PI / 3).
Proof. exact average_instance. Qed.

(** An imported distribution keeps the velocity density 0 of the base class, so that its average velocity is 0. *)
Theorem C99_imported : forall I3 a b, ideal_quadrature_3D I3 -> 0 <= a <= b -> Average_Velocity I3 PDF_Velocity_default (Fin a) (Fin b) = Ok (Fin 0, Fin 0, Fin 0).
Proof. exact average_default. Qed.
Print Assumptions C99_imported.

(** Its speed density, normalised to 1, is therefore not the angular integral of its velocity density. *)
Theorem C99_imported_marginal_refuted : exists I I2 I3 J s, ideal_quadrature I /\ ideal_quadrature_2D I2 /\ ideal_quadrature_3D I3 /\ ideal_interpolation J /\
  Imported_of_table I J (map node [(1, Fin (1/2)); (2, Fin (1/2)); (3, Fin (1/2))]) (Fin 1) = Ok s /\
  (forall v, 1 <= v <= 3 -> Imported_PDF_Speed J s (Fin v) = Ok (Fin (1/2)) /\ PDF_Speed_Base I2 PDF_Velocity_default (Fin v) = Ok (Fin 0)) /\
  Average_Velocity I3 PDF_Velocity_default (im_dmin s) (im_dmax s) = Ok (Fin 0, Fin 0, Fin 0) /\
  PDF_Norm I (Imported_PDF_Speed J s) (im_dmin s) (im_dmax s) = Ok (Fin 1).
Proof. exact imported_marginal_refuted. Qed.
Print Assumptions C99_imported_marginal_refuted.

(** C101: in polar coordinates around the direction of the observer the velocity density of the standard halo does not depend on the azimuth, and its mean along that direction is minus the speed of the observer, for every direction and whatever setters were called before. *)
Theorem C101_mean : forall s v0 vel ve e e1 e2, halo_history s v0 vel ve -> 0 < v0 -> 0 < ve -> vnorm vel <= ve ->
  orthonormal e e1 e2 -> vel = vscale (vnorm vel) e ->
  exists f m, (forall v c phi, 0 < v -> -1 < c <= 1 -> PDF_Velocity s (polar e e1 e2 v c phi) = Fin (f v c)) /\
    (forall v, 0 < v <= ve + vnorm vel -> is_RInt (fun c => 2 * PI * v ^ 3 * c * f v c) (-1) 1 (m v)) /\
    is_RInt m 0 (ve + vnorm vel) (- vnorm vel).
Proof. exact halo_mean. Qed.
Print Assumptions C101_mean.

(** Average_Velocity() returns minus the velocity of the observer, for every direction and whatever setters were called before. *)
Theorem C101_average_velocity : forall I3 s v0 vel ve, ideal_quadrature_3D I3 -> halo_history s v0 vel ve -> 0 < v0 -> 0 < ve -> vnorm vel <= ve ->
  Average_Velocity I3 (PDF_Velocity s) (h_dmin s) (h_dmax s) = Ok (Fin (- vx vel), Fin (- vy vel), Fin (- vz vel)).
Proof. exact average_any. Qed.
Print Assumptions C101_average_velocity.

(** An observer moving at 3 in an oblique direction. *)
Example C101_instance : exists s, halo_history s 2 (V3 1 2 (-2)) 6 /\ vnorm (V3 1 2 (-2)) = 3 /\
  Average_Velocity reference_quadrature_3D (PDF_Velocity s) (h_dmin s) (h_dmax s) = Ok (Fin (-1), Fin (-2), Fin 2) /\
  PDF_Speed_Base reference_quadrature_2D (PDF_Velocity s) (Fin 7) = Ok (PDF_Speed_SHM s (Fin 7)).
Proof. exact average_any_instance. Qed.

(** A frame around the direction of an observer moving at 5. *)
Example C101_frame_instance : (exists s, halo_history s 2 (V3 0 0 (-5)) 6 /\
  Average_Velocity reference_quadrature_3D (PDF_Velocity s) (h_dmin s) (h_dmax s) = Ok (Fin 0, Fin 0, Fin 5)) /\
  (exists s, halo_history s 2 (V3 3 4 0) 6 /\ orthonormal (V3 (3/5) (4/5) 0) (V3 (-4/5) (3/5) 0) (V3 0 0 1) /\ V3 3 4 0 = vscale (vnorm (V3 3 4 0)) (V3 (3/5) (4/5) 0)).
Proof. exact mean_instance. Qed.

(** C100: an exported speed density has the requested number of rows: strictly increasing speeds from the lowest to the highest of the distribution in km/s, evenly spaced or evenly spaced in the logarithm, and the density there in s/km. *)
Theorem C100_speed_density : forall F f a b n log_scale, (2 <= n)%nat -> 0 <= a < b -> (log_scale = true -> 0 < a) ->
  (forall v, a <= v <= b -> F (Fin v) = Ok (Fin (f v))) ->
  (exists rows, Export_Speed_Density F (Fin a) (Fin b) n log_scale = Ok rows /\ holds_rows rows f n (point a b n log_scale)) /\
  point a b n log_scale 0 = a /\ point a b n log_scale (n - 1) = b /\
  (forall i j, (i < j)%nat -> point a b n log_scale i < point a b n log_scale j).
Proof. exact export_speed_density. Qed.
Print Assumptions C100_speed_density.

(** The same holds of the exported eta function. *)
Theorem C100_eta : forall E f a b n log_scale, (2 <= n)%nat -> 0 <= a < b -> (log_scale = true -> 0 < a) ->
  (forall v, a <= v <= b -> E (Fin v) = Ok (Fin (f v))) ->
  exists rows, Export_Eta_Function E (Fin a) (Fin b) n log_scale = Ok rows /\ holds_rows rows f n (point a b n log_scale).
Proof. exact export_eta. Qed.
Print Assumptions C100_eta.

(** The standard halo, one hundred rows. *)
Example C100_instance : exists s f, halo_history s 2 (V3 0 0 5) 6 /\ (forall v, 0 <= v <= 11 -> Ok (PDF_Speed_SHM s (Fin v)) = Ok (Fin (f v))) /\
  h_dmin s = Fin 0 /\ h_dmax s = Fin 11 /\
  exists rows, Export_Speed_Density (fun v => Ok (PDF_Speed_SHM s v)) (h_dmin s) (h_dmax s) 100 false = Ok rows /\ holds_rows rows f 100 (point 0 11 100 false).
Proof. exact export_instance. Qed.

(** On a logarithmic scale the export of the standard halo, whose speeds start at 0, has no speed in any of its rows. *)
Theorem C100_log_refuted : exists s, halo_history s 2 (V3 0 0 5) 6 /\ h_dmin s = Fin 0 /\ h_dmax s = Fin 11 /\
  exists rows, Export_Speed_Density (fun v => Ok (PDF_Speed_SHM s v)) (h_dmin s) (h_dmax s) 100 true = Ok rows /\ length rows = 100%nat /\ forall r, In r rows -> fst r = NaN.
Proof. exact export_log_refuted. Qed.
Print Assumptions C100_log_refuted.
