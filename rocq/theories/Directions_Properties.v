(** Property theorems C78-C80 (source: /repo/src/Astronomy.cpp). *)
From Coq Require Import Reals ZArith Lia Lra.
From Verif Require Import Base XrFacts Astronomy_Model Astronomy_Proofs Calendar_Proofs Directions_Spec Directions_Proofs.
Local Open Scope R_scope.

(** C78: at J2000 the north galactic pole (right ascension 192.85948, declination 27.12825 degrees) has galactic latitude 90 degrees. *)
Theorem C78_galactic_pole : Transform_Equat_to_Gal (direction (degrees 192.85948) (degrees 27.12825)) 0 = Ok (V3 0 0 1).
Proof. exact galactic_pole. Qed.
Print Assumptions C78_galactic_pole.

(** The north celestial pole of J2000 has galactic longitude 122.932 and latitude 27.12825 degrees. *)
Theorem C78_celestial_pole : Transform_Equat_to_Gal (V3 0 0 1) 0 = Ok (direction (degrees 122.932) (degrees 27.12825)).
Proof. exact celestial_pole. Qed.
Print Assumptions C78_celestial_pole.

(** Precession: the celestial pole of any date, in J2000 coordinates. *)
Theorem C78_pole_of_date : forall T, Transform_Equat_to_Gal (V3 0 0 1) T
  = Transform_Equat_to_Gal
      (direction (- arcseconds (2306.083227 * T + 0.298850 * T ^ 2))
                 (degrees 90 - arcseconds (2004.191903 * T - 0.429493 * T ^ 2))) 0.
Proof. exact pole_of_date. Qed.
Print Assumptions C78_pole_of_date.

(** Precession: the J2000 pole, in the coordinates of any date. *)
Theorem C78_pole_of_J2000 : forall T, Transform_Equat_to_Gal
      (direction (degrees 180 + arcseconds (2306.077181 * T + 1.092735 * T ^ 2))
                 (degrees 90 - arcseconds (2004.191903 * T - 0.429493 * T ^ 2))) T
  = Transform_Equat_to_Gal (V3 0 0 1) 0.
Proof. exact pole_of_J2000. Qed.
Print Assumptions C78_pole_of_J2000.

(** The transformation does not mirror space: it keeps vector products. *)
Theorem C78_not_mirrored : forall v w T, exists v' w', Transform_Equat_to_Gal v T = Ok v' /\ Transform_Equat_to_Gal w T = Ok w' /\
    Transform_Equat_to_Gal (cross v w) T = Ok (cross v' w').
Proof. exact equat_orientation. Qed.
Print Assumptions C78_not_mirrored.

(** Instance: the two poles of J2000 are different directions, and half a century after J2000 the
    pole has moved by a positive angle below one degree. *)
Example C78_instance : direction (degrees 122.932) (degrees 27.12825) <> V3 0 0 1 /\
  0 < arcseconds (2004.191903 * 0.5 - 0.429493 * 0.5 ^ 2) < degrees 1.
Proof.
  assert (h := PI_RGT_0). split.
  - intros H. apply (f_equal vz) in H. unfold direction in H. cbn [vz] in H.
    assert (h1 : sin (degrees 27.12825) < sin (PI / 2)) by (apply sin_increasing_1; unfold degrees; lra).
    rewrite sin_PI2 in h1. lra.
  - unfold arcseconds, degrees. split; lra.
Qed.

(** C79: geocentric ecliptic coordinates are equatorial coordinates turned about the equinox by the obliquity of the date. *)
Theorem C79_ecliptic_to_equatorial : forall v T, Transform_GeoEcl_to_Gal v T
  = Transform_Equat_to_Gal
      (V3 (vx v)
          (vy v * cos (degrees (23.4393 - 0.0130 * T)) - vz v * sin (degrees (23.4393 - 0.0130 * T)))
          (vy v * sin (degrees (23.4393 - 0.0130 * T)) + vz v * cos (degrees (23.4393 - 0.0130 * T)))) T.
Proof. exact ecliptic_to_equatorial. Qed.
Print Assumptions C79_ecliptic_to_equatorial.

(** The north ecliptic pole lies at right ascension 270 degrees and declination 90 degrees minus the obliquity. *)
Theorem C79_ecliptic_pole : forall T, Transform_GeoEcl_to_Gal (V3 0 0 1) T
  = Transform_Equat_to_Gal (direction (degrees 270) (degrees (90 - (23.4393 - 0.0130 * T)))) T.
Proof. exact ecliptic_pole. Qed.
Print Assumptions C79_ecliptic_pole.

(** The Earth moves in the plane of the ecliptic of the date, with the velocity given by its mean longitude and perihelion (no full turns removed). *)
Theorem C79_earth_velocity : forall n, exists v ex ey ez,
    Earth_Velocity n = Ok v /\
    Transform_HelEcl_to_Gal (V3 1 0 0) (n / 36525) = Ok ex /\
    Transform_HelEcl_to_Gal (V3 0 1 0) (n / 36525) = Ok ey /\
    Transform_HelEcl_to_Gal (V3 0 0 1) (n / 36525) = Ok ez /\
    let u := vsub v Sun_Velocity in
    let lam := degrees (280.46 + 0.9856474 * n) in
    let omega := degrees (282.932 + 0.0000471 * n) in
    vdot u ez = 0 /\
    vdot u ex = - (29.79 * (km / sec)) * (sin lam + 0.01671 * sin (2 * lam - omega)) /\
    vdot u ey = 29.79 * (km / sec) * (cos lam + 0.01671 * cos (2 * lam - omega)).
Proof. exact earth_components. Qed.
Print Assumptions C79_earth_velocity.

(** Instance: at J2000 the mean longitude is 280.46 degrees, so the Earth has a component along the first axis. *)
Example C79_instance : degrees (280.46 + 0.9856474 * 0) = degrees 280.46 /\ 3 * (PI / 2) < degrees 280.46 < 2 * PI.
Proof. assert (h := PI_RGT_0). unfold degrees. repeat split; lra. Qed.

(** C80: for a century after J2000 sidereal clocks gain on the Sun at the rate 1.00273790935, up to 2.6 seconds of nutation and full days. *)
Theorem C80_sidereal_rate : forall n h longitude, 0 <= n -> 0 <= h -> n + h <= 36525 ->
  exists (d : R) (k : Z), Rabs d <= 2.6 /\
    Local_Apparent_Sidereal_Time (n + h) longitude
    = Local_Apparent_Sidereal_Time n longitude + (1.00273790935 * (86400 * h) + d + 86400 * IZR k) * sec.
Proof. exact sidereal_rate. Qed.
Print Assumptions C80_sidereal_rate.

(** At J2000 Greenwich sidereal time is 18 h 41 min 50.55 s up to 1.24 seconds of nutation, and longitudes count 24 hours per turn. *)
Theorem C80_epoch : forall longitude, exists (d : R) (k : Z), Rabs d <= 1.24 /\
    Local_Apparent_Sidereal_Time 0 longitude
    = (18 * 3600 + 41 * 60 + 50.55 + 86400 * (longitude / (2 * PI)) + d + 86400 * IZR k) * sec.
Proof. exact sidereal_epoch. Qed.
Print Assumptions C80_epoch.

(** Instance: one week in 2020. *)
Example C80_instance : 0 <= 7305 /\ 0 <= 7 /\ 7305 + 7 <= 36525.
Proof. repeat split; lra. Qed.
