(** Property theorems C01-C06 (source: /repo/src/Astronomy.cpp). *)
From Coq Require Import Reals ZArith Lia Lra.
From Verif Require Import Base XrFacts Astronomy_Model Astronomy_Proofs Calendar_Spec Calendar_Proofs.
Local Open Scope R_scope.

(** C01 *)
Theorem C01_equat_gal_equat : forall v T,
  exists w, Transform_Equat_to_Gal v T = Ok w /\ Transform_Gal_to_Equat w T = Ok v.
Proof. exact round_trip_equat. Qed.
Print Assumptions C01_equat_gal_equat.

Theorem C01_gal_equat_gal : forall v T,
  exists w, Transform_Gal_to_Equat v T = Ok w /\ Transform_Equat_to_Gal w T = Ok v.
Proof. exact round_trip_gal. Qed.
Print Assumptions C01_gal_equat_gal.

(** Non-trivial instance: at T = 0 the vector (0,0,1) is not fixed by the transform
    (its image has z component sin(delta_GP) <> 1), so the round trip is not the identity twice. *)
Example C01_instance : exists w,
  Transform_Equat_to_Gal (V3 0 0 1) 0 = Ok w /\ vz w = sin delta_GP /\ Transform_Gal_to_Equat w 0 = Ok (V3 0 0 1).
Proof.
  destruct (round_trip_equat (V3 0 0 1) 0) as [w [H1 H2]]. exists w; repeat split; auto.
  rewrite equat_to_gal_eq in H1. injection H1 as <-.
  unfold Transformation_Matrix_M, mtrans, Transformation_Matrix_P, mvec, vdot, col1, col2, col3,
    zeta_A, z_A, theta_A; cbn [vx vy vz row1 row2 row3].
  replace (2306.083227 * arcsec * 0 + 0.298850 * arcsec * 0 * 0) with 0 by ring.
  replace (2306.077181 * arcsec * 0 + 1.092735 * arcsec * 0 * 0) with 0 by ring.
  replace (2004.191903 * arcsec * 0 - 0.429493 * arcsec * 0 * 0) with 0 by ring.
  rewrite cos_0, sin_0; ring.
Qed.

(** C02 *)
Theorem C02_isometries : forall T v w,
  (exists v' w', Transform_Equat_to_Gal v T = Ok v' /\ Transform_Equat_to_Gal w T = Ok w' /\ vdot v' w' = vdot v w) /\
  (exists v' w', Transform_GeoEcl_to_Gal v T = Ok v' /\ Transform_GeoEcl_to_Gal w T = Ok w' /\ vdot v' w' = vdot v w) /\
  (exists v' w', Transform_HelEcl_to_Gal v T = Ok v' /\ Transform_HelEcl_to_Gal w T = Ok w' /\ vdot v' w' = vdot v w) /\
  (exists v' w', Transform_Gal_to_Equat v T = Ok v' /\ Transform_Gal_to_Equat w T = Ok w' /\ vdot v' w' = vdot v w).
Proof.
  exact (fun T v w => conj (equat_isometry T v w) (conj (geo_isometry T v w)
           (conj (hel_isometry T v w) (gal_isometry T v w)))).
Qed.
Print Assumptions C02_isometries.

Theorem C02_heliocentric_is_minus_geocentric : forall v T,
  exists w, Transform_GeoEcl_to_Gal v T = Ok w /\
            Transform_HelEcl_to_Gal v T = Ok (V3 (- vx w) (- vy w) (- vz w)).
Proof. exact hel_is_minus_geo_components. Qed.
Print Assumptions C02_heliocentric_is_minus_geocentric.

Example C02_instance : exists v' w', Transform_Equat_to_Gal (V3 1 2 3) (1/4) = Ok v' /\ Transform_Equat_to_Gal (V3 4 (-5) 6) (1/4) = Ok w' /\ vdot v' w' = 12.
Proof.
  destruct (C02_isometries (1/4) (V3 1 2 3) (V3 4 (-5) 6)) as [(v' & w' & A & B & C) _]. exists v', w'. split; [exact A|]. split; [exact B|].
  rewrite C. unfold vdot; cbn. ring.
Qed.

(** C03 *)
Theorem C03_earth_orbital_speed : forall n,
  exists v, Earth_Velocity n = Ok v /\
  29.79 * (1 - 0.01671) * (km / sec) <= vnorm (vsub v Sun_Velocity) <= 29.79 * (1 + 0.01671) * (km / sec).
Proof. exact earth_speed_bounds. Qed.
Print Assumptions C03_earth_orbital_speed.

Theorem C03_earth_vs_sun_speed : forall n,
  exists v, Earth_Velocity n = Ok v /\
  Rabs (vnorm v - vnorm Sun_Velocity) <= 29.79 * (1 + 0.01671) * (km / sec).
Proof. exact earth_vs_sun. Qed.
Print Assumptions C03_earth_vs_sun_speed.

(** The Sun's own velocity used as the reference is the sum of 220 km/s rotation and the peculiar motion. *)
Example C03_sun : Sun_Velocity = V3 (11.1 * (km / sec)) (232.2 * (km / sec)) (7.3 * (km / sec)).
Proof. unfold Sun_Velocity, vadd; simpl; apply vec3_eq; simpl; unfold Rdiv; lra. Qed.

(** C04 *)
Theorem C04_days_since_J2000 : forall d n h m s,
  valid_date gregorian_leap d -> date_le (Date 1900 3 1) d -> date_le d (Date 2100 2 28) ->
  days_between (Date 2000 1 1) d n ->
  Fractional_Days_since_J2000 (dy d) (mo d) (yr d) h m s = IZR n - 0.5 + h / 24 + m / 1440 + s / 86400.
Proof. exact calendar_correct. Qed.
Print Assumptions C04_days_since_J2000.

(** Every valid date from 1 March 1900 on is at some number of days from 1 January 2000. *)
Theorem C04_every_date_counted : forall d,
  valid_date gregorian_leap d -> date_le (Date 1900 3 1) d -> exists n, days_between (Date 2000 1 1) d n.
Proof. exact days_between_exists. Qed.
Print Assumptions C04_every_date_counted.

(** In the proleptic Julian calendar (every fourth year leap) consecutive days differ by one for all years. *)
Theorem C04_julian_all_years : forall k d h m s,
  valid_date julian_leap d ->
  Fractional_Days_since_J2000 (dy (Nat.iter k (next_day julian_leap) d)) (mo (Nat.iter k (next_day julian_leap) d))
     (yr (Nat.iter k (next_day julian_leap) d)) h m s
  = Fractional_Days_since_J2000 (dy d) (mo d) (yr d) h m s + INR k.
Proof. exact days_iter_julian. Qed.
Print Assumptions C04_julian_all_years.

(** Without the range restriction the claim is false: two consecutive Gregorian days are counted two days apart. *)
Theorem C04_all_gregorian_dates_refuted :
  exists d, valid_date gregorian_leap d /\
  forall h m s,
    Fractional_Days_since_J2000 (dy (next_day gregorian_leap d)) (mo (next_day gregorian_leap d)) (yr (next_day gregorian_leap d)) h m s
    = Fractional_Days_since_J2000 (dy d) (mo d) (yr d) h m s + 2.
Proof. exact calendar_refuted. Qed.
Print Assumptions C04_all_gregorian_dates_refuted.

Example C04_instance : valid_date gregorian_leap (Date 2000 3 1) /\ days_between (Date 2000 1 1) (Date 2000 3 1) 60
  /\ days_between (Date 2000 1 1) (Date 1999 2 28) (-307).
Proof.
  split; [|split].
  - split; simpl; [lia|unfold month_length; simpl; lia].
  - left; split; [lia|reflexivity].
  - right; split; [lia|reflexivity].
Qed.

(** C05 *)
Theorem C05_sidereal_time_of_day_refuted :
  exists n longitude, Local_Apparent_Sidereal_Time n longitude < 0.
Proof. exact LAST_refuted. Qed.
Print Assumptions C05_sidereal_time_of_day_refuted.

Theorem C05_within_one_day : forall n longitude,
  - (24 * 3600 * sec) < Local_Apparent_Sidereal_Time n longitude < 24 * 3600 * sec.
Proof. exact LAST_range_hours. Qed.
Print Assumptions C05_within_one_day.

Theorem C05_nonnegative_after_J2000 : forall n longitude, 0 <= n -> - PI <= longitude ->
  0 <= Local_Apparent_Sidereal_Time n longitude < 24 * 3600 * sec.
Proof. exact LAST_time_of_day. Qed.
Print Assumptions C05_nonnegative_after_J2000.

(** 1 January 2020 at 12:00, New York (74 degrees west). *)
Example C05_instance : 0 <= 7305 /\ - PI <= - 74 * deg.
Proof. unfold deg; assert (h := PI_RGT_0); lra. Qed.

(** C06 *)
Theorem C06_longitude_shift : forall n longitude d,
  exists k : Z, Local_Apparent_Sidereal_Time n (longitude + d)
  = Local_Apparent_Sidereal_Time n longitude + d / (2 * PI) * (86400 * sec) + IZR k * (86400 * sec).
Proof. exact LAST_shift. Qed.
Print Assumptions C06_longitude_shift.

Theorem C06_full_turns : forall n longitude (k : Z),
  exists j : Z, Local_Apparent_Sidereal_Time n (longitude + 2 * PI * IZR k)
  = Local_Apparent_Sidereal_Time n longitude + IZR j * (86400 * sec).
Proof. exact LAST_period. Qed.
Print Assumptions C06_full_turns.

Example C06_instance : exists k : Z, Local_Apparent_Sidereal_Time 7305 (0 + PI / 2)
  = Local_Apparent_Sidereal_Time 7305 0 + 21600 * sec + IZR k * (86400 * sec).
Proof.
  destruct (C06_longitude_shift 7305 0 (PI / 2)) as [k E]. exists k. rewrite E. assert (P := PI_RGT_0). f_equal. f_equal. field. lra.
Qed.
