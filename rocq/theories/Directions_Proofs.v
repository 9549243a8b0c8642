(** Proofs about the orientation of the coordinate systems of Astronomy_Model.v. *)
From Coq Require Import Reals ZArith Lia Lra Psatz List.
From Verif Require Import Base XrFacts Astronomy_Model Astronomy_Proofs Directions_Spec Calendar_Proofs.
From Coq Require Import Nsatz.
Local Open Scope R_scope.

Lemma deg_degrees x : x * deg = degrees x.
Proof. unfold degrees, deg. field. Qed.

Lemma arcsec_arcseconds x : x * arcsec = arcseconds x.
Proof. unfold arcseconds, arcsec, deg. field. Qed.

Lemma P_zero : Transformation_Matrix_P 0 = mid.
Proof.
  unfold Transformation_Matrix_P, zeta_A, z_A, theta_A, mid. cbv zeta.
  replace (2306.083227 * arcsec * 0 + 0.298850 * arcsec * 0 * 0) with 0 by ring.
  replace (2306.077181 * arcsec * 0 + 1.092735 * arcsec * 0 * 0) with 0 by ring.
  replace (2004.191903 * arcsec * 0 - 0.429493 * arcsec * 0 * 0) with 0 by ring.
  rewrite sin_0, cos_0. apply mat3_eq; apply vec3_eq; cbn [row1 row2 row3 vx vy vz]; ring.
Qed.

Lemma mid_trans_vec v : mvec (mtrans mid) v = v.
Proof. destruct v as [x y z]. apply vec3_eq; unfold mvec, mtrans, mid, col1, col2, col3, vdot; cbn [row1 row2 row3 vx vy vz]; ring. Qed.

Lemma equat_to_gal_0 v : Transform_Equat_to_Gal v 0 = Ok (mvec Transformation_Matrix_M v).
Proof. rewrite equat_to_gal_eq, P_zero, mid_trans_vec. reflexivity. Qed.

Lemma sc1 x : sin x * sin x = 1 - cos x * cos x.
Proof. assert (h := sin2_cos2 x). unfold Rsqr in h. lra. Qed.

(** The north galactic pole has galactic latitude 90 degrees. *)
Lemma galactic_pole :
  Transform_Equat_to_Gal (direction (degrees 192.85948) (degrees 27.12825)) 0 = Ok (V3 0 0 1).
Proof.
  rewrite equat_to_gal_0. f_equal. rewrite <- !deg_degrees.
  fold alpha_GP delta_GP. unfold mvec, Transformation_Matrix_M, direction, vdot.
  cbn [row1 row2 row3 vx vy vz].
  assert (h1 := sc1 alpha_GP). assert (h2 := sc1 delta_GP).
  set (sa := sin alpha_GP) in *. set (ca := cos alpha_GP) in *.
  set (sd := sin delta_GP) in *. set (cd := cos delta_GP) in *.
  set (sl := sin l_CP) in *. set (cl := cos l_CP) in *.
  apply vec3_eq; cbn [vx vy vz]; nsatz.
Qed.

(** The north celestial pole has galactic longitude 122.932 and latitude 27.12825 degrees. *)
Lemma celestial_pole :
  Transform_Equat_to_Gal (V3 0 0 1) 0 = Ok (direction (degrees 122.932) (degrees 27.12825)).
Proof.
  rewrite equat_to_gal_0. f_equal. rewrite <- !deg_degrees.
  fold l_CP delta_GP. unfold mvec, Transformation_Matrix_M, direction, vdot.
  cbn [row1 row2 row3 vx vy vz]. apply vec3_eq; cbn [vx vy vz]; ring.
Qed.

Lemma zeta_eq T : zeta_A T = arcseconds (2306.083227 * T + 0.298850 * T ^ 2).
Proof. unfold zeta_A, arcseconds, arcsec, deg. field. Qed.
Lemma z_eq T : z_A T = arcseconds (2306.077181 * T + 1.092735 * T ^ 2).
Proof. unfold z_A, arcseconds, arcsec, deg. field. Qed.
Lemma theta_eq T : theta_A T = arcseconds (2004.191903 * T - 0.429493 * T ^ 2).
Proof. unfold theta_A, arcseconds, arcsec, deg. field. Qed.

(** Precession: the pole of date seen at J2000, and the J2000 pole seen at the date. *)
Lemma pole_of_date T :
  Transform_Equat_to_Gal (V3 0 0 1) T
  = Transform_Equat_to_Gal
      (direction (- arcseconds (2306.083227 * T + 0.298850 * T ^ 2))
                 (degrees 90 - arcseconds (2004.191903 * T - 0.429493 * T ^ 2))) 0.
Proof.
  rewrite equat_to_gal_0, equat_to_gal_eq. f_equal. f_equal.
  rewrite <- zeta_eq, <- theta_eq.
  replace (degrees 90) with (PI / 2) by (unfold degrees; lra).
  unfold direction. rewrite cos_shift, sin_shift, cos_neg, sin_neg.
  apply vec3_eq; unfold mvec, mtrans, Transformation_Matrix_P, col1, col2, col3, vdot;
    cbn [row1 row2 row3 vx vy vz]; ring.
Qed.

Lemma pole_of_J2000 T :
  Transform_Equat_to_Gal
      (direction (degrees 180 + arcseconds (2306.077181 * T + 1.092735 * T ^ 2))
                 (degrees 90 - arcseconds (2004.191903 * T - 0.429493 * T ^ 2))) T
  = Transform_Equat_to_Gal (V3 0 0 1) 0.
Proof.
  rewrite equat_to_gal_0, equat_to_gal_eq. f_equal. f_equal.
  rewrite <- z_eq, <- theta_eq.
  replace (degrees 90) with (PI / 2) by (unfold degrees; lra).
  replace (degrees 180) with PI by (unfold degrees; lra).
  unfold direction. rewrite cos_shift, sin_shift.
  rewrite (Rplus_comm PI), neg_sin, neg_cos.
  assert (Hd : V3 (sin (theta_A T) * - cos (z_A T)) (sin (theta_A T) * - sin (z_A T)) (cos (theta_A T))
     = mvec (Transformation_Matrix_P T) (V3 0 0 1)).
  { apply vec3_eq; unfold mvec, Transformation_Matrix_P, vdot; cbn [row1 row2 row3 vx vy vz]; ring. }
  rewrite Hd. apply mtrans_inv_l, P_rotation.
Qed.

(** Rotations keep the vector product. *)
Lemma rotation_cross m v w : rotation m -> mvec m (cross v w) = cross (mvec m v) (mvec m w).
Proof.
  intros Hm. assert (Ha := rotation_adj m Hm). destruct m as [[a b c] [d e f] [g h i]].
  unfold madj, mtrans, col1, col2, col3 in Ha. cbn [row1 row2 row3 vx vy vz] in Ha.
  injection Ha as A1 A2 A3 A4 A5 A6 A7 A8 A9.
  destruct v as [x y z], w as [x' y' z'].
  unfold mvec, cross, vdot. cbn [row1 row2 row3 vx vy vz].
  apply vec3_eq; cbn [vx vy vz].
  - rewrite <- A1, <- A4, <- A7. ring.
  - rewrite <- A2, <- A5, <- A8. ring.
  - rewrite <- A3, <- A6, <- A9. ring.
Qed.

Lemma equat_orientation v w T :
  exists v' w', Transform_Equat_to_Gal v T = Ok v' /\ Transform_Equat_to_Gal w T = Ok w' /\
    Transform_Equat_to_Gal (cross v w) T = Ok (cross v' w').
Proof.
  rewrite !equat_to_gal_eq. do 2 eexists. repeat split.
  rewrite (rotation_cross _ v w (rotation_trans _ (P_rotation T))), (rotation_cross _ _ _ M_rotation). reflexivity.
Qed.

Lemma vsub_vadd_l a b : vsub (vadd a b) a = b.
Proof. destruct a as [x y z], b as [x0 y0 z0]. apply vec3_eq; unfold vsub, vadd; cbn [vx vy vz]; ring. Qed.

(** Geocentric ecliptic coordinates are equatorial ones turned about the equinox. *)
Lemma ecliptic_to_equatorial v T :
  Transform_GeoEcl_to_Gal v T
  = Transform_Equat_to_Gal
      (V3 (vx v)
          (vy v * cos (degrees (23.4393 - 0.0130 * T)) - vz v * sin (degrees (23.4393 - 0.0130 * T)))
          (vy v * sin (degrees (23.4393 - 0.0130 * T)) + vz v * cos (degrees (23.4393 - 0.0130 * T)))) T.
Proof.
  rewrite geoecl_to_gal_eq, equat_to_gal_eq. f_equal. f_equal. f_equal.
  assert (He : ecliptic_obliquity T = degrees (23.4393 - 0.0130 * T)).
  { unfold ecliptic_obliquity, degrees, deg. field. }
  unfold Transformation_Matrix_R. rewrite He. destruct v as [x y z].
  apply vec3_eq; unfold mvec, Rotation_Matrix, vdot; cbn [row1 row2 row3 vx vy vz]; ring.
Qed.

(** The north ecliptic pole is at right ascension 270 degrees. *)
Lemma ecliptic_pole T :
  Transform_GeoEcl_to_Gal (V3 0 0 1) T
  = Transform_Equat_to_Gal (direction (degrees 270) (degrees (90 - (23.4393 - 0.0130 * T)))) T.
Proof.
  rewrite ecliptic_to_equatorial. f_equal. cbn [vx vy vz]. unfold direction.
  replace (degrees (90 - (23.4393 - 0.0130 * T))) with (PI / 2 - degrees (23.4393 - 0.0130 * T)) by (unfold degrees; lra).
  replace (degrees 270) with (3 * (PI / 2)) by (unfold degrees; lra).
  rewrite cos_shift, sin_shift, cos_3PI2, sin_3PI2. apply vec3_eq; cbn [vx vy vz]; ring.
Qed.

(** Trigonometric functions do not see [fmod] by the full turn. *)
Lemma sin_IZR x k : sin (x + 2 * PI * IZR k) = sin x.
Proof.
  assert (Hn : forall n y, sin (y + 2 * PI * INR n) = sin y).
  { intros n y. rewrite <- (sin_period y n). f_equal. ring. }
  destruct (Z_le_gt_dec 0 k).
  - rewrite <- (Z2Nat.id k l), <- INR_IZR_INZ. apply Hn.
  - rewrite <- (Hn (Z.to_nat (- k)) (x + 2 * PI * IZR k)). f_equal.
    rewrite INR_IZR_INZ, Z2Nat.id by lia. rewrite opp_IZR. ring.
Qed.
Lemma cos_IZR x k : cos (x + 2 * PI * IZR k) = cos x.
Proof.
  rewrite !cos_sin. replace (PI / 2 + (x + 2 * PI * IZR k)) with (PI / 2 + x + 2 * PI * IZR k) by ring. apply sin_IZR.
Qed.

Lemma sin_lin a b x y i j :
  sin (IZR a * (x - 2 * PI * IZR i) + IZR b * (y - 2 * PI * IZR j)) = sin (IZR a * x + IZR b * y).
Proof.
  rewrite <- (sin_IZR (IZR a * x + IZR b * y) (- (a * i + b * j))). f_equal.
  rewrite opp_IZR, plus_IZR, !mult_IZR. ring.
Qed.
Lemma cos_lin a b x y i j :
  cos (IZR a * (x - 2 * PI * IZR i) + IZR b * (y - 2 * PI * IZR j)) = cos (IZR a * x + IZR b * y).
Proof.
  rewrite <- (cos_IZR (IZR a * x + IZR b * y) (- (a * i + b * j))). f_equal.
  rewrite opp_IZR, plus_IZR, !mult_IZR. ring.
Qed.

(** The Earth's velocity relative to the Sun, by its components along the heliocentric ecliptic axes. *)
Lemma vdot_lin_l a b u w x : vdot (vadd (vscale a u) (vscale b w)) x = a * vdot u x + b * vdot w x.
Proof. rewrite vdot_add_l, !vdot_scale_l. reflexivity. Qed.

Lemma earth_components n :
  exists v ex ey ez,
    Earth_Velocity n = Ok v /\
    Transform_HelEcl_to_Gal (V3 1 0 0) (n / 36525) = Ok ex /\
    Transform_HelEcl_to_Gal (V3 0 1 0) (n / 36525) = Ok ey /\
    Transform_HelEcl_to_Gal (V3 0 0 1) (n / 36525) = Ok ez /\
    let u := vsub v Sun_Velocity in
    let lam := degrees (280.46 + 0.9856474 * n) in
    let omega := degrees (282.932 + 0.0000471 * n) in
    vdot u ez = 0 /\
    vdot u ex = - (29.79 * (km / sec)) * (sin lam + 0.01671 * sin (2 * lam - omega)) /\
    vdot u ey = 29.79 * (km / sec) * (cos lam + 0.01671 * cos (2 * lam - omega)).
Proof.
  destruct (hel_isometry (n / 36525) (V3 1 0 0) (V3 0 1 0)) as (ex & ey & Hx & Hy & Hxy).
  destruct (hel_isometry (n / 36525) (V3 1 0 0) (V3 0 0 1)) as (ex1 & ez & Hx1 & Hz & Hxz).
  destruct (hel_isometry (n / 36525) (V3 0 1 0) (V3 0 0 1)) as (ey1 & ez1 & Hy1 & Hz1 & Hyz).
  destruct (hel_isometry (n / 36525) (V3 1 0 0) (V3 1 0 0)) as (ex2 & ex3 & Hx2 & Hx3 & Hxx).
  destruct (hel_isometry (n / 36525) (V3 0 1 0) (V3 0 1 0)) as (ey2 & ey3 & Hy2 & Hy3 & Hyy).
  rewrite Hx in Hx1, Hx2, Hx3. rewrite Hy in Hy1, Hy2, Hy3. rewrite Hz in Hz1.
  apply Ok_inj in Hx1, Hx2, Hx3, Hy1, Hy2, Hy3, Hz1. subst ex1 ex2 ex3 ey1 ey2 ey3 ez1.
  replace (vdot (V3 1 0 0) (V3 0 1 0)) with 0 in Hxy by (unfold vdot; cbn [vx vy vz]; ring).
  replace (vdot (V3 1 0 0) (V3 0 0 1)) with 0 in Hxz by (unfold vdot; cbn [vx vy vz]; ring).
  replace (vdot (V3 0 1 0) (V3 0 0 1)) with 0 in Hyz by (unfold vdot; cbn [vx vy vz]; ring).
  replace (vdot (V3 1 0 0) (V3 1 0 0)) with 1 in Hxx by (unfold vdot; cbn [vx vy vz]; ring).
  replace (vdot (V3 0 1 0) (V3 0 1 0)) with 1 in Hyy by (unfold vdot; cbn [vx vy vz]; ring).
  exists (vadd Sun_Velocity
    (vadd (vscale (- (29.79 * km / sec) * (sin (Rfmod (280.46 * deg + n * 0.9856474 * deg) (2 * PI)) + 0.01671 * sin (2 * Rfmod (280.46 * deg + n * 0.9856474 * deg) (2 * PI) - Rfmod (282.932 * deg + n * 0.0000471 * deg) (2 * PI)))) ex)
          (vscale ((29.79 * km / sec) * (cos (Rfmod (280.46 * deg + n * 0.9856474 * deg) (2 * PI)) + 0.01671 * cos (2 * Rfmod (280.46 * deg + n * 0.9856474 * deg) (2 * PI) - Rfmod (282.932 * deg + n * 0.0000471 * deg) (2 * PI)))) ey))), ex, ey, ez.
  split; [|split; [exact Hx|split; [exact Hy|split; [exact Hz|]]]].
  { unfold Earth_Velocity. cbv zeta. rewrite Hx. cbn [bind]. rewrite Hy. reflexivity. }
  cbv zeta. rewrite vsub_vadd_l.
  destruct (Rfmod_cong (280.46 * deg + n * 0.9856474 * deg) (2 * PI)) as [i Hi].
  destruct (Rfmod_cong (282.932 * deg + n * 0.0000471 * deg) (2 * PI)) as [j Hj].
  rewrite Hi, Hj.
  replace (280.46 * deg + n * 0.9856474 * deg) with (degrees (280.46 + 0.9856474 * n)) by (unfold degrees, deg; field).
  replace (282.932 * deg + n * 0.0000471 * deg) with (degrees (282.932 + 0.0000471 * n)) by (unfold degrees, deg; field).
  set (lam := degrees (280.46 + 0.9856474 * n)). set (om := degrees (282.932 + 0.0000471 * n)).
  assert (S1 := sin_lin 1 0 lam om i j). assert (C1 := cos_lin 1 0 lam om i j).
  assert (S2 := sin_lin 2 (-1) lam om i j). assert (C2 := cos_lin 2 (-1) lam om i j).
  replace (1 * (lam - 2 * PI * IZR i) + 0 * (om - 2 * PI * IZR j)) with (lam - 2 * PI * IZR i) in S1, C1 by ring.
  replace (1 * lam + 0 * om) with lam in S1, C1 by ring.
  replace (2 * (lam - 2 * PI * IZR i) + -1 * (om - 2 * PI * IZR j)) with (2 * (lam - 2 * PI * IZR i) - (om - 2 * PI * IZR j)) in S2, C2 by ring.
  replace (2 * lam + -1 * om) with (2 * lam - om) in S2, C2 by ring.
  rewrite S1, C1, S2, C2. rewrite !vdot_lin_l.
  repeat split.
  - rewrite Hxz, Hyz. ring.
  - rewrite Hxx, (vdot_comm ey ex), Hxy. unfold Rdiv. ring.
  - rewrite Hxy, Hyy. unfold Rdiv. ring.
Qed.

Lemma Rabs_le_inv x b : Rabs x <= b -> - b <= x <= b.
Proof. unfold Rabs. destruct (Rcase_abs x); lra. Qed.

(** The correction for nutation stays below 1.24 seconds. *)
Lemma nutation_bound Om L eps :
  Rabs ((-1.1484 * sin Om - 0.0864 * cos (2 * L)) * cos eps + 0.000176 * sin Om + 0.000004 * sin (2 * Om)) <= 1.236.
Proof.
  assert (h1 := SIN_bound Om). assert (h2 := COS_bound (2 * L)). assert (h3 := COS_bound eps). assert (h4 := SIN_bound (2 * Om)).
  assert (h5 : Rabs (-1.1484 * sin Om - 0.0864 * cos (2 * L)) <= 1.2348) by (apply Rabs_le; lra).
  assert (h6 : Rabs ((-1.1484 * sin Om - 0.0864 * cos (2 * L)) * cos eps) <= 1.2348).
  { rewrite Rabs_mult. apply Rle_trans with (1.2348 * 1); [|lra].
    apply Rmult_le_compat; try apply Rabs_pos; [exact h5|]. apply Rabs_le; lra. }
  apply Rabs_le_inv in h6. apply Rabs_le. lra.
Qed.

Definition mean_sidereal_seconds (n longitude : R) : R :=
  86400 * (0.779057273264 + 0.00273781191135448 * n) + 0.00096707
  + 307.47710227 * (n / 36525) + 0.092772113 * ((n / 36525) * (n / 36525)) + longitude / 2 / PI * 86400.

Lemma LAST_split n longitude :
  exists (d : R) (k : Z), Rabs d <= 1.236 /\
    Local_Apparent_Sidereal_Time n longitude
    = (mean_sidereal_seconds n longitude + 86400 * n + d + 86400 * IZR k) * sec.
Proof.
  unfold Local_Apparent_Sidereal_Time.
  destruct (Rfmod_cong (LAST_t n longitude) 86400) as [k1 H1].
  destruct (Rfmod_cong n 1) as [k2 H2].
  rewrite H1. unfold LAST_t. cbv zeta. rewrite H2.
  assert (Hb := nutation_bound (125.04455501 * deg - 0.05295376 * deg * n) (280.47 * deg - 0.98565 * deg * n)
     (23.439279444 * deg - 0.01301021361 * deg * (n / 36525))).
  set (d := (_ * cos (23.439279444 * deg - 0.01301021361 * deg * (n / 36525)) + _ + _)) in *.
  exists d, (- k1 - k2)%Z. split; [exact Hb|].
  unfold mean_sidereal_seconds. rewrite minus_IZR, opp_IZR. ring.
Qed.

Lemma sidereal_rate n h longitude : 0 <= n -> 0 <= h -> n + h <= 36525 ->
  exists (d : R) (k : Z), Rabs d <= 2.6 /\
    Local_Apparent_Sidereal_Time (n + h) longitude
    = Local_Apparent_Sidereal_Time n longitude + (1.00273790935 * (86400 * h) + d + 86400 * IZR k) * sec.
Proof.
  intros Hn Hh Hnh.
  destruct (LAST_split n longitude) as (d1 & k1 & Hd1 & E1).
  destruct (LAST_split (n + h) longitude) as (d2 & k2 & Hd2 & E2).
  exists (mean_sidereal_seconds (n + h) longitude - mean_sidereal_seconds n longitude - 0.00273790935 * (86400 * h) + d2 - d1), (k2 - k1)%Z.
  split.
  - unfold mean_sidereal_seconds.
    apply Rabs_le_inv in Hd1, Hd2.
    assert (Hq : 0 <= (n + h) / 36525 * ((n + h) / 36525) - n / 36525 * (n / 36525) <= 1).
    { assert (0 <= n / 36525) by lra. assert (0 <= h / 36525) by lra. assert (n / 36525 + h / 36525 <= 1) by lra.
      replace ((n + h) / 36525) with (n / 36525 + h / 36525) by lra. nra. }
    apply Rabs_le. lra.
  - rewrite E1, E2, minus_IZR.
    replace (1.00273790935 * (86400 * h)) with (86400 * h + 0.00273790935 * (86400 * h)) by lra.
    set (x := 0.00273790935 * (86400 * h)). ring.
Qed.

Lemma sidereal_epoch longitude :
  exists (d : R) (k : Z), Rabs d <= 1.24 /\
    Local_Apparent_Sidereal_Time 0 longitude
    = (18 * 3600 + 41 * 60 + 50.55 + 86400 * (longitude / (2 * PI)) + d + 86400 * IZR k) * sec.
Proof.
  destruct (LAST_split 0 longitude) as (d1 & k1 & Hd1 & E1).
  exists (mean_sidereal_seconds 0 longitude - (18 * 3600 + 41 * 60 + 50.55 + 86400 * (longitude / (2 * PI))) + d1), k1.
  split.
  - unfold mean_sidereal_seconds. apply Rabs_le_inv in Hd1.
    replace (longitude / 2 / PI * 86400) with (86400 * (longitude / (2 * PI))) by (field; apply PI_neq0).
    apply Rabs_le. lra.
  - rewrite E1. ring.
Qed.
