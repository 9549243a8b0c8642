(** Model of /repo/src/Astronomy.cpp.

    The functions modelled here contain no partial floating point operation
    (only +, -, *, sin, cos, floor and division by non-zero constants), so plain
    reals are used; the one partial operation, the matrix inverse, is a [res]. *)
From Coq Require Import Reals ZArith Bool.
From Verif Require Import Base.
Local Open Scope R_scope.

(** libphysica::Vector with three components (external; used in
    /repo/src/Astronomy.cpp:41-64). *)
Record vec3 := V3 { vx : R; vy : R; vz : R }.

(** libphysica::Matrix, 3x3, by rows (external; /repo/src/Astronomy.cpp:19-36). *)
Record mat3 := M3 { row1 : vec3; row2 : vec3; row3 : vec3 }.

(** libphysica Vector +, scalar *, dot product and Norm (external; used in
    /repo/src/Astronomy.cpp:107,127,129 and /repo/src/DM_Halo_Models.cpp:66). *)
Definition vadd (a b : vec3) : vec3 := V3 (vx a + vx b) (vy a + vy b) (vz a + vz b).
Definition vscale (s : R) (a : vec3) : vec3 := V3 (s * vx a) (s * vy a) (s * vz a).
Definition vsub (a b : vec3) : vec3 := V3 (vx a - vx b) (vy a - vy b) (vz a - vz b).
Definition vdot (a b : vec3) : R := vx a * vx b + vy a * vy b + vz a * vz b.
Definition vnorm (a : vec3) : R := sqrt (vdot a a).

(** libphysica Matrix * Vector, Matrix * Matrix, scalar * Matrix (external;
    /repo/src/Astronomy.cpp:48,53,58,63). *)
Definition mvec (m : mat3) (v : vec3) : vec3 :=
  V3 (vdot (row1 m) v) (vdot (row2 m) v) (vdot (row3 m) v).
Definition col1 (m : mat3) : vec3 := V3 (vx (row1 m)) (vx (row2 m)) (vx (row3 m)).
Definition col2 (m : mat3) : vec3 := V3 (vy (row1 m)) (vy (row2 m)) (vy (row3 m)).
Definition col3 (m : mat3) : vec3 := V3 (vz (row1 m)) (vz (row2 m)) (vz (row3 m)).
Definition mmul (a b : mat3) : mat3 :=
  M3 (V3 (vdot (row1 a) (col1 b)) (vdot (row1 a) (col2 b)) (vdot (row1 a) (col3 b)))
     (V3 (vdot (row2 a) (col1 b)) (vdot (row2 a) (col2 b)) (vdot (row2 a) (col3 b)))
     (V3 (vdot (row3 a) (col1 b)) (vdot (row3 a) (col2 b)) (vdot (row3 a) (col3 b))).
Definition mscale (s : R) (a : mat3) : mat3 :=
  M3 (vscale s (row1 a)) (vscale s (row2 a)) (vscale s (row3 a)).

(** libphysica::Matrix::Determinant and Inverse (external; used in
    /repo/src/Astronomy.cpp:48,53,58,63). The inverse is the adjugate divided by
    the determinant; a singular matrix is an error. *)
Definition mdet (m : mat3) : R :=
  vx (row1 m) * (vy (row2 m) * vz (row3 m) - vz (row2 m) * vy (row3 m))
  - vy (row1 m) * (vx (row2 m) * vz (row3 m) - vz (row2 m) * vx (row3 m))
  + vz (row1 m) * (vx (row2 m) * vy (row3 m) - vy (row2 m) * vx (row3 m)).
Definition madj (m : mat3) : mat3 :=
  M3 (V3 (vy (row2 m) * vz (row3 m) - vz (row2 m) * vy (row3 m))
         (vz (row1 m) * vy (row3 m) - vy (row1 m) * vz (row3 m))
         (vy (row1 m) * vz (row2 m) - vz (row1 m) * vy (row2 m)))
     (V3 (vz (row2 m) * vx (row3 m) - vx (row2 m) * vz (row3 m))
         (vx (row1 m) * vz (row3 m) - vz (row1 m) * vx (row3 m))
         (vz (row1 m) * vx (row2 m) - vx (row1 m) * vz (row2 m)))
     (V3 (vx (row2 m) * vy (row3 m) - vy (row2 m) * vx (row3 m))
         (vy (row1 m) * vx (row3 m) - vx (row1 m) * vy (row3 m))
         (vx (row1 m) * vy (row2 m) - vy (row1 m) * vx (row2 m))).
Definition minverse (m : mat3) : res mat3 :=
  if Req_EM_T (mdet m) 0 then Exit else Ok (mscale (/ mdet m) (madj m)).

(** /repo/src/Astronomy.cpp:14-24, Transformation_Matrix_P. *)
Definition zeta_A (T : R) : R := 2306.083227 * arcsec * T + 0.298850 * arcsec * T * T.
Definition z_A (T : R) : R := 2306.077181 * arcsec * T + 1.092735 * arcsec * T * T.
Definition theta_A (T : R) : R := 2004.191903 * arcsec * T - 0.429493 * arcsec * T * T.
Definition Transformation_Matrix_P (T : R) : mat3 :=
  let zeta := zeta_A T in
  let z := z_A T in
  let theta := theta_A T in
  M3 (V3 (cos zeta * cos theta * cos z - sin zeta * sin z)
         (- sin zeta * cos theta * cos z - cos zeta * sin z)
         (- sin theta * cos z))
     (V3 (cos zeta * cos theta * sin z + sin zeta * cos z)
         (- sin zeta * cos theta * sin z + cos zeta * cos z)
         (- sin theta * sin z))
     (V3 (cos zeta * sin theta) (- sin zeta * sin theta) (cos theta)).

(** /repo/src/Astronomy.cpp:26-36, Transformation_Matrix_M. *)
Definition l_CP : R := 122.932 * deg.
Definition alpha_GP : R := 192.85948 * deg.
Definition delta_GP : R := 27.12825 * deg.
Definition Transformation_Matrix_M : mat3 :=
  M3 (V3 (- sin l_CP * sin alpha_GP - cos l_CP * cos alpha_GP * sin delta_GP)
         (sin l_CP * cos alpha_GP - cos l_CP * sin alpha_GP * sin delta_GP)
         (cos l_CP * cos delta_GP))
     (V3 (cos l_CP * sin alpha_GP - sin l_CP * cos alpha_GP * sin delta_GP)
         (- cos l_CP * cos alpha_GP - sin l_CP * sin alpha_GP * sin delta_GP)
         (sin l_CP * cos delta_GP))
     (V3 (cos alpha_GP * cos delta_GP) (sin alpha_GP * cos delta_GP) (sin delta_GP)).

(** libphysica::Rotation_Matrix(angle, 3, axis) for a unit axis (external; used
    in /repo/src/Astronomy.cpp:41): Rodrigues' formula. *)
Definition Rotation_Matrix (a : R) (n : vec3) : mat3 :=
  M3 (V3 (vx n * vx n * (1 - cos a) + cos a)
         (vx n * vy n * (1 - cos a) - vz n * sin a)
         (vx n * vz n * (1 - cos a) + vy n * sin a))
     (V3 (vy n * vx n * (1 - cos a) + vz n * sin a)
         (vy n * vy n * (1 - cos a) + cos a)
         (vy n * vz n * (1 - cos a) - vx n * sin a))
     (V3 (vz n * vx n * (1 - cos a) - vy n * sin a)
         (vz n * vy n * (1 - cos a) + vx n * sin a)
         (vz n * vz n * (1 - cos a) + cos a)).

(** /repo/src/Astronomy.cpp:38-43, Transformation_Matrix_R. *)
Definition ecliptic_obliquity (T : R) : R := 23.4393 * deg - 0.0130 * deg * T.
Definition Transformation_Matrix_R (T : R) : mat3 :=
  Rotation_Matrix (ecliptic_obliquity T) (V3 1 0 0).

(** /repo/src/Astronomy.cpp:46-49. *)
Definition Transform_Equat_to_Gal (v : vec3) (T : R) : res vec3 :=
  let* Pinv := minverse (Transformation_Matrix_P T) in
  Ok (mvec (mmul Transformation_Matrix_M Pinv) v).

(** /repo/src/Astronomy.cpp:51-54. *)
Definition Transform_GeoEcl_to_Gal (v : vec3) (T : R) : res vec3 :=
  let* Pinv := minverse (Transformation_Matrix_P T) in
  Ok (mvec (mmul (mmul Transformation_Matrix_M Pinv) (Transformation_Matrix_R T)) v).

(** /repo/src/Astronomy.cpp:56-59. *)
Definition Transform_HelEcl_to_Gal (v : vec3) (T : R) : res vec3 :=
  let* Pinv := minverse (Transformation_Matrix_P T) in
  Ok (mvec (mmul (mmul (mscale (-1) Transformation_Matrix_M) Pinv) (Transformation_Matrix_R T)) v).

(** /repo/src/Astronomy.cpp:61-64. *)
Definition Transform_Gal_to_Equat (v : vec3) (T : R) : res vec3 :=
  let* Minv := minverse Transformation_Matrix_M in
  Ok (mvec (mmul (Transformation_Matrix_P T) Minv) v).

(** C [floor] (as used in /repo/src/Astronomy.cpp:73,77). *)
Definition Rfloor (x : R) : R := IZR (Int_part x).

(** C [fmod(x, y)] for y > 0 (as used in /repo/src/Astronomy.cpp:87,96,117,118):
    x minus y times the quotient truncated toward zero, so it has the sign of x. *)
Definition Rtrunc (x : R) : R := if Rle_dec 0 x then Rfloor x else - Rfloor (- x).
Definition Rfmod (x y : R) : R := x - y * Rtrunc (x / y).

(** /repo/src/Astronomy.cpp:68-81, Fractional_Days_since_J2000.
    Simplified: [year - 1], [month + 13] do not overflow. *)
Definition Fractional_Days_since_J2000 (dd month yr : Z) (hour minute second : R) : R :=
  (if orb (month =? 1)%Z (month =? 2)%Z
   then Rfloor (365.25 * IZR (yr - 1)) + Rfloor (30.61 * IZR (month + 13))
   else Rfloor (365.25 * IZR yr) + Rfloor (30.61 * IZR (month + 1)))
  + (IZR dd - 730563.5 + hour / 24 + minute / 1440 + second / 86400).

(** /repo/src/Astronomy.cpp:83-97, Local_Apparent_Sidereal_Time. *)
Definition LAST_t (nJ2000 longitude : R) : R :=
  let T := nJ2000 / 36525 in
  let t := 86400 * (0.779057273264 + 0.00273781191135448 * nJ2000 + Rfmod nJ2000 1)
           + 0.00096707 + 307.47710227 * T + 0.092772113 * (T * T) in
  let epsilonA := 23.439279444 * deg - 0.01301021361 * deg * T in
  let Omega := 125.04455501 * deg - 0.05295376 * deg * nJ2000 in
  let L := 280.47 * deg - 0.98565 * deg * nJ2000 in
  let DeltaPsi := -1.1484 * sin Omega - 0.0864 * cos (2 * L) in
  let t1 := t + (DeltaPsi * cos epsilonA + 0.000176 * sin Omega + 0.000004 * sin (2 * Omega)) in
  t1 + longitude / 2 / PI * 86400.
Definition Local_Apparent_Sidereal_Time (nJ2000 longitude : R) : R :=
  Rfmod (LAST_t nJ2000 longitude) 86400 * sec.

(** /repo/src/Astronomy.cpp:100-108, Sun_Velocity. *)
Definition Sun_Velocity : vec3 :=
  vadd (V3 0 (220 * km / sec) 0) (V3 (11.1 * km / sec) (12.2 * km / sec) (7.3 * km / sec)).

(** /repo/src/Astronomy.cpp:110-130, Earth_Velocity. *)
Definition Earth_Velocity (nJ2000 : R) : res vec3 :=
  let vSun := Sun_Velocity in
  let e := 0.01671 in
  let L := Rfmod (280.46 * deg + nJ2000 * 0.9856474 * deg) (2 * PI) in
  let omega := Rfmod (282.932 * deg + nJ2000 * 0.0000471 * deg) (2 * PI) in
  let T := nJ2000 / 36525 in
  let* exEcl := Transform_HelEcl_to_Gal (V3 1 0 0) T in
  let* eyEcl := Transform_HelEcl_to_Gal (V3 0 1 0) T in
  let ve := 29.79 * km / sec in
  let uE := vadd (vscale (- ve * (sin L + e * sin (2 * L - omega))) exEcl)
                 (vscale (ve * (cos L + e * cos (2 * L - omega))) eyEcl) in
  Ok (vadd vSun uE).
