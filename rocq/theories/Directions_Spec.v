(** Specification vocabulary for the orientation of the coordinate systems of
    /repo/src/Astronomy.cpp:14-130: unit vectors given by longitude and latitude
    (right ascension and declination) and the vector product. Nothing here is
    taken from the code. *)
From Coq Require Import Reals.
From Verif Require Import Base Astronomy_Model.
Local Open Scope R_scope.

(** Unit vector with longitude [lon] and latitude [lat] (compare the angles
    documented in /repo/src/Astronomy.cpp:16-18,28-30). *)
Definition direction (lon lat : R) : vec3 :=
  V3 (cos lat * cos lon) (cos lat * sin lon) (sin lat).

(** Right-handed vector product (not in /repo/src/Astronomy.cpp; used to say
    that a transformation does not mirror space). *)
Definition cross (a b : vec3) : vec3 :=
  V3 (vy a * vz b - vz a * vy b) (vz a * vx b - vx a * vz b) (vx a * vy b - vy a * vx b).

(** Degrees and arcseconds of an angle in radians (the constants of
    /repo/src/Astronomy.cpp:16-18,28-30,40 are given in these units). *)
Definition degrees (x : R) : R := x * PI / 180.
Definition arcseconds (x : R) : R := x * PI / (180 * 3600).
