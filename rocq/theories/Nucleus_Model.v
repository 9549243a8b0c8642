(** Isotopes, nuclei, recoil kinematics and the Helm form factor.
    Source: /repo/src/Target_Nucleus.cpp, /repo/include/obscura/Target_Nucleus.hpp. *)
From Coq Require Import Reals List ZArith String DecimalString.
From Verif Require Import Base.
Import ListNotations.
Local Open Scope xr_scope.

(** libphysica::Reduced_Mass (external to /repo; used in
    /repo/src/Target_Nucleus.cpp:19,23 and /repo/src/DM_Particle_Standard.cpp:57). *)
Definition Reduced_Mass (m1 m2 : xr) : xr := m1 * m2 / (m1 + m2).

(** vMinimal_Nucleus, /repo/src/Target_Nucleus.cpp:17-20. *)
Definition vMinimal_Nucleus (ER mDM mNucleus : xr) : xr :=
  xsqrt (mNucleus * ER / #2 / xpow (Reduced_Mass mDM mNucleus) 2).

(** Maximum_Nuclear_Recoil_Energy, /repo/src/Target_Nucleus.cpp:21-24. *)
Definition Maximum_Nuclear_Recoil_Energy (vDM mDM mNucleus : xr) : xr :=
  #2 * vDM * vDM * xpow (Reduced_Mass mDM mNucleus) 2 / mNucleus.

(** Nucleus_Names, /repo/src/Target_Nucleus.cpp:28. *)
Definition Nucleus_Names : list string :=
  ["H"; "He"; "Li"; "Be"; "B"; "C"; "N"; "O"; "F"; "Ne"; "Na"; "Mg"; "Al"; "Si"; "P"; "S"; "Cl"; "Ar"; "K"; "Ca";
   "Sc"; "Ti"; "V"; "Cr"; "Mn"; "Fe"; "Co"; "Ni"; "Cu"; "Zn"; "Ga"; "Ge"; "As"; "Se"; "Br"; "Kr"; "Rb"; "Sr"; "Y"; "Zr";
   "Nb"; "Mo"; "Tc"; "Ru"; "Rh"; "Pd"; "Ag"; "Cd"; "In"; "Sn"; "Sb"; "Te"; "I"; "Xe"; "Cs"; "Ba"; "La"; "Ce"; "Pr"; "Nd";
   "Pm"; "Sm"; "Eu"; "Gd"; "Tb"; "Dy"; "Ho"; "Er"; "Tm"; "Yb"; "Lu"; "Hf"; "Ta"; "W"; "Re"; "Os"; "Ir"; "Pt"; "Au"; "Hg";
   "Tl"; "Pb"; "Bi"; "Po"; "At"; "Rn"; "Fr"; "Ra"; "Ac"; "Th"; "Pa"; "U"; "Np"; "Pu"; "Am"; "Cm"; "Bk"; "Cf"; "Es"; "Fm";
   "Md"; "No"; "Lr"; "Rf"; "Db"; "Sg"; "Bh"; "Hs"; "Mt"; "Ds"; "Rg"; "Cn"; "Nh"; "Fl"; "Mc"; "Lv"; "Ts"; "Og"]%string.

(** struct Isotope, /repo/include/obscura/Target_Nucleus.hpp:18-27.
    Z and A are unsigned int. *)
Record Isotope : Type := mkIsotope {
  iZ : Z;
  iA : Z;
  iabundance : xr;
  ispin : xr;
  isp : xr;
  isn : xr;
  iname : string;
  imass : xr
}.

(** Isotope::Isotope(), /repo/src/Target_Nucleus.cpp:30-35. *)
Definition Isotope_default : Isotope :=
  mkIsotope 1 1 #1 #0.5 #0.5 #0 "H-1" (Fin mProton).

(** Isotope::Isotope(z, a, abund, Spin, Sp, Sn), /repo/src/Target_Nucleus.cpp:37-42.
    [Nucleus_Names[Z - 1]] with unsigned Z: Z = 0 wraps to a huge index. *)
Definition Isotope_ctor (z a : Z) (abund Spin Sp Sn : xr) : res Isotope :=
  let* nm := at_ubZ Nucleus_Names (u32 (z - 1)) in
  Ok (mkIsotope z a abund Spin Sp Sn
        (nm ++ "-" ++ NilZero.string_of_int (Z.to_int a))%string
        (if (a =? 1)%Z then Fin mProton else Fin (IZR a) * Fin mNucleon)).

(** pow(A, 1.0 / 3.0) for an unsigned A, /repo/src/Target_Nucleus.cpp:54. *)
Definition pow_third (a : Z) : R := if (a =? 0)%Z then 0%R else Rpower (IZR a) (1 / 3).

(** The squared nuclear radius c*c + 7/3 (pi a)^2 - 5 s s under the square root
    of Isotope::Helm_Form_Factor, /repo/src/Target_Nucleus.cpp:53-56. *)
Definition Helm_radicand (a : Z) : xr :=
  let a0 := Fin (0.52 * fm) in
  let c := (Fin (1.23 * pow_third a) - #0.6) * Fin fm in
  let s := Fin (0.9 * fm) in
  c * c + #7 / #3 * xpow (Fin PI * a0) 2 - #5 * s * s.

(** Isotope::Helm_Form_Factor, /repo/src/Target_Nucleus.cpp:49-59. *)
Definition Helm_Form_Factor (iso : Isotope) (q : xr) : xr :=
  if xlt q (Fin (1 / 1000000 * MeV)) then #1
  else
    let s := Fin (0.9 * fm) in
    let rn := xsqrt (Helm_radicand (iA iso)) in
    let qr := q * rn in
    #3 * (xsin qr / xpow qr 3 - xcos qr / xpow qr 2) * xexp (- q * q * s * s / #2).

(** struct Nucleus, /repo/include/obscura/Target_Nucleus.hpp:43-47. [nZ = None]
    when the constructor leaves the member [Z] uninitialised. *)
Record Nucleus : Type := mkNucleus {
  nZ : option Z;
  nisotopes : list Isotope;
  nname : string
}.

(** Nucleus::Nucleus(), /repo/src/Target_Nucleus.cpp:68-71 (Z stays uninitialised). *)
Definition Nucleus_default : Nucleus := mkNucleus None [] "".

(** Nucleus::Nucleus(const std::vector<Isotope>&), /repo/src/Target_Nucleus.cpp:73-77:
    iso[0] is undefined behaviour on an empty vector. *)
Definition Nucleus_of_isotopes (iso : list Isotope) : res Nucleus :=
  let* i0 := at_ub iso 0 in
  let* nm := at_ubZ Nucleus_Names (iZ i0 - 1) in
  Ok (mkNucleus (Some (iZ i0)) iso nm).

(** Nucleus::Nucleus(const Isotope&), /repo/src/Target_Nucleus.cpp:79-83
    (Z stays uninitialised). *)
Definition Nucleus_of_isotope (iso : Isotope) : res Nucleus :=
  let* nm := at_ubZ Nucleus_Names (u32 (iZ iso - 1)) in
  Ok (mkNucleus None [iso] nm).

(** Nucleus::Average_Nuclear_Mass, /repo/src/Target_Nucleus.cpp:95-101. *)
Definition Average_Nuclear_Mass (n : Nucleus) : xr :=
  fold_left (fun acc i => acc + imass i * iabundance i) (nisotopes n) #0.

(** Nucleus::Get_Isotope, /repo/src/Target_Nucleus.cpp:122-129. *)
Fixpoint Get_Isotope_loop (l : list Isotope) (a : Z) : res Isotope :=
  match l with
  | [] => Exit
  | i :: t => if (iA i =? a)%Z then Ok i else Get_Isotope_loop t a
  end.
Definition Nucleus_Get_Isotope (n : Nucleus) (a : Z) : res Isotope := Get_Isotope_loop (nisotopes n) a.
