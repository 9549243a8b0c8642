(** Numbers, outcomes and containers shared by every model file.

    Nothing here is taken from one particular function of /repo; each
    definition says which C++ notion it stands for and where /repo uses it. *)
From Coq Require Import Reals List ZArith Lia Lra Bool String.
Import ListNotations.

Declare Scope xr_scope.
Delimit Scope xr_scope with xr.

(** [double] (used throughout /repo/src/*.cpp).
    Simplified: finite values are exact reals (no rounding, overflow,
    underflow or signed zero); the IEEE special values are kept apart so that
    a division by zero or an invalid operation is never given a number. *)
Inductive xr : Type :=
| Fin (r : R)
| PInf
| NInf
| NaN.

Bind Scope xr_scope with xr.

(** Sign tests on exact reals, used by the IEEE rules for infinities
    (C++ built-in arithmetic, all of /repo/src). *)
Definition rpos (x : R) : bool := if Rlt_dec 0 x then true else false.
Definition rneg (x : R) : bool := if Rlt_dec x 0 then true else false.

(** Infinity carrying the sign of [x]; NaN for zero. IEEE 754 rule for
    [x * inf] and for [x / 0] (C++ built-in operators, all of /repo/src). *)
Definition inf_sign (x : R) : xr :=
  if rpos x then PInf else if rneg x then NInf else NaN.

(** C++ [-a] on double (all of /repo/src). *)
Definition xopp (a : xr) : xr :=
  match a with
  | Fin x => Fin (- x)
  | PInf => NInf
  | NInf => PInf
  | NaN => NaN
  end.

(** C++ [a + b] on double (all of /repo/src). *)
Definition xadd (a b : xr) : xr :=
  match a, b with
  | NaN, _ => NaN
  | _, NaN => NaN
  | Fin x, Fin y => Fin (x + y)
  | PInf, NInf => NaN
  | NInf, PInf => NaN
  | PInf, _ => PInf
  | _, PInf => PInf
  | NInf, _ => NInf
  | _, NInf => NInf
  end.

(** C++ [a - b] on double (all of /repo/src). *)
Definition xsub (a b : xr) : xr :=
  match a, b with
  | NaN, _ => NaN
  | _, NaN => NaN
  | Fin x, Fin y => Fin (x - y)
  | PInf, PInf => NaN
  | NInf, NInf => NaN
  | PInf, _ => PInf
  | _, PInf => NInf
  | NInf, _ => NInf
  | _, NInf => PInf
  end.

(** C++ [a * b] on double (all of /repo/src). *)
Definition xmul (a b : xr) : xr :=
  match a, b with
  | NaN, _ => NaN
  | _, NaN => NaN
  | Fin x, Fin y => Fin (x * y)
  | Fin x, PInf => inf_sign x
  | Fin x, NInf => inf_sign (- x)
  | PInf, Fin y => inf_sign y
  | NInf, Fin y => inf_sign (- y)
  | PInf, PInf => PInf
  | NInf, NInf => PInf
  | PInf, NInf => NInf
  | NInf, PInf => NInf
  end.

(** C++ [a / b] on double (all of /repo/src).
    Simplified: every zero divisor counts as +0. *)
Definition xdiv (a b : xr) : xr :=
  match a, b with
  | NaN, _ => NaN
  | _, NaN => NaN
  | Fin x, Fin y => if Req_EM_T y 0 then inf_sign x else Fin (x / y)
  | Fin _, PInf => Fin 0
  | Fin _, NInf => Fin 0
  | PInf, Fin y => if rneg y then NInf else PInf
  | NInf, Fin y => if rneg y then PInf else NInf
  | _, _ => NaN
  end.

(** C [sqrt] (e.g. /repo/src/DM_Particle_Standard.cpp:57). *)
Definition xsqrt (a : xr) : xr :=
  match a with
  | Fin x => if rneg x then NaN else Fin (sqrt x)
  | PInf => PInf
  | _ => NaN
  end.

(** C [exp] (e.g. /repo/src/DM_Halo_Models.cpp:80). *)
Definition xexp (a : xr) : xr :=
  match a with
  | Fin x => Fin (exp x)
  | PInf => PInf
  | NInf => Fin 0
  | NaN => NaN
  end.

(** C [log] (e.g. /repo/src/Direct_Detection.cpp:40). *)
Definition xlog (a : xr) : xr :=
  match a with
  | Fin x => if rpos x then Fin (ln x) else if rneg x then NaN else NInf
  | PInf => PInf
  | _ => NaN
  end.

(** C [sin] and [cos] (e.g. /repo/src/Target_Nucleus.cpp:58). *)
Definition xsin (a : xr) : xr := match a with Fin x => Fin (sin x) | _ => NaN end.
Definition xcos (a : xr) : xr := match a with Fin x => Fin (cos x) | _ => NaN end.

(** C [fabs] (e.g. /repo/src/DM_Halo_Models.cpp:141). *)
Definition xabs (a : xr) : xr :=
  match a with
  | Fin x => Fin (Rabs x)
  | NaN => NaN
  | _ => PInf
  end.

(** C [pow(a, n)] for a fixed non-negative integer exponent
    (e.g. /repo/src/Direct_Detection.cpp:259). *)
Fixpoint xpow (a : xr) (n : nat) : xr :=
  match n with
  | O => Fin 1
  | S m => xmul a (xpow a m)
  end.

(** C++ [a < b], [a <= b], [a == b] on double: false as soon as a NaN is
    involved (all of /repo/src). *)
Definition xlt (a b : xr) : bool :=
  match a, b with
  | Fin x, Fin y => if Rlt_dec x y then true else false
  | Fin _, PInf => true
  | NInf, Fin _ => true
  | NInf, PInf => true
  | _, _ => false
  end.

Definition xeq (a b : xr) : bool :=
  match a, b with
  | Fin x, Fin y => if Req_EM_T x y then true else false
  | PInf, PInf => true
  | NInf, NInf => true
  | _, _ => false
  end.

Definition xle (a b : xr) : bool := xlt a b || xeq a b.

(** C++ [a != b] on double: true when a NaN is involved
    (e.g. /repo/src/DM_Particle_Standard.cpp:147). *)
Definition xne (a b : xr) : bool := negb (xeq a b).

(** Whether a double is neither infinite nor NaN (specification helper). *)
Definition is_fin (a : xr) : Prop := exists r, a = Fin r.

(** Real value of a finite double. Only ever used together with a finiteness
    statement; the value for specials is irrelevant (specification helper). *)
Definition val (a : xr) : R := match a with Fin r => r | _ => 0%R end.

Notation "# r" := (Fin r%R) (at level 8, r at level 8, format "# r") : xr_scope.
Notation "a + b" := (xadd a b) : xr_scope.
Notation "a - b" := (xsub a b) : xr_scope.
Notation "a * b" := (xmul a b) : xr_scope.
Notation "a / b" := (xdiv a b) : xr_scope.
Notation "- a" := (xopp a) : xr_scope.

(** Outcome of a call. [Exit]: error message followed by
    std::exit(EXIT_FAILURE) (e.g. /repo/src/Direct_Detection.cpp:144);
    [UB]: undefined behaviour; [Throw]: uncaught C++ exception. *)
Inductive res (A : Type) : Type :=
| Ok (a : A)
| Exit
| UB
| Throw.
Arguments Ok {A} a.
Arguments Exit {A}.
Arguments UB {A}.
Arguments Throw {A}.

Definition bind {A B : Type} (m : res A) (k : A -> res B) : res B :=
  match m with
  | Ok a => k a
  | Exit => Exit
  | UB => UB
  | Throw => Throw
  end.

Notation "'let*' x ':=' m 'in' k" := (bind m (fun x => k))
  (at level 200, x pattern, m at level 100, k at level 200, right associativity).

(** std::vector::operator[] (e.g. /repo/src/Direct_Detection_Crystal.cpp:209):
    reading past the end is undefined behaviour. *)
Definition at_ub {A : Type} (l : list A) (i : nat) : res A :=
  match nth_error l i with
  | Some a => Ok a
  | None => UB
  end.

(** The same with an index held in an unsigned C++ integer (non-negative). *)
Definition at_ubZ {A : Type} (l : list A) (i : Z) : res A :=
  if (i <? 0)%Z then UB else if (i <? Z.of_nat (List.length l))%Z then at_ub l (Z.to_nat i) else UB.

(** Unsigned wrap-around of [unsigned int] and [unsigned long]
    (e.g. /repo/src/Direct_Detection_Ionization.cpp:231). *)
Definition u32 (z : Z) : Z := (z mod 2 ^ 32)%Z.
Definition u64 (z : Z) : Z := (z mod 2 ^ 64)%Z.

(** Evaluating a call for every element of a list, in order: the loops
    [for(...) v.push_back(f(x))] (e.g. /repo/src/Direct_Detection.cpp:450). *)
Fixpoint map_res {A B : Type} (f : A -> res B) (l : list A) : res (list B) :=
  match l with
  | [] => Ok []
  | a :: t => let* b := f a in let* bs := map_res f t in Ok (b :: bs)
  end.

(** std::accumulate(v.begin(), v.end(), 0.0)
    (e.g. /repo/src/Direct_Detection_Crystal.cpp:137). *)
Definition xsum (l : list xr) : xr := fold_left xadd l (Fin 0).

(** Physical constants of libphysica::natural_units (external to /repo, used
    as [GeV], [cm], [km / sec], ... in all of /repo/src). Simplified: only
    the values that some theorem needs are given, as exact decimals. *)
Definition GeV : R := 1.
Definition eV : R := 1 / 1000000000.
Definition keV : R := 1 / 1000000.
Definition MeV : R := 1 / 1000.
Definition cm : R := 50677302143143.11.
Definition meter : R := 100 * cm.
Definition km : R := 1000 * meter.
Definition sec : R := 299792458 * meter.
Definition day : R := 86400 * sec.
Definition year : R := 365.25 * day.
Definition gram : R := 561797752808988700000000.
Definition kg : R := 1000 * gram.
Definition fm : R := cm / 10000000000000.
Definition deg : R := PI / 180.
Definition arcsec : R := deg / 3600.
Definition mProton : R := 0.938272081.
Definition mElectron : R := 0.0005109989461.
Definition mNucleon : R := 0.931494028.
Definition aEM : R := 1 / 137.035999139.
Definition km_sec : R := km / sec.
