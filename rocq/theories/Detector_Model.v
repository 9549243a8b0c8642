(** The detector base class: statistics, energy bins and limits.
    Source: /repo/src/Direct_Detection.cpp, /repo/include/obscura/Direct_Detection.hpp. *)
From Coq Require Import Reals List ZArith String.
From Verif Require Import Base Nucleus_Model Particle_Model Distribution_Model Atom_Model Crystal_Model Rates_Model.
Import ListNotations.
Local Open Scope xr_scope.

(** The member statistical_analysis (/repo/include/obscura/Direct_Detection.hpp:21). Simplified: a string in the code; these are the only
    values any function assigns ("Poisson", "Binned Poisson", "Maximum Gap"). *)
Inductive analysis : Type := Poisson | Binned_Poisson | Maximum_Gap.

(** Data members of DM_Detector, /repo/include/obscura/Direct_Detection.hpp:16-60. *)
Record detector : Type := mkDetector {
  b_targets : string;
  b_exposure : xr;
  b_flat_efficiency : xr;
  b_analysis : analysis;
  b_observed : Z;
  b_background : xr;
  b_bins : Z;
  b_efficiencies : list xr;
  b_bin_observed : list Z;
  b_bin_background : list xr;
  b_using_fiducial : bool;
  b_fiducial_coupling : xr;
  b_fiducial_signals : xr;
  b_fiducial_spectrum : list xr;
  b_gap_data : list xr;
  b_threshold : xr;
  b_energy_max : xr;
  b_using_threshold : bool;
  b_using_bins : bool;
  b_bin_energies : list xr;
  b_name : string }.

(** The constructors of DM_Detector, /repo/include/obscura/Direct_Detection.hpp:61-64. The members with initialisers in the class
    (37-39) get these; vectors start empty. *)
Definition Detector_ctor (label : string) (expo : xr) (target_type : string) : detector :=
  mkDetector target_type expo #1.0 Poisson 0 #0.0 0 [] [] [] false #0.0 #0.0 [] [] #0 #0 false false [] label.
Definition Detector_default : detector := Detector_ctor "base name" #0.0 "base targets".

(** Assignments to members of one object (e.g. /repo/src/Direct_Detection.cpp:133-135,174-178,203-204). *)
Definition with_poisson  (d : detector) : detector :=
  mkDetector (b_targets d) (b_exposure d) (b_flat_efficiency d) (Poisson) (0%Z) (#0) (b_bins d) (b_efficiencies d) (b_bin_observed d) (b_bin_background d) (b_using_fiducial d) (b_fiducial_coupling d) (b_fiducial_signals d) (b_fiducial_spectrum d) (b_gap_data d) (b_threshold d) (b_energy_max d) (b_using_threshold d) (b_using_bins d) (b_bin_energies d) (b_name d).
Definition with_observed (n : Z) (d : detector) : detector :=
  mkDetector (b_targets d) (b_exposure d) (b_flat_efficiency d) (b_analysis d) (n) (b_background d) (b_bins d) (b_efficiencies d) (b_bin_observed d) (b_bin_background d) (b_using_fiducial d) (b_fiducial_coupling d) (b_fiducial_signals d) (b_fiducial_spectrum d) (b_gap_data d) (b_threshold d) (b_energy_max d) (b_using_threshold d) (b_using_bins d) (b_bin_energies d) (b_name d).
Definition with_background (x : xr) (d : detector) : detector :=
  mkDetector (b_targets d) (b_exposure d) (b_flat_efficiency d) (b_analysis d) (b_observed d) (x) (b_bins d) (b_efficiencies d) (b_bin_observed d) (b_bin_background d) (b_using_fiducial d) (b_fiducial_coupling d) (b_fiducial_signals d) (b_fiducial_spectrum d) (b_gap_data d) (b_threshold d) (b_energy_max d) (b_using_threshold d) (b_using_bins d) (b_bin_energies d) (b_name d).
Definition with_binned (n : Z) (o : list Z) (g e : list xr) (d : detector) : detector :=
  mkDetector (b_targets d) (b_exposure d) (b_flat_efficiency d) (Binned_Poisson) (b_observed d) (b_background d) (n) (e) (o) (g) (b_using_fiducial d) (b_fiducial_coupling d) (b_fiducial_signals d) (b_fiducial_spectrum d) (b_gap_data d) (b_threshold d) (b_energy_max d) (b_using_threshold d) (b_using_bins d) (b_bin_energies d) (b_name d).
Definition with_bin_observed (l : list Z) (n : Z) (d : detector) : detector :=
  mkDetector (b_targets d) (b_exposure d) (b_flat_efficiency d) (b_analysis d) (n) (b_background d) (b_bins d) (b_efficiencies d) (l) (b_bin_background d) (b_using_fiducial d) (b_fiducial_coupling d) (b_fiducial_signals d) (b_fiducial_spectrum d) (b_gap_data d) (b_threshold d) (b_energy_max d) (b_using_threshold d) (b_using_bins d) (b_bin_energies d) (b_name d).
Definition with_bin_background (l : list xr) (x : xr) (d : detector) : detector :=
  mkDetector (b_targets d) (b_exposure d) (b_flat_efficiency d) (b_analysis d) (b_observed d) (x) (b_bins d) (b_efficiencies d) (b_bin_observed d) (l) (b_using_fiducial d) (b_fiducial_coupling d) (b_fiducial_signals d) (b_fiducial_spectrum d) (b_gap_data d) (b_threshold d) (b_energy_max d) (b_using_threshold d) (b_using_bins d) (b_bin_energies d) (b_name d).
Definition with_efficiencies (l : list xr) (d : detector) : detector :=
  mkDetector (b_targets d) (b_exposure d) (b_flat_efficiency d) (b_analysis d) (b_observed d) (b_background d) (b_bins d) (l) (b_bin_observed d) (b_bin_background d) (b_using_fiducial d) (b_fiducial_coupling d) (b_fiducial_signals d) (b_fiducial_spectrum d) (b_gap_data d) (b_threshold d) (b_energy_max d) (b_using_threshold d) (b_using_bins d) (b_bin_energies d) (b_name d).
Definition with_flat (x : xr) (d : detector) : detector :=
  mkDetector (b_targets d) (b_exposure d) (x) (b_analysis d) (b_observed d) (b_background d) (b_bins d) (b_efficiencies d) (b_bin_observed d) (b_bin_background d) (b_using_fiducial d) (b_fiducial_coupling d) (b_fiducial_signals d) (b_fiducial_spectrum d) (b_gap_data d) (b_threshold d) (b_energy_max d) (b_using_threshold d) (b_using_bins d) (b_bin_energies d) (b_name d).
Definition with_gap (l : list xr) (lo hi : xr) (d : detector) : detector :=
  mkDetector (b_targets d) (b_exposure d) (b_flat_efficiency d) (Maximum_Gap) (b_observed d) (b_background d) (b_bins d) (b_efficiencies d) (b_bin_observed d) (b_bin_background d) (b_using_fiducial d) (b_fiducial_coupling d) (b_fiducial_signals d) (b_fiducial_spectrum d) (l) (lo) (hi) (b_using_threshold d) (b_using_bins d) (b_bin_energies d) (b_name d).
Definition with_range (lo hi : xr) (d : detector) : detector :=
  mkDetector (b_targets d) (b_exposure d) (b_flat_efficiency d) (b_analysis d) (b_observed d) (b_background d) (b_bins d) (b_efficiencies d) (b_bin_observed d) (b_bin_background d) (b_using_fiducial d) (b_fiducial_coupling d) (b_fiducial_signals d) (b_fiducial_spectrum d) (b_gap_data d) (lo) (hi) (b_using_threshold d) (b_using_bins d) (b_bin_energies d) (b_name d).
Definition with_using (t u : bool) (d : detector) : detector :=
  mkDetector (b_targets d) (b_exposure d) (b_flat_efficiency d) (b_analysis d) (b_observed d) (b_background d) (b_bins d) (b_efficiencies d) (b_bin_observed d) (b_bin_background d) (b_using_fiducial d) (b_fiducial_coupling d) (b_fiducial_signals d) (b_fiducial_spectrum d) (b_gap_data d) (b_threshold d) (b_energy_max d) (t) (u) (b_bin_energies d) (b_name d).
Definition with_bin_energies (l : list xr) (d : detector) : detector :=
  mkDetector (b_targets d) (b_exposure d) (b_flat_efficiency d) (b_analysis d) (b_observed d) (b_background d) (b_bins d) (b_efficiencies d) (b_bin_observed d) (b_bin_background d) (b_using_fiducial d) (b_fiducial_coupling d) (b_fiducial_signals d) (b_fiducial_spectrum d) (b_gap_data d) (b_threshold d) (b_energy_max d) (b_using_threshold d) (b_using_bins d) (l) (b_name d).
Definition with_fiducial (f : bool) (c n : xr) (l : list xr) (d : detector) : detector :=
  mkDetector (b_targets d) (b_exposure d) (b_flat_efficiency d) (b_analysis d) (b_observed d) (b_background d) (b_bins d) (b_efficiencies d) (b_bin_observed d) (b_bin_background d) (f) (c) (n) (l) (b_gap_data d) (b_threshold d) (b_energy_max d) (b_using_threshold d) (b_using_bins d) (b_bin_energies d) (b_name d).

(** DM_Detector::Initialize_Poisson, /repo/src/Direct_Detection.cpp:131-136. *)
Definition Initialize_Poisson (d : detector) : detector := with_poisson d.

(** DM_Detector::Set_Observed_Events(unsigned long int), /repo/src/Direct_Detection.cpp:138-149. *)
Definition Set_Observed_Events (n : Z) (d : detector) : res detector :=
  match b_analysis d with Poisson => Ok (with_observed n d) | _ => Exit end.

(** DM_Detector::Set_Expected_Background(double), /repo/src/Direct_Detection.cpp:151-162. *)
Definition Set_Expected_Background (B : xr) (d : detector) : res detector :=
  match b_analysis d with Poisson => Ok (with_background B d) | _ => Exit end.

(** DM_Detector::Initialize_Binned_Poisson, /repo/src/Direct_Detection.cpp:165-180. Simplified: allocation never fails. *)
Definition Initialize_Binned_Poisson (bins : Z) (d : detector) : res detector :=
  match b_analysis d with
  | Binned_Poisson => Exit
  | _ => Ok (with_binned bins (repeat 0%Z (Z.to_nat bins)) (repeat #0.0 (Z.to_nat bins)) (repeat #1.0 (Z.to_nat bins)) d)
  end.

(** std::accumulate(v.begin(), v.end(), 0) over unsigned long, /repo/src/Direct_Detection.cpp:197: the accumulator has the type of the
    initial value, int, so every partial sum (an unsigned long) is converted back to int (32 bits, two's complement). *)
Definition s32 (z : Z) : Z := ((z + 2 ^ 31) mod 2 ^ 32 - 2 ^ 31)%Z.
Definition accumulate_int (l : list Z) : Z := fold_left (fun acc n => s32 (u64 (u64 acc + n))) l 0%Z.

(** DM_Detector::Set_Observed_Events(std::vector<unsigned long int>), /repo/src/Direct_Detection.cpp:182-199. *)
Definition Set_Observed_Events_Binned (Ni : list Z) (d : detector) : res detector :=
  match b_analysis d with
  | Binned_Poisson =>
      if (Z.of_nat (List.length Ni) =? b_bins d)%Z then Ok (with_bin_observed Ni (u64 (accumulate_int Ni)) d) else Exit
  | _ => Exit
  end.

(** DM_Detector::Set_Bin_Efficiencies, /repo/src/Direct_Detection.cpp:201-217. *)
Definition Set_Bin_Efficiencies (eff : list xr) (d : detector) : res detector :=
  match b_analysis d with
  | Binned_Poisson => if (Z.of_nat (List.length eff) =? b_bins d)%Z then Ok (with_efficiencies eff d) else Exit
  | _ => Exit
  end.

(** DM_Detector::Set_Expected_Background(const std::vector<double>&), /repo/src/Direct_Detection.cpp:219-236. *)
Definition Set_Expected_Background_Binned (Bi : list xr) (d : detector) : res detector :=
  match b_analysis d with
  | Binned_Poisson => if (Z.of_nat (List.length Bi) =? b_bins d)%Z then Ok (with_bin_background Bi (xsum Bi) d) else Exit
  | _ => Exit
  end.

(** std::sort on doubles (/repo/src/Direct_Detection.cpp:244); with a NaN among several numbers the comparison is no strict weak order
    and the call is undefined. *)
Fixpoint insert_sorted (x : xr) (l : list xr) : list xr :=
  match l with
  | [] => [x]
  | y :: t => if xlt y x then y :: insert_sorted x t else x :: l
  end.
Definition sort_doubles (l : list xr) : list xr := fold_right insert_sorted [] l.
Definition is_nan (a : xr) : bool := match a with NaN => true | _ => false end.

(** DM_Detector::Use_Maximum_Gap, /repo/src/Direct_Detection.cpp:239-247. front() and back() of an empty vector are undefined. *)
Definition Use_Maximum_Gap (energies : list xr) (d : detector) : res detector :=
  if (existsb is_nan energies && (1 <? Z.of_nat (List.length energies))%Z)%bool then UB
  else
    let l := sort_doubles energies in
    match l with
    | [] => UB
    | lo :: _ => Ok (with_gap l lo (last l lo) d)
    end.

(** DM_Detector::Set_Flat_Efficiency, /repo/src/Direct_Detection.cpp:303-306. *)
Definition Set_Flat_Efficiency (eff : xr) (d : detector) : detector := with_flat eff d.

(** DM_Detector::Use_Energy_Threshold, /repo/src/Direct_Detection.cpp:419-430. *)
Definition Use_Energy_Threshold (Ethr Emax : xr) (d : detector) : res detector :=
  let d1 := with_range Ethr Emax (with_using true (b_using_bins d) (Initialize_Poisson d)) in
  if xlt Emax Ethr then Exit else Ok d1.

(** DM_Detector::Use_Energy_Bins, /repo/src/Direct_Detection.cpp:432-444. The int argument is converted to unsigned, and number_of_bins + 1
    is unsigned arithmetic. *)
Definition Use_Energy_Bins (Emin Emax : xr) (bins : Z) (d : detector) : res detector :=
  let* d1 := Initialize_Binned_Poisson (u32 bins) d in
  let d2 := with_range Emin Emax (with_using (b_using_threshold d1) true d1) in
  let d3 := with_bin_energies (Linear_Space Emin Emax (Z.to_nat (u32 (b_bins d2 + 1)))) d2 in
  if xlt Emax Emin then Exit else Ok d3.

(** The public configuration calls of DM_Detector (/repo/include/obscura/Direct_Detection.hpp:68,85-101). *)
Inductive base_op : Type :=
| BFlat (x : xr)
| BObserved (n : Z)
| BBackground (x : xr)
| BBin_Observed (l : list Z)
| BBin_Efficiencies (l : list xr)
| BBin_Background (l : list xr)
| BMaximum_Gap (l : list xr)
| BThreshold (lo hi : xr)
| BBins (lo hi : xr) (n : Z).
Definition base_step (d : detector) (o : base_op) : res detector :=
  match o with
  | BFlat x => Ok (Set_Flat_Efficiency x d)
  | BObserved n => Set_Observed_Events n d
  | BBackground x => Set_Expected_Background x d
  | BBin_Observed l => Set_Observed_Events_Binned l d
  | BBin_Efficiencies l => Set_Bin_Efficiencies l d
  | BBin_Background l => Set_Expected_Background_Binned l d
  | BMaximum_Gap l => Use_Maximum_Gap l d
  | BThreshold lo hi => Use_Energy_Threshold lo hi d
  | BBins lo hi n => Use_Energy_Bins lo hi n d
  end.

(** Integration of an interpolated function, [libphysica::Interpolation f(xs, ys); f.Integrate(a, b)] (external;
    /repo/src/Direct_Detection.cpp:284,292,330-331). *)
Definition interpolation_integral : Type := list xr -> list xr -> xr -> xr -> res xr.

(** DM_Detector::DM_Signals_Energy_Bins, /repo/src/Direct_Detection.cpp:446-466, for the spectrum [dRdE] (a virtual function). *)
Definition DM_Signals_Energy_Bins (Integrate : integrator) (dRdE : xr -> res xr) (d : detector) : res (list xr) :=
  if negb (b_using_bins d) then Exit
  else map_res (fun i =>
    let* lo := at_ub (b_bin_energies d) i in
    let* hi := at_ub (b_bin_energies d) (S i) in
    let* integral := Integrate dRdE lo hi in
    let mu := b_exposure d * integral in
    let* e := at_ub (b_efficiencies d) i in
    Ok (e * mu)) (seq 0 (Z.to_nat (b_bins d))).

(** DM_Detector::DM_Signals_Binned, /repo/src/Direct_Detection.cpp:341-355. *)
Definition DM_Signals_Binned_Base (Integrate : integrator) (dRdE : xr -> res xr) (d : detector) : res (list xr) :=
  match b_analysis d with
  | Binned_Poisson => if b_using_bins d then DM_Signals_Energy_Bins Integrate dRdE d else Exit
  | _ => Exit
  end.

(** DM_Detector::DM_Signals_Total, /repo/src/Direct_Detection.cpp:314-334. *)
Definition DM_Signals_Total_Base (Integrate : integrator) (Interpolate : interpolation_integral) (dRdE : xr -> res xr) (d : detector) : res xr :=
  match b_analysis d with
  | Binned_Poisson => let* l := DM_Signals_Binned_Base Integrate dRdE d in Ok (xsum l)
  | _ =>
      let args := Log_Space (b_threshold d) (b_energy_max d) 200 in
      let* values := map_res dRdE args in
      let* integral := Interpolate args values (b_threshold d) (b_energy_max d) in
      Ok (b_exposure d * integral)
  end.

(** CDF_Maximum_Gap, /repo/src/Direct_Detection.cpp:249-266. libphysica::Factorial (external) is the exact factorial. *)
Definition gap_term (x mu : xr) (k : Z) : xr :=
  let K := Fin (IZR k) in
  xpow (K * x - mu) (Z.to_nat k) / Fin (INR (fact (Z.to_nat k))) * xexp (- K * x) * (#1.0 + K / (mu - K * x)).
Fixpoint gap_loop (x mu sum : xr) (l : list Z) : xr :=
  match l with
  | [] => sum
  | k :: t =>
      let term := gap_term x mu k in
      let sum := sum + term in
      if xlt (xabs term) #1e-20 then sum else gap_loop x mu sum t
  end.
Definition CDF_Maximum_Gap (x mu : xr) : res xr :=
  if xeq x mu then Ok (#1.0 - xexp (- mu))
  else
    let* m := to_int (mu / x) in
    Ok (gap_loop x mu #0.0 (Zrange 0 (m + 1))).

(** *std::max_element and *std::min_element (/repo/src/Direct_Detection.cpp:115,296): dereferencing the result for an empty range is
    undefined; the first of several equal elements is taken. *)
Definition max_element (l : list xr) : res xr :=
  match l with [] => UB | h :: t => Ok (fold_left (fun m y => if xlt m y then y else m) t h) end.
Definition min_element (l : list xr) : res xr :=
  match l with [] => UB | h :: t => Ok (fold_left (fun m y => if xlt y m then y else m) t h) end.

(** Pairs of consecutive entries (the loop of /repo/src/Direct_Detection.cpp:288-294; for an empty vector size() - 1 wraps around and the
    loop reads out of bounds). *)
Fixpoint consecutive (l : list xr) : list (xr * xr) :=
  match l with
  | [] => []
  | a :: t => match t with [] => [] | b :: _ => (a, b) :: consecutive t end
  end.

(** DM_Detector::P_Value_Maximum_Gap, /repo/src/Direct_Detection.cpp:268-301; [deposit] is Maximum_Energy_Deposit and [dRdE] the
    spectrum (virtual functions). *)
Definition P_Value_Maximum_Gap (Interpolate : interpolation_integral) (deposit : res xr) (dRdE : xr -> res xr) (d : detector) : res xr :=
  let* m := deposit in
  let energies := if xlt m (b_energy_max d) then Linear_Space (b_threshold d) m 400 ++ [b_energy_max d]
                  else Linear_Space (b_threshold d) (b_energy_max d) 400 in
  let* spectrum := map_res (fun E => let* r := dRdE E in Ok (b_exposure d * r)) energies in
  match b_gap_data d with
  | [] => UB
  | _ =>
    let* gaps := map_res (fun p => Interpolate energies spectrum (fst p) (snd p)) (consecutive (b_gap_data d)) in
    let* max_gap := max_element gaps in
    let N := xsum gaps in
    let* c := CDF_Maximum_Gap max_gap N in
    Ok (#1.0 - c)
  end.

(** The virtual functions of a detector object as seen by the statistics code, with the distribution and the derived part of the object
    fixed (/repo/include/obscura/Direct_Detection.hpp:70-77). *)
Record virtuals : Type := mkVirtuals {
  v_deposit : detector -> particle -> res xr;
  v_minimum_mass : detector -> particle -> res xr;
  v_dRdE : detector -> particle -> xr -> res xr;
  v_total : detector -> particle -> res xr;
  v_binned : detector -> particle -> res (list xr) }.

(** The external statistics routines: libphysica::CDF_Poisson, Log_Likelihood_Poisson, Log_Likelihood_Poisson_Binned and the
    interpolation (/repo/src/Direct_Detection.cpp:30,39,94,113,284). *)
Record statistics : Type := mkStatistics {
  CDF_Poisson : xr -> Z -> res xr;
  LogL_Poisson : xr -> Z -> xr -> res xr;
  LogL_Poisson_Binned : list xr -> list Z -> list xr -> res xr;
  Interpolate : interpolation_integral }.

(** DM_Detector::Log_Likelihood, /repo/src/Direct_Detection.cpp:21-49. The comparison n > s converts n to double. *)
Definition profiled (b : xr) (n : Z) (s : xr) : xr := if (xlt b #1.0e-4 && xlt s (Fin (IZR n)))%bool then Fin (IZR n) - s else b.
Definition Log_Likelihood (X : statistics) (V : virtuals) (d : detector) (p : particle) : res xr :=
  match b_analysis d with
  | Poisson =>
      let* s := v_total V d p in
      LogL_Poisson X s (b_observed d) (profiled (b_background d) (b_observed d) s)
  | Binned_Poisson =>
      let* s := v_binned V d p in
      let* b := map_res (fun i =>
        let* bi := at_ub (b_bin_background d) i in
        if xlt bi #1.0e-4 then
          let* ni := at_ub (b_bin_observed d) i in
          let* si := at_ub s i in
          Ok (profiled bi ni si)
        else Ok bi) (seq 0 (List.length (b_bin_background d))) in
      LogL_Poisson_Binned X s (b_bin_observed d) b
  | Maximum_Gap =>
      let* q := P_Value_Maximum_Gap (Interpolate X) (v_deposit V d p) (v_dRdE V d p) d in
      Ok (xlog q)
  end.

(** DM_Detector::Likelihood, /repo/src/Direct_Detection.cpp:51-54. *)
Definition Likelihood (X : statistics) (V : virtuals) (d : detector) (p : particle) : res xr :=
  let* l := Log_Likelihood X V d p in Ok (xexp l).

(** DM_Detector::P_Value, /repo/src/Direct_Detection.cpp:75-128. The interaction parameter of every modelled particle is a cross section
    (/repo/src/DM_Particle_Standard.cpp:17,24), so the rescaling power is 1. *)
Definition P_Value (X : statistics) (V : virtuals) (d : detector) (p : particle) : res xr :=
  match b_analysis d with
  | Poisson =>
      let* mu := if b_using_fiducial d then
                   let* coupling := Get_Interaction_Parameter (b_targets d) p in
                   Ok (xpow (coupling / b_fiducial_coupling d) 1 * b_fiducial_signals d)
                 else v_total V d p in
      CDF_Poisson X (mu + b_background d) (b_observed d)
  | Binned_Poisson =>
      let* mus := if b_using_fiducial d then
                    let* coupling := Get_Interaction_Parameter (b_targets d) p in
                    Ok (map (fun x => xpow (coupling / b_fiducial_coupling d) 1 * x) (b_fiducial_spectrum d))
                  else v_binned V d p in
      let* ps := map_res (fun i =>
        let* m := at_ub mus i in
        let* g := at_ub (b_bin_background d) i in
        let* n := at_ub (b_bin_observed d) i in
        CDF_Poisson X (m + g) n) (seq 0 (Z.to_nat (b_bins d))) in
      min_element ps
  | Maximum_Gap => P_Value_Maximum_Gap (Interpolate X) (v_deposit V d p) (v_dRdE V d p) d
  end.

(** libphysica::Find_Root (external, /repo/src/Direct_Detection.cpp:382) applied to a function with side effects: the particle is
    changed by every evaluation, so it is passed along. *)
Definition root_finder : Type := forall S : Type, (S -> xr -> res (xr * S)) -> xr -> xr -> xr -> S -> res (xr * S).

(** pow(10.0, x), /repo/src/Direct_Detection.cpp:373,394. *)
Definition xpow10 (x : xr) : xr := match x with Fin r => Fin (Rpower 10 r) | PInf => PInf | NInf => #0 | NaN => NaN end.

(** The switch to fiducial values, /repo/src/Direct_Detection.cpp:363-371. *)
Definition set_fiducial (V : virtuals) (orig : xr) (d : detector) (p : particle) : res detector :=
  match b_analysis d with
  | Binned_Poisson =>
      let d1 := with_fiducial true orig (b_fiducial_signals d) (b_fiducial_spectrum d) d in
      let* l := v_binned V d1 p in Ok (with_fiducial true orig (b_fiducial_signals d) l d1)
  | Poisson =>
      let d1 := with_fiducial true orig (b_fiducial_signals d) (b_fiducial_spectrum d) d in
      let* n := v_total V d1 p in Ok (with_fiducial true orig n (b_fiducial_spectrum d) d1)
  | Maximum_Gap => Ok d
  end.

(** func, /repo/src/Direct_Detection.cpp:372-377. *)
Definition limit_func (X : statistics) (V : virtuals) (d : detector) (certainty : xr) (p : particle) (x : xr) : res (xr * particle) :=
  let* p1 := Set_Interaction_Parameter (xpow10 x) (b_targets d) p in
  let* q := P_Value X V d p1 in
  Ok (q - (#1.0 - certainty), p1).

(** DM_Detector::Upper_Limit, /repo/src/Direct_Detection.cpp:358-397. C++ leaves open which of func(-30) and func(10) is evaluated first;
    the model evaluates func(-30) first. The result holds the returned number, the detector and the particle afterwards. *)
Definition Upper_Limit (Find_Root : root_finder) (X : statistics) (V : virtuals) (d : detector) (p : particle) (certainty : xr)
    : res (xr * detector * particle) :=
  let* orig := Get_Interaction_Parameter (b_targets d) p in
  let* d1 := set_fiducial V orig d p in
  let* (f1, p1) := limit_func X V d1 certainty p #(-30.0) in
  let* (f2, p2) := limit_func X V d1 certainty p1 #10.0 in
  let* (root, p3) := if xlt #0 (f1 * f2) then Ok (None, p2)
                      else let* (r, p3) := Find_Root particle (limit_func X V d1 certainty) #(-30.0) #10.0 #1.0e-4 p2 in Ok (Some r, p3) in
  let* p4 := Set_Interaction_Parameter orig (b_targets d1) p3 in
  let d2 := match b_analysis d1 with Maximum_Gap => d1 | _ => with_fiducial false #0.0 #0.0 [] d1 end in
  Ok (match root with Some r => xpow10 r | None => #(-1.0) end, d2, p4).

(** DM_Detector::Upper_Limit_Curve, /repo/src/Direct_Detection.cpp:399-416. *)
Fixpoint limit_curve_loop (Find_Root : root_finder) (X : statistics) (V : virtuals) (certainty lowest : xr) (d : detector) (p : particle)
    (masses : list xr) : res (list (list xr) * detector * particle) :=
  match masses with
  | [] => Ok ([], d, p)
  | m :: t =>
      if xlt m lowest then limit_curve_loop Find_Root X V certainty lowest d p t
      else
        let p1 := Set_Mass m p in
        let* (u, d1, p2) := Upper_Limit Find_Root X V d p1 certainty in
        let* (rest, d2, p3) := limit_curve_loop Find_Root X V certainty lowest d1 p2 t in
        Ok (if xlt #0.0 u then [m; u] :: rest else rest, d2, p3)
  end.
Definition Upper_Limit_Curve (Find_Root : root_finder) (X : statistics) (V : virtuals) (d : detector) (p : particle) (masses : list xr)
    (certainty : xr) : res (list (list xr) * detector * particle) :=
  let original := mass p in
  let* lowest := v_minimum_mass V d p in
  let* (limit, d1, p1) := limit_curve_loop Find_Root X V certainty lowest d p masses in
  Ok (limit, d1, Set_Mass original p1).

(** DM_Detector::Log_Likelihood_Scan, /repo/src/Direct_Detection.cpp:56-73. *)
Fixpoint scan_couplings (X : statistics) (V : virtuals) (d : detector) (m : xr) (p : particle) (couplings : list xr)
    : res (list (list xr) * particle) :=
  match couplings with
  | [] => Ok ([], p)
  | c :: t =>
      let* p1 := Set_Interaction_Parameter c (b_targets d) p in
      let* l := Log_Likelihood X V d p1 in
      let* (rest, p2) := scan_couplings X V d m p1 t in
      Ok ([m; c; l] :: rest, p2)
  end.
Fixpoint scan_masses (X : statistics) (V : virtuals) (d : detector) (couplings : list xr) (p : particle) (masses : list xr)
    : res (list (list xr) * particle) :=
  match masses with
  | [] => Ok ([], p)
  | m :: t =>
      let* (row, p1) := scan_couplings X V d m (Set_Mass m p) couplings in
      let* (rest, p2) := scan_masses X V d couplings p1 t in
      Ok (row ++ rest, p2)
  end.
Definition Log_Likelihood_Scan (X : statistics) (V : virtuals) (d : detector) (p : particle) (masses couplings : list xr)
    : res (list (list xr) * particle) :=
  let original := mass p in
  let* orig := Get_Interaction_Parameter (b_targets d) p in
  let* (rows, p1) := scan_masses X V d couplings p masses in
  let* p2 := Set_Interaction_Parameter orig (b_targets d) (Set_Mass original p1) in
  Ok (rows, p2).

(** DM_Detector::DM_Signal_Rate_Total, /repo/src/Direct_Detection.cpp:336-339. *)
Definition DM_Signal_Rate_Total (V : virtuals) (d : detector) (p : particle) : res xr :=
  let* n := v_total V d p in Ok (n / b_exposure d).
