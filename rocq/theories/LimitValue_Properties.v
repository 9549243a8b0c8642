(** C108: which parameter an upper limit reports. *)
From Coq Require Import Reals ZArith String Lra Lia Bool.
From Coq Require Import List.
From Verif Require Import Base XrFacts Nucleus_Model Nuclear_Model Particle_Model CrossSection_Model Distribution_Model Atom_Model Crystal_Model Rates_Model Detector_Model DetectorTypes_Model
  Particle_Proofs Poisson_Proofs Scaling_Proofs Couplings_Proofs DetectorWitness_Proofs Limits_Proofs Fiducial_Proofs LimitsWitness_Proofs Exposure_Proofs LimitValue_Proofs LimitClasses_Proofs.
Import ListNotations.
Local Open Scope R_scope.

(** C108: for a nuclear recoil detector counting events, in one window or in bins, the reported limit is, up to the accuracy 1e-4 of its logarithm, the parameter of the particle times the factor k by which its signal has to grow for the smallest chance, over the bins, of at most the observed number of events to be 1 - certainty. Otherwise it is -1, and then no parameter from 1e-30 to 1e10 has that property. *)
Theorem C108_nuclear : forall FR S X D label expo nuclei abund ops n p cert x0 l, accurate_search FR -> ideal_statistics S -> homogeneous_externals X ->
  nuclear_history label expo nuclei abund ops = Ok n -> reachable p -> fixed p = true -> respects_ratio p ->
  counted (nuclear_virtuals X D n) (n_base n) p l -> Forall good_bin l ->
  Get_Interaction_Parameter "Nuclei" p = Ok (Fin x0) -> 0 < x0 ->
  exists u d' p', Upper_Limit FR S (nuclear_virtuals X D n) (n_base n) p (Fin cert) = Ok (Fin u, d', p') /\
    (limit_of l x0 cert u \/ (u = -1 /\ forall k, Rpower 10 (-30) <= k * x0 <= Rpower 10 10 -> ~ crossing l k cert)).
Proof. exact nuclear_limit_value. Qed.
Print Assumptions C108_nuclear.

(** The same for detectors of ionization by electron recoils or by the Migdal effect ... *)
Theorem C108_ionization : forall FR S X D I w ch label expo atoms fr ops s p cert x0 l, accurate_search FR -> ideal_statistics S -> homogeneous_externals X ->
  ionization_history I w ch label expo atoms fr ops = Ok s -> reachable p -> (ch = Migdal -> fixed p = true /\ respects_ratio p) ->
  counted (ionization_virtuals X D s) (i_base s) p l -> Forall good_bin l ->
  Get_Interaction_Parameter (channel_targets ch) p = Ok (Fin x0) -> 0 < x0 ->
  exists u d' p', Upper_Limit FR S (ionization_virtuals X D s) (i_base s) p (Fin cert) = Ok (Fin u, d', p') /\
    (limit_of l x0 cert u \/ (u = -1 /\ forall k, Rpower 10 (-30) <= k * x0 <= Rpower 10 10 -> ~ crossing l k cert)).
Proof. exact ionization_limit_value. Qed.
Print Assumptions C108_ionization.

(** ... and for semiconductor detectors. *)
Theorem C108_semiconductor : forall FR S X D I label expo crys ops s p cert x0 l, accurate_search FR -> ideal_statistics S -> homogeneous_externals X ->
  semiconductor_history I label expo crys ops = Ok s -> reachable p ->
  counted (semiconductor_virtuals X D s) (c_base s) p l -> Forall good_bin l ->
  Get_Interaction_Parameter "Electrons" p = Ok (Fin x0) -> 0 < x0 ->
  exists u d' p', Upper_Limit FR S (semiconductor_virtuals X D s) (c_base s) p (Fin cert) = Ok (Fin u, d', p') /\
    (limit_of l x0 cert u \/ (u = -1 /\ forall k, Rpower 10 (-30) <= k * x0 <= Rpower 10 10 -> ~ crossing l k cert)).
Proof. exact semiconductor_limit_value. Qed.
Print Assumptions C108_semiconductor.

(** Limits are ordered like the data: with more signal and background, fewer observed events and a lower certainty the limit is not larger, beyond the accuracy of the search. *)
Theorem C108_order : forall l1 l2 x0 c1 c2 u1 u2, Forall good_bin l1 -> Forall good_bin l2 -> 0 < x0 ->
  Forall2 (fun x y => 0 < signal y <= signal x /\ background y <= background x /\ (count x <= count y)%Z) l1 l2 -> c1 <= c2 ->
  limit_of l1 x0 c1 u1 -> limit_of l2 x0 c2 u2 -> 0 < u1 <= u2 * Rpower 10 (2 * 1.0e-4).
Proof. exact limit_order. Qed.
Print Assumptions C108_order.

(** Without background and without events the limit is the parameter for which -ln(1 - certainty) events are expected. *)
Theorem C108_background_free : forall s x0 cert u, 0 < s -> limit_of [mkBin s 0 0] x0 cert u ->
  exists e, Rabs e <= 1.0e-4 /\ u = - ln (1 - cert) / s * x0 * Rpower 10 e.
Proof. exact limit_empty. Qed.
Print Assumptions C108_background_free.

(** With c times the exposure and the same data the limit is c times as strong, up to the accuracy of the search: nuclear recoil detectors, ... *)
Theorem C108_nuclear_exposure : forall FR S X D label expo nuclei abund ops n n' c p cert x0 l u u' d1 d2 p1 p2, accurate_search FR -> ideal_statistics S -> homogeneous_externals X -> 0 < c ->
  nuclear_history label expo nuclei abund ops = Ok n -> nuclear_history label (xmul (Fin c) expo) nuclei abund ops = Ok n' -> reachable p -> fixed p = true -> respects_ratio p ->
  counted (nuclear_virtuals X D n) (n_base n) p l -> Forall good_bin l -> Forall (fun x => 0 < signal x) l ->
  Get_Interaction_Parameter "Nuclei" p = Ok (Fin x0) -> 0 < x0 ->
  Upper_Limit FR S (nuclear_virtuals X D n) (n_base n) p (Fin cert) = Ok (Fin u, d1, p1) -> u <> -1 ->
  Upper_Limit FR S (nuclear_virtuals X D n') (n_base n') p (Fin cert) = Ok (Fin u', d2, p2) -> u' <> -1 -> inverse c u u'.
Proof. exact nuclear_limit_exposure. Qed.
Print Assumptions C108_nuclear_exposure.

(** ... ionization detectors ... *)
Theorem C108_ionization_exposure : forall FR S X D I w ch label expo atoms fr ops s s' c p cert x0 l u u' d1 d2 p1 p2, accurate_search FR -> ideal_statistics S -> homogeneous_externals X -> 0 < c ->
  ionization_history I w ch label expo atoms fr ops = Ok s -> ionization_history I w ch label (xmul (Fin c) expo) atoms fr ops = Ok s' ->
  reachable p -> (ch = Migdal -> fixed p = true /\ respects_ratio p) ->
  counted (ionization_virtuals X D s) (i_base s) p l -> Forall good_bin l -> Forall (fun x => 0 < signal x) l ->
  Get_Interaction_Parameter (channel_targets ch) p = Ok (Fin x0) -> 0 < x0 ->
  Upper_Limit FR S (ionization_virtuals X D s) (i_base s) p (Fin cert) = Ok (Fin u, d1, p1) -> u <> -1 ->
  Upper_Limit FR S (ionization_virtuals X D s') (i_base s') p (Fin cert) = Ok (Fin u', d2, p2) -> u' <> -1 -> inverse c u u'.
Proof. exact ionization_limit_exposure. Qed.
Print Assumptions C108_ionization_exposure.

(** ... and semiconductor detectors. *)
Theorem C108_semiconductor_exposure : forall FR S X D I label expo crys ops s s' c p cert x0 l u u' d1 d2 p1 p2, accurate_search FR -> ideal_statistics S -> homogeneous_externals X -> 0 < c ->
  semiconductor_history I label expo crys ops = Ok s -> semiconductor_history I label (xmul (Fin c) expo) crys ops = Ok s' -> reachable p ->
  counted (semiconductor_virtuals X D s) (c_base s) p l -> Forall good_bin l -> Forall (fun x => 0 < signal x) l ->
  Get_Interaction_Parameter "Electrons" p = Ok (Fin x0) -> 0 < x0 ->
  Upper_Limit FR S (semiconductor_virtuals X D s) (c_base s) p (Fin cert) = Ok (Fin u, d1, p1) -> u <> -1 ->
  Upper_Limit FR S (semiconductor_virtuals X D s') (c_base s') p (Fin cert) = Ok (Fin u', d2, p2) -> u' <> -1 -> inverse c u u'.
Proof. exact semiconductor_limit_exposure. Qed.
Print Assumptions C108_semiconductor_exposure.

(** Instance: two energy bins with 3 and 1 events, background 1/2 in the first. *)
Example C108_binned_instance : exists n s, nuclear_history "test" (Fin 1) [heavy_hydrogen] [Fin 1] opsB = Ok n /\ 0 < s /\
  counted (nuclear_virtuals XW D1 n) (n_base n) even [mkBin s (1/2) 3; mkBin s 0 1] /\
  homogeneous_externals XW /\ reachable even /\ fixed even = true /\ respects_ratio even /\ Get_Interaction_Parameter "Nuclei" even = Ok (Fin 1).
Proof. exact binned_instance. Qed.

(** Instance: the same experiment with exposure 1 and 2; both limits are found. *)
Example C108_exposure_instance : exists n n' s u u' d1 d2 p1 p2, let cert := 1 - exp (- s) in
  nuclear_history "test" (Fin 1) [heavy_hydrogen] [Fin 1] [NBase (BThreshold (Fin (1/10)) (Fin (1/2)))] = Ok n /\
  nuclear_history "test" (xmul (Fin 2) (Fin 1)) [heavy_hydrogen] [Fin 1] [NBase (BThreshold (Fin (1/10)) (Fin (1/2)))] = Ok n' /\ 0 < s /\
  counted (nuclear_virtuals XW D1 n) (n_base n) even [mkBin s 0 0] /\
  Upper_Limit reference_search exact_statistics (nuclear_virtuals XW D1 n) (n_base n) even (Fin cert) = Ok (Fin u, d1, p1) /\ u <> -1 /\
  Upper_Limit reference_search exact_statistics (nuclear_virtuals XW D1 n') (n_base n') even (Fin cert) = Ok (Fin u', d2, p2) /\ u' <> -1.
Proof. exact exposure_instance. Qed.
