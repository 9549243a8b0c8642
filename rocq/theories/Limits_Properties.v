(** C45, C47-C50: limits, limit curves and likelihood scans. *)
From Coq Require Import Reals ZArith String Lia Lra Bool.
From Coquelicot Require Import Coquelicot.
From Coq Require Import List.
From Verif Require Import Base XrFacts Quadrature Nucleus_Model Particle_Model CrossSection_Model Distribution_Model Atom_Model
  Crystal_Model Rates_Model Detector_Model DetectorTypes_Model Particle_Proofs DetectorWitness_Proofs Poisson_Proofs Scaling_Proofs Couplings_Proofs Limits_Proofs
  Fiducial_Proofs LimitsWitness_Proofs.
Import ListNotations.
Local Open Scope R_scope.

(** C45: a larger expected signal means a strictly smaller p-value. *)
Theorem C45_decreasing : forall X V d p p' s s' b, ideal_statistics X -> direct d -> b_analysis d = Poisson -> (0 <= b_observed d)%Z ->
  b_background d = Fin b -> 0 <= b ->
  v_total V d p = Ok (Fin s) -> v_total V d p' = Ok (Fin s') -> 0 <= s < s' ->
  exists q q', P_Value X V d p = Ok (Fin q) /\ P_Value X V d p' = Ok (Fin q') /\ 0 < q' < q /\ q <= 1.
Proof. exact p_value_decreases. Qed.
Print Assumptions C45_decreasing.

(** The reported limit, for any detector whose predictions are proportional to the interaction parameter and any search routine of the requested accuracy: either -1 is returned and the p-value stays on one side of 1 - certainty for all parameters between 1e-30 and 1e10, or there is a number within 1e-4 (in log10) of the limit below which nothing is excluded and above which everything is. *)
Theorem C45_limit : forall FR X V d p cert x0 s0 b, accurate_search FR -> ideal_statistics X -> blind V -> rested d ->
  good p -> share_ok p -> proportional V d p -> b_analysis d = Poisson -> (0 <= b_observed d)%Z -> b_background d = Fin b -> 0 <= b ->
  Get_Interaction_Parameter (b_targets d) p = Ok (Fin x0) -> 0 < x0 -> v_total V d p = Ok (Fin s0) -> 0 < s0 ->
  exists u d' p', Upper_Limit FR X V d p (Fin cert) = Ok (Fin u, d', p') /\
    ((u = -1 /\ no_crossing X V d p cert) \/ (0 < u /\ separates X V d p cert u)).
Proof. exact limit_separates. Qed.
Print Assumptions C45_limit.

(** The same for the classes, after any configuration calls. *)
Theorem C45_nuclear : forall FR S X D label expo nuclei abund n0 ops n p cert x0 s0 b, accurate_search FR -> ideal_statistics S -> homogeneous_externals X ->
  Nuclear_ctor label expo nuclei abund = Ok n0 -> nuclear_run n0 ops = Ok n ->
  reachable p -> fixed p = true -> respects_ratio p ->
  b_analysis (n_base n) = Poisson -> (0 <= b_observed (n_base n))%Z -> b_background (n_base n) = Fin b -> 0 <= b ->
  Get_Interaction_Parameter "Nuclei" p = Ok (Fin x0) -> 0 < x0 -> v_total (nuclear_virtuals X D n) (n_base n) p = Ok (Fin s0) -> 0 < s0 ->
  exists u d' p', Upper_Limit FR S (nuclear_virtuals X D n) (n_base n) p (Fin cert) = Ok (Fin u, d', p') /\
    ((u = -1 /\ no_crossing S (nuclear_virtuals X D n) (n_base n) p cert) \/ (0 < u /\ separates S (nuclear_virtuals X D n) (n_base n) p cert u)).
Proof. exact nuclear_limit. Qed.
Print Assumptions C45_nuclear.

Theorem C45_ionization : forall FR S X D I w ch label expo atoms fr i0 w' ops s p cert x0 s0 b, accurate_search FR -> ideal_statistics S -> homogeneous_externals X ->
  Ionization_ctor I w ch label expo atoms fr = Ok (i0, w') -> ionization_run i0 ops = Ok s ->
  reachable p -> (ch = Migdal -> fixed p = true /\ respects_ratio p) ->
  b_analysis (i_base s) = Poisson -> (0 <= b_observed (i_base s))%Z -> b_background (i_base s) = Fin b -> 0 <= b ->
  Get_Interaction_Parameter (channel_targets ch) p = Ok (Fin x0) -> 0 < x0 -> v_total (ionization_virtuals X D s) (i_base s) p = Ok (Fin s0) -> 0 < s0 ->
  exists u d' p', Upper_Limit FR S (ionization_virtuals X D s) (i_base s) p (Fin cert) = Ok (Fin u, d', p') /\
    ((u = -1 /\ no_crossing S (ionization_virtuals X D s) (i_base s) p cert) \/ (0 < u /\ separates S (ionization_virtuals X D s) (i_base s) p cert u)).
Proof. exact ionization_limit. Qed.
Print Assumptions C45_ionization.

Theorem C45_semiconductor : forall FR S X D I label expo crys c0 ops s p cert x0 s0 b, accurate_search FR -> ideal_statistics S -> homogeneous_externals X ->
  Semiconductor_ctor I label expo crys = Ok c0 -> semiconductor_run c0 ops = Ok s ->
  reachable p ->
  b_analysis (c_base s) = Poisson -> (0 <= b_observed (c_base s))%Z -> b_background (c_base s) = Fin b -> 0 <= b ->
  Get_Interaction_Parameter "Electrons" p = Ok (Fin x0) -> 0 < x0 -> v_total (semiconductor_virtuals X D s) (c_base s) p = Ok (Fin s0) -> 0 < s0 ->
  exists u d' p', Upper_Limit FR S (semiconductor_virtuals X D s) (c_base s) p (Fin cert) = Ok (Fin u, d', p') /\
    ((u = -1 /\ no_crossing S (semiconductor_virtuals X D s) (c_base s) p cert) \/ (0 < u /\ separates S (semiconductor_virtuals X D s) (c_base s) p cert u)).
Proof. exact semiconductor_limit. Qed.
Print Assumptions C45_semiconductor.

(** Instance for C45, C47, C49 and C50: a nuclear recoil detector, a particle with equal couplings, and successful runs of all three calls. *)
Example C45_instance : exists n0 ops x0 s0, Nuclear_ctor "test" (Fin 1) [heavy_hydrogen] [Fin 1] = Ok n0 /\ nuclear_run n0 ops = Ok nW /\
  accurate_search reference_search /\ only_evaluates reference_search /\ ideal_statistics exact_statistics /\ homogeneous_externals XW /\ reachable even /\ fixed even = true /\ tame even /\ finite_particle even /\
  b_analysis dW = Poisson /\ b_observed dW = 0%Z /\ b_background dW = Fin 0 /\ Get_Interaction_Parameter "Nuclei" even = Ok (Fin x0) /\ 0 < x0 /\
  v_total VW dW even = Ok (Fin s0) /\ 0 < s0 /\ good_run even reference_search exact_statistics (1/2).
Proof. exact nuclear_limit_instance. Qed.

(** C47: after a limit the detector is the same, and the particle has the same mass, cross sections and differential cross sections (for couplings with a fixed ratio, or free ones that are not negative). *)
Theorem C47_limit : forall FR X V d p cert u d' p', only_evaluates FR -> rested d -> reachable p -> tame p -> Upper_Limit FR X V d p cert = Ok (u, d', p') ->
  d' = d /\ same_physics p p'.
Proof. exact limit_restores_user. Qed.
Print Assumptions C47_limit.

(** After a limit curve. *)
Theorem C47_curve : forall FR X V d p masses cert l d' p', only_evaluates FR -> rested d -> reachable p -> tame p -> positive_masses masses ->
  Upper_Limit_Curve FR X V d p masses cert = Ok (l, d', p') -> d' = d /\ same_physics p p'.
Proof. exact curve_restores_user. Qed.
Print Assumptions C47_curve.

(** After a likelihood scan (which has no access to the detector). *)
Theorem C47_scan : forall X V d p masses cs rows p', reachable p -> tame p -> positive_masses masses -> Log_Likelihood_Scan X V d p masses cs = Ok (rows, p') -> same_physics p p'.
Proof. exact scan_restores_user. Qed.
Print Assumptions C47_scan.

(** The detector is the same for every particle. *)
Theorem C47_detector : forall FR X V d p cert u d' p', only_evaluates FR -> rested d -> Upper_Limit FR X V d p cert = Ok (u, d', p') -> d' = d.
Proof. exact limit_detector. Qed.
Print Assumptions C47_detector.

(** Detectors made by the constructors and configuration calls meet the hypothesis [rested]. *)
Theorem C47_nuclear : forall label expo nuclei abund n0 ops n, Nuclear_ctor label expo nuclei abund = Ok n0 -> nuclear_run n0 ops = Ok n -> rested (n_base n) /\ b_targets (n_base n) = "Nuclei"%string.
Proof. exact nuclear_rested. Qed.
Print Assumptions C47_nuclear.

Theorem C47_ionization : forall I w ch label expo atoms fr s0 w' ops s, Ionization_ctor I w ch label expo atoms fr = Ok (s0, w') -> ionization_run s0 ops = Ok s ->
  rested (i_base s) /\ b_targets (i_base s) = channel_targets ch.
Proof. exact ionization_rested. Qed.
Print Assumptions C47_ionization.

Theorem C47_semiconductor : forall I label expo crys s0 ops s, Semiconductor_ctor I label expo crys = Ok s0 -> semiconductor_run s0 ops = Ok s ->
  rested (c_base s) /\ b_targets (c_base s) = "Electrons"%string.
Proof. exact semiconductor_rested. Qed.
Print Assumptions C47_semiconductor.

(** For free couplings with a negative sign: which sign is lost. *)
Theorem C47_limit_free : forall FR X V d p cert u d' p' a b, only_evaluates FR -> rested d -> good p -> fixed p = false -> couplings p a b -> b_targets d = "Nuclei"%string ->
  Upper_Limit FR X V d p cert = Ok (u, d', p') ->
  couplings p' (if xlt (Fin 0) (fp_relative p) then Rabs a else a) (if xlt (Fin 0) (fp_relative p) then b else Rabs b).
Proof. exact limit_free. Qed.
Print Assumptions C47_limit_free.

Theorem C47_curve_free : forall FR X V d p cert masses l d' p' a b, only_evaluates FR -> rested d -> good p -> share_ok p -> fixed p = false -> couplings p a b -> positive_masses masses ->
  Upper_Limit_Curve FR X V d p masses cert = Ok (l, d', p') -> couplings p' (Rabs a) (Rabs b).
Proof. exact curve_free. Qed.
Print Assumptions C47_curve_free.

Theorem C47_scan_free : forall X V d p masses cs rows p' a b, good p -> share_ok p -> fixed p = false -> couplings p a b -> positive_masses masses -> b_targets d = "Nuclei"%string ->
  Log_Likelihood_Scan X V d p masses cs = Ok (rows, p') -> couplings p' (Rabs a) (Rabs b).
Proof. exact scan_free. Qed.
Print Assumptions C47_scan_free.

Example C47_instance : exists u d1 p1 l d2 p2 rows p3, only_evaluates reference_search /\ rested dW /\ reachable even /\ tame even /\ positive_masses [Fin (1/10); Fin 2] /\ positive_masses [Fin 2] /\
  Upper_Limit reference_search exact_statistics VW dW even (Fin (1/2)) = Ok (u, d1, p1) /\
  Upper_Limit_Curve reference_search exact_statistics VW dW even [Fin (1/10); Fin 2] (Fin (1/2)) = Ok (l, d2, p2) /\
  Log_Likelihood_Scan exact_statistics VW dW even [Fin 2] [Fin 1; Fin 4] = Ok (rows, p3).
Proof.
  destruct nuclear_limit_instance as (n0 & ops & x0 & s0 & _ & _ & _ & O & _ & _ & R & _ & T & _ & _ & _ & _ & _ & _ & _ & _ & (u & d1 & p1 & A) & (l & d2 & p2 & B) & (rows & p3 & C)).
  exists u, d1, p1, l, d2, p2, rows, p3. split; [exact O|]. split; [exact dW_rested|]. split; [exact R|]. split; [exact T|]. split; [positives|]. split; [positives|]. auto.
Qed.
Example C47_free_instance : exists u d1 p1 l d2 p2 rows p3, good flipped /\ share_ok flipped /\ fixed flipped = false /\ couplings flipped (-2 * cW 1) (cW 1) /\ 0 < cW 1 /\ b_targets dW = "Nuclei"%string /\
  Upper_Limit reference_search exact_statistics VW dW flipped (Fin (1/2)) = Ok (u, d1, p1) /\
  Upper_Limit_Curve reference_search exact_statistics VW dW flipped [Fin (1/10); Fin 2] (Fin (1/2)) = Ok (l, d2, p2) /\
  Log_Likelihood_Scan exact_statistics VW dW flipped [Fin 2] [Fin 1; Fin 4] = Ok (rows, p3).
Proof.
  destruct flipped_couplings as (Cp & G & Sh & F).
  destruct (flipped_runs reference_search exact_statistics (1/2) reference_accurate exact_statistics_ideal) as ((u & d1 & p1 & A) & (l & d2 & p2 & B) & (rows & p3 & C)).
  exists u, d1, p1, l, d2, p2, rows, p3. split; [exact G|]. split; [exact Sh|]. split; [exact F|]. split; [exact Cp|]. split; [apply cW_pos; lra|]. split; [reflexivity|]. auto.
Qed.

(** A particle with opposite couplings (fp = -2 c, fn = c) for which every successful limit changes the differential cross section of deuterium ninefold. *)
Theorem C47_limit_refuted : exists p, reachable p /\
  (forall FR X V d cert u d' p', only_evaluates FR -> rested d -> b_targets d = "Nuclei"%string -> Upper_Limit FR X V d p cert = Ok (u, d', p') -> sees_nine_times p p') /\
  (exists FR X V d cert u d' p', only_evaluates FR /\ rested d /\ b_targets d = "Nuclei"%string /\ Upper_Limit FR X V d p cert = Ok (u, d', p')).
Proof. exact limit_sign_refuted. Qed.
Print Assumptions C47_limit_refuted.

Theorem C47_curve_refuted : exists p, reachable p /\
  (forall FR X V d cert masses l d' p', only_evaluates FR -> rested d -> positive_masses masses -> Upper_Limit_Curve FR X V d p masses cert = Ok (l, d', p') -> sees_nine_times p p') /\
  (exists FR X V d cert masses l d' p', only_evaluates FR /\ rested d /\ positive_masses masses /\ Upper_Limit_Curve FR X V d p masses cert = Ok (l, d', p')).
Proof. exact curve_sign_refuted. Qed.
Print Assumptions C47_curve_refuted.

Theorem C47_scan_refuted : exists p, reachable p /\
  (forall X V d masses cs rows p', positive_masses masses -> b_targets d = "Nuclei"%string -> Log_Likelihood_Scan X V d p masses cs = Ok (rows, p') -> sees_nine_times p p') /\
  (exists X V d masses cs rows p', positive_masses masses /\ b_targets d = "Nuclei"%string /\ Log_Likelihood_Scan X V d p masses cs = Ok (rows, p')).
Proof. exact scan_sign_refuted. Qed.
Print Assumptions C47_scan_refuted.

(** C48: the p-value from the rescaled signal equals the recomputed one, if predictions are proportional to the parameter. *)
Theorem C48_any : forall X V d d1 p x0 x q, blind V -> direct d -> good p -> share_ok p -> proportional V d p ->
  Get_Interaction_Parameter (b_targets d) p = Ok (Fin x0) -> 0 < x0 -> set_fiducial V (Fin x0) d p = Ok d1 -> tried (b_targets d) p x q ->
  P_Value X V d1 q = P_Value X V d q.
Proof. exact rescaled. Qed.
Print Assumptions C48_any.

(** This is so for the classes with a fixed ratio (nuclei), after any configuration calls and for every sequence of trial values. *)
Theorem C48_nuclear : forall S X D label expo nuclei abund n0 ops n p x0 d1 x q, homogeneous_externals X ->
  Nuclear_ctor label expo nuclei abund = Ok n0 -> nuclear_run n0 ops = Ok n ->
  reachable p -> fixed p = true -> respects_ratio p ->
  Get_Interaction_Parameter "Nuclei" p = Ok (Fin x0) -> 0 < x0 ->
  set_fiducial (nuclear_virtuals X D n) (Fin x0) (n_base n) p = Ok d1 -> tried "Nuclei" p x q ->
  P_Value S (nuclear_virtuals X D n) d1 q = P_Value S (nuclear_virtuals X D n) (n_base n) q.
Proof. exact nuclear_rescaled. Qed.
Print Assumptions C48_nuclear.

Theorem C48_ionization : forall S X D I w ch label expo atoms fr s0 w' ops s p x0 d1 x q, homogeneous_externals X ->
  Ionization_ctor I w ch label expo atoms fr = Ok (s0, w') -> ionization_run s0 ops = Ok s ->
  reachable p -> (ch = Migdal -> fixed p = true /\ respects_ratio p) ->
  Get_Interaction_Parameter (channel_targets ch) p = Ok (Fin x0) -> 0 < x0 ->
  set_fiducial (ionization_virtuals X D s) (Fin x0) (i_base s) p = Ok d1 -> tried (channel_targets ch) p x q ->
  P_Value S (ionization_virtuals X D s) d1 q = P_Value S (ionization_virtuals X D s) (i_base s) q.
Proof. exact ionization_rescaled. Qed.
Print Assumptions C48_ionization.

Theorem C48_semiconductor : forall S X D I label expo crys s0 ops s p x0 d1 x q, homogeneous_externals X ->
  Semiconductor_ctor I label expo crys = Ok s0 -> semiconductor_run s0 ops = Ok s ->
  reachable p ->
  Get_Interaction_Parameter "Electrons" p = Ok (Fin x0) -> 0 < x0 ->
  set_fiducial (semiconductor_virtuals X D s) (Fin x0) (c_base s) p = Ok d1 -> tried "Electrons" p x q ->
  P_Value S (semiconductor_virtuals X D s) d1 q = P_Value S (semiconductor_virtuals X D s) (c_base s) q.
Proof. exact semiconductor_rescaled. Qed.
Print Assumptions C48_semiconductor.

(** With free couplings it is not: at four times the parameter the search assumes 16 units of signal, recomputed are 9. *)
Theorem C48_free_refuted : exists n0 ops n p x0 d1 x q,
  Nuclear_ctor "test" (Fin 1) [heavy_hydrogen] [Fin 1] = Ok n0 /\ nuclear_run n0 ops = Ok n /\ homogeneous_externals XW /\ reachable p /\ respects_ratio p /\
  Get_Interaction_Parameter "Nuclei" p = Ok (Fin x0) /\ 0 < x0 /\ set_fiducial (nuclear_virtuals XW D1 n) (Fin x0) (n_base n) p = Ok d1 /\ tried "Nuclei" p x q /\
  forall S, ideal_statistics S -> exists v v', P_Value S (nuclear_virtuals XW D1 n) d1 q = Ok (Fin v) /\ P_Value S (nuclear_virtuals XW D1 n) (n_base n) q = Ok (Fin v') /\ v < v'.
Proof. exact free_not_rescaled. Qed.
Print Assumptions C48_free_refuted.

(** With free couplings and no proton coupling the search assumes an infinite signal at every trial value. *)
Theorem C48_neutron_refuted : exists n0 ops n p d1,
  Nuclear_ctor "test" (Fin 1) [heavy_hydrogen] [Fin 1] = Ok n0 /\ nuclear_run n0 ops = Ok n /\ reachable p /\
  Get_Interaction_Parameter "Nuclei" p = Ok (Fin 0) /\ set_fiducial (nuclear_virtuals XW D1 n) (Fin 0) (n_base n) p = Ok d1 /\
  forall S x, 0 < x -> exists q s, Set_Interaction_Parameter (Fin x) "Nuclei" p = Ok q /\ 0 < s /\
    P_Value S (nuclear_virtuals XW D1 n) d1 q = CDF_Poisson S PInf 0 /\ P_Value S (nuclear_virtuals XW D1 n) (n_base n) q = CDF_Poisson S (Fin s) 0.
Proof. exact neutron_not_rescaled. Qed.
Print Assumptions C48_neutron_refuted.

(** Instance: trial values 4 and then 2 in the detector above. *)
Example C48_instance : exists q d1, tried "Nuclei" even 2 q /\ set_fiducial VW (Fin 1) dW even = Ok d1 /\ Get_Interaction_Parameter "Nuclei" even = Ok (Fin 1) /\
  reachable even /\ fixed even = true /\ respects_ratio even.
Proof.
  do 2 eexists. split.
  { eapply (tried_next _ _ 4); [apply tried_first; [lra|apply light_set_fixed; lra]|lra|apply light_set_fixed; lra]. }
  split; [apply (fiducial_W even _ _ 1 (light_simple _ _ _ _ _))|]. split; [unfold even; rewrite light_get, cW_1 by lra; auto|].
  split; [apply even_reachable|]. split; [reflexivity|]. destruct even_settled as (_ & _ & R & _). exact R.
Qed.

(** C49: one point for each mass that is not below the lowest one and has a limit, in order; the limit is the one [Upper_Limit] reports for the particle with that mass. *)
Theorem C49_points : forall FR X V cert d p masses l d' p', only_evaluates FR -> rested d -> finite_particle p -> positive_masses masses ->
  Upper_Limit_Curve FR X V d p masses cert = Ok (l, d', p') ->
  exists lowest, v_minimum_mass V d p = Ok lowest /\
    (forall m, In m masses -> xlt m lowest = false -> exists u, limit_at FR X V d p cert m = Some u) /\
    l = flat_map (fun m => match limit_at FR X V d p cert m with Some u => if xlt (Fin 0) u then [[m; u]] else [] | None => [] end)
          (filter (fun m => negb (xlt m lowest)) masses).
Proof. exact curve_list_user. Qed.
Print Assumptions C49_points.

Example C49_instance : exists l d' p', only_evaluates reference_search /\ rested dW /\ finite_particle even /\ positive_masses [Fin (1/10); Fin 2] /\
  Upper_Limit_Curve reference_search exact_statistics VW dW even [Fin (1/10); Fin 2] (Fin (1/2)) = Ok (l, d', p').
Proof.
  destruct nuclear_limit_instance as (n0 & ops & x0 & s0 & _ & _ & _ & O & _ & _ & _ & _ & _ & K & _ & _ & _ & _ & _ & _ & _ & _ & (l & d2 & p2 & B) & _).
  exists l, d2, p2. split; [exact O|]. split; [exact dW_rested|]. split; [exact K|]. split; [positives|exact B].
Qed.

(** C50: one row for each pair, row-major, with the log likelihood of a particle with that mass and coupling. *)
Theorem C50_rows : forall X V d p masses cs rows p', finite_particle p -> positive_masses masses -> Log_Likelihood_Scan X V d p masses cs = Ok (rows, p') ->
  List.length rows = (List.length masses * List.length cs)%nat /\
  forall i j m c, nth_error masses i = Some m -> nth_error cs j = Some c ->
    exists q l, Set_Interaction_Parameter c (b_targets d) (Set_Mass m p) = Ok q /\ Log_Likelihood X V d q = Ok l /\
      nth_error rows (i * List.length cs + j) = Some [m; c; l].
Proof. exact scan_positions_user. Qed.
Print Assumptions C50_rows.

Example C50_instance : exists rows p', finite_particle even /\ positive_masses [Fin 2] /\ Log_Likelihood_Scan exact_statistics VW dW even [Fin 2] [Fin 1; Fin 4] = Ok (rows, p').
Proof.
  destruct nuclear_limit_instance as (n0 & ops & x0 & s0 & _ & _ & _ & _ & _ & _ & _ & _ & _ & K & _ & _ & _ & _ & _ & _ & _ & _ & _ & (rows & p3 & C)).
  exists rows, p3. split; [exact K|]. split; [positives|exact C].
Qed.
