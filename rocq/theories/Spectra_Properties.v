(** Properties C89 - C94: spectra of composite targets, efficiencies and resolution, electron spectra as sums and integrals. *)
From Coq Require Import Reals ZArith String Lra Lia Permutation.
From Coquelicot Require Import Coquelicot.
From Coq Require Import List.
From Verif Require Import Base XrFacts Quadrature Nucleus_Model Nuclear_Model Particle_Model CrossSection_Model Distribution_Model Atom_Model Crystal_Model Rates_Model
  Kinematics_Proofs Detector_Model DetectorTypes_Model DetectorWitness_Proofs Formulas_Proofs FormulasWitness_Proofs Spectra_Proofs ElectronSpectra_Proofs ElectronSpectraWitness_Proofs.
Import ListNotations.
Local Open Scope R_scope.

(** C89: the recoil spectrum of an element is the sum over its isotopes of natural abundance times isotope spectrum. *)
Theorem C89_isotopes : forall Integrate E DM D n (ab rate : Isotope -> R), (forall t, In t (nisotopes n) -> iabundance t = Fin (ab t) /\ dRdER_Isotope Integrate E DM D t = Ok (Fin (rate t))) ->
  dRdER_Nucleus Integrate E DM D n = Ok (Fin (Rsum (map (fun t => ab t * rate t) (nisotopes n)))).
Proof. exact nucleus_rate. Qed.
Print Assumptions C89_isotopes.

(** It does not depend on the order in which the isotopes are listed. *)
Theorem C89_isotope_order : forall Integrate E DM D n n' (ab rate : Isotope -> R), Permutation (nisotopes n) (nisotopes n') ->
  (forall t, In t (nisotopes n) -> iabundance t = Fin (ab t) /\ dRdER_Isotope Integrate E DM D t = Ok (Fin (rate t))) ->
  dRdER_Nucleus Integrate E DM D n' = dRdER_Nucleus Integrate E DM D n.
Proof. exact nucleus_order. Qed.
Print Assumptions C89_isotope_order.

(** A detector without energy resolution reports at each energy the sum over targets of efficiency, flat efficiency, mass fraction and target spectrum, after any configuration calls. *)
Theorem C89_detector : forall X DM D label expo nuclei abund ops n E s fl (eff w rate : nat -> R), history label expo nuclei abund ops n ->
  resolution_after ops = Fin s -> s < 1 / 1000000 * eV -> flat_after ops = Fin fl ->
  (forall i t, nth_error nuclei i = Some t -> efficiency_of X (curves ops) (List.length nuclei) i E (eff i) /\
     nth_error (n_fractions n) i = Some (Fin (w i)) /\ dRdER_Nucleus (x_Integrate X) (Fin E) DM D t = Ok (Fin (rate i))) ->
  Nuclear_dRdE X DM D n (Fin E) = Ok (Fin (target_sum fl eff w rate (List.length nuclei))).
Proof. exact sharp_spectrum. Qed.
Print Assumptions C89_detector.

(** Two isotopes of masses 2 and 6 with abundances 1/4 and 3/4, in both orders. *)
Example C89_instance : forall I, (forall t, In t (nisotopes two_isotopes) -> iabundance t = Fin (if Req_EM_T (val (imass t)) 2 then 1/4 else 3/4) /\
    dRdER_Isotope I (Fin (1/3)) DM1 D1 t = Ok (Fin (1/1000000))) /\ Permutation (nisotopes two_isotopes) (nisotopes two_isotopes').
Proof. exact composite_instance. Qed.

(** C90: what a detector holds after any configuration calls: the targets and mass fractions it was built with, the curves imported (single files are added, a list of files replaces), the last resolution and the last flat efficiency. The efficiency applied to a target is given by [efficiency_of] in C89_detector and C91_smeared. *)
Theorem C90_history : forall label expo nuclei abund ops n, history label expo nuclei abund ops n ->
  n_targets n = nuclei /\ relative_fractions nuclei abund = Ok (n_fractions n) /\ n_efficiencies n = curves ops /\ n_resolution n = resolution_after ops /\
  b_flat_efficiency (n_base n) = flat_after ops /\ (n_efficiencies n <> [] -> n_using_tables n = true).
Proof. exact history_facts. Qed.
Print Assumptions C90_history.

(** Refuted: importing a curve a second time (one target) switches the efficiencies off altogether: the spectrum is that of a detector without curves, not half of it. *)
Theorem C90_twice_refuted : exists X DM D label expo nuclei abund c n0 n1 n2 E r, (forall x, 0 <= x <= 1 -> x_Interpolation X (in_unit (Fin 1) c) (Fin x) = Ok (Fin (1/2))) /\ 0 <= E <= 1 /\ 0 < r /\
  history label expo nuclei abund [] n0 /\ history label expo nuclei abund [NEfficiency c (Fin 1)] n1 /\ history label expo nuclei abund [NEfficiency c (Fin 1); NEfficiency c (Fin 1)] n2 /\
  Nuclear_dRdE X DM D n0 (Fin E) = Ok (Fin r) /\ Nuclear_dRdE X DM D n1 (Fin E) = Ok (Fin (r / 2)) /\ Nuclear_dRdE X DM D n2 (Fin E) = Ok (Fin r).
Proof. exact import_twice. Qed.
Print Assumptions C90_twice_refuted.

(** One curve for one target: it is used. *)
Example C90_instance : exists n, history "test" (Fin 1) [one_isotope] [Fin 1] [NEfficiency half_curve (Fin 1)] n /\
  efficiency_of X2 (curves [NEfficiency half_curve (Fin 1)]) 1 0 (1/2) (1/2).
Proof.
  destruct (history_one [NEfficiency half_curve (Fin 1)]) as (n & H & _). { intros o [<- | []]; exact Logic.I. }
  exists n. split; [exact H|reflexivity].
Qed.

(** C91: with a finite resolution s the detector reports the true spectrum folded with a Gaussian of width s over the energies from the largest of E - 6s, threshold - 3s and 2s up to E + 6s, with the efficiencies of the detected energy E. *)
Theorem C91_smeared : forall X DM D label expo nuclei abund ops n E thr s fl (eff w : nat -> R) (rate : nat -> R -> R), ideal_quadrature (x_Integrate X) -> history label expo nuclei abund ops n ->
  resolution_after ops = Fin s -> 1 / 1000000 * eV <= s -> b_threshold (n_base n) = Fin thr -> flat_after ops = Fin fl ->
  (forall i t, nth_error nuclei i = Some t -> efficiency_of X (curves ops) (List.length nuclei) i E (eff i) /\
     nth_error (n_fractions n) i = Some (Fin (w i)) /\
     forall ER, Rmin (lower_end E thr s) (E + 6 * s) <= ER <= Rmax (lower_end E thr s) (E + 6 * s) -> dRdER_Nucleus (x_Integrate X) (Fin ER) DM D t = Ok (Fin (rate i ER))) ->
  ex_RInt (fun ER => gauss s (E - ER) * target_sum fl eff w (fun i => rate i ER) (List.length nuclei)) (lower_end E thr s) (E + 6 * s) ->
  Nuclear_dRdE X DM D n (Fin E) = Ok (Fin (RInt (fun ER => gauss s (E - ER) * target_sum fl eff w (fun i => rate i ER) (List.length nuclei)) (lower_end E thr s) (E + 6 * s))).
Proof. exact smeared_spectrum. Qed.
Print Assumptions C91_smeared.

(** It is not negative when E is at most 9s below the threshold. *)
Theorem C91_nonnegative : forall X DM D label expo nuclei abund ops n E thr s fl (eff w : nat -> R) (rate : nat -> R -> R) r, ideal_quadrature (x_Integrate X) -> history label expo nuclei abund ops n ->
  resolution_after ops = Fin s -> 1 / 1000000 * eV <= s -> b_threshold (n_base n) = Fin thr -> flat_after ops = Fin fl -> 0 <= fl ->
  thr - 9 * s <= E -> - 4 * s <= E ->
  (forall i t, nth_error nuclei i = Some t -> efficiency_of X (curves ops) (List.length nuclei) i E (eff i) /\ 0 <= eff i /\
     nth_error (n_fractions n) i = Some (Fin (w i)) /\ 0 <= w i /\
     forall ER, lower_end E thr s <= ER <= E + 6 * s -> dRdER_Nucleus (x_Integrate X) (Fin ER) DM D t = Ok (Fin (rate i ER)) /\ 0 <= rate i ER) ->
  ex_RInt (fun ER => gauss s (E - ER) * target_sum fl eff w (fun i => rate i ER) (List.length nuclei)) (lower_end E thr s) (E + 6 * s) ->
  Nuclear_dRdE X DM D n (Fin E) = Ok (Fin r) -> 0 <= r.
Proof. exact smeared_nonneg. Qed.
Print Assumptions C91_nonnegative.

(** Refuted: further below the threshold the limits are reversed and the reported spectrum is negative although the true one is positive. *)
Theorem C91_negative_refuted : exists X DM D label expo nuclei abund n E r, ideal_quadrature (x_Integrate X) /\ 
  history label expo nuclei abund [NResolution (Fin (1/100)); NBase (BThreshold (Fin (1/2)) (Fin 1))] n /\ curves [NResolution (Fin (1/100)); NBase (BThreshold (Fin (1/2)) (Fin 1))] = [] /\
  (forall t ER, In t nuclei -> 0 <= ER <= 1 -> dRdER_Nucleus (x_Integrate X) (Fin ER) DM D t = Ok (Fin (1 / 1000000))) /\
  0 < E < 1 /\ Nuclear_dRdE X DM D n (Fin E) = Ok (Fin r) /\ r < 0.
Proof. exact blur_negative. Qed.
Print Assumptions C91_negative_refuted.

(** Resolution 1/100, threshold 1/2: the spectrum at 3/5 is the folded one. *)
Example C91_instance : exists n, history "test" (Fin 1) [one_isotope] [Fin 1] ops_blur n /\ b_threshold (n_base n) = Fin (1/2) /\
  Nuclear_dRdE X2 DM1 D1 n (Fin (3/5)) = Ok (Fin (RInt (fun ER => gauss (1/100) (3/5 - ER) * (1 / 1000000)) (lower_end (3/5) (1/2) (1/100)) (3/5 + 6 * (1/100)))).
Proof. destruct blur_history as (n & H & F & T). exists n. split; [exact H|]. split; [exact T|]. apply blur_spectrum; auto; lra. Qed.

(** C92: a shell contributes nothing if the fastest particle cannot ionize it, or only with momenta beyond the table. *)
Theorem C92_zero : forall Integrate DM D shell m v Eb qc Ee mn, real_setting DM D m v -> binding_energy shell = Fin Eb -> q_max shell = Fin qc -> m * v ^ 2 / 2 < Eb \/ qc < qlow m v Eb ->
  dRdEe_ER_shell Integrate Ee DM D mn shell = Ok (Fin 0).
Proof. exact shell_zero. Qed.
Print Assumptions C92_zero.

(** Otherwise its spectrum is the sum over a hundred momenta with constant ratios, from the smallest to the largest momentum that can be transferred (or the end of the table), of 2 q^2 d(ln q) times the speed integral, over the nuclear mass. *)
Theorem C92_sum : forall Integrate DM D shell f rho m vmax lo hi Ee Eb qc c J mn, ideal_quadrature Integrate -> shell_setting DM D shell f rho m vmax lo hi Ee Eb qc c J ->
  Eb <= m * vmax ^ 2 / 2 -> qlow m vmax Eb <= qc -> 0 < mn ->
  let a := qlow m vmax Eb in let b := Rmin qc (qhigh m vmax Eb) in
  dRdEe_ER_shell Integrate (Fin Ee) DM D (Fin mn) shell =
    Ok (Fin (1 / mn * Rsum (map (fun k => 2 * (ln (b / a) / 99) * log_point a b 99 k ^ 2 * J (log_point a b 99 k)) (seq 0 100)))).
Proof. exact shell_sum. Qed.
Print Assumptions C92_sum.

(** This is the trapezoid rule in ln q for the integral over q^2; if the table ends within the kinematic range the last momentum is counted fully instead of half. *)
Theorem C92_trapezoid : forall Integrate DM D shell f rho m vmax lo hi Ee Eb qc c J mn, ideal_quadrature Integrate -> shell_setting DM D shell f rho m vmax lo hi Ee Eb qc c J ->
  Eb <= m * vmax ^ 2 / 2 -> 0 < mn ->
  (qhigh m vmax Eb <= qc -> dRdEe_ER_shell Integrate (Fin Ee) DM D (Fin mn) shell =
     Ok (Fin (1 / mn * trapezoid (fun x => 2 * exp x ^ 2 * J (exp x)) (ln (qlow m vmax Eb)) (ln (qhigh m vmax Eb)) 99))) /\
  (qlow m vmax Eb <= qc <= qhigh m vmax Eb -> dRdEe_ER_shell Integrate (Fin Ee) DM D (Fin mn) shell =
     Ok (Fin (1 / mn * (trapezoid (fun x => 2 * exp x ^ 2 * J (exp x)) (ln (qlow m vmax Eb)) (ln qc) 99 + ln (qc / qlow m vmax Eb) / 99 * (qc ^ 2 * J qc))))).
Proof. exact shell_trapezoid. Qed.
Print Assumptions C92_trapezoid.

(** The spectrum of an atom is the sum over all its shells. *)
Theorem C92_atom : forall Integrate Ee DM D a (rate : Atomic_Electron -> R), (forall s, In s (electrons a) -> dRdEe_ER_shell Integrate Ee DM D (Average_Nuclear_Mass (at_nucleus a)) s = Ok (Fin (rate s))) ->
  dRdEe_ER_atom Integrate Ee DM D a = Ok (Fin (Rsum (map rate (electrons a)))).
Proof. exact atom_sum. Qed.
Print Assumptions C92_atom.

(** A shell of binding energy 3/4 tabulated up to 2 (within the range) and up to 20 (beyond it), with positive speed integrals. *)
Example C92_instance : shell_setting DM2 box_halo shell1 box 1 2 3 1 3 1 (3 / 4) 2 (fun _ => 1) (fun q => Jbox 1 (vneed 2 (3 / 4 + 1) q)) /\ 3 / 4 <= 2 * 3 ^ 2 / 2 /\ qlow 2 3 (3 / 4) <= 2 <= qhigh 2 3 (3 / 4) /\
  shell_setting DM2 box_halo shell2 box 1 2 3 1 3 1 (3 / 4) 20 (fun _ => 1) (fun q => Jbox 1 (vneed 2 (3 / 4 + 1) q)) /\ qhigh 2 3 (3 / 4) <= 20 /\ 0 < Jbox 1 (vneed 2 (3 / 4 + 1) 1).
Proof. exact shell_instance_sum. Qed.

(** C93: the spectrum of a crystal is the midpoint rule in q^2 over the tabulated momenta for the speed integrals, over the mass of the cell. *)
Theorem C93_sum : forall Integrate DM D x f rho m vmax lo hi Ee dq0 M emax (c J : R -> R), ideal_quadrature Integrate -> mean_inverse D f rho vmax lo hi ->
  dm_mass DM = Fin m -> 0 < m -> dq x = Fin dq0 -> 0 < dq0 -> M_cell x = Fin M -> 0 < M -> E_max x = Fin emax -> 0 <= Ee <= emax ->
  (forall i, (1 <= i <= Z.to_nat (N_q x))%nat -> let q := INR i * dq0 in (vneed m Ee q <= vmax -> lo <= vneed m Ee q <= hi) /\
     inverse_square (fun v => dm_d2Sigma_Crystal DM (Fin q) (Fin Ee) v x) (c q) /\ speed_integral f rho m (c q) (vneed m Ee q) vmax (J q)) ->
  dRdEe_Crystal Integrate (Fin Ee) DM D x =
    Ok (Fin (1 / M * Rsum (map (fun i => (((INR i + 1 / 2) * dq0) ^ 2 - ((INR i - 1 / 2) * dq0) ^ 2) * J (INR i * dq0)) (seq 1 (Z.to_nat (N_q x)))))).
Proof. exact crystal_sum. Qed.
Print Assumptions C93_sum.

(** It is zero above the largest tabulated energy. *)
Theorem C93_zero : forall Integrate DM D x Ee emax, E_max x = Fin emax -> emax < Ee -> dRdEe_Crystal Integrate (Fin Ee) DM D x = Ok (Fin 0).
Proof. exact crystal_zero. Qed.
Print Assumptions C93_zero.

(** Three momenta with positive speed integrals. *)
Example C93_instance : exists m M, dq crystal3 = Fin 1 /\ M_cell crystal3 = Fin M /\ 0 < M /\ E_max crystal3 = Fin m /\ 1 <= m /\ Z.to_nat (N_q crystal3) = 3%nat /\
  forall i, (1 <= i <= 3)%nat -> let q := INR i * 1 in (vneed 2 1 q <= 3 -> 1 <= vneed 2 1 q <= 3) /\
     inverse_square (fun v => dm_d2Sigma_Crystal DM2 (Fin q) (Fin 1) v crystal3) 1 /\ speed_integral box 1 2 1 (vneed 2 1 q) 3 (Jbox 1 (vneed 2 1 q)) /\ 0 < Jbox 1 (vneed 2 1 q).
Proof. exact crystal_instance_sum. Qed.

(** C94: the Migdal spectrum of an isotope and shell is the double integral, over recoil energies and over the speeds that allow them, of flux times nuclear cross section times form factor over 4 E_e, divided by the nuclear mass; whichever formula the switches select. *)
Theorem C94_isotope : forall Integrate I2 DM D t shell f rho m vmax lo hi M Ee Eb K, ideal_quadrature Integrate -> migdal_setting I2 DM D t shell f rho m vmax lo hi M Ee Eb K ->
  ex_RInt K ((Eb / vmax) ^ 2 / (2 * M)) ((2 * mu m M * vmax) ^ 2 / (2 * M)) ->
  dRdEe_Migdal_isotope Integrate I2 (Fin Ee) DM D t shell = Ok (Fin (1 / M * RInt K ((Eb / vmax) ^ 2 / (2 * M)) ((2 * mu m M * vmax) ^ 2 / (2 * M)))).
Proof. exact migdal_spectrum. Qed.
Print Assumptions C94_isotope.

(** That of an atom is the sum over shells and isotopes weighted with the abundances. *)
Theorem C94_atom : forall Integrate I2 Ee DM D a (ab : Isotope -> R) (rate : Isotope -> Atomic_Electron -> R), (forall t s, In t (nisotopes (at_nucleus a)) -> In s (electrons a) -> iabundance t = Fin (ab t) /\ dRdEe_Migdal_isotope Integrate I2 Ee DM D t s = Ok (Fin (rate t s))) ->
  dRdEe_Migdal_atom Integrate I2 Ee DM D a = Ok (Fin (Rsum (map (fun s => Rsum (map (fun t => ab t * rate t s) (nisotopes (at_nucleus a)))) (electrons a)))).
Proof. exact migdal_atom. Qed.
Print Assumptions C94_atom.

Example C94_instance : migdal_setting flat_I2 DM2 box_halo heavy2 shell1 box 1 2 3 1 3 2 (mElectron / 2) (3 / 4) Kbox /\
  ex_RInt Kbox ((3 / 4 / 3) ^ 2 / (2 * 2)) ((2 * mu 2 2 * 3) ^ 2 / (2 * 2)) /\ 0 < Kbox 1.
Proof. exact migdal_instance_sum. Qed.
