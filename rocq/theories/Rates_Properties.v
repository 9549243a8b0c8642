(** C53-C56, C69-C71: mass fractions, the reach of detectors, and two formulas for the rate. *)
From Coq Require Import Reals ZArith String Lia Lra Bool.
From Coquelicot Require Import Coquelicot.
From Coq Require Import List.
From Verif Require Import Base XrFacts Quadrature Astronomy_Model Nucleus_Model Nuclear_Model Particle_Model CrossSection_Model Distribution_Model Halo_Model Atom_Model
  Crystal_Model Rates_Model Detector_Model DetectorTypes_Model Kinematics_Proofs Distribution_Proofs HaloState_Proofs Eta_Proofs HaloFinal_Proofs DetectorWitness_Proofs Scaling_Proofs LimitsWitness_Proofs
  Fractions_Proofs Formulas_Proofs FormulasHalo_Proofs FormulasWitness_Proofs DensityFraction_Proofs Reach_Proofs ReachWitness_Proofs.
Import ListNotations.
Local Open Scope R_scope.

(** C53: relative amounts that add up to more than 1 become mass fractions: shares of the total of amount times nuclear mass, adding up to 1. *)
Theorem C53_nuclear : forall nuclei masses amounts, nuclei_masses nuclei masses -> List.length amounts = List.length nuclei -> Forall (fun a => 0 <= a) amounts -> 1 < Rsum amounts ->
  exists fs, relative_fractions nuclei (map Fin amounts) = Ok (map Fin fs) /\ shares (weights amounts masses) fs.
Proof. exact nuclear_fractions. Qed.
Print Assumptions C53_nuclear.

(** Without amounts every nucleus counts once. *)
Theorem C53_nuclear_default : forall nuclei masses, nuclei_masses nuclei masses -> nuclei <> [] ->
  exists fs, relative_fractions nuclei [] = Ok (map Fin fs) /\ shares (weights (repeat 1 (List.length nuclei)) masses) fs.
Proof. exact nuclear_fractions_default. Qed.
Print Assumptions C53_nuclear_default.

(** Atoms are given by mass fractions; if they add up to more than 1 they are normalised. *)
Theorem C53_ionization : forall n fr, List.length fr = n -> Forall (fun a => 0 <= a) fr -> 1 < Rsum fr ->
  exists fs, ionization_fractions n (map Fin fr) = Ok (map Fin fs) /\ shares fr fs.
Proof. exact ionization_fractions_large. Qed.
Print Assumptions C53_ionization.

Theorem C53_ionization_default : forall n, (0 < n)%nat -> exists fs, ionization_fractions n [] = Ok (map Fin fs) /\ shares (repeat 1 n) fs.
Proof. exact ionization_fractions_default. Qed.
Print Assumptions C53_ionization_default.

(** A list of the wrong length is refused. *)
Theorem C53_ionization_length : forall n fr, fr <> [] -> List.length fr <> n -> ionization_fractions n fr = Exit.
Proof. exact ionization_fractions_length. Qed.
Print Assumptions C53_ionization_length.

(** Amounts that add up to at most 1 are taken for mass fractions, whatever they mean, and not normalised. *)
Theorem C53_small : forall nuclei amounts, amounts <> [] -> Rsum amounts <= 1 -> relative_fractions nuclei (map Fin amounts) = Ok (map Fin amounts).
Proof. exact nuclear_fractions_small. Qed.
Print Assumptions C53_small.

Theorem C53_small_ionization : forall n fr, fr <> [] -> List.length fr = n -> Rsum fr <= 1 -> ionization_fractions n (map Fin fr) = Ok (map Fin fr).
Proof. exact ionization_fractions_small. Qed.
Print Assumptions C53_small_ionization.

(** Hence one composition, two hydrogen per oxygen: right when given as (2, 1), wrong when given as (2/3, 1/3). *)
Theorem C53_water_refuted : exists nuclei a b, nuclei_masses nuclei [1; 16] /\ relative_fractions nuclei (map Fin [2; 1]) = Ok (map Fin a) /\ shares (weights [2; 1] [1; 16]) a /\
  relative_fractions nuclei (map Fin [2 / 3; 1 / 3]) = Ok (map Fin b) /\ ~ shares (weights [2 / 3; 1 / 3] [1; 16]) b /\ a <> b.
Proof. exact water_refuted. Qed.
Print Assumptions C53_water_refuted.

(** And fractions that add up to 1/2 stay so. *)
Theorem C53_half_refuted : exists nuclei a, nuclei_masses nuclei [1; 16] /\ relative_fractions nuclei (map Fin a) = Ok (map Fin a) /\ Forall (fun x => 0 < x) a /\ Rsum a = 1 / 2 /\
  ionization_fractions 2 (map Fin a) = Ok (map Fin a).
Proof. exact half_refuted. Qed.
Print Assumptions C53_half_refuted.

Example C53_instance : nuclei_masses water [1; 16] /\ List.length [2; 1] = List.length water /\ Forall (fun a => 0 <= a) [2; 1] /\ 1 < Rsum [2; 1].
Proof. split; [exact water_masses|]. split; [reflexivity|]. split; [repeat (apply Forall_cons || apply Forall_nil); lra|]. unfold Rsum; cbn [fold_right]. lra. Qed.

(** C54: below the reported mass no isotope that scatters recoils above the effective threshold (two resolutions below the threshold) at any speed up to the maximum; from it on some isotope does. Premise: each scattering isotope can reach the threshold with heavy enough particles. *)
Theorem C54_minimum_mass : forall sigma v n th rs, b_threshold (n_base n) = Fin th -> n_resolution n = Fin rs -> 0 < th - 2 * rs -> 0 < v ->
  targets sigma v (all_isotopes n) -> (exists t, In t (all_isotopes n) /\ scatters sigma v t) -> (forall t, In t (all_isotopes n) -> scatters sigma v t -> reachable (th - 2 * rs) v t) ->
  exists r, Nuclear_Minimum_Mass sigma (Fin v) n = Ok (Fin r) /\ 0 < r /\
    (forall m u t, 0 < m < r -> 0 <= u <= v -> In t (all_isotopes n) -> scatters sigma v t -> ~ recoils (th - 2 * rs) u m t) /\
    (forall m, r <= m -> exists t, In t (all_isotopes n) /\ scatters sigma v t /\ recoils (th - 2 * rs) v m t).
Proof. exact minimum_mass. Qed.
Print Assumptions C54_minimum_mass.

(** The cross section hypotheses for contact interactions of light particles. *)
Theorem C54_contact : forall Integrate p m a b v l, kind p = SI -> low_mass p = true -> FF_DM p = "Contact"%string -> mass p = Fin m -> 0 < m -> fp p = Fin a -> fn p = Fin b ->
  (forall t, In t l -> exists M, imass t = Fin M /\ 0 < M) ->
  targets (Sigma_Total_Nucleus Integrate p) v l /\
  forall t, In t l -> (scatters (Sigma_Total_Nucleus Integrate p) v t <-> a * IZR (iZ t) + b * IZR (u32 (iA t - iZ t)) <> 0).
Proof. exact contact_targets. Qed.
Print Assumptions C54_contact.

(** Without the premise: hydrogen and beryllium at 8 keV; the reported mass is -2. *)
Theorem C54_negative_refuted : exists Integrate p n v r, n = nR nBeH (8 / 10 ^ 6) 0 /\ v = 1 / 1000 /\
  targets (Sigma_Total_Nucleus Integrate p) v (all_isotopes n) /\ (exists t, In t (all_isotopes n) /\ scatters (Sigma_Total_Nucleus Integrate p) v t /\ reachable (8 / 10 ^ 6) v t) /\
  Nuclear_Minimum_Mass (Sigma_Total_Nucleus Integrate p) (Fin v) n = Ok (Fin r) /\ r < 0 /\
  (forall m u t, 0 < m < 18 -> 0 <= u <= v -> In t (all_isotopes n) -> ~ recoils (8 / 10 ^ 6) u m t).
Proof. exact negative_mass_refuted. Qed.
Print Assumptions C54_negative_refuted.

(** If no isotope scatters the smallest element of an empty list is read. *)
Theorem C54_undefined : forall sigma v n, (forall t, In t (all_isotopes n) -> exists s, sigma t v = Ok (Fin s) /\ s <= 0) -> Nuclear_Minimum_Mass sigma v n = UB.
Proof. exact minimum_mass_undefined. Qed.
Print Assumptions C54_undefined.

Theorem C54_undefined_refuted : exists Integrate p n, (forall v, 0 < v -> targets (Sigma_Total_Nucleus Integrate p) v (all_isotopes n)) /\ all_isotopes n <> [] /\
  forall v, 0 < v -> Nuclear_Minimum_Mass (Sigma_Total_Nucleus Integrate p) (Fin v) n = UB.
Proof. exact undefined_mass_refuted. Qed.
Print Assumptions C54_undefined_refuted.

(** For long range forces the call ends the program. *)
Theorem C54_long_range : forall Integrate p n v, kind p = SI -> IR_divergent p = true -> all_isotopes n <> [] -> Nuclear_Minimum_Mass (Sigma_Total_Nucleus Integrate p) v n = Exit.
Proof. exact long_range_exits. Qed.
Print Assumptions C54_long_range.

(** Instance for C54, C69, C70: hydrogen and beryllium, threshold 1 keV, a particle of 100 GeV. *)
Example C54_instance : exists Integrate, let n := nR nBeH (1 / 10 ^ 6) 0 in let sigma := Sigma_Total_Nucleus Integrate probe in let v := 1 / 1000 in
  b_threshold (n_base n) = Fin (1 / 10 ^ 6) /\ n_resolution n = Fin 0 /\ 0 < 1 / 10 ^ 6 - 2 * 0 /\ 0 < v /\ targets sigma v (all_isotopes n) /\
  (exists t, In t (all_isotopes n) /\ scatters sigma v t) /\ (forall t, In t (all_isotopes n) -> scatters sigma v t -> Reach_Proofs.reachable (1 / 10 ^ 6 - 2 * 0) v t).
Proof.
  exists reference_Integrate. cbv zeta. destruct (probe_targets reference_Integrate (1 / 1000) (all_isotopes (nR nBeH (1 / 10 ^ 6) 0)) (nBeH_isotopes _ _)) as [T S].
  split; [reflexivity|]. split; [reflexivity|]. split; [lra|]. split; [lra|]. split; [exact T|].
  split; [exists hydrogen; split; [left; reflexivity|]; apply S; left; reflexivity|].
  intros t I _. destruct (nBeH_isotopes _ _ _ I) as [-> | ->]; [exists 1|exists 9]; split; try reflexivity; lra.
Qed.

(** C55: for cross sections falling like 1/v^2 and an eta function that is the mean inverse speed, the rate from the eta function, the rate with the particle's switch off and the rate with the distribution's switch off are one number, and it is the integral of flux times cross section. *)
Theorem C55_isotope : forall Integrate DM D t m M fr f rho vmax lo hi E c, ideal_quadrature Integrate -> mean_inverse D f rho vmax lo hi ->
  dm_mass DM = Fin m -> 0 < m -> imass t = Fin M -> 0 < M -> dm_fraction DM = Fin fr -> dm_use_eta DM = true -> d_use_eta D = true -> 0 < E ->
  (vmax < vmin_R E m M \/ lo <= vmin_R E m M <= hi) -> inverse_square (dm_dSigma_dq2_Nucleus DM (Fin (sqrt (2 * M * E))) t) c ->
  exists r, dRdER_Isotope Integrate (Fin E) DM D t = Ok (Fin r) /\
    dRdER_Isotope Integrate (Fin E) (switch_off DM) D t = Ok (Fin r) /\ dRdER_Isotope Integrate (Fin E) DM (halo_off D) t = Ok (Fin r) /\
    (vmax < vmin_R E m M -> r = 0) /\
    (vmin_R E m M <= vmax -> is_RInt (fun v => fr / M * (rho / m * v * f v * (2 * M * (c / v ^ 2)))) (vmin_R E m M) vmax r).
Proof. exact formulas_isotope. Qed.
Print Assumptions C55_isotope.

Theorem C55_nucleus : forall Integrate DM D n m fr f rho vmax lo hi E, ideal_quadrature Integrate -> mean_inverse D f rho vmax lo hi ->
  dm_mass DM = Fin m -> 0 < m -> dm_fraction DM = Fin fr -> dm_use_eta DM = true -> d_use_eta D = true -> 0 < E ->
  (forall t, In t (nisotopes n) -> exists M c, imass t = Fin M /\ 0 < M /\ (vmax < vmin_R E m M \/ lo <= vmin_R E m M <= hi) /\ inverse_square (dm_dSigma_dq2_Nucleus DM (Fin (sqrt (2 * M * E))) t) c) ->
  dRdER_Nucleus Integrate (Fin E) (switch_off DM) D n = dRdER_Nucleus Integrate (Fin E) DM D n /\ dRdER_Nucleus Integrate (Fin E) DM (halo_off D) n = dRdER_Nucleus Integrate (Fin E) DM D n.
Proof. exact formulas_nucleus. Qed.
Print Assumptions C55_nucleus.

(** The particles of the library. *)
Theorem C55_library : forall Integrate I2 p n D f m fr rho vmax lo hi E, ideal_quadrature Integrate -> mean_inverse D f rho vmax lo hi -> d_use_eta D = true ->
  mass p = Fin m -> 0 < m -> fractional_density p = Fin fr -> use_eta p = true -> 0 < E ->
  (forall t, In t (nisotopes n) -> exists M a, imass t = Fin M /\ 0 < M /\ (vmax < vmin_R E m M \/ lo <= vmin_R E m M <= hi) /\ dSigma_dq2_Nucleus p (Fin (sqrt (2 * M * E))) t (Fin (1 / 1000)) = Ok (Fin a)) ->
  dRdER_Nucleus Integrate (Fin E) (switch_off (interface_of I2 p)) D n = dRdER_Nucleus Integrate (Fin E) (interface_of I2 p) D n /\
  dRdER_Nucleus Integrate (Fin E) (interface_of I2 p) (halo_off D) n = dRdER_Nucleus Integrate (Fin E) (interface_of I2 p) D n.
Proof. exact library_formulas. Qed.
Print Assumptions C55_library.

(** The standard halo meets the hypothesis (up to the speeds within 1e-8 v0 of the maximum, where its eta function is cut to 0) ... *)
Theorem C55_halo : forall s rho v0 vel ve, halo_history s v0 vel ve -> 0 < v0 -> 0 < ve -> vnorm vel <= ve -> (vnorm vel = 0 \/ eps8 * v0 <= vnorm vel) -> h_rho s = Fin rho ->
  exists f, (forall v, PDF_Speed_SHM s (Fin v) = Fin (f v)) /\ mean_inverse (halo_interface s) f rho (ve + vnorm vel) 0 (ve + vnorm vel - eps8 * v0).
Proof. exact halo_mean_inverse. Qed.
Print Assumptions C55_halo.

(** ... and so does every distribution with the inherited eta function, above its slowest speed. *)
Theorem C55_inherited : forall Integrate rho pdf f a b, ideal_quadrature Integrate -> speed_density pdf f a b -> (forall v, 0 < v < a -> pdf (Fin v) = Ok (Fin (f v))) ->
  mean_inverse (inherited_interface Integrate (Fin rho) pdf (Fin a) (Fin b)) f rho b a b.
Proof. exact inherited_mean_inverse. Qed.
Print Assumptions C55_inherited.

(** Below its slowest speed it does not: the eta function ends the program where the integral gives a rate. *)
Theorem C55_low_speed_refuted : exists Integrate DM D t E r, ideal_quadrature Integrate /\ mean_inverse D box 1 3 1 3 /\ d_vmin D = Fin 1 /\ inverse_square (fun v => dm_dSigma_dq2_Nucleus DM (Fin 1) t v) 1 /\
  dm_mass DM = Fin 2 /\ imass t = Fin 2 /\ vmin_R E 2 2 = 1 / 2 /\ dRdER_Isotope Integrate (Fin E) DM D t = Exit /\ dRdER_Isotope Integrate (Fin E) DM (halo_off D) t = Ok (Fin r) /\ 0 < r.
Proof. exact low_speed_refuted. Qed.
Print Assumptions C55_low_speed_refuted.

(** Instance: speeds equally likely between 1 and 3, cross section 1/v^2, minimum speed 2; the rates are positive. *)
Example C55_instance : ideal_quadrature reference_Integrate /\ mean_inverse box_halo box 1 3 1 3 /\ inverse_square (dm_dSigma_dq2_Nucleus DM2 (Fin 4) heavy2) 1 /\ 1 <= vmin_R 4 2 2 <= 3 /\
  exists r, 0 < r /\ dRdER_Isotope reference_Integrate (Fin 4) DM2 box_halo heavy2 = Ok (Fin r) /\
  dRdER_Isotope reference_Integrate (Fin 4) (switch_off DM2) box_halo heavy2 = Ok (Fin r) /\ dRdER_Isotope reference_Integrate (Fin 4) DM2 (halo_off box_halo) heavy2 = Ok (Fin r).
Proof. split; [exact ideal_quadrature_exists|]. split; [exact box_mean_inverse|]. split; [exact falling_square|]. split; [rewrite (vmin_2 4 2) by lra; lra|exact box_rates]. Qed.

(** C56: nuclear recoil predictions scale with the density fraction. *)
Theorem C56_nuclear : forall X D n d c p, homogeneous_externals X -> 0 < c -> fractional_density p = Fin 1 -> scales (nuclear_virtuals X D n) d c p (with_fraction (Fin c) p).
Proof. exact fraction_nuclear. Qed.
Print Assumptions C56_nuclear.

(** Electron recoil and Migdal predictions do not depend on it at all ... *)
Theorem C56_ionization : forall X D s d f p, unaffected (ionization_virtuals X D s) d p (with_fraction f p).
Proof. exact fraction_ionization. Qed.
Print Assumptions C56_ionization.

(** ... and those for crystals do not either. *)
Theorem C56_semiconductor : forall X D s d f p, unaffected (semiconductor_virtuals X D s) d p (with_fraction f p).
Proof. exact fraction_semiconductor. Qed.
Print Assumptions C56_semiconductor.

(** Half of the dark matter: the full electron rate. *)
Theorem C56_ignored_refuted : exists X DM D s E r, homogeneous (x_Integrate X) /\ dm_fraction DM = Fin 1 /\ Ionization_dRdE X DM D s E = Ok (Fin r) /\ 0 < r /\
  Ionization_dRdE X (with_dm_fraction (Fin (1 / 2)) DM) D s E = Ok (Fin r) /\ Ionization_dRdE X (with_dm_fraction (Fin (1 / 2)) DM) D s E <> times (1 / 2) (Ionization_dRdE X DM D s E).
Proof. exact fraction_ignored_refuted. Qed.
Print Assumptions C56_ignored_refuted.

(** Instance: the detector and the particle of C45. *)
Example C56_instance : homogeneous_externals XW /\ 0 < 1 / 2 /\ fractional_density even = Fin 1 /\ exists s, v_total VW dW even = Ok (Fin s) /\ 0 < s.
Proof.
  split; [exact XW_homogeneous|]. split; [lra|]. split; [reflexivity|].
  destruct nuclear_limit_instance as (_ & _ & _ & s0 & _ & _ & _ & _ & _ & _ & _ & _ & _ & _ & _ & _ & _ & _ & _ & H & H0 & _). exists s0. auto.
Qed.

(** C69: the largest energy deposit is six resolutions above the largest recoil energy of any isotope that scatters. *)
Theorem C69_maximum_deposit : forall sigma v m n rs, n_resolution n = Fin rs -> 0 <= v -> 0 < m -> targets sigma v (all_isotopes n) ->
  exists r, Nuclear_Deposit sigma (Fin m) (Fin v) n = Ok (Fin (r + 6 * rs)) /\ 0 <= r /\
    (forall E u t, r < E -> 0 <= u <= v -> In t (all_isotopes n) -> scatters sigma v t -> ~ recoils E u m t) /\
    (0 < r -> exists t, In t (all_isotopes n) /\ scatters sigma v t /\ recoils r v m t).
Proof. exact maximum_deposit. Qed.
Print Assumptions C69_maximum_deposit.

Example C69_instance : exists Integrate, let n := nR nBeH (1 / 10 ^ 6) 0 in n_resolution n = Fin 0 /\ 0 <= 1 / 1000 /\ 0 < 100 /\ targets (Sigma_Total_Nucleus Integrate probe) (1 / 1000) (all_isotopes n) /\
  (exists t, In t (all_isotopes n) /\ scatters (Sigma_Total_Nucleus Integrate probe) (1 / 1000) t).
Proof.
  exists reference_Integrate. cbv zeta. destruct (probe_targets reference_Integrate (1 / 1000) (all_isotopes (nR nBeH (1 / 10 ^ 6) 0)) (nBeH_isotopes _ _)) as [T S].
  split; [reflexivity|]. split; [lra|]. split; [lra|]. split; [exact T|]. exists hydrogen. split; [left; reflexivity|]. apply S. left. reflexivity.
Qed.

(** C70: below the reported speed no isotope that scatters recoils above the effective threshold; at it some isotope does, if it is below the speed of light. (Whether an isotope scatters is decided at speed 1e-3.) *)
Theorem C70_minimum_speed : forall sigma m n th rs, b_threshold (n_base n) = Fin th -> n_resolution n = Fin rs -> 0 <= th - 2 * rs -> 0 < m -> targets sigma (1 / 1000) (all_isotopes n) ->
  exists r, Nuclear_Minimum_Speed sigma (Fin m) n = Ok (Fin r) /\ 0 <= r <= 1 /\
    (forall u t, 0 <= u < r -> In t (all_isotopes n) -> scatters sigma (1 / 1000) t -> ~ recoils (th - 2 * rs) u m t) /\
    (r < 1 -> exists t, In t (all_isotopes n) /\ scatters sigma (1 / 1000) t /\ recoils (th - 2 * rs) r m t).
Proof. exact minimum_speed. Qed.
Print Assumptions C70_minimum_speed.

(** If the threshold is below twice the resolution, every recoil counts, but the reported minimum mass is not a number and the reported minimum speed is the speed of light. *)
Theorem C70_resolution_refuted : exists Integrate p n, n = nR nBeH (1 / 10 ^ 6) (1 / 10 ^ 6) /\ (forall v, targets (Sigma_Total_Nucleus Integrate p) v (all_isotopes n)) /\
  (forall v t, In t (all_isotopes n) -> scatters (Sigma_Total_Nucleus Integrate p) v t) /\
  Nuclear_Minimum_Mass (Sigma_Total_Nucleus Integrate p) (Fin (1 / 1000)) n = Ok NaN /\ Nuclear_Minimum_Speed (Sigma_Total_Nucleus Integrate p) (mass p) n = Ok (Fin 1).
Proof. exact resolution_refuted. Qed.
Print Assumptions C70_resolution_refuted.

Example C70_instance : exists Integrate, let n := nR nBeH (1 / 10 ^ 6) 0 in b_threshold (n_base n) = Fin (1 / 10 ^ 6) /\ n_resolution n = Fin 0 /\ 0 <= 1 / 10 ^ 6 - 2 * 0 /\ targets (Sigma_Total_Nucleus Integrate probe) (1 / 1000) (all_isotopes n) /\
  (exists t, In t (all_isotopes n) /\ scatters (Sigma_Total_Nucleus Integrate probe) (1 / 1000) t).
Proof.
  exists reference_Integrate. cbv zeta. destruct (probe_targets reference_Integrate (1 / 1000) (all_isotopes (nR nBeH (1 / 10 ^ 6) 0)) (nBeH_isotopes _ _)) as [T S].
  split; [reflexivity|]. split; [reflexivity|]. split; [lra|]. split; [exact T|]. exists hydrogen. split; [left; reflexivity|]. apply S. left. reflexivity.
Qed.

(** C71: the same agreement for electron recoils in an atomic shell ... *)
Theorem C71_atom_shell : forall Integrate DM D shell m f rho vmax lo hi Ee Eb qc mn, ideal_quadrature Integrate -> mean_inverse D f rho vmax lo hi -> real_setting DM D m vmax ->
  binding_energy shell = Fin Eb -> 0 < Eb -> q_max shell = Fin qc -> 0 < Ee ->
  (forall q, sampled DM D shell q -> (Eb + Ee) / q + q / (2 * m) < vmax -> lo <= (Eb + Ee) / q + q / (2 * m) <= hi) ->
  (forall q, sampled DM D shell q -> exists c, inverse_square (fun v => dm_d2Sigma_Ionization DM (Fin q) (Fin Ee) v shell) c) ->
  dRdEe_ER_shell Integrate (Fin Ee) (switch_off DM) D mn shell = dRdEe_ER_shell Integrate (Fin Ee) DM D mn shell /\
  dRdEe_ER_shell Integrate (Fin Ee) DM (halo_off D) mn shell = dRdEe_ER_shell Integrate (Fin Ee) DM D mn shell.
Proof. exact formulas_ER_shell. Qed.
Print Assumptions C71_atom_shell.

(** ... and in a crystal. *)
Theorem C71_crystal : forall Integrate DM D x m f rho vmax lo hi Ee dq0, ideal_quadrature Integrate -> mean_inverse D f rho vmax lo hi ->
  dm_mass DM = Fin m -> 0 < m -> dq x = Fin dq0 -> 0 < dq0 -> 0 < Ee ->
  (forall i, (0 <= i < N_q x)%Z -> let q := IZR (i + 1) * dq0 in (vmax < Ee / q + q / (2 * m) \/ lo <= Ee / q + q / (2 * m) <= hi) /\ exists c, inverse_square (fun v => dm_d2Sigma_Crystal DM (Fin q) (Fin Ee) v x) c) ->
  dRdEe_Crystal Integrate (Fin Ee) (switch_off DM) D x = dRdEe_Crystal Integrate (Fin Ee) DM D x /\ dRdEe_Crystal Integrate (Fin Ee) DM (halo_off D) x = dRdEe_Crystal Integrate (Fin Ee) DM D x.
Proof. exact formulas_crystal. Qed.
Print Assumptions C71_crystal.

(** The particles of the library have such cross sections. *)
Theorem C71_library_shell : forall I2 p q Ee shell a, dm_d2Sigma_Ionization (interface_of I2 p) q Ee (Fin (1 / 1000)) shell = Ok (Fin a) ->
  inverse_square (fun v => dm_d2Sigma_Ionization (interface_of I2 p) q Ee v shell) ((1 / 1000) ^ 2 * a).
Proof. exact library_inverse_square_ionization. Qed.
Print Assumptions C71_library_shell.

Theorem C71_library_crystal : forall I2 p q Ee x a, dm_d2Sigma_Crystal (interface_of I2 p) q Ee (Fin (1 / 1000)) x = Ok (Fin a) ->
  inverse_square (fun v => dm_d2Sigma_Crystal (interface_of I2 p) q Ee v x) ((1 / 1000) ^ 2 * a).
Proof. exact library_inverse_square_crystal. Qed.
Print Assumptions C71_library_crystal.

Example C71_instance_shell : ideal_quadrature reference_Integrate /\ mean_inverse box_halo box 1 3 1 3 /\ real_setting DM2 box_halo 2 3 /\ (exists q, sampled DM2 box_halo shell1 q) /\
  (forall q, sampled DM2 box_halo shell1 q -> (3 / 4 + 1) / q + q / (2 * 2) < 3 -> 1 <= (3 / 4 + 1) / q + q / (2 * 2) <= 3) /\
  (forall q, exists c, inverse_square (fun v => dm_d2Sigma_Ionization DM2 (Fin q) (Fin 1) v shell1) c).
Proof.
  split; [exact ideal_quadrature_exists|]. split; [exact box_mean_inverse|]. split; [repeat split; lra|]. destruct shell_instance as [A B]. split; [exact A|]. split; [exact B|].
  intros q. exists 1. exact falling_square.
Qed.
Example C71_instance_crystal : forall i, (0 <= i < N_q crystal2)%Z -> let q := IZR (i + 1) * 1 in (3 < 1 / q + q / (2 * 2) \/ 1 <= 1 / q + q / (2 * 2) <= 3) /\
  exists c, inverse_square (fun v => dm_d2Sigma_Crystal DM2 (Fin q) (Fin 1) v crystal2) c.
Proof.
  cbn [N_q crystal2]. intros i Hi. assert (i = 0%Z) as -> by lia. cbv zeta. change (0 + 1)%Z with 1%Z. split; [right; lra|]. exists 1. exact falling_square.
Qed.
