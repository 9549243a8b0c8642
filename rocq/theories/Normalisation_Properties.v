(** Property theorems C81-C85 (source: /repo/src/DM_Particle.cpp, /repo/src/DM_Particle_Standard.cpp, /repo/src/Target_Nucleus.cpp). *)
From Coq Require Import Reals ZArith String Lra Lia.
From Coquelicot Require Import Coquelicot.
From Coq Require Import List.
From Verif Require Import Base XrFacts Nucleus_Model Particle_Model Particle_Proofs CrossSection_Model CrossSection_Proofs Helm_Proofs Kinematics_Proofs Normalisation_Proofs Setters_Proofs.
Import ListNotations.
Local Open Scope R_scope.

(** C81: on a free proton (neutron) the total cross section is the proton (neutron) cross section, for both kinds of interaction. *)
Theorem C81_free_nucleons : forall Integrate s p n v, reachable s -> couplings s p n -> momentum_independent s ->
  (forall t, free_proton t -> Sigma_Total_Nucleus Integrate s t v = Ok (Sigma_Proton s)) /\
  (forall t, free_neutron t -> Sigma_Total_Nucleus Integrate s t v = Ok (Sigma_Neutron s)).
Proof. exact free_nucleons. Qed.
Print Assumptions C81_free_nucleons.

(** Spin-independent scattering off a nucleus is coherent: with equal couplings the cross section grows with the square of the mass number, with one nucleon only with the square of its number, times the ratio of squared reduced masses. *)
Theorem C81_coherent : forall Integrate s p n m t M v, reachable s -> couplings s p n -> kind s = SI -> low_mass s = true -> FF_DM s = "Contact"%string ->
  mass s = Fin m -> imass t = Fin M -> 0 < M -> (0 <= iZ t <= iA t)%Z -> (iA t < 2 ^ 32)%Z ->
  exists sp sn sA, Sigma_Proton s = Fin sp /\ Sigma_Neutron s = Fin sn /\ Sigma_Total_Nucleus Integrate s t v = Ok (Fin sA) /\
    let r := (m * M / (m + M)) / (m * mProton / (m + mProton)) in
    (p = n -> sA = sp * IZR (iA t) ^ 2 * r ^ 2) /\
    (n = 0 -> sA = sp * IZR (iZ t) ^ 2 * r ^ 2) /\
    (p = 0 -> sA = sn * (IZR (iA t) - IZR (iZ t)) ^ 2 * r ^ 2).
Proof. exact coherent. Qed.
Print Assumptions C81_coherent.

(** Spin-dependent scattering: the same with the spin expectation values and the factor 4/3 (J+1)/J. *)
Theorem C81_spin : forall Integrate s p n m t M v j a b, reachable s -> couplings s p n -> kind s = SD ->
  mass s = Fin m -> imass t = Fin M -> 0 < M -> ispin t = Fin j -> j <> 0 -> isp t = Fin a -> isn t = Fin b ->
  exists sp sn sA, Sigma_Proton s = Fin sp /\ Sigma_Neutron s = Fin sn /\ Sigma_Total_Nucleus Integrate s t v = Ok (Fin sA) /\
    let r := (m * M / (m + M)) / (m * mProton / (m + mProton)) in
    let g := 4 / 3 * ((j + 1) / j) in
    (p = n -> sA = sp * g * (a + b) ^ 2 * r ^ 2) /\
    (n = 0 -> sA = sp * g * a ^ 2 * r ^ 2) /\
    (p = 0 -> sA = sn * g * b ^ 2 * r ^ 2).
Proof. exact spin_scaling. Qed.
Print Assumptions C81_spin.

(** Nuclei without spin are not seen by spin-dependent interactions. *)
Theorem C81_spinless : forall Integrate s t v, kind s = SD -> ispin t = Fin 0 -> Sigma_Total_Nucleus Integrate s t v = Ok (Fin 0).
Proof. exact spinless_invisible. Qed.
Print Assumptions C81_spinless.

(** On a free electron the total cross section of a contact interaction is the electron cross section. *)
Theorem C81_free_electron : forall s v, kind s = SD \/ FF_DM s = "Contact"%string -> Sigma_Total_Electron s v = Ok (Sigma_Electron s).
Proof. exact free_electron. Qed.
Print Assumptions C81_free_electron.

(** Instances: the default isotope is a free proton; after low mass mode is switched on the default particle of both kinds has a
    momentum independent interaction, finite couplings and is reachable. *)
Example C81_instance : free_proton Isotope_default /\
  (forall k s, pstep (Particle_ctor k (Fin 10) (Fin 1)) (PLow_Mass true) = Ok s -> reachable s /\ momentum_independent s /\ exists p, couplings s p p).
Proof.
  split; [repeat split; reflexivity|]. intros k s H. split; [|split].
  - exists k, 10, 1, [PLow_Mass true]. split; [lra|]. split; [lra|]. split; [constructor; [exact Logic.I|constructor]|]. exact H.
  - cbn [pstep] in H. apply Ok_inj in H. subst s. destruct (ctor_frame k (Fin 10) (Fin 1)) as (Hk & _ & Hf & _).
    destruct k; [right; split; [exact Hk|split; [reflexivity|exact Hf]]|left; exact Hk].
  - cbn [pstep] in H. apply Ok_inj in H. subst s. destruct (ctor_couplings k 10 1 ltac:(lra) ltac:(lra)) as (p & Hp). exists p. exact Hp.
Qed.

(** C82: without low mass mode the differential cross section is that of low mass mode times the squared Helm form factor. *)
Theorem C82_heavy_particles : forall s t q v a F, kind s = SI -> Helm_Form_Factor t q = Fin F ->
  dSigma_dq2_Nucleus (with_low_mass true s) q t v = Ok (Fin a) ->
  dSigma_dq2_Nucleus (with_low_mass false s) q t v = Ok (Fin (a * F ^ 2)).
Proof. exact heavy_is_light_times_helm. Qed.
Print Assumptions C82_heavy_particles.

(** For spin-dependent interactions the mode makes no difference. *)
Theorem C82_spin_dependent : forall s t q v b, kind s = SD ->
  dSigma_dq2_Nucleus (with_low_mass b s) q t v = dSigma_dq2_Nucleus s q t v.
Proof. exact low_mass_irrelevant_SD. Qed.
Print Assumptions C82_spin_dependent.

(** The Helm form factor above 1 eV: 3 j1(q r)/(q r) exp(-q^2 s^2/2) with the radius of the documented parametrisation. *)
Theorem C82_helm_formula : forall t q, 1 / 1000000 * MeV <= q ->
  let c := (1.23 * pow_third (iA t) - 0.6) * fm in
  let rn := sqrt (c ^ 2 + 7 / 3 * PI ^ 2 * (0.52 * fm) ^ 2 - 5 * (0.9 * fm) ^ 2) in
  0 < rn /\ Helm_Form_Factor t (Fin q) = Fin (3 * j1 (q * rn) / (q * rn) * exp (- (q ^ 2 * (0.9 * fm) ^ 2 / 2))).
Proof. exact helm_formula. Qed.
Print Assumptions C82_helm_formula.

(** The differential cross section in the recoil energy integrates to the total cross section up to the largest recoil energy. *)
Theorem C82_recoil_spectrum_SI : forall Integrate s t m p n se mm M v, kind s = SI -> low_mass s = true -> regular s m p n se mm -> IR_finite s mm ->
  imass t = Fin M -> 0 < M -> 0 < v ->
  exists h Emax I, Maximum_Nuclear_Recoil_Energy (Fin v) (Fin m) (Fin M) = Fin Emax /\
    (forall E, 0 <= E <= Emax -> dSigma_dER_Nucleus s (Fin E) t (Fin v) = Ok (Fin (h E))) /\
    is_RInt h 0 Emax I /\ Sigma_Total_Nucleus Integrate s t (Fin v) = Ok (Fin I).
Proof. exact recoil_spectrum_SI. Qed.
Print Assumptions C82_recoil_spectrum_SI.

(** The same for spin-dependent interactions. *)
Theorem C82_recoil_spectrum_SD : forall Integrate s t m p n se mm M v j sp sn, kind s = SD -> regular s m p n se mm -> imass t = Fin M -> 0 < M -> 0 < v ->
  ispin t = Fin j -> isp t = Fin sp -> isn t = Fin sn ->
  exists h Emax I, Maximum_Nuclear_Recoil_Energy (Fin v) (Fin m) (Fin M) = Fin Emax /\
    (forall E, 0 <= E <= Emax -> dSigma_dER_Nucleus s (Fin E) t (Fin v) = Ok (Fin (h E))) /\
    is_RInt h 0 Emax I /\ Sigma_Total_Nucleus Integrate s t (Fin v) = Ok (Fin I).
Proof. exact recoil_spectrum_SD. Qed.
Print Assumptions C82_recoil_spectrum_SD.

(** Instance: hydrogen at 1 MeV momentum transfer. *)
Example C82_instance : 1 / 1000000 * MeV <= MeV /\ exists F, Helm_Form_Factor Isotope_default (Fin MeV) = Fin F.
Proof. split; [unfold MeV; lra|]. eexists. apply Helm_eq. Qed.

(** C83: free electrons. *)
Theorem C83_free_electrons : forall s q m se v F, mass s = Fin m -> 0 < m -> sigma_electron s = Fin se -> 0 < v ->
  (kind s = SD -> dSigma_dq2_Electron s q (Fin v) = Ok (Fin (se / (4 * (red_mass m mElectron) ^ 2 * v ^ 2)))) /\
  (kind s = SI -> FormFactor2_DM s q = Ok (Fin F) ->
     dSigma_dq2_Electron s q (Fin v) = Ok (Fin (se / (4 * (red_mass m mElectron) ^ 2 * v ^ 2) * F))).
Proof. exact electron_formula. Qed.
Print Assumptions C83_free_electrons.

(** Bound electrons: the cross section of a free electron times the ionization form factor over four times the energy of the electron. *)
Theorem C83_ionization : forall s q Ee v f a, kind s = SI -> 0 < Ee -> dSigma_dq2_Electron s q v = Ok (Fin a) ->
  d2Sigma_dq2_dEe_Ionization s q (Fin Ee) v (Fin f) = Ok (Fin (a * f / (4 * Ee))).
Proof. exact ionization_formula. Qed.
Print Assumptions C83_ionization.

(** Electrons in a crystal. *)
Theorem C83_crystal : forall s q Ee v f a, kind s = SI -> 0 < q -> dSigma_dq2_Electron s (Fin q) v = Ok (Fin a) ->
  d2Sigma_dq2_dEe_Crystal s (Fin q) Ee v (Fin f) = Ok (Fin (2 * aEM * mElectron ^ 2 / q ^ 3 * a * f)).
Proof. exact crystal_formula. Qed.
Print Assumptions C83_crystal.

(** Migdal scattering: the nuclear cross section times the ionization form factor at the electron mass times the speed of the recoiling nucleus. *)
Theorem C83_migdal : forall s E Ee v t M FFs a f, imass t = Fin M -> 0 < M -> 0 <= E -> 0 < Ee ->
  dSigma_dER_Nucleus s (Fin E) t v = Ok (Fin a) -> FFs (Fin (mElectron * sqrt (2 * E / M))) (Fin Ee) = Fin f ->
  d2Sigma_dER_dEe_Migdal s (Fin E) (Fin Ee) v t FFs = Ok (Fin (a * f / (4 * Ee))).
Proof. exact migdal_formula. Qed.
Print Assumptions C83_migdal.

(** Spin-dependent interactions do not excite bound electrons. *)
Theorem C83_spin_dependent : forall s q Ee v f, kind s = SD ->
  d2Sigma_dq2_dEe_Ionization s q Ee v f = Ok (Fin 0) /\ d2Sigma_dq2_dEe_Crystal s q Ee v f = Ok (Fin 0).
Proof. exact SD_no_electrons. Qed.
Print Assumptions C83_spin_dependent.

(** Instance: contact interaction of the default particle, q = 1 keV. *)
Example C83_instance : exists a, dSigma_dq2_Electron (Particle_default SI) (Fin keV) (Fin 0.001) = Ok (Fin a) /\ 0 < a.
Proof.
  assert (H := electron_formula (Particle_default SI) (Fin keV) (10 * GeV) (1 / 10 ^ 40 * cm * cm) 0.001 1).
  destruct (ctor_frame SI (Fin (10 * GeV)) (Fin (1 / 10 ^ 40 * cm * cm))) as (F3 & F1 & F4 & F2 & _).
  destruct H as [_ H]; [exact F1|unfold GeV; lra|exact F2|lra|].
  eexists. split; [apply (H F3); apply FF_contact, F4|].
  assert (hc := cm_pos). assert (hr := red_mass_pos (10 * GeV) mElectron ltac:(unfold GeV; lra) mElectron_pos).
  rewrite Rmult_1_r. apply Rdiv_lt_0_compat.
  - apply Rmult_lt_0_compat; [apply Rmult_lt_0_compat; [apply Rdiv_lt_0_compat; [lra|apply pow_lt; lra]|exact hc]|exact hc].
  - apply Rmult_lt_0_compat; [|lra]. apply Rmult_lt_0_compat; [lra|]. apply pow_lt, hr.
Qed.

(** C84: for long range and electric dipole interactions total cross sections, angular distributions and samples are refused, whatever the target and speed. *)
Theorem C84_refused : forall s, divergent_interaction s -> forall Integrate Find_Root t v c xi,
  Sigma_Total_Nucleus Integrate s t v = Exit /\ Sigma_Total_Electron s v = Exit /\
  PDF_Scattering_Angle_Nucleus Integrate s c t v = Exit /\ PDF_Scattering_Angle_Electron s c v = Exit /\
  CDF_Scattering_Angle_Nucleus Integrate s c t v = Exit /\ CDF_Scattering_Angle_Electron s c v = Exit /\
  Sample_Scattering_Angle_Nucleus Integrate Find_Root s xi t v = Exit /\ Sample_Scattering_Angle_Electron s xi v = Exit.
Proof. exact divergent_refused. Qed.
Print Assumptions C84_refused.

(** The refusal is right: the cross section above a momentum cut exceeds every bound as the cut is lowered. *)
Theorem C84_nuclei_diverge : forall s t m p n M v B, divergent_interaction s -> low_mass s = true ->
  mass s = Fin m -> 0 < m -> couplings s p n -> imass t = Fin M -> 0 < M -> 0 < v ->
  p * IZR (iZ t) + n * IZR (u32 (iA t - iZ t)) <> 0 ->
  exists eps g I, 0 < eps < q2_max m M v /\
    (forall x, eps <= x <= q2_max m M v -> dSigma_dq2_Nucleus s (xsqrt (Fin x)) t (Fin v) = Ok (Fin (g x))) /\
    is_RInt g eps (q2_max m M v) I /\ B < I.
Proof. exact divergent_nucleus. Qed.
Print Assumptions C84_nuclei_diverge.

(** The same for electrons. *)
Theorem C84_electrons_diverge : forall s m se v B, divergent_interaction s ->
  mass s = Fin m -> 0 < m -> sigma_electron s = Fin se -> 0 < se -> 0 < v ->
  exists eps g I, 0 < eps < q2_max m mElectron v /\
    (forall x, eps <= x <= q2_max m mElectron v -> dSigma_dq2_Electron s (xsqrt (Fin x)) (Fin v) = Ok (Fin (g x))) /\
    is_RInt g eps (q2_max m mElectron v) I /\ B < I.
Proof. exact divergent_electron. Qed.
Print Assumptions C84_electrons_diverge.

(** Instance: the default particle with a long range force. *)
Example C84_instance : exists s, pstep (Particle_default SI) (PForm_Factor "Long-Range" (Fin 0)) = Ok s /\ divergent_interaction s.
Proof.
  destruct (ctor_frame SI (Fin (10 * GeV)) (Fin (1 / 10 ^ 40 * cm * cm))) as (K & _).
  change (kind (Particle_default SI) = SI) in K.
  exists (with_FF "Long-Range" (Particle_default SI)). split; [cbn [pstep]; rewrite K; reflexivity|]. split; [exact K|left; reflexivity].
Qed.

(** C85: a call changes nothing but what it names. *)
Theorem C85_nothing_else_changes : forall s o s', pstep s o = Ok s' ->
  (~ names_mass o -> mass s' = mass s) /\
  (~ names_electron o -> Sigma_Electron s' = Sigma_Electron s) /\
  (~ names_nucleons o -> Sigma_Proton s' = Sigma_Proton s /\ Sigma_Neutron s' = Sigma_Neutron s) /\
  (~ names_form_factor o -> forall q, FormFactor2_DM s' q = FormFactor2_DM s q) /\
  (~ names_low_mass o -> low_mass s' = low_mass s) /\
  (~ names_density o -> fractional_density s' = fractional_density s) /\
  kind s' = kind s.
Proof. exact setters_frame. Qed.
Print Assumptions C85_nothing_else_changes.

(** What it names takes the value given. *)
Theorem C85_takes_effect : forall s, (forall b, exists s', pstep s (PLow_Mass b) = Ok s' /\ low_mass s' = b) /\
  (forall f, exists s', pstep s (PDensity f) = Ok s' /\ fractional_density s' = f) /\
  (forall m, exists s', pstep s (PSet_Mass m) = Ok s' /\ mass s' = m) /\
  (forall x, exists s', pstep s (PSet_Sigma_Electron x) = Ok s' /\ Sigma_Electron s' = x).
Proof. exact setters_effect. Qed.
Print Assumptions C85_takes_effect.

(** Releasing the coupling ratio changes no cross section and makes the two nucleon cross sections independent. *)
Theorem C85_released : forall s x, let s' := Unfix_Coupling_Ratios s in
  Sigma_Proton s' = Sigma_Proton s /\ Sigma_Neutron s' = Sigma_Neutron s /\
  Sigma_Neutron (Set_Sigma_Proton x s') = Sigma_Neutron s /\ Sigma_Proton (Set_Sigma_Neutron x s') = Sigma_Proton s.
Proof. exact released. Qed.
Print Assumptions C85_released.

(** Only the four documented interactions are accepted; a positive mediator mass given with the general one is installed, otherwise the earlier one stays. *)
Theorem C85_form_factor : forall s ff mm, kind s = SI ->
  (~ In ff ["Contact"; "Electric-Dipole"; "Long-Range"; "General"]%string -> pstep s (PForm_Factor ff (Fin mm)) = Exit) /\
  (ff = "Contact"%string -> exists s', pstep s (PForm_Factor ff (Fin mm)) = Ok s' /\ forall q, FormFactor2_DM s' q = Ok (Fin 1)) /\
  (ff = "Electric-Dipole"%string -> exists s', pstep s (PForm_Factor ff (Fin mm)) = Ok s' /\
     forall q, 0 < q -> FormFactor2_DM s' (Fin q) = Ok (Fin ((aEM * mElectron / q) ^ 2))) /\
  (ff = "Long-Range"%string -> exists s', pstep s (PForm_Factor ff (Fin mm)) = Ok s' /\
     forall q, 0 < q -> FormFactor2_DM s' (Fin q) = Ok (Fin ((aEM * mElectron / q) ^ 4))) /\
  (ff = "General"%string -> forall m0, mMediator s = Fin m0 -> let m := if Rlt_dec 0 mm then mm else m0 in
     exists s', pstep s (PForm_Factor ff (Fin mm)) = Ok s' /\
     forall q, 0 < q -> FormFactor2_DM s' (Fin q) = Ok (Fin (((((aEM * mElectron) ^ 2 + m ^ 2) / (q ^ 2 + m ^ 2))) ^ 2))).
Proof. exact form_factor_choice. Qed.
Print Assumptions C85_form_factor.

(** The mediator mass is the one set last. *)
Theorem C85_mediator : forall s m, kind s = SI -> FF_DM s = "General"%string ->
  exists s', pstep s (PMediator (Fin m)) = Ok s' /\
  forall q, 0 < q -> FormFactor2_DM s' (Fin q) = Ok (Fin (((((aEM * mElectron) ^ 2 + m ^ 2) / (q ^ 2 + m ^ 2))) ^ 2)).
Proof. exact mediator_choice. Qed.
Print Assumptions C85_mediator.

(** Instance: from 100 MeV to 5 MeV, and kept when none is given. *)
Example C85_instance : exists s1 s2 s3, pstep (Particle_default SI) (PForm_Factor "General" (Fin 0.1)) = Ok s1 /\
  pstep s1 (PMediator (Fin 0.005)) = Ok s2 /\ pstep s2 (PForm_Factor "General" (Fin (-1))) = Ok s3 /\ mMediator s1 = Fin 0.1 /\ mMediator s3 = Fin 0.005.
Proof.
  destruct (ctor_frame SI (Fin (10 * GeV)) (Fin (1 / 10 ^ 40 * cm * cm))) as (K & _).
  change (kind (Particle_default SI) = SI) in K.
  exists (with_mMediator (Fin 0.1) (with_FF "General" (Particle_default SI))).
  exists (with_mMediator (Fin 0.005) (with_mMediator (Fin 0.1) (with_FF "General" (Particle_default SI)))).
  exists (with_FF "General" (with_mMediator (Fin 0.005) (with_mMediator (Fin 0.1) (with_FF "General" (Particle_default SI))))).
  split; [|split; [|split; [|split; reflexivity]]].
  - cbn [pstep]. rewrite K. unfold Set_FormFactor_DM. cbn [String.eqb Ascii.eqb Bool.eqb orb FF_DM with_FF andb]. rewrite xlt_true by lra. reflexivity.
  - cbn [pstep]. change (kind (with_mMediator (Fin 0.1) (with_FF "General" (Particle_default SI)))) with (kind (Particle_default SI)). rewrite K. reflexivity.
  - cbn [pstep]. change (kind (with_mMediator (Fin 0.005) (with_mMediator (Fin 0.1) (with_FF "General" (Particle_default SI))))) with (kind (Particle_default SI)). rewrite K.
    unfold Set_FormFactor_DM. cbn [String.eqb Ascii.eqb Bool.eqb orb FF_DM with_FF andb]. rewrite xlt_false by lra. reflexivity.
Qed.
