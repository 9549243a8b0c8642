(** Lemmas about the normalisation of cross sections and the effect of the setters of a particle. *)
From Coq Require Import Reals ZArith String Lra Lia Bool Psatz.
From Coquelicot Require Import Coquelicot.
From Coq Require Import List.
From Verif Require Import Base XrFacts Analysis Quadrature Nucleus_Model Particle_Model Particle_Proofs CrossSection_Model CrossSection_Proofs Helm_Proofs Kinematics_Proofs.
Import ListNotations.
Local Open Scope R_scope.

(** * Reachable particles *)
Definition prefactor_of (k : interaction) : R := match k with SI => 1 | SD => 3 end.
Definition well_made (s : particle) : Prop := prefactor s = Fin (prefactor_of (kind s)).

Lemma well_made_ext s s' : kind s' = kind s -> prefactor s' = prefactor s -> well_made s -> well_made s'.
Proof. unfold well_made. intros -> ->. auto. Qed.

Lemma well_made_step s o s' : well_made s -> pstep s o = Ok s' -> well_made s'.
Proof.
  intros G H. destruct o; cbn [pstep] in H.
  - injection H as <-. pose proof (Set_Mass_frame m s) as F; cbv zeta in F; decompose [and] F; apply (well_made_ext s); auto.
  - injection H as <-. pose proof (Set_Sigma_Proton_frame x s) as F; cbv zeta in F; decompose [and] F; apply (well_made_ext s); auto.
  - injection H as <-. pose proof (Set_Sigma_Neutron_frame x s) as F; cbv zeta in F; decompose [and] F; apply (well_made_ext s); auto.
  - injection H as <-. eapply well_made_ext; [| |exact G]; reflexivity.
  - apply Set_Interaction_cases in H as [-> | [-> | ->]].
    + pose proof (Set_Sigma_Proton_frame x s) as F; cbv zeta in F; decompose [and] F; apply (well_made_ext s); auto.
    + pose proof (Set_Sigma_Neutron_frame x s) as F; cbv zeta in F; decompose [and] F; apply (well_made_ext s); auto.
    + eapply well_made_ext; [| |exact G]; reflexivity.
  - destruct (Fix_frame s s') as (?&?&?&?&?&?&?); [eauto|]. apply (well_made_ext s); auto.
  - destruct (Fix_frame s s') as (?&?&?&?&?&?&?); [eauto|]. apply (well_made_ext s); auto.
  - destruct (Fix_frame s s') as (?&?&?&?&?&?&?); [eauto 6|]. apply (well_made_ext s); auto.
  - injection H as <-. eapply well_made_ext; [| |exact G]; reflexivity.
  - injection H as <-. eapply well_made_ext; [| |exact G]; reflexivity.
  - injection H as <-. eapply well_made_ext; [| |exact G]; reflexivity.
  - destruct (kind s) eqn:K; [|injection H as <-; exact G].
    apply FormFactor_frame in H. decompose [and] H. apply (well_made_ext s); auto.
  - destruct (kind s) eqn:K; injection H as <-; [|exact G]. eapply well_made_ext; [| |exact G]; [exact eq_refl|exact eq_refl].
Qed.

Lemma reachable_well_made s : reachable s -> well_made s.
Proof.
  intros (k & m0 & x0 & ops & Hm & Hx & Hv & H).
  refine (prun_inv well_made _ ops _ _ _ Hv H).
  - intros s1 o s2 G _. apply well_made_step, G.
  - unfold Particle_ctor. pose proof (Set_Sigma_Proton_frame (Fin x0) (Standard_ctor k (Fin m0))) as F; cbv zeta in F; decompose [and] F.
    eapply well_made_ext; [eassumption|eassumption|]. unfold well_made, Standard_ctor. destruct k; reflexivity.
Qed.

Lemma reachable_mass s : reachable s -> exists m, mass s = Fin m /\ 0 < m.
Proof. intros H. exact (proj1 (proj1 (reachable_good s H))). Qed.

(** * C81: nucleon cross sections *)
Ltac fld := field; repeat split; try assumption; try lra; try apply PI_neq0.

(** A free proton and a free neutron; the code gives both the proton's mass. *)
Definition free_proton (t : Isotope) : Prop :=
  iZ t = 1%Z /\ iA t = 1%Z /\ imass t = Fin mProton /\ ispin t = Fin 0.5 /\ isp t = Fin 0.5 /\ isn t = Fin 0.
Definition free_neutron (t : Isotope) : Prop :=
  iZ t = 0%Z /\ iA t = 1%Z /\ imass t = Fin mProton /\ ispin t = Fin 0.5 /\ isp t = Fin 0 /\ isn t = Fin 0.5.

(** Interactions without momentum dependence: spin-dependent, or spin-independent contact for light particles. *)
Definition momentum_independent (s : particle) : Prop :=
  kind s = SD \/ (kind s = SI /\ low_mass s = true /\ FF_DM s = "Contact"%string).

Lemma contact_not_IR s : FF_DM s = "Contact"%string -> IR_divergent s = false.
Proof. intros H. unfold IR_divergent. rewrite H. reflexivity. Qed.

Lemma total_contact_SI Integrate s t v m p n M : kind s = SI -> low_mass s = true -> FF_DM s = "Contact"%string ->
  mass s = Fin m -> 0 < m -> couplings s p n -> imass t = Fin M -> 0 < M ->
  Sigma_Total_Nucleus Integrate s t v = Ok (Fin ((red_mass m M) ^ 2 / PI * (p * IZR (iZ t) + n * IZR (u32 (iA t - iZ t))) ^ 2)).
Proof.
  intros Hk Hl Hf Hm Hm0 [Hp Hn] HM HM0. unfold Sigma_Total_Nucleus. rewrite Hk, (contact_not_IR s Hf), Hl, Hf. cbn [negb String.eqb Ascii.eqb Bool.eqb].
  rewrite Hm, HM, Reduced_Mass_eq, (SI_coupling_fin s t p n Hp Hn) by assumption.
  cbv [xpow]. rewrite ?xmul_fin. rewrite xdiv_fin by apply PI_neq0. rewrite ?xmul_fin.
  apply f_equal, f_equal. fld.
Qed.

Lemma total_SD Integrate s t v m p n M j a b : kind s = SD ->
  mass s = Fin m -> 0 < m -> couplings s p n -> imass t = Fin M -> 0 < M -> ispin t = Fin j -> j <> 0 -> isp t = Fin a -> isn t = Fin b ->
  Sigma_Total_Nucleus Integrate s t v = Ok (Fin (4 * (red_mass m M) ^ 2 / PI * ((j + 1) / j) * (p * a + n * b) ^ 2)).
Proof.
  intros Hk Hm Hm0 [Hp Hn] HM HM0 Hj Hj0 Ha Hb. unfold Sigma_Total_Nucleus, SD_coupling. rewrite Hk, Hm, HM, Hj, Ha, Hb, Hp, Hn.
  rewrite Reduced_Mass_eq by assumption.
  rewrite (xne_true j 0 Hj0).
  cbv [xpow]. rewrite ?xmul_fin, ?xadd_fin, ?xmul_fin. rewrite xdiv_fin by apply PI_neq0. rewrite ?xmul_fin. rewrite xdiv_fin by exact Hj0. rewrite ?xmul_fin.
  apply f_equal, f_equal. fld.
Qed.

Lemma sigma_p s p n : reachable s -> couplings s p n -> exists m, mass s = Fin m /\ 0 < m /\
  Sigma_Proton s = Fin (prefactor_of (kind s) * p ^ 2 * (red_mass m mProton) ^ 2 / PI) /\
  Sigma_Neutron s = Fin (prefactor_of (kind s) * n ^ 2 * (red_mass m mProton) ^ 2 / PI).
Proof.
  intros R [Hp Hn]. destruct (reachable_mass s R) as (m & Hm & Hm0). assert (W := reachable_well_made s R).
  exists m. split; [exact Hm|]. split; [exact Hm0|].
  unfold Sigma_Proton, Sigma_Neutron. rewrite Hm, Hp, Hn, W, Reduced_Mass_eq by (try assumption; apply mProton_pos).
  rewrite ?xmul_fin. rewrite !xdiv_fin by apply PI_neq0. split; f_equal; unfold Rdiv; ring.
Qed.

Lemma free_nucleons Integrate s p n v : reachable s -> couplings s p n -> momentum_independent s ->
  (forall t, free_proton t -> Sigma_Total_Nucleus Integrate s t v = Ok (Sigma_Proton s)) /\
  (forall t, free_neutron t -> Sigma_Total_Nucleus Integrate s t v = Ok (Sigma_Neutron s)).
Proof.
  intros R C I. destruct (sigma_p s p n R C) as (m & Hm & Hm0 & Ep & En). rewrite Ep, En.
  destruct I as [Hk | (Hk & Hl & Hf)]; rewrite Hk; cbn [prefactor_of]; split; intros t (HZ & HA & HM & Hj & Ha & Hb).
  - rewrite (total_SD Integrate s t v m p n mProton 0.5 0.5 0) by (assumption || apply mProton_pos || lra).
    replace 0.5 with (/ 2) by lra. apply f_equal, f_equal. fld.
  - rewrite (total_SD Integrate s t v m p n mProton 0.5 0 0.5) by (assumption || apply mProton_pos || lra).
    replace 0.5 with (/ 2) by lra. apply f_equal, f_equal. fld.
  - rewrite (total_contact_SI Integrate s t v m p n mProton) by (assumption || apply mProton_pos).
    rewrite HZ, HA. change (u32 (1 - 1)) with 0%Z. apply f_equal, f_equal. fld.
  - rewrite (total_contact_SI Integrate s t v m p n mProton) by (assumption || apply mProton_pos).
    rewrite HZ, HA. change (u32 (1 - 0)) with 1%Z. apply f_equal, f_equal. fld.
Qed.

(** Coherent scattering: numbers of protons and neutrons add up in the amplitude. *)
Lemma u32_sub z a : (0 <= z <= a)%Z -> (a < 2 ^ 32)%Z -> u32 (a - z) = (a - z)%Z.
Proof. intros. unfold u32. apply Z.mod_small. lia. Qed.

Lemma coherent Integrate s p n m t M v : reachable s -> couplings s p n -> kind s = SI -> low_mass s = true -> FF_DM s = "Contact"%string ->
  mass s = Fin m -> imass t = Fin M -> 0 < M -> (0 <= iZ t <= iA t)%Z -> (iA t < 2 ^ 32)%Z ->
  exists sp sn sA, Sigma_Proton s = Fin sp /\ Sigma_Neutron s = Fin sn /\ Sigma_Total_Nucleus Integrate s t v = Ok (Fin sA) /\
    let r := (m * M / (m + M)) / (m * mProton / (m + mProton)) in
    (p = n -> sA = sp * IZR (iA t) ^ 2 * r ^ 2) /\
    (n = 0 -> sA = sp * IZR (iZ t) ^ 2 * r ^ 2) /\
    (p = 0 -> sA = sn * (IZR (iA t) - IZR (iZ t)) ^ 2 * r ^ 2).
Proof.
  intros R C Hk Hl Hf Hm HM HM0 HZ HA. destruct (sigma_p s p n R C) as (m' & Hm' & Hm0 & Ep & En).
  rewrite Hm in Hm'. apply Fin_inj in Hm'. subst m'. rewrite Hk in Ep, En. cbn [prefactor_of] in Ep, En.
  do 3 eexists. split; [exact Ep|]. split; [exact En|].
  split; [apply (total_contact_SI Integrate s t v m p n M); assumption|].
  rewrite u32_sub by assumption. rewrite minus_IZR. cbv zeta. fold (red_mass m M). fold (red_mass m mProton).
  assert (H1 := red_mass_pos m mProton Hm0 mProton_pos).
  repeat split.
  - intros ->. fld.
  - intros ->. fld.
  - intros ->. fld.
Qed.

(** Electrons. *)
Lemma free_electron s v : kind s = SD \/ FF_DM s = "Contact"%string -> Sigma_Total_Electron s v = Ok (Sigma_Electron s).
Proof.
  intros [H|H]; unfold Sigma_Total_Electron.
  - rewrite H. reflexivity.
  - rewrite (contact_not_IR s H), H. destruct (kind s); reflexivity.
Qed.

(** Spin-dependent scattering needs a spin, and the spin content counts. *)
Lemma spinless_invisible Integrate s t v : kind s = SD -> ispin t = Fin 0 -> Sigma_Total_Nucleus Integrate s t v = Ok (Fin 0).
Proof. intros Hk Hj. unfold Sigma_Total_Nucleus. rewrite Hk, Hj, xne_false by reflexivity. reflexivity. Qed.

Lemma spin_scaling Integrate s p n m t M v j a b : reachable s -> couplings s p n -> kind s = SD ->
  mass s = Fin m -> imass t = Fin M -> 0 < M -> ispin t = Fin j -> j <> 0 -> isp t = Fin a -> isn t = Fin b ->
  exists sp sn sA, Sigma_Proton s = Fin sp /\ Sigma_Neutron s = Fin sn /\ Sigma_Total_Nucleus Integrate s t v = Ok (Fin sA) /\
    let r := (m * M / (m + M)) / (m * mProton / (m + mProton)) in
    let g := 4 / 3 * ((j + 1) / j) in
    (p = n -> sA = sp * g * (a + b) ^ 2 * r ^ 2) /\
    (n = 0 -> sA = sp * g * a ^ 2 * r ^ 2) /\
    (p = 0 -> sA = sn * g * b ^ 2 * r ^ 2).
Proof.
  intros R C Hk Hm HM HM0 Hj Hj0 Ha Hb. destruct (sigma_p s p n R C) as (m' & Hm' & Hm0 & Ep & En).
  rewrite Hm in Hm'. apply Fin_inj in Hm'. subst m'. rewrite Hk in Ep, En. cbn [prefactor_of] in Ep, En.
  do 3 eexists. split; [exact Ep|]. split; [exact En|].
  split; [apply (total_SD Integrate s t v m p n M j a b); assumption|].
  cbv zeta. fold (red_mass m M). fold (red_mass m mProton).
  assert (H1 := red_mass_pos m mProton Hm0 mProton_pos).
  repeat split.
  - intros ->. fld.
  - intros ->. fld.
  - intros ->. fld.
Qed.

(** * C82: nuclear form factor and recoil spectrum *)
Lemma heavy_is_light_times_helm s t q v a F : kind s = SI -> Helm_Form_Factor t q = Fin F ->
  dSigma_dq2_Nucleus (with_low_mass true s) q t v = Ok (Fin a) ->
  dSigma_dq2_Nucleus (with_low_mass false s) q t v = Ok (Fin (a * F ^ 2)).
Proof.
  intros Hk HF H. unfold dSigma_dq2_Nucleus in *. change (kind (with_low_mass true s)) with (kind s) in H. change (kind (with_low_mass false s)) with (kind s).
  rewrite Hk in *. change (low_mass (with_low_mass true s)) with true in H. change (low_mass (with_low_mass false s)) with false. cbv zeta iota in *.
  change (FormFactor2_DM (with_low_mass true s) q) with (FormFactor2_DM s q) in H.
  change (FormFactor2_DM (with_low_mass false s) q) with (FormFactor2_DM s q).
  change (SI_coupling (with_low_mass true s) t) with (SI_coupling s t) in H.
  change (SI_coupling (with_low_mass false s) t) with (SI_coupling s t).
  apply bind_ok in H as (F2 & HF2 & H). rewrite HF2. cbn [bind]. apply Ok_inj in H. rewrite HF.
  apply xmul_Fin_inv in H as (x & y & H & Hy & E1). apply Fin_inj in Hy. subst y.
  apply xmul_Fin_inv in H as (x' & y & H & Hy & E2). apply Fin_inj in Hy. subst y.
  rewrite H. rewrite !xmul_fin. apply f_equal, f_equal. subst a x. ring.
Qed.

Lemma low_mass_irrelevant_SD s t q v b : kind s = SD ->
  dSigma_dq2_Nucleus (with_low_mass b s) q t v = dSigma_dq2_Nucleus s q t v.
Proof.
  intros Hk. unfold dSigma_dq2_Nucleus. change (kind (with_low_mass b s)) with (kind s). rewrite Hk. reflexivity.
Qed.

(** The Helm formula: 3 j1(q rn) / (q rn) exp(- q^2 s^2 / 2). *)
Definition j1 (x : R) : R := sin x / x ^ 2 - cos x / x.
Lemma helm_formula t q : 1 / 1000000 * MeV <= q ->
  let c := (1.23 * pow_third (iA t) - 0.6) * fm in
  let rn := sqrt (c ^ 2 + 7 / 3 * PI ^ 2 * (0.52 * fm) ^ 2 - 5 * (0.9 * fm) ^ 2) in
  0 < rn /\ Helm_Form_Factor t (Fin q) = Fin (3 * j1 (q * rn) / (q * rn) * exp (- (q ^ 2 * (0.9 * fm) ^ 2 / 2))).
Proof.
  intros Hq. cbv zeta.
  assert (Er : ((1.23 * pow_third (iA t) - 0.6) * fm) ^ 2 + 7 / 3 * PI ^ 2 * (0.52 * fm) ^ 2 - 5 * (0.9 * fm) ^ 2 = radicand_R (iA t)).
  { unfold radicand_R. ring. }
  rewrite Er. assert (Hr := radicand_pos (iA t)). assert (Hs := sqrt_lt_R0 _ Hr). split; [exact Hs|].
  assert (Hq0 : 0 < q) by (assert (h := q_min_pos); unfold q_min_Helm in h; lra).
  rewrite Helm_eq. unfold Helm_R. destruct (Rlt_dec q q_min_Helm) as [h|h]; [unfold q_min_Helm in h; lra|].
  unfold helm, j1. cbv zeta. apply f_equal.
  replace (- q * q * (0.9 * fm) * (0.9 * fm) / 2) with (- (q ^ 2 * (0.9 * fm) ^ 2 / 2)) by (unfold Rdiv; ring).
  set (rn := sqrt (radicand_R (iA t))) in *. apply (f_equal (fun z => z * _)). field. split; lra.
Qed.

(** Recoil energies: the differential cross section in the recoil energy has the same integral. *)
Lemma recoil_spectrum s t m M v g I : mass s = Fin m -> 0 < m -> imass t = Fin M -> 0 < M -> 0 < v ->
  (forall x, 0 <= x <= q2_max m M v -> dSigma_dq2_Nucleus s (xsqrt (Fin x)) t (Fin v) = Ok (Fin (g x))) ->
  is_RInt g 0 (q2_max m M v) I ->
  exists h Emax, Maximum_Nuclear_Recoil_Energy (Fin v) (Fin m) (Fin M) = Fin Emax /\
    (forall E, 0 <= E <= Emax -> dSigma_dER_Nucleus s (Fin E) t (Fin v) = Ok (Fin (h E))) /\
    is_RInt h 0 Emax I.
Proof.
  intros Hm Hm0 HM HM0 Hv Hg HI. exists (fun E => 2 * M * g (2 * M * E + 0)), (Emax_R v m M).
  assert (HE : 2 * M * Emax_R v m M = q2_max m M v).
  { unfold Emax_R, q2_max. change (mu m M) with (red_mass m M). field. lra. }
  split; [apply Emax_fin; assumption|]. split.
  - intros E HE0. unfold dSigma_dER_Nucleus. rewrite HM, ?xmul_fin.
    rewrite Hg. 2: { rewrite <- HE. split; [apply Rmult_le_pos; [apply Rmult_le_pos|]; lra|]. apply Rmult_le_compat_l; lra. }
    cbn [bind]. rewrite ?xmul_fin. apply f_equal, f_equal. rewrite Rplus_0_r. reflexivity.
  - apply (is_RInt_ext (fun E => scal (2 * M) (g (2 * M * E + 0)))); [intros; reflexivity|].
    apply (is_RInt_comp_lin (V := R_NormedModule)). rewrite Rmult_0_r, Rplus_0_r, Rplus_0_r, HE. exact HI.
Qed.

Lemma recoil_spectrum_SI Integrate s t m p n se mm M v :
  kind s = SI -> low_mass s = true -> regular s m p n se mm -> IR_finite s mm ->
  imass t = Fin M -> 0 < M -> 0 < v ->
  exists h Emax I, Maximum_Nuclear_Recoil_Energy (Fin v) (Fin m) (Fin M) = Fin Emax /\
    (forall E, 0 <= E <= Emax -> dSigma_dER_Nucleus s (Fin E) t (Fin v) = Ok (Fin (h E))) /\
    is_RInt h 0 Emax I /\ Sigma_Total_Nucleus Integrate s t (Fin v) = Ok (Fin I).
Proof.
  intros Hk Hl R HI HM HM0 Hv.
  destruct (analytic_total_nucleus_SI Integrate s t m p n se mm M v Hk Hl R HI HM HM0 Hv) as (g & I & Hg & HgI & HT).
  assert (Rm := R). destruct Rm as (Hm & Hm0 & _).
  destruct (recoil_spectrum s t m M v g I Hm Hm0 HM HM0 Hv Hg HgI) as (h & Emax & H1 & H2 & H3).
  exists h, Emax, I. auto.
Qed.

Lemma recoil_spectrum_SD Integrate s t m p n se mm M v j sp sn :
  kind s = SD -> regular s m p n se mm -> imass t = Fin M -> 0 < M -> 0 < v ->
  ispin t = Fin j -> isp t = Fin sp -> isn t = Fin sn ->
  exists h Emax I, Maximum_Nuclear_Recoil_Energy (Fin v) (Fin m) (Fin M) = Fin Emax /\
    (forall E, 0 <= E <= Emax -> dSigma_dER_Nucleus s (Fin E) t (Fin v) = Ok (Fin (h E))) /\
    is_RInt h 0 Emax I /\ Sigma_Total_Nucleus Integrate s t (Fin v) = Ok (Fin I).
Proof.
  intros Hk R HM HM0 Hv Hj Hp Hn.
  destruct (analytic_total_nucleus_SD Integrate s t m p n se mm M v j sp sn Hk R HM HM0 Hv Hj Hp Hn) as (g & I & Hg & HgI & HT).
  assert (Rm := R). destruct Rm as (Hm & Hm0 & _).
  destruct (recoil_spectrum s t m M v g I Hm Hm0 HM HM0 Hv Hg HgI) as (h & Emax & H1 & H2 & H3).
  exists h, Emax, I. auto.
Qed.

(** * C83: atomic and crystal electrons *)
Lemma ionization_formula s q Ee v f a : kind s = SI -> 0 < Ee -> dSigma_dq2_Electron s q v = Ok (Fin a) ->
  d2Sigma_dq2_dEe_Ionization s q (Fin Ee) v (Fin f) = Ok (Fin (a * f / (4 * Ee))).
Proof.
  intros Hk HE H. unfold d2Sigma_dq2_dEe_Ionization. rewrite Hk, H. cbn [bind].
  rewrite !xdiv_fin by lra. rewrite !xmul_fin. apply f_equal, f_equal. field. lra.
Qed.

Lemma crystal_formula s q Ee v f a : kind s = SI -> 0 < q -> dSigma_dq2_Electron s (Fin q) v = Ok (Fin a) ->
  d2Sigma_dq2_dEe_Crystal s (Fin q) Ee v (Fin f) = Ok (Fin (2 * aEM * mElectron ^ 2 / q ^ 3 * a * f)).
Proof.
  intros Hk HE H. unfold d2Sigma_dq2_dEe_Crystal. rewrite Hk, H. cbn [bind].
  rewrite ?xmul_fin. rewrite !xdiv_fin by lra. rewrite !xmul_fin. apply f_equal, f_equal. field. lra.
Qed.

Lemma SD_no_electrons s q Ee v f : kind s = SD ->
  d2Sigma_dq2_dEe_Ionization s q Ee v f = Ok (Fin 0) /\ d2Sigma_dq2_dEe_Crystal s q Ee v f = Ok (Fin 0).
Proof. intros Hk. unfold d2Sigma_dq2_dEe_Ionization, d2Sigma_dq2_dEe_Crystal. rewrite Hk. auto. Qed.

(** Free electrons: sigma_e / (4 mu^2 v^2) times the form factor of the interaction. *)
Lemma electron_formula s q m se v F : mass s = Fin m -> 0 < m -> sigma_electron s = Fin se -> 0 < v ->
  (kind s = SD -> dSigma_dq2_Electron s q (Fin v) = Ok (Fin (se / (4 * (red_mass m mElectron) ^ 2 * v ^ 2)))) /\
  (kind s = SI -> FormFactor2_DM s q = Ok (Fin F) ->
     dSigma_dq2_Electron s q (Fin v) = Ok (Fin (se / (4 * (red_mass m mElectron) ^ 2 * v ^ 2) * F))).
Proof.
  intros Hm Hm0 Hs Hv. assert (Hr := red_mass_pos m mElectron Hm0 mElectron_pos).
  assert (Hd : xdiv (sigma_electron s) (xpow (Fin 2 * Reduced_Mass (mass s) (Fin mElectron) * Fin v)%xr 2) = Fin (se / (4 * (red_mass m mElectron) ^ 2 * v ^ 2))).
  { rewrite Hs, Hm, Reduced_Mass_eq by (try assumption; apply mElectron_pos). rewrite !xmul_fin. cbv [xpow]. rewrite ?xmul_fin.
    rewrite xdiv_fin. 2: { assert (0 < 2 * red_mass m mElectron * v) by (apply Rmult_lt_0_compat; lra). nra. }
    apply f_equal. field. split; lra. }
  split; intros Hk; unfold dSigma_dq2_Electron; rewrite Hk; cbv zeta; rewrite Hd; [reflexivity|].
  intros HF. rewrite HF. cbn [bind]. rewrite xmul_fin. reflexivity.
Qed.

(** Migdal: the electrons are hit with the recoil speed of the nucleus. *)
Lemma migdal_formula s E Ee v t M FFs a f : imass t = Fin M -> 0 < M -> 0 <= E -> 0 < Ee ->
  dSigma_dER_Nucleus s (Fin E) t v = Ok (Fin a) -> FFs (Fin (mElectron * sqrt (2 * E / M))) (Fin Ee) = Fin f ->
  d2Sigma_dER_dEe_Migdal s (Fin E) (Fin Ee) v t FFs = Ok (Fin (a * f / (4 * Ee))).
Proof.
  intros HM HM0 HE0 HE H Hf. unfold d2Sigma_dER_dEe_Migdal. cbv zeta. rewrite H. cbn [bind]. rewrite HM, ?xmul_fin.
  rewrite xsqrt_fin by (apply Rmult_le_pos; [apply Rmult_le_pos|]; lra).
  rewrite !xdiv_fin by lra. rewrite ?xmul_fin.
  assert (Eq : mElectron / M * sqrt (2 * M * E) = mElectron * sqrt (2 * E / M)).
  { assert (Hs : sqrt (2 * M * E) = M * sqrt (2 * E / M)).
    { replace (2 * M * E) with (M ^ 2 * (2 * E / M)) by (field; lra). rewrite sqrt_mult.
      - replace (M ^ 2) with (Rsqr M) by (unfold Rsqr; ring). rewrite sqrt_Rsqr by lra. reflexivity.
      - nra.
      - unfold Rdiv. apply Rmult_le_pos; [lra|]. left. apply Rinv_0_lt_compat, HM0. }
    rewrite Hs. field. lra. }
  rewrite Eq, Hf, ?xmul_fin. apply f_equal, f_equal. field. lra.
Qed.
