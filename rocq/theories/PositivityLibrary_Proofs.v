(** The library's own particles, halos and mass fractions meet the hypotheses of C110; instances. *)
From Coq Require Import Reals ZArith String Lia Lra Bool.
From Coquelicot Require Import Coquelicot.
From Coq Require Import List Sorted.
From Verif Require Import Base XrFacts Quadrature Nucleus_Model Nuclear_Model Particle_Model CrossSection_Model CrossSection_Proofs Helm_Proofs Distribution_Model Astronomy_Model Halo_Model Atom_Model Crystal_Model Crystal_Proofs Rates_Model
  Kinematics_Proofs Eta_Proofs HaloState_Proofs HaloFinal_Proofs Detector_Model DetectorTypes_Model Electrons_Proofs FormulasHalo_Proofs DetectorWitness_Proofs DetectorSafety_Proofs Scaling_Proofs LimitsWitness_Proofs Fractions_Proofs Angle_Proofs Nuclear_Proofs Atom_Proofs AtomTables_Proofs Exposure_Proofs DetectorModes_Proofs Positivity_Proofs.
Import ListNotations.
Local Open Scope R_scope.

(** * Particles *)
(** A particle of the library with sensible parameters. *)
Definition ordinary_particle (p : particle) (m : R) : Prop := mass p = Fin m /\ 0 < m /\ nn (fractional_density p) /\ (exists a, fp p = Fin a) /\ (exists a, fn p = Fin a) /\ nn (sigma_electron p) /\ exists a, mMediator p = Fin a.
Definition ordinary_spins (t : Isotope) : Prop := exists j a b, ispin t = Fin j /\ 0 <= j /\ isp t = Fin a /\ isn t = Fin b.
Definition good_crystal_table (I2 : interpolator2) (c : Crystal) : Prop := forall q E, 0 < q -> 0 < E -> fine (crystal_value I2 c (Fin q) (Fin E)).

Lemma form_factor_fine p m q : ordinary_particle p m -> 0 < q -> fine (FormFactor2_DM p (Fin q)).
Proof.
  intros (_ & _ & _ & _ & _ & _ & a & EM) HQ x H. assert (N := proj1 (FF_names p (Fin q)) (ex_intro _ x H)).
  assert (SQ : forall y : R, 0 <= y ^ 2) by (intros; apply pow2_ge_0).
  destruct N as [N | [N | [N | [N | []]]]]; symmetry in N.
  - rewrite (FF_contact p _ N) in H. apply Ok_inj in H. subst. apply nn_fin. lra.
  - rewrite (FF_general p a q N EM HQ) in H. apply Ok_inj in H. subst. apply nn_fin. apply SQ.
  - rewrite (FF_long_range p q N HQ) in H. apply Ok_inj in H. subst. apply nn_fin. replace ((qr / q) ^ 4) with (((qr / q) ^ 2) ^ 2) by ring. apply SQ.
  - rewrite (FF_dipole p q N HQ) in H. apply Ok_inj in H. subst. apply nn_fin. apply SQ.
Qed.
Lemma square_nn x : nn (xpow (Fin x) 2). Proof. rewrite xpow_fin. apply nn_fin. apply pow2_ge_0. Qed.
Lemma library_particle I2 p m : ordinary_particle p m -> good_particle (interface_of I2 p) m.
Proof. intros (A & B & C & _). split; auto. Qed.
Lemma library_nuclear I2 p m t : ordinary_particle p m -> (kind p = SD -> ordinary_spins t) -> good_nuclear (interface_of I2 p) t.
Proof.
  intros O S q v HQ HV. assert (P := PI_RGT_0). cbn [dm_dSigma_dq2_Nucleus interface_of]. unfold dSigma_dq2_Nucleus. destruct O as (A & B & C & (fa & EP) & (fb & EN) & D & E). assert (O : ordinary_particle p m) by (repeat split; eauto).
  destruct (kind p) eqn:K.
  - apply fine_bind; [apply (form_factor_fine p m); auto|]. intros F2 HF. apply fine_ok. rewrite (SI_coupling_fin p t fa fb) by auto. rewrite !xdiv_fin by lra.
    assert (Q : nn (Fin (1 / 4 / PI / v / v))). { apply nn_fin. apply Rmult_le_pos; [apply Rmult_le_pos; [apply Rmult_le_pos; [lra|]|]|]; left; apply Rinv_0_lt_compat; auto. }
    assert (SQ := square_nn (fa * IZR (iZ t) + fb * IZR (u32 (iA t - iZ t)))). assert (K1 := nn_mul _ _ (nn_mul _ _ Q SQ) HF).
    assert (G : forall x h, nn x -> nn (xmul (xmul x (Fin h)) (Fin h))). { intros x h (y & -> & Y). rewrite !xmul_fin. apply nn_fin. rewrite Rmult_assoc. apply Rmult_le_pos; auto. apply Rle_0_sqr. }
    destruct (low_mass p); [apply G; auto|]. rewrite Helm_eq. apply G; auto.
  - destruct (S eq_refl) as (j & a & b & EJ & HJ & EA & EB). apply fine_ok. unfold SD_coupling. rewrite EJ, EA, EB, EP, EN. rewrite !xmul_fin, !xadd_fin. assert (SQ := square_nn (fa * a + fb * b)).
    destruct (Req_dec j 0) as [-> | J]; [rewrite (proj2 (xeq_spec 0 0)) by auto; apply nn_fin; lra|]. destruct (xeq (Fin j) (Fin 0)); [apply nn_fin; lra|].
    rewrite !xdiv_fin by lra. rewrite !xmul_fin. rewrite xdiv_fin by lra. apply nn_mul; auto. apply nn_fin. assert (0 < j) by lra.
    repeat apply Rmult_le_pos; try lra; left; apply Rinv_0_lt_compat; auto.
Qed.
Lemma electron_fine p m q v : ordinary_particle p m -> 0 < q -> 0 < v -> fine (dSigma_dq2_Electron p (Fin q) (Fin v)).
Proof.
  intros O HQ HV. assert (h := mElectron_pos). assert (O' := O). destruct O' as (A & B & C & _ & _ & D & E). unfold dSigma_dq2_Electron. rewrite A, Reduced_Mass_eq by auto. rewrite !xmul_fin, xpow_fin.
  assert (R0 := red_mass_pos m mElectron B h).
  assert (N : nn (xdiv (sigma_electron p) (Fin ((2 * red_mass m mElectron * v) ^ 2)))) by (apply nn_div; auto; apply pow_lt; apply Rmult_lt_0_compat; auto; apply Rmult_lt_0_compat; lra).
  cbv zeta. destruct (kind p); [apply fine_bind; [apply (form_factor_fine p m); auto|]; intros; apply fine_ok; apply nn_mul; auto|apply fine_ok; auto].
Qed.
Lemma library_ionization I2 p m sh : ordinary_particle p m -> good_form_factor I2 sh -> good_ionization (interface_of I2 p) sh.
Proof.
  intros O G q E v HQ HE HV. cbn [dm_d2Sigma_Ionization interface_of]. apply fine_bind; [apply G; auto|]. intros f Hf. unfold d2Sigma_dq2_dEe_Ionization. destruct (kind p); [|apply fine_zero; auto].
  apply fine_bind; [apply (electron_fine p m); auto|]. intros d Hd. apply fine_ok. rewrite !xdiv_fin by lra. assert (nn (Fin (1 / 4 / E))); [|apply nn_mul; auto; apply nn_mul; auto]. apply nn_fin. apply Rmult_le_pos; [lra|]. left. apply Rinv_0_lt_compat; auto.
Qed.
Lemma library_crystal I2 p m c : ordinary_particle p m -> good_crystal_table I2 c -> good_crystal (interface_of I2 p) c.
Proof.
  intros O G q E v HQ HE HV. cbn [dm_d2Sigma_Crystal interface_of]. apply fine_bind; [apply G; auto|]. intros f Hf. unfold d2Sigma_dq2_dEe_Crystal. destruct (kind p); [|apply fine_zero; auto].
  apply fine_bind; [apply (electron_fine p m); auto|]. intros d Hd. apply fine_ok. assert (h := mElectron_pos). assert (h' := aEM_pos). rewrite !xmul_fin, !xdiv_fin by lra.
  assert (nn (Fin (2 * aEM * mElectron * mElectron / q / q / q))); [|apply nn_mul; auto; apply nn_mul; auto]. apply nn_fin. assert (P : 0 < 2 * aEM * mElectron * mElectron) by (apply Rmult_lt_0_compat; auto; apply Rmult_lt_0_compat; auto; lra).
  left. apply Rdiv_lt_0_compat; auto. apply Rdiv_lt_0_compat; auto. apply Rdiv_lt_0_compat; auto.
Qed.

(** * Halos and mass fractions *)
Lemma library_halo s v0 vel ve : halo_history s v0 vel ve -> 0 < v0 -> 0 < ve -> vnorm vel <= ve -> nn (h_rho s) -> good_halo (halo_interface s) (ve + vnorm vel).
Proof.
  intros H H0 He Ho R. destruct (history_domain s v0 vel ve H) as (_ & DM & _). assert (N := vnorm_nonneg vel). split; [exact R|]. split; [exact DM|]. split; [lra|]. intros v Hv. cbn [halo_interface d_pdf_speed d_eta].
  destruct (history_nonneg s v0 vel ve v H H0 He Ho) as (p & EP & HP). destruct (history_eta s v0 vel ve H H0 He Ho) as (f & E & _ & G & K & _).
  split; apply fine_ok; [rewrite EP; apply nn_fin; auto|rewrite G by lra; apply nn_fin; apply (K v v); lra].
Qed.
Lemma shares_nn ws fs : shares ws fs -> Forall nn (map Fin fs).
Proof.
  intros (L & _ & S). apply Forall_map, Forall_forall. intros f Hf. apply In_nth_error in Hf. destruct Hf as (i & Hi). assert (Li : (i < List.length fs)%nat) by (apply nth_error_Some; congruence).
  rewrite L in Li. apply nth_error_Some in Li. destruct (nth_error ws i) as [w|] eqn:Ew; [|congruence]. apply nn_fin. apply (S i w f Ew Hi).
Qed.
Lemma fractions_fine label expo nuclei masses am n0 : nuclei_masses nuclei masses -> (am = [] \/ List.length am = List.length nuclei) -> Forall (fun a => 0 <= a) am -> Nuclear_ctor label expo nuclei (map Fin am) = Ok n0 -> Forall nn (n_fractions n0).
Proof.
  intros N L A H. unfold Nuclear_ctor in H. destruct (relative_fractions nuclei (map Fin am)) as [f| | |] eqn:E; try discriminate. cbn [bind] in H. apply Ok_inj in H. subst n0. cbn [n_fractions].
  destruct am as [|a0 am].
  - destruct nuclei as [|n l]; [unfold relative_fractions in E; cbn in E; apply Ok_inj in E; subst; constructor|]. destruct (nuclear_fractions_default (n :: l) masses N ltac:(discriminate)) as (fs & E' & S). cbn [map] in E. rewrite E' in E. apply Ok_inj in E. subst. eapply shares_nn; eauto.
  - destruct L as [L | L]; [discriminate|]. destruct (Rlt_le_dec 1 (Rsum (a0 :: am))) as [T | T].
    + destruct (nuclear_fractions nuclei masses (a0 :: am) N L A T) as (fs & E' & S). rewrite E' in E. apply Ok_inj in E. subst. eapply shares_nn; eauto.
    + rewrite nuclear_fractions_small in E by (auto; discriminate). apply Ok_inj in E. subst. apply Forall_map. eapply Forall_impl; [|exact A]. intros. apply nn_fin. auto.
Qed.

(** * Externals that are positive *)
Lemma reference_positive : positive_integrator reference_Integrate.
Proof.
  intros f a b. unfold reference_Integrate. cbn [val]. set (u := fun x => match f (Fin x) with Ok (Fin y) => y | _ => 0 end). split.
  - intros L H. apply fine_ok, nn_fin. destruct (Classical_Prop.classic (ex_RInt u a b)) as [X | X]; [|rewrite RInt_none by auto; lra].
    apply RInt_ge_0; auto. intros x Hx. unfold u. assert (G := H x ltac:(lra)). destruct (f (Fin x)) as [y| | |]; try lra. destruct (G y eq_refl) as (z & -> & Z). exact Z.
  - intros H. apply fine_ok, nn_fin. rewrite (RInt_ext (V := R_CompleteNormedModule) u (fun _ => 0)) by (intros x Hx; unfold u; rewrite H by lra; reflexivity).
    rewrite RInt_const. apply Req_le. symmetry. apply Rmult_0_r.
Qed.
Lemma trapezoids_nn : forall xs ys, StronglySorted Rlt xs -> List.length ys = List.length xs -> Forall nn ys -> nn (trapezoids (map Fin xs) ys).
Proof.
  induction xs as [|x0 xs IH]; intros ys S L F; [apply nn_fin; cbn; lra|]. destruct ys as [|y0 ys]; [discriminate|]. cbn [List.length] in L. injection L as L. inversion S as [|? ? S1 S2]; subst. inversion F as [|? ? F1 F2]; subst.
  specialize (IH ys S1 L F2). destruct xs as [|x1 xs]; [cbn; apply nn_fin; lra|]. destruct ys as [|y1 ys]; [discriminate|]. cbn [map] in *. rewrite trapezoids_step. inversion S2; inversion F2; subst. rewrite xsub_fin, xmul_fin.
  apply nn_add; auto. apply nn_mul; [apply nn_fin; nra|apply nn_add; auto].
Qed.
Lemma XW_positive : positive_externals XW.
Proof.
  split; [exact reference_positive|]. split.
  - intros xs ys S _ L F. apply fine_ok. apply trapezoids_nn; auto.
  - intros n p k P. cbn [x_PMF_Binomial XW]. unfold exact_binomial. destruct (_ && _)%bool; apply fine_ok, nn_fin; [|lra]. cbn [val]. apply Rmult_le_pos; [apply Rmult_le_pos; [apply C_nonneg|]|]; apply pow_le; lra.
Qed.

(** * Atoms and crystals of the library *)
Definition good_table (I2 : interpolator2) (t : table2) : Prop := forall k q, 0 < k -> 0 < q -> fine (I2 t (Fin k) (Fin q)).
Lemma listed_shell_good IT kmax p s : shell_as_listed IT kmax p s -> proper_tables IT -> 1 < kmax -> 0 < l_energy p -> good_shell s.
Proof.
  intros (_ & _ & _ & EB & _ & _ & EK & _ & EQ & (t1 & t2 & t3 & t4 & _ & _ & _ & _ & (row & rows & R1 & _ & R3 & _) & EG & _) & (dk & _ & D1 & _ & D3 & _)) PT K HE. assert (he := eV_pos).
  exists (l_energy p * eV), (1000 * keV). split; [exact EB|]. split; [apply Rmult_lt_0_compat; auto|]. split; [exact EQ|].
  rewrite EG in *. rewrite R3 in *. assert (KP : 0 < keV) by (unfold keV, GeV; lra). assert (PA : 0 < 0.1 * keV) by lra. assert (PB : 0 < kmax * keV) by (apply Rmult_lt_0_compat; lra).
  split.
  - exists dk. split; [exact D1|]. destruct (PT ("data/Atomic_Response_Functions/" ++ l_name p ++ "_" ++ "4" ++ ".txt")%string) as (r0 & t0 & E0 & L0 & _). rewrite E0 in R1. apply Ok_inj in R1. injection R1 as -> ->.
    rewrite nodes_length in D3. destruct (D3 0%nat ltac:(lia)) as (x & N0 & X0 & N1). destruct (nodes_step (0.1 * keV) (kmax * keV) (S (List.length rows)) 0 PA PB ltac:(lia)) as (x' & M0 & _ & M1).
    rewrite N0 in M0. injection M0 as ->. rewrite N1 in M1. injection M1 as M1. apply (Rmult_eq_reg_l x') in M1; [|lra]. set (e := ln (kmax * keV / (0.1 * keV)) / ln 10 / (INR (S (List.length rows)) - 1)) in *.
    assert (L10 : 0 < ln 10) by (rewrite <- ln_1; apply ln_increasing; lra).
    assert (EE : dk = e). { unfold Rpower in M1. apply exp_inv in M1. apply (Rmult_eq_reg_r (ln 10)) in M1; [exact M1|apply Rgt_not_eq; exact L10]. } rewrite EE. unfold e.
    apply Rmult_le_pos; [apply Rmult_le_pos|].
    + replace (kmax * keV / (0.1 * keV)) with (10 * kmax) by (unfold keV; replace 0.1 with (1 / 10) by lra; field). left. rewrite <- ln_1. apply ln_increasing; lra.
    + left. apply Rinv_0_lt_compat; auto.
    + left. apply Rinv_0_lt_compat. rewrite S_INR. assert (0 < INR (List.length rows)) by (apply lt_0_INR; lia). lra.
  - split; [|eauto]. intros k Hk. unfold log_nodes in Hk. apply in_map_iff in Hk. destruct Hk as (i & <- & _). eexists. split; [reflexivity|]. apply Rmult_lt_0_compat; auto. apply exp_pos.
Qed.
Lemma library_form_factor I2 s q0 : q_min s = Fin q0 -> 0 < q0 -> (forall t, In t (atomic_response_interpolations s) -> good_table I2 t) -> good_form_factor I2 s.
Proof.
  intros EQ HQ0 GT q E HQ HE. assert (h := mElectron_pos). unfold ionization_value, Ionization_Form_Factor, Atomic_Response_Function. cbv zeta. assert (KP : 0 < sqrt (2 * mElectron * E)) by (apply sqrt_lt_R0; apply Rmult_lt_0_compat; lra).
  rewrite !xmul_fin, xsqrt_fin by (left; apply Rmult_lt_0_compat; lra). destruct (response_out_of_bounds _ _ _); [apply fine_zero; reflexivity|]. change ((1 =? 1)%Z) with true. cbv iota. rewrite EQ.
  destruct (at_ub (atomic_response_interpolations s) 0) as [t| | |] eqn:ET; try (intros ? KK; discriminate). cbn [bind]. apply at_ub_In in ET. assert (G := GT t ET).
  destruct (xlt (Fin q0) (Fin q)).
  - assert (G1 := G _ _ KP HQ). destruct (I2 t (Fin (sqrt (2 * mElectron * E))) (Fin q)); try (intros ? KK; discriminate). exact G1.
  - assert (G1 := G _ _ KP HQ0). destruct (I2 t (Fin (sqrt (2 * mElectron * E))) (Fin q0)) as [f| | |]; try (intros ? KK; discriminate). cbn [bind fst]. apply fine_ok. rewrite !xdiv_fin by lra.
    assert (NF := G1 f eq_refl). apply nn_mul; auto. apply nn_fin. left. apply Rdiv_lt_0_compat; auto. apply Rdiv_lt_0_compat; auto. apply Rmult_lt_0_compat; auto.
Qed.
Lemma library_atoms IT rows w name a w' I2 : proper_tables IT -> well_formed rows -> full_table rows -> world_history rows w -> (name = "Xe" \/ name = "Ar")%string -> Atom_by_name IT w name = Ok (a, w') ->
  (forall sh t, In sh (electrons a) -> In t (atomic_response_interpolations sh) -> good_table I2 t) -> forall sh, In sh (electrons a) -> good_shell sh /\ good_form_factor I2 sh.
Proof.
  intros PT WF FT WH N E GT sh Hs. assert (F : exists kmax l, 1 < kmax /\ Forall (fun p => 0 < l_energy p) l /\ Forall2 (shell_as_listed IT kmax) l (electrons a)).
  { destruct N as [-> | ->].
    - destruct (xenon_listed IT rows w PT WF FT WH) as (a' & w2 & E' & _ & F & _). rewrite E' in E. apply Ok_inj in E. injection E as <- _. exists 500, listed_xenon. split; [lra|]. split; [|exact F]. unfold listed_xenon. repeat (constructor; [cbn; lra|]). constructor.
    - destruct (argon_listed IT rows w PT WF FT WH) as (a' & w2 & E' & _ & F & _). rewrite E' in E. apply Ok_inj in E. injection E as <- _. exists 100, listed_argon. split; [lra|]. split; [|exact F]. unfold listed_argon. repeat (constructor; [cbn; lra|]). constructor. }
  destruct F as (kmax & l & K & L & F). clear E. revert GT Hs. generalize dependent (electrons a). induction 1 as [|p s l ls S F IH]; intros GT Hs; [destruct Hs|]. inversion L; subst. destruct Hs as [<- | Hs]; [|apply IH; auto; intros s' t I; apply GT; right; auto].
  split; [eapply listed_shell_good; eauto|]. assert (KP : 0 < 1 * keV) by (unfold keV, GeV; lra). apply (library_form_factor I2 s (1 * keV)); [apply S|auto|]. intros t Ht. apply (GT s t); auto. left. auto.
Qed.
Lemma library_semiconductor IL target c : Crystal_ctor IL target = Ok c -> ordinary_crystal c.
Proof.
  intros H. destruct (crystal_facts IL target c H) as (gap & eps & b & RC & _ & _ & QM). split; [|lia].
  assert (M : exists M, M_cell c = Fin M /\ 0 < M).
  { unfold Crystal_ctor in H. assert (mN : 0 < mNucleon) by (unfold mNucleon; lra). destruct (crystal_constants target) as [[[[g e] M] pf]| | |] eqn:CC; try discriminate. cbn [bind] in H. cbv zeta in H.
    assert (EM : exists M', M = Fin M' /\ 0 < M').
    { unfold crystal_constants in CC. destruct (target =? "Si")%string; [|destruct (target =? "Ge")%string; try discriminate]; apply Ok_inj in CC; injection CC as _ _ <- _; (eexists; split; [reflexivity|]; apply Rmult_lt_0_compat; lra). }
    destruct EM as (M' & -> & MP). repeat match type of H with bind ?m _ = _ => let E := fresh in destruct m eqn:E; try discriminate; cbn [bind] in H end. apply Ok_inj in H. subst c. cbn. eauto. }
  destruct M as (M & EM & MP). exists gap, eps, (0.1 * eV), (500 * (0.1 * eV)), (0.02 * aEM * mElectron), b, M. auto.
Qed.
Lemma ionization_fractions_fine n fr f : Forall (fun a => 0 <= a) fr -> ionization_fractions n (map Fin fr) = Ok f -> Forall nn f.
Proof.
  intros A H. destruct fr as [|a fr].
  - cbn [map ionization_fractions] in H. apply Ok_inj in H. subst. destruct n as [|n]; [constructor|]. apply Forall_forall. intros x Hx. apply repeat_spec in Hx. subst. assert (0 < INR (S n)) by (apply lt_0_INR; lia). apply nn_div; auto. apply nn_fin. lra.
  - destruct (Nat.eq_dec (List.length (a :: fr)) n) as [L | L]; [|rewrite ionization_fractions_length in H by (auto; try discriminate; rewrite map_length; auto); discriminate].
    destruct (Rlt_le_dec 1 (Rsum (a :: fr))) as [T | T].
    + destruct (ionization_fractions_large n (a :: fr) L A T) as (fs & E & S). rewrite E in H. apply Ok_inj in H. subst. eapply shares_nn; eauto.
    + rewrite ionization_fractions_small in H by (auto; discriminate). apply Ok_inj in H. subst. apply Forall_map. eapply Forall_impl; [|exact A]. intros. apply nn_fin. auto.
Qed.

(** * The three kinds of detectors, from the constructor call on *)
Lemma nuclear_positive X label expo nuclei masses am ops n DM D m vmax : positive_externals X -> good_particle DM m -> good_halo D vmax -> good_targets DM nuclei -> nuclei_masses nuclei masses ->
  (am = [] \/ List.length am = List.length nuclei) -> Forall (fun a => 0 <= a) am -> nn expo ->
  nuclear_history label expo nuclei (map Fin am) ops = Ok n -> Forall (sensible_nuclear X) ops ->
  (forall E th, 0 < E -> b_threshold (n_base n) = Fin th -> th <= E -> fine (Nuclear_dRdE X DM D n (Fin E))) /\
  fine_list (Nuclear_Binned X DM D n) /\ (existsb nuclear_use ops = true -> fine (Nuclear_Total X DM D n)).
Proof.
  intros PX GP GH GT NM L A NE H S. unfold nuclear_history in H. apply bind_ok in H. destruct H as (n0 & C & R).
  apply (nuclear_fine X label expo nuclei (map Fin am) n0 ops n DM D m vmax); auto. eapply fractions_fine; eauto.
Qed.
Lemma ionization_positive X IT w ch label expo names fr ops s DM D m vmax : positive_externals X -> good_particle DM m -> good_halo D vmax -> Forall (fun a => 0 <= a) fr -> nn expo ->
  ionization_history IT w ch label expo names (map Fin fr) ops = Ok s -> (forall a, In a (i_atoms s) -> good_atom X DM ch a) -> Forall sensible_ionization ops ->
  (forall E, 0 < E -> fine (Ionization_dRdE X DM D s (Fin E))) /\ (forall ne, fine (R_ne X DM D s ne)) /\ fine_list (Ionization_Binned X DM D s) /\ fine (Ionization_Total X DM D s).
Proof.
  intros PX GP GH A NE H GA S. unfold ionization_history in H. apply bind_ok in H. destruct H as ((s0 & w') & C & R). unfold Ionization_ctor in C. apply bind_ok in C. destruct C as ((l & w2) & _ & C). apply bind_ok in C. destruct C as (f & F & C).
  apply Ok_inj in C. injection C as <- _. destruct (ionization_sound_run _ _ _ R S (ionization_sound_start ch label expo l f NE)) as (_ & _ & E & _). cbn [Ionization_start i_atoms] in E. rewrite E in GA.
  apply (ionization_fine X ch label expo l f ops s DM D m vmax); auto. eapply ionization_fractions_fine; eauto.
Qed.
Lemma semiconductor_positive X IL label expo crys ops s DM D m vmax : positive_externals X -> good_particle DM m -> good_halo D vmax -> nn expo ->
  semiconductor_history IL label expo crys ops = Ok s -> good_crystal DM (c_crystal s) -> Forall (sensible_semiconductor (c_crystal s)) ops ->
  (forall E, 0 < E -> fine (Semiconductor_dRdE X DM D s (Fin E))) /\
  (forall Q, (1 <= Q)%Z -> fine (R_Q_Crystal (x_Integrate X) Q DM D (c_crystal s)) /\ fine (R_total_Crystal (x_Integrate X) Q DM D (c_crystal s))) /\
  fine_list (Semiconductor_Binned X DM D s) /\ fine (Semiconductor_Total X DM D s).
Proof.
  intros PX GP GH NE H GC S. unfold semiconductor_history in H. apply bind_ok in H. destruct H as (s0 & C & R). unfold Semiconductor_ctor in C. apply bind_ok in C. destruct C as (c & CC & C). apply Ok_inj in C. subst s0.
  assert (K : forall ops s0 s, semiconductor_run s0 ops = Ok s -> c_crystal s = c_crystal s0).
  { clear. induction ops as [|o ops IH]; intros s0 s R; cbn [semiconductor_run] in R; [apply Ok_inj in R; subst; auto|]. apply bind_ok in R. destruct R as (s1 & S1 & R). rewrite (IH _ _ R). destruct o; cbn [semiconductor_step] in S1.
    - apply bind_ok in S1. destruct S1 as (d & _ & S1). apply Ok_inj in S1. subst. reflexivity.
    - apply Ok_inj in S1. subst. reflexivity.
    - unfold Use_Q_Bins in S1. cbv zeta in S1. apply bind_ok in S1. destruct S1 as (d & _ & S1). apply Ok_inj in S1. subst. reflexivity. }
  specialize (K _ _ _ R). cbn [c_crystal] in K. rewrite K in *. apply (semiconductor_fine X label expo c ops s DM D m vmax); auto. eapply library_semiconductor; eauto.
Qed.
