(** A nuclear recoil detector whose predictions are simple, and what limits and scans do with it for free couplings (C45, C47-C50). *)
From Coq Require Import Reals ZArith String Lia Lra Bool.
From Coquelicot Require Import Coquelicot.
From Coq Require Import List.
From Verif Require Import Base XrFacts Analysis Quadrature Nucleus_Model Nuclear_Model Particle_Model CrossSection_Model Distribution_Model Atom_Model
  Crystal_Model Rates_Model Detector_Model DetectorTypes_Model Particle_Proofs Crystal_Proofs Detector_Proofs DetectorWitness_Proofs Poisson_Proofs Scaling_Proofs
  Couplings_Proofs Limits_Proofs Fiducial_Proofs.
Import ListNotations.
Local Open Scope R_scope.

(** * A limit exists whatever the couplings are *)
Lemma limit_exists FR X V d p cert x0 s0 b : accurate_search FR -> ideal_statistics X -> blind V -> 
  good p -> share_ok p -> b_analysis d = Poisson -> (0 <= b_observed d)%Z -> b_background d = Fin b -> 0 <= b ->
  Get_Interaction_Parameter (b_targets d) p = Ok (Fin x0) -> 0 < x0 -> v_total V d p = Ok (Fin s0) -> 0 <= s0 ->
  exists u d' p', Upper_Limit FR X V d p (Fin cert) = Ok (Fin u, d', p') /\ (u = -1 \/ 0 < u).
Proof.
  intros HF HS B G Sh A N Hb Hb0 Gt X0 Vt S0.
  set (n := Z.to_nat (b_observed d)). set (pv := fun x => at_most n (x / x0 * s0 + b)). set (g := fun y => pv (Rpower 10 y) - (1 - cert)).
  assert (ST : forall x s, exists q, Set_Interaction_Parameter x (b_targets d) s = Ok q).
  { intros x s. unfold Set_Interaction_Parameter, Get_Interaction_Parameter in *. destruct (_ =? _)%string; eauto. destruct (_ =? _)%string; eauto. discriminate. }
  set (d1 := with_fiducial true (Fin x0) (Fin s0) (b_fiducial_spectrum d) d).
  assert (SF : set_fiducial V (Fin x0) d p = Ok d1).
  { unfold set_fiducial. rewrite A. destruct (B true (Fin x0) (b_fiducial_signals d) (b_fiducial_spectrum d) d p) as (_ & _ & _ & BT & _). rewrite BT, Vt. cbn [bind]. reflexivity. }
  assert (T : b_targets d1 = b_targets d) by reflexivity.
  set (inv := fun q => forall x, Set_Interaction_Parameter x (b_targets d) q = Set_Interaction_Parameter x (b_targets d) p).
  assert (LF : forall s y, inv s -> exists s1, limit_func X V d1 (Fin cert) s (Fin y) = Ok (Fin (g y), s1) /\ inv s1).
  { intros s y I. destruct (ST (xpow10 (Fin y)) p) as [q Hq]. exists q. unfold limit_func. rewrite T, I, Hq. cbn [bind]. cbn [xpow10] in Hq.
    assert (Hp := Rpower_pos 10 y).
    assert (Gq : Get_Interaction_Parameter (b_targets d) q = Ok (Fin (Rpower 10 y))) by (eapply round_trip; eauto; lra).
    unfold P_Value. cbn [b_analysis b_using_fiducial b_targets b_fiducial_coupling b_fiducial_signals b_background b_observed d1 with_fiducial].
    rewrite A, Gq. cbn [bind]. rewrite xdiv_fin, pow_1, xmul_fin, Hb, xadd_fin by lra. destruct HS as [HS _]. rewrite HS; auto.
    2:{ apply Rplus_le_le_0_compat; auto. apply Rmult_le_pos; auto. left. apply Rdiv_lt_0_compat; auto. }
    cbn [bind]. rewrite !xsub_fin. split.
    - unfold g, pv. replace 1.0 with 1 by lra. auto.
    - intros x. rewrite (set_twice x _ _ _ _ Hq). auto. }
  assert (I0 : inv p) by (intros x; auto).
  destruct (LF p (-30.0) I0) as (p1 & L1 & I1). destruct (LF p1 10.0 I1) as (p2 & L2 & I2).
  unfold Upper_Limit. rewrite Gt. cbn [bind]. rewrite SF. cbn [bind]. rewrite L1. cbn [bind]. rewrite L2. cbn [bind]. rewrite xmul_fin.
  destruct (Rlt_dec 0 (g (-30.0) * g 10.0)) as [Pos|Neg].
  - rewrite xlt_true by auto. cbn [bind]. rewrite T, I2. destruct (ST (Fin x0) p) as [p4 H4]. rewrite H4. cbn [bind]. do 3 eexists. split; [f_equal; f_equal; f_equal|]. lra.
  - rewrite xlt_false by lra. destruct (HF particle (limit_func X V d1 (Fin cert)) g inv (-30.0) 10.0 1.0e-4 p2) as (r & r0 & p3 & F1 & F2 & F3 & F4); auto; try lra.
    { intros y _. unfold g, pv. apply (continuous_minus (V := R_NormedModule) (fun y => at_most n (Rpower 10 y / x0 * s0 + b)) (fun _ => 1 - cert)); [|apply continuous_const].
      apply (continuous_comp (fun y => Rpower 10 y / x0 * s0 + b) (at_most n)); [|apply at_most_continuous].
      apply (continuous_plus (V := R_NormedModule) (fun y => Rpower 10 y / x0 * s0) (fun _ => b)); [|apply continuous_const].
      apply (continuous_mult (K := R_AbsRing) (fun y => Rpower 10 y / x0) (fun _ => s0)); [|apply continuous_const].
      apply (continuous_mult (K := R_AbsRing) (fun y => Rpower 10 y) (fun _ => / x0)); [|apply continuous_const]. apply Rpower_continuous. }
    rewrite F1. cbn [bind]. rewrite T. destruct (ST (Fin x0) p3) as [p4 H4]. rewrite H4. cbn [bind xpow10]. do 3 eexists. split; [reflexivity|]. right. apply Rpower_pos.
Qed.

(** * The detector: one target with Z = 1, A = 2 and mass 1 GeV, recoil energies between 0.1 and 0.5 GeV *)
Definition deuteron : Isotope := mkIsotope 1 2 (Fin 1) (Fin 0) (Fin 0) (Fin 0) "H2" (Fin 1).
Definition heavy_hydrogen : Nucleus := mkNucleus (Some 1%Z) [deuteron] "H".
Definition XW : externals := mkExternals reference_Integrate (fun _ _ _ => Ok (Fin 0)) (fun _ _ => Ok (Fin 0)) reference_Interpolate exact_binomial.
Definition nW : nuclear :=
  mkNuclear (with_range (Fin (1/10)) (Fin (1/2)) (with_using true false (Initialize_Poisson (Detector_ctor "test" (Fin 1) "Nuclei")))) [heavy_hydrogen] [Fin 1] (Fin 0.0) false [].
Definition VW : virtuals := nuclear_virtuals XW D1 nW.
Definition dW : detector := n_base nW.
Lemma nW_configured : exists n, Nuclear_ctor "test" (Fin 1) [heavy_hydrogen] [Fin 1] = Ok n /\ nuclear_run n [NBase (BThreshold (Fin (1/10)) (Fin (1/2)))] = Ok nW.
Proof.
  eexists. split.
  - unfold Nuclear_ctor, relative_fractions. cbn [xsum fold_left]. rewrite xadd_fin, xlt_false by lra. cbn [bind]. reflexivity.
  - cbn [nuclear_run nuclear_step n_base base_step]. unfold Use_Energy_Threshold. rewrite xlt_false by lra. reflexivity.
Qed.
Lemma XW_homogeneous : homogeneous_externals XW.
Proof. split; [apply reference_homogeneous|apply reference_interpolate_homogeneous]. Qed.
Lemma dW_rested : rested dW. Proof. unfold rested, dW, nW. cbn. rewrite zero_zero. auto. Qed.

(** Light particles of 2 GeV with a contact interaction. *)
Definition simple_particle (p : particle) (a b : R) : Prop :=
  kind p = SI /\ low_mass p = true /\ mass p = Fin 2 /\ fractional_density p = Fin 1 /\ use_eta p = true /\ FF_DM p = "Contact"%string /\ couplings p a b.

Lemma Reduced_Mass_2_1 : Reduced_Mass (Fin 2) (Fin 1) = Fin (2 / 3).
Proof. unfold Reduced_Mass. rewrite xmul_fin, xadd_fin, xdiv_fin by lra. f_equal. lra. Qed.
Lemma vmin_W E : 0 <= E <= 1 / 2 -> exists v, vMinimal_Nucleus (Fin E) (Fin 2) (Fin 1) = Fin v /\ v <= 1.
Proof.
  intros H. unfold vMinimal_Nucleus. rewrite Reduced_Mass_2_1. cbn [xpow]. rewrite !xmul_fin, !xdiv_fin by lra.
  rewrite xsqrt_fin by (apply Rmult_le_pos; [lra|left; apply Rinv_0_lt_compat; lra]). eexists. split; [reflexivity|].
  rewrite <- sqrt_1 at 3. apply sqrt_le_1_alt. replace (1 * E / 2 / (2 / 3 * (2 / 3 * 1))) with (E * (9 / 8)) by field. lra.
Qed.
Lemma dSigma_W p a b q v : simple_particle p a b -> v <> 0 -> dSigma_dq2_Nucleus p q deuteron (Fin v) = Ok (Fin ((a + b) ^ 2 / (4 * PI * v ^ 2))).
Proof.
  intros (K & L & M & D & U & F & Ca & Cb) V. assert (P := PI_RGT_0). unfold dSigma_dq2_Nucleus, FormFactor2_DM. rewrite K, L, F. cbn [String.eqb Ascii.eqb Bool.eqb bind].
  unfold SI_coupling. rewrite Ca, Cb. cbn [iZ iA deuteron]. change (u32 (2 - 1)) with 1%Z. rewrite !xmul_fin, xadd_fin. cbn [xpow]. rewrite !xdiv_fin by lra. rewrite !xmul_fin.
  do 2 f_equal. field. split; lra.
Qed.
Lemma dRdE_W p a b E : simple_particle p a b -> 0 <= E <= 1 / 2 -> Nuclear_dRdE XW (interface_of (x_I2 XW) p) D1 nW (Fin E) = Ok (Fin ((a + b) ^ 2 / (4 * PI))).
Proof.
  intros S HE. assert (P := PI_RGT_0). unfold Nuclear_dRdE. cbn [n_resolution nW]. rewrite xmul_fin, xlt_true by (assert (h := eV_pos); nra).
  unfold Nuclear_sum, sum_res. cbn [n_targets nW List.length seq map_res at_ub nth_error bind n_fractions]. unfold table_efficiency. cbn [n_using_tables nW bind].
  unfold dRdER_Nucleus, sum_res. cbn [nisotopes heavy_hydrogen map_res]. unfold dRdER_Isotope.
  pose proof S as (K & L & M & D & U & F & C). cbn [dm_mass dm_fraction dm_use_eta interface_of D1 d_vmax d_use_eta d_rho d_eta imass deuteron iabundance]. rewrite M, D, U.
  destruct (vmin_W E HE) as (v & -> & Hv). rewrite xlt_false by lra. cbn [andb].
  unfold dm_dSigma_dER. cbn [dm_dSigma_dq2_Nucleus interface_of imass deuteron]. fold deuteron. rewrite (dSigma_W p a b) by (auto; lra). cbn [bind].
  replace (b_flat_efficiency (n_base nW)) with (Fin 1.0) by reflexivity. rewrite !xmul_fin, !xdiv_fin by lra. rewrite !xmul_fin, !xdiv_fin by lra. rewrite !xmul_fin. cbn [xsum fold_left bind].
  rewrite xadd_fin. rewrite !xmul_fin. cbn [xsum fold_left bind]. rewrite xadd_fin. do 2 f_equal.
  replace 1.0 with 1 by lra. replace 1.0e-3 with (1/1000) by lra. field. lra.
Qed.

Lemma trapezoids_step x0 x1 y0 y1 xt yt : trapezoids (x0 :: x1 :: xt) (y0 :: y1 :: yt) =
  xadd (xmul (xmul (Fin (1 / 2)) (xsub x1 x0)) (xadd y0 y1)) (trapezoids (x1 :: xt) (y1 :: yt)).
Proof. reflexivity. Qed.
Lemma last_cons {A : Type} (l : list A) y x : last (y :: l) x = last l y.
Proof. revert y x. induction l as [|z l IH]; intros y x; [reflexivity|]. change (last (y :: z :: l) x) with (last (z :: l) x). rewrite !IH. auto. Qed.
Lemma trapezoids_flat c : forall l x, trapezoids (map Fin (x :: l)) (map (fun _ => Fin c) (x :: l)) = Fin (c * (last l x - x)).
Proof.
  induction l as [|y l IH]; intros x; [cbn [map trapezoids last]; f_equal; ring|].
  specialize (IH y). cbn [map] in *. rewrite trapezoids_step, IH, last_cons. rewrite !xsub_fin, xadd_fin, !xmul_fin, xadd_fin. f_equal. field.
Qed.

Definition qW (i : nat) : R := exp (ln (1 / 10) + INR i * ((ln (1 / 2) - ln (1 / 10)) / 199)).
Lemma grid_W : Log_Space (Fin (1/10)) (Fin (1/2)) 200 = map Fin (map qW (seq 0 200)).
Proof.
  unfold Log_Space. rewrite map_map. apply map_ext. intros i. rewrite !xlog_fin by lra. rewrite xsub_fin.
  change (200 - 1)%nat with 199%nat. rewrite (INR_IZR_INZ 199). change (IZR (Z.of_nat 199)) with 199. rewrite xdiv_fin by lra. rewrite xmul_fin, xadd_fin, xexp_fin. reflexivity.
Qed.
Lemma qW_range i : (i <= 199)%nat -> 1 / 10 <= qW i <= 1 / 2.
Proof.
  intros H. assert (I0 : 0 <= INR i) by apply pos_INR. assert (I1 : INR i <= 199) by (apply le_INR in H; rewrite (INR_IZR_INZ 199) in H; exact H).
  assert (L : ln (1 / 10) < ln (1 / 2)) by (apply ln_increasing; lra). unfold qW.
  set (D := ln (1 / 2) - ln (1 / 10)). assert (0 < D) by (unfold D; lra).
  assert (0 <= INR i * (D / 199) <= D). { split; [apply Rmult_le_pos; lra|]. replace (INR i * (D / 199)) with (INR i / 199 * D) by field. assert (INR i / 199 <= 1) by lra. nra. }
  split.
  - replace (1 / 10) with (exp (ln (1 / 10))) at 1 by (apply exp_ln; lra). assert (E : ln (1/10) <= ln (1/10) + INR i * (D / 199)) by lra. destruct E as [E|E]; [left; apply exp_increasing; auto|rewrite <- E; lra].
  - replace (1 / 2) with (exp (ln (1 / 2))) by (apply exp_ln; lra). assert (E : ln (1/10) + INR i * (D / 199) <= ln (1/2)) by (unfold D in *; lra). destruct E as [E|E]; [left; apply exp_increasing; auto|rewrite E; lra].
Qed.
Lemma qW_0 : qW 0 = 1 / 10.
Proof. unfold qW. cbn [INR]. rewrite Rmult_0_l, Rplus_0_r. apply exp_ln; lra. Qed.
Lemma qW_199 : qW 199 = 1 / 2.
Proof. unfold qW. rewrite (INR_IZR_INZ 199). change (IZR (Z.of_nat 199)) with 199. replace (ln (1 / 10) + 199 * ((ln (1 / 2) - ln (1 / 10)) / 199)) with (ln (1 / 2)) by field. apply exp_ln; lra. Qed.

Lemma total_W p a b : simple_particle p a b -> v_total VW dW p = Ok (Fin ((a + b) ^ 2 / (10 * PI))).
Proof.
  intros S. assert (P := PI_RGT_0). 
  cbn [v_total VW nuclear_virtuals]. unfold Nuclear_Total, DM_Signals_Total_Base.
  change (with_n_base dW nW) with nW. change (b_analysis (n_base nW)) with Poisson. cbv iota zeta. change (b_threshold (n_base nW)) with (Fin (1/10)). change (b_energy_max (n_base nW)) with (Fin (1/2)).
  change (b_exposure (n_base nW)) with (Fin 1). rewrite grid_W.
  set (K := (a + b) ^ 2 / (4 * PI)). set (s := seq 0 200).
  assert (M : map_res (Nuclear_dRdE XW (interface_of (x_I2 XW) p) D1 nW) (map Fin (map qW s)) = Ok (map (fun _ => Fin K) (map qW s))).
  { assert (Q : forall i, In i s -> (i <= 199)%nat) by (intros i Hi; apply in_seq in Hi; lia). clearbody s. induction s as [|i t IH]; [reflexivity|]. cbn [map map_res].
    rewrite (dRdE_W p a b); auto. 2: { assert (h := qW_range i (Q i (or_introl eq_refl))). lra. } cbn [bind]. rewrite IH by (intros j Hj; apply Q; right; auto). reflexivity. }
  rewrite M. cbn [bind x_Interpolate XW]. unfold reference_Interpolate.
  assert (E : map qW s = qW 0 :: map qW (seq 1 199)) by reflexivity. rewrite E, trapezoids_flat. cbn [bind]. rewrite xmul_fin. do 2 f_equal.
  assert (E2 : seq 1 199 = seq 1 198 ++ [199%nat]) by (rewrite (seq_S 198 1); reflexivity).
  rewrite E2, map_app. cbn [map]. rewrite last_last, qW_0, qW_199. unfold K. field. lra.
Qed.

(** * The particles: 2 GeV, low mass treatment, spin-independent *)
Definition light (fx : bool) (a b ra rb : R) : particle :=
  mkParticle SI true (Fin 2) (Fin 1) true (Fin a) (Fin b) (Fin 1) fx (Fin ra) (Fin rb) (Fin (1 / 10 ^ 40 * cm * cm)) "Contact" (Fin 0).
Lemma light_simple fx a b ra rb : simple_particle (light fx a b ra rb) a b.
Proof. unfold simple_particle, couplings, light. cbn. tauto. Qed.
Definition cW (x : R) : R := cpl 1 2 x.
Lemma cW_pos x : 0 < x -> 0 < cW x. Proof. intros. apply cpl_pos; lra. Qed.
Lemma cW_4 : cW 4 = 2 * cW 1.
Proof.
  unfold cW, cpl. replace (PI * 4 / 1) with (2 * 2 * (PI * 1 / 1)) by field. rewrite sqrt_mult by (assert (h := PI_RGT_0); lra). rewrite sqrt_square by lra.
  assert (h := mu_pos 2 ltac:(lra)). field. lra.
Qed.
Lemma light_get fx a b ra rb : 0 < ra -> Get_Interaction_Parameter "Nuclei" (light fx a b ra rb) = Ok (Fin (sig 1 2 a)).
Proof.
  intros H. unfold Get_Interaction_Parameter. cbn [String.eqb Ascii.eqb Bool.eqb]. change (fp_relative (light fx a b ra rb)) with (Fin ra). rewrite xlt_true by auto.
  f_equal. apply Sigma_Proton_eq; auto; lra.
Qed.
Lemma light_set a b ra rb x : 0 < ra -> 0 <= x -> Set_Interaction_Parameter (Fin x) "Nuclei" (light false a b ra rb) = Ok (light false (cW x) b ra rb).
Proof.
  intros H X. unfold Set_Interaction_Parameter. cbn [String.eqb Ascii.eqb Bool.eqb]. change (fp_relative (light false a b ra rb)) with (Fin ra). rewrite xlt_true by auto.
  f_equal. rewrite (Set_Sigma_Proton_eq _ 2 1 x) by (auto; lra). reflexivity.
Qed.
Lemma light_set_fixed a b ra rb x : 0 < ra -> 0 <= x -> Set_Interaction_Parameter (Fin x) "Nuclei" (light true a b ra rb) = Ok (light true (cW x) (rb / ra * cW x) ra rb).
Proof.
  intros H X. unfold Set_Interaction_Parameter. cbn [String.eqb Ascii.eqb Bool.eqb]. change (fp_relative (light true a b ra rb)) with (Fin ra). rewrite xlt_true by auto.
  f_equal. rewrite (Set_Sigma_Proton_eq _ 2 1 x) by (auto; lra). cbn [fixed light fp_relative fn_relative]. rewrite xeq_false, xdiv_fin, xmul_fin by lra. reflexivity.
Qed.
Lemma light_good fx a b ra rb : good (light fx a b ra rb) /\ (rb <> 0 -> share_ok (light fx a b ra rb)).
Proof. split; [split; [exists 2; split; [reflexivity|lra]|left; reflexivity]|]. intros H E. apply Fin_inj in E. contradiction. Qed.

Definition even : particle := light true (cW 1) (cW 1) 0.5 0.5.
Definition free : particle := light false (cW 1) (cW 1) 0.5 0.5.
Definition neutron : particle := light false 0 (cW 1) 0.5 0.5.
Definition flipped : particle := light false (- 2 * cW 1) (cW 1) 2 (-1).
Lemma light_ctor : Particle_ctor SI (Fin 2) (Fin 1) = with_low_mass false even.
Proof.
  unfold Particle_ctor. rewrite (Set_Sigma_Proton_eq (Standard_ctor SI (Fin 2)) 2 1 1) by (auto; lra).
  cbn [fixed Standard_ctor fp_relative fn_relative]. rewrite xeq_false, xdiv_fin, xmul_fin by lra.
  unfold with_fn, with_fp; cbn. fold (cW 1). replace (0.5 / 0.5 * cW 1) with (cW 1) by (field; lra). reflexivity.
Qed.
Lemma even_reachable : reachable even.
Proof.
  exists SI, 2, 1, [PLow_Mass true]. split; [lra|split; [lra|split]]; [repeat constructor|]. rewrite light_ctor. reflexivity.
Qed.
Lemma free_reachable : reachable free.
Proof.
  exists SI, 2, 1, [PLow_Mass true; PUnfix]. split; [lra|split; [lra|split]]; [repeat constructor|]. rewrite light_ctor. reflexivity.
Qed.
Lemma neutron_reachable : reachable neutron.
Proof.
  apply (reachable_step free (PSet_Sigma_Proton (Fin 0))); [apply free_reachable|exists 0; split; auto; lra|]. cbn [pstep].
  rewrite (Set_Sigma_Proton_eq free 2 1 0) by (auto; lra). cbn. rewrite cpl_0. reflexivity.
Qed.
Lemma flipped_reachable : reachable flipped.
Proof.
  assert (h := cW_pos 1 ltac:(lra)).
  apply (reachable_step (light true (- 2 * cW 1) (cW 1) 2 (-1)) PUnfix); [|exact Logic.I|reflexivity].
  apply (reachable_step (light true (cW 1) (- cW 1 / 2) 2 (-1)) (PSet_Sigma_Neutron (Fin 1))); [|exists 1; split; auto; lra|].
  - apply (reachable_step even (PFix_fn_over_fp (Fin (-1/2)))); [apply even_reachable|exists (-1/2); auto|]. cbn [pstep].
    unfold Fix_fn_over_fp. cbv zeta. rewrite xadd_fin, !xdiv_fin by lra. cbn [fp fn fp_relative fn_relative with_relation even light]. rewrite xne_true by lra.
    rewrite xdiv_fin, xmul_fin by lra. f_equal. unfold with_fn, with_relation, light. cbn [kind low_mass mass fractional_density use_eta fp fn prefactor fixed fp_relative fn_relative sigma_electron FF_DM mMediator even].
    replace (-1 / 2 / (1 + -1 / 2) / (1 / (1 + -1 / 2)) * cW 1) with (- cW 1 / 2) by field.
    replace (-1 / 2 / (1 + -1 / 2)) with (-1) by field. replace (1 / (1 + -1 / 2)) with 2 by field. reflexivity.
  - cbn [pstep]. f_equal. rewrite (Set_Sigma_Neutron_eq _ 2 1 1) by (auto; lra). cbn [fixed light fp_relative fn_relative]. rewrite xeq_false, xdiv_fin, xmul_fin by lra. fold (cW 1).
    unfold with_fn, with_fp, light. cbn [kind low_mass mass fractional_density use_eta fp fn prefactor fixed fp_relative fn_relative sigma_electron FF_DM mMediator].
    replace (2 / -1 * cW 1) with (-2 * cW 1) by field. reflexivity.
Qed.

(** * C48 fails for free couplings *)
Lemma fiducial_W p a b x0 : simple_particle p a b -> set_fiducial VW (Fin x0) dW p = Ok (with_fiducial true (Fin x0) (Fin ((a + b) ^ 2 / (10 * PI))) [] dW).
Proof.
  intros S. unfold set_fiducial. change (b_analysis dW) with Poisson. cbv iota zeta.
  destruct (nuclear_blind XW D1 nW true (Fin x0) (b_fiducial_signals dW) (b_fiducial_spectrum dW) dW p) as (_ & _ & _ & B & _). fold VW in B. rewrite B, (total_W p a b S). reflexivity.
Qed.

Lemma cW_1 : sig 1 2 (cW 1) = 1.
Proof. apply sig_cpl; lra. Qed.

(** Trying four times the present value of free couplings: the stored signal is multiplied with 4 (16 units), the real one grows to 9
    units; the p-value used in the search is too small. *)
Lemma free_not_rescaled : exists n0 ops n p x0 d1 x q,
  Nuclear_ctor "test" (Fin 1) [heavy_hydrogen] [Fin 1] = Ok n0 /\ nuclear_run n0 ops = Ok n /\ homogeneous_externals XW /\ reachable p /\ respects_ratio p /\
  Get_Interaction_Parameter "Nuclei" p = Ok (Fin x0) /\ 0 < x0 /\ set_fiducial (nuclear_virtuals XW D1 n) (Fin x0) (n_base n) p = Ok d1 /\ tried "Nuclei" p x q /\
  forall S, ideal_statistics S -> exists v v', P_Value S (nuclear_virtuals XW D1 n) d1 q = Ok (Fin v) /\ P_Value S (nuclear_virtuals XW D1 n) (n_base n) q = Ok (Fin v') /\ v < v'.
Proof.
  destruct nW_configured as (n0 & N1 & N2). exists n0, [NBase (BThreshold (Fin (1/10)) (Fin (1/2)))], nW, free, 1. do 1 eexists. exists 4, (light false (cW 4) (cW 1) 0.5 0.5).
  split; auto. split; auto. split; [apply XW_homogeneous|]. split; [apply free_reachable|]. split; [intros E; discriminate|].
  split; [unfold free; rewrite light_get, cW_1 by lra; auto|]. split; [lra|]. split; [apply (fiducial_W free (cW 1) (cW 1) 1), light_simple|].
  split; [apply tried_first; [lra|]; apply light_set; lra|]. intros S [HS _]. fold VW. assert (P := PI_RGT_0). assert (C := cW_pos 1 ltac:(lra)).
  assert (K : 0 < cW 1 ^ 2 / (10 * PI)) by (apply Rdiv_lt_0_compat; [nra|lra]). set (k := cW 1 ^ 2 / (10 * PI)) in *.
  exists (at_most 0 (16 * k + 0)), (at_most 0 (9 * k + 0)). split; [|split; [|apply at_most_decreasing; lra]].
  - unfold P_Value. change (b_analysis (with_fiducial true (Fin 1) (Fin ((cW 1 + cW 1) ^ 2 / (10 * PI))) [] dW)) with Poisson. cbv iota.
    cbn [b_using_fiducial with_fiducial b_fiducial_coupling b_fiducial_signals b_observed b_background b_targets]. change (b_targets dW) with "Nuclei"%string. change (b_background dW) with (Fin 0). change (b_observed dW) with 0%Z.
    rewrite light_get by lra. cbn [bind]. unfold cW at 1. rewrite sig_cpl by lra. rewrite xdiv_fin, pow_1, xmul_fin, xadd_fin by lra.
    replace (4 / 1 * ((cW 1 + cW 1) ^ 2 / (10 * PI)) + 0) with (16 * k + 0) by (unfold k; field; lra). apply (HS (16 * k + 0) 0%Z); [lra|lia].
  - unfold P_Value. change (b_analysis (n_base nW)) with Poisson. change (b_using_fiducial (n_base nW)) with false. cbv iota. fold dW. rewrite (total_W _ _ _ (light_simple false (cW 4) (cW 1) 0.5 0.5)). cbn [bind].
    change (b_background dW) with (Fin 0). change (b_observed dW) with 0%Z. rewrite xadd_fin, cW_4.
    replace ((2 * cW 1 + cW 1) ^ 2 / (10 * PI) + 0) with (9 * k + 0) by (unfold k; field; lra). apply (HS (9 * k + 0) 0%Z); [lra|lia].
Qed.

(** Free couplings without a proton coupling: the search works with an infinite expectation at every trial value. *)
Lemma neutron_not_rescaled : exists n0 ops n p d1,
  Nuclear_ctor "test" (Fin 1) [heavy_hydrogen] [Fin 1] = Ok n0 /\ nuclear_run n0 ops = Ok n /\ reachable p /\
  Get_Interaction_Parameter "Nuclei" p = Ok (Fin 0) /\ set_fiducial (nuclear_virtuals XW D1 n) (Fin 0) (n_base n) p = Ok d1 /\
  forall S x, 0 < x -> exists q s, Set_Interaction_Parameter (Fin x) "Nuclei" p = Ok q /\ 0 < s /\
    P_Value S (nuclear_virtuals XW D1 n) d1 q = CDF_Poisson S PInf 0 /\ P_Value S (nuclear_virtuals XW D1 n) (n_base n) q = CDF_Poisson S (Fin s) 0.
Proof.
  destruct nW_configured as (n0 & N1 & N2). exists n0, [NBase (BThreshold (Fin (1/10)) (Fin (1/2)))], nW, neutron. eexists.
  split; auto. split; auto. split; [apply neutron_reachable|]. split.
  { unfold neutron. rewrite light_get by lra. do 2 f_equal. unfold sig, Rdiv. ring. }
  split; [apply (fiducial_W neutron 0 (cW 1) 0), light_simple|]. intros S x X. assert (P := PI_RGT_0). assert (C := cW_pos 1 ltac:(lra)). assert (Cx := cW_pos x X).
  exists (light false (cW x) (cW 1) 0.5 0.5), ((cW x + cW 1) ^ 2 / (10 * PI) + 0). split; [apply light_set; lra|]. split.
  { rewrite Rplus_0_r. apply Rdiv_lt_0_compat; [|lra]. apply pow_lt. lra. }
  split.
  - unfold P_Value. match goal with |- context [with_fiducial true ?a ?b ?c dW] => change (b_analysis (with_fiducial true a b c dW)) with Poisson end. cbv iota.
    cbn [b_using_fiducial with_fiducial b_fiducial_coupling b_fiducial_signals b_observed b_background b_targets]. change (b_targets dW) with "Nuclei"%string. change (b_background dW) with (Fin 0). change (b_observed dW) with 0%Z.
    rewrite light_get by lra. cbn [bind]. unfold cW at 1. rewrite sig_cpl by lra. rewrite xdiv_zero. unfold xpow.
    assert (K : 0 < (0 + cW 1) ^ 2 / (10 * PI)) by (apply Rdiv_lt_0_compat; [nra|lra]). set (k := (0 + cW 1) ^ 2 / (10 * PI)) in *. clearbody k.
    unfold inf_sign. rewrite rpos_true by lra. cbn [xmul]. unfold inf_sign. rewrite !rpos_true by lra. cbn [xmul xadd]. unfold inf_sign. rewrite !rpos_true by lra. reflexivity.
  - unfold P_Value. change (b_analysis (n_base nW)) with Poisson. change (b_using_fiducial (n_base nW)) with false. cbv iota. fold dW. fold VW. rewrite (total_W _ _ _ (light_simple false (cW x) (cW 1) 0.5 0.5)). cbn [bind].
    change (b_background dW) with (Fin 0). change (b_observed dW) with 0%Z. rewrite xadd_fin. reflexivity.
Qed.

(** * C47 for free couplings: signs are lost *)
Lemma set_free p x0 x q a b : good p -> fixed p = false -> couplings p a b -> Get_Interaction_Parameter "Nuclei" p = Ok x0 -> x = x0 ->
  Set_Interaction_Parameter x "Nuclei" p = Ok q ->
  couplings q (if xlt (Fin 0) (fp_relative p) then Rabs a else a) (if xlt (Fin 0) (fp_relative p) then b else Rabs b).
Proof.
  intros G F [Ca Cb] Gt -> St. destruct (good_pre p G) as (m & pre & Hm & M0 & Hpre & Hpre0). assert (h := mu_pos m M0).
  unfold Get_Interaction_Parameter in Gt. unfold Set_Interaction_Parameter in St. cbn [String.eqb Ascii.eqb Bool.eqb] in *. apply Ok_inj in Gt, St.
  destruct (xlt (Fin 0) (fp_relative p)); subst x0.
  - rewrite (Sigma_Proton_eq p m pre a) in St by auto. rewrite (Set_Sigma_Proton_eq p m pre) in St by (auto; apply sig_nonneg; auto). rewrite F, cpl_sig in St by auto. subst q.
    replace (Rabs a * mu m / mu m) with (Rabs a) by (field; lra). split; auto.
  - rewrite (Sigma_Neutron_eq p m pre b) in St by auto. rewrite (Set_Sigma_Neutron_eq p m pre) in St by (auto; apply sig_nonneg; auto). rewrite F, cpl_sig in St by auto. subst q.
    replace (Rabs b * mu m / mu m) with (Rabs b) by (field; lra). split; auto.
Qed.
Lemma limit_free FR X V d p cert u d' p' a b : only_evaluates FR -> rested d -> good p -> fixed p = false -> couplings p a b -> b_targets d = "Nuclei"%string ->
  Upper_Limit FR X V d p cert = Ok (u, d', p') ->
  couplings p' (if xlt (Fin 0) (fp_relative p) then Rabs a else a) (if xlt (Fin 0) (fp_relative p) then b else Rabs b).
Proof.
  intros F Rd G U C T H. destruct (Upper_Limit_frame _ _ _ _ _ _ _ _ _ F Rd H) as (_ & x & Gt & St). rewrite T in Gt, St. eapply set_free; eauto.
Qed.
Lemma free_sound p a b : good p -> fixed p = false -> couplings p a b -> sound p.
Proof. intros G F C. split; auto. split; [exists a, b; auto|]. intros E. congruence. Qed.
Lemma set_mass_free_back p a b : good p -> share_ok p -> fixed p = false -> couplings p a b -> couplings (Set_Mass (mass p) p) (Rabs a) (Rabs b).
Proof.
  intros G Sh F C. destruct (good_pre p G) as (m & pre & Hm & M0 & _). rewrite Hm. assert (h := mu_pos m M0).
  destruct (set_mass_free p m a b G F C M0) as (m' & Hm' & _ & K). rewrite Hm in Hm'. apply Fin_inj in Hm'. subst m'.
  replace (Rabs a * mu m / mu m) with (Rabs a) in K by (field; lra). replace (Rabs b * mu m / mu m) with (Rabs b) in K by (field; lra). auto.
Qed.
Lemma curve_free FR X V d p cert masses l d' p' a b : only_evaluates FR -> rested d -> good p -> share_ok p -> fixed p = false -> couplings p a b -> positive_masses masses ->
  Upper_Limit_Curve FR X V d p masses cert = Ok (l, d', p') -> couplings p' (Rabs a) (Rabs b).
Proof.
  intros F Rd G Sh U C M H. destruct (curve FR X V cert d p masses l d' p' F Rd (free_sound p a b G U C) Sh M H) as (_ & -> & _). apply set_mass_free_back; auto.
Qed.
Lemma scan_free X V d p masses cs rows p' a b : good p -> share_ok p -> fixed p = false -> couplings p a b -> positive_masses masses -> b_targets d = "Nuclei"%string ->
  Log_Likelihood_Scan X V d p masses cs = Ok (rows, p') -> couplings p' (Rabs a) (Rabs b).
Proof.
  intros G Sh U C M T H. destruct (scan_grid X V d p masses cs rows p' (free_sound p a b G U C) Sh M H) as (_ & x & Gt & St). rewrite T in Gt, St.
  assert (K := set_mass_free_back p a b G Sh U C). destruct (good_pre p G) as (m & pre & Hm & M0 & Hpre & Hpre0). rewrite Hm in *.
  destruct (set_mass_like (Fin m) p) as (L & _ & Hm2). pose proof L as (_ & _ & _ & _ & L5 & L6 & L7 & _).
  assert (G2 : good (Set_Mass (Fin m) p)). { split; [exists m; auto|]. rewrite L5. apply G. }
  assert (Gt2 : Get_Interaction_Parameter "Nuclei" (Set_Mass (Fin m) p) = Ok x).
  { rewrite <- Gt. unfold Get_Interaction_Parameter. cbn [String.eqb Ascii.eqb Bool.eqb]. rewrite L7. destruct C as [Ca Cb], K as [Ka Kb].
    assert (SQ : forall r, sig pre m (Rabs r) = sig pre m r) by (intros r; unfold sig; replace (pre * Rabs r * Rabs r) with (pre * (Rabs r * Rabs r)) by ring; rewrite <- Rabs_mult, Rabs_pos_eq by nra; f_equal; ring).
    destruct (xlt _ _); f_equal.
    - rewrite (Sigma_Proton_eq _ m pre (Rabs a)), (Sigma_Proton_eq p m pre a), SQ by (auto; congruence). auto.
    - rewrite (Sigma_Neutron_eq _ m pre (Rabs b)), (Sigma_Neutron_eq p m pre b), SQ by (auto; congruence). auto. }
  assert (R := set_free _ x x p' _ _ G2 ltac:(congruence) K Gt2 eq_refl St). rewrite !Rabs_Rabsolu in R. destruct (xlt _ _) in R; auto.
Qed.

(** * The runs on this detector succeed *)
Lemma search_W p a b x0 cert FR S : accurate_search FR -> ideal_statistics S -> simple_particle p a b -> good p -> share_ok p ->
  Get_Interaction_Parameter "Nuclei" p = Ok (Fin x0) -> 0 < x0 ->
  exists u d' p', Upper_Limit FR S VW dW p (Fin cert) = Ok (Fin u, d', p') /\ (u = -1 \/ 0 < u).
Proof.
  intros HF HS Sp G Sh Gt X0. assert (P := PI_RGT_0). apply (limit_exists FR S VW dW p cert x0 ((a + b) ^ 2 / (10 * PI)) 0); auto; try reflexivity; try lra.
  - apply nuclear_blind.
  - apply total_W; auto.
  - apply Rmult_le_pos; [apply pow2_ge_0|left; apply Rinv_0_lt_compat; lra].
Qed.
Lemma minimum_W p a b : simple_particle p a b -> a + b <> 0 -> exists lowest, v_minimum_mass VW dW p = Ok (Fin lowest) /\ 1 / 4 < lowest < 1.
Proof.
  intros (K & L & M & D & U & F & Ca & Cb) N. assert (P := PI_RGT_0). cbn [v_minimum_mass VW nuclear_virtuals]. change (with_n_base dW nW) with nW. unfold Nuclear_Minimum_Mass.
  change (all_isotopes nW) with [deuteron]. cbn [mass_loop]. unfold Sigma_Total_Nucleus, IR_divergent. rewrite K, L, F, M. cbn [String.eqb Ascii.eqb Bool.eqb negb andb].
  cbn [imass deuteron]. rewrite Reduced_Mass_2_1. unfold SI_coupling. rewrite Ca, Cb. cbn [iZ iA deuteron]. change (u32 (2 - 1)) with 1%Z. rewrite !xmul_fin, xadd_fin. cbn [xpow]. rewrite !xmul_fin, xdiv_fin, xmul_fin by lra. cbn [bind].
  rewrite xlt_true. 2: { replace 0.0 with 0 by lra. apply Rmult_lt_0_compat; [apply Rdiv_lt_0_compat; lra|]. assert (0 < (a + b) * (a + b)) by (apply Rlt_0_sqr; auto). nra. }
  cbn [bind min_element fold_left]. unfold mass_bound. cbn [imass deuteron d_vmax D1 n_base nW n_resolution b_threshold with_range]. rewrite !xmul_fin, xsub_fin, xdiv_fin by lra.
  replace (2.0 * 1 / (1 / 10 - 2.0 * 0.0)) with 20 by lra. rewrite xsqrt_fin by lra. rewrite xmul_fin, xsub_fin.
  assert (S4 : 4 < sqrt 20) by (replace 4 with (sqrt (4 * 4)) by (apply sqrt_square; lra); apply sqrt_lt_1; lra). rewrite xdiv_fin by lra.
  eexists. split; [reflexivity|]. replace 1.0 with 1 by lra.
  assert (S5 : sqrt 20 < 5) by (replace 5 with (sqrt (5 * 5)) by (apply sqrt_square; lra); apply sqrt_lt_1; lra).
  split; (apply Rmult_lt_reg_r with (sqrt 20 * 1 - 1); [lra|]; unfold Rdiv; rewrite ?Rmult_1_l, ?Rinv_l by lra; lra).
Qed.

Lemma light_mass_free a b ra rb : rb <> 0 -> Set_Mass (Fin 2) (light false a b ra rb) = light false (Rabs a) (Rabs b) ra rb.
Proof.
  intros R. destruct (light_good false a b ra rb) as [G Sh]. assert (h := mu_pos 2 ltac:(lra)).
  destruct (set_mass_eq (light false a b ra rb) 2 2 a b) as (x & y & E & Q1 & Q2); auto; try reflexivity; [intros E; discriminate|lra|split; reflexivity|].
  rewrite E. subst x y. replace (Rabs a * mu 2 / mu 2) with (Rabs a) by (field; lra). replace (Rabs b * mu 2 / mu 2) with (Rabs b) by (field; lra). reflexivity.
Qed.
Lemma even_settled : settled even.
Proof.
  apply settled_intro; [apply even_reachable|]. split; [|intros E; discriminate]. intros _. exists (cW 1), (cW 1), 0.5, 0.5. repeat split; lra.
Qed.
Lemma light_mass_even : Set_Mass (Fin 2) even = even.
Proof.
  assert (h := mu_pos 2 ltac:(lra)). assert (C := cW_pos 1 ltac:(lra)). pose proof even_settled as (G & Sh & R & _).
  destruct (set_mass_eq even 2 2 (cW 1) (cW 1)) as (x & y & E & Q); auto; [lra|split; reflexivity|].
  cbn [fixed even light fp_relative fn_relative] in Q. rewrite xne_true in Q by lra. destruct Q as [Q1 Q2]. rewrite xdiv_fin, xmul_fin in Q2 by lra. apply Fin_inj in Q2.
  replace (Rabs (cW 1) * mu 2 / mu 2) with (cW 1) in Q1 by (rewrite Rabs_pos_eq by lra; field; lra). subst x. replace (0.5 / 0.5 * cW 1) with (cW 1) in Q2 by (field; lra). subst y. rewrite E. reflexivity.
Qed.

Definition good_run (p : particle) (FR : root_finder) (S : statistics) (cert : R) : Prop :=
  (exists u d' p', Upper_Limit FR S VW dW p (Fin cert) = Ok (u, d', p')) /\
  (exists l d' p', Upper_Limit_Curve FR S VW dW p [Fin (1/10); Fin 2] (Fin cert) = Ok (l, d', p')) /\
  (exists rows p', Log_Likelihood_Scan S VW dW p [Fin 2] [Fin 1; Fin 4] = Ok (rows, p')).

Lemma scan_W p a b : simple_particle p a b -> a + b <> 0 -> forall S, ideal_statistics S -> exists l, Log_Likelihood S VW dW p = Ok (Fin l).
Proof.
  intros Sp N S (_ & HS & _). assert (P := PI_RGT_0). unfold Log_Likelihood. change (b_analysis dW) with Poisson. cbv iota. rewrite (total_W p a b Sp). cbn [bind].
  change (b_observed dW) with 0%Z. change (b_background dW) with (Fin 0). unfold profiled.
  assert (K : 0 < (a + b) ^ 2 / (10 * PI)) by (apply Rdiv_lt_0_compat; [assert (0 < (a + b) * (a + b)) by (apply Rlt_0_sqr; auto); nra|lra]). rewrite (xlt_false ((a + b) ^ 2 / (10 * PI))) by (cbn; lra). rewrite andb_false_r.
  eexists. apply HS; [lra|lia].
Qed.

Lemma run_W p q a b x0 FR S cert : accurate_search FR -> ideal_statistics S -> simple_particle p a b -> a + b <> 0 -> good p -> share_ok p ->
  Get_Interaction_Parameter "Nuclei" p = Ok (Fin x0) -> 0 < x0 ->
  Set_Mass (Fin 2) p = q -> good q -> share_ok q -> (exists a b, simple_particle q a b) -> Get_Interaction_Parameter "Nuclei" q = Ok (Fin x0) ->
  (forall x, 0 < x -> exists r a b, Set_Interaction_Parameter (Fin x) "Nuclei" q = Ok r /\ simple_particle r a b /\ a + b <> 0) -> good_run p FR S cert.
Proof.
  intros HF HS Sp N G Sh Gt X0 Q Gq Shq (a' & b' & Sq) Gtq St. split; [|split].
  - destruct (search_W p a b x0 cert FR S HF HS Sp G Sh Gt X0) as (u & d' & p' & E & _). eauto.
  - unfold Upper_Limit_Curve. destruct (minimum_W p a b Sp N) as (lo & -> & L1). cbn [bind limit_curve_loop]. rewrite xlt_true by lra. rewrite xlt_false by lra. rewrite Q.
    destruct (search_W q a' b' x0 cert FR S HF HS Sq Gq Shq Gtq X0) as (u & d' & p' & -> & _). cbn [bind]. eauto.
  - unfold Log_Likelihood_Scan. change (b_targets dW) with "Nuclei"%string. rewrite Gt. cbn [bind scan_masses]. rewrite Q. cbn [scan_couplings]. change (b_targets dW) with "Nuclei"%string.
    destruct (St 1) as (r1 & a1 & b1 & E1 & S1 & N1); [lra|]. rewrite E1. cbn [bind]. destruct (scan_W r1 a1 b1 S1 N1 S HS) as [l1 ->]. cbn [bind].
    destruct (St 4) as (r2 & a2 & b2 & E2 & S2 & N2); [lra|]. rewrite (set_twice _ _ _ _ _ E1), E2. cbn [bind]. destruct (scan_W r2 a2 b2 S2 N2 S HS) as [l2 ->]. cbn [bind].
    destruct S2 as (_ & _ & M2 & _).
    assert (T : exists p3, Set_Interaction_Parameter (Fin x0) "Nuclei" (Set_Mass (mass p) r2) = Ok p3). { unfold Set_Interaction_Parameter. cbn [String.eqb Ascii.eqb Bool.eqb]. eauto. }
    destruct T as [p3 ->]. cbn [bind]. eauto.
Qed.

Lemma flipped_runs FR S cert : accurate_search FR -> ideal_statistics S -> good_run flipped FR S cert.
Proof.
  intros HF HS. assert (C := cW_pos 1 ltac:(lra)).
  assert (E : Set_Mass (Fin 2) flipped = light false (2 * cW 1) (cW 1) 2 (-1)).
  { unfold flipped. rewrite light_mass_free by lra. rewrite Rabs_left, Rabs_pos_eq by lra. do 2 f_equal. ring. }
  destruct (light_good false (-2 * cW 1) (cW 1) 2 (-1)) as [G1 Sh1]. destruct (light_good false (2 * cW 1) (cW 1) 2 (-1)) as [G2 Sh2].
  assert (X0 : sig 1 2 (-2 * cW 1) = 4). { transitivity (4 * sig 1 2 (cW 1)); [unfold sig, Rdiv; ring|rewrite cW_1; ring]. }
  assert (X1 : sig 1 2 (2 * cW 1) = 4). { transitivity (4 * sig 1 2 (cW 1)); [unfold sig, Rdiv; ring|rewrite cW_1; ring]. }
  apply (run_W flipped (light false (2 * cW 1) (cW 1) 2 (-1)) (-2 * cW 1) (cW 1) 4); auto.
  - apply light_simple.
  - lra.
  - apply Sh1; lra.
  - unfold flipped. rewrite light_get, X0 by lra. auto.
  - lra.
  - apply Sh2; lra.
  - do 2 eexists. apply light_simple.
  - rewrite light_get, X1 by lra. auto.
  - intros x X. do 3 eexists. split; [apply light_set; lra|]. split; [apply light_simple|]. assert (h := cW_pos x X). lra.
Qed.
Lemma even_runs FR S cert : accurate_search FR -> ideal_statistics S -> good_run even FR S cert.
Proof.
  intros HF HS. assert (C := cW_pos 1 ltac:(lra)). pose proof even_settled as (G & Sh & _).
  assert (Gt : Get_Interaction_Parameter "Nuclei" even = Ok (Fin 1)) by (unfold even; rewrite light_get, cW_1 by lra; auto).
  apply (run_W even even (cW 1) (cW 1) 1); auto.
  - apply light_simple.
  - lra.
  - lra.
  - apply light_mass_even.
  - do 2 eexists. apply light_simple.
  - intros x X. do 3 eexists. split; [apply light_set_fixed; lra|]. split; [apply light_simple|]. assert (h := cW_pos x X). replace (0.5 / 0.5 * cW x) with (cW x) by (field; lra). lra.
Qed.

(** C47 refuted: fp = -2 c, fn = c, set through the public calls. On success every one of the three calls leaves (2 c, c) behind, and a target
    with one proton and one neutron sees nine times the cross section. *)
Definition sees_nine_times (p p' : particle) : Prop :=
  exists s, 0 < s /\ dSigma_dq2_Nucleus p (Fin 0) deuteron (Fin 1) = Ok (Fin s) /\ dSigma_dq2_Nucleus p' (Fin 0) deuteron (Fin 1) = Ok (Fin (9 * s)).
Lemma nine p' : like flipped p' -> couplings p' (2 * cW 1) (cW 1) -> mass p' = Fin 2 -> sees_nine_times flipped p'.
Proof.
  intros (L1 & L2 & L3 & L4 & L5 & L6 & L7 & L8 & L9 & L10) C M. assert (P := PI_RGT_0). assert (h := cW_pos 1 ltac:(lra)).
  exists (cW 1 ^ 2 / (4 * PI)). split; [apply Rdiv_lt_0_compat; nra|].
  split; [rewrite (dSigma_W flipped (-2 * cW 1) (cW 1)) by (try apply light_simple; lra)|rewrite (dSigma_W p' (2 * cW 1) (cW 1)) by (try (unfold simple_particle; repeat split; auto; apply C); lra)]; do 2 f_equal; field; lra.
Qed.

Lemma flipped_couplings : couplings flipped (-2 * cW 1) (cW 1) /\ good flipped /\ share_ok flipped /\ fixed flipped = false.
Proof. destruct (light_good false (-2 * cW 1) (cW 1) 2 (-1)) as [G Sh]. split; [split; reflexivity|]. split; auto. split; [apply Sh; lra|reflexivity]. Qed.

Ltac positives := unfold positive_masses; repeat match goal with |- Forall _ [] => apply Forall_nil | |- Forall _ (Fin ?r :: _) => apply Forall_cons; [exists r; split; [reflexivity|lra]|] end.
Lemma limit_sign_refuted : exists p, reachable p /\
  (forall FR X V d cert u d' p', only_evaluates FR -> rested d -> b_targets d = "Nuclei"%string -> Upper_Limit FR X V d p cert = Ok (u, d', p') -> sees_nine_times p p') /\
  (exists FR X V d cert u d' p', only_evaluates FR /\ rested d /\ b_targets d = "Nuclei"%string /\ Upper_Limit FR X V d p cert = Ok (u, d', p')).
Proof.
  assert (C := cW_pos 1 ltac:(lra)). destruct flipped_couplings as (Cp & G & Sh & F).
  exists flipped. split; [apply flipped_reachable|]. split.
  - intros FR X V d cert u d' p' HF Rd T H. assert (K := limit_free FR X V d flipped cert u d' p' _ _ HF Rd G F Cp T H).
    change (fp_relative flipped) with (Fin 2) in K. rewrite xlt_true in K by lra. rewrite Rabs_left in K by lra. replace (- (-2 * cW 1)) with (2 * cW 1) in K by ring.
    destruct (Upper_Limit_frame _ _ _ _ _ _ _ _ _ HF Rd H) as (_ & x & _ & St). destruct (set_interaction_like _ _ _ _ St) as (L & M & _). apply nine; auto.
  - destruct (flipped_runs reference_search exact_statistics (1/2) reference_accurate exact_statistics_ideal) as [(u & d' & p' & E) _].
    exists reference_search, exact_statistics, VW, dW, (Fin (1/2)), u, d', p'. split; [apply reference_only_evaluates|]. split; [apply dW_rested|]. split; auto.
Qed.
Lemma curve_sign_refuted : exists p, reachable p /\
  (forall FR X V d cert masses l d' p', only_evaluates FR -> rested d -> positive_masses masses -> Upper_Limit_Curve FR X V d p masses cert = Ok (l, d', p') -> sees_nine_times p p') /\
  (exists FR X V d cert masses l d' p', only_evaluates FR /\ rested d /\ positive_masses masses /\ Upper_Limit_Curve FR X V d p masses cert = Ok (l, d', p')).
Proof.
  assert (C := cW_pos 1 ltac:(lra)). destruct flipped_couplings as (Cp & G & Sh & F).
  exists flipped. split; [apply flipped_reachable|]. split.
  - intros FR X V d cert masses l d' p' HF Rd M H. assert (K := curve_free FR X V d flipped cert masses l d' p' _ _ HF Rd G Sh F Cp M H).
    rewrite Rabs_left, Rabs_pos_eq in K by lra. replace (- (-2 * cW 1)) with (2 * cW 1) in K by ring.
    destruct (curve FR X V cert d flipped masses l d' p' HF Rd (free_sound _ _ _ G F Cp) Sh M H) as (_ & E & _). change (mass flipped) with (Fin 2) in E.
    destruct (set_mass_like (Fin 2) flipped) as (L & _ & Hm). rewrite <- E in L, Hm. apply nine; auto.
  - destruct (flipped_runs reference_search exact_statistics (1/2) reference_accurate exact_statistics_ideal) as (_ & (l & d' & p' & E) & _).
    exists reference_search, exact_statistics, VW, dW, (Fin (1/2)), [Fin (1/10); Fin 2], l, d', p'. split; [apply reference_only_evaluates|]. split; [apply dW_rested|]. split; auto.
    positives.
Qed.
Lemma scan_sign_refuted : exists p, reachable p /\
  (forall X V d masses cs rows p', positive_masses masses -> b_targets d = "Nuclei"%string -> Log_Likelihood_Scan X V d p masses cs = Ok (rows, p') -> sees_nine_times p p') /\
  (exists X V d masses cs rows p', positive_masses masses /\ b_targets d = "Nuclei"%string /\ Log_Likelihood_Scan X V d p masses cs = Ok (rows, p')).
Proof.
  assert (C := cW_pos 1 ltac:(lra)). destruct flipped_couplings as (Cp & G & Sh & F).
  exists flipped. split; [apply flipped_reachable|]. split.
  - intros X V d masses cs rows p' M T H. assert (K := scan_free X V d flipped masses cs rows p' _ _ G Sh F Cp M T H).
    rewrite Rabs_left, Rabs_pos_eq in K by lra. replace (- (-2 * cW 1)) with (2 * cW 1) in K by ring.
    destruct (scan_grid X V d flipped masses cs rows p' (free_sound _ _ _ G F Cp) Sh M H) as (_ & x & _ & E). change (mass flipped) with (Fin 2) in E.
    destruct (set_mass_like (Fin 2) flipped) as (L & _ & Hm). destruct (set_interaction_like _ _ _ _ E) as (L2 & M2 & _).
    assert (L3 : like flipped p') by (eapply like_trans; [exact L|exact L2]). apply nine; [exact L3|exact K|congruence].
  - destruct (flipped_runs reference_search exact_statistics (1/2) reference_accurate exact_statistics_ideal) as (_ & _ & (rows & p' & E)).
    exists exact_statistics, VW, dW, [Fin 2], [Fin 1; Fin 4], rows, p'. split; [|split; auto].
    positives.
Qed.

(** The positive statements for reachable particles. *)
Lemma limit_restores_user FR X V d p cert u d' p' : only_evaluates FR -> rested d -> reachable p -> tame p -> Upper_Limit FR X V d p cert = Ok (u, d', p') ->
  d' = d /\ same_physics p p'.
Proof. intros F Rd R T H. destruct (limit_restores FR X V d p cert u d' p' F Rd (settled_intro p R T) H) as (A & B & _). auto. Qed.
Lemma curve_restores_user FR X V d p masses cert l d' p' : only_evaluates FR -> rested d -> reachable p -> tame p -> positive_masses masses ->
  Upper_Limit_Curve FR X V d p masses cert = Ok (l, d', p') -> d' = d /\ same_physics p p'.
Proof. intros F Rd R T. eapply curve_restores; eauto. apply settled_intro; auto. Qed.
Lemma scan_restores_user X V d p masses cs rows p' : reachable p -> tame p -> positive_masses masses -> Log_Likelihood_Scan X V d p masses cs = Ok (rows, p') -> same_physics p p'.
Proof. intros R T. eapply scan_restores; eauto. apply settled_intro; auto. Qed.
Lemma limit_detector FR X V d p cert u d' p' : only_evaluates FR -> rested d -> Upper_Limit FR X V d p cert = Ok (u, d', p') -> d' = d.
Proof. intros F Rd H. apply (Upper_Limit_frame _ _ _ _ _ _ _ _ _ F Rd H). Qed.
Lemma nuclear_rested label expo nuclei abund n0 ops n : Nuclear_ctor label expo nuclei abund = Ok n0 -> nuclear_run n0 ops = Ok n -> rested (n_base n) /\ b_targets (n_base n) = "Nuclei"%string.
Proof. intros HC HR. destruct (nuclear_run_idle "Nuclei" ops n0 n (nuclear_ctor_idle _ _ _ _ _ HC) HR). auto. Qed.
Lemma ionization_rested I w ch label expo atoms fr s0 w' ops s : Ionization_ctor I w ch label expo atoms fr = Ok (s0, w') -> ionization_run s0 ops = Ok s ->
  rested (i_base s) /\ b_targets (i_base s) = channel_targets ch.
Proof. intros HC HR. destruct (ionization_ctor_idle _ _ _ _ _ _ _ _ _ HC) as [H0 _]. destruct (ionization_run_idle _ ops s0 s H0 HR) as [[Ht Hi] _]. auto. Qed.
Lemma semiconductor_rested I label expo crys s0 ops s : Semiconductor_ctor I label expo crys = Ok s0 -> semiconductor_run s0 ops = Ok s ->
  rested (c_base s) /\ b_targets (c_base s) = "Electrons"%string.
Proof. intros HC HR. destruct (semiconductor_run_idle "Electrons" ops s0 s (semiconductor_ctor_idle _ _ _ _ _ HC) HR). auto. Qed.

(** C49 and C50 for reachable particles with finite couplings that respect a fixed ratio. *)
Definition finite_particle (p : particle) : Prop := reachable p /\ respects_ratio p /\ exists a b, couplings p a b.
Lemma finite_sound p : finite_particle p -> sound p /\ share_ok p.
Proof. intros (R & Rr & a & b & C). destruct (reachable_good p R) as [G Sh]. split; auto. split; auto. split; auto. exists a, b; auto. Qed.
Lemma curve_list_user FR X V cert d p masses l d' p' : only_evaluates FR -> rested d -> finite_particle p -> positive_masses masses ->
  Upper_Limit_Curve FR X V d p masses cert = Ok (l, d', p') ->
  exists lowest, v_minimum_mass V d p = Ok lowest /\
    (forall m, In m masses -> xlt m lowest = false -> exists u, limit_at FR X V d p cert m = Some u) /\
    l = flat_map (fun m => match limit_at FR X V d p cert m with Some u => if xlt (Fin 0) u then [[m; u]] else [] | None => [] end)
          (filter (fun m => negb (xlt m lowest)) masses).
Proof. intros F Rd S. destruct (finite_sound p S). eapply curve_list; eauto. Qed.
Lemma scan_positions_user X V d p masses cs rows p' : finite_particle p -> positive_masses masses -> Log_Likelihood_Scan X V d p masses cs = Ok (rows, p') ->
  List.length rows = (List.length masses * List.length cs)%nat /\
  forall i j m c, nth_error masses i = Some m -> nth_error cs j = Some c ->
    exists q l, Set_Interaction_Parameter c (b_targets d) (Set_Mass m p) = Ok q /\ Log_Likelihood X V d q = Ok l /\
      nth_error rows (i * List.length cs + j) = Some [m; c; l].
Proof. intros S. destruct (finite_sound p S). apply scan_positions; auto. Qed.

(** C45 for the classes. *)
Lemma nuclear_limit FR S X D label expo nuclei abund n0 ops n p cert x0 s0 b : accurate_search FR -> ideal_statistics S -> homogeneous_externals X ->
  Nuclear_ctor label expo nuclei abund = Ok n0 -> nuclear_run n0 ops = Ok n ->
  reachable p -> fixed p = true -> respects_ratio p ->
  b_analysis (n_base n) = Poisson -> (0 <= b_observed (n_base n))%Z -> b_background (n_base n) = Fin b -> 0 <= b ->
  Get_Interaction_Parameter "Nuclei" p = Ok (Fin x0) -> 0 < x0 -> v_total (nuclear_virtuals X D n) (n_base n) p = Ok (Fin s0) -> 0 < s0 ->
  exists u d' p', Upper_Limit FR S (nuclear_virtuals X D n) (n_base n) p (Fin cert) = Ok (Fin u, d', p') /\
    ((u = -1 /\ no_crossing S (nuclear_virtuals X D n) (n_base n) p cert) \/ (0 < u /\ separates S (nuclear_virtuals X D n) (n_base n) p cert u)).
Proof.
  intros HF HS HX HC HR R F Rr A N Hb Hb0 Gt X0 Vt S0. destruct (reachable_good p R) as [G Sh]. destruct (nuclear_rested _ _ _ _ _ _ _ HC HR) as [Rd T].
  apply (limit_separates FR S _ _ p cert x0 s0 b); auto; [apply nuclear_blind|apply nuclear_proportional; auto|rewrite T; auto].
Qed.
Lemma ionization_limit FR S X D I w ch label expo atoms fr i0 w' ops s p cert x0 s0 b : accurate_search FR -> ideal_statistics S -> homogeneous_externals X ->
  Ionization_ctor I w ch label expo atoms fr = Ok (i0, w') -> ionization_run i0 ops = Ok s ->
  reachable p -> (ch = Migdal -> fixed p = true /\ respects_ratio p) ->
  b_analysis (i_base s) = Poisson -> (0 <= b_observed (i_base s))%Z -> b_background (i_base s) = Fin b -> 0 <= b ->
  Get_Interaction_Parameter (channel_targets ch) p = Ok (Fin x0) -> 0 < x0 -> v_total (ionization_virtuals X D s) (i_base s) p = Ok (Fin s0) -> 0 < s0 ->
  exists u d' p', Upper_Limit FR S (ionization_virtuals X D s) (i_base s) p (Fin cert) = Ok (Fin u, d', p') /\
    ((u = -1 /\ no_crossing S (ionization_virtuals X D s) (i_base s) p cert) \/ (0 < u /\ separates S (ionization_virtuals X D s) (i_base s) p cert u)).
Proof.
  intros HF HS HX HC HR R F A N Hb Hb0 Gt X0 Vt S0. destruct (reachable_good p R) as [G Sh].
  destruct (ionization_ctor_idle _ _ _ _ _ _ _ _ _ HC) as [H0 Hch]. destruct (ionization_run_idle _ ops i0 s H0 HR) as [[T Rd] Hc]. rewrite Hch in Hc.
  apply (limit_separates FR S _ _ p cert x0 s0 b); auto; [apply ionization_blind| |rewrite T; auto].
  destruct ch; cbn [channel_targets] in *; [apply electron_proportional; auto|destruct F; auto; apply migdal_proportional; auto].
Qed.
Lemma semiconductor_limit FR S X D I label expo crys c0 ops s p cert x0 s0 b : accurate_search FR -> ideal_statistics S -> homogeneous_externals X ->
  Semiconductor_ctor I label expo crys = Ok c0 -> semiconductor_run c0 ops = Ok s ->
  reachable p ->
  b_analysis (c_base s) = Poisson -> (0 <= b_observed (c_base s))%Z -> b_background (c_base s) = Fin b -> 0 <= b ->
  Get_Interaction_Parameter "Electrons" p = Ok (Fin x0) -> 0 < x0 -> v_total (semiconductor_virtuals X D s) (c_base s) p = Ok (Fin s0) -> 0 < s0 ->
  exists u d' p', Upper_Limit FR S (semiconductor_virtuals X D s) (c_base s) p (Fin cert) = Ok (Fin u, d', p') /\
    ((u = -1 /\ no_crossing S (semiconductor_virtuals X D s) (c_base s) p cert) \/ (0 < u /\ separates S (semiconductor_virtuals X D s) (c_base s) p cert u)).
Proof.
  intros HF HS HX HC HR R A N Hb Hb0 Gt X0 Vt S0. destruct (reachable_good p R) as [G Sh]. destruct (semiconductor_rested _ _ _ _ _ _ _ HC HR) as [Rd T].
  apply (limit_separates FR S _ _ p cert x0 s0 b); auto; [apply semiconductor_blind|apply crystal_proportional; auto|rewrite T; auto].
Qed.
(** The hypotheses of the nuclear one are met by this detector. *)
Lemma nuclear_limit_instance : exists n0 ops x0 s0, Nuclear_ctor "test" (Fin 1) [heavy_hydrogen] [Fin 1] = Ok n0 /\ nuclear_run n0 ops = Ok nW /\
  accurate_search reference_search /\ only_evaluates reference_search /\ ideal_statistics exact_statistics /\ homogeneous_externals XW /\ reachable even /\ fixed even = true /\ tame even /\ finite_particle even /\
  b_analysis dW = Poisson /\ b_observed dW = 0%Z /\ b_background dW = Fin 0 /\ Get_Interaction_Parameter "Nuclei" even = Ok (Fin x0) /\ 0 < x0 /\
  v_total VW dW even = Ok (Fin s0) /\ 0 < s0 /\ good_run even reference_search exact_statistics (1/2).
Proof.
  destruct nW_configured as (n0 & N1 & N2). exists n0. eexists. exists 1, ((cW 1 + cW 1) ^ 2 / (10 * PI)). split; [eauto|]. split; [eauto|]. assert (P := PI_RGT_0). assert (C := cW_pos 1 ltac:(lra)).
  pose proof even_settled as (G & Sh & R & U).
  split; [apply reference_accurate|]. split; [apply reference_only_evaluates|]. split; [apply exact_statistics_ideal|]. split; [apply XW_homogeneous|]. split; [apply even_reachable|]. split; [reflexivity|].
  split; [split; auto|]. split; [split; [apply even_reachable|split; auto; exists (cW 1), (cW 1); split; reflexivity]|].
  split; [reflexivity|]. split; [reflexivity|]. split; [reflexivity|]. split; [unfold even; rewrite light_get, cW_1 by lra; auto|]. split; [lra|].
  split; [apply total_W, light_simple|]. split; [apply Rdiv_lt_0_compat; nra|]. apply even_runs; [apply reference_accurate|apply exact_statistics_ideal].
Qed.
