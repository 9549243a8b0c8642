(** Cases meeting the hypotheses of the theorems on electron spectra (C92-C94). *)
From Coq Require Import Reals ZArith String Lia Lra Psatz Bool.
From Coquelicot Require Import Coquelicot.
From Coq Require Import List.
From Verif Require Import Base XrFacts Quadrature Nucleus_Model Nuclear_Model Particle_Model CrossSection_Model Distribution_Model Halo_Model Atom_Model Crystal_Model Rates_Model
  Kinematics_Proofs Eta_Proofs Detector_Model DetectorTypes_Model DetectorBins_Proofs DetectorWitness_Proofs Formulas_Proofs FormulasHalo_Proofs FormulasWitness_Proofs ElectronSpectra_Proofs.
Import ListNotations.
Local Open Scope R_scope.

(** Speeds from 1 to 3, all equally likely; mass 2, density 1: the speed integral of the cross section c / v^2. *)
Definition Jbox (c v : R) : R := c / 4 * Rmax 0 (ln (3 / v)).
Lemma box_integral c v : 1 <= v -> speed_integral box 1 2 c v 3 (Jbox c v).
Proof.
  intros H. split; intros L; unfold Jbox.
  - rewrite Rmax_left; [ring|]. rewrite <- ln_1. assert (P : 3 / v <= 1) by (apply (Rmult_le_reg_r v); [lra|]; unfold Rdiv; rewrite Rmult_assoc, Rinv_l by lra; lra).
    destruct P as [P | P]; [left; apply ln_increasing; auto; apply Rdiv_lt_0_compat; lra|rewrite P; lra].
  - rewrite Rmax_right. 2:{ rewrite <- ln_1. left. apply ln_increasing; [lra|]. apply (Rmult_lt_reg_r v); [lra|]. unfold Rdiv. rewrite Rmult_assoc, Rinv_l by lra. lra. }
    rewrite ln_div by lra. apply (is_RInt_ext (fun u => scal (c / 4) (/ u))).
    + rewrite Rmin_left, Rmax_right by lra. intros u Hu. unfold box. destruct (Rlt_dec u 1); [lra|]. change (c / 4 * / u = 1 / 2 * u * (1 / 2) * (c / u ^ 2)). field. lra.
    + apply (is_RInt_scal (V := R_NormedModule)). apply (is_RInt_derive (V := R_CompleteNormedModule) ln); rewrite Rmin_left, Rmax_right by lra.
      * intros u Hu. auto_derive; [lra|]. field. lra.
      * intros u Hu. apply (ex_derive_continuous (fun v => / v)). auto_derive. lra.
Qed.
Lemma vneed_least q : 0 < q -> 1 <= vneed 2 (3 / 4 + 1) q.
Proof. intros H. unfold vneed. apply (Rmult_le_reg_r (4 * q)); [lra|]. replace (((3 / 4 + 1) / q + q / (2 * 2)) * (4 * q)) with (7 + q * q) by (field; lra). assert (h := Rle_0_sqr (q - 2)). unfold Rsqr in h. lra. Qed.
(** A shell of binding energy 3/4 tabulated up to the momentum 2 (shell1), and the same one tabulated up to 20. *)
Definition shell2 : Atomic_Electron :=
  mkShell (Fin mElectron) (Fin mElectron) (Fin 1) (Fin 20) (Fin 1) (Fin 1) 1 1 [Fin mElectron] [Fin 1] (repeat (mkTable2 [] [] []) 4) 1 0 "1s" (Fin (3 / 4)) 0 false.
Lemma qlow_box : 0 < qlow 2 3 (3 / 4) < 1 /\ 11 < qhigh 2 3 (3 / 4) < 12.
Proof.
  unfold qlow, qhigh. replace ((2 * 3) ^ 2 - 2 * 2 * (3 / 4)) with 33 by lra. assert (P : 0 <= sqrt 33) by apply sqrt_pos. assert (Q : sqrt 33 * sqrt 33 = 33) by (apply sqrt_sqrt; lra). nra.
Qed.
Lemma box_shell_setting shell qc : binding_energy shell = Fin (3 / 4) -> q_max shell = Fin qc ->
  shell_setting DM2 box_halo shell box 1 2 3 1 3 1 (3 / 4) qc (fun _ => 1) (fun q => Jbox 1 (vneed 2 (3 / 4 + 1) q)).
Proof.
  intros EB EQ. split; [apply box_mean_inverse|]. split; [repeat split; lra|]. split; [exact EB|]. split; [lra|]. split; [exact EQ|]. split; [lra|].
  intros q Hq. assert (Q := qlow_box). assert (V := vneed_least q ltac:(lra)). split; [lra|]. split; [apply falling_square|apply box_integral; auto].
Qed.
Lemma shell_instance_sum : shell_setting DM2 box_halo shell1 box 1 2 3 1 3 1 (3 / 4) 2 (fun _ => 1) (fun q => Jbox 1 (vneed 2 (3 / 4 + 1) q)) /\ 3 / 4 <= 2 * 3 ^ 2 / 2 /\ qlow 2 3 (3 / 4) <= 2 <= qhigh 2 3 (3 / 4) /\
  shell_setting DM2 box_halo shell2 box 1 2 3 1 3 1 (3 / 4) 20 (fun _ => 1) (fun q => Jbox 1 (vneed 2 (3 / 4 + 1) q)) /\ qhigh 2 3 (3 / 4) <= 20 /\ 0 < Jbox 1 (vneed 2 (3 / 4 + 1) 1).
Proof.
  assert (Q := qlow_box). split; [apply box_shell_setting; reflexivity|]. split; [lra|]. split; [lra|]. split; [apply box_shell_setting; reflexivity|]. split; [lra|].
  unfold Jbox, vneed. replace (3 / ((3 / 4 + 1) / 1 + 1 / (2 * 2))) with (3 / 2) by field. assert (0 < ln (3 / 2)) by (rewrite <- ln_1; apply ln_increasing; lra). rewrite Rmax_right by lra. lra.
Qed.
(** A crystal with three momenta 1, 2, 3, at energy 1. *)
Definition crystal3 : Crystal := mkCrystal (mkTable2 [] [] []) 1 3 "test" (Fin 1) (Fin 1) (Fin 1) (Fin 1) (Fin 1) (Fin (1 / 2)) (Fin 1) 1.
Lemma crystal_instance_sum : exists m M, dq crystal3 = Fin 1 /\ M_cell crystal3 = Fin M /\ 0 < M /\ E_max crystal3 = Fin m /\ 1 <= m /\ Z.to_nat (N_q crystal3) = 3%nat /\
  forall i, (1 <= i <= 3)%nat -> let q := INR i * 1 in (vneed 2 1 q <= 3 -> 1 <= vneed 2 1 q <= 3) /\
     inverse_square (fun v => dm_d2Sigma_Crystal DM2 (Fin q) (Fin 1) v crystal3) 1 /\ speed_integral box 1 2 1 (vneed 2 1 q) 3 (Jbox 1 (vneed 2 1 q)) /\ 0 < Jbox 1 (vneed 2 1 q).
Proof.
  eexists _, _. split; [reflexivity|]. split; [reflexivity|]. split; [lra|]. split; [reflexivity|]. split; [lra|]. split; [reflexivity|].
  intros i Hi q. assert (V : 1 <= vneed 2 1 q < 3).
  { unfold vneed, q. assert (C : (i = 1 \/ i = 2 \/ i = 3)%nat) by lia. destruct C as [-> | [-> | ->]]; cbn; lra. }
  split; [lra|]. split; [apply falling_square|]. split; [apply box_integral; lra|]. unfold Jbox. assert (0 < ln (3 / vneed 2 1 q)).
  { rewrite <- ln_1. apply ln_increasing; [lra|]. apply (Rmult_lt_reg_r (vneed 2 1 q)); [lra|]. unfold Rdiv. rewrite Rmult_assoc, Rinv_l by lra. lra. }
  rewrite Rmax_right by lra. lra.
Qed.
(** The Migdal effect on shell1 with a nucleus of mass 2, electron energy m_e / 2. *)
Definition flat_I2 : interpolator2 := fun _ _ _ => Ok (Fin 1).
Definition Kbox (ER : R) : R := Jbox (2 * 2 * 1 * (mElectron ^ 2 * ER) / (4 * (mElectron / 2))) (vmig_R ER (mElectron / 2) 2 2 (3 / 4)).
Lemma vmig_box ER : 0 < ER -> vmig_R ER (mElectron / 2) 2 2 (3 / 4) = sqrt ER + (mElectron / 2 + 3 / 4) / (2 * sqrt ER) /\ 1 <= vmig_R ER (mElectron / 2) 2 2 (3 / 4).
Proof.
  intros H. unfold vmig_R. assert (P : 0 < sqrt ER) by (apply sqrt_lt_R0; auto). assert (S : sqrt (2 * 2 * ER) = 2 * sqrt ER).
  { rewrite sqrt_mult_alt by lra. f_equal. replace (2 * 2) with (2 ^ 2) by ring. apply sqrt_pow2. lra. }
  rewrite S. replace (2 * ER / (2 * mu 2 2 ^ 2)) with ER by (unfold mu; field). split; [reflexivity|].
  set (s := sqrt ER) in *. apply (Rmult_le_reg_r (2 * s)); [lra|]. replace ((s + (mElectron / 2 + 3 / 4) / (2 * s)) * (2 * s)) with (2 * (s * s) + (mElectron / 2 + 3 / 4)) by (field; lra). assert (h := Rle_0_sqr (s - 1 / 2)). unfold Rsqr in h. unfold mElectron. lra.
Qed.
Lemma form_factor_box ER : 0 < ER <= 9 -> ionization_value flat_I2 shell1 (Fin (mElectron * sqrt (2 * ER / 2))) (Fin (mElectron / 2)) = Ok (Fin (mElectron ^ 2 * ER)).
Proof.
  intros H. replace (2 * ER / 2) with ER by field. assert (S0 : 0 <= sqrt ER) by apply sqrt_pos. assert (SS : sqrt ER * sqrt ER = ER) by (apply sqrt_sqrt; lra). assert (S3 : sqrt ER <= 3) by nra.
  assert (ME : 0 < mElectron < 1 / 1000) by (unfold mElectron; lra). assert (B : 0 <= mElectron * sqrt ER < 1) by nra.
  unfold ionization_value, Ionization_Form_Factor, Atomic_Response_Function, response_out_of_bounds, shell1. cbn [q_max k_max k_min q_min atomic_response_interpolations repeat]. rewrite !xmul_fin.
  replace (2 * mElectron * (mElectron / 2)) with (mElectron * mElectron) by field. rewrite xsqrt_fin by nra. rewrite sqrt_square by lra.
  rewrite (xlt_false (1.000001 * 2)) by lra. rewrite (xlt_false (1.000001 * mElectron)) by lra. rewrite (xlt_false mElectron) by lra. cbn [orb]. cbn [Z.eqb Pos.eqb].
  unfold at_ub. cbn [nth_error bind]. rewrite xlt_false by lra. unfold flat_I2. cbn [bind fst]. rewrite !xdiv_fin, xmul_fin by lra. do 2 f_equal. field_simplify. replace (sqrt ER ^ 2) with ER by (rewrite <- SS at 1; ring). ring.
Qed.
Lemma migdal_instance_sum : migdal_setting flat_I2 DM2 box_halo heavy2 shell1 box 1 2 3 1 3 2 (mElectron / 2) (3 / 4) Kbox /\
  ex_RInt Kbox ((3 / 4 / 3) ^ 2 / (2 * 2)) ((2 * mu 2 2 * 3) ^ 2 / (2 * 2)) /\ 0 < Kbox 1.
Proof.
  assert (ME : 0 < mElectron < 1 / 1000) by (unfold mElectron; lra). assert (MU : mu 2 2 = 1) by (unfold mu; field).
  assert (WA : (3 / 4 / 3) ^ 2 / (2 * 2) = 1 / 64) by field. assert (WB : (2 * mu 2 2 * 3) ^ 2 / (2 * 2) = 9) by (rewrite MU; field).
  split; [|split].
  - split; [apply box_mean_inverse|]. split; [repeat split; lra|]. split; [reflexivity|]. split; [lra|]. split; [reflexivity|]. split; [lra|]. split; [lra|].
    cbv zeta. rewrite WA, WB. rewrite Rmin_left, Rmax_right by lra. intros ER HR. exists 1, (mElectron ^ 2 * ER). destruct (vmig_box ER ltac:(lra)) as [_ V].
    split; [lra|]. split; [apply falling_square|]. split; [apply form_factor_box; lra|]. apply box_integral. exact V.
  - rewrite WA, WB. apply (ex_RInt_ext (fun ER => 2 * 2 * 1 * (mElectron ^ 2 * ER) / (4 * (mElectron / 2)) / 4 * (/ 2 * (ln (3 / (sqrt ER + (mElectron / 2 + 3 / 4) / (2 * sqrt ER))) + Rabs (ln (3 / (sqrt ER + (mElectron / 2 + 3 / 4) / (2 * sqrt ER)))))))).
    + rewrite Rmin_left, Rmax_right by lra. intros ER HR. unfold Kbox, Jbox. destruct (vmig_box ER ltac:(lra)) as [-> _]. set (l := ln _). f_equal. unfold Rmax, Rabs. destruct Rle_dec, Rcase_abs; lra.
    + apply (ex_RInt_continuous (V := R_CompleteNormedModule)). rewrite Rmin_left, Rmax_right by lra. intros ER HR. destruct (vmig_box ER ltac:(lra)) as [E V]. rewrite E in V. assert (P : 0 < sqrt ER) by (apply sqrt_lt_R0; lra).
      assert (C : continuous (fun ER => ln (3 / (sqrt ER + (mElectron / 2 + 3 / 4) / (2 * sqrt ER)))) ER).
      { apply (ex_derive_continuous (fun ER => ln (3 / (sqrt ER + (mElectron / 2 + 3 / 4) / (2 * sqrt ER))))). auto_derive. split; [lra|]. split; [lra|]. split; [lra|]. split; [lra|]. split; [|exact Logic.I].
        apply Rdiv_lt_0_compat; lra. }
      apply (continuous_mult (K := R_AbsRing)).
      * apply (ex_derive_continuous (fun ER => 2 * 2 * 1 * (mElectron ^ 2 * ER) / (4 * (mElectron / 2)) / 4)). auto_derive. lra.
      * apply (continuous_mult (K := R_AbsRing)); [apply continuous_const|]. apply (continuous_plus (V := R_NormedModule)); [exact C|]. apply (continuous_comp _ Rabs); [exact C|apply continuous_Rabs].
  - unfold Kbox, Jbox. destruct (vmig_box 1 ltac:(lra)) as [-> _]. rewrite sqrt_1. assert (L : 0 < ln (3 / (1 + (mElectron / 2 + 3 / 4) / (2 * 1)))).
    { rewrite <- ln_1. apply ln_increasing; [lra|]. apply (Rmult_lt_reg_r (1 + (mElectron / 2 + 3 / 4) / (2 * 1))); [lra|]. rewrite Rmult_1_l. replace (3 / (1 + (mElectron / 2 + 3 / 4) / (2 * 1)) * (1 + (mElectron / 2 + 3 / 4) / (2 * 1))) with 3 by (field; lra). lra. }
    rewrite Rmax_right by lra. apply Rmult_lt_0_compat; auto. replace (2 * 2 * 1 * (mElectron ^ 2 * 1) / (4 * (mElectron / 2)) / 4) with (mElectron / 2) by (field; lra). lra.
Qed.
