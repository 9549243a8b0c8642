(** The two rate formulas: electron targets of library particles, an instance, and speeds below the domain (C55, C71). *)
From Coq Require Import Reals ZArith String Lia Lra Bool.
From Coquelicot Require Import Coquelicot.
From Coq Require Import List.
From Verif Require Import Base XrFacts Analysis Quadrature Astronomy_Model Nucleus_Model Nuclear_Model Particle_Model CrossSection_Model CrossSection_Proofs Distribution_Model Distribution_Proofs Halo_Model Atom_Model Crystal_Model Rates_Model
  Kinematics_Proofs Eta_Proofs Detector_Model DetectorTypes_Model DetectorBins_Proofs DetectorWitness_Proofs Formulas_Proofs FormulasHalo_Proofs.
Import ListNotations.
Local Open Scope R_scope.

Lemma library_inverse_square_ionization I2 p q Ee shell a : dm_d2Sigma_Ionization (interface_of I2 p) q Ee (Fin (1 / 1000)) shell = Ok (Fin a) ->
  inverse_square (fun v => dm_d2Sigma_Ionization (interface_of I2 p) q Ee v shell) ((1 / 1000) ^ 2 * a).
Proof.
  cbn [dm_d2Sigma_Ionization interface_of]. intros H v Hv. apply bind_ok in H as (f & -> & H). cbn [bind].
  destruct (speed_scaling_ionization p q Ee f (1 / 1000) v a) as (b & B & E); auto; [lra|]. rewrite B. do 2 f_equal. rewrite E. field. lra.
Qed.
Lemma library_inverse_square_crystal I2 p q Ee x a : dm_d2Sigma_Crystal (interface_of I2 p) q Ee (Fin (1 / 1000)) x = Ok (Fin a) ->
  inverse_square (fun v => dm_d2Sigma_Crystal (interface_of I2 p) q Ee v x) ((1 / 1000) ^ 2 * a).
Proof.
  cbn [dm_d2Sigma_Crystal interface_of]. intros H v Hv. apply bind_ok in H as (f & -> & H). cbn [bind].
  destruct (speed_scaling_crystal p q Ee f (1 / 1000) v a) as (b & B & E); auto; [lra|]. rewrite B. do 2 f_equal. rewrite E. field. lra.
Qed.

(** * Speeds from 1 to 3, all equally likely, density 1 *)
Definition box (v : R) : R := if Rlt_dec v 1 then 0 else 1 / 2.
Definition box_pdf (v : xr) : res xr := match v with Fin x => Ok (Fin (box x)) | _ => Ok NaN end.
Definition box_halo : Distr_interface := inherited_interface reference_Integrate (Fin 1) box_pdf (Fin 1) (Fin 3).
(** A particle of mass 2 with cross sections 1/v^2, and a nucleus of mass 2. *)
Definition falling (v : xr) : res xr := match v with Fin x => Ok (Fin (1 / x ^ 2)) | _ => Ok NaN end.
Definition DM2 : DM_interface := mkDM (Fin 2) (Fin 1) true (fun _ _ v => falling v) (fun _ _ v _ => falling v) (fun _ _ v _ => falling v).
Definition heavy2 : Isotope := mkIsotope 1 2 (Fin 1) (Fin 0) (Fin 0) (Fin 0) "H2" (Fin 2).

Lemma box_density : speed_density box_pdf box 1 3.
Proof.
  assert (B : forall v, 1 <= v -> box v = 1 / 2) by (intros; unfold box; destruct (Rlt_dec v 1); lra).
  constructor; try lra; auto.
  - intros v Hv. rewrite B; lra.
  - intros v. apply (continuous_ext (fun _ => 1 / 2)); [|apply continuous_const]. intros x. symmetry. apply B. unfold clamp. apply Rmax_l || (unfold Rmin, Rmax; repeat destruct Rle_dec; lra).
  - apply (is_RInt_ext (fun _ => 1 / 2)); [rewrite Rmin_left, Rmax_right by lra; intros; symmetry; apply B; lra|].
    assert (C := is_RInt_const (V := R_NormedModule) 1 3 (1/2)). change (scal (3 - 1) (1/2)) with ((3 - 1) * (1/2)) in C. replace ((3 - 1) * (1 / 2)) with 1 in C by field. exact C.
Qed.
Lemma box_mean_inverse : mean_inverse box_halo box 1 3 1 3.
Proof. apply inherited_mean_inverse; [apply ideal_quadrature_exists|apply box_density|]. intros; reflexivity. Qed.
Lemma falling_square : inverse_square falling 1.
Proof. intros v _. reflexivity. Qed.
Lemma vmin_2 E x : 0 <= x -> E = x * x -> vmin_R E 2 2 = x.
Proof. intros H ->. unfold vmin_R, mu. apply Rsqr_inj; auto; [apply sqrt_pos|]. rewrite Rsqr_sqrt; unfold Rsqr; [field|]. replace (2 * (x * x) / (2 * (2 * 2 / (2 + 2)) ^ 2)) with (x * x) by field. nra. Qed.
(** At recoil energy 4 (minimum speed 2) both formulas give the same positive rate. *)
Lemma box_rates : exists r, 0 < r /\ dRdER_Isotope reference_Integrate (Fin 4) DM2 box_halo heavy2 = Ok (Fin r) /\
  dRdER_Isotope reference_Integrate (Fin 4) (switch_off DM2) box_halo heavy2 = Ok (Fin r) /\ dRdER_Isotope reference_Integrate (Fin 4) DM2 (halo_off box_halo) heavy2 = Ok (Fin r).
Proof.
  destruct (formulas_isotope reference_Integrate DM2 box_halo heavy2 2 2 1 box 1 3 1 3 4 1) as (r & R1 & R2 & R3 & _ & R5); try reflexivity; try lra.
  { apply ideal_quadrature_exists. } { apply box_mean_inverse. } { right. rewrite (vmin_2 4 2) by lra. lra. } { apply falling_square. }
  exists r. repeat split; auto. rewrite (vmin_2 4 2) in R5 by lra. specialize (R5 ltac:(lra)).
  assert (G := is_RInt_const (V := R_NormedModule) 2 3 (1 / 6)). change (scal (3 - 2) (1 / 6)) with ((3 - 2) * (1 / 6)) in G. 
  assert (1 / 6 <= r); [|lra]. replace (1 / 6) with ((3 - 2) * (1 / 6)) by lra. eapply (is_RInt_le _ _ 2 3 _ _ ltac:(lra) G R5). intros v Hv. unfold box. destruct (Rlt_dec v 1); [lra|].
  replace (1 / 2 * (1 / 2 * v * (1 / 2) * (2 * 2 * (1 / v ^ 2)))) with (/ 2 * / v) by (field; lra). assert (/ 3 <= / v) by (apply Rinv_le_contravar; lra). lra.
Qed.

(** * Below the slowest speed of the distribution the eta function ends the program; the integral does not *)
Lemma low_speed_refuted : exists Integrate DM D t E r, ideal_quadrature Integrate /\ mean_inverse D box 1 3 1 3 /\ d_vmin D = Fin 1 /\ inverse_square (fun v => dm_dSigma_dq2_Nucleus DM (Fin 1) t v) 1 /\
  dm_mass DM = Fin 2 /\ imass t = Fin 2 /\ vmin_R E 2 2 = 1 / 2 /\ dRdER_Isotope Integrate (Fin E) DM D t = Exit /\ dRdER_Isotope Integrate (Fin E) DM (halo_off D) t = Ok (Fin r) /\ 0 < r.
Proof.
  assert (V : vmin_R (1 / 4) 2 2 = 1 / 2) by (apply vmin_2; lra).
  assert (I1 : is_RInt (fun v => 1 / 2 * v * box v * (4 * (1 / v ^ 2))) (1 / 2) 1 0).
  { apply (is_RInt_ext (fun _ => 0)). - rewrite Rmin_left, Rmax_right by lra. intros v Hv. unfold box. destruct (Rlt_dec v 1); [req; lra|lra].
    - assert (C := is_RInt_const (V := R_NormedModule) (1 / 2) 1 0). change (scal (1 - 1 / 2) 0) with ((1 - 1 / 2) * 0) in C. rewrite Rmult_0_r in C. exact C. }
  assert (I2 : is_RInt (fun v => 1 / 2 * v * box v * (4 * (1 / v ^ 2))) 1 3 (ln 3 - ln 1)).
  { apply (is_RInt_ext (fun v => / v)). - rewrite Rmin_left, Rmax_right by lra. intros v Hv. unfold box. destruct (Rlt_dec v 1); [lra|req; field; lra].
    - apply (is_RInt_derive ln (fun v => / v)); rewrite Rmin_left, Rmax_right by lra; intros v Hv; [apply is_derive_Reals, derivable_pt_lim_ln; lra|].
      apply (ex_derive_continuous (V := R_NormedModule)). auto_derive. lra. }
  assert (I3 := is_RInt_Chasles _ _ _ _ _ _ I1 I2). change (plus 0 (ln 3 - ln 1)) with (0 + (ln 3 - ln 1)) in I3. rewrite ln_1 in I3.
  exists reference_Integrate, DM2, box_halo, heavy2, (1 / 4), (1 / 2 * (0 + (ln 3 - 0))).
  split; [apply ideal_quadrature_exists|]. split; [apply box_mean_inverse|]. split; [reflexivity|]. split; [apply falling_square|]. split; [reflexivity|]. split; [reflexivity|]. split; [exact V|].
  unfold dRdER_Isotope. cbn [DM2 box_halo inherited_interface halo_off heavy2 dm_mass imass d_vmax dm_use_eta d_use_eta andb d_eta]. rewrite vMinimal_fin, V by lra. rewrite xlt_false by lra. split.
  - unfold Eta_Function_Base. rewrite xlt_true by lra. unfold dm_dSigma_dER. cbn [dm_dSigma_dq2_Nucleus falling bind]. reflexivity.
  - assert (P : 0 < ln 3) by (rewrite <- ln_1; apply ln_increasing; lra). split; [|lra].
    match goal with |- context [reference_Integrate ?F _ _] => rewrite (ideal_quadrature_exists F (fun v => 1 / 2 * v * box v * (4 * (1 / v ^ 2)))) end.
    + rewrite (is_RInt_unique _ _ _ _ I3). cbn [bind dm_fraction DM2 heavy2 imass]. rewrite xdiv_fin, xmul_fin by lra. reflexivity.
    + rewrite Rmin_left, Rmax_right by lra. intros v Hv. unfold flux, Differential_DM_Flux. cbn [d_rho d_pdf_speed box_pdf bind]. unfold dm_dSigma_dER. cbn [DM2 dm_dSigma_dq2_Nucleus falling bind imass heavy2].
      cbn [halo_off box_halo inherited_interface d_pdf_speed d_rho box_pdf bind]. rewrite xdiv_fin by lra. rewrite !xmul_fin. cbn [bind]. rewrite ?xmul_fin. do 2 f_equal.
    + eexists; exact I3.
Qed.

(** * Instances for electrons: the shell of binding energy 3/4, and a crystal with one momentum, both at energy 1 *)
Definition crystal2 : Crystal := mkCrystal (mkTable2 [] [] []) 1 1 "test" (Fin 1) (Fin 1) (Fin 1) (Fin 1) (Fin 1) (Fin (1 / 2)) (Fin 1) 1.
Lemma shell_instance : (exists q, sampled DM2 box_halo shell1 q) /\ forall q, sampled DM2 box_halo shell1 q -> (3 / 4 + 1) / q + q / (2 * 2) < 3 -> 1 <= (3 / 4 + 1) / q + q / (2 * 2) <= 3.
Proof.
  assert (RS : real_setting DM2 box_halo 2 3) by (repeat split; lra).
  assert (S : 5 <= sqrt 33 < 6). { split; [apply Rsqr_incr_0_var; [|apply sqrt_pos]|apply Rsqr_incrst_0; [|apply sqrt_pos|lra]]; rewrite Rsqr_sqrt by lra; unfold Rsqr; lra. }
  split.
  - assert (W : ER_window DM2 box_halo shell1 = Some (Fin (6 - sqrt 33), Fin 2)).
    { unfold ER_window. cbn [d_vmax box_halo inherited_interface dm_mass DM2 binding_energy shell1 q_max]. rewrite !xdiv_fin, !xmul_fin by lra. rewrite xlt_false by lra. rewrite xsub_fin, xsqrt_fin by lra.
      replace (2 * 2 * 3 * 3 - 2.0 * 2 * (3 / 4)) with 33 by lra. rewrite xsub_fin, xadd_fin. rewrite xlt_false by lra. rewrite xlt_true by lra. reflexivity. }
    destruct (Log_Space (Fin (6 - sqrt 33)) (Fin 2) 100) as [|y l] eqn:L.
    + assert (E := f_equal (@List.length xr) L). unfold Log_Space in E. rewrite map_length, seq_length in E. discriminate.
    + assert (Iy : In y (Log_Space (Fin (6 - sqrt 33)) (Fin 2) 100)) by (rewrite L; left; auto). destruct (log_space_between (6 - sqrt 33) 2 100 y) as (x & -> & _); [lra|lra|lia|exact Iy|]. exists x, (Fin (6 - sqrt 33)), (Fin 2). auto.
  - intros q (a & b & W & I) L. split; [|lra]. destruct (window_positive DM2 box_halo 2 3 shell1 (3 / 4) a b 2 RS eq_refl ltac:(lra) eq_refl W) as (x & y & -> & -> & X & XY & _).
    destruct (log_space_between x y 100 (Fin q) X XY ltac:(lia) I) as (z & E & Z). apply Fin_inj in E. subst z. assert (Q : 0 < q) by lra.
    apply (Rmult_le_reg_r q); auto. replace (((3 / 4 + 1) / q + q / (2 * 2)) * q) with (7 / 4 + q * q / 4) by (field; lra). assert (0 <= (q - 2) * (q - 2)) by apply Rle_0_sqr. nra.
Qed.
