(** The density fraction of a particle in the predicted rates (C56). *)
From Coq Require Import Reals ZArith String Lia Lra Bool.
From Coquelicot Require Import Coquelicot.
From Coq Require Import List.
From Verif Require Import Base XrFacts Quadrature Nucleus_Model Nuclear_Model Particle_Model CrossSection_Model Distribution_Model Atom_Model Crystal_Model Rates_Model
  Detector_Model DetectorTypes_Model Scaling_Proofs DetectorWitness_Proofs DetectorBins_Proofs.
Import ListNotations.
Local Open Scope R_scope.

(** A particle with another value of the public member fractional_density (/repo/include/obscura/DM_Particle.hpp:36). *)
Definition with_fraction (f : xr) (s : particle) : particle :=
  mkParticle (kind s) (low_mass s) (mass s) f (use_eta s) (fp s) (fn s) (prefactor s) (fixed s) (fp_relative s) (fn_relative s) (sigma_electron s) (FF_DM s) (mMediator s).
Definition with_dm_fraction (f : xr) (DM : DM_interface) : DM_interface :=
  mkDM (dm_mass DM) f (dm_use_eta DM) (dm_dSigma_dq2_Nucleus DM) (dm_d2Sigma_Ionization DM) (dm_d2Sigma_Crystal DM).
Lemma interface_fraction I2 f p : interface_of I2 (with_fraction f p) = with_dm_fraction f (interface_of I2 p).
Proof. reflexivity. Qed.

(** * Nuclear recoils: proportional *)
Lemma fraction_isotope I DM D c ER t : 0 < c -> dRdER_Isotope I ER (with_dm_fraction (xmul (Fin c) (dm_fraction DM)) DM) D t = times c (dRdER_Isotope I ER DM D t).
Proof.
  intros C. unfold dRdER_Isotope. cbn [with_dm_fraction dm_mass dm_use_eta dm_fraction]. destruct (xlt _ _). { replace 0.0 with 0 by lra. apply times_zero. }
  destruct (_ && _)%bool.
  - change (dm_dSigma_dER (mkDM (dm_mass DM) (Fin c * dm_fraction DM)%xr (dm_use_eta DM) (dm_dSigma_dq2_Nucleus DM) (dm_d2Sigma_Ionization DM) (dm_d2Sigma_Crystal DM))) with (dm_dSigma_dER DM).
    apply times_keep. intros d. apply times_keep. intros e. leaf C.
  - change (dm_dSigma_dER (mkDM (dm_mass DM) (Fin c * dm_fraction DM)%xr (dm_use_eta DM) (dm_dSigma_dq2_Nucleus DM) (dm_d2Sigma_Ionization DM) (dm_d2Sigma_Crystal DM))) with (dm_dSigma_dER DM).
    apply times_keep. intros i. leaf C.
Qed.
Lemma fraction_nuclear X D n d c p : homogeneous_externals X -> 0 < c -> fractional_density p = Fin 1 -> scales (nuclear_virtuals X D n) d c p (with_fraction (Fin c) p).
Proof.
  intros [HI HT] C F.
  assert (EF : interface_of (x_I2 X) (with_fraction (Fin c) p) = with_dm_fraction (xmul (Fin c) (dm_fraction (interface_of (x_I2 X) p))) (interface_of (x_I2 X) p)).
  { rewrite interface_fraction. f_equal. cbn [dm_fraction interface_of]. rewrite F, xmul_fin. f_equal. ring. }
  assert (K : forall E, Nuclear_dRdE X (interface_of (x_I2 X) (with_fraction (Fin c) p)) D (with_n_base d n) E = times c (Nuclear_dRdE X (interface_of (x_I2 X) p) D (with_n_base d n) E)).
  { intros. rewrite EF. apply nuclear_dRdE_times; auto. intros. apply fraction_isotope; auto. }
  split; [exact K|]. split; cbn [v_total v_binned nuclear_virtuals].
  - apply total_base_times; auto.
  - apply binned_base_times; auto.
Qed.

(** * Electron recoils, Migdal scattering, crystals: the fraction plays no role *)
Definition unaffected (V : virtuals) (d : detector) (p p' : particle) : Prop :=
  (forall E, v_dRdE V d p' E = v_dRdE V d p E) /\ v_total V d p' = v_total V d p /\ v_binned V d p' = v_binned V d p.
Lemma fraction_ionization X D s d f p : unaffected (ionization_virtuals X D s) d p (with_fraction f p).
Proof.
  unfold unaffected. cbn [v_dRdE v_total v_binned ionization_virtuals]. rewrite interface_fraction. split; [|split]; reflexivity.
Qed.
Lemma fraction_R_Q I f DM D x l : forall Emax sum, R_Q_loop I Emax (with_dm_fraction f DM) D x sum l = R_Q_loop I Emax DM D x sum l.
Proof.
  induction l as [|e l IH]; intros; cbn [R_Q_loop]; auto. destruct (xlt _ _); auto. assert (K : forall E, dRdEe_Crystal I E (with_dm_fraction f DM) D x = dRdEe_Crystal I E DM D x) by reflexivity. rewrite K. clear K.
  destruct (dRdEe_Crystal I _ DM D x); cbn [bind]; auto.
Qed.
Lemma fraction_R_total I f DM D x l : forall sum, R_total_loop I (with_dm_fraction f DM) D x sum l = R_total_loop I DM D x sum l.
Proof.
  induction l as [|e l IH]; intros; cbn [R_total_loop]; auto. assert (K : forall E, dRdEe_Crystal I E (with_dm_fraction f DM) D x = dRdEe_Crystal I E DM D x) by reflexivity. rewrite K. clear K.
  destruct (dRdEe_Crystal I _ DM D x); cbn [bind]; auto.
Qed.
Lemma fraction_semiconductor X D s d f p : unaffected (semiconductor_virtuals X D s) d p (with_fraction f p).
Proof.
  unfold unaffected. cbn [v_dRdE v_total v_binned semiconductor_virtuals]. rewrite interface_fraction. set (DM := interface_of (x_I2 X) p). set (s0 := with_c_base d s).
  assert (Q : forall Q, R_Q_Crystal (x_Integrate X) Q (with_dm_fraction f DM) D (c_crystal s0) = R_Q_Crystal (x_Integrate X) Q DM D (c_crystal s0)).
  { intros Q. unfold R_Q_Crystal. destruct (to_int _); cbn [bind]; auto. apply fraction_R_Q. }
  assert (T : forall Q, R_total_Crystal (x_Integrate X) Q (with_dm_fraction f DM) D (c_crystal s0) = R_total_Crystal (x_Integrate X) Q DM D (c_crystal s0)).
  { intros q. unfold R_total_Crystal. destruct (to_int _); cbn [bind]; auto. apply fraction_R_total. }
  assert (QB : DM_Signals_Q_Bins X (with_dm_fraction f DM) D s0 = DM_Signals_Q_Bins X DM D s0).
  { unfold DM_Signals_Q_Bins. destruct (read_init _); cbn [bind]; auto. destruct (negb _); auto. destruct (read_init (c_Q_threshold s0)); cbn [bind]; auto.
    apply DetectorBins_Proofs.map_res_ext. intros i _. rewrite Q. reflexivity. }
  assert (B : Semiconductor_Binned X (with_dm_fraction f DM) D s0 = Semiconductor_Binned X DM D s0).
  { unfold Semiconductor_Binned. destruct (b_analysis _); auto. rewrite QB. reflexivity. }
  split; [reflexivity|]. split; [|exact B]. unfold Semiconductor_Total. rewrite B.
  assert (R : Semiconductor_dRdE X (with_dm_fraction f DM) D s0 = Semiconductor_dRdE X DM D s0) by reflexivity. rewrite R.
  destruct (b_analysis _); auto; destruct (_ || _)%bool; auto; destruct (read_init _); cbn [bind]; auto; destruct a; auto; destruct (read_init (c_Q_threshold s0)); cbn [bind]; auto; rewrite T; reflexivity.
Qed.

(** * Half of the dark matter gives the full electron rate *)
Lemma ion1_rate : positive (Ionization_dRdE X1 DM1 D1 ion1 (Fin (1 / 8))).
Proof.
  unfold Ionization_dRdE, weighted. cbn [i_atoms i_fractions ion1 Ionization_start List.length seq]. unfold sum_res. cbn [map_res at_ub nth_error bind]. unfold Ionization_dRdE_atom, sum_res. cbn [electrons atom1 map_res].
  unfold Ionization_dRdE_shell. cbn [i_channel i_base ion1 Ionization_start x_Integrate X1]. fold atom1. rewrite mass1. destruct (shell1_rate (1 / 8)) as [v [Hv ->]]; [lra|]. cbn [bind].
  change (b_flat_efficiency _) with (Fin 1.0). rewrite xmul_fin. cbn [xsum fold_left bind]. rewrite xadd_fin. cbn [bind]. rewrite xmul_fin. cbn [bind xsum fold_left]. rewrite xadd_fin. eexists. split; [|reflexivity]. lra.
Qed.
Lemma fraction_ignored_refuted : exists X DM D s E r, homogeneous (x_Integrate X) /\ dm_fraction DM = Fin 1 /\ Ionization_dRdE X DM D s E = Ok (Fin r) /\ 0 < r /\
  Ionization_dRdE X (with_dm_fraction (Fin (1 / 2)) DM) D s E = Ok (Fin r) /\ Ionization_dRdE X (with_dm_fraction (Fin (1 / 2)) DM) D s E <> times (1 / 2) (Ionization_dRdE X DM D s E).
Proof.
  destruct ion1_rate as (r & R & E). exists X1, DM1, D1, ion1, (Fin (1 / 8)), r. split; [apply reference_homogeneous|]. split; [reflexivity|]. split; auto. split; auto.
  assert (K : Ionization_dRdE X1 (with_dm_fraction (Fin (1 / 2)) DM1) D1 ion1 (Fin (1 / 8)) = Ok (Fin r)) by (rewrite <- E; reflexivity). split; auto.
  rewrite K, E. cbn [times bind]. rewrite xmul_fin. intros H. apply Ok_inj, Fin_inj in H. lra.
Qed.
