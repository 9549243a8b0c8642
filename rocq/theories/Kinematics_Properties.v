(** Properties of the kinematics (C30, C31). *)
From Coq Require Import Reals ZArith String Lia Lra Psatz.
From Coquelicot Require Import Coquelicot.
From Coq Require Import List.
From Verif Require Import Base XrFacts Quadrature Nucleus_Model Particle_Model CrossSection_Model Distribution_Model Atom_Model Crystal_Model Rates_Model Atom_Proofs Kinematics_Proofs.
Import ListNotations.
Local Open Scope R_scope.

(** C30: minimal speed and maximal recoil energy are inverse to each other ... *)
Theorem C30_speed_round_trip : forall v m M, 0 <= v -> 0 < m -> 0 < M ->
  vMinimal_Nucleus (Maximum_Nuclear_Recoil_Energy (Fin v) (Fin m) (Fin M)) (Fin m) (Fin M) = Fin v.
Proof. exact round_trip_speed. Qed.
Print Assumptions C30_speed_round_trip.

Theorem C30_energy_round_trip : forall E m M, 0 <= E -> 0 < m -> 0 < M ->
  Maximum_Nuclear_Recoil_Energy (vMinimal_Nucleus (Fin E) (Fin m) (Fin M)) (Fin m) (Fin M) = Fin E.
Proof. exact round_trip_energy. Qed.
Print Assumptions C30_energy_round_trip.

(** ... strictly increasing ... *)
Theorem C30_speed_increasing : forall E1 E2 m M, 0 <= E1 -> E1 < E2 -> 0 < m -> 0 < M ->
  xlt (vMinimal_Nucleus (Fin E1) (Fin m) (Fin M)) (vMinimal_Nucleus (Fin E2) (Fin m) (Fin M)) = true.
Proof. exact speed_strictly_increasing. Qed.
Print Assumptions C30_speed_increasing.

Theorem C30_energy_increasing : forall v1 v2 m M, 0 <= v1 -> v1 < v2 -> 0 < m -> 0 < M ->
  xlt (Maximum_Nuclear_Recoil_Energy (Fin v1) (Fin m) (Fin M)) (Maximum_Nuclear_Recoil_Energy (Fin v2) (Fin m) (Fin M)) = true.
Proof. exact energy_strictly_increasing. Qed.
Print Assumptions C30_energy_increasing.

(** ... so that E is possible at speed v exactly when vMin(E) <= v ... *)
Theorem C30_possible_recoils : forall E v m M, 0 <= E -> 0 <= v -> 0 < m -> 0 < M ->
  xle (vMinimal_Nucleus (Fin E) (Fin m) (Fin M)) (Fin v) = xle (Fin E) (Maximum_Nuclear_Recoil_Energy (Fin v) (Fin m) (Fin M)).
Proof. exact galois. Qed.
Print Assumptions C30_possible_recoils.

(** ... and the recoil spectrum of any particle in any halo vanishes above the largest recoil of the fastest particle. *)
Theorem C30_spectrum_cut : forall Integrate E DM D t m M v, 0 <= E -> 0 <= v -> 0 < m -> 0 < M ->
  dm_mass DM = Fin m -> imass t = Fin M -> d_vmax D = Fin v ->
  xlt (Maximum_Nuclear_Recoil_Energy (Fin v) (Fin m) (Fin M)) (Fin E) = true -> dRdER_Isotope Integrate (Fin E) DM D t = Ok (Fin 0).
Proof. exact recoil_cut. Qed.
Print Assumptions C30_spectrum_cut.

(** Instance: 10 GeV on a 10 GeV target at v = 1/1000: mu = 5, E = 5e-6, and back. *)
Example C30_instance : Maximum_Nuclear_Recoil_Energy (Fin (1 / 1000)) (Fin 10) (Fin 10) = Fin (5 / 1000000) /\
  vMinimal_Nucleus (Fin (5 / 1000000)) (Fin 10) (Fin 10) = Fin (1 / 1000).
Proof.
  assert (H : Maximum_Nuclear_Recoil_Energy (Fin (1 / 1000)) (Fin 10) (Fin 10) = Fin (5 / 1000000)).
  { rewrite Emax_fin by lra. unfold Emax_R, mu. f_equal. field. }
  split; [exact H|]. rewrite <- H. apply round_trip_speed; lra.
Qed.

(** C31: every momentum transfer below the table's end that some particle of the halo can realise lies in the window that is summed. *)
Theorem C31_electron_window : forall DM D m v shell Eb qcut q Ee, real_setting DM D m v -> binding_energy shell = Fin Eb -> q_max shell = Fin qcut ->
  0 <= Eb -> 0 <= Ee -> 0 < q -> q <= qcut -> xlt (vMinimal_Electrons (Fin q) (xadd (Fin Eb) (Fin Ee)) (Fin m)) (Fin v) = true ->
  exists a b, ER_window DM D shell = Some (Fin a, Fin b) /\ a <= q <= b.
Proof. exact electron_window. Qed.
Print Assumptions C31_electron_window.

(** Every recoil energy at which the Migdal effect is possible lies in the window that is integrated ... *)
Theorem C31_migdal_window : forall DM D m v t M shell Eb ER Ee, real_setting DM D m v -> imass t = Fin M -> 0 < M -> binding_energy shell = Fin Eb ->
  0 <= Eb -> 0 <= Ee -> 0 < ER -> xlt (vMinimal_Migdal (Fin ER) (Fin Ee) (Fin m) (Fin M) (Fin Eb)) (Fin v) = true ->
  exists a b, Migdal_window DM D t shell = (Fin a, Fin b) /\ a <= ER <= b.
Proof. exact migdal_window_complete. Qed.
Print Assumptions C31_migdal_window.

(** ... so integrating over any larger window [a, b] would give the same rate. *)
Theorem C31_migdal_rate : forall Integrate I2 Ee DM D m v t M shell Eb g a b, ideal_quadrature Integrate ->
  real_setting DM D m v -> imass t = Fin M -> 0 < M -> binding_energy shell = Fin Eb -> 0 <= Eb -> 0 <= Ee ->
  (Eb / v) ^ 2 / (2 * M) <= (2 * mu m M * v) ^ 2 / (2 * M) ->
  0 < a -> a <= (Eb / v) ^ 2 / (2 * M) -> (2 * mu m M * v) ^ 2 / (2 * M) <= b ->
  (forall ER, a <= ER <= b -> Migdal_integrand Integrate I2 (Fin Ee) DM D t shell (Fin ER) = Ok (Fin (g ER))) ->
  ex_RInt g a b ->
  dRdEe_Migdal_isotope Integrate I2 (Fin Ee) DM D t shell = Ok (Fin (1 / M * RInt g a b)).
Proof. exact migdal_rate_window. Qed.
Print Assumptions C31_migdal_rate.

(** Instances: 100 MeV in a halo with vMax = 1/400 on the outermost shell of xenon; q = 10 keV is possible and in the window. *)
Example C31_instance : exists s, binding_energy s = Fin (12.4433 * eV) /\ q_max s = Fin (1000 * keV) /\ real_setting idle_DM toy_D 0.1 (1 / 400) /\
  xlt (vMinimal_Electrons (Fin (10 * keV)) (xadd (Fin (12.4433 * eV)) (Fin eV)) (Fin 0.1)) (Fin (1 / 400)) = true /\
  (exists a b, ER_window idle_DM toy_D s = Some (Fin a, Fin b) /\ a <= 10 * keV <= b).
Proof.
  destruct (shell_ctor_ok IT0 "Xe"%string 5 1 (Fin (12.4433 * eV)) (Fin (0.1 * keV)) (Fin (500 * keV)) (Fin (1 * keV)) (Fin (1000 * keV)) 0 IT0_readable ltac:(lia))
    as [s [_ [_ [_ [_ [S5 [_ [_ [S8 _]]]]]]]]].
  assert (R : real_setting idle_DM toy_D 0.1 (1 / 400)) by (unfold real_setting, idle_DM, toy_D; cbn; repeat split; lra).
  assert (V : xlt (vMinimal_Electrons (Fin (10 * keV)) (xadd (Fin (12.4433 * eV)) (Fin eV)) (Fin 0.1)) (Fin (1 / 400)) = true).
  { rewrite xadd_fin, vMinimal_Electrons_fin by (unfold keV; lra). apply xlt_true. unfold eV, keV. lra. }
  exists s. split; [exact S8|]. split; [exact S5|]. split; [exact R|]. split; [exact V|].
  apply (electron_window idle_DM toy_D 0.1 (1 / 400) s (12.4433 * eV) (1000 * keV) (10 * keV) eV); auto; unfold eV, keV; lra.
Qed.

(** Migdal: the same shell with an isotope of mass 100 and vMax = 1/400; recoil energies near 1 keV are possible and the integrand of the idle particle is 0. *)
Example C31_migdal_instance : exists s t, binding_energy s = Fin (12.4433 * eV) /\ imass t = Fin 100 /\ real_setting idle_DM toy_D 0.1 (1 / 400) /\
  (12.4433 * eV / (1 / 400)) ^ 2 / (2 * 100) <= (2 * mu 0.1 100 * (1 / 400)) ^ 2 / (2 * 100) /\
  dRdEe_Migdal_isotope reference_Integrate (fun _ _ _ => Ok (Fin 1)) (Fin eV) idle_DM toy_D t s = Ok (Fin (1 / 100 * RInt (fun _ => 0) (1 / 10 ^ 18) 1)).
Proof.
  destruct (shell_ctor_ok IT0 "Xe"%string 5 1 (Fin (12.4433 * eV)) (Fin (0.1 * keV)) (Fin (500 * keV)) (Fin (1 * keV)) (Fin (1000 * keV)) 0 IT0_readable ltac:(lia))
    as [s [_ [S2 [S3 [S4 [S5 [_ [_ [S8 [_ [_ S11]]]]]]]]]]].
  assert (HS : real_shell s (0.1 * keV) (500 * keV) (1 * keV) (1000 * keV)).
  { unfold real_shell. rewrite S2, S3, S4, S5, S11. unfold keV. repeat split; lra. }
  assert (R : real_setting idle_DM toy_D 0.1 (1 / 400)) by (unfold real_setting, idle_DM, toy_D; cbn; repeat split; lra).
  set (t := mkIsotope 54 107 (Fin 1) (Fin 0) (Fin 0) (Fin 0) "Xe"%string (Fin 100)). exists s, t. split; [exact S8|]. split; [reflexivity|]. split; [exact R|].
  assert (O : (12.4433 * eV / (1 / 400)) ^ 2 / (2 * 100) <= (2 * mu 0.1 100 * (1 / 400)) ^ 2 / (2 * 100)).
  { unfold mu, eV. lra. }
  split; [exact O|].
  apply (migdal_rate_window reference_Integrate _ eV idle_DM toy_D 0.1 (1 / 400) t 100 s (12.4433 * eV)); auto.
  - exact ideal_quadrature_exists.
  - lra.
  - unfold eV; lra.
  - unfold eV; lra.
  - lra.
  - unfold eV. lra.
  - unfold mu. lra.
  - intros ER HE. unfold Migdal_integrand. rewrite xlt_true by lra. cbn [dm_mass d_vmax idle_DM toy_D dm_use_eta d_use_eta andb imass t]. rewrite S8.
    rewrite vMinimal_Migdal_fin by lra. destruct (xle (Fin (1 / 400)) (Fin (vmig_R ER eV 0.1 100 (12.4433 * eV)))); [f_equal; f_equal; lra|].
    cbn [d_eta d_rho toy_D bind]. unfold dm_d2Sigma_Migdal. cbn [imass t]. rewrite (xmul_fin 2 100), (xmul_fin (2 * 100) ER). rewrite xsqrt_fin by lra. rewrite (xdiv_fin mElectron 100), xmul_fin by lra.
    set (qe := mElectron / 100 * sqrt (2 * 100 * ER)). unfold dm_dSigma_dER. cbn [dm_dSigma_dq2_Nucleus idle_DM bind imass t]. unfold ionization_value, Ionization_Form_Factor.
    assert (E0 : 0 <= eV) by (unfold eV; lra). destruct (oob_spec s _ _ _ _ qe eV HS E0) as [K1 _].
    unfold Atomic_Response_Function. rewrite K1. destruct (response_out_of_bounds s (Fin qe) (Fin (k_of eV))); cbn [bind fst].
    + rewrite !xmul_fin, !xdiv_fin by (unfold eV; lra). rewrite ?xmul_fin, ?xdiv_fin by lra. rewrite ?xmul_fin. f_equal. f_equal. rewrite ?Rmult_0_r, ?Rmult_0_l, ?Rmult_0_r, ?Rmult_0_l. lra.
    + change (1 =? 1)%Z with true. cbn iota. destruct (atomic_response_interpolations s) as [|t0 tl]; [discriminate|]. cbn [at_ub nth_error bind].
      destruct (xlt (q_min s) (Fin qe)); cbn [bind fst].
      * rewrite !xmul_fin, !xdiv_fin by (unfold eV; lra). rewrite ?xmul_fin, ?xdiv_fin by lra. rewrite ?xmul_fin. f_equal. f_equal. rewrite ?Rmult_0_r, ?Rmult_0_l, ?Rmult_0_r, ?Rmult_0_l. lra.
      * rewrite S4, !xmul_fin, !xdiv_fin by (unfold eV, keV; lra). rewrite ?xmul_fin, ?xdiv_fin by lra. rewrite ?xmul_fin. f_equal. f_equal. rewrite ?Rmult_0_r, ?Rmult_0_l, ?Rmult_0_r, ?Rmult_0_l. lra.
  - apply ex_RInt_const.
Qed.
