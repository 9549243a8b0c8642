(** Lemmas about recoil kinematics and kinematic windows. *)
From Coq Require Import Reals ZArith Lia Lra Psatz.
From Coquelicot Require Import Coquelicot.
From Coq Require Import List.
From Verif Require Import Base XrFacts Quadrature Nucleus_Model Particle_Model CrossSection_Model Distribution_Model Atom_Model Crystal_Model Rates_Model Atom_Proofs.
Import ListNotations.
Local Open Scope R_scope.

(** Reduced mass of two positive masses. *)
Definition mu (m M : R) : R := m * M / (m + M).
Lemma mu_pos m M : 0 < m -> 0 < M -> 0 < mu m M.
Proof. intros. unfold mu. apply Rdiv_lt_0_compat; nra. Qed.
Lemma Reduced_Mass_fin m M : 0 < m -> 0 < M -> Reduced_Mass (Fin m) (Fin M) = Fin (mu m M).
Proof. intros. unfold Reduced_Mass, mu. rewrite xmul_fin, xadd_fin, xdiv_fin by lra. reflexivity. Qed.

Definition vmin_R (E m M : R) : R := sqrt (M * E / (2 * (mu m M) ^ 2)).
Definition Emax_R (v m M : R) : R := 2 * v ^ 2 * (mu m M) ^ 2 / M.

Lemma vMinimal_fin E m M : 0 <= E -> 0 < m -> 0 < M -> vMinimal_Nucleus (Fin E) (Fin m) (Fin M) = Fin (vmin_R E m M).
Proof.
  intros HE Hm HM. assert (h := mu_pos m M Hm HM). unfold vMinimal_Nucleus. rewrite Reduced_Mass_fin, xpow_fin, xmul_fin by auto.
  assert (0 < (mu m M) ^ 2) by (apply pow_lt; auto). rewrite !xdiv_fin by lra. rewrite xsqrt_fin.
  - unfold vmin_R. do 2 f_equal. field. lra.
  - apply Rmult_le_pos; [apply Rmult_le_pos; [nra|lra]|]. left. apply Rinv_0_lt_compat. auto.
Qed.
Lemma Emax_fin v m M : 0 < m -> 0 < M -> Maximum_Nuclear_Recoil_Energy (Fin v) (Fin m) (Fin M) = Fin (Emax_R v m M).
Proof.
  intros Hm HM. unfold Maximum_Nuclear_Recoil_Energy. rewrite Reduced_Mass_fin, xpow_fin, !xmul_fin, xdiv_fin by lra. unfold Emax_R. f_equal. field. lra.
Qed.

(** Recoil energies and speeds are in bijection. *)
Lemma vmin_Emax v m M : 0 <= v -> 0 < m -> 0 < M -> vmin_R (Emax_R v m M) m M = v.
Proof.
  intros Hv Hm HM. assert (h := mu_pos m M Hm HM). unfold vmin_R, Emax_R.
  replace (M * (2 * v ^ 2 * mu m M ^ 2 / M) / (2 * mu m M ^ 2)) with (v ^ 2) by (field; lra). apply sqrt_pow2. auto.
Qed.
Lemma Emax_vmin E m M : 0 <= E -> 0 < m -> 0 < M -> Emax_R (vmin_R E m M) m M = E.
Proof.
  intros HE Hm HM. assert (h := mu_pos m M Hm HM). unfold vmin_R, Emax_R. rewrite pow2_sqrt; [field; lra|].
  apply Rmult_le_pos; [nra|]. left. apply Rinv_0_lt_compat. assert (0 < mu m M ^ 2) by (apply pow_lt; auto). lra.
Qed.
Lemma vmin_increasing E1 E2 m M : 0 <= E1 -> E1 < E2 -> 0 < m -> 0 < M -> vmin_R E1 m M < vmin_R E2 m M.
Proof.
  intros H1 H2 Hm HM. assert (h := mu_pos m M Hm HM). assert (0 < mu m M ^ 2) by (apply pow_lt; auto). unfold vmin_R. apply sqrt_lt_1_alt. split.
  - apply Rmult_le_pos; [nra|]. left. apply Rinv_0_lt_compat. lra.
  - apply Rmult_lt_compat_r; [apply Rinv_0_lt_compat; lra|nra].
Qed.
Lemma Emax_increasing v1 v2 m M : 0 <= v1 -> v1 < v2 -> 0 < m -> 0 < M -> Emax_R v1 m M < Emax_R v2 m M.
Proof.
  intros H1 H2 Hm HM. assert (h := mu_pos m M Hm HM). assert (0 < mu m M ^ 2) by (apply pow_lt; auto). unfold Emax_R.
  apply Rmult_lt_compat_r; [apply Rinv_0_lt_compat; lra|]. apply Rmult_lt_compat_r; [auto|]. nra.
Qed.

Lemma round_trip_speed v m M : 0 <= v -> 0 < m -> 0 < M ->
  vMinimal_Nucleus (Maximum_Nuclear_Recoil_Energy (Fin v) (Fin m) (Fin M)) (Fin m) (Fin M) = Fin v.
Proof.
  intros Hv Hm HM. rewrite Emax_fin by auto. rewrite vMinimal_fin; auto.
  - f_equal. apply vmin_Emax; auto.
  - unfold Emax_R. apply Rmult_le_pos; [|left; apply Rinv_0_lt_compat; auto]. apply Rmult_le_pos; [|apply pow2_ge_0]. assert (h := pow2_ge_0 v). lra.
Qed.
Lemma round_trip_energy E m M : 0 <= E -> 0 < m -> 0 < M ->
  Maximum_Nuclear_Recoil_Energy (vMinimal_Nucleus (Fin E) (Fin m) (Fin M)) (Fin m) (Fin M) = Fin E.
Proof. intros HE Hm HM. rewrite vMinimal_fin, Emax_fin by auto. f_equal. apply Emax_vmin; auto. Qed.
Lemma speed_strictly_increasing E1 E2 m M : 0 <= E1 -> E1 < E2 -> 0 < m -> 0 < M ->
  xlt (vMinimal_Nucleus (Fin E1) (Fin m) (Fin M)) (vMinimal_Nucleus (Fin E2) (Fin m) (Fin M)) = true.
Proof. intros. rewrite !vMinimal_fin by lra. apply xlt_true. apply vmin_increasing; auto. Qed.
Lemma energy_strictly_increasing v1 v2 m M : 0 <= v1 -> v1 < v2 -> 0 < m -> 0 < M ->
  xlt (Maximum_Nuclear_Recoil_Energy (Fin v1) (Fin m) (Fin M)) (Maximum_Nuclear_Recoil_Energy (Fin v2) (Fin m) (Fin M)) = true.
Proof. intros. rewrite !Emax_fin by lra. apply xlt_true. apply Emax_increasing; auto. Qed.
Lemma galois E v m M : 0 <= E -> 0 <= v -> 0 < m -> 0 < M ->
  xle (vMinimal_Nucleus (Fin E) (Fin m) (Fin M)) (Fin v) = xle (Fin E) (Maximum_Nuclear_Recoil_Energy (Fin v) (Fin m) (Fin M)).
Proof.
  intros HE Hv Hm HM. rewrite vMinimal_fin, Emax_fin by auto.
  destruct (Rle_lt_dec E (Emax_R v m M)) as [L | L].
  - rewrite (xle_true E) by auto. apply xle_true. destruct (Rle_lt_or_eq_dec _ _ L) as [L1 | L1].
    + left. rewrite <- (vmin_Emax v m M) at 1 by auto. apply vmin_increasing; auto.
    + rewrite L1. rewrite vmin_Emax by auto. lra.
  - rewrite (xle_false E) by auto. apply xle_false. rewrite <- (vmin_Emax v m M) at 1 by auto. apply vmin_increasing; auto.
    unfold Emax_R. apply Rmult_le_pos; [|left; apply Rinv_0_lt_compat; auto]. apply Rmult_le_pos; [|apply pow2_ge_0]. assert (h := pow2_ge_0 v). lra.
Qed.

(** The recoil spectrum of any particle in any halo is zero beyond the largest possible recoil. *)
Lemma recoil_cut Integrate E DM D t m M v : 0 <= E -> 0 <= v -> 0 < m -> 0 < M -> dm_mass DM = Fin m -> imass t = Fin M -> d_vmax D = Fin v ->
  xlt (Maximum_Nuclear_Recoil_Energy (Fin v) (Fin m) (Fin M)) (Fin E) = true -> dRdER_Isotope Integrate (Fin E) DM D t = Ok (Fin 0).
Proof.
  intros HE Hv Hm HM E1 E2 E3 H. unfold dRdER_Isotope. rewrite E1, E2, E3.
  assert (G := galois E v m M HE Hv Hm HM). rewrite Emax_fin in G, H by auto. apply xlt_spec in H. rewrite (xle_false E) in G by auto.
  rewrite vMinimal_fin in * by auto.
  assert (v < vmin_R E m M) by (destruct (Rlt_le_dec v (vmin_R E m M)) as [L|L]; auto; rewrite xle_true in G by auto; discriminate).
  rewrite xlt_true by auto. f_equal. f_equal. lra.
Qed.

(** Electron recoils. *)
Lemma vMinimal_Electrons_fin q dE0 m : 0 < q -> 0 < m -> vMinimal_Electrons (Fin q) (Fin dE0) (Fin m) = Fin (dE0 / q + q / (2 * m)).
Proof. intros. unfold vMinimal_Electrons. rewrite !xdiv_fin, xadd_fin by lra. do 2 f_equal. field. lra. Qed.

Definition real_setting (DM : DM_interface) (D : Distr_interface) (m v : R) : Prop := dm_mass DM = Fin m /\ d_vmax D = Fin v /\ 0 < m /\ 0 < v.

Lemma electron_window DM D m v shell Eb qcut q Ee : real_setting DM D m v -> binding_energy shell = Fin Eb -> q_max shell = Fin qcut ->
  0 <= Eb -> 0 <= Ee -> 0 < q -> q <= qcut -> xlt (vMinimal_Electrons (Fin q) (xadd (Fin Eb) (Fin Ee)) (Fin m)) (Fin v) = true ->
  exists a b, ER_window DM D shell = Some (Fin a, Fin b) /\ a <= q <= b.
Proof.
  intros [E1 [E2 [Hm Hv]]] E3 E4 HEb HEe Hq Hc H. rewrite xadd_fin, vMinimal_Electrons_fin in H by auto. apply xlt_spec in H.
  assert (K : (q - m * v) ^ 2 < m * m * v * v - 2 * m * Eb).
  { assert (Eb / q + q / (2 * m) < v).
    { eapply Rle_lt_trans; [|exact H]. apply Rplus_le_compat_r. apply Rmult_le_compat_r; [left; apply Rinv_0_lt_compat; auto|lra]. }
    assert (X : (Eb / q + q / (2 * m)) * (2 * m * q) < v * (2 * m * q)) by (apply Rmult_lt_compat_r; nra).
    replace ((Eb / q + q / (2 * m)) * (2 * m * q)) with (2 * m * Eb + q * q) in X by (field; lra). nra. }
  assert (P : 0 < m * m * v * v - 2 * m * Eb) by (assert (h := pow2_ge_0 (q - m * v)); lra).
  set (r := sqrt (m * m * v * v - 2 * m * Eb)).
  assert (R1 : Rabs (q - m * v) < r).
  { unfold r. rewrite <- sqrt_Rsqr_abs. apply sqrt_lt_1_alt. split; [apply Rle_0_sqr|]. unfold Rsqr. nra. }
  apply Rabs_def2 in R1.
  unfold ER_window. rewrite E1, E2, E3, E4. rewrite xdiv_fin, !xmul_fin by lra. rewrite xlt_false by nra.
  rewrite xsub_fin. replace (2.0 * m * Eb) with (2 * m * Eb) by lra. rewrite xsqrt_fin by lra. fold r. rewrite xsub_fin, xadd_fin.
  rewrite xlt_false by lra.
  destruct (Rlt_dec qcut (m * v + r)) as [L | L].
  - rewrite xlt_true by auto. do 2 eexists. split; [reflexivity|]. lra.
  - rewrite xlt_false by lra. do 2 eexists. split; [reflexivity|]. lra.
Qed.

(** Migdal scattering. *)
Definition vmig_R (ER Ee m M Eb : R) : R := sqrt (M * ER / (2 * mu m M ^ 2)) + (Ee + Eb) / sqrt (2 * M * ER).
Lemma vMinimal_Migdal_fin ER Ee m M Eb : 0 < ER -> 0 < m -> 0 < M -> vMinimal_Migdal (Fin ER) (Fin Ee) (Fin m) (Fin M) (Fin Eb) = Fin (vmig_R ER Ee m M Eb).
Proof.
  intros HE Hm HM. assert (h := mu_pos m M Hm HM). unfold vMinimal_Migdal. replace 2.0 with 2 by lra. rewrite Reduced_Mass_fin, !xmul_fin, !xdiv_fin by (auto; lra).
  assert (0 < 2 * M * ER) by nra. rewrite (xsqrt_fin (2 * M * ER)) by lra. assert (0 < sqrt (2 * M * ER)) by (apply sqrt_lt_R0; auto).
  rewrite xadd_fin, xdiv_fin by lra. rewrite xsqrt_fin.
  - rewrite xadd_fin. unfold vmig_R. do 3 f_equal. field. lra.
  - apply Rmult_le_pos; [apply Rmult_le_pos; [nra|]|]; left; apply Rinv_0_lt_compat; auto.
Qed.

Lemma migdal_window_fin DM D m v t M shell Eb : real_setting DM D m v -> imass t = Fin M -> 0 < M -> binding_energy shell = Fin Eb ->
  Migdal_window DM D t shell = (Fin ((Eb / v) ^ 2 / (2 * M)), Fin ((2 * mu m M * v) ^ 2 / (2 * M))).
Proof.
  intros [E1 [E2 [Hm Hv]]] E3 HM E4. unfold Migdal_window. replace 2.0 with 2 by lra. rewrite E1, E2, E3, E4, Reduced_Mass_fin by auto. rewrite !xmul_fin, !xdiv_fin by lra.
  rewrite xmul_fin, !xdiv_fin by lra. f_equal; f_equal; field; lra.
Qed.

Lemma migdal_allowed m v M Eb Ee ER : 0 < m -> 0 < v -> 0 < M -> 0 <= Eb -> 0 <= Ee -> 0 < ER -> vmig_R ER Ee m M Eb < v ->
  (Eb / v) ^ 2 / (2 * M) <= ER <= (2 * mu m M * v) ^ 2 / (2 * M).
Proof.
  intros Hm Hv HM HEb HEe HER H. assert (h := mu_pos m M Hm HM). unfold vmig_R in H.
  assert (S1 : 0 <= sqrt (M * ER / (2 * mu m M ^ 2))) by apply sqrt_pos.
  assert (P : 0 < 2 * M * ER) by nra. assert (S2 : 0 < sqrt (2 * M * ER)) by (apply sqrt_lt_R0; auto).
  assert (S3 : 0 <= (Ee + Eb) / sqrt (2 * M * ER)) by (apply Rmult_le_pos; [lra|left; apply Rinv_0_lt_compat; auto]).
  assert (Q1 : (sqrt (M * ER / (2 * mu m M ^ 2))) ^ 2 <= v ^ 2) by (apply pow_incr; lra).
  assert (Q2 : Eb / v <= sqrt (2 * M * ER)).
  { apply (Rmult_le_reg_r (v / sqrt (2 * M * ER))); [apply Rdiv_lt_0_compat; auto|].
    replace (Eb / v * (v / sqrt (2 * M * ER))) with (Eb / sqrt (2 * M * ER)) by (field; lra).
    replace (sqrt (2 * M * ER) * (v / sqrt (2 * M * ER))) with v by (field; lra).
    apply Rle_trans with ((Ee + Eb) / sqrt (2 * M * ER)); [|lra]. apply Rmult_le_compat_r; [left; apply Rinv_0_lt_compat; auto|lra]. }
  assert (mu2 : 0 < mu m M ^ 2) by (apply pow_lt; auto).
  rewrite pow2_sqrt in Q1.
  2: { apply Rmult_le_pos; [nra|left; apply Rinv_0_lt_compat; lra]. }
  assert (Q3 : 0 <= Eb / v) by (apply Rmult_le_pos; [auto|left; apply Rinv_0_lt_compat; auto]).
  assert (Q4 : (Eb / v) ^ 2 <= 2 * M * ER). { rewrite <- (pow2_sqrt (2 * M * ER)) by lra. apply pow_incr; lra. }
  split.
  - apply (Rmult_le_reg_r (2 * M)); [lra|]. replace ((Eb / v) ^ 2 / (2 * M) * (2 * M)) with ((Eb / v) ^ 2) by (field; lra). lra.
  - apply (Rmult_le_reg_r (M / (2 * mu m M ^ 2))); [apply Rdiv_lt_0_compat; lra|].
    replace ((2 * mu m M * v) ^ 2 / (2 * M) * (M / (2 * mu m M ^ 2))) with (v ^ 2) by (field; lra).
    replace (ER * (M / (2 * mu m M ^ 2))) with (M * ER / (2 * mu m M ^ 2)) by (field; lra). exact Q1.
Qed.

Lemma migdal_window_complete DM D m v t M shell Eb ER Ee : real_setting DM D m v -> imass t = Fin M -> 0 < M -> binding_energy shell = Fin Eb ->
  0 <= Eb -> 0 <= Ee -> 0 < ER -> xlt (vMinimal_Migdal (Fin ER) (Fin Ee) (Fin m) (Fin M) (Fin Eb)) (Fin v) = true ->
  exists a b, Migdal_window DM D t shell = (Fin a, Fin b) /\ a <= ER <= b.
Proof.
  intros S E3 HM E4 HEb HEe HER H. destruct S as [E1 [E2 [Hm Hv]]].
  exists ((Eb / v) ^ 2 / (2 * M)), ((2 * mu m M * v) ^ 2 / (2 * M)). split.
  - apply migdal_window_fin; auto. unfold real_setting; auto.
  - rewrite vMinimal_Migdal_fin in H by auto. apply xlt_spec in H. apply (migdal_allowed m v M Eb Ee); auto.
Qed.

(** Hence enlarging the window does not change the rate. *)
Lemma migdal_rate_window Integrate I2 Ee DM D m v t M shell Eb g a b : ideal_quadrature Integrate ->
  real_setting DM D m v -> imass t = Fin M -> 0 < M -> binding_energy shell = Fin Eb -> 0 <= Eb -> 0 <= Ee ->
  (Eb / v) ^ 2 / (2 * M) <= (2 * mu m M * v) ^ 2 / (2 * M) ->
  0 < a -> a <= (Eb / v) ^ 2 / (2 * M) -> (2 * mu m M * v) ^ 2 / (2 * M) <= b ->
  (forall ER, a <= ER <= b -> Migdal_integrand Integrate I2 (Fin Ee) DM D t shell (Fin ER) = Ok (Fin (g ER))) ->
  ex_RInt g a b ->
  dRdEe_Migdal_isotope Integrate I2 (Fin Ee) DM D t shell = Ok (Fin (1 / M * RInt g a b)).
Proof.
  intros IQ S E3 HM E4 HEb HEe Hord Ha H1 H2 Hg HI. unfold dRdEe_Migdal_isotope. rewrite (migdal_window_fin DM D m v t M shell Eb) by auto.
  set (A := (Eb / v) ^ 2 / (2 * M)) in *. set (B := (2 * mu m M * v) ^ 2 / (2 * M)) in *.
  assert (I1 : ex_RInt g a A) by (apply (ex_RInt_Chasles_1 (V := R_CompleteNormedModule) g a A b); [lra|auto]).
  assert (I2' : ex_RInt g A b) by (apply (ex_RInt_Chasles_2 (V := R_CompleteNormedModule) g a A b); [lra|auto]).
  assert (I3 : ex_RInt g A B) by (apply (ex_RInt_Chasles_1 (V := R_CompleteNormedModule) g A B b); [lra|auto]).
  assert (I4 : ex_RInt g B b) by (apply (ex_RInt_Chasles_2 (V := R_CompleteNormedModule) g A B b); [lra|auto]).
  assert (Z : forall ER, a <= ER <= b -> (ER < A \/ B < ER) -> g ER = 0).
  { intros ER HE HO. specialize (Hg ER HE). unfold Migdal_integrand in Hg. destruct S as [E1 [E2 [Hm Hv]]]. rewrite E1, E2, E3, E4 in Hg.
    rewrite xlt_true in Hg by lra. rewrite vMinimal_Migdal_fin in Hg by lra.
    destruct (Rlt_le_dec (vmig_R ER Ee m M Eb) v) as [L | L].
    - exfalso. destruct (migdal_allowed m v M Eb Ee ER) as [X Y]; auto; try lra. fold A B in X, Y. lra.
    - rewrite xle_true in Hg by auto. apply Ok_inj, Fin_inj in Hg. lra. }
  rewrite (IQ _ g A B); [|intros x; rewrite Rmin_left, Rmax_right by lra; intros; apply Hg; lra|exact I3]. cbn [bind].
  rewrite E3, xdiv_fin, xmul_fin by lra.
  assert (T1 : RInt g a A = 0).
  { rewrite (RInt_ext (V := R_CompleteNormedModule) g (fun _ => 0)); [rewrite RInt_const; apply Rmult_0_r|]. intros x Hx. rewrite Rmin_left, Rmax_right in Hx by lra. apply Z; lra. }
  assert (T2 : RInt g B b = 0).
  { rewrite (RInt_ext (V := R_CompleteNormedModule) g (fun _ => 0)); [rewrite RInt_const; apply Rmult_0_r|]. intros x Hx. rewrite Rmin_left, Rmax_right in Hx by lra. apply Z; lra. }
  rewrite <- (RInt_Chasles (V := R_CompleteNormedModule) g a A b) by auto. rewrite <- (RInt_Chasles (V := R_CompleteNormedModule) g A B b) by auto.
  rewrite T1, T2. change plus with Rplus. do 2 f_equal. lra.
Qed.

(** Hypotheses can be met: a particle that never scatters, in a halo. *)
Definition idle_DM : DM_interface := mkDM (Fin 0.1) (Fin 1) true (fun _ _ _ => Ok (Fin 0)) (fun _ _ _ _ => Ok (Fin 0)) (fun _ _ _ _ => Ok (Fin 0)).
Definition toy_D : Distr_interface := mkDistr (Fin 1) (Fin 0) (Fin (1 / 400)) true (fun _ => Ok (Fin 400)) (fun _ => Ok (Fin 1)).
