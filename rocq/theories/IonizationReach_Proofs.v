(** The smallest mass and speed reported by ionization and semiconductor detectors (C72, C73). *)
From Coq Require Import Reals ZArith String Lra Lia Bool.
From Coquelicot Require Import Coquelicot.
From Coq Require Import List.
From Verif Require Import Base XrFacts Analysis Quadrature Interpolation Nucleus_Model Nuclear_Model Particle_Model CrossSection_Model
  Distribution_Model Atom_Model Crystal_Model Rates_Model Crystal_Proofs Detector_Model DetectorTypes_Model Detector_Proofs DetectorModes_Proofs DetectorWitness_Proofs DetectorBins_Proofs
  Kinematics_Proofs Electrons_Proofs ElectronBins_Proofs.
Import ListNotations.
Local Open Scope R_scope.

Lemma z00 : 0.0 = 0.
Proof. lra. Qed.
(** * Kinematics: a particle of mass m and speed v that loses the energy E > m v^2 / 2 *)
Lemma too_fast q E m v : 0 < q -> 0 < m -> m * v ^ 2 / 2 < E -> v < E / q + q / (2 * m).
Proof.
  intros Q M H. assert (I : 0 < / q) by (apply Rinv_0_lt_compat; auto).
  assert (A : m * v ^ 2 / 2 * / q < E * / q) by (apply Rmult_lt_compat_r; auto).
  assert (B : 0 <= (m * v - q) ^ 2 * (/ (2 * m * q))). { apply Rmult_le_pos; [apply pow2_ge_0|]. apply Rlt_le, Rinv_0_lt_compat. apply Rmult_lt_0_compat; lra. }
  replace ((m * v - q) ^ 2 * / (2 * m * q)) with (m * v ^ 2 / 2 * / q - v + q / (2 * m)) in B by (field; lra). unfold Rdiv at 1. lra.
Qed.
Lemma just_fast E m v : 0 < m -> 0 < v -> E <= m * v ^ 2 / 2 -> exists q, 0 < q /\ E / q + q / (2 * m) <= v.
Proof.
  intros M V H. exists (m * v). assert (0 < m * v) by (apply Rmult_lt_0_compat; auto). split; auto. assert (A : E / (m * v) <= m * v ^ 2 / 2 / (m * v)). { apply Rmult_le_compat_r; auto. apply Rlt_le, Rinv_0_lt_compat; auto. }
  replace (m * v ^ 2 / 2 / (m * v)) with (v / 2) in A by (field; lra). replace (m * v / (2 * m)) with (v / 2) by (field; lra). lra.
Qed.
Lemma too_fast_nuclear ER E m v M : 0 < ER -> 0 < m -> 0 < M -> m * v ^ 2 / 2 < E -> v < sqrt (M * ER / 2 / (m * M / (m + M)) / (m * M / (m + M))) + E / sqrt (2 * M * ER).
Proof.
  intros R0 Hm HM H. set (mu := m * M / (m + M)). assert (MU : 0 < mu) by (apply Rdiv_lt_0_compat; [apply Rmult_lt_0_compat|]; lra).
  assert (ML : mu <= m). { unfold mu. apply (Rmult_le_reg_r (m + M)); [lra|]. unfold Rdiv. rewrite Rmult_assoc, Rinv_l by lra. nra. }
  set (q := sqrt (2 * M * ER)). assert (P : 0 < 2 * M * ER) by (apply Rmult_lt_0_compat; lra). assert (Q : 0 < q) by (apply sqrt_lt_R0; auto).
  assert (S : sqrt (M * ER / 2 / mu / mu) = q / (2 * mu)).
  { unfold q. replace (M * ER / 2 / mu / mu) with ((2 * M * ER) / (2 * mu) ^ 2) by (field; lra). rewrite sqrt_div_alt by (apply pow_lt; lra). rewrite sqrt_pow2 by lra. reflexivity. }
  rewrite S. rewrite Rplus_comm. apply too_fast; auto. apply Rle_lt_trans with (m * v ^ 2 / 2); auto. assert (0 <= v ^ 2) by apply pow2_ge_0. assert (mu * v ^ 2 <= m * v ^ 2) by (apply Rmult_le_compat_r; auto). lra.
Qed.

(** * Specification: shells and atoms whose numbers make sense *)
Definition shell_numbers (Eb : R) (shell : Atomic_Electron) : Prop := binding_energy shell = Fin Eb /\ 0 < Eb /\ exists qm, q_max shell = Fin qm.
Definition isotopes_numbers (n : Nucleus) : Prop := forall t, In t (nisotopes n) -> exists M f, imass t = Fin M /\ 0 < M /\ iabundance t = Fin f.
Definition nucleus_numbers (n : Nucleus) : Prop := isotopes_numbers n /\ exists A, Average_Nuclear_Mass n = Fin A /\ 0 < A.

Lemma ER_term_zero Integrate Ee DM D shell dl q Eb m v : binding_energy shell = Fin Eb -> dm_mass DM = Fin m -> d_vmax D = Fin v -> 0 < m -> 0 < q -> m * v ^ 2 / 2 < Eb + Ee ->
  ER_term Integrate (Fin Ee) DM D shell dl (Fin q) = Ok (Fin 0).
Proof.
  intros B M V Hm Hq H. unfold ER_term. rewrite B, M, V, xadd_fin, vMinimal_Electrons_fin by auto. rewrite xlt_false; [reflexivity|]. apply Rlt_le, too_fast; auto.
Qed.
Lemma Log_Space_pos lo hi n q : 0 < lo -> 0 < hi -> (2 <= n)%nat -> In q (Log_Space (Fin lo) (Fin hi) n) -> exists r, q = Fin r /\ 0 < r.
Proof.
  intros L H N I. unfold Log_Space in I. apply in_map_iff in I. destruct I as (i & <- & _). rewrite !xlog_fin by auto. rewrite xsub_fin, xdiv_fin by (apply not_0_INR; lia). rewrite xmul_fin, xadd_fin, xexp_fin. eexists. split; [reflexivity|]. apply exp_pos.
Qed.
Lemma Log_Space_nth lo hi n i : 0 < lo -> 0 < hi -> (2 <= n)%nat -> (i < n)%nat -> exists r, at_ub (Log_Space (Fin lo) (Fin hi) n) i = Ok (Fin r) /\ 0 < r.
Proof.
  intros L H N I. unfold at_ub, Log_Space. rewrite nth_error_map, (nth_error_nth' _ 0%nat) by (rewrite seq_length; auto). rewrite seq_nth by auto. cbn [option_map Nat.add]. rewrite !xlog_fin by auto. rewrite xsub_fin, xdiv_fin by (apply not_0_INR; lia). rewrite xmul_fin, xadd_fin, xexp_fin. eexists. split; [reflexivity|]. apply exp_pos.
Qed.
Lemma sum_res_zero {A : Type} (f : A -> res xr) l : (forall a, In a l -> f a = Ok (Fin 0)) -> sum_res f l = Ok (Fin 0).
Proof. intros H. rewrite (sum_res_values f (fun _ => 0)) by auto. do 2 f_equal. apply Rsum_zero. auto. Qed.

Lemma dRdEe_ER_zero Integrate Ee DM D mN shell Eb m v : shell_numbers Eb shell -> dm_mass DM = Fin m -> d_vmax D = Fin v -> 0 < m -> 0 < v -> 0 < mN -> m * v ^ 2 / 2 < Eb + Ee ->
  dRdEe_ER_shell Integrate (Fin Ee) DM D (Fin mN) shell = Ok (Fin 0).
Proof.
  intros (B & Eb0 & qm & QM) M V Hm Hv HN H. unfold dRdEe_ER_shell, ER_window. rewrite M, V, B, QM. rewrite xdiv_fin, !xmul_fin by lra.
  destruct (xlt (Fin (m / 2.0 * v * v)) (Fin Eb)) eqn:L; [rewrite z00; reflexivity|].
  assert (LE : Eb <= m * v ^ 2 / 2). { destruct (Rle_or_lt Eb (m * v ^ 2 / 2)) as [LE | LT]; auto. exfalso. rewrite xlt_true in L by (replace 2.0 with 2 by lra; lra). discriminate. }
  rewrite xsub_fin. replace (m * m * v * v - 2.0 * m * Eb) with (m * (m * v ^ 2 - 2 * Eb)) by lra.
  assert (D0 : 0 <= m * (m * v ^ 2 - 2 * Eb)) by (apply Rmult_le_pos; lra). rewrite xsqrt_fin by auto. rewrite xsub_fin, xadd_fin. set (root := sqrt (m * (m * v ^ 2 - 2 * Eb))).
  assert (R0 : 0 <= root) by apply sqrt_pos. assert (MV : 0 < m * v) by (apply Rmult_lt_0_compat; auto).
  assert (R1 : root < m * v). { rewrite <- (sqrt_pow2 (m * v)) by lra. apply sqrt_lt_1_alt. split; auto. assert (0 < m * Eb) by (apply Rmult_lt_0_compat; auto). replace ((m * v) ^ 2) with (m * (m * v ^ 2)) by ring. lra. }
  assert (K : forall hi, 0 < hi -> (let q_grid := Log_Space (Fin (m * v - root)) (Fin hi) 100 in let* q1 := at_ub q_grid 1 in let* q0 := at_ub q_grid 0 in
      let d_lnq := xlog (q1 / q0) in let* integral := sum_res (ER_term Integrate (Fin Ee) DM D shell d_lnq) q_grid in Ok (Fin 1.0 / Fin mN * integral)%xr) = Ok (Fin 0)).
  { intros hi Hh. cbv zeta. destruct (Log_Space_nth (m * v - root) hi 100 1) as (a & -> & Ha); try lra; try lia. destruct (Log_Space_nth (m * v - root) hi 100 0) as (b & -> & Hb); try lra; try lia. cbn [bind].
    rewrite sum_res_zero. 2:{ intros q I. destruct (Log_Space_pos (m * v - root) hi 100 q ltac:(lra) Hh ltac:(lia) I) as (r & -> & Hr). apply (ER_term_zero _ _ _ _ _ _ _ Eb m v); auto. }
    cbn [bind]. rewrite xdiv_fin, xmul_fin by lra. do 2 f_equal. lra. }
  destruct (xlt (Fin qm) (Fin (m * v - root))) eqn:L1; [rewrite z00; reflexivity|].
  assert (QP : m * v - root <= qm). { destruct (Rle_or_lt (m * v - root) qm) as [Q | Q]; auto. rewrite xlt_true in L1 by auto. discriminate. }
  destruct (xlt (Fin qm) (Fin (m * v + root))); apply K; lra.
Qed.

Lemma integral_zero Integrate f a b : ideal_quadrature Integrate -> (forall x, Rmin a b <= x <= Rmax a b -> f (Fin x) = Ok (Fin 0)) -> Integrate f (Fin a) (Fin b) = Ok (Fin 0).
Proof.
  intros I H. rewrite (I f (fun _ => 0) a b H (ex_RInt_const (V := R_NormedModule) a b 0)). do 2 f_equal. rewrite (RInt_const (V := R_CompleteNormedModule)). apply Rmult_0_r.
Qed.
Lemma Migdal_integrand_zero Integrate I2 Ee DM D t shell ER Eb m v M : imass t = Fin M -> 0 < M -> binding_energy shell = Fin Eb -> dm_mass DM = Fin m -> d_vmax D = Fin v -> 0 < m -> 0 < ER -> m * v ^ 2 / 2 < Eb + Ee ->
  Migdal_integrand Integrate I2 (Fin Ee) DM D t shell (Fin ER) = Ok (Fin 0).
Proof.
  intros T HM B Mm V Hm HR H. unfold Migdal_integrand. rewrite xlt_true by auto. unfold vMinimal_Migdal. rewrite T, B, Mm, V. assert (0 < m * M) by (apply Rmult_lt_0_compat; auto).
  replace (Reduced_Mass (Fin m) (Fin M)) with (Fin (m * M / (m + M))) by (unfold Reduced_Mass; rewrite xmul_fin, xadd_fin, xdiv_fin by lra; reflexivity). rewrite !xmul_fin. set (mu := m * M / (m + M)). assert (MU : 0 < mu) by (apply Rdiv_lt_0_compat; lra). rewrite !xdiv_fin by lra.
  assert (P : 0 < M * ER) by (apply Rmult_lt_0_compat; auto). assert (P2 : 0 < 2.0 * M * ER) by (replace (2.0 * M * ER) with (2 * (M * ER)) by lra; lra).
  assert (P3 : 0 < M * ER / 2.0 / mu / mu) by (apply Rdiv_lt_0_compat; auto; apply Rdiv_lt_0_compat; auto; lra). assert (P4 := sqrt_lt_R0 _ P2).
  rewrite !xsqrt_fin by lra. rewrite xadd_fin, xdiv_fin by lra. rewrite xadd_fin.
  replace 2.0 with 2 by lra. rewrite xle_true; [rewrite z00; reflexivity|]. apply Rlt_le. rewrite (Rplus_comm Ee Eb). apply too_fast_nuclear; auto.
Qed.
Lemma dRdEe_Migdal_zero Integrate I2 Ee DM D n shell Eb m v : ideal_quadrature Integrate -> isotopes_numbers n -> shell_numbers Eb shell -> dm_mass DM = Fin m -> d_vmax D = Fin v -> 0 < m -> 0 < v -> m * v ^ 2 / 2 < Eb + Ee ->
  dRdEe_Migdal_nucleus Integrate I2 (Fin Ee) DM D n shell = Ok (Fin 0).
Proof.
  intros Q N (B & Eb0 & _) M V Hm Hv H. unfold dRdEe_Migdal_nucleus. apply sum_res_zero. intros t I. destruct (N t I) as (A & f & T & HA & F).
  unfold dRdEe_Migdal_isotope, Migdal_window. rewrite T, B, M, V, F. assert (0 < m * A) by (apply Rmult_lt_0_compat; auto).
  replace (Reduced_Mass (Fin m) (Fin A)) with (Fin (m * A / (m + A))) by (unfold Reduced_Mass; rewrite xmul_fin, xadd_fin, xdiv_fin by lra; reflexivity). rewrite !xdiv_fin by lra. rewrite !xmul_fin, !xdiv_fin by lra.
  set (mu := m * A / (m + A)). assert (MU : 0 < mu) by (apply Rdiv_lt_0_compat; lra).
  assert (P1 : 0 < Eb / v * (Eb / v) / 2.0 / A). { assert (0 < Eb / v) by (apply Rdiv_lt_0_compat; auto). apply Rdiv_lt_0_compat; auto. apply Rdiv_lt_0_compat; [|lra]. apply Rmult_lt_0_compat; auto. }
  assert (P2 : 0 < 2.0 * mu * v * (2.0 * mu * v) / 2.0 / A). { assert (0 < 2.0 * mu * v) by (apply Rmult_lt_0_compat; [apply Rmult_lt_0_compat|]; lra). apply Rdiv_lt_0_compat; auto. apply Rdiv_lt_0_compat; [|lra]. apply Rmult_lt_0_compat; auto. }
  rewrite integral_zero; [|auto|]. 2:{ intros x Hx. apply (Migdal_integrand_zero _ _ _ _ _ _ _ _ Eb m v A); auto. apply Rlt_le_trans with (2 := proj1 Hx). apply Rmin_glb_lt; auto. }
  cbn [bind]. rewrite !xmul_fin. do 2 f_equal. lra.
Qed.

(** No rate at electron energies that take more than the kinetic energy. *)
Lemma shell_zero X DM D s Ee n shell Eb m v eff : ideal_quadrature (x_Integrate X) -> nucleus_numbers n -> shell_numbers Eb shell -> dm_mass DM = Fin m -> d_vmax D = Fin v -> b_flat_efficiency (i_base s) = Fin eff -> 0 < m -> 0 < v ->
  m * v ^ 2 / 2 < Eb + Ee -> Ionization_dRdE_shell X DM D s (Fin Ee) n shell = Ok (Fin 0).
Proof.
  intros Q (N & A & EA & HA) S M V F Hm Hv H. unfold Ionization_dRdE_shell. destruct (i_channel s).
  - rewrite EA, (dRdEe_ER_zero _ _ _ _ _ _ Eb m v); auto. cbn [bind]. rewrite F, xmul_fin. do 2 f_equal. lra.
  - rewrite (dRdEe_Migdal_zero _ _ _ _ _ _ _ Eb m v); auto. cbn [bind]. rewrite F, xmul_fin. do 2 f_equal. lra.
Qed.

(** * The gap and the smallest W of a detector *)
Lemma lowest_shell l a0 : (forall s, In s l -> exists E, binding_energy s = Fin E /\ 0 < E) -> exists g, fold_left (fun m s => if xlt (xabs (binding_energy s)) m then xabs (binding_energy s) else m) l (Fin a0) = Fin g /\ g <= a0 /\
  (forall s E, In s l -> binding_energy s = Fin E -> g <= E) /\ (g = a0 \/ exists s, In s l /\ binding_energy s = Fin g).
Proof.
  revert a0. induction l as [|s l IH]; intros a0 H; [exists a0; cbn; split; [reflexivity|]; split; [lra|]; split; [intros ? ? []|auto]|].
  cbn [fold_left]. destruct (H s (or_introl eq_refl)) as (E & EE & HE). rewrite EE, xabs_fin. rewrite Rabs_pos_eq by lra.
  assert (H' : forall s, In s l -> exists E, binding_energy s = Fin E /\ 0 < E) by (intros; apply H; right; auto).
  destruct (xlt (Fin E) (Fin a0)) eqn:L.
  - apply xlt_spec in L. destruct (IH E H') as (g & G & LE & A & O). exists g. split; [exact G|]. split; [lra|]. split.
    + intros s' E' [<- | I] EQ; [rewrite EE in EQ; apply Fin_inj in EQ; lra|eauto].
    + right. destruct O as [-> | (s' & I & EQ)]; [exists s; split; [left|]; auto|exists s'; split; [right|]; auto].
  - destruct (IH a0 H') as (g & G & LE & A & O). exists g. split; [exact G|]. split; [lra|]. assert (a0 <= E). { destruct (Rle_or_lt a0 E); auto. rewrite xlt_true in L by auto. discriminate. } split.
    + intros s' E' [<- | I] EQ; [rewrite EE in EQ; apply Fin_inj in EQ; lra|eauto].
    + destruct O as [-> | (s' & I & EQ)]; [left; auto|right; exists s'; split; [right|]; auto].
Qed.
(** The general form of the two loops over the atoms. *)
Lemma lowest_of {A : Type} (f : A -> xr) l a0 : (forall a, In a l -> exists x, f a = Fin x) -> exists g, fold_left (fun m a => if xlt (f a) m then f a else m) l (Fin a0) = Fin g /\ g <= a0 /\
  (forall a x, In a l -> f a = Fin x -> g <= x) /\ (g = a0 \/ exists a, In a l /\ f a = Fin g).
Proof.
  revert a0. induction l as [|s l IH]; intros a0 H; [exists a0; cbn; split; [reflexivity|]; split; [lra|]; split; [intros ? ? []|auto]|].
  cbn [fold_left]. destruct (H s (or_introl eq_refl)) as (E & EE). rewrite EE.
  assert (H' : forall s, In s l -> exists E, f s = Fin E) by (intros; apply H; right; auto).
  destruct (xlt (Fin E) (Fin a0)) eqn:L.
  - apply xlt_spec in L. destruct (IH E H') as (g & G & LE & B & O). exists g. split; [exact G|]. split; [lra|]. split.
    + intros s' E' [<- | I] EQ; [rewrite EE in EQ; apply Fin_inj in EQ; lra|eauto].
    + right. destruct O as [-> | (s' & I & EQ)]; [exists s; split; [left|]; auto|exists s'; split; [right|]; auto].
  - destruct (IH a0 H') as (g & G & LE & B & O). exists g. split; [exact G|]. split; [lra|]. assert (a0 <= E). { destruct (Rle_or_lt a0 E); auto. rewrite xlt_true in L by auto. discriminate. } split.
    + intros s' E' [<- | I] EQ; [rewrite EE in EQ; apply Fin_inj in EQ; lra|eauto].
    + destruct O as [-> | (s' & I & EQ)]; [left; auto|right; exists s'; split; [right|]; auto].
Qed.
Lemma gap_is s : i_atoms s <> [] -> (forall a, In a (i_atoms s) -> electrons a <> [] /\ forall sh, In sh (electrons a) -> exists E, binding_energy sh = Fin E /\ 0 < E < 1) ->
  exists gap, Energy_Gap s = Fin gap /\ (forall a sh E, In a (i_atoms s) -> In sh (electrons a) -> binding_energy sh = Fin E -> gap <= E) /\
    exists a sh, In a (i_atoms s) /\ In sh (electrons a) /\ binding_energy sh = Fin gap.
Proof.
  intros N H. assert (L : forall a, In a (i_atoms s) -> exists g, Lowest_Binding_Energy a = Fin g /\ g < 1 /\ (forall sh E, In sh (electrons a) -> binding_energy sh = Fin E -> g <= E) /\ exists sh, In sh (electrons a) /\ binding_energy sh = Fin g).
  { intros a I. destruct (H a I) as [NE HS]. destruct (lowest_shell (electrons a) 1.0) as (g & G & LE & A & O); [intros sh J; destruct (HS sh J) as (E & EE & HE); exists E; split; auto; lra|].
    exists g. destruct O as [-> | (sh & J & EQ)].
    - exfalso. destruct (electrons a) as [|sh l] eqn:EL; [congruence|]. destruct (HS sh (or_introl eq_refl)) as (E & EE & HE). specialize (A sh E (or_introl eq_refl) EE). lra.
    - split; [exact G|]. split; [destruct (HS sh J) as (E & EE & HE); rewrite EQ in EE; apply Fin_inj in EE; lra|]. split; [exact A|]. exists sh. auto. }
  destruct (lowest_of Lowest_Binding_Energy (i_atoms s) 1e10) as (g & G & LE & A & O); [intros a I; destruct (L a I) as (x & X0 & _); exists x; auto|]. exists g. split; [exact G|]. split.
  - intros a sh E I J EE. destruct (L a I) as (x & X0 & _ & X1 & _). specialize (A a x I X0). specialize (X1 sh E J EE). lra.
  - destruct O as [-> | (a & I & EQ)].
    + exfalso. destruct (i_atoms s) as [|a l]; [congruence|]. destruct (L a (or_introl eq_refl)) as (x & X0 & X1 & _). specialize (A a x (or_introl eq_refl) X0). lra.
    + destruct (L a I) as (x & X0 & _ & _ & sh & J & EE). rewrite X0 in EQ. apply Fin_inj in EQ. subst x. exists a, sh. auto.
Qed.
Lemma W_is s w : Lowest_W s = Fin w -> (forall a, In a (i_atoms s) -> exists x, W a = Fin x) -> forall a x, In a (i_atoms s) -> W a = Fin x -> w <= x.
Proof. intros L H a x I E. destruct (lowest_of W (i_atoms s) 1e10 H) as (g & G & _ & A & _). unfold Lowest_W in L. rewrite G in L. apply Fin_inj in L. subst g. eauto. Qed.

(** * Specification: an atom whose n-electron events need at least gap + (n - 1) W *)
Definition atom_numbers (gap : R) (a : Atom) : Prop := exists w, W a = Fin w /\ 0 < w /\ nucleus_numbers (at_nucleus a) /\
  forall sh, In sh (electrons a) -> exists Eb, shell_numbers Eb sh /\ (0 <= number_of_secondary_electrons sh < 2 ^ 31)%Z /\ gap + IZR (number_of_secondary_electrons sh) * w <= Eb.
(** Finite rates on the grid of electron momenta. *)
Definition finite_rates (X : externals) (DM : DM_interface) (D : Distr_interface) (s : ionization) : Prop := forall a sh w, In a (i_atoms s) -> In sh (electrons a) -> W a = Fin w ->
  exists ks dl, k_Grid sh = map Fin ks /\ dlogk sh = Fin dl /\ forall k, In k ks -> IZR (number_of_secondary_electrons sh) + shell_energy k / w < 2 ^ 31 /\
    exists r, Ionization_dRdE_shell X DM D s (Fin (shell_energy k)) (at_nucleus a) sh = Ok (Fin r).
Definition finite_fractions (s : ionization) : Prop := exists fs, i_fractions s = map Fin fs /\ List.length fs = List.length (i_atoms s).

Lemma weighted_zero s f : finite_fractions s -> (forall a, In a (i_atoms s) -> f a = Ok (Fin 0)) -> weighted s f = Ok (Fin 0).
Proof.
  intros (fs & F & L) H. unfold weighted. apply sum_res_zero. intros i I. apply in_seq in I. rewrite F. unfold at_ub. rewrite nth_error_map.
  destruct (nth_error (i_atoms s) i) as [a|] eqn:EA; [|apply nth_error_None in EA; lia]. destruct (nth_error fs i) as [x|] eqn:EF; [|apply nth_error_None in EF; lia].
  cbn [bind option_map]. rewrite H by (eapply nth_error_In; eauto). cbn [bind]. rewrite xmul_fin. do 2 f_equal. lra.
Qed.

Lemma minimum_mass_value v E : 0 < v -> (Fin 2.0 * Fin E / Fin v / Fin v)%xr = Fin (2 * E / v ^ 2).
Proof. intros V. rewrite xmul_fin, !xdiv_fin by lra. f_equal. replace 2.0 with 2 by lra. field. lra. Qed.
Lemma below_mass v E m : 0 < v -> m < 2 * E / v ^ 2 -> m * v ^ 2 / 2 < E.
Proof. intros V H. assert (P : 0 < v ^ 2) by (apply pow_lt; auto). apply (Rmult_lt_compat_r (v ^ 2)) in H; auto. unfold Rdiv in H. rewrite Rmult_assoc, Rinv_l in H by lra. lra. Qed.

(** The mass as a number: with an electron threshold. *)
Lemma electron_minimum_mass s v gap w : b_using_threshold (i_base s) = false -> (i_using_ne_bins s || i_using_ne_threshold s)%bool = true -> Energy_Gap s = Fin gap -> Lowest_W s = Fin w -> 0 < v ->
  Ionization_Minimum_Mass (Fin v) s = Fin (2 * (gap + (IZR (i_ne_threshold s) - 1) * w) / v ^ 2).
Proof.
  intros T B G L V. unfold Ionization_Minimum_Mass. rewrite T, B, G, L. cbv zeta. rewrite xsub_fin, xmul_fin, xadd_fin, minimum_mass_value by auto. do 3 f_equal. replace 1.0 with 1 by lra. reflexivity.
Qed.
(** Below it no event has as many electrons as required. *)
Lemma electron_reach X DM D s v m mm gap w eff ne : ideal_quadrature (x_Integrate X) -> ideal_binomial (x_PMF_Binomial X) -> b_using_threshold (i_base s) = false -> (i_using_ne_bins s || i_using_ne_threshold s)%bool = true ->
  Energy_Gap s = Fin gap -> Lowest_W s = Fin w -> 0 <= w -> (forall a, In a (i_atoms s) -> atom_numbers gap a) -> finite_fractions s -> b_flat_efficiency (i_base s) = Fin eff -> finite_rates X DM D s ->
  d_vmax D = Fin v -> 0 < v -> dm_mass DM = Fin m -> 0 < m -> Ionization_Minimum_Mass (Fin v) s = Fin mm -> m < mm -> (1 <= ne)%Z -> (i_ne_threshold s <= ne < 2 ^ 31)%Z -> R_ne X DM D s ne = Ok (Fin 0).
Proof.
  intros Q B T EB G L W0 A F EF R V Hv M Hm MM LT N1 NE. rewrite (electron_minimum_mass s v gap w) in MM by auto. apply Fin_inj in MM. subst mm. apply below_mass in LT; auto.
  unfold R_ne. apply weighted_zero; auto. intros a I. destruct (A a I) as (wa & EW & HW & NN & SH). assert (WL : w <= wa). { apply (W_is s w L) with a; auto. intros a' I'. destruct (A a' I') as (x & EX & _). exists x. auto. }
  unfold R_ne_atom. apply sum_res_zero. intros sh J. destruct (SH sh J) as (Eb & SN & NS & GE). destruct (R a sh wa I J EW) as (ks & dl & KG & DL & KR).
  unfold R_ne_shell. rewrite KG. apply sum_res_zero. intros k0 K0. apply in_map_iff in K0. destruct K0 as (k & <- & K). destruct (KR k K) as (BD & r & RR). assert (me : 0 < mElectron) by apply mElectron_pos.
  rewrite xmul_fin, !xdiv_fin by lra. fold (shell_energy k). rewrite EW. set (nsec := number_of_secondary_electrons sh) in *. assert (S32 : s32 nsec = nsec) by (unfold s32; rewrite Z.mod_small by lia; lia). rewrite S32.
  assert (SE : 0 <= shell_energy k). { unfold shell_energy. assert (0 <= k * k) by apply Rle_0_sqr. unfold Rdiv. apply Rmult_le_pos; [apply Rmult_le_pos; auto; lra|apply Rlt_le, Rinv_0_lt_compat; auto]. }
  rewrite PDF_ne_law by (auto; try lia; lra). cbn [bind]. destruct (Rfloor_bounds (shell_energy k / wa)) as [F1 F2].
  assert (C : electron_law (nsec + Rfloor (shell_energy k / wa)) ne = 0 \/ r = 0).
  { unfold electron_law. destruct (ne - 1 <=? nsec + Rfloor (shell_energy k / wa))%Z eqn:LE; [right|left; reflexivity]. apply Z.leb_le in LE. apply IZR_le in LE. rewrite minus_IZR, plus_IZR in LE.
    assert (K1 : (IZR ne - 1 - IZR nsec) * wa <= shell_energy k). { apply (Rmult_le_reg_r (/ wa)); [apply Rinv_0_lt_compat; auto|]. rewrite Rmult_assoc, Rinv_r by lra. fold (shell_energy k / wa). lra. }
    assert (K2 : (IZR (i_ne_threshold s) - 1) * w <= (IZR ne - 1) * wa). { assert (1 <= IZR ne) by (apply (IZR_le 1); auto). assert (IZR (i_ne_threshold s) <= IZR ne) by (apply IZR_le; lia).
      apply Rle_trans with ((IZR ne - 1) * w); [apply Rmult_le_compat_r; lra|apply Rmult_le_compat_l; lra]. }
    assert (Z0 := shell_zero X DM D s (shell_energy k) (at_nucleus a) sh Eb m v eff Q NN SN M V EF Hm Hv). rewrite RR in Z0. apply Fin_inj, Ok_inj. apply Z0. lra. }
  rewrite RR. cbn [bind]. rewrite DL, xlog_fin by lra. rewrite !xmul_fin, xdiv_fin, !xmul_fin by lra. do 2 f_equal. destruct C as [-> | ->]; ring.
Qed.
(** Hence nothing is expected. *)
Lemma electron_reach_total X DM D s v m mm gap w eff e : ideal_quadrature (x_Integrate X) -> ideal_binomial (x_PMF_Binomial X) -> b_analysis (i_base s) = Poisson -> b_using_threshold (i_base s) = false -> i_using_ne_threshold s = true ->
  Energy_Gap s = Fin gap -> Lowest_W s = Fin w -> 0 <= w -> (forall a, In a (i_atoms s) -> atom_numbers gap a) -> finite_fractions s -> b_flat_efficiency (i_base s) = Fin eff -> finite_rates X DM D s ->
  d_vmax D = Fin v -> 0 < v -> dm_mass DM = Fin m -> 0 < m -> Ionization_Minimum_Mass (Fin v) s = Fin mm -> m < mm -> (1 <= i_ne_threshold s)%Z -> (i_ne_max s < 2 ^ 31)%Z -> b_exposure (i_base s) = Fin e ->
  Ionization_Total X DM D s = Ok (Fin 0).
Proof.
  intros Q B AN T EB G L W0 A F EF R V Hv M Hm MM LT N1 N2 E. unfold Ionization_Total. rewrite AN, EB, E. replace (i_ne_max s =? 2 ^ 32 - 1)%Z with false by (symmetry; apply Z.eqb_neq; lia).
  apply sum_res_zero. intros ne I. apply Zrange_In in I. rewrite (electron_reach X DM D s v m mm gap w eff ne); auto; try lia; [|rewrite EB, orb_true_r; reflexivity]. cbn [bind]. rewrite xmul_fin. do 2 f_equal. lra.
Qed.

(** With an energy threshold, or with neither: the spectrum. *)
Definition plain_atom (gap : R) (a : Atom) : Prop := nucleus_numbers (at_nucleus a) /\ forall sh, In sh (electrons a) -> exists Eb, shell_numbers Eb sh /\ gap <= Eb.
Lemma spectrum_reach X DM D s v m mm gap eff E : ideal_quadrature (x_Integrate X) -> Energy_Gap s = Fin gap -> (forall a, In a (i_atoms s) -> plain_atom gap a) -> finite_fractions s -> b_flat_efficiency (i_base s) = Fin eff ->
  d_vmax D = Fin v -> 0 < v -> dm_mass DM = Fin m -> 0 < m -> Ionization_Minimum_Mass (Fin v) s = Fin mm -> m < mm ->
  (b_using_threshold (i_base s) = true /\ (exists th, b_threshold (i_base s) = Fin th /\ th <= E)) \/ (b_using_threshold (i_base s) = false /\ i_using_ne_bins s = false /\ i_using_ne_threshold s = false /\ 0 <= E) ->
  Ionization_dRdE X DM D s (Fin E) = Ok (Fin 0).
Proof.
  intros Q G A F EF V Hv M Hm MM LT C. unfold Ionization_dRdE. apply weighted_zero; auto. intros a I. destruct (A a I) as (NN & SH). unfold Ionization_dRdE_atom. apply sum_res_zero. intros sh J. destruct (SH sh J) as (Eb & SN & GE).
  apply (shell_zero X DM D s E (at_nucleus a) sh Eb m v eff); auto. destruct SN as (_ & Eb0 & _). unfold Ionization_Minimum_Mass in MM. destruct C as [(U & th & T & LE) | (U & U1 & U2 & LE)].
  - rewrite U, T in MM. cbv zeta in MM. rewrite minimum_mass_value in MM by auto. apply Fin_inj in MM. subst mm. apply below_mass in LT; auto. lra.
  - rewrite U, U1, U2, G in MM. cbn [orb] in MM. cbv zeta in MM. rewrite minimum_mass_value in MM by auto. apply Fin_inj in MM. subst mm. apply below_mass in LT; auto. lra.
Qed.
(** From the reported mass on, the energy it stands for can be transferred to an electron. *)
Lemma mass_kinematics v E m mm : 0 < v -> 0 < m -> mm = 2 * E / v ^ 2 -> (mm <= m <-> exists q, 0 < q /\ E / q + q / (2 * m) <= v).
Proof.
  intros V Hm ->. split.
  - intros H. apply just_fast; auto. assert (P : 0 < v ^ 2) by (apply pow_lt; auto). apply (Rmult_le_compat_r (v ^ 2)) in H; [|lra]. unfold Rdiv in H. rewrite Rmult_assoc, Rinv_l in H by lra. lra.
  - intros (q & Q & LE). destruct (Rle_or_lt (2 * E / v ^ 2) m) as [|LT]; auto. apply below_mass in LT; auto. assert (X := too_fast q E m v Q Hm LT). lra.
Qed.
Lemma electron_mass_kinematics s v gap w : b_using_threshold (i_base s) = false -> (i_using_ne_bins s || i_using_ne_threshold s)%bool = true -> Energy_Gap s = Fin gap -> Lowest_W s = Fin w -> 0 < v ->
  exists mm, Ionization_Minimum_Mass (Fin v) s = Fin mm /\ forall m, 0 < m -> (mm <= m <-> exists q, 0 < q /\ (gap + (IZR (i_ne_threshold s) - 1) * w) / q + q / (2 * m) <= v).
Proof. intros T B G L V. eexists. split; [apply electron_minimum_mass; eauto|]. intros m Hm. apply mass_kinematics; auto. Qed.

(** The smallest speed: the least speed at which any electron can be freed, whatever the momentum transfer. *)
Lemma speed_root E m : 0 < m -> 0 < E -> (forall q, 0 < q -> sqrt (2 * E / m) <= E / q + q / (2 * m)) /\ (exists q, 0 < q /\ sqrt (2 * E / m) = E / q + q / (2 * m)).
Proof.
  intros M HE. assert (P : 0 < 2 * E / m) by (apply Rdiv_lt_0_compat; lra). set (u := sqrt (2 * E / m)). assert (U : 0 < u) by (apply sqrt_lt_R0; auto). assert (U2 : m * u ^ 2 / 2 = E). { unfold u. rewrite <- Rsqr_pow2, Rsqr_sqrt by lra. field. lra. }
  split.
  - intros q Q. assert (B : 0 <= (m * u - q) ^ 2 * (/ (2 * m * q))). { apply Rmult_le_pos; [apply pow2_ge_0|]. apply Rlt_le, Rinv_0_lt_compat. apply Rmult_lt_0_compat; lra. }
    replace ((m * u - q) ^ 2 * / (2 * m * q)) with (m * u ^ 2 / 2 / q - u + q / (2 * m)) in B by (field; lra). rewrite U2 in B. lra.
  - assert (MU : 0 < m * u) by (apply Rmult_lt_0_compat; auto). exists (m * u). split; auto. rewrite <- U2. field. lra.
Qed.
Lemma ionization_speed s m gap : Energy_Gap s = Fin gap -> 0 < gap -> 0 < m -> (forall a, In a (i_atoms s) -> plain_atom gap a) -> (exists a sh, In a (i_atoms s) /\ In sh (electrons a) /\ binding_energy sh = Fin gap) ->
  exists u, Ionization_Minimum_Speed (Fin m) s = Fin u /\
    (forall a sh q Ee, In a (i_atoms s) -> In sh (electrons a) -> 0 < q -> 0 <= Ee -> exists x, vMinimal_Electrons (Fin q) (binding_energy sh + Fin Ee)%xr (Fin m) = Fin x /\ u <= x) /\
    (exists a sh q, In a (i_atoms s) /\ In sh (electrons a) /\ 0 < q /\ vMinimal_Electrons (Fin q) (binding_energy sh + Fin 0)%xr (Fin m) = Fin u).
Proof.
  intros G G0 M A (a0 & sh0 & I0 & J0 & B0). destruct (speed_root gap m M G0) as (S1 & q0 & Q0 & S2). exists (sqrt (2 * gap / m)). split.
  { unfold Ionization_Minimum_Speed. rewrite G, xmul_fin, xdiv_fin by lra. replace 2.0 with 2 by lra. apply xsqrt_fin. apply Rlt_le, Rdiv_lt_0_compat; lra. }
  split.
  - intros a sh q Ee I J Q E0. destruct (A a I) as (_ & SH). destruct (SH sh J) as (Eb & (B & HB & _) & GE). rewrite B, xadd_fin, vMinimal_Electrons_fin by auto. eexists. split; [reflexivity|].
    apply Rle_trans with (1 := S1 q Q). apply Rplus_le_compat_r. apply Rmult_le_compat_r; [apply Rlt_le, Rinv_0_lt_compat; auto|lra].
  - exists a0, sh0, q0. split; auto. split; auto. split; auto. rewrite B0, xadd_fin, Rplus_0_r, vMinimal_Electrons_fin by auto. rewrite S2. reflexivity.
Qed.

(** * The atoms that come with the library *)
Lemma map_res_In {A B : Type} (f : A -> res B) l ss b : map_res f l = Ok ss -> In b ss -> exists a, In a l /\ f a = Ok b.
Proof.
  revert ss. induction l as [|a l IH]; intros ss H I; cbn [map_res] in H; [apply Ok_inj in H; subst; destruct I|]. destruct (f a) as [x| | |] eqn:EF; try discriminate. cbn [bind] in H.
  destruct (map_res f l) as [xs| | |]; try discriminate. cbn [bind] in H. apply Ok_inj in H. subst ss. destruct I as [<- | I]; [exists a; split; [left|]; auto|]. destruct (IH xs eq_refl I) as (a' & I' & E'). exists a'. split; [right|]; auto.
Qed.
Lemma make_shells_In IT el km l ss sh : make_shells IT el km l = Ok ss -> In sh ss -> exists n l0 E ns, In (n, l0, E, ns) l /\ binding_energy sh = Fin (E * eV) /\ q_max sh = Fin (1000.0 * keV) /\ number_of_secondary_electrons sh = ns.
Proof.
  unfold make_shells. intros H I. match type of H with (bind ?m _ = _) => destruct m as [xs| | |] eqn:EM; try discriminate end. cbn [bind] in H. apply Ok_inj in H. subst ss. apply in_rev in I.
  destruct (map_res_In _ _ _ _ EM I) as ([[[n l0] E] ns] & J & C). exists n, l0, E, ns. split; [exact J|]. unfold Atomic_Electron_ctor in C.
  destruct (at_ubZ s_names l0) as [sn| | |]; try discriminate. cbn [bind] in C. match type of C with (bind ?m _ = _) => destruct m as [ts| | |]; try discriminate end. cbn [bind] in C.
  destruct (at_ub ts 3) as [[[nk nq] t4]| | |]; try discriminate. cbn [bind] in C. apply Ok_inj in C. subst sh. cbn [binding_energy q_max number_of_secondary_electrons]. rewrite !xmul_fin. auto.
Qed.
Lemma make_shells_back IT el km l ss n l0 E ns : make_shells IT el km l = Ok ss -> In (n, l0, E, ns) l -> exists sh, In sh ss /\ binding_energy sh = Fin (E * eV).
Proof.
  unfold make_shells. intros H I. match type of H with (bind ?m _ = _) => destruct m as [xs| | |] eqn:EM; try discriminate end. cbn [bind] in H. apply Ok_inj in H. subst ss.
  revert xs EM. induction l as [|p l IH]; intros xs EM; [destruct I|]. cbn [map_res] in EM. match type of EM with (bind ?m _ = _) => destruct m as [x| | |] eqn:EX; try discriminate end. cbn [bind] in EM.
  match type of EM with (bind ?m _ = _) => destruct m as [ys| | |] eqn:EY; try discriminate end. cbn [bind] in EM. apply Ok_inj in EM. subst xs. destruct I as [-> | I].
  - exists x. split; [apply in_rev; rewrite rev_involutive; left; auto|]. unfold Atomic_Electron_ctor in EX. destruct (at_ubZ s_names l0) as [sn| | |]; try discriminate. cbn [bind] in EX.
    match type of EX with (bind ?m _ = _) => destruct m as [ts| | |]; try discriminate end. cbn [bind] in EX. destruct (at_ub ts 3) as [[[nk nq] t4]| | |]; try discriminate. cbn [bind] in EX. apply Ok_inj in EX. subst x. cbn [binding_energy]. rewrite xmul_fin. reflexivity.
  - destruct (IH I ys eq_refl) as (sh & J & B). exists sh. split; [|exact B]. apply in_rev in J. apply in_rev. rewrite rev_involutive. right. exact J.
Qed.
Lemma shipped_shells IT wd name a wd' : Atom_by_name IT wd name = Ok (a, wd') -> exists w g, W a = Fin w /\ 0 < w /\ Lowest_Binding_Energy a = Fin g /\ 0 < g /\ electrons a <> [] /\
  forall sh, In sh (electrons a) -> exists Eb, shell_numbers Eb sh /\ Eb < 1 /\ (0 <= number_of_secondary_electrons sh < 2 ^ 31)%Z /\ g + IZR (number_of_secondary_electrons sh) * w <= Eb.
Proof.
  unfold Atom_by_name. intros H. destruct (Get_Nucleus_by_name wd name) as [p| | |]; try discriminate. cbn [bind] in H. assert (e0 : 0 < eV) by (unfold eV; lra). assert (e1 : eV < 1 / 10 ^ 8) by (unfold eV; lra).
  assert (K : forall l0 g Wv (ss : list Atomic_Electron), In l0 ss -> binding_energy l0 = Fin (g * eV) -> 0 < g < 1000 -> 0 < Wv ->
    (forall sh, In sh ss -> exists E ns, binding_energy sh = Fin (E * eV) /\ q_max sh = Fin (1000.0 * keV) /\ number_of_secondary_electrons sh = ns /\ E < 10 ^ 5 /\ (0 <= ns <= 6)%Z /\ g + IZR ns * Wv <= E) ->
    exists w g, (Fin Wv * Fin eV)%xr = Fin w /\ 0 < w /\ fold_left (fun m s => if xlt (xabs (binding_energy s)) m then xabs (binding_energy s) else m) ss (Fin 1.0) = Fin g /\ 0 < g /\ ss <> [] /\
      forall sh, In sh ss -> exists Eb, shell_numbers Eb sh /\ Eb < 1 /\ (0 <= number_of_secondary_electrons sh < 2 ^ 31)%Z /\ g + IZR (number_of_secondary_electrons sh) * w <= Eb).
  { intros l0 g Wv ss I0 B0 Hg HWv S. exists (Wv * eV), (g * eV). split; [apply xmul_fin|]. split; [apply Rmult_lt_0_compat; auto|].
    assert (Q : forall sh, In sh ss -> exists E, binding_energy sh = Fin E /\ 0 < E /\ g * eV <= E).
    { intros sh I. destruct (S sh I) as (E & ns & B & _ & _ & _ & NS & GE). exists (E * eV). split; [exact B|]. assert (0 <= IZR ns * Wv) by (apply Rmult_le_pos; [apply IZR_le; lia|lra]). split; [apply Rmult_lt_0_compat; lra|]. apply Rmult_le_compat_r; lra. }
    destruct (lowest_shell ss 1.0) as (x & X0 & LE & A & O); [intros sh I; destruct (Q sh I) as (E & B & P & _); exists E; auto|]. split.
    { rewrite X0. f_equal. apply Rle_antisym; [apply (A l0); auto|]. destruct O as [-> | (sh & I & B)]; [|destruct (Q sh I) as (E & B' & _ & GE); rewrite B in B'; apply Fin_inj in B'; lra].
      assert (g * eV <= 1000 * eV) by (apply Rmult_le_compat_r; lra). lra. }
    split; [apply Rmult_lt_0_compat; lra|]. split; [intros ->; destruct I0|]. intros sh I. destruct (S sh I) as (E & ns & B & QM & N & EL & NS & GE). exists (E * eV).
    destruct (Q sh I) as (E' & B' & P & _). rewrite B in B'. apply Fin_inj in B'. subst E'.
    split; [split; [exact B|]; split; [exact P|]; exists (1000.0 * keV); exact QM|]. split; [assert (E * eV < 10 ^ 5 * eV) by (apply Rmult_lt_compat_r; lra); lra|]. rewrite N. split; [lia|].
    replace (g * eV + IZR ns * (Wv * eV)) with ((g + IZR ns * Wv) * eV) by ring. apply Rmult_le_compat_r; lra. }
  destruct ((name =? "Xe") || (name =? "Xenon"))%string%bool.
  - destruct (make_shells IT "Xe" 500.0 xenon_shells) as [ss| | |] eqn:MS; try discriminate. cbn [bind] in H. apply Ok_inj in H. injection H as <- _. cbn [W electrons at_nucleus]. unfold Lowest_Binding_Energy. cbn [electrons].
    destruct (make_shells_back _ _ _ _ _ 5%Z 1%Z 12.4433 0%Z MS) as (l0 & I0 & B0); [unfold xenon_shells; cbn; tauto|].
    apply (K l0 12.4433 13.8 ss I0 B0); [lra|lra|]. intros sh I. destruct (make_shells_In _ _ _ _ _ _ MS I) as (n & l & E & ns & J & B & QM & N). exists E, ns. split; [exact B|]. split; [exact QM|]. split; [exact N|].
    clear - J. unfold xenon_shells in J. cbn [In] in J. repeat (destruct J as [J | J]; [injection J as _ _ <- <-; split; [lra|split; [lia|lra]]|]). destruct J.
  - destruct ((name =? "Ar") || (name =? "Argon"))%string%bool; [|discriminate].
    destruct (make_shells IT "Ar" 100.0 argon_shells) as [ss| | |] eqn:MS; try discriminate. cbn [bind] in H. apply Ok_inj in H. injection H as <- _. cbn [W electrons at_nucleus]. unfold Lowest_Binding_Energy. cbn [electrons].
    destruct (make_shells_back _ _ _ _ _ 3%Z 1%Z 16.0824 0%Z MS) as (l0 & I0 & B0); [unfold argon_shells; cbn; tauto|].
    apply (K l0 16.0824 19.6 ss I0 B0); [lra|lra|]. intros sh I. destruct (make_shells_In _ _ _ _ _ _ MS I) as (n & l & E & ns & J & B & QM & N). exists E, ns. split; [exact B|]. split; [exact QM|]. split; [exact N|].
    clear - J. unfold argon_shells in J. cbn [In] in J. repeat (destruct J as [J | J]; [injection J as _ _ <- <-; split; [lra|split; [lia|lra]]|]). destruct J.
Qed.
(** Every detector of such atoms meets the conditions of [electron_reach]. *)
Lemma shipped_detector s : i_atoms s <> [] -> (forall a, In a (i_atoms s) -> nucleus_numbers (at_nucleus a) /\ exists IT wd name wd', Atom_by_name IT wd name = Ok (a, wd')) ->
  exists gap w, Energy_Gap s = Fin gap /\ Lowest_W s = Fin w /\ 0 < gap /\ 0 < w /\ forall a, In a (i_atoms s) -> atom_numbers gap a /\ plain_atom gap a.
Proof.
  intros N H. destruct (lowest_of W (i_atoms s) 1e10) as (w & LW & _ & WA & WO). { intros a I. destruct (H a I) as (_ & IT & wd & nm & wd' & E). destruct (shipped_shells _ _ _ _ _ E) as (x & _ & EX & _). exists x. exact EX. }
  destruct (lowest_of Lowest_Binding_Energy (i_atoms s) 1e10) as (gap & LG & _ & GA & GO). { intros a I. destruct (H a I) as (_ & IT & wd & nm & wd' & E). destruct (shipped_shells _ _ _ _ _ E) as (x & g & _ & _ & EX & _). exists g. exact EX. }
  exists gap, w. split; [exact LG|]. split; [exact LW|].
  split. { destruct GO as [-> | (a & I & EQ)]; [lra|]. destruct (H a I) as (_ & IT & wd & nm & wd' & E). destruct (shipped_shells _ _ _ _ _ E) as (x & g & _ & _ & EX & P & _). rewrite EX in EQ. apply Fin_inj in EQ. lra. }
  split. { destruct WO as [-> | (a & I & EQ)]; [lra|]. destruct (H a I) as (_ & IT & wd & nm & wd' & E). destruct (shipped_shells _ _ _ _ _ E) as (x & g & EX & P & _). rewrite EX in EQ. apply Fin_inj in EQ. lra. }
  intros a I. destruct (H a I) as (NN & IT & wd & nm & wd' & E). destruct (shipped_shells _ _ _ _ _ E) as (x & g & EX & P & EG & PG & _ & S). assert (GL := GA a g I EG). split.
  - exists x. split; [exact EX|]. split; [exact P|]. split; [exact NN|]. intros sh J. destruct (S sh J) as (Eb & SN & _ & NS & GE). exists Eb. split; [exact SN|]. split; [exact NS|]. lra.
  - split; [exact NN|]. intros sh J. destruct (S sh J) as (Eb & SN & _ & NS & GE). exists Eb. split; [exact SN|]. assert (0 <= IZR (number_of_secondary_electrons sh) * x) by (apply Rmult_le_pos; [apply IZR_le; lia|lra]). lra.
Qed.

(** * Instances *)
Lemma nucleus1_numbers : nucleus_numbers (at_nucleus atom1).
Proof. split; [|exists 1; split; [exact mass1|lra]]. intros t [<- | []]. exists 1, 1. cbn. split; [reflexivity|]. split; [lra|reflexivity]. Qed.
Lemma shell1_numbers : shell_numbers (3 / 4) shell1.
Proof. split; [reflexivity|]. split; [lra|]. exists 2. reflexivity. Qed.
Lemma energy1 : shell_energy mElectron = mElectron / 2.
Proof. unfold shell_energy. assert (H := mElectron_pos). replace 2.0 with 2 by lra. field. lra. Qed.
Lemma gap1 sh : binding_energy sh = Fin (3 / 4) -> forall nu w, fold_left (fun gap a => if xlt (Lowest_Binding_Energy a) gap then Lowest_Binding_Energy a else gap) [mkAtom nu [sh] w] (Fin 1e10) = Fin (3 / 4).
Proof. intros B nu w. unfold Lowest_Binding_Energy. cbn [fold_left electrons]. rewrite B, xabs_fin, Rabs_pos_eq by lra. rewrite (xlt_true (3 / 4) 1.0) by lra. rewrite xlt_true by lra. reflexivity. Qed.
Lemma W1 nu shs : fold_left (fun w a => if xlt (W a) w then W a else w) [mkAtom nu shs (Fin 1)] (Fin 1e10) = Fin 1.
Proof. cbn [fold_left W]. rewrite xlt_true by lra. reflexivity. Qed.
(** One shell bound by 3/4, W = 1, at least two electrons: at least 7/4 GeV; at speeds up to 1 a mass of 7/2; here the mass is 2. *)
Lemma electron_reach_instance : exists s mm, Use_Electron_Threshold 2 5 ion1 = Ok s /\ ideal_quadrature (x_Integrate X1) /\ ideal_binomial (x_PMF_Binomial X1) /\ b_using_threshold (i_base s) = false /\ i_using_ne_threshold s = true /\
  Energy_Gap s = Fin (3 / 4) /\ Lowest_W s = Fin 1 /\ (forall a, In a (i_atoms s) -> atom_numbers (3 / 4) a) /\ finite_fractions s /\ b_flat_efficiency (i_base s) = Fin 1.0 /\ finite_rates X1 DM1 D1 s /\
  d_vmax D1 = Fin 1 /\ dm_mass DM1 = Fin 2 /\ Ionization_Minimum_Mass (Fin 1) s = Fin mm /\ 2 < mm.
Proof.
  eexists. exists (7 / 2). split; [reflexivity|]. split; [exact ideal_quadrature_exists|]. split; [exact exact_binomial_ideal|]. split; [reflexivity|]. split; [reflexivity|].
  split; [apply (gap1 shell1); reflexivity|]. split; [apply W1|].
  split. { intros a [<- | []]. exists 1. split; [reflexivity|]. split; [lra|]. split; [exact nucleus1_numbers|]. intros sh [<- | []]. exists (3 / 4). split; [exact shell1_numbers|]. split; [cbn; lia|]. cbn. lra. }
  split; [exists [1]; split; reflexivity|]. split; [reflexivity|].
  split. { intros a sh w [<- | []] [<- | []] EW. apply Fin_inj in EW. subst w. exists [mElectron], 1. split; [reflexivity|]. split; [reflexivity|]. intros k [<- | []]. rewrite energy1. split; [rewrite two31; cbn; unfold mElectron; lra|].
    destruct (shell1_rate (mElectron / 2)) as [r [Hr R]]; [unfold mElectron; lra|]. exists (1.0 * r). unfold Ionization_dRdE_shell. cbn [i_channel with_ne with_i_base with_i_flags ion1 Ionization_start]. fold atom1. rewrite mass1. change (x_Integrate X1) with reference_Integrate. rewrite R. cbn [bind]. apply f_equal. apply xmul_fin. }
  split; [reflexivity|]. split; [reflexivity|]. split; [|lra].
  rewrite (electron_minimum_mass _ 1 (3 / 4) 1); try reflexivity; [|apply (gap1 shell1); reflexivity|apply W1|lra]. f_equal. cbn [i_ne_threshold with_ne]. lra.
Qed.
(** The condition on the secondary electrons is needed: a shell bound by 3/4 that nevertheless frees a second electron at W = 1. *)
Lemma secondary_refuted : exists s X DM D v m mm r, Use_Electron_Threshold 2 5 ion2 = Ok s /\ ideal_quadrature (x_Integrate X) /\ ideal_binomial (x_PMF_Binomial X) /\ d_vmax D = Fin v /\ dm_mass DM = Fin m /\ 0 < v /\ 0 < m /\
  Ionization_Minimum_Mass (Fin v) s = Fin mm /\ m < mm /\ R_ne X DM D s 2 = Ok (Fin r) /\ 0 < r.
Proof.
  destruct R_ne_2 as (c & Hc & R). eexists. exists X1, DM1, D1, 1, 2, (7 / 2), (5 / 6 * c). split; [reflexivity|]. split; [exact ideal_quadrature_exists|]. split; [exact exact_binomial_ideal|]. split; [reflexivity|]. split; [reflexivity|]. split; [lra|]. split; [lra|].
  split. { rewrite (electron_minimum_mass _ 1 (3 / 4) 1); try reflexivity; [|apply (gap1 shell2); reflexivity|apply W1|lra]. f_equal. cbn [i_ne_threshold with_ne]. lra. }
  split; [lra|]. split; [|lra]. match goal with |- R_ne _ _ _ ?z _ = _ => rewrite (R_ne_same ion2 z eq_refl eq_refl eq_refl eq_refl) end. rewrite R by lia. rewrite law_1_2. reflexivity.
Qed.
