(** The spectra of electrons from atoms, crystals and the Migdal effect as sums and integrals (C92-C94). *)
From Coq Require Import Reals ZArith String Lia Lra Bool.
From Coquelicot Require Import Coquelicot.
From Coq Require Import List.
From Verif Require Import Base XrFacts Quadrature Nucleus_Model Nuclear_Model Particle_Model CrossSection_Model Distribution_Model Atom_Model Crystal_Model Rates_Model
  Kinematics_Proofs Eta_Proofs Detector_Model DetectorTypes_Model DetectorBins_Proofs Electrons_Proofs Formulas_Proofs.
Import ListNotations.
Local Open Scope R_scope.

(** * Specification *)
(** The integral of the flux times the cross section c / v^2 over the speeds from vmin to vmax (zero if there are none). *)
Definition speed_integral (f : R -> R) (rho m c vmin vmax J : R) : Prop :=
  (vmax <= vmin -> J = 0) /\ (vmin < vmax -> is_RInt (fun v => rho / m * v * f v * (c / v ^ 2)) vmin vmax J).
(** The speed needed to transfer the momentum q and the energy dE. *)
Definition vneed (m dE q : R) : R := dE / q + q / (2 * m).
(** The momenta a particle of mass m and speed v can transfer with the energy Eb. *)
Definition qlow (m v Eb : R) : R := m * v - sqrt ((m * v) ^ 2 - 2 * m * Eb).
Definition qhigh (m v Eb : R) : R := m * v + sqrt ((m * v) ^ 2 - 2 * m * Eb).
(** n + 1 points with constant ratios from a to b. *)
Definition log_point (a b : R) (n k : nat) : R := a * Rpower (b / a) (INR k / INR n).
(** The trapezoid rule with n intervals. *)
Definition trapezoid (g : R -> R) (a b : R) (n : nat) : R :=
  (b - a) / INR n * (g a / 2 + Rsum (map (fun k => g (a + INR k * ((b - a) / INR n))) (seq 1 (n - 1))) + g b / 2).

Lemma speed_integral_value f rho m c vmin vmax J e : vmin <= vmax -> speed_integral f rho m c vmin vmax J -> is_RInt (fun v => rho / m * v * f v * (c / v ^ 2)) vmin vmax (rho / m * c * e) -> J = rho / m * c * e.
Proof.
  intros L (J0 & J1) E. destruct L as [L | L].
  - apply (is_RInt_unique (V := R_CompleteNormedModule)) in E. specialize (J1 L). apply (is_RInt_unique (V := R_CompleteNormedModule)) in J1. rewrite E in J1. symmetry. exact J1.
  - subst vmax. rewrite J0 by lra. assert (P := is_RInt_point (V := R_NormedModule) (fun v => rho / m * v * f v * (c / v ^ 2)) vmin). apply (is_RInt_unique (V := R_CompleteNormedModule)) in P. apply (is_RInt_unique (V := R_CompleteNormedModule)) in E. rewrite P in E. exact E.
Qed.

(** * One momentum *)
Lemma vneed_pos m dE q : 0 < m -> 0 <= dE -> 0 < q -> 0 < vneed m dE q.
Proof. intros. unfold vneed. assert (0 <= dE / q) by (apply Rmult_le_pos; [auto|left; apply Rinv_0_lt_compat; auto]). assert (0 < q / (2 * m)) by (apply Rdiv_lt_0_compat; lra). lra. Qed.
Lemma ER_term_value Integrate DM D shell m f rho vmax lo hi Ee Eb dl q c J : ideal_quadrature Integrate -> mean_inverse D f rho vmax lo hi ->
  dm_mass DM = Fin m -> 0 < m -> binding_energy shell = Fin Eb -> 0 <= Eb -> 0 <= Ee -> 0 < q ->
  (vneed m (Eb + Ee) q < vmax -> lo <= vneed m (Eb + Ee) q <= hi) -> inverse_square (fun v => dm_d2Sigma_Ionization DM (Fin q) (Fin Ee) v shell) c ->
  speed_integral f rho m c (vneed m (Eb + Ee) q) vmax J -> ER_term Integrate (Fin Ee) DM D shell (Fin dl) (Fin q) = Ok (Fin (2 * dl * q ^ 2 * J)).
Proof.
  intros Q H Em Hm EB HB HE Hq C S SJ. assert (H' := H). destruct H' as (R1 & R2 & R3 & R4).
  assert (V0 := vneed_pos m (Eb + Ee) q Hm ltac:(lra) Hq). unfold ER_term. rewrite Em, R2, EB, xadd_fin, vMinimal_Electrons_fin by auto. fold (vneed m (Eb + Ee) q).
  destruct (Rlt_le_dec (vneed m (Eb + Ee) q) vmax) as [L | L].
  - destruct (flux_integral Integrate D f rho vmax lo hi _ _ m _ Q H S Hm V0 (C L) (Rlt_le _ _ L)) as (e & E1 & E2 & E3 & E4).
    rewrite (speed_integral_value _ _ _ _ _ _ J e (Rlt_le _ _ L) SJ E4). rewrite xlt_true by auto. destruct (dm_use_eta DM && d_use_eta D)%bool.
    + replace (Fin 1.0e-3) with (Fin (1 / 1000)) by (f_equal; lra). rewrite S by lra. rewrite E1, R1. cbn [bind]. rewrite !xmul_fin, xdiv_fin, xmul_fin by lra. do 2 f_equal. replace 2.0 with 2 by lra. field. lra.
    + rewrite E3. cbn [bind]. rewrite !xmul_fin. do 2 f_equal. replace 2.0 with 2 by lra. ring.
  - rewrite xlt_false by auto. destruct SJ as [-> _]; auto. do 2 f_equal. ring.
Qed.
Lemma Crystal_term_value Integrate DM D x m f rho vmax lo hi Ee dq0 qi c J : ideal_quadrature Integrate -> mean_inverse D f rho vmax lo hi ->
  dm_mass DM = Fin m -> 0 < m -> dq x = Fin dq0 -> 0 < dq0 -> (0 <= qi)%Z -> 0 <= Ee ->
  (vneed m Ee (IZR (qi + 1) * dq0) <= vmax -> lo <= vneed m Ee (IZR (qi + 1) * dq0) <= hi) -> inverse_square (fun v => dm_d2Sigma_Crystal DM (Fin (IZR (qi + 1) * dq0)) (Fin Ee) v x) c ->
  speed_integral f rho m c (vneed m Ee (IZR (qi + 1) * dq0)) vmax J ->
  Crystal_term Integrate (Fin Ee) DM D x qi = Ok (Fin ((((IZR (qi + 1) + 1 / 2) * dq0) ^ 2 - ((IZR (qi + 1) - 1 / 2) * dq0) ^ 2) * J)).
Proof.
  intros Q H Em Hm Ed Hd Hi HE C S SJ. assert (H' := H). destruct H' as (R1 & R2 & R3 & R4). assert (QP : 0 < IZR (qi + 1) * dq0) by (apply Rmult_lt_0_compat; auto; apply (IZR_lt 0); lia).
  replace (((IZR (qi + 1) + 1 / 2) * dq0) ^ 2 - ((IZR (qi + 1) - 1 / 2) * dq0) ^ 2) with (2 * (IZR (qi + 1) * dq0) * dq0) by field.
  assert (V0 := vneed_pos m Ee _ Hm HE QP). unfold Crystal_term. rewrite Em, R2, Ed, xmul_fin. set (q := IZR (qi + 1) * dq0) in *. rewrite vMinimal_Electrons_fin by auto. fold (vneed m Ee q).
  destruct (Rle_lt_dec (vneed m Ee q) vmax) as [L | L].
  - destruct (flux_integral Integrate D f rho vmax lo hi _ _ m _ Q H S Hm V0 (C L) L) as (e & E1 & E2 & E3 & E4).
    rewrite (speed_integral_value _ _ _ _ _ _ J e L SJ E4). rewrite xlt_false by auto. destruct (dm_use_eta DM && d_use_eta D)%bool.
    + replace (Fin 1e-3) with (Fin (1 / 1000)) by (f_equal; lra). rewrite S by lra. rewrite E1, R1. cbn [bind]. rewrite !xmul_fin, xdiv_fin, !xmul_fin by lra. do 2 f_equal. replace 2.0 with 2 by lra. field. lra.
    + rewrite E3. cbn [bind]. rewrite !xmul_fin. do 2 f_equal. replace 2.0 with 2 by lra. ring.
  - rewrite xlt_true by auto. rewrite (proj1 SJ (Rlt_le _ _ L)). do 2 f_equal. ring.
Qed.

(** * A shell *)
Lemma window_value DM D m v shell Eb qc : real_setting DM D m v -> binding_energy shell = Fin Eb -> q_max shell = Fin qc ->
  (m * v ^ 2 / 2 < Eb \/ qc < qlow m v Eb -> ER_window DM D shell = None) /\
  (Eb <= m * v ^ 2 / 2 -> qlow m v Eb <= qc -> ER_window DM D shell = Some (Fin (qlow m v Eb), Fin (Rmin qc (qhigh m v Eb)))).
Proof.
  intros (E1 & E2 & Hm & Hv) EB EQ. unfold ER_window. rewrite E1, E2, EB, EQ, xdiv_fin, !xmul_fin by lra. replace 2.0 with 2 by lra.
  replace (m / 2 * v * v) with (m * v ^ 2 / 2) by field. unfold qlow, qhigh. replace (m * m * v * v) with ((m * v) ^ 2) by ring. rewrite xsub_fin.
  assert (P : Eb <= m * v ^ 2 / 2 -> 0 <= (m * v) ^ 2 - 2 * m * Eb).
  { intros K. apply (Rmult_le_compat_l (2 * m)) in K; [|lra]. replace (2 * m * (m * v ^ 2 / 2)) with ((m * v) ^ 2) in K by field. lra. }
  split.
  - intros K. destruct (Rlt_le_dec (m * v ^ 2 / 2) Eb) as [L | L]; [rewrite xlt_true by auto; reflexivity|]. destruct K as [K | K]; [lra|]. rewrite xlt_false by auto.
    rewrite xsqrt_fin by auto. rewrite xsub_fin. rewrite xlt_true by exact K. reflexivity.
  - intros L1 L2. rewrite xlt_false by auto. rewrite xsqrt_fin by auto. rewrite xsub_fin, xadd_fin. rewrite (xlt_false qc) by exact L2. unfold Rmin. destruct Rle_dec as [L | L].
    + destruct L as [L | L]; [rewrite xlt_true by auto; reflexivity|]. rewrite xlt_false by lra. rewrite L. reflexivity.
    + rewrite xlt_false by lra. reflexivity.
Qed.
Lemma qlow_pos m v Eb : 0 < m -> 0 < v -> 0 < Eb -> Eb <= m * v ^ 2 / 2 -> 0 < qlow m v Eb /\ qlow m v Eb <= m * v <= qhigh m v Eb /\ vneed m Eb (qlow m v Eb) = v /\ vneed m Eb (qhigh m v Eb) = v.
Proof.
  intros Hm Hv HB K. unfold qlow, qhigh. assert (P : 0 <= (m * v) ^ 2 - 2 * m * Eb).
  { apply (Rmult_le_compat_l (2 * m)) in K; [|lra]. replace (2 * m * (m * v ^ 2 / 2)) with ((m * v) ^ 2) in K by field. lra. }
  set (r := sqrt ((m * v) ^ 2 - 2 * m * Eb)). assert (R0 : 0 <= r) by apply sqrt_pos. assert (RR : r * r = (m * v) ^ 2 - 2 * m * Eb) by (apply sqrt_sqrt; auto).
  assert (MV : 0 < m * v) by (apply Rmult_lt_0_compat; auto). assert (ME : 0 < m * Eb) by (apply Rmult_lt_0_compat; auto).
  assert (R1 : r < m * v). { destruct (Rlt_le_dec r (m * v)) as [L | L]; auto. assert (m * v * (m * v) <= r * r) by (apply Rmult_le_compat; lra). nra. }
  split; [lra|]. split; [lra|]. unfold vneed.
  assert (A : forall q, 0 < q -> q * q - 2 * (m * v) * q + 2 * m * Eb = 0 -> Eb / q + q / (2 * m) = v).
  { intros q Hq HQ. apply (Rmult_eq_reg_r (2 * m * q)); [|apply Rgt_not_eq; apply Rmult_lt_0_compat; lra]. replace ((Eb / q + q / (2 * m)) * (2 * m * q)) with (2 * m * Eb + q * q) by (field; lra). lra. }
  split; apply A; try lra; nra.
Qed.
Lemma log_grid a b : 0 < a -> 0 < b -> Log_Space (Fin a) (Fin b) 100 = map (fun k => Fin (log_point a b 99 k)) (seq 0 100).
Proof.
  intros A B. unfold Log_Space. apply map_ext. intros k. rewrite !xlog_fin by auto. change (100 - 1)%nat with 99%nat. assert (N : INR 99 <> 0) by (apply not_0_INR; lia).
  rewrite xsub_fin, xdiv_fin, xmul_fin, xadd_fin, xexp_fin by auto. f_equal. unfold log_point, Rpower. rewrite ln_div by auto. rewrite exp_plus, exp_ln by auto. f_equal. f_equal. field. auto.
Qed.
Lemma log_point_between a b k : 0 < a -> a <= b -> (k <= 99)%nat -> a <= log_point a b 99 k <= b.
Proof.
  intros A L K. assert (I : In (Fin (log_point a b 99 k)) (Log_Space (Fin a) (Fin b) 100)). { rewrite log_grid by lra. apply in_map_iff. exists k. split; auto. apply in_seq. lia. }
  destruct (log_space_between a b 100 _ A L ltac:(lia) I) as (x & E & H). injection E as ->. exact H.
Qed.
Lemma log_step a b : 0 < a -> 0 < b -> ln (log_point a b 99 1 / log_point a b 99 0) = ln (b / a) / 99.
Proof.
  intros A B. unfold log_point, Rpower. assert (N : INR 99 = 99) by (rewrite INR_IZR_INZ; reflexivity). rewrite N. replace (INR 0 / 99 * ln (b / a)) with 0 by (cbn; field). rewrite exp_0.
  replace (a * exp (INR 1 / 99 * ln (b / a)) / (a * 1)) with (exp (INR 1 / 99 * ln (b / a))) by (field; lra). rewrite ln_exp. cbn. field.
Qed.
(** What the spectrum of a shell is made of: binding energy, cut-off of the tabulated momenta, the constants c(q) of the cross sections and the speed integrals J(q). *)
Definition shell_setting (DM : DM_interface) (D : Distr_interface) (shell : Atomic_Electron) (f : R -> R) (rho m vmax lo hi Ee Eb qc : R) (c J : R -> R) : Prop :=
  mean_inverse D f rho vmax lo hi /\ real_setting DM D m vmax /\ binding_energy shell = Fin Eb /\ 0 < Eb /\ q_max shell = Fin qc /\ 0 <= Ee /\
  forall q, qlow m vmax Eb <= q <= Rmin qc (qhigh m vmax Eb) -> (vneed m (Eb + Ee) q < vmax -> lo <= vneed m (Eb + Ee) q <= hi) /\
     inverse_square (fun v => dm_d2Sigma_Ionization DM (Fin q) (Fin Ee) v shell) (c q) /\ speed_integral f rho m (c q) (vneed m (Eb + Ee) q) vmax (J q).
Lemma shell_zero Integrate DM D shell m v Eb qc Ee mn : real_setting DM D m v -> binding_energy shell = Fin Eb -> q_max shell = Fin qc -> m * v ^ 2 / 2 < Eb \/ qc < qlow m v Eb ->
  dRdEe_ER_shell Integrate Ee DM D mn shell = Ok (Fin 0).
Proof. intros R EB EQ K. unfold dRdEe_ER_shell. destruct (window_value DM D m v shell Eb qc R EB EQ) as [W _]. rewrite W by auto. do 2 f_equal. lra. Qed.
Lemma shell_sum Integrate DM D shell f rho m vmax lo hi Ee Eb qc c J mn : ideal_quadrature Integrate -> shell_setting DM D shell f rho m vmax lo hi Ee Eb qc c J ->
  Eb <= m * vmax ^ 2 / 2 -> qlow m vmax Eb <= qc -> 0 < mn ->
  let a := qlow m vmax Eb in let b := Rmin qc (qhigh m vmax Eb) in
  dRdEe_ER_shell Integrate (Fin Ee) DM D (Fin mn) shell =
    Ok (Fin (1 / mn * Rsum (map (fun k => 2 * (ln (b / a) / 99) * log_point a b 99 k ^ 2 * J (log_point a b 99 k)) (seq 0 100)))).
Proof.
  intros Q (H & RS & EB & HB & EQ & HE & T) L1 L2 Hmn a b. assert (RS' := RS). destruct RS' as (Em & EV & Hm & Hv). unfold dRdEe_ER_shell.
  destruct (window_value DM D m vmax shell Eb qc RS EB EQ) as [_ W]. rewrite W by auto. fold a b.
  destruct (qlow_pos m vmax Eb Hm Hv HB L1) as (A & (B1 & B2) & _). fold a in A, B1, L2. assert (AB : a <= b) by (unfold b; apply Rmin_glb; lra). assert (B : 0 < b) by lra.
  rewrite log_grid by auto. unfold at_ub. rewrite !nth_error_map. cbn [nth_error seq option_map bind]. rewrite <- (seq_shift 99 0) at 1.
  assert (G : forall k, (k <= 99)%nat -> 0 < log_point a b 99 k) by (intros k Hk; assert (K := log_point_between a b k A AB Hk); lra).
  assert (G0 := G 0%nat ltac:(lia)). assert (G1 := G 1%nat ltac:(lia)).
  rewrite xdiv_fin by lra. rewrite xlog_fin by (apply Rdiv_lt_0_compat; auto). rewrite log_step by auto.
  rewrite seq_shift. change (0%nat :: seq 1 99) with (seq 0 100).
  rewrite (sum_res_values _ (fun x => 2 * (ln (b / a) / 99) * val x ^ 2 * J (val x))).
  - cbn [bind]. rewrite xdiv_fin, xmul_fin by lra. rewrite map_map. cbn [val]. do 3 f_equal; lra.
  - intros x I. apply in_map_iff in I. destruct I as (k & <- & I). apply in_seq in I. cbn [val]. assert (K := log_point_between a b k A AB ltac:(lia)). destruct (T _ K) as (T1 & T2 & T3).
    apply (ER_term_value Integrate DM D shell m f rho vmax lo hi Ee Eb _ _ (c (log_point a b 99 k))); auto; try lra.
Qed.
(** ** The sum as a trapezoid rule in the logarithm of the momentum *)
Lemma Rsum_ends (g : nat -> R) : Rsum (map g (seq 0 100)) = g 0%nat + Rsum (map g (seq 1 98)) + g 99%nat.
Proof. change (seq 0 100) with (0%nat :: seq 1 98 ++ [99%nat]). cbn [map]. rewrite map_app. unfold Rsum at 1. cbn [fold_right]. fold (Rsum (map g (seq 1 98) ++ map g [99%nat])). rewrite Rsum_app. cbn [map Rsum fold_right]. unfold Rsum. cbn [fold_right]. lra. Qed.
Lemma trapezoid_sum a b (J : R -> R) : 0 < a -> 0 < b ->
  Rsum (map (fun k => 2 * (ln (b / a) / 99) * log_point a b 99 k ^ 2 * J (log_point a b 99 k)) (seq 0 100)) =
  trapezoid (fun x => 2 * exp x ^ 2 * J (exp x)) (ln a) (ln b) 99 + ln (b / a) / 99 * (a ^ 2 * J a + b ^ 2 * J b).
Proof.
  intros A B. assert (N : INR 99 = 99) by (rewrite INR_IZR_INZ; reflexivity). rewrite Rsum_ends. unfold trapezoid. rewrite !exp_ln by auto. rewrite N. change (99 - 1)%nat with 98%nat.
  assert (L0 : log_point a b 99 0 = a). { unfold log_point, Rpower. replace (INR 0 / INR 99 * ln (b / a)) with 0 by (rewrite N; cbn; field). rewrite exp_0. ring. }
  assert (L9 : log_point a b 99 99 = b). { unfold log_point, Rpower. replace (INR 99 / INR 99 * ln (b / a)) with (ln (b / a)) by (rewrite N; field). rewrite exp_ln by (apply Rdiv_lt_0_compat; auto). field. lra. }
  rewrite L0, L9.
  assert (S : Rsum (map (fun k => 2 * (ln (b / a) / 99) * log_point a b 99 k ^ 2 * J (log_point a b 99 k)) (seq 1 98)) =
    (ln b - ln a) / 99 * Rsum (map (fun k => 2 * exp (ln a + INR k * ((ln b - ln a) / 99)) ^ 2 * J (exp (ln a + INR k * ((ln b - ln a) / 99)))) (seq 1 98))).
  { rewrite <- Rsum_scale. f_equal. rewrite map_map || idtac. apply map_ext. intros k.
    replace (exp (ln a + INR k * ((ln b - ln a) / 99))) with (log_point a b 99 k); [rewrite ln_div by auto; field|].
    unfold log_point, Rpower. rewrite exp_plus, exp_ln by auto. f_equal. f_equal. rewrite N, ln_div by auto. field. }
  rewrite S, ln_div by auto. lra.
Qed.
Lemma shell_trapezoid Integrate DM D shell f rho m vmax lo hi Ee Eb qc c J mn : ideal_quadrature Integrate -> shell_setting DM D shell f rho m vmax lo hi Ee Eb qc c J ->
  Eb <= m * vmax ^ 2 / 2 -> 0 < mn ->
  (qhigh m vmax Eb <= qc -> dRdEe_ER_shell Integrate (Fin Ee) DM D (Fin mn) shell =
     Ok (Fin (1 / mn * trapezoid (fun x => 2 * exp x ^ 2 * J (exp x)) (ln (qlow m vmax Eb)) (ln (qhigh m vmax Eb)) 99))) /\
  (qlow m vmax Eb <= qc <= qhigh m vmax Eb -> dRdEe_ER_shell Integrate (Fin Ee) DM D (Fin mn) shell =
     Ok (Fin (1 / mn * (trapezoid (fun x => 2 * exp x ^ 2 * J (exp x)) (ln (qlow m vmax Eb)) (ln qc) 99 + ln (qc / qlow m vmax Eb) / 99 * (qc ^ 2 * J qc))))).
Proof.
  intros Q S L Hmn. assert (S' := S). destruct S' as (H & (Em & EV & Hm & Hv) & EB & HB & EQ & HE & T).
  destruct (qlow_pos m vmax Eb Hm Hv HB L) as (A & (B1 & B2) & V1 & V2).
  assert (ZERO : forall q, 0 < q -> vneed m Eb q = vmax -> qlow m vmax Eb <= q <= Rmin qc (qhigh m vmax Eb) -> J q = 0).
  { intros q Hq HV HW. destruct (T q HW) as (_ & _ & (Z & _)). apply Z. rewrite <- HV. unfold vneed. assert (0 <= Ee / q) by (apply Rmult_le_pos; [auto|left; apply Rinv_0_lt_compat; auto]).
    replace ((Eb + Ee) / q) with (Eb / q + Ee / q) by (field; lra). lra. }
  split.
  - intros K. rewrite (shell_sum Integrate DM D shell f rho m vmax lo hi Ee Eb qc c J mn); auto; try lra. rewrite Rmin_right by auto.
    rewrite trapezoid_sum by lra. rewrite (ZERO (qlow m vmax Eb)), (ZERO (qhigh m vmax Eb)); auto; try lra; try (rewrite Rmin_right by auto; lra). do 3 f_equal. lra.
  - intros K. rewrite (shell_sum Integrate DM D shell f rho m vmax lo hi Ee Eb qc c J mn); auto; try lra. rewrite Rmin_left by lra.
    rewrite trapezoid_sum by lra. rewrite (ZERO (qlow m vmax Eb)); auto; try (rewrite Rmin_left by lra; lra). do 3 f_equal. lra.
Qed.
(** An atom: all shells. *)
Lemma atom_sum Integrate Ee DM D a (rate : Atomic_Electron -> R) :
  (forall s, In s (electrons a) -> dRdEe_ER_shell Integrate Ee DM D (Average_Nuclear_Mass (at_nucleus a)) s = Ok (Fin (rate s))) ->
  dRdEe_ER_atom Integrate Ee DM D a = Ok (Fin (Rsum (map rate (electrons a)))).
Proof. intros H. apply sum_res_values. exact H. Qed.

(** * Crystals *)
Lemma crystal_sum Integrate DM D x f rho m vmax lo hi Ee dq0 M emax (c J : R -> R) : ideal_quadrature Integrate -> mean_inverse D f rho vmax lo hi ->
  dm_mass DM = Fin m -> 0 < m -> dq x = Fin dq0 -> 0 < dq0 -> M_cell x = Fin M -> 0 < M -> E_max x = Fin emax -> 0 <= Ee <= emax ->
  (forall i, (1 <= i <= Z.to_nat (N_q x))%nat -> let q := INR i * dq0 in (vneed m Ee q <= vmax -> lo <= vneed m Ee q <= hi) /\
     inverse_square (fun v => dm_d2Sigma_Crystal DM (Fin q) (Fin Ee) v x) (c q) /\ speed_integral f rho m (c q) (vneed m Ee q) vmax (J q)) ->
  dRdEe_Crystal Integrate (Fin Ee) DM D x =
    Ok (Fin (1 / M * Rsum (map (fun i => (((INR i + 1 / 2) * dq0) ^ 2 - ((INR i - 1 / 2) * dq0) ^ 2) * J (INR i * dq0)) (seq 1 (Z.to_nat (N_q x)))))).
Proof.
  intros Q H Em Hm Ed Hd EM HM EX HE T. unfold dRdEe_Crystal. rewrite EX, xlt_false by lra. unfold Zrange. rewrite Z.sub_0_r.
  rewrite (sum_res_values _ (fun qi => (((IZR (qi + 1) + 1 / 2) * dq0) ^ 2 - ((IZR (qi + 1) - 1 / 2) * dq0) ^ 2) * J (IZR (qi + 1) * dq0))).
  - cbn [bind]. rewrite EM, xdiv_fin, xmul_fin by lra. rewrite map_map. rewrite <- seq_shift, map_map. do 3 f_equal; [lra|]. f_equal. apply map_ext. intros k.
    replace (IZR (0 + Z.of_nat k + 1)) with (INR (S k)); [reflexivity|]. rewrite INR_IZR_INZ. f_equal. lia.
  - intros qi I. apply in_map_iff in I. destruct I as (k & <- & I). apply in_seq in I. destruct (T (S k) ltac:(lia)) as (T1 & T2 & T3).
    replace (INR (S k)) with (IZR (0 + Z.of_nat k + 1)) in T1, T2, T3 by (rewrite INR_IZR_INZ; f_equal; lia).
    apply (Crystal_term_value Integrate DM D x m f rho vmax lo hi Ee dq0 _ (c (IZR (0 + Z.of_nat k + 1) * dq0))); auto; try lra. lia.
Qed.
Lemma crystal_zero Integrate DM D x Ee emax : E_max x = Fin emax -> emax < Ee -> dRdEe_Crystal Integrate (Fin Ee) DM D x = Ok (Fin 0).
Proof. intros E H. unfold dRdEe_Crystal. rewrite E, xlt_true by auto. reflexivity. Qed.

(** * The Migdal effect *)
(** The constant of the doubly differential cross section d sigma / dE_R dE_e = C / v^2: the nuclear one times the ionization form factor over 4 E_e. *)
Lemma migdal_square I2 DM t shell M ER Ee c F : imass t = Fin M -> 0 < M -> 0 <= ER -> 0 < Ee ->
  inverse_square (dm_dSigma_dq2_Nucleus DM (Fin (sqrt (2 * M * ER))) t) c -> ionization_value I2 shell (Fin (mElectron * sqrt (2 * ER / M))) (Fin Ee) = Ok (Fin F) ->
  inverse_square (fun v => dm_d2Sigma_Migdal I2 DM (Fin ER) (Fin Ee) v t shell) (2 * M * c * F / (4 * Ee)).
Proof.
  intros EM HM HR HE S EF v Hv. unfold dm_d2Sigma_Migdal, dm_dSigma_dER. rewrite EM, !xmul_fin. rewrite xsqrt_fin by (apply Rmult_le_pos; lra). rewrite S by auto. cbn [bind]. rewrite xdiv_fin, !xmul_fin by lra.
  replace (mElectron / M * sqrt (2 * M * ER)) with (mElectron * sqrt (2 * ER / M)).
  - rewrite EF. cbn [bind]. rewrite !xdiv_fin, !xmul_fin by lra. do 2 f_equal. field. split; lra.
  - replace (2 * M * ER) with (M ^ 2 * (2 * ER / M)) by (field; lra). rewrite sqrt_mult_alt by nra. rewrite sqrt_pow2 by lra. field. lra.
Qed.
Definition migdal_const (M Ee c F : R) : R := 2 * M * c * F / (4 * Ee).
Lemma migdal_point Integrate I2 DM D t shell f rho m vmax lo hi M Ee Eb ER c F K : ideal_quadrature Integrate -> mean_inverse D f rho vmax lo hi -> real_setting DM D m vmax ->
  imass t = Fin M -> 0 < M -> binding_energy shell = Fin Eb -> 0 <= Eb -> 0 < Ee -> 0 < ER ->
  (vmig_R ER Ee m M Eb < vmax -> lo <= vmig_R ER Ee m M Eb <= hi) ->
  inverse_square (dm_dSigma_dq2_Nucleus DM (Fin (sqrt (2 * M * ER))) t) c -> ionization_value I2 shell (Fin (mElectron * sqrt (2 * ER / M))) (Fin Ee) = Ok (Fin F) ->
  speed_integral f rho m (migdal_const M Ee c F) (vmig_R ER Ee m M Eb) vmax K -> Migdal_integrand Integrate I2 (Fin Ee) DM D t shell (Fin ER) = Ok (Fin K).
Proof.
  intros Q H (Em & EV & Hm & Hv) EM HM EB HB HE HR C S EF SK. assert (H' := H). destruct H' as (R1 & R2 & R3 & R4).
  assert (SQ := migdal_square I2 DM t shell M ER Ee c F EM HM (Rlt_le _ _ HR) HE S EF). fold (migdal_const M Ee c F) in SQ. set (cc := migdal_const M Ee c F) in *.
  unfold Migdal_integrand. rewrite Em, EM, EB, R2. rewrite xlt_true by auto. rewrite vMinimal_Migdal_fin by auto. set (v0 := vmig_R ER Ee m M Eb) in *.
  assert (V0 : 0 < v0). { unfold v0, vmig_R. assert (0 <= sqrt (M * ER / (2 * mu m M ^ 2))) by apply sqrt_pos. assert (0 < (Ee + Eb) / sqrt (2 * M * ER)); [|lra]. apply Rdiv_lt_0_compat; [lra|]. apply sqrt_lt_R0. apply Rmult_lt_0_compat; lra. }
  destruct (Rlt_le_dec v0 vmax) as [L | L].
  - destruct (flux_integral Integrate D f rho vmax lo hi _ _ m _ Q H SQ Hm V0 (C L) (Rlt_le _ _ L)) as (e & E1 & E2 & E3 & E4).
    rewrite (speed_integral_value _ _ _ _ _ _ K e (Rlt_le _ _ L) SK E4). rewrite xle_false by auto. destruct (dm_use_eta DM && d_use_eta D)%bool.
    + replace (Fin 1.0e-3) with (Fin (1 / 1000)) by (f_equal; lra). rewrite E1. cbn [bind]. rewrite SQ by lra. cbn [bind]. rewrite R1, xdiv_fin, !xmul_fin by lra. do 2 f_equal. field. lra.
    + rewrite E3. reflexivity.
  - rewrite xle_true by auto. rewrite (proj1 SK L). do 2 f_equal. lra.
Qed.
Definition migdal_setting (I2 : interpolator2) (DM : DM_interface) (D : Distr_interface) (t : Isotope) (shell : Atomic_Electron) (f : R -> R) (rho m vmax lo hi M Ee Eb : R) (K : R -> R) : Prop :=
  mean_inverse D f rho vmax lo hi /\ real_setting DM D m vmax /\ imass t = Fin M /\ 0 < M /\ binding_energy shell = Fin Eb /\ 0 < Eb /\ 0 < Ee /\
  forall ER, let a := (Eb / vmax) ^ 2 / (2 * M) in let b := (2 * mu m M * vmax) ^ 2 / (2 * M) in Rmin a b <= ER <= Rmax a b -> exists c F,
    (vmig_R ER Ee m M Eb < vmax -> lo <= vmig_R ER Ee m M Eb <= hi) /\
    inverse_square (dm_dSigma_dq2_Nucleus DM (Fin (sqrt (2 * M * ER))) t) c /\ ionization_value I2 shell (Fin (mElectron * sqrt (2 * ER / M))) (Fin Ee) = Ok (Fin F) /\
    speed_integral f rho m (2 * M * c * F / (4 * Ee)) (vmig_R ER Ee m M Eb) vmax (K ER).
Lemma migdal_spectrum Integrate I2 DM D t shell f rho m vmax lo hi M Ee Eb K : ideal_quadrature Integrate -> migdal_setting I2 DM D t shell f rho m vmax lo hi M Ee Eb K ->
  ex_RInt K ((Eb / vmax) ^ 2 / (2 * M)) ((2 * mu m M * vmax) ^ 2 / (2 * M)) ->
  dRdEe_Migdal_isotope Integrate I2 (Fin Ee) DM D t shell = Ok (Fin (1 / M * RInt K ((Eb / vmax) ^ 2 / (2 * M)) ((2 * mu m M * vmax) ^ 2 / (2 * M)))).
Proof.
  intros Q (H & RS & EM & HM & EB & HB & HE & T) I. unfold dRdEe_Migdal_isotope. rewrite (migdal_window_fin DM D m vmax t M shell Eb) by auto.
  assert (RS' := RS). destruct RS' as (Em & EV & Hm & Hv). assert (A : 0 < (Eb / vmax) ^ 2 / (2 * M)) by (apply Rdiv_lt_0_compat; [apply pow_lt, Rdiv_lt_0_compat; auto|lra]).
  assert (B : 0 < (2 * mu m M * vmax) ^ 2 / (2 * M)). { apply Rdiv_lt_0_compat; [|lra]. apply pow_lt. assert (P := mu_pos m M Hm HM). apply Rmult_lt_0_compat; lra. }
  rewrite (Q _ K).
  - cbn [bind]. rewrite EM, xdiv_fin, xmul_fin by lra. do 3 f_equal. lra.
  - intros ER HR. destruct (T ER HR) as (c & F & T1 & T2 & T3 & T4). apply (migdal_point Integrate I2 DM D t shell f rho m vmax lo hi M Ee Eb ER c F); auto; try lra.
    revert HR. unfold Rmin. destruct Rle_dec; lra.
  - exact I.
Qed.
Lemma migdal_atom Integrate I2 Ee DM D a (ab : Isotope -> R) (rate : Isotope -> Atomic_Electron -> R) :
  (forall t s, In t (nisotopes (at_nucleus a)) -> In s (electrons a) -> iabundance t = Fin (ab t) /\ dRdEe_Migdal_isotope Integrate I2 Ee DM D t s = Ok (Fin (rate t s))) ->
  dRdEe_Migdal_atom Integrate I2 Ee DM D a = Ok (Fin (Rsum (map (fun s => Rsum (map (fun t => ab t * rate t s) (nisotopes (at_nucleus a)))) (electrons a)))).
Proof.
  intros H. apply (sum_res_values _ (fun s => Rsum (map (fun t => ab t * rate t s) (nisotopes (at_nucleus a))))). intros s Is. apply (sum_res_values _ (fun t => ab t * rate t s)). intros t It. destruct (H t s It Is) as [A B]. rewrite B. cbn [bind]. rewrite A, xmul_fin. reflexivity.
Qed.
