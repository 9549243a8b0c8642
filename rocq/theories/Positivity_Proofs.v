(** Predicted spectra and event numbers are finite and never negative (C110). *)
From Coq Require Import Reals ZArith String Lia Lra Bool.
From Coquelicot Require Import Coquelicot.
From Coq Require Import List Sorted.
From Verif Require Import Base XrFacts Quadrature Nucleus_Model Nuclear_Model Particle_Model CrossSection_Model CrossSection_Proofs Helm_Proofs Distribution_Model Atom_Model Crystal_Model Crystal_Proofs Rates_Model
  Kinematics_Proofs Eta_Proofs Detector_Model DetectorTypes_Model DetectorBins_Proofs Electrons_Proofs Formulas_Proofs ElectronSpectra_Proofs Spectra_Proofs Interpolation MaxGap_Proofs DetectorModes_Proofs DetectorSafety_Proofs Scaling_Proofs.
Import ListNotations.
Local Open Scope R_scope.

(** * Specification *)
(** A finite number that is not negative. *)
Definition nn (x : xr) : Prop := exists y, x = Fin y /\ 0 <= y.
(** A computation that returns no other number. *)
Definition fine (r : res xr) : Prop := forall x, r = Ok x -> nn x.
Definition fine_list (r : res (list xr)) : Prop := forall l, r = Ok l -> Forall nn l.

(** Integration: nothing negative comes out if nothing negative goes in and the limits are in order; zero is integrated to zero. *)
Definition positive_integrator (I : integrator) : Prop := forall f a b,
  (a <= b -> (forall x, a <= x <= b -> fine (f (Fin x))) -> fine (I f (Fin a) (Fin b))) /\
  ((forall x, Rmin a b <= x <= Rmax a b -> f (Fin x) = Ok (Fin 0)) -> fine (I f (Fin a) (Fin b))).
(** Interpolation over ascending points with values that are not negative, integrated from the first to the last. *)
Definition positive_interpolation (T : interpolation_integral) : Prop := forall xs ys, StronglySorted Rlt xs -> (2 <= List.length xs)%nat -> List.length ys = List.length xs -> Forall nn ys ->
  fine (T (map Fin xs) ys (Fin (hd 0 xs)) (Fin (last xs 0))).
Definition positive_externals (X : externals) : Prop := positive_integrator (x_Integrate X) /\ positive_interpolation (x_Interpolate X) /\
  forall n p k, 0 <= p <= 1 -> fine (x_PMF_Binomial X n (Fin p) k).

(** A dark matter particle of mass m; cross sections with the isotopes, shells or crystals for which [ok] holds. *)
Definition good_particle (DM : DM_interface) (m : R) : Prop := dm_mass DM = Fin m /\ 0 < m /\ nn (dm_fraction DM).
Definition good_nuclear (DM : DM_interface) (t : Isotope) : Prop := forall q v, 0 < q -> 0 < v -> fine (dm_dSigma_dq2_Nucleus DM (Fin q) t (Fin v)).
Definition good_ionization (DM : DM_interface) (sh : Atomic_Electron) : Prop := forall q E v, 0 < q -> 0 < E -> 0 < v -> fine (dm_d2Sigma_Ionization DM (Fin q) (Fin E) (Fin v) sh).
Definition good_crystal (DM : DM_interface) (c : Crystal) : Prop := forall q E v, 0 < q -> 0 < E -> 0 < v -> fine (dm_d2Sigma_Crystal DM (Fin q) (Fin E) (Fin v) c).
(** A halo: local density, largest speed, speed distribution and eta function. *)
Definition good_halo (D : Distr_interface) (vmax : R) : Prop := nn (d_rho D) /\ d_vmax D = Fin vmax /\ 0 < vmax /\
  forall v, 0 < v <= vmax -> fine (d_pdf_speed D (Fin v)) /\ fine (d_eta D (Fin v)).
(** Target materials. *)
Definition good_isotope (t : Isotope) : Prop := exists M, imass t = Fin M /\ 0 < M /\ nn (iabundance t).
Definition good_shell (sh : Atomic_Electron) : Prop := exists Eb qc, binding_energy sh = Fin Eb /\ 0 < Eb /\ q_max sh = Fin qc /\
  (exists dl, dlogk sh = Fin dl /\ 0 <= dl) /\ (forall k, In k (k_Grid sh) -> exists y, k = Fin y /\ 0 < y) /\ (exists km, k_max sh = Fin km).

(** * Tools *)
Lemma nn_fin x : 0 <= x -> nn (Fin x). Proof. intros. exists x. auto. Qed.
Lemma nn_mul a b : nn a -> nn b -> nn (xmul a b).
Proof. intros (x & -> & X) (y & -> & Y). rewrite xmul_fin. apply nn_fin. apply Rmult_le_pos; auto. Qed.
Lemma nn_add a b : nn a -> nn b -> nn (xadd a b).
Proof. intros (x & -> & X) (y & -> & Y). rewrite xadd_fin. apply nn_fin. lra. Qed.
Lemma nn_div a y : nn a -> 0 < y -> nn (xdiv a (Fin y)).
Proof. intros (x & -> & X) Y. rewrite xdiv_fin by lra. apply nn_fin. apply Rmult_le_pos; auto. left. apply Rinv_0_lt_compat; auto. Qed.
Lemma nn_xsum l : Forall nn l -> nn (xsum l).
Proof.
  unfold xsum. assert (G : forall l a, nn a -> Forall nn l -> nn (fold_left xadd l a)).
  { clear. induction l as [|x l IH]; intros a A F; cbn; auto. inversion F; subst. apply IH; auto. apply nn_add; auto. }
  intros F. apply G; auto. apply nn_fin. lra.
Qed.
Lemma fine_ok x : nn x -> fine (Ok x). Proof. intros H y E. apply Ok_inj in E. subst. auto. Qed.
Lemma fine_zero x : x = 0 -> fine (Ok (Fin x)). Proof. intros ->. apply fine_ok, nn_fin. lra. Qed.
Lemma fine_bind m k : fine m -> (forall x, nn x -> fine (k x)) -> fine (bind m k).
Proof. intros H K. destruct m as [a| | |]; cbn; try (intros ? E; discriminate). apply K, H. auto. Qed.
Lemma fine_bind_any {A : Type} (m : res A) k : (forall a, m = Ok a -> fine (k a)) -> fine (bind m k).
Proof. intros K. destruct m as [a| | |]; cbn; try (intros ? E; discriminate). apply K. auto. Qed.
Lemma fine_bind_list m k : fine_list m -> (forall l, Forall nn l -> fine (k l)) -> fine (bind m k).
Proof. intros H K. destruct m as [a| | |]; cbn; try (intros ? E; discriminate). apply K, H. auto. Qed.
Lemma fine_list_any {A : Type} (m : res A) k : (forall a, m = Ok a -> fine_list (k a)) -> fine_list (bind m k).
Proof. intros K. destruct m as [a| | |]; cbn; try (intros ? E; discriminate). apply K. auto. Qed.
Lemma fine_map {A : Type} (f : A -> res xr) l : (forall a, In a l -> fine (f a)) -> fine_list (map_res f l).
Proof.
  induction l as [|a l IH]; intros H r E; cbn in E; [apply Ok_inj in E; subst; constructor|].
  destruct (f a) as [x| | |] eqn:FA; try discriminate. cbn [bind] in E. destruct (map_res f l) as [t| | |] eqn:FL; try discriminate. cbn [bind] in E. apply Ok_inj in E. subst.
  constructor; [apply (H a); [left; auto|auto]|]. apply IH; auto. intros; apply H; right; auto.
Qed.
Lemma fine_sum {A : Type} (f : A -> res xr) l : (forall a, In a l -> fine (f a)) -> fine (sum_res f l).
Proof. intros H. unfold sum_res. apply fine_bind_list; [apply fine_map; auto|]. intros. apply fine_ok, nn_xsum; auto. Qed.
Lemma fine_total m : fine_list m -> fine (let* l := m in Ok (xsum l)).
Proof. intros H. apply fine_bind_list; auto. intros. apply fine_ok, nn_xsum; auto. Qed.
Lemma fine_exit : fine Exit. Proof. intros ? E; discriminate. Qed.
Lemma fine_ub : fine UB. Proof. intros ? E; discriminate. Qed.
Lemma flux_fine D vmax m v : good_halo D vmax -> 0 < m -> 0 < v <= vmax -> fine (flux D (Fin v) (Fin m)).
Proof.
  intros (R & _ & _ & H) M V. unfold flux, Differential_DM_Flux. apply fine_bind; [apply H; auto|]. intros f F. apply fine_ok.
  repeat apply nn_mul; auto; [apply nn_div; auto|apply nn_fin; lra].
Qed.
Ltac nums := repeat first [apply nn_mul | apply nn_add | apply nn_div | apply nn_fin]; auto; try lra.

(** * Nuclear recoils *)
Lemma dSigma_dER_fine DM t M ER v : good_nuclear DM t -> imass t = Fin M -> 0 < M -> 0 < ER -> 0 < v -> fine (dm_dSigma_dER DM (Fin ER) t (Fin v)).
Proof.
  intros G EM HM HE HV. unfold dm_dSigma_dER. cbv zeta. rewrite EM, !xmul_fin. assert (P : 0 < 2 * M * ER) by (apply Rmult_lt_0_compat; lra).
  rewrite xsqrt_fin by lra. apply fine_bind; [apply G; auto; apply sqrt_lt_R0; auto|]. intros. apply fine_ok. nums.
Qed.
Lemma isotope_fine I DM D m vmax t ER : positive_integrator I -> good_particle DM m -> good_halo D vmax -> good_isotope t -> good_nuclear DM t -> 0 < ER ->
  fine (dRdER_Isotope I (Fin ER) DM D t).
Proof.
  intros PI_ (Em & Hm & Fr) GH (M & EM & HM & _) GN HE. assert (GH' := GH). destruct GH' as (R & EV & HV & H). unfold dRdER_Isotope. cbv zeta. rewrite Em, EM, EV, vMinimal_fin by lra.
  assert (VP : 0 < vmin_R ER m M). { unfold vmin_R. apply sqrt_lt_R0. assert (P := mu_pos m M Hm HM). apply Rdiv_lt_0_compat; [apply Rmult_lt_0_compat; auto|]. assert (0 < mu m M ^ 2) by (apply pow_lt; auto). lra. }
  destruct (Rlt_le_dec vmax (vmin_R ER m M)) as [L | L]; [rewrite xlt_true by auto; apply fine_zero; lra|]. rewrite xlt_false by lra.
  destruct (_ && _)%bool.
  - apply fine_bind; [apply (dSigma_dER_fine DM t M); auto; lra|]. intros d Hd. apply fine_bind; [apply H; lra|]. intros e He. apply fine_ok. nums.
  - apply fine_bind; [|intros; apply fine_ok; nums]. apply (proj1 (PI_ _ _ _)); auto. intros v Hv. apply fine_bind; [apply (flux_fine D vmax); auto; lra|]. intros f Hf.
    apply fine_bind; [apply (dSigma_dER_fine DM t M); auto; lra|]. intros. apply fine_ok. nums.
Qed.
Definition good_nucleus (n : Nucleus) : Prop := forall t, In t (nisotopes n) -> good_isotope t.
Definition nuclear_cross (DM : DM_interface) (n : Nucleus) : Prop := forall t, In t (nisotopes n) -> good_nuclear DM t.
Lemma nucleus_fine I DM D m vmax n ER : positive_integrator I -> good_particle DM m -> good_halo D vmax -> good_nucleus n -> nuclear_cross DM n -> 0 < ER ->
  fine (dRdER_Nucleus I (Fin ER) DM D n).
Proof.
  intros PI_ GP GH GN GC HE. unfold dRdER_Nucleus. apply fine_sum. intros t Ht. apply fine_bind; [apply (isotope_fine I DM D m vmax); auto|].
  intros r Hr. apply fine_ok. destruct (GN t Ht) as (M & _ & _ & A). nums.
Qed.

(** * Electrons from atoms *)
Lemma vel_pos m E q : 0 < m -> 0 < q -> 0 < E -> 0 < E / q + q / (2 * m).
Proof. intros. assert (0 < E / q) by (apply Rdiv_lt_0_compat; auto). assert (0 < q / (2 * m)) by (apply Rdiv_lt_0_compat; lra). lra. Qed.
Lemma ER_term_fine I DM D m vmax sh Eb E dl q : positive_integrator I -> good_particle DM m -> good_halo D vmax -> binding_energy sh = Fin Eb -> 0 < Eb -> good_ionization DM sh -> 0 < E -> 0 <= dl -> 0 < q ->
  fine (ER_term I (Fin E) DM D sh (Fin dl) (Fin q)).
Proof.
  intros PI_ (Em & Hm & Fr) GH EB HB GI HE HL HQ. assert (GH' := GH). destruct GH' as (R & EV & HV & H). unfold ER_term. cbv zeta. rewrite Em, EB, EV, xadd_fin, vMinimal_Electrons_fin by auto.
  assert (VP := vel_pos m (Eb + E) q Hm HQ ltac:(lra)). set (vm := (Eb + E) / q + q / (2 * m)) in *.
  destruct (Rlt_le_dec vm vmax) as [L | L]; [rewrite xlt_true by auto|rewrite xlt_false by lra; apply fine_zero; lra].
  destruct (_ && _)%bool.
  - apply fine_bind; [apply GI; lra|]. intros d Hd. apply fine_bind; [apply H; lra|]. intros e He. apply fine_ok. nums.
  - apply fine_bind; [|intros; apply fine_ok; nums]. apply (proj1 (PI_ _ _ _)); [lra|]. intros v Hv. apply fine_bind; [apply (flux_fine D vmax); auto; lra|]. intros f Hf.
    apply fine_bind; [apply GI; lra|]. intros. apply fine_ok. nums.
Qed.
Lemma ER_shell_fine I DM D m vmax mN sh E : positive_integrator I -> good_particle DM m -> good_halo D vmax -> good_shell sh -> good_ionization DM sh -> 0 < mN -> 0 < E ->
  fine (dRdEe_ER_shell I (Fin E) DM D (Fin mN) sh).
Proof.
  intros PI_ GP GH (Eb & qc & EB & HB & EQ & _) GI HN HE. assert (RS : real_setting DM D m vmax) by (destruct GP as (? & ? & _); destruct GH as (_ & ? & ? & _); repeat split; auto).
  destruct (window_value DM D m vmax sh Eb qc RS EB EQ) as (W1 & W2). unfold dRdEe_ER_shell. cbv zeta. assert (RS' := RS). destruct RS' as (_ & _ & Hm & Hv).
  destruct (Rle_lt_dec Eb (m * vmax ^ 2 / 2)) as [L1 | L1]; [|rewrite W1 by auto; apply fine_zero; lra].
  destruct (Rle_lt_dec (qlow m vmax Eb) qc) as [L2 | L2]; [|rewrite W1 by auto; apply fine_zero; lra].
  rewrite W2 by auto. destruct (qlow_pos m vmax Eb Hm Hv HB L1) as (Q1 & Q2 & _). set (a := qlow m vmax Eb) in *. set (b := Rmin qc (qhigh m vmax Eb)).
  assert (AB : a <= b) by (unfold b; apply Rmin_glb; lra). rewrite log_grid by lra. cbn [seq map at_ub nth_error bind].
  rewrite xdiv_fin. 2:{ assert (K := log_point_between a b 0 Q1 AB ltac:(lia)). lra. }
  assert (P1 := log_point_between a b 1 Q1 AB ltac:(lia)). assert (P0 := log_point_between a b 0 Q1 AB ltac:(lia)).
  rewrite xlog_fin by (apply Rdiv_lt_0_compat; lra). rewrite log_step by lra.
  assert (DL : 0 <= ln (b / a) / 99). { apply Rmult_le_pos; [|lra]. rewrite <- ln_1. assert (1 <= b / a) by (apply (Rmult_le_reg_r a); [lra|]; unfold Rdiv; rewrite Rmult_assoc, Rinv_l by lra; lra). destruct H as [H | <-]; [left; apply ln_increasing; lra|lra]. }
  apply fine_bind; [|intros; apply fine_ok; nums].
  apply fine_sum. intros q Hq. change (In q (map (fun k => Fin (log_point a b 99 k)) (seq 0 100))) in Hq. apply in_map_iff in Hq. destruct Hq as (k & <- & Hk). apply in_seq in Hk.
  assert (P := log_point_between a b k Q1 AB ltac:(lia)). apply (ER_term_fine I DM D m vmax sh Eb); auto. lra.
Qed.

(** * Migdal electrons *)
Lemma migdal_too_fast m v M Eb Ee ER : 0 < m -> 0 < v -> 0 < M -> 0 <= Eb -> 0 <= Ee -> 0 < ER -> (2 * mu m M * v) ^ 2 / (2 * M) <= ER -> v <= vmig_R ER Ee m M Eb.
Proof.
  intros Hm Hv HM HB HE HR L. assert (h := mu_pos m M Hm HM). unfold vmig_R. assert (P : 0 < 2 * M * ER) by (apply Rmult_lt_0_compat; lra). assert (S2 : 0 < sqrt (2 * M * ER)) by (apply sqrt_lt_R0; auto).
  assert (S3 : 0 <= (Ee + Eb) / sqrt (2 * M * ER)) by (apply Rmult_le_pos; [lra|left; apply Rinv_0_lt_compat; auto]).
  assert (K : v <= sqrt (M * ER / (2 * mu m M ^ 2))); [|lra]. rewrite <- (sqrt_pow2 v) by lra. apply sqrt_le_1_alt. assert (mu2 : 0 < mu m M ^ 2) by (apply pow_lt; auto).
  apply (Rmult_le_compat_r (M / (2 * mu m M ^ 2))) in L; [|left; apply Rdiv_lt_0_compat; lra].
  replace ((2 * mu m M * v) ^ 2 / (2 * M) * (M / (2 * mu m M ^ 2))) with (v ^ 2) in L by (field; lra).
  replace (ER * (M / (2 * mu m M ^ 2))) with (M * ER / (2 * mu m M ^ 2)) in L by (field; lra). exact L.
Qed.
(** The ionization form factor at the momenta and energies at which it is needed. *)
Definition good_form_factor (I2 : interpolator2) (sh : Atomic_Electron) : Prop := forall q E, 0 < q -> 0 < E -> fine (ionization_value I2 sh (Fin q) (Fin E)).
Lemma Migdal_sigma_fine I2 DM t M sh ER E v : good_nuclear DM t -> good_form_factor I2 sh -> imass t = Fin M -> 0 < M -> 0 < ER -> 0 < E -> 0 < v ->
  fine (dm_d2Sigma_Migdal I2 DM (Fin ER) (Fin E) (Fin v) t sh).
Proof.
  intros GN GF EM HM HR HE HV. unfold dm_d2Sigma_Migdal. cbv zeta. apply fine_bind; [apply (dSigma_dER_fine DM t M); auto|]. intros d Hd.
  rewrite EM, !xmul_fin. assert (P : 0 < 2 * M * ER) by (apply Rmult_lt_0_compat; lra). rewrite xsqrt_fin by lra. rewrite xdiv_fin, xmul_fin by lra.
  assert (h := mElectron_pos). assert (S2 : 0 < sqrt (2 * M * ER)) by (apply sqrt_lt_R0; auto).
  apply fine_bind; [apply GF; auto; apply Rmult_lt_0_compat; auto; apply Rdiv_lt_0_compat; auto|]. intros. apply fine_ok. nums.
Qed.
Lemma Migdal_integrand_fine I I2 DM D m vmax t sh E ER : positive_integrator I -> good_particle DM m -> good_halo D vmax -> good_isotope t -> good_nuclear DM t -> good_shell sh -> good_form_factor I2 sh -> 0 < E -> 0 < ER ->
  fine (Migdal_integrand I I2 (Fin E) DM D t sh (Fin ER)).
Proof.
  intros PI_ (Em & Hm & Fr) GH (M & EM & HM & _) GN (Eb & qc & EB & HB & _) GF HE HR. assert (GH' := GH). destruct GH' as (R & EV & HV & H).
  unfold Migdal_integrand. cbv zeta. rewrite xlt_true by lra. rewrite Em, EM, EB, EV, vMinimal_Migdal_fin by auto.
  assert (VP : 0 < vmig_R ER E m M Eb). { unfold vmig_R. assert (0 <= sqrt (M * ER / (2 * mu m M ^ 2))) by apply sqrt_pos. assert (P : 0 < 2 * M * ER) by (apply Rmult_lt_0_compat; lra).
    assert (0 < (E + Eb) / sqrt (2 * M * ER)) by (apply Rdiv_lt_0_compat; [lra|apply sqrt_lt_R0; auto]). lra. }
  destruct (xle (Fin vmax) (Fin (vmig_R ER E m M Eb))) eqn:L; [apply fine_zero; lra|].
  assert (L' : vmig_R ER E m M Eb < vmax). { apply Rnot_le_lt. intros K. assert (xle (Fin vmax) (Fin (vmig_R ER E m M Eb)) = true) by (apply xle_spec; auto). congruence. }
  destruct (_ && _)%bool.
  - apply fine_bind; [apply H; lra|]. intros e He. apply fine_bind; [apply (Migdal_sigma_fine I2 DM t M); auto; lra|]. intros d Hd. apply fine_ok. nums.
  - apply (proj1 (PI_ _ _ _)); [lra|]. intros v Hv. apply fine_bind; [apply (flux_fine D vmax); auto; lra|]. intros f Hf.
    apply fine_bind; [apply (Migdal_sigma_fine I2 DM t M); auto; lra|]. intros. apply fine_ok. nums.
Qed.
Lemma Migdal_isotope_fine I I2 DM D m vmax t sh E : positive_integrator I -> good_particle DM m -> good_halo D vmax -> good_isotope t -> good_nuclear DM t -> good_shell sh -> good_form_factor I2 sh -> 0 < E ->
  fine (dRdEe_Migdal_isotope I I2 (Fin E) DM D t sh).
Proof.
  intros PI_ GP GH GI GN GS GF HE. assert (RS : real_setting DM D m vmax) by (destruct GP as (? & ? & _); destruct GH as (_ & ? & ? & _); repeat split; auto).
  assert (GI' := GI). destruct GI' as (M & EM & HM & _). assert (GS' := GS). destruct GS' as (Eb & qc & EB & HB & _).
  unfold dRdEe_Migdal_isotope. cbv zeta. rewrite (migdal_window_fin DM D m vmax t M sh Eb RS EM HM EB). rewrite EM. assert (RS' := RS). destruct RS' as (Em & EV & Hm & Hv).
  assert (A : 0 < (Eb / vmax) ^ 2 / (2 * M)) by (apply Rdiv_lt_0_compat; [apply pow_lt, Rdiv_lt_0_compat; auto|lra]).
  assert (B : 0 < (2 * mu m M * vmax) ^ 2 / (2 * M)). { apply Rdiv_lt_0_compat; [apply pow_lt|lra]. assert (h := mu_pos m M Hm HM). apply Rmult_lt_0_compat; lra. }
  set (a := (Eb / vmax) ^ 2 / (2 * M)) in *. set (b := (2 * mu m M * vmax) ^ 2 / (2 * M)) in *.
  apply fine_bind; [|intros; apply fine_ok; nums]. destruct (Rle_lt_dec a b) as [L | L].
  - apply (proj1 (PI_ _ _ _)); auto. intros x Hx. apply (Migdal_integrand_fine I I2 DM D m vmax); auto. lra.
  - apply (proj2 (PI_ _ _ _)). intros x. rewrite Rmin_right, Rmax_left by lra. intros Hx. unfold Migdal_integrand. cbv zeta. rewrite xlt_true by lra. rewrite Em, EM, EB, EV, vMinimal_Migdal_fin by (auto; lra).
    assert (K : vmax <= vmig_R x E m M Eb) by (apply migdal_too_fast; auto; fold b; lra). assert (xle (Fin vmax) (Fin (vmig_R x E m M Eb)) = true) by (apply xle_spec; auto). rewrite H. do 2 f_equal. lra.
Qed.
Lemma Migdal_nucleus_fine I I2 DM D m vmax n sh E : positive_integrator I -> good_particle DM m -> good_halo D vmax -> good_nucleus n -> nuclear_cross DM n -> good_shell sh -> good_form_factor I2 sh -> 0 < E ->
  fine (dRdEe_Migdal_nucleus I I2 (Fin E) DM D n sh).
Proof.
  intros PI_ GP GH GN GC GS GF HE. unfold dRdEe_Migdal_nucleus. apply fine_sum. intros t Ht. apply fine_bind; [apply (Migdal_isotope_fine I I2 DM D m vmax); auto|].
  intros r Hr. apply fine_ok. destruct (GN t Ht) as (M & _ & _ & A). nums.
Qed.

(** * Electrons from crystals *)
Definition crystal_numbers (c : Crystal) : Prop := exists gap eps de emax a b M, real_crystal c gap eps de emax a b /\ M_cell c = Fin M /\ 0 < M.
Lemma Crystal_fine I DM D m vmax c E : positive_integrator I -> good_particle DM m -> good_halo D vmax -> crystal_numbers c -> good_crystal DM c -> 0 < E ->
  fine (dRdEe_Crystal I (Fin E) DM D c).
Proof.
  intros PI_ (Em & Hm & Fr) GH (gap & eps & de & emax & a & b & M & RC & EM & HM) GC HE. assert (GH' := GH). destruct GH' as (R & EV & HV & H).
  destruct RC as (_ & _ & _ & EX & EA & _ & _ & _ & _ & HA & _). unfold dRdEe_Crystal. rewrite EX, EM. cbv zeta. destruct (xlt _ _); [apply fine_zero; lra|].
  apply fine_bind; [|intros; apply fine_ok; nums]. apply fine_sum. intros i Hi. apply Zrange_In in Hi. unfold Crystal_term. cbv zeta. rewrite EA, Em, EV, xmul_fin.
  assert (Q : 0 < IZR (i + 1) * a). { apply Rmult_lt_0_compat; auto. apply IZR_lt. lia. } set (q := IZR (i + 1) * a) in *. rewrite vMinimal_Electrons_fin by auto.
  assert (VP := vel_pos m E q Hm Q HE). set (vm := E / q + q / (2 * m)) in *.
  destruct (Rlt_le_dec vmax vm) as [L | L]; [rewrite xlt_true by auto; apply fine_zero; lra|]. rewrite xlt_false by lra.
  destruct (_ && _)%bool.
  - apply fine_bind; [apply H; lra|]. intros e He. apply fine_bind; [apply GC; lra|]. intros d Hd. apply fine_ok. nums.
  - apply fine_bind; [|intros; apply fine_ok; nums]. apply (proj1 (PI_ _ _ _)); [lra|]. intros v Hv. apply fine_bind; [apply (flux_fine D vmax); auto; lra|]. intros f Hf.
    apply fine_bind; [apply GC; lra|]. intros. apply fine_ok. nums.
Qed.

(** * Detectors *)
(** Arguments of the configuration calls that make sense: efficiencies are not negative, energy windows have a positive lower end below the upper one
    (related by [le], which is < or <=), a list of events has two events related like that. *)
Definition sensible (le : R -> R -> Prop) (o : base_op) : Prop :=
  match o with
  | BFlat x => nn x
  | BBin_Efficiencies l => Forall nn l
  | BMaximum_Gap l => exists rs, l = map Fin rs /\ (forall r, In r rs -> 0 < r) /\ exists a b, In a rs /\ In b rs /\ le a b
  | BThreshold lo hi | BBins lo hi _ => exists a b, lo = Fin a /\ hi = Fin b /\ 0 < a /\ le a b
  | _ => True
  end.
Definition order (le : R -> R -> Prop) : Prop := forall a b c d, a <= b -> le b c -> c <= d -> le a d /\ a <= d.
Lemma order_lt : order Rlt. Proof. intros a b c d. lra. Qed.
Lemma order_le : order Rle. Proof. intros a b c d. lra. Qed.

Definition windowed (le : R -> R -> Prop) (d : detector) : Prop := exists lo hi, b_threshold d = Fin lo /\ b_energy_max d = Fin hi /\ 0 < lo /\ le lo hi /\ lo <= hi.
Definition edges_ok (d : detector) : Prop := b_bin_energies d = [] \/ exists lo hi n, 0 < lo <= hi /\ b_bin_energies d = Linear_Space (Fin lo) (Fin hi) n.
Definition sound_base (le : R -> R -> Prop) (d : detector) : Prop := nn (b_exposure d) /\ nn (b_flat_efficiency d) /\ Forall nn (b_efficiencies d) /\ edges_ok d /\
  (windowed le d \/ b_using_threshold d = false /\ b_analysis d <> Maximum_Gap).
Lemma sound_ctor le label expo t : nn expo -> sound_base le (Detector_ctor label expo t).
Proof. intros H. unfold sound_base, edges_ok. cbn. repeat split; auto. - apply nn_fin. lra. - right. split; auto. discriminate. Qed.
Lemma ones_fine n : Forall nn (repeat (Fin 1.0) n). Proof. apply Forall_forall. intros x Hx. apply repeat_spec in Hx. subst. apply nn_fin. lra. Qed.
Lemma last_cons_ {A : Type} (l : list A) y x : last (y :: l) x = last l y.
Proof. revert y x. induction l as [|z l IH]; intros y x; [reflexivity|]. change (last (y :: z :: l) x) with (last (z :: l) x). rewrite !IH. auto. Qed.
Lemma ascending_ends t : forall h, ascending (h :: t) -> forall x, In x (h :: t) -> h <= x <= last t h.
Proof.
  induction t as [|y t IH]; intros h A x Hx.
  - destruct Hx as [<- | []]. cbn. lra.
  - destruct A as [A1 A2]. assert (L : last (y :: t) h = last t y) by apply last_cons_. rewrite L. destruct Hx as [<- | Hx]; [destruct (IH y A2 y (or_introl eq_refl)); lra|]. destruct (IH y A2 x Hx). lra.
Qed.
Lemma gap_window le rs d d' : order le -> Use_Maximum_Gap (map Fin rs) d = Ok d' -> (forall r, In r rs -> 0 < r) -> (exists a b, In a rs /\ In b rs /\ le a b) -> windowed le d'.
Proof.
  intros O H P (a & b & IA & IB & L). unfold Use_Maximum_Gap in H. destruct (_ && _)%bool; try discriminate. destruct (sort_perm rs) as (t & E & PM & A). rewrite E in H.
  destruct t as [|h t]; cbn [map] in H; [discriminate|]. apply Ok_inj in H. subst d'. unfold windowed. cbn.
  assert (LE : forall t h, last (Fin h :: map Fin t) (Fin h) = Fin (last t h)). { clear. intros t h. rewrite last_cons_. revert h. induction t as [|x t IH]; intros h; [reflexivity|]. cbn [map]. rewrite !last_cons_. apply IH. }
  exists h, (last t h). assert (P' : forall x, In x (h :: t) -> 0 < x) by (intros x Hx; apply P; eapply Permutation.Permutation_in; [apply Permutation.Permutation_sym; exact PM|auto]).
  destruct (ascending_ends t h A a (Permutation.Permutation_in _ PM IA)) as (A1 & _). destruct (ascending_ends t h A b (Permutation.Permutation_in _ PM IB)) as (_ & B2).
  split; [reflexivity|]. split; [apply LE|]. split; [apply P'; left; auto|]. apply (O h a b); auto.
Qed.
Lemma sound_step le d o d' : order le -> sensible le o -> base_step d o = Ok d' -> sound_base le d -> sound_base le d' /\ (base_use o = true -> windowed le d').
Proof.
  intros O S H (E1 & E2 & E3 & E4 & E5). destruct o; cbn [base_step sensible base_use] in *.
  - apply Ok_inj in H. subst d'. split; [repeat split; auto|discriminate].
  - unfold Set_Observed_Events in H. destruct (b_analysis d) eqn:A; try discriminate. apply Ok_inj in H. subst d'. split; [unfold sound_base; cbn; rewrite A in *; repeat split; auto|discriminate].
  - unfold Set_Expected_Background in H. destruct (b_analysis d) eqn:A; try discriminate. apply Ok_inj in H. subst d'. split; [unfold sound_base; cbn; rewrite A in *; repeat split; auto|discriminate].
  - unfold Set_Observed_Events_Binned in H. destruct (b_analysis d) eqn:A; try discriminate. destruct (_ =? _)%Z; try discriminate. apply Ok_inj in H. subst d'. split; [unfold sound_base; cbn; rewrite A in *; repeat split; auto|discriminate].
  - unfold Set_Bin_Efficiencies in H. destruct (b_analysis d) eqn:A; try discriminate. destruct (_ =? _)%Z; try discriminate. apply Ok_inj in H. subst d'. split; [unfold sound_base; cbn; rewrite A in *; repeat split; auto|discriminate].
  - unfold Set_Expected_Background_Binned in H. destruct (b_analysis d) eqn:A; try discriminate. destruct (_ =? _)%Z; try discriminate. apply Ok_inj in H. subst d'. split; [unfold sound_base; cbn; rewrite A in *; repeat split; auto|discriminate].
  - destruct S as (rs & -> & P & Q). assert (W := gap_window le rs d d' O H P Q). split; auto.
    unfold Use_Maximum_Gap in H. destruct (_ && _)%bool; try discriminate. destruct (sort_doubles _) as [|h t]; try discriminate. apply Ok_inj in H. subst d'. unfold sound_base, edges_ok in *. cbn in *. repeat split; auto.
  - destruct S as (a & b & -> & -> & P & L). unfold Use_Energy_Threshold in H. cbv zeta in H. destruct (xlt _ _); try discriminate. apply Ok_inj in H. subst d'. destruct (O a a b b ltac:(lra) L ltac:(lra)) as (_ & LE).
    assert (W : windowed le (with_range (Fin a) (Fin b) (with_using true (b_using_bins d) (Initialize_Poisson d)))) by (exists a, b; cbn; repeat split; auto). split; auto. unfold sound_base, edges_ok in *. cbn in *. repeat split; auto.
  - destruct S as (a & b & -> & -> & P & L). unfold Use_Energy_Bins, Initialize_Binned_Poisson in H. destruct (O a a b b ltac:(lra) L ltac:(lra)) as (_ & LE).
    destruct (b_analysis d) eqn:A; try discriminate; cbn [bind] in H; destruct (xlt _ _); try discriminate; apply Ok_inj in H; subst d';
    (assert (W : forall x, windowed le (with_bin_energies x (with_range (Fin a) (Fin b) (with_using (b_using_threshold d) true d)))) by (intros; exists a, b; cbn; repeat split; auto));
    (split; [|intros _; destruct (W []) as (lo & hi & K); exists lo, hi; exact K]); unfold sound_base, edges_ok; cbn;
    (split; [auto|]; split; [auto|]; split; [apply ones_fine|]; split; [right; exists a, b; eexists; split; [auto|reflexivity]|]); left; destruct (W []) as (lo & hi & K); exists lo, hi; exact K.
Qed.
(** The edges of one bin. *)
Lemma edge_pair lo hi n i a b : 0 < lo <= hi -> at_ub (Linear_Space (Fin lo) (Fin hi) n) i = Ok a -> at_ub (Linear_Space (Fin lo) (Fin hi) n) (S i) = Ok b ->
  exists x y, a = Fin x /\ b = Fin y /\ lo <= x /\ x <= y /\ y <= hi.
Proof.
  intros L A B. assert (LB : (S i < n)%nat). { apply Nat.nle_gt. intros K. unfold at_ub, Linear_Space in B. rewrite (proj2 (nth_error_None _ _)) in B by (rewrite map_length, seq_length; auto). discriminate. }
  assert (G : forall j, (j < n)%nat -> at_ub (Linear_Space (Fin lo) (Fin hi) n) j = Ok (Fin (lo + INR j * ((hi - lo) / INR (n - 1))))).
  { intros j Hj. apply at_ub_ok. unfold Linear_Space. rewrite nth_error_map. rewrite (nth_error_nth' _ 0%nat) by (rewrite seq_length; auto). rewrite seq_nth by auto. cbn [option_map Nat.add].
    assert (0 < INR (n - 1)) by (apply lt_0_INR; lia). rewrite xsub_fin, xdiv_fin, xmul_fin, xadd_fin by lra. reflexivity. }
  rewrite G in A, B by lia. apply Ok_inj in A, B. subst. do 2 eexists. split; [reflexivity|]. split; [reflexivity|].
  assert (P : 0 < INR (n - 1)) by (apply lt_0_INR; lia). assert (D0 : 0 <= (hi - lo) / INR (n - 1)) by (apply Rmult_le_pos; [lra|left; apply Rinv_0_lt_compat; auto]).
  split; [|split].
  - assert (0 <= INR i * ((hi - lo) / INR (n - 1))) by (apply Rmult_le_pos; [apply pos_INR|auto]). lra.
  - assert (INR i * ((hi - lo) / INR (n - 1)) <= INR (S i) * ((hi - lo) / INR (n - 1))) by (apply Rmult_le_compat_r; auto; apply le_INR; lia). lra.
  - assert (INR (S i) * ((hi - lo) / INR (n - 1)) <= INR (n - 1) * ((hi - lo) / INR (n - 1))) by (apply Rmult_le_compat_r; auto; apply le_INR; lia).
    replace (INR (n - 1) * ((hi - lo) / INR (n - 1))) with (hi - lo) in H by (field; lra). lra.
Qed.
Lemma energy_bins_fine I f d lo hi n : positive_integrator I -> nn (b_exposure d) -> Forall nn (b_efficiencies d) -> 0 < lo <= hi -> b_bin_energies d = Linear_Space (Fin lo) (Fin hi) n ->
  (forall E, lo <= E <= hi -> fine (f (Fin E))) -> fine_list (DM_Signals_Energy_Bins I f d).
Proof.
  intros PI_ X E L B F. unfold DM_Signals_Energy_Bins. destruct (negb _); [intros ? K; discriminate|]. apply fine_map. intros i _. rewrite B.
  apply fine_bind_any. intros a Ha. apply fine_bind_any. intros b Hb. destruct (edge_pair lo hi n i a b L Ha Hb) as (x & y & -> & -> & L1 & L2 & L3).
  apply fine_bind; [apply (proj1 (PI_ _ _ _)); auto; intros z Hz; apply F; lra|]. intros v Hv. cbv zeta. apply fine_bind_any. intros e He. apply fine_ok. apply at_ub_In in He. rewrite Forall_forall in E. nums.
Qed.
Lemma edges_fine I f d : positive_integrator I -> nn (b_exposure d) -> Forall nn (b_efficiencies d) -> edges_ok d -> (forall E, 0 < E -> fine (f (Fin E))) -> fine_list (DM_Signals_Energy_Bins I f d).
Proof.
  intros PI_ X E [B | (lo & hi & n & L & B)] F.
  - unfold DM_Signals_Energy_Bins. destruct (negb _); [intros ? K; discriminate|]. apply fine_map. intros i _. rewrite B. unfold at_ub. rewrite (proj2 (nth_error_None _ _)) by (cbn; lia). apply fine_ub.
  - apply (energy_bins_fine I f d lo hi n); auto. intros. apply F. lra.
Qed.

(** ** Nuclear recoil detectors *)
Definition good_curve (X : externals) (t : list (xr * xr)) : Prop := forall E, 0 < E -> fine (x_Interpolation X t (Fin E)).
Definition sensible_nuclear (X : externals) (o : nuclear_op) : Prop :=
  match o with
  | NBase o => sensible Rlt o
  | NResolution r => exists s, r = Fin s
  | NEfficiency rows dim => good_curve X (in_unit dim rows)
  | NEfficiencies files dim => forall rows, In rows files -> good_curve X (in_unit dim rows)
  end.
Definition tied (d : detector) : Prop := (exists th, b_threshold d = Fin th) /\
  (b_analysis d = Binned_Poisson -> exists lo hi k, b_threshold d = Fin lo /\ 0 < lo <= hi /\ b_bin_energies d = Linear_Space (Fin lo) (Fin hi) k).
Definition sound_nuclear (X : externals) (n : nuclear) : Prop := sound_base Rlt (n_base n) /\ tied (n_base n) /\ (exists s, n_resolution n = Fin s) /\ forall t, In t (n_efficiencies n) -> good_curve X t.
Lemma tied_step d o d' : sensible Rlt o -> base_step d o = Ok d' -> tied d -> tied d'.
Proof.
  intros S H (T1 & T2). destruct o; cbn [base_step sensible] in *.
  - apply Ok_inj in H. subst d'. split; auto.
  - unfold Set_Observed_Events in H. destruct (b_analysis d) eqn:A; try discriminate. apply Ok_inj in H. subst d'. split; cbn; auto. congruence.
  - unfold Set_Expected_Background in H. destruct (b_analysis d) eqn:A; try discriminate. apply Ok_inj in H. subst d'. split; cbn; auto. congruence.
  - unfold Set_Observed_Events_Binned in H. destruct (b_analysis d) eqn:A; try discriminate. destruct (_ =? _)%Z; try discriminate. apply Ok_inj in H. subst d'. split; cbn; auto.
  - unfold Set_Bin_Efficiencies in H. destruct (b_analysis d) eqn:A; try discriminate. destruct (_ =? _)%Z; try discriminate. apply Ok_inj in H. subst d'. split; cbn; auto.
  - unfold Set_Expected_Background_Binned in H. destruct (b_analysis d) eqn:A; try discriminate. destruct (_ =? _)%Z; try discriminate. apply Ok_inj in H. subst d'. split; cbn; auto.
  - destruct S as (rs & -> & P & Q). destruct (gap_window Rlt rs d d' order_lt H P Q) as (lo & hi & W & _). split; [eauto|].
    unfold Use_Maximum_Gap in H. destruct (_ && _)%bool; try discriminate. destruct (sort_doubles _) as [|h t]; try discriminate. apply Ok_inj in H. subst d'. discriminate.
  - destruct S as (a & b & -> & -> & P & L). unfold Use_Energy_Threshold in H. cbv zeta in H. destruct (xlt _ _); try discriminate. apply Ok_inj in H. subst d'. split; [cbn; eauto|discriminate].
  - destruct S as (a & b & -> & -> & P & L). unfold Use_Energy_Bins, Initialize_Binned_Poisson in H.
    destruct (b_analysis d) eqn:A; try discriminate; cbn [bind] in H; destruct (xlt _ _); try discriminate; apply Ok_inj in H; subst d'; (split; [cbn; eauto|]); intros _; cbn; exists a, b; eexists; (split; [reflexivity|]; split; [lra|reflexivity]).
Qed.
Lemma import_all files dim : forall n, n_efficiencies (fold_left (fun n rows => Import_Efficiency_File rows dim n) files n) = n_efficiencies n ++ map (in_unit dim) files /\
  n_base (fold_left (fun n rows => Import_Efficiency_File rows dim n) files n) = n_base n /\ n_resolution (fold_left (fun n rows => Import_Efficiency_File rows dim n) files n) = n_resolution n.
Proof.
  induction files as [|r files IH]; intros n; cbn [fold_left map]; [rewrite app_nil_r; auto|]. destruct (IH (Import_Efficiency_File r dim n)) as (A & B & C). rewrite A, B, C. cbn. rewrite <- app_assoc. auto.
Qed.
Lemma nuclear_sound_step X n o n' : sensible_nuclear X o -> nuclear_step n o = Ok n' -> sound_nuclear X n -> sound_nuclear X n' /\ (nuclear_use o = true \/ windowed Rlt (n_base n) -> windowed Rlt (n_base n')).
Proof.
  intros S H (B & T & R & F). destruct o as [o|r|rows dim|files dim]; cbn [nuclear_step sensible_nuclear nuclear_use] in *.
  - destruct (base_step (n_base n) o) as [d| | |] eqn:E; try discriminate. cbn [bind] in H. apply Ok_inj in H. subst n'. destruct (sound_step Rlt _ _ _ order_lt S E B) as (B1 & B2).
    split; [split; [exact B1|]; split; [eapply tied_step; eauto|]; split; auto|]. cbn [n_base with_n_base]. intros [U | W]; [auto|].
    destruct (base_use o) eqn:U; [auto|]. assert (Q := base_other _ _ _ U E). unfold windowed in *. destruct W as (lo & hi & W1 & W2 & W3). exists lo, hi.
    clear - E U W1 W2 W3. destruct o; try discriminate; cbn [base_step] in E; [apply Ok_inj in E; subst; auto|..];
      unfold Set_Observed_Events, Set_Expected_Background, Set_Observed_Events_Binned, Set_Bin_Efficiencies, Set_Expected_Background_Binned in E;
      destruct (b_analysis (n_base n)); try discriminate; try (destruct (_ =? _)%Z; try discriminate); apply Ok_inj in E; subst d; auto.
  - apply Ok_inj in H. subst n'. split; [|intros [U | W]; [discriminate|exact W]]. repeat split; try apply B; try apply T; auto.
  - apply Ok_inj in H. subst n'. split; [|intros [U | W]; [discriminate|exact W]]. split; [exact B|]. split; [exact T|]. split; [exact R|].
    intros t Ht. cbn in Ht. apply in_app_or in Ht. destruct Ht as [Ht | [<- | []]]; auto.
  - apply Ok_inj in H. subst n'. unfold Import_Efficiency_Files. destruct (import_all files dim (with_tables (n_using_tables n) [] n)) as (A1 & A2 & A3).
    unfold sound_nuclear. rewrite A1, A2, A3. split; [|intros [U | W]; [discriminate|exact W]]. split; [exact B|]. split; [exact T|]. split; [exact R|].
    intros t Ht. cbn in Ht. apply in_map_iff in Ht. destruct Ht as (r & <- & Hr). auto.
Qed.
Lemma nuclear_sound_run X n0 ops : forall n, nuclear_run n0 ops = Ok n -> Forall (sensible_nuclear X) ops -> sound_nuclear X n0 -> sound_nuclear X n /\ (existsb nuclear_use ops = true -> windowed Rlt (n_base n)).
Proof.
  induction ops as [|o ops IH] using rev_ind; intros n R F S; [apply Ok_inj in R; subst; split; auto; discriminate|].
  rewrite nuclear_run_app in R. destruct (nuclear_run n0 ops) as [m| | |] eqn:E; try discriminate. cbn [bind] in R.
  apply Forall_app in F. destruct F as [F1 F2]. inversion F2 as [|? ? F3 _]; subst. destruct (IH m eq_refl F1 S) as (I1 & I2). destruct (nuclear_sound_step X m o n F3 R I1) as (J1 & J2). split; auto.
  rewrite existsb_app. cbn [existsb]. rewrite orb_false_r. intros U. apply orb_true_iff in U. apply J2. tauto.
Qed.
Lemma nuclear_sound_ctor X label expo nuclei abund n0 : Nuclear_ctor label expo nuclei abund = Ok n0 -> nn expo -> sound_nuclear X n0.
Proof.
  unfold Nuclear_ctor. destruct (relative_fractions nuclei abund) as [f| | |]; try discriminate. cbn [bind]. intros H E. apply Ok_inj in H. subst n0.
  split; [apply sound_ctor; auto|]. split; [split; [cbn; eauto|discriminate]|]. split; [cbn; eauto|]. intros t [].
Qed.
Definition good_targets (DM : DM_interface) (l : list Nucleus) : Prop := forall n, In n l -> good_nucleus n /\ nuclear_cross DM n.

Lemma nuclear_sum_fine X DM D m vmax n E ER : positive_externals X -> good_particle DM m -> good_halo D vmax -> sound_nuclear X n -> good_targets DM (n_targets n) -> Forall nn (n_fractions n) -> 0 < E -> 0 < ER ->
  fine (Nuclear_sum X DM D n (Fin E) (Fin ER)).
Proof.
  intros (PI_ & _) GP GH ((_ & S2 & _) & _ & _ & S4) GT FR HE HR. unfold Nuclear_sum. apply fine_sum. intros i _. apply fine_bind_any. intros t Ht. apply at_ub_In in Ht. destruct (GT t Ht) as (G1 & G2).
  assert (EF : fine (table_efficiency X n i (Fin E))).
  { unfold table_efficiency. destruct (n_using_tables n); [|apply fine_ok, nn_fin; lra]. destruct (_ =? _)%nat; [apply fine_bind_any; intros c Hc; apply at_ub_In in Hc; apply S4; auto|].
    destruct (_ =? _)%nat; [apply fine_bind_any; intros c Hc; apply at_ub_In in Hc; apply S4; auto|apply fine_ok, nn_fin; lra]. }
  apply fine_bind; [exact EF|]. intros e He. apply fine_bind_any. intros f Hf. apply at_ub_In in Hf. rewrite Forall_forall in FR. assert (NF := FR f Hf).
  apply fine_bind; [apply (nucleus_fine _ DM D m vmax); auto|]. intros r Hr. apply fine_ok. nums.
Qed.
Lemma nuclear_dRdE_fine X DM D m vmax n E th s : positive_externals X -> good_particle DM m -> good_halo D vmax -> sound_nuclear X n -> good_targets DM (n_targets n) -> Forall nn (n_fractions n) -> 
  0 < E -> n_resolution n = Fin s -> b_threshold (n_base n) = Fin th -> th - 9 * Rmax 0 s <= E -> fine (Nuclear_dRdE X DM D n (Fin E)).
Proof.
  intros PX GP GH SN GT FR HE ES ET L. unfold Nuclear_dRdE. rewrite ES, ET. rewrite xmul_fin.
  destruct (Rlt_le_dec s (1e-6 * eV)) as [LT | GE]; [rewrite xlt_true by auto; apply (nuclear_sum_fine X DM D m vmax); auto|]. rewrite xlt_false by lra.
  assert (h := eV_pos). assert (SP : 0 < s) by (assert (0 < 1e-6 * eV) by (apply Rmult_lt_0_compat; lra); lra). rewrite Rmax_right in L by lra.
  rewrite !xmul_fin, !xsub_fin, max3. cbn [bind]. cbv zeta. rewrite xadd_fin. replace 6.0 with 6 by lra. replace 3.0 with 3 by lra. replace 2.0 with 2 by lra.
  assert (M1 := Rmax_l (E - 6 * s) (Rmax (th - 3 * s) (2 * s))). assert (M2 := Rmax_r (E - 6 * s) (Rmax (th - 3 * s) (2 * s))). assert (M3 := Rmax_r (th - 3 * s) (2 * s)).
  assert (M4 : Rmax (E - 6 * s) (Rmax (th - 3 * s) (2 * s)) <= E + 6 * s) by (repeat apply Rmax_lub; lra).
  destruct PX as (PI_ & PX). apply (proj1 (PI_ _ _ _)); [auto|]. intros x Hx. apply fine_bind; [apply (nuclear_sum_fine X DM D m vmax); auto; [split; auto|lra]|].
  intros r Hr. apply fine_ok. rewrite PDF_Gauss_fin by auto. assert (g := gauss_pos s (E - x) SP). nums.
Qed.
Lemma log_space_sorted a b n : 0 < a -> a < b -> (2 <= n)%nat -> exists xs, Log_Space (Fin a) (Fin b) n = map Fin xs /\ StronglySorted Rlt xs /\ List.length xs = n /\ hd 0 xs = a /\ last xs 0 = b.
Proof.
  intros A L N. set (step := (ln b - ln a) / INR (n - 1)). assert (P : 0 < INR (n - 1)) by (apply lt_0_INR; lia).
  assert (LN : ln a < ln b) by (apply ln_increasing; auto). assert (SP : 0 < step) by (apply Rdiv_lt_0_compat; lra).
  set (f := fun i : nat => exp (ln a + INR i * step)). exists (map f (seq 0 n)). split.
  { unfold Log_Space. rewrite map_map. apply map_ext. intros i. rewrite !xlog_fin by lra. rewrite xsub_fin, xdiv_fin, xmul_fin, xadd_fin, xexp_fin by lra. reflexivity. }
  split; [apply sorted_seq; intros i j Hij; unfold f; apply exp_increasing; assert (INR i < INR j) by (apply lt_INR; auto); assert (INR i * step < INR j * step) by (apply Rmult_lt_compat_r; auto); lra|].
  split; [rewrite map_length, seq_length; auto|]. destruct n as [|n]; [lia|]. split.
  - cbn [seq map hd]. unfold f. cbn [INR]. rewrite Rmult_0_l, Rplus_0_r. apply exp_ln. auto.
  - rewrite seq_S, map_app. cbn [map Nat.add]. rewrite last_last. unfold f, step. replace (S n - 1)%nat with n in * by lia. replace (ln a + INR n * ((ln b - ln a) / INR n)) with (ln b) by (field; lra). apply exp_ln. lra.
Qed.
Lemma total_base_fine I T f d : positive_integrator I -> positive_interpolation T -> nn (b_exposure d) -> windowed Rlt d -> fine_list (DM_Signals_Binned_Base I f d) -> (forall lo hi E, b_threshold d = Fin lo -> b_energy_max d = Fin hi -> lo <= E <= hi -> fine (f (Fin E))) ->
  fine (DM_Signals_Total_Base I T f d).
Proof.
  intros PI_ PT X (lo & hi & W1 & W2 & W3 & W4 & _) B F. unfold DM_Signals_Total_Base. assert (G : fine (let args := Log_Space (b_threshold d) (b_energy_max d) 200 in let* values := map_res f args in let* integral := T args values (b_threshold d) (b_energy_max d) in Ok (xmul (b_exposure d) integral))).
  { cbv zeta. rewrite W1, W2. destruct (log_space_sorted lo hi 200 W3 W4 ltac:(lia)) as (xs & E & S & L & H1 & H2). assert (BT := fun q => log_space_between lo hi 200 q W3 (Rlt_le _ _ W4) ltac:(lia)). rewrite E in *.
    destruct (map_res f (map Fin xs)) as [ys| | |] eqn:MR; cbn [bind]; try (intros ? K; discriminate). assert (LY : List.length ys = List.length xs) by (apply map_res_length in MR; rewrite MR, map_length; auto).
    assert (NY : Forall nn ys) by (apply (fine_map f (map Fin xs)); auto; intros q Hq; destruct (BT q Hq) as (x & -> & Hx); eapply F; eauto).
    apply fine_bind; [|intros; apply fine_ok; nums]. assert (K := PT xs ys S ltac:(lia) LY NY). rewrite H1, H2 in K. exact K. }
  destruct (b_analysis d); [exact G| |exact G]. apply fine_total. exact B.
Qed.
Lemma nuclear_fine X label expo nuclei abund n0 ops n DM D m vmax : positive_externals X -> good_particle DM m -> good_halo D vmax -> good_targets DM nuclei -> nn expo ->
  Nuclear_ctor label expo nuclei abund = Ok n0 -> Forall nn (n_fractions n0) -> nuclear_run n0 ops = Ok n -> Forall (sensible_nuclear X) ops ->
  (forall E th, 0 < E -> b_threshold (n_base n) = Fin th -> th <= E -> fine (Nuclear_dRdE X DM D n (Fin E))) /\
  fine_list (Nuclear_Binned X DM D n) /\ (existsb nuclear_use ops = true -> fine (Nuclear_Total X DM D n)).
Proof.
  intros PX GP GH GT NE C FR R SE. destruct (nuclear_material n0 ops n R) as (M1 & M2).
  assert (T0 : n_targets n0 = nuclei) by (unfold Nuclear_ctor in C; destruct (relative_fractions nuclei abund); try discriminate; cbn [bind] in C; apply Ok_inj in C; subst n0; reflexivity).
  rewrite <- M2 in FR. rewrite <- T0, <- M1 in GT. destruct (nuclear_sound_run X n0 ops n R SE (nuclear_sound_ctor X _ _ _ _ _ C NE)) as (SN & W).
  assert (SN' := SN). destruct SN' as ((S1 & S2 & S3 & S4 & S5) & (_ & T2) & (s & ES) & _).
  assert (DR : forall E th, 0 < E -> b_threshold (n_base n) = Fin th -> th <= E -> fine (Nuclear_dRdE X DM D n (Fin E))).
  { intros E th HE ET L. apply (nuclear_dRdE_fine X DM D m vmax n E th s); auto. assert (K := Rmax_l 0 s). lra. }
  assert (PX' := PX). destruct PX' as (PI_ & PT & _).
  assert (BF : fine_list (Nuclear_Binned X DM D n)).
  { unfold Nuclear_Binned, DM_Signals_Binned_Base. destruct (b_analysis (n_base n)) eqn:A; try (intros ? K; discriminate). destruct (b_using_bins (n_base n)); try (intros ? K; discriminate).
    destruct (T2 eq_refl) as (lo & hi & k & B1 & B2 & B3). apply (energy_bins_fine _ _ _ lo hi k); auto. intros E HE. apply (DR E lo); auto; lra. }
  split; [exact DR|]. split; [exact BF|]. intros U. specialize (W U). apply total_base_fine; auto. intros lo hi E H1 _ HE. apply (DR E lo); auto; [|lra]. destruct W as (lo' & hi' & W1 & _ & W3 & _). rewrite W1 in H1. injection H1 as <-. lra.
Qed.

(** ** Ionization detectors *)
Lemma at_ubZ_In {A} (l : list A) z e : at_ubZ l z = Ok e -> In e l.
Proof. unfold at_ubZ. intros H. repeat match type of H with context [if ?b then _ else _] => destruct b end; try discriminate. apply at_ub_In in H. auto. Qed.
Definition good_atom (X : externals) (DM : DM_interface) (ch : channel) (a : Atom) : Prop := (forall sh, In sh (electrons a) -> good_shell sh) /\
  match ch with
  | Electron_Recoil => (exists A, Average_Nuclear_Mass (at_nucleus a) = Fin A /\ 0 < A) /\ forall sh, In sh (electrons a) -> good_ionization DM sh
  | Migdal => good_nucleus (at_nucleus a) /\ nuclear_cross DM (at_nucleus a) /\ forall sh, In sh (electrons a) -> good_form_factor (x_I2 X) sh
  end.
Definition sensible_ionization (o : ionization_op) : Prop :=
  match o with
  | IBase o => sensible Rle o
  | IPE_Threshold mu sigma _ _ | IPE_Bins mu sigma _ => exists a b, mu = Fin a /\ sigma = Fin b /\ 0 < b
  | ITrigger l | IAcceptance l => Forall nn l
  | _ => True
  end.
Definition sound_ionization (s : ionization) : Prop := sound_base Rle (i_base s) /\ Forall nn (i_trigger s) /\ Forall nn (i_acceptance s) /\
  ((exists a b, i_S2_mu s = Fin a /\ i_S2_sigma s = Fin b /\ 0 < b) \/ i_using_S2_threshold s = false /\ i_using_S2_bins s = false).
Lemma sound_poisson le d : sound_base le d -> sound_base le (with_using false (b_using_bins (Initialize_Poisson d)) (Initialize_Poisson d)).
Proof. intros (A & B & C & E & F). unfold sound_base, edges_ok, windowed in *. cbn. split; [auto|]. split; [auto|]. split; [auto|]. split; [auto|]. destruct F as [F | F]; [left; auto|right; split; auto; discriminate]. Qed.
Lemma sound_binned le n d d' : sound_base le d -> Initialize_Binned_Poisson n d = Ok d' -> sound_base le d'.
Proof.
  intros (A & B & C & E & F) H. unfold Initialize_Binned_Poisson in H. destruct (b_analysis d); try discriminate; apply Ok_inj in H; subst d'; unfold sound_base, edges_ok, windowed in *; cbn;
    (split; [auto|]; split; [auto|]; split; [apply ones_fine|]; split; [auto|]); (destruct F as [F | (F & _)]; [left; auto|right; split; auto; discriminate]).
Qed.
Lemma ionization_sound_step s o s' : sensible_ionization o -> ionization_step s o = Ok s' -> sound_ionization s -> sound_ionization s' /\ i_channel s' = i_channel s /\ i_atoms s' = i_atoms s /\ i_fractions s' = i_fractions s.
Proof.
  intros S H (B & T & A & P). destruct o as [o|lo hi|lo n|mu sg lo hi|l|l|mu sg l]; cbn [ionization_step sensible_ionization] in *.
  - destruct (base_step (i_base s) o) as [d| | |] eqn:E; try discriminate. cbn [bind] in H. apply Ok_inj in H. subst s'. destruct (sound_step Rle _ _ _ order_le S E B) as (B1 & _). repeat split; auto; apply B1.
  - unfold Use_Electron_Threshold in H. cbv zeta in H. destruct (_ <? _)%Z; try discriminate. apply Ok_inj in H. subst s'. split; [|repeat split; auto]. split; [exact (sound_poisson Rle _ B)|]. split; [exact T|]. split; [exact A|]. cbn. destruct P as [P | (P1 & P2)]; auto.
  - unfold Use_Electron_Bins in H. destruct (Initialize_Binned_Poisson n (i_base s)) as [d| | |] eqn:E; try discriminate. cbn [bind] in H. cbv zeta in H. destruct (_ <? _)%Z; try discriminate. apply Ok_inj in H. subst s'.
    split; [|repeat split; auto]. split; [exact (sound_binned Rle _ _ _ B E)|]. split; [exact T|]. split; [exact A|]. cbn. destruct P as [P | (P1 & P2)]; auto.
  - unfold Use_PE_Threshold in H. cbv zeta in H. destruct (_ <? _)%Z; try discriminate. apply Ok_inj in H. subst s'. split; [|repeat split; auto]. split; [exact (sound_poisson Rle _ B)|]. split; [exact T|]. split; [exact A|]. left. exact S.
  - unfold Import_Trigger_Efficiency_PE in H. destruct (_ && _)%bool; try discriminate. apply Ok_inj in H. subst s'. split; [|repeat split; auto]. split; [exact B|]. split; [exact S|]. split; [exact A|]. exact P.
  - unfold Import_Acceptance_Efficiency_PE in H. destruct (_ && _)%bool; try discriminate. apply Ok_inj in H. subst s'. split; [|repeat split; auto]. split; [exact B|]. split; [exact T|]. split; [exact S|]. exact P.
  - unfold Use_PE_Bins in H. destruct (Initialize_Binned_Poisson _ (i_base s)) as [d| | |] eqn:E; try discriminate. cbn [bind] in H. cbv zeta in H. apply Ok_inj in H. subst s'.
    split; [|repeat split; auto]. split; [exact (sound_binned Rle _ _ _ B E)|]. split; [exact T|]. split; [exact A|]. left. exact S.
Qed.
Lemma ionization_sound_run s0 ops : forall s, ionization_run s0 ops = Ok s -> Forall sensible_ionization ops -> sound_ionization s0 -> sound_ionization s /\ i_channel s = i_channel s0 /\ i_atoms s = i_atoms s0 /\ i_fractions s = i_fractions s0.
Proof.
  induction ops as [|o ops IH] using rev_ind; intros s R F S; [apply Ok_inj in R; subst; auto|].
  rewrite ionization_run_app in R. destruct (ionization_run s0 ops) as [m| | |] eqn:E; try discriminate. cbn [bind] in R.
  apply Forall_app in F. destruct F as [F1 F2]. inversion F2 as [|? ? F3 _]; subst. destruct (IH m eq_refl F1 S) as (I1 & I2 & I3 & I4). destruct (ionization_sound_step m o s F3 R I1) as (J1 & J2 & J3 & J4).
  split; [auto|]. split; [congruence|]. split; congruence.
Qed.
Lemma ionization_sound_start ch label expo atoms fr : nn expo -> sound_ionization (Ionization_start ch label expo atoms fr).
Proof. intros H. split; [apply sound_ctor; auto|]. split; [constructor|]. split; [constructor|]. right. auto. Qed.

Lemma shell_rate_fine X DM D m vmax s a sh E : positive_externals X -> good_particle DM m -> good_halo D vmax -> nn (b_flat_efficiency (i_base s)) -> good_atom X DM (i_channel s) a -> In sh (electrons a) -> 0 < E ->
  fine (Ionization_dRdE_shell X DM D s (Fin E) (at_nucleus a) sh).
Proof.
  intros (PI_ & _) GP GH FL (G1 & G2) IS HE. unfold Ionization_dRdE_shell. apply fine_bind; [|intros; apply fine_ok; nums]. destruct (i_channel s).
  - destruct G2 as ((A & EA & HA) & GI). rewrite EA. apply (ER_shell_fine _ DM D m vmax); auto.
  - destruct G2 as (GN & GC & GF). apply (Migdal_nucleus_fine _ _ DM D m vmax); auto.
Qed.
Lemma weighted_fine s f : Forall nn (i_fractions s) -> (forall a, In a (i_atoms s) -> fine (f a)) -> fine (weighted s f).
Proof.
  intros F H. unfold weighted. apply fine_sum. intros i _. apply fine_bind_any. intros a Ha. apply at_ub_In in Ha. apply fine_bind_any. intros w Hw. apply at_ub_In in Hw. rewrite Forall_forall in F. assert (K := F w Hw).
  apply fine_bind; [apply H; auto|]. intros. apply fine_ok. nums.
Qed.
Lemma R_ne_fine X DM D m vmax s ne : positive_externals X -> good_particle DM m -> good_halo D vmax -> nn (b_flat_efficiency (i_base s)) -> (forall a, In a (i_atoms s) -> good_atom X DM (i_channel s) a) -> Forall nn (i_fractions s) ->
  fine (R_ne X DM D s ne).
Proof.
  intros PX GP GH FL GA FR. unfold R_ne. apply weighted_fine; auto. intros a Ha. assert (GA' := GA a Ha). destruct GA' as (GS & _). unfold R_ne_atom. apply fine_sum. intros sh Hs. unfold R_ne_shell. apply fine_sum. intros k Hk.
  destruct (GS sh Hs) as (Eb & qc & _ & _ & _ & (dl & ED & HD) & GK & _). destruct (GK k Hk) as (y & -> & HY). assert (h := mElectron_pos). cbv zeta. rewrite xmul_fin, !xdiv_fin by lra.
  apply fine_bind.
  - unfold PDF_ne. cbv zeta. apply fine_bind_any. intros t _. rewrite xsub_fin, xadd_fin, xdiv_fin by lra. apply PX. split.
    + apply Rmult_le_pos; [lra|]. left. apply Rinv_0_lt_compat. lra.
    + apply (Rmult_le_reg_r (1.0 + 0.2)); [lra|]. unfold Rdiv. rewrite Rmult_assoc, Rinv_l by lra. lra.
  - intros p Hp. apply fine_bind.
    + apply (shell_rate_fine X DM D m vmax); auto. apply Rdiv_lt_0_compat; auto. apply Rdiv_lt_0_compat; [|lra]. apply Rmult_lt_0_compat; auto.
    + intros r Hr. apply fine_ok. rewrite ED, xlog_fin by lra. assert (0 < ln 10.0) by (rewrite <- ln_1; apply ln_increasing; lra). nums.
Qed.
Lemma ionization_spectrum_fine X DM D m vmax s E : positive_externals X -> good_particle DM m -> good_halo D vmax -> nn (b_flat_efficiency (i_base s)) -> (forall a, In a (i_atoms s) -> good_atom X DM (i_channel s) a) -> Forall nn (i_fractions s) ->
  0 < E -> fine (Ionization_dRdE X DM D s (Fin E)).
Proof.
  intros PX GP GH FL GA FR HE. unfold Ionization_dRdE. apply weighted_fine; auto. intros a Ha. unfold Ionization_dRdE_atom. apply fine_sum. intros sh Hs. apply (shell_rate_fine X DM D m vmax); auto.
Qed.
Lemma R_S2_aux_fine n mu sg l : 0 < sg -> Forall nn l -> fine (R_S2_aux n (Fin mu) (Fin sg) l).
Proof.
  intros SG F. unfold R_S2_aux. apply fine_sum. intros ne Hn. apply Zrange_In in Hn. apply fine_bind_any. intros r Hr. apply fine_ok.
  assert (NR : nn r). { rewrite Forall_forall in F. apply F. apply at_ubZ_In in Hr. auto. }
  assert (P : 0 < IZR ne) by (apply IZR_lt; lia). rewrite xmul_fin, xsqrt_fin, xmul_fin by lra. assert (Q : 0 < sqrt (IZR ne) * sg) by (apply Rmult_lt_0_compat; auto; apply sqrt_lt_R0; auto).
  rewrite PDF_Gauss_fin by auto. assert (g := gauss_pos (sqrt (IZR ne) * sg) (IZR n - mu * IZR ne) Q). nums.
Qed.
Lemma ionization_fine X ch label expo atoms fr ops s DM D m vmax : positive_externals X -> good_particle DM m -> good_halo D vmax -> (forall a, In a atoms -> good_atom X DM ch a) -> Forall nn fr -> nn expo ->
  ionization_run (Ionization_start ch label expo atoms fr) ops = Ok s -> Forall sensible_ionization ops ->
  (forall E, 0 < E -> fine (Ionization_dRdE X DM D s (Fin E))) /\ (forall ne, fine (R_ne X DM D s ne)) /\ fine_list (Ionization_Binned X DM D s) /\ fine (Ionization_Total X DM D s).
Proof.
  intros PX GP GH GA FR NE R SE. destruct (ionization_sound_run _ _ _ R SE (ionization_sound_start ch label expo atoms fr NE)) as (SS & E1 & E2 & E3). cbn [Ionization_start i_channel i_atoms i_fractions] in E1, E2, E3.
  rewrite <- E3 in FR. rewrite <- E1, <- E2 in GA. destruct SS as ((S1 & S2 & S3 & S4 & S5) & ST & SA & SP).
  assert (DR : forall E, 0 < E -> fine (Ionization_dRdE X DM D s (Fin E))) by (intros; apply (ionization_spectrum_fine X DM D m vmax); auto).
  assert (RN : forall ne, fine (R_ne X DM D s ne)) by (intros; apply (R_ne_fine X DM D m vmax); auto).
  assert (PE : forall PE, fine (PE_efficiency s PE)).
  { intros PE. unfold PE_efficiency. rewrite Forall_forall in ST, SA. assert (AT : forall l z e, (forall x, In x l -> nn x) -> at_ubZ l z = Ok e -> nn e) by (intros l z e Hl He; apply Hl; apply at_ubZ_In in He; auto).
    apply fine_bind.
    - destruct (i_trigger s); [apply fine_ok, nn_fin; lra|]. apply fine_bind_any. intros e He. apply fine_ok. assert (K := AT _ _ _ ST He). nums.
    - intros t Ht. destruct (i_acceptance s); [apply fine_ok; auto|]. apply fine_bind_any. intros e He. apply fine_ok. assert (K := AT _ _ _ SA He). nums. }
  assert (SB : forall a b l, (exists mu sg, i_S2_mu s = Fin mu /\ i_S2_sigma s = Fin sg /\ 0 < sg) -> Forall nn l -> fine (R_S2_Bin X DM D s a b l)).
  { intros a b l (mu & sg & M1 & M2 & M3) F. unfold R_S2_Bin. apply fine_bind_list.
    - destruct l; [apply fine_map; auto|]. intros ? K. apply Ok_inj in K. subst. auto.
    - intros l' F'. destruct (_ =? _)%Z; [apply fine_ub|]. apply fine_sum. intros p _. apply fine_bind; [apply PE|]. intros e He. apply fine_bind; [|intros; apply fine_ok; nums].
      unfold R_S2. apply fine_bind_list; [destruct l'; [apply fine_map; auto|]; intros ? K; apply Ok_inj in K; subst; auto|]. intros l2 F2. rewrite M1, M2. apply R_S2_aux_fine; auto. }
  assert (PX' := PX). destruct PX' as (PI_ & _).
  assert (BF : fine_list (Ionization_Binned X DM D s)).
  { unfold Ionization_Binned. destruct (b_analysis (i_base s)); try (intros ? K; discriminate). destruct (b_using_bins (i_base s)); [apply edges_fine; auto|]. destruct (i_using_ne_bins s) eqn:UN.
    - unfold DM_Signals_Electron_Bins. rewrite UN. cbn [negb]. apply fine_map. intros i _. cbv zeta. apply fine_bind; [apply RN|]. intros r Hr. apply fine_bind_any. intros e He. apply fine_ok. apply at_ub_In in He. rewrite Forall_forall in S3. assert (K := S3 e He). nums.
    - destruct (i_using_S2_bins s) eqn:U2; [|intros ? K; discriminate]. destruct SP as [SP | (_ & SP)]; [|discriminate]. unfold DM_Signals_PE_Bins. rewrite U2. cbn [negb].
      apply fine_list_any. intros sp Hsp. assert (NS : Forall nn sp) by (apply (fine_map (R_ne X DM D s) (Zrange 1 100)); auto). apply fine_map. intros i _. apply fine_bind_any. intros lo _. apply fine_bind_any. intros hi _.
      apply fine_bind; [apply SB; auto|]. intros r Hr. apply fine_bind_any. intros e He. apply fine_ok. apply at_ub_In in He. rewrite Forall_forall in S3. assert (K := S3 e He). nums. }
  split; [exact DR|]. split; [exact RN|]. split; [exact BF|]. unfold Ionization_Total.
  assert (G : fine (if i_using_ne_threshold s then if (i_ne_max s =? 2 ^ 32 - 1)%Z then UB else sum_res (fun ne => let* r := R_ne X DM D s ne in Ok (xmul (b_exposure (i_base s)) r)) (Zrange (i_ne_threshold s) (i_ne_max s + 1))
    else if b_using_threshold (i_base s) then let* terms := map_res (fun i => let* a := at_ub (i_atoms s) i in let* w := at_ub (i_fractions s) i in map_res (threshold_term X DM D s w (at_nucleus a)) (electrons a)) (seq 0 (List.length (i_atoms s))) in Ok (xsum (List.concat terms))
    else if i_using_S2_threshold s then let* r := R_S2_Bin X DM D s (i_PE_threshold s) (i_PE_max s) [] in Ok (xmul (b_exposure (i_base s)) r) else Ok (Fin 0))).
  { destruct (i_using_ne_threshold s).
    - destruct (_ =? _)%Z; [apply fine_ub|]. apply fine_sum. intros ne _. apply fine_bind; [apply RN|]. intros. apply fine_ok. nums.
    - destruct (b_using_threshold (i_base s)) eqn:UT.
      + destruct S5 as [(lo & hi & W1 & W2 & W3 & W4 & W5) | (S5 & _)]; [|discriminate]. apply fine_bind_any. intros terms HT. apply fine_ok, nn_xsum. apply Forall_concat. apply Forall_forall. intros l Hl.
        assert (MI : exists i, (let* a := at_ub (i_atoms s) i in let* w := at_ub (i_fractions s) i in map_res (threshold_term X DM D s w (at_nucleus a)) (electrons a)) = Ok l).
        { clear - HT Hl. revert terms HT Hl. generalize (seq 0 (List.length (i_atoms s))) as js. induction js as [|j js IH]; intros terms HT Hl; cbn [map_res] in HT; [apply Ok_inj in HT; subst; destruct Hl|].
          match goal with H : bind ?m _ = _ |- _ => destruct m as [t| | |] eqn:E; try discriminate end. cbn [bind] in HT. match goal with H : bind ?m _ = _ |- _ => destruct m as [ts| | |] eqn:E2; try discriminate end. cbn [bind] in HT. apply Ok_inj in HT. subst.
          destruct Hl as [<- | Hl]; [exists j; auto|]. eapply IH; eauto. }
        destruct MI as (i & MI). destruct (at_ub (i_atoms s) i) as [a| | |] eqn:Ha; try discriminate. cbn [bind] in MI. destruct (at_ub (i_fractions s) i) as [w| | |] eqn:Hw; try discriminate. cbn [bind] in MI.
        apply at_ub_In in Ha, Hw. rewrite Forall_forall in FR. assert (NW := FR w Hw). refine (fine_map _ _ _ l MI). intros sh Hs. unfold threshold_term. cbv zeta. destruct (GA a Ha) as (GS & _). destruct (GS sh Hs) as (Eb & qc & _ & _ & _ & _ & _ & km & EK).
        assert (h := mElectron_pos). rewrite EK, W1, xmul_fin, !xdiv_fin by lra. destruct (Rlt_le_dec lo (km * km / 2.0 / mElectron)) as [L | L]; [rewrite xlt_true by auto|rewrite xlt_false by lra; apply fine_zero; lra].
        apply fine_bind; [|intros; apply fine_ok; nums]. apply (proj1 (PI_ _ _ _)); [lra|]. intros E HE. apply fine_bind; [apply (shell_rate_fine X DM D m vmax); auto; lra|]. intros. apply fine_ok. nums.
      + destruct (i_using_S2_threshold s) eqn:U2; [|apply fine_zero; auto]. destruct SP as [SP | (SP & _)]; [|discriminate]. apply fine_bind; [apply SB; auto; constructor|]. intros. apply fine_ok. nums. }
  destruct (b_analysis (i_base s)); [exact G| |exact G]. apply fine_total. exact BF.
Qed.

(** ** Semiconductor detectors *)
Definition sensible_semiconductor (c : Crystal) (o : semiconductor_op) : Prop :=
  match o with
  | CBase o => sensible Rle o
  | CQ_Threshold Q => (1 <= Q <= Q_max c)%Z
  | CQ_Bins Q n => (1 <= Q)%Z /\ (0 <= n < 2 ^ 30)%Z /\ (Q < 2 ^ 30)%Z /\ (n = 0%Z -> (Q <= Q_max c)%Z)
  end.
Definition sound_semiconductor (s : semiconductor) : Prop := sound_base Rle (c_base s) /\ (forall Q, c_Q_threshold s = Some Q -> (1 <= Q < 2 ^ 30)%Z) /\
  (b_using_bins (c_base s) = true \/ (0 <= b_bins (c_base s) <= 2 ^ 30)%Z).
Lemma base_bins d o d' : base_step d o = Ok d' -> b_using_bins d = true \/ (0 <= b_bins d <= 2 ^ 30)%Z -> b_using_bins d' = true \/ (0 <= b_bins d' <= 2 ^ 30)%Z.
Proof.
  intros H I. destruct o; cbn [base_step] in H; unfold Set_Observed_Events, Set_Expected_Background, Set_Observed_Events_Binned, Set_Bin_Efficiencies, Set_Expected_Background_Binned, Use_Maximum_Gap, Use_Energy_Threshold, Use_Energy_Bins, Initialize_Binned_Poisson in H; cbv zeta in H.
  all: try (destruct (b_analysis d); try discriminate; cbn [bind] in H).
  all: try (destruct (_ =? _)%Z; try discriminate).
  all: try (destruct (_ && _)%bool; try discriminate; destruct (sort_doubles l); try discriminate).
  all: try (destruct (xlt _ _); try discriminate).
  all: apply Ok_inj in H; subst d'; cbn; auto.
Qed.
Definition ordinary_crystal (c : Crystal) : Prop := crystal_numbers c /\ (0 <= Q_max c < 2 ^ 30)%Z.
Lemma Emin_window c gap eps de emax a b Q Q' : real_crystal c gap eps de emax a b -> (1 <= Q <= Q')%Z -> exists lo hi, Minimum_Electron_Energy Q c = Fin lo /\ Minimum_Electron_Energy Q' c = Fin hi /\ 0 < lo /\ lo <= hi.
Proof.
  intros RC L. rewrite !(Emin_fin c gap eps de emax a b) by auto. do 2 eexists. split; [reflexivity|]. split; [reflexivity|]. unfold Emin_R. destruct RC as (_ & _ & _ & _ & _ & _ & G & E & _).
  assert (1 <= IZR Q) by (apply IZR_le; lia). assert (IZR Q <= IZR Q') by (apply IZR_le; lia). assert (0 <= eps * (IZR Q - 1)) by (apply Rmult_le_pos; lra). assert (eps * (IZR Q - 1) <= eps * (IZR Q' - 1)) by (apply Rmult_le_compat_l; lra). lra.
Qed.
Lemma semiconductor_sound_step s o s' : ordinary_crystal (c_crystal s) -> sensible_semiconductor (c_crystal s) o -> semiconductor_step s o = Ok s' -> sound_semiconductor s -> sound_semiconductor s' /\ c_crystal s' = c_crystal s.
Proof.
  intros ((gap & eps & de & emax & a & b & M & RC & _) & QM) S H (B & Q0 & QN). assert (RNG : forall lo hi d, (exists x y, lo = Fin x /\ hi = Fin y /\ 0 < x /\ x <= y) -> sound_base Rle d -> sound_base Rle (with_range lo hi d)).
  { intros lo hi d (x & y & -> & -> & X & Y) (A1 & A2 & A3 & A4 & A5). unfold sound_base, edges_ok in *. cbn. split; [auto|]. split; [auto|]. split; [auto|]. split; [auto|]. left. exists x, y. cbn. auto. }
  destruct o as [o|Q|Q n]; cbn [semiconductor_step sensible_semiconductor] in *.
  - destruct (base_step (c_base s) o) as [d| | |] eqn:E; try discriminate. cbn [bind] in H. apply Ok_inj in H. subst s'. destruct (sound_step Rle _ _ _ order_le S E B) as (B1 & _). assert (B2 := base_bins _ _ _ E QN). split; [split; auto|reflexivity].
  - apply Ok_inj in H. subst s'. split; [|reflexivity]. split; [|split; [intros ? K; injection K as <-; lia|exact QN]]. unfold Use_Q_Threshold. cbn [with_c_base c_base with_Q]. rewrite !s32_small by lia. apply RNG; [eapply Emin_window; eauto|].
    destruct B as (A1 & A2 & A3 & A4 & A5). unfold sound_base, edges_ok, windowed in *. cbn. split; [auto|]. split; [auto|]. split; [auto|]. split; [auto|]. destruct A5 as [A5 | (A5 & _)]; [left; auto|right; split; auto; discriminate].
  - destruct S as (S1 & S2 & S3 & S4). unfold Use_Q_Bins in H. cbv zeta in H. match type of H with bind ?m _ = _ => destruct m as [d| | |] eqn:E end; try discriminate. cbn [bind] in H. apply Ok_inj in H. subst s'. split; [|reflexivity].
    split; [|split; [intros ? K; injection K as <-; lia|]].
    2:{ right. unfold Initialize_Binned_Poisson in E. destruct (b_analysis (c_base s)); try discriminate; apply Ok_inj in E; subst d; cbn; unfold u32; (destruct (Z.eqb_spec n 0) as [-> | NZ]; [specialize (S4 eq_refl)|rewrite (Z.mod_small (n + Q - 1)) by lia]; rewrite Z.mod_small by lia; lia). }
    cbn [with_c_base c_base with_Q]. apply RNG; [|eapply sound_binned; eauto]. rewrite (s32_small Q) by lia.
    assert (L : (Q <= (if (n =? 0)%Z then Q_max (c_crystal s) else u32 (n + Q - 1)) < 2 ^ 31)%Z). { destruct (Z.eqb_spec n 0) as [-> | NZ]; [split; [auto|lia]|]. unfold u32. rewrite Z.mod_small by lia. lia. }
    rewrite s32_small by lia. eapply Emin_window; eauto. lia.
Qed.
Lemma semiconductor_sound_run s0 ops : ordinary_crystal (c_crystal s0) -> forall s, semiconductor_run s0 ops = Ok s -> Forall (sensible_semiconductor (c_crystal s0)) ops -> sound_semiconductor s0 -> sound_semiconductor s /\ c_crystal s = c_crystal s0.
Proof.
  intros OC. induction ops as [|o ops IH] using rev_ind; intros s R F S; [apply Ok_inj in R; subst; auto|].
  rewrite semiconductor_run_app in R. destruct (semiconductor_run s0 ops) as [m| | |] eqn:E; try discriminate. cbn [bind] in R.
  apply Forall_app in F. destruct F as [F1 F2]. inversion F2 as [|? ? F3 _]; subst. destruct (IH m eq_refl F1 S) as (I1 & I2). rewrite <- I2 in F3, OC. destruct (semiconductor_sound_step m o s OC F3 R I1) as (J1 & J2). split; [auto|congruence].
Qed.
Lemma start_nonneg c gap eps de emax a b Q st : real_crystal c gap eps de emax a b -> (1 <= Q)%Z -> to_int (xdiv (Minimum_Electron_Energy Q c) (dE c)) = Ok st -> (0 <= st)%Z.
Proof.
  intros RC HQ H. rewrite (Emin_fin c gap eps de emax a b) in H by auto. destruct RC as (_ & _ & ED & _ & _ & _ & G & E & D & _). rewrite ED, xdiv_fin in H by lra.
  assert (P : 0 < Emin_R gap eps Q / de) by (apply Rdiv_lt_0_compat; [apply Emin_pos; auto|auto]). unfold to_int, double_to_int in H. rewrite Rtrunc_nonneg in H by lra. destruct (_ && _)%bool; try discriminate. apply Ok_inj in H. subst st. apply Rfloor_nonneg. lra.
Qed.
Lemma R_Q_loop_fine I em DM D m vmax c : positive_integrator I -> good_particle DM m -> good_halo D vmax -> crystal_numbers c -> good_crystal DM c -> forall l sum, (forall z, In z l -> (0 <= z)%Z) -> nn sum -> fine (R_Q_loop I em DM D c sum l).
Proof.
  intros PI_ GP GH CN GC. assert (CN' := CN). destruct CN' as (gap & eps & de & emax & a & b & M & (_ & _ & ED & _ & _ & _ & _ & _ & HD & _) & _).
  induction l as [|z l IH]; intros sum Z N; cbn [R_Q_loop]; [apply fine_ok; auto|]. rewrite ED, xmul_fin. destruct (xlt _ _); [apply fine_ok; auto|].
  apply fine_bind; [apply (Crystal_fine I DM D m vmax); auto; apply Rmult_lt_0_compat; auto; apply IZR_lt; specialize (Z z (or_introl eq_refl)); lia|]. intros r Hr. apply IH; [intros; apply Z; right; auto|]. nums.
Qed.
Lemma R_total_loop_fine I DM D m vmax c : positive_integrator I -> good_particle DM m -> good_halo D vmax -> crystal_numbers c -> good_crystal DM c -> forall l sum, (forall z, In z l -> (0 <= z)%Z) -> nn sum -> fine (R_total_loop I DM D c sum l).
Proof.
  intros PI_ GP GH CN GC. assert (CN' := CN). destruct CN' as (gap & eps & de & emax & a & b & M & (_ & _ & ED & _ & _ & _ & _ & _ & HD & _) & _).
  induction l as [|z l IH]; intros sum Z N; cbn [R_total_loop]; [apply fine_ok; auto|]. rewrite ED, xmul_fin.
  apply fine_bind; [apply (Crystal_fine I DM D m vmax); auto; apply Rmult_lt_0_compat; auto; apply IZR_lt; specialize (Z z (or_introl eq_refl)); lia|]. intros r Hr. apply IH; [intros; apply Z; right; auto|]. nums.
Qed.
Lemma semiconductor_fine X label expo c ops s DM D m vmax : positive_externals X -> good_particle DM m -> good_halo D vmax -> ordinary_crystal c -> good_crystal DM c -> nn expo ->
  semiconductor_run (mkSemiconductor (Detector_ctor label expo "Electrons") c None None None) ops = Ok s -> Forall (sensible_semiconductor c) ops ->
  (forall E, 0 < E -> fine (Semiconductor_dRdE X DM D s (Fin E))) /\ (forall Q, (1 <= Q)%Z -> fine (R_Q_Crystal (x_Integrate X) Q DM D c) /\ fine (R_total_Crystal (x_Integrate X) Q DM D c)) /\
  fine_list (Semiconductor_Binned X DM D s) /\ fine (Semiconductor_Total X DM D s).
Proof.
  intros PX GP GH OC GC NE R SE. assert (PX' := PX). destruct PX' as (PI_ & _). pose (z0 := mkSemiconductor (Detector_ctor label expo "Electrons") c None None None). assert (OC' := OC). destruct OC' as (CN & QM). assert (CN' := CN). destruct CN' as (gap & eps & de & emax & a & b & M & RC & _).
  assert (S0 : sound_semiconductor (mkSemiconductor (Detector_ctor label expo "Electrons") c None None None)) by (split; [apply sound_ctor; auto|split; [intros ? K; discriminate|right; cbn; lia]]).
  destruct (semiconductor_sound_run z0 ops OC s R SE S0) as (((S1 & S2 & S3 & S4 & S5) & SQ & SN) & EC). unfold z0 in EC. cbn [c_crystal] in EC.
  assert (DR : forall E, 0 < E -> fine (Semiconductor_dRdE X DM D s (Fin E))).
  { intros E HE. unfold Semiconductor_dRdE. rewrite EC. apply fine_bind; [apply (Crystal_fine _ DM D m vmax); auto|]. intros. apply fine_ok. nums. }
  assert (RQ : forall Q, (1 <= Q)%Z -> fine (R_Q_Crystal (x_Integrate X) Q DM D c) /\ fine (R_total_Crystal (x_Integrate X) Q DM D c)).
  { intros Q HQ. unfold R_Q_Crystal, R_total_Crystal. cbv zeta. split; apply fine_bind_any; intros st Hst; apply (start_nonneg c gap eps de emax a b Q st RC HQ) in Hst.
    - apply (R_Q_loop_fine _ _ DM D m vmax); auto; [intros z Hz; apply Zrange_In in Hz; lia|apply nn_fin; lra].
    - apply (R_total_loop_fine _ DM D m vmax); auto; [intros z Hz; apply Zrange_In in Hz; lia|apply nn_fin; lra]. }
  assert (BF : fine_list (Semiconductor_Binned X DM D s)).
  { unfold Semiconductor_Binned. destruct (b_analysis (c_base s)); try (intros ? K; discriminate). destruct (b_using_bins (c_base s)) eqn:UB_; [apply edges_fine; auto|]. destruct SN as [SN | SN]; [discriminate|]. apply fine_list_any. intros u Hu. destruct u; [|intros ? K; discriminate].
    unfold DM_Signals_Q_Bins. rewrite Hu. cbn [bind negb]. apply fine_list_any. intros Qt Hq. unfold read_init in Hq. destruct (c_Q_threshold s) as [Q0|] eqn:EQ; try discriminate. apply Ok_inj in Hq. subst Q0. assert (HQ := SQ Qt eq_refl).
    apply fine_map. intros Q HQ'. apply Zrange_In in HQ'. apply fine_bind_any. intros e He. apply at_ubZ_In in He. rewrite Forall_forall in S3. assert (NEF := S3 e He).
    apply fine_bind; [|intros; apply fine_ok; nums]. rewrite EC. apply RQ. unfold u32 in HQ'. rewrite Z.mod_small in HQ' by lia. rewrite s32_small; lia. }
  split; [exact DR|]. split; [exact RQ|]. split; [exact BF|]. unfold Semiconductor_Total. cbv zeta.
  assert (G : forall an, an <> Binned_Poisson -> b_analysis (c_base s) = an -> fine (if (b_using_threshold (c_base s) || match an with Maximum_Gap => true | _ => false end)%bool
    then let* integral := x_Integrate X (Semiconductor_dRdE X DM D s) (b_threshold (c_base s)) (b_energy_max (c_base s)) in Ok (xmul (b_exposure (c_base s)) integral)
    else let* u := read_init (c_using_Q_threshold s) in if u then let* Qt := read_init (c_Q_threshold s) in let* r := R_total_Crystal (x_Integrate X) (s32 Qt) DM D (c_crystal s) in Ok (xmul (xmul (b_exposure (c_base s)) (b_flat_efficiency (c_base s))) r) else Ok (Fin 0))).
  { intros an NB EA. destruct (_ || _)%bool eqn:UT.
    - assert (W : windowed Rle (c_base s)). { destruct S5 as [S5 | (S5 & S6)]; auto. rewrite S5 in UT. cbn [orb] in UT. destruct an; try discriminate. exfalso. apply S6. auto. }
      destruct W as (lo & hi & W1 & W2 & W3 & W4 & W5). rewrite W1, W2. apply fine_bind; [|intros; apply fine_ok; nums]. apply (proj1 (PI_ _ _ _)); [lra|]. intros E HE. apply DR. lra.
    - apply fine_bind_any. intros u _. destruct u; [|apply fine_zero; auto]. apply fine_bind_any. intros Qt Hq. unfold read_init in Hq. destruct (c_Q_threshold s) as [Q0|] eqn:EQ; try discriminate. apply Ok_inj in Hq. subst Q0. assert (HQ := SQ Qt eq_refl).
      apply fine_bind; [|intros; apply fine_ok; nums]. rewrite EC, s32_small by lia. apply RQ. lia. }
  destruct (b_analysis (c_base s)) eqn:EA; [apply (G Poisson)|apply fine_total; exact BF|apply (G Maximum_Gap)]; auto; discriminate.
Qed.
