(** The rate from the eta function and the rate from the integral over speeds (C55, C71). *)
From Coq Require Import Reals ZArith String Lia Lra Bool.
From Coquelicot Require Import Coquelicot.
From Coq Require Import List.
From Verif Require Import Base XrFacts Quadrature Nucleus_Model Nuclear_Model Particle_Model CrossSection_Model CrossSection_Proofs Distribution_Model Halo_Model Atom_Model Crystal_Model Rates_Model
  Kinematics_Proofs Eta_Proofs Detector_Model DetectorTypes_Model DetectorBins_Proofs.
Import ListNotations.
Local Open Scope R_scope.

(** * Specification *)
(** The same particle, and the same distribution, with the switch of the eta function off. *)
Definition switch_off (DM : DM_interface) : DM_interface :=
  mkDM (dm_mass DM) (dm_fraction DM) false (dm_dSigma_dq2_Nucleus DM) (dm_d2Sigma_Ionization DM) (dm_d2Sigma_Crystal DM).
Definition halo_off (D : Distr_interface) : Distr_interface := mkDistr (d_rho D) (d_vmin D) (d_vmax D) false (d_pdf_speed D) (d_eta D).
(** A cross section that falls like 1/v^2. *)
Definition inverse_square (sig : xr -> res xr) (c : R) : Prop := forall v, 0 < v -> sig (Fin v) = Ok (Fin (c / v ^ 2)).
(** The density f and, for speeds from lo to hi, an eta function that is the mean inverse speed. *)
Definition mean_inverse (D : Distr_interface) (f : R -> R) (rho vmax lo hi : R) : Prop :=
  d_rho D = Fin rho /\ d_vmax D = Fin vmax /\ (forall v, 0 < v <= vmax -> d_pdf_speed D (Fin v) = Ok (Fin (f v))) /\
  (forall x, 0 < x -> lo <= x <= hi -> x <= vmax -> exists e, d_eta D (Fin x) = Ok (Fin e) /\ is_RInt (fun v => f v / v) x vmax e).

(** * The integral over speeds *)
Lemma flux_integral Integrate D f rho vmax lo hi sig c m x : ideal_quadrature Integrate -> mean_inverse D f rho vmax lo hi -> inverse_square sig c -> 0 < m -> 0 < x -> lo <= x <= hi -> x <= vmax ->
  exists e, d_eta D (Fin x) = Ok (Fin e) /\ is_RInt (fun v => f v / v) x vmax e /\
    Integrate (fun v => let* fl := flux D v (Fin m) in let* d := sig v in Ok (xmul fl d)) (Fin x) (Fin vmax) = Ok (Fin (rho / m * c * e)) /\
    is_RInt (fun v => rho / m * v * f v * (c / v ^ 2)) x vmax (rho / m * c * e).
Proof.
  intros Q (R1 & R2 & R3 & R4) S Hm Hx L V. destruct (R4 x Hx L V) as (e & E1 & E2). exists e. split; auto. split; auto.
  set (g := fun v => rho / m * v * f v * (c / v ^ 2)).
  assert (G : is_RInt g x vmax (rho / m * c * e)).
  { apply (is_RInt_ext (fun v => scal (rho / m * c) (f v / v))).
    - rewrite Rmin_left, Rmax_right by auto. intros v Hv. unfold g, scal; cbn; unfold mult; cbn. req. field. lra.
    - apply (is_RInt_scal (V := R_NormedModule)). exact E2. }
  split; [|exact G]. rewrite (Q _ g x vmax).
  - do 2 f_equal. apply is_RInt_unique. exact G.
  - rewrite Rmin_left, Rmax_right by auto. intros v Hv. unfold flux, Differential_DM_Flux. rewrite R1, R3 by lra. cbn [bind]. rewrite S by lra. cbn [bind]. rewrite xdiv_fin, !xmul_fin by lra. reflexivity.
  - exists (rho / m * c * e). exact G.
Qed.

(** * Nuclear recoils *)
Lemma formulas_isotope Integrate DM D t m M fr f rho vmax lo hi E c : ideal_quadrature Integrate -> mean_inverse D f rho vmax lo hi ->
  dm_mass DM = Fin m -> 0 < m -> imass t = Fin M -> 0 < M -> dm_fraction DM = Fin fr -> dm_use_eta DM = true -> d_use_eta D = true -> 0 < E ->
  (vmax < vmin_R E m M \/ lo <= vmin_R E m M <= hi) -> inverse_square (dm_dSigma_dq2_Nucleus DM (Fin (sqrt (2 * M * E))) t) c ->
  exists r, dRdER_Isotope Integrate (Fin E) DM D t = Ok (Fin r) /\
    dRdER_Isotope Integrate (Fin E) (switch_off DM) D t = Ok (Fin r) /\ dRdER_Isotope Integrate (Fin E) DM (halo_off D) t = Ok (Fin r) /\
    (vmax < vmin_R E m M -> r = 0) /\
    (vmin_R E m M <= vmax -> is_RInt (fun v => fr / M * (rho / m * v * f v * (2 * M * (c / v ^ 2)))) (vmin_R E m M) vmax r).
Proof.
  intros Q H Em Hm EM HM Ef U1 U2 HE C S. assert (H' := H). destruct H' as (R1 & R2 & R3 & R4).
  unfold dRdER_Isotope. cbn [switch_off halo_off dm_mass dm_fraction dm_use_eta d_vmax d_use_eta]. rewrite Em, EM, R2, U1, U2, Ef, vMinimal_fin by lra.
  destruct (Rlt_le_dec vmax (vmin_R E m M)) as [L | L].
  - rewrite xlt_true by auto. exists 0. replace (Fin 0.0) with (Fin 0) by (f_equal; lra). repeat split; auto. intros; lra.
  - rewrite xlt_false by auto. destruct C as [C | C]; [lra|]. cbn [andb].
    assert (V0 : 0 < vmin_R E m M). { unfold vmin_R. apply sqrt_lt_R0. apply Rdiv_lt_0_compat; [apply Rmult_lt_0_compat; auto|]. assert (h := mu_pos m M Hm HM). assert (0 < mu m M ^ 2) by (apply pow_lt; auto). lra. }
    assert (SG : forall v, dm_dSigma_dER DM (Fin E) t v = let* d := dm_dSigma_dq2_Nucleus DM (Fin (sqrt (2 * M * E))) t v in Ok (xmul (Fin (2 * M)) d)).
    { intros v. unfold dm_dSigma_dER. rewrite EM, !xmul_fin, xsqrt_fin by (apply Rmult_le_pos; lra). reflexivity. }
    assert (SO : forall v, dm_dSigma_dER (switch_off DM) (Fin E) t v = dm_dSigma_dER DM (Fin E) t v) by reflexivity.
    assert (S' : inverse_square (dm_dSigma_dER DM (Fin E) t) (2 * M * c)). { intros v Hv. rewrite SG, S by auto. cbn [bind]. rewrite xmul_fin. do 2 f_equal. field. lra. }
    destruct (flux_integral Integrate D f rho vmax lo hi _ _ m _ Q H S' Hm V0 C L) as (e & E1 & E2 & E3 & E4).
    exists (fr / M * (rho / m * (2 * M * c) * e)). split; [|split; [|split; [|split]]].
    + replace (Fin 1.0e-3) with (Fin (1 / 1000)) by (f_equal; lra). rewrite (S' (1 / 1000)) by lra. rewrite E1, R1. cbn [bind]. replace (Fin 1.0) with (Fin 1) by (f_equal; lra). rewrite !xdiv_fin by lra. rewrite !xmul_fin, xdiv_fin, !xmul_fin by lra. do 2 f_equal. field. lra.
    + cbn [andb]. match goal with |- context [Integrate ?F _ _] => change F with (fun v => let* fl := flux D v (Fin m) in let* d := dm_dSigma_dER DM (Fin E) t v in Ok (xmul fl d)) end. rewrite E3. cbn [bind]. rewrite xdiv_fin, xmul_fin by lra. reflexivity.
    + cbn [andb]. match goal with |- context [Integrate ?F _ _] => change F with (fun v => let* fl := flux D v (Fin m) in let* d := dm_dSigma_dER DM (Fin E) t v in Ok (xmul fl d)) end. rewrite E3. cbn [bind]. rewrite xdiv_fin, xmul_fin by lra. reflexivity.
    + intros; lra.
    + intros _. apply (is_RInt_ext (fun v => scal (fr / M) (rho / m * v * f v * (2 * M * c / v ^ 2)))).
      * rewrite Rmin_left, Rmax_right by auto. intros v Hv. unfold scal; cbn; unfold mult; cbn. req. field. lra.
      * apply (is_RInt_scal (V := R_NormedModule)). exact E4.
Qed.

Lemma formulas_nucleus Integrate DM D n m fr f rho vmax lo hi E : ideal_quadrature Integrate -> mean_inverse D f rho vmax lo hi ->
  dm_mass DM = Fin m -> 0 < m -> dm_fraction DM = Fin fr -> dm_use_eta DM = true -> d_use_eta D = true -> 0 < E ->
  (forall t, In t (nisotopes n) -> exists M c, imass t = Fin M /\ 0 < M /\ (vmax < vmin_R E m M \/ lo <= vmin_R E m M <= hi) /\ inverse_square (dm_dSigma_dq2_Nucleus DM (Fin (sqrt (2 * M * E))) t) c) ->
  dRdER_Nucleus Integrate (Fin E) (switch_off DM) D n = dRdER_Nucleus Integrate (Fin E) DM D n /\ dRdER_Nucleus Integrate (Fin E) DM (halo_off D) n = dRdER_Nucleus Integrate (Fin E) DM D n.
Proof.
  intros Q H Em Hm Ef U1 U2 HE T. unfold dRdER_Nucleus, sum_res.
  split; (erewrite map_res_ext; [reflexivity|]; intros t It; destruct (T t It) as (M & c & EM & HM & C & S); destruct (formulas_isotope Integrate DM D t m M fr f rho vmax lo hi E c) as (r & A1 & A2 & A3 & _); auto; rewrite A1, ?A2, ?A3; reflexivity).
Qed.

(** * Electron recoils in atoms *)
Lemma log_space_between a b n q : 0 < a -> a <= b -> (2 <= n)%nat -> In q (Log_Space (Fin a) (Fin b) n) -> exists x, q = Fin x /\ a <= x <= b.
Proof.
  intros A L N I. unfold Log_Space in I. apply in_map_iff in I. destruct I as (i & <- & I). apply in_seq in I. rewrite !xlog_fin by lra.
  assert (P : 0 < INR (n - 1)) by (apply lt_0_INR; lia). rewrite xsub_fin, xdiv_fin, xmul_fin, xadd_fin, xexp_fin by lra. eexists. split; [reflexivity|].
  assert (LN : ln a <= ln b) by (destruct L as [L | ->]; [left; apply ln_increasing; auto|lra]).
  assert (F : 0 <= INR i * ((ln b - ln a) / INR (n - 1)) <= ln b - ln a).
  { assert (0 <= INR i) by apply pos_INR. assert (I1 : INR i <= INR (n - 1)) by (apply le_INR; lia). assert (D0 : 0 <= (ln b - ln a) / INR (n - 1)) by (apply Rmult_le_pos; [lra|left; apply Rinv_0_lt_compat; auto]). split; [apply Rmult_le_pos; auto|].
    replace (ln b - ln a) with (INR (n - 1) * ((ln b - ln a) / INR (n - 1))) at 2 by (field; lra). apply Rmult_le_compat_r; auto. }
  assert (EX : forall x y, x <= y -> exp x <= exp y) by (intros x y [LT | ->]; [left; apply exp_increasing; auto|lra]).
  split; [rewrite <- (exp_ln a) at 1 by lra|rewrite <- (exp_ln b) at 2 by lra]; apply EX; lra.
Qed.
Lemma sum_res_ext {A : Type} (f g : A -> res xr) l : (forall a, In a l -> f a = g a) -> sum_res f l = sum_res g l.
Proof. intros H. unfold sum_res. rewrite (map_res_ext f g); auto. Qed.

Lemma formulas_ER_term Integrate DM D shell m f rho vmax lo hi Ee Eb dl q c : ideal_quadrature Integrate -> mean_inverse D f rho vmax lo hi ->
  dm_mass DM = Fin m -> 0 < m -> binding_energy shell = Fin Eb -> 0 <= Eb -> 0 < Ee -> 0 < q ->
  (vmax <= (Eb + Ee) / q + q / (2 * m) \/ lo <= (Eb + Ee) / q + q / (2 * m) <= hi) -> inverse_square (fun v => dm_d2Sigma_Ionization DM (Fin q) (Fin Ee) v shell) c ->
  exists r, forall DM' D', (DM' = DM /\ D' = D) \/ (DM' = switch_off DM /\ D' = D) \/ (DM' = DM /\ D' = halo_off D) -> ER_term Integrate (Fin Ee) DM' D' shell (Fin dl) (Fin q) = Ok (Fin r).
Proof.
  intros Q H Em Hm EB HB HE Hq C S. assert (H' := H). destruct H' as (R1 & R2 & R3 & R4). set (v0 := (Eb + Ee) / q + q / (2 * m)) in *.
  assert (V0 : 0 < v0). { unfold v0. apply Rplus_lt_0_compat; apply Rdiv_lt_0_compat; lra. }
  destruct (Rlt_le_dec v0 vmax) as [L | L].
  - destruct C as [C | C]; [lra|]. destruct (flux_integral Integrate D f rho vmax lo hi _ _ m _ Q H S Hm V0 C (Rlt_le _ _ L)) as (e & E1 & E2 & E3 & E4).
    exists (2 * dl * q * q * (rho / m * c * e)).
    assert (ETA : Ok (Fin 2.0 * Fin dl * Fin q * Fin q * Fin (c / (1 / 1000) ^ 2) * Fin (1 / 1000) * Fin (1 / 1000) * Fin rho / Fin m * Fin e)%xr = Ok (Fin (2 * dl * q * q * (rho / m * c * e)))).
    { rewrite !xmul_fin, xdiv_fin, xmul_fin by lra. do 2 f_equal. replace 2.0 with 2 by lra. field. lra. }
    assert (DIR : Ok (Fin 2.0 * Fin dl * Fin q * Fin q * Fin (rho / m * c * e))%xr = Ok (Fin (2 * dl * q * q * (rho / m * c * e)))).
    { rewrite !xmul_fin. do 2 f_equal. replace 2.0 with 2 by lra. ring. }
    intros DM' D' K. assert (KM : dm_mass DM' = Fin m) by (destruct K as [[-> _] | [[-> _] | [-> _]]]; exact Em). assert (KV : d_vmax D' = Fin vmax) by (destruct K as [[_ ->] | [[_ ->] | [_ ->]]]; exact R2).
    assert (KS : forall v, dm_d2Sigma_Ionization DM' (Fin q) (Fin Ee) v shell = dm_d2Sigma_Ionization DM (Fin q) (Fin Ee) v shell) by (destruct K as [[-> _] | [[-> _] | [-> _]]]; reflexivity).
    assert (KF : flux D' = flux D) by (destruct K as [[_ ->] | [[_ ->] | [_ ->]]]; reflexivity). assert (KE : d_eta D' = d_eta D) by (destruct K as [[_ ->] | [[_ ->] | [_ ->]]]; reflexivity). assert (KR : d_rho D' = Fin rho) by (destruct K as [[_ ->] | [[_ ->] | [_ ->]]]; exact R1).
    unfold ER_term. rewrite KM, KV, EB, xadd_fin, vMinimal_Electrons_fin by auto. fold v0. rewrite xlt_true by auto. destruct (dm_use_eta DM' && d_use_eta D')%bool.
    + replace (Fin 1.0e-3) with (Fin (1 / 1000)) by (f_equal; lra). rewrite KS, S by lra. rewrite KE, E1, KR. cbn [bind]. exact ETA.
    + rewrite KF. replace (fun v => let* f0 := flux D v (Fin m) in let* d := dm_d2Sigma_Ionization DM' (Fin q) (Fin Ee) v shell in Ok (f0 * d)%xr) with (fun v => let* fl := flux D v (Fin m) in let* d := dm_d2Sigma_Ionization DM (Fin q) (Fin Ee) v shell in Ok (fl * d)%xr).
      * rewrite E3. cbn [bind]. exact DIR.
      * destruct K as [[-> _] | [[-> _] | [-> _]]]; reflexivity.
  - exists 0. intros DM' D' K. assert (KM : dm_mass DM' = Fin m) by (destruct K as [[-> _] | [[-> _] | [-> _]]]; exact Em). assert (KV : d_vmax D' = Fin vmax) by (destruct K as [[_ ->] | [[_ ->] | [_ ->]]]; exact R2).
    unfold ER_term. rewrite KM, KV, EB, xadd_fin, vMinimal_Electrons_fin by auto. fold v0. rewrite xlt_false by auto. reflexivity.
Qed.

(** The largest shell momentum window: positive momenta. *)
Lemma window_positive DM D m v shell Eb a b qc : real_setting DM D m v -> binding_energy shell = Fin Eb -> 0 < Eb -> q_max shell = Fin qc -> ER_window DM D shell = Some (a, b) ->
  exists x y, a = Fin x /\ b = Fin y /\ 0 < x /\ x <= y /\ y <= qc.
Proof.
  intros (E1 & E2 & Hm & Hv) EB HB EQ W. unfold ER_window in W. rewrite E1, E2, EB, EQ in W. rewrite xdiv_fin, !xmul_fin in W by lra.
  destruct (Rlt_le_dec (m / 2.0 * v * v) Eb) as [L | L]; [rewrite xlt_true in W by auto; discriminate|]. rewrite xlt_false in W by auto. rewrite xsub_fin in W. replace (2.0 * m * Eb) with (2 * m * Eb) in W by lra.
  assert (P : 0 <= m * m * v * v - 2 * m * Eb). { assert (K : m * (Eb) <= m * (m / 2.0 * v * v)) by (apply Rmult_le_compat_l; lra). replace (m * (m / 2.0 * v * v)) with (m * m * v * v / 2) in K by (replace 2.0 with 2 by lra; field). lra. }
  rewrite xsqrt_fin in W by auto. set (r := sqrt (m * m * v * v - 2 * m * Eb)) in W. rewrite xadd_fin, xsub_fin in W. assert (R0 : 0 <= r) by apply sqrt_pos.
  assert (R1 : r < m * v). { unfold r. rewrite <- (sqrt_square (m * v)) by (apply Rmult_le_pos; lra). apply sqrt_lt_1_alt. split; auto. assert (0 < m * Eb) by (apply Rmult_lt_0_compat; auto). lra. }
  destruct (Rlt_le_dec qc (m * v - r)) as [L1 | L1]; [rewrite xlt_true in W by auto; discriminate|]. rewrite xlt_false in W by auto.
  destruct (Rlt_le_dec qc (m * v + r)) as [L2 | L2]; [rewrite xlt_true in W by auto|rewrite xlt_false in W by auto]; injection W as <- <-; do 2 eexists; (split; [reflexivity|]; split; [reflexivity|]); lra.
Qed.
(** The momenta at which the rate of a shell is sampled, /repo/src/Direct_Detection_ER.cpp:16-30. *)
Definition sampled (DM : DM_interface) (D : Distr_interface) (shell : Atomic_Electron) (q : R) : Prop :=
  exists a b, ER_window DM D shell = Some (a, b) /\ In (Fin q) (Log_Space a b 100).
Lemma formulas_ER_shell Integrate DM D shell m f rho vmax lo hi Ee Eb qc mn : ideal_quadrature Integrate -> mean_inverse D f rho vmax lo hi -> real_setting DM D m vmax ->
  binding_energy shell = Fin Eb -> 0 < Eb -> q_max shell = Fin qc -> 0 < Ee ->
  (forall q, sampled DM D shell q -> (Eb + Ee) / q + q / (2 * m) < vmax -> lo <= (Eb + Ee) / q + q / (2 * m) <= hi) ->
  (forall q, sampled DM D shell q -> exists c, inverse_square (fun v => dm_d2Sigma_Ionization DM (Fin q) (Fin Ee) v shell) c) ->
  dRdEe_ER_shell Integrate (Fin Ee) (switch_off DM) D mn shell = dRdEe_ER_shell Integrate (Fin Ee) DM D mn shell /\
  dRdEe_ER_shell Integrate (Fin Ee) DM (halo_off D) mn shell = dRdEe_ER_shell Integrate (Fin Ee) DM D mn shell.
Proof.
  intros Q H RS EB HB EQ HE C S. assert (RS' := RS). destruct RS' as (Em & EV & Hm & Hv). unfold dRdEe_ER_shell.
  assert (W1 : ER_window (switch_off DM) D shell = ER_window DM D shell) by reflexivity. assert (W2 : ER_window DM (halo_off D) shell = ER_window DM D shell) by reflexivity. rewrite W1, W2.
  destruct (ER_window DM D shell) as [[a b] |] eqn:W; [|auto]. destruct (window_positive DM D m vmax shell Eb a b qc RS EB HB EQ W) as (x & y & -> & -> & X & XY & YQ).
  assert (T : forall dl q, In q (Log_Space (Fin x) (Fin y) 100) -> exists r, forall DM' D', (DM' = DM /\ D' = D) \/ (DM' = switch_off DM /\ D' = D) \/ (DM' = DM /\ D' = halo_off D) -> ER_term Integrate (Fin Ee) DM' D' shell (Fin dl) q = Ok (Fin r)).
  { intros dl q I. destruct (log_space_between x y 100 q X XY ltac:(lia) I) as (z & -> & Z). assert (SM : sampled DM D shell z) by (exists (Fin x), (Fin y); auto). destruct (S z SM) as (c & Sc). apply (formulas_ER_term Integrate DM D shell m f rho vmax lo hi Ee Eb dl z c); auto; try lra.
    destruct (Rlt_le_dec ((Eb + Ee) / z + z / (2 * m)) vmax); [right; apply C; auto|left; auto]. }
  assert (GR : exists g0 g1, at_ub (Log_Space (Fin x) (Fin y) 100) 1 = Ok (Fin g1) /\ at_ub (Log_Space (Fin x) (Fin y) 100) 0 = Ok (Fin g0) /\ 0 < g0 /\ 0 < g1).
  { assert (AT : forall i, (i < 100)%nat -> exists g, at_ub (Log_Space (Fin x) (Fin y) 100) i = Ok (Fin g) /\ 0 < g).
    { intros i Hi. assert (LN : (i < List.length (Log_Space (Fin x) (Fin y) 100))%nat) by (unfold Log_Space; rewrite map_length, seq_length; auto).
      unfold at_ub. destruct (nth_error (Log_Space (Fin x) (Fin y) 100) i) eqn:N; [|apply nth_error_None in N; lia]. apply nth_error_In in N. destruct (log_space_between x y 100 x0 X XY ltac:(lia) N) as (z & -> & Z). exists z. split; auto. lra. }
    destruct (AT 0%nat ltac:(lia)) as (g0 & A0 & P0). destruct (AT 1%nat ltac:(lia)) as (g1 & A1 & P1). exists g0, g1. auto. }
  destruct GR as (g0 & g1 & A1 & A0 & P0 & P1). rewrite A1, A0. cbn [bind]. rewrite xdiv_fin by lra. rewrite xlog_fin by (apply Rdiv_lt_0_compat; auto).
  split; (erewrite sum_res_ext; [reflexivity|]; intros q I; destruct (T (ln (g1 / g0)) q I) as (r & R); rewrite !R; tauto).
Qed.

(** * Crystals *)
Lemma formulas_crystal_term Integrate DM D x m f rho vmax lo hi Ee dq0 qi c : ideal_quadrature Integrate -> mean_inverse D f rho vmax lo hi ->
  dm_mass DM = Fin m -> 0 < m -> dq x = Fin dq0 -> 0 < dq0 -> (0 <= qi)%Z -> 0 < Ee ->
  let q := IZR (qi + 1) * dq0 in (vmax < Ee / q + q / (2 * m) \/ lo <= Ee / q + q / (2 * m) <= hi) -> inverse_square (fun v => dm_d2Sigma_Crystal DM (Fin q) (Fin Ee) v x) c ->
  exists r, forall DM' D', (DM' = DM /\ D' = D) \/ (DM' = switch_off DM /\ D' = D) \/ (DM' = DM /\ D' = halo_off D) -> Crystal_term Integrate (Fin Ee) DM' D' x qi = Ok (Fin r).
Proof.
  intros Q H Em Hm EQ HQ Hi HE q C S. assert (H' := H). destruct H' as (R1 & R2 & R3 & R4). assert (Hq : 0 < q). { unfold q. apply Rmult_lt_0_compat; auto. apply IZR_lt. lia. } set (v0 := Ee / q + q / (2 * m)) in *.
  assert (V0 : 0 < v0). { unfold v0. apply Rplus_lt_0_compat; apply Rdiv_lt_0_compat; lra. }
  destruct (Rlt_le_dec vmax v0) as [L | L].
  - exists 0. intros DM' D' K. assert (KM : dm_mass DM' = Fin m) by (destruct K as [[-> _] | [[-> _] | [-> _]]]; exact Em). assert (KV : d_vmax D' = Fin vmax) by (destruct K as [[_ ->] | [[_ ->] | [_ ->]]]; exact R2).
    unfold Crystal_term. rewrite KM, KV, EQ, xmul_fin. fold q. rewrite vMinimal_Electrons_fin by auto. fold v0. rewrite xlt_true by auto. reflexivity.
  - destruct C as [C | C]; [lra|]. destruct (flux_integral Integrate D f rho vmax lo hi _ _ m _ Q H S Hm V0 C L) as (e & E1 & E2 & E3 & E4).
    exists (2 * q * dq0 * (rho / m * c * e)).
    assert (ETA : Ok (Fin 2.0 * Fin q * Fin dq0 * Fin rho / Fin m * Fin e * Fin (1 / 1000) * Fin (1 / 1000) * Fin (c / (1 / 1000) ^ 2))%xr = Ok (Fin (2 * q * dq0 * (rho / m * c * e)))).
    { rewrite !xmul_fin, xdiv_fin, !xmul_fin by lra. do 2 f_equal. replace 2.0 with 2 by lra. field. lra. }
    assert (DIR : Ok (Fin 2.0 * Fin q * Fin dq0 * Fin (rho / m * c * e))%xr = Ok (Fin (2 * q * dq0 * (rho / m * c * e)))).
    { rewrite !xmul_fin. do 2 f_equal. replace 2.0 with 2 by lra. ring. }
    intros DM' D' K. assert (KM : dm_mass DM' = Fin m) by (destruct K as [[-> _] | [[-> _] | [-> _]]]; exact Em). assert (KV : d_vmax D' = Fin vmax) by (destruct K as [[_ ->] | [[_ ->] | [_ ->]]]; exact R2).
    assert (KF : flux D' = flux D) by (destruct K as [[_ ->] | [[_ ->] | [_ ->]]]; reflexivity). assert (KE : d_eta D' = d_eta D) by (destruct K as [[_ ->] | [[_ ->] | [_ ->]]]; reflexivity). assert (KR : d_rho D' = Fin rho) by (destruct K as [[_ ->] | [[_ ->] | [_ ->]]]; exact R1).
    assert (KS : dm_d2Sigma_Crystal DM' = dm_d2Sigma_Crystal DM) by (destruct K as [[-> _] | [[-> _] | [-> _]]]; reflexivity).
    unfold Crystal_term. rewrite KM, KV, EQ, xmul_fin. fold q. rewrite vMinimal_Electrons_fin by auto. fold v0. rewrite xlt_false by auto. destruct (dm_use_eta DM' && d_use_eta D')%bool.
    + replace (Fin 1e-3) with (Fin (1 / 1000)) by (f_equal; lra). rewrite KS, S by lra. rewrite KE, E1, KR. cbn [bind]. exact ETA.
    + rewrite KF, KS, E3. cbn [bind]. exact DIR.
Qed.
Lemma formulas_crystal Integrate DM D x m f rho vmax lo hi Ee dq0 : ideal_quadrature Integrate -> mean_inverse D f rho vmax lo hi ->
  dm_mass DM = Fin m -> 0 < m -> dq x = Fin dq0 -> 0 < dq0 -> 0 < Ee ->
  (forall i, (0 <= i < N_q x)%Z -> let q := IZR (i + 1) * dq0 in (vmax < Ee / q + q / (2 * m) \/ lo <= Ee / q + q / (2 * m) <= hi) /\ exists c, inverse_square (fun v => dm_d2Sigma_Crystal DM (Fin q) (Fin Ee) v x) c) ->
  dRdEe_Crystal Integrate (Fin Ee) (switch_off DM) D x = dRdEe_Crystal Integrate (Fin Ee) DM D x /\ dRdEe_Crystal Integrate (Fin Ee) DM (halo_off D) x = dRdEe_Crystal Integrate (Fin Ee) DM D x.
Proof.
  intros Q H Em Hm EQ HQ HE C. unfold dRdEe_Crystal. destruct (xlt _ _); auto.
  assert (T : forall i, In i (Zrange 0 (N_q x)) -> exists r, forall DM' D', (DM' = DM /\ D' = D) \/ (DM' = switch_off DM /\ D' = D) \/ (DM' = DM /\ D' = halo_off D) -> Crystal_term Integrate (Fin Ee) DM' D' x i = Ok (Fin r)).
  { intros i I. assert (B : (0 <= i < N_q x)%Z). { unfold Zrange in I. apply in_map_iff in I. destruct I as (k & <- & I). apply in_seq in I. lia. }
    destruct (C i B) as (C1 & c & S). apply (formulas_crystal_term Integrate DM D x m f rho vmax lo hi Ee dq0 i c); auto. lia. }
  split; (erewrite sum_res_ext; [reflexivity|]; intros i I; destruct (T i I) as (r & R); rewrite !R; tauto).
Qed.
