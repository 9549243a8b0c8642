(** What nuclear recoil and ionization detectors can reach: minimum mass, minimum speed, maximum energy deposit (C54, C69, C70). *)
From Coq Require Import Reals ZArith String Lia Lra Bool.
From Coquelicot Require Import Coquelicot.
From Coq Require Import List.
From Verif Require Import Base XrFacts Nucleus_Model Nuclear_Model Particle_Model CrossSection_Model Distribution_Model Atom_Model Crystal_Model Rates_Model
  Kinematics_Proofs Detector_Model DetectorTypes_Model Poisson_Proofs.
Import ListNotations.
Local Open Scope R_scope.

(** * Specification *)
(** Every isotope has a positive mass and a finite total cross section at the given speed. *)
Definition targets (sigma : Isotope -> xr -> res xr) (v : R) (l : list Isotope) : Prop :=
  Forall (fun t => exists M s, imass t = Fin M /\ 0 < M /\ sigma t (Fin v) = Ok (Fin s)) l.
(** The isotope scatters. *)
Definition scatters (sigma : Isotope -> xr -> res xr) (v : R) (t : Isotope) : Prop := exists s, sigma t (Fin v) = Ok (Fin s) /\ 0 < s.
(** A particle of mass m and speed u can transfer the energy E to the isotope (the largest recoil of elastic scattering, 2 u^2 mu^2 / M). *)
Definition recoils (E u m : R) (t : Isotope) : Prop := forall M, imass t = Fin M -> E <= 2 * u ^ 2 * (m * M / (m + M)) ^ 2 / M.

Lemma Emax_plain u m M : Emax_R u m M = 2 * u ^ 2 * (m * M / (m + M)) ^ 2 / M.
Proof. reflexivity. Qed.

(** ** Minimum mass *)
Lemma bound_fin E v M : 0 < E -> 0 < v -> 0 < M -> E < 2 * M * v ^ 2 -> exists b, (Fin M / (xsqrt (Fin 2.0 * Fin M / Fin E) * Fin v - Fin 1.0))%xr = Fin b /\ 0 < b /\
  forall m, 0 < m -> (b <= m <-> E <= 2 * v ^ 2 * (m * M / (m + M)) ^ 2 / M).
Proof.
  intros HE Hv HM H. assert (Q : 0 < 2 * M / E) by (apply Rdiv_lt_0_compat; lra). rewrite xmul_fin, xdiv_fin by lra. replace 2.0 with 2 by lra. rewrite xsqrt_fin by lra.
  rewrite xmul_fin, xsub_fin. set (k := sqrt (2 * M / E) * v). replace (k - 1.0) with (k - 1) by lra.
  assert (K2 : k ^ 2 = 2 * M * v ^ 2 / E). { unfold k. rewrite Rpow_mult_distr, pow2_sqrt by lra. field. lra. }
  assert (K0 : 0 < k) by (apply Rmult_lt_0_compat; [apply sqrt_lt_R0; auto|auto]).
  assert (K1 : 1 < k). { assert (1 < k ^ 2). { rewrite K2. apply (Rmult_lt_reg_r E); auto. unfold Rdiv. rewrite Rmult_assoc, Rinv_l by lra. lra. } nra. }
  rewrite xdiv_fin by lra. exists (M / (k - 1)). split; auto. split; [apply Rdiv_lt_0_compat; lra|]. intros m Hm.
  assert (R : 2 * v ^ 2 * (m * M / (m + M)) ^ 2 / M = E * (k * m / (m + M)) ^ 2).
  { replace ((k * m / (m + M)) ^ 2) with (k ^ 2 * (m / (m + M)) ^ 2) by (field; lra). rewrite K2. field. lra. }
  rewrite R. assert (P : 0 < k * m / (m + M)) by (apply Rdiv_lt_0_compat; [apply Rmult_lt_0_compat; auto|lra]). set (z := k * m / (m + M)) in *. 
  assert (Z : z * (m + M) = k * m) by (unfold z; field; lra). assert (B : M / (k - 1) * (k - 1) = M) by (field; lra). set (b := M / (k - 1)) in *. clearbody z b.
  split; intros L.
  - assert (b * (k - 1) <= m * (k - 1)) by (apply Rmult_le_compat_r; lra). assert (1 <= z). { apply (Rmult_le_reg_r (m + M)); [lra|]. lra. } rewrite <- (Rmult_1_r E) at 1. apply Rmult_le_compat_l; [lra|]. nra.
  - assert (1 <= z). { apply Rnot_lt_le. intros N. assert (z ^ 2 < 1) by nra. assert (E * z ^ 2 < E * 1) by (apply Rmult_lt_compat_l; auto). lra. } apply (Rmult_le_reg_r (k - 1)); [lra|]. assert (1 * (m + M) <= z * (m + M)) by (apply Rmult_le_compat_r; lra). lra.
Qed.

Lemma mass_bound_fin E v t M : imass t = Fin M -> 0 < E -> 0 < v -> 0 < M -> E < 2 * M * v ^ 2 ->
  exists b, mass_bound (Fin E) (Fin v) t = Fin b /\ 0 < b /\ forall m, 0 < m -> (b <= m <-> recoils E v m t).
Proof.
  intros I HE Hv HM H. unfold mass_bound. rewrite I. destruct (bound_fin E v M HE Hv HM H) as (b & E1 & B & C). exists b. split; auto. split; auto. intros m Hm. unfold recoils. rewrite (C m Hm). split.
  - intros L M' I'. rewrite I in I'. injection I' as <-. auto.
  - intros L. apply L. auto.
Qed.

(** Reachable: the halo's fastest particles can transfer E if only they are heavy enough. *)
Definition reachable (E v : R) (t : Isotope) : Prop := exists M, imass t = Fin M /\ E < 2 * M * v ^ 2.

Lemma mass_loop_fin sigma E v l : 0 < E -> 0 < v -> targets sigma v l -> (forall t, In t l -> scatters sigma v t -> reachable E v t) ->
  exists bs, mass_loop sigma (Fin E) (Fin v) l = Ok (map Fin bs) /\
    (forall b, In b bs -> 0 < b /\ exists t, In t l /\ scatters sigma v t /\ forall m, 0 < m -> (b <= m <-> recoils E v m t)) /\
    (forall t, In t l -> scatters sigma v t -> exists b, In b bs /\ forall m, 0 < m -> (b <= m <-> recoils E v m t)).
Proof.
  intros HE Hv T R. induction l as [|t l IH]; cbn [mass_loop].
  - exists []. split; auto. split; intros x [].
  - inversion T as [|? ? (M & s & IM & HM & S) T']; subst. rewrite S. cbn [bind]. destruct IH as (bs & E1 & B1 & B2); auto. { intros; apply R; auto; right; auto. }
    rewrite E1. cbn [bind]. destruct (Rlt_le_dec 0 s) as [P | P].
    + rewrite xlt_true by lra. assert (SC : scatters sigma v t) by (exists s; auto). destruct (R t (or_introl eq_refl) SC) as (M' & IM' & H). rewrite IM in IM'. injection IM' as <-.
      destruct (mass_bound_fin E v t M IM HE Hv HM H) as (b & E2 & B & C). rewrite E2. exists (b :: bs). split; auto. split.
      * intros b' [<- | B']; [split; auto; exists t; split; [left; auto|auto]|]. destruct (B1 b' B') as (P' & t' & I' & X). split; auto. exists t'. split; [right; auto|auto].
      * intros t' [<- | I'] S'; [exists b; split; [left; auto|auto]|]. destruct (B2 t' I' S') as (b' & B' & X). exists b'. split; [right; auto|auto].
    + rewrite xlt_false by lra. exists bs. split; auto. split.
      * intros b' B'. destruct (B1 b' B') as (P' & t' & I' & X). split; auto. exists t'. split; [right; auto|auto].
      * intros t' [<- | I'] S'; [destruct S' as (s' & S' & P'); rewrite S in S'; injection S' as <-; lra|]. apply B2; auto.
Qed.

Lemma slower E u v m t : (exists M, imass t = Fin M /\ 0 < M) -> 0 <= u -> u <= v -> 0 < m -> recoils E u m t -> recoils E v m t.
Proof.
  intros (M & I & HM) U L Hm R M' I'. rewrite I in I'. injection I' as <-. specialize (R M I). eapply Rle_trans; [exact R|]. unfold Rdiv. apply Rmult_le_compat_r; [left; apply Rinv_0_lt_compat; auto|].
  apply Rmult_le_compat_r; [apply pow2_ge_0|]. assert (u ^ 2 <= v ^ 2) by (apply pow_incr; lra). lra.
Qed.

Lemma minimum_mass sigma v n th rs : b_threshold (n_base n) = Fin th -> n_resolution n = Fin rs -> 0 < th - 2 * rs -> 0 < v ->
  targets sigma v (all_isotopes n) -> (exists t, In t (all_isotopes n) /\ scatters sigma v t) -> (forall t, In t (all_isotopes n) -> scatters sigma v t -> reachable (th - 2 * rs) v t) ->
  exists r, Nuclear_Minimum_Mass sigma (Fin v) n = Ok (Fin r) /\ 0 < r /\
    (forall m u t, 0 < m < r -> 0 <= u <= v -> In t (all_isotopes n) -> scatters sigma v t -> ~ recoils (th - 2 * rs) u m t) /\
    (forall m, r <= m -> exists t, In t (all_isotopes n) /\ scatters sigma v t /\ recoils (th - 2 * rs) v m t).
Proof.
  intros TH RS HE Hv T (t0 & I0 & S0) R. unfold Nuclear_Minimum_Mass. rewrite TH, RS, xmul_fin, xsub_fin. replace (th - 2.0 * rs) with (th - 2 * rs) by lra.
  destruct (mass_loop_fin sigma _ v _ HE Hv T R) as (bs & E1 & B1 & B2). rewrite E1. cbn [bind]. assert (NE : bs <> []) by (intros ->; destruct (B2 t0 I0 S0) as (b & [] & _)).
  destruct (min_element_least bs NE) as (q & E2 & Q1 & Q2). destruct (B1 q Q1) as (P & t & It & St & C). exists q. split; auto. split; auto. split.
  - intros m u t' [Hm L] [U1 U2] I' S' RC. destruct (B2 t' I' S') as (b & Hb & C'). assert (q <= b) by (apply Q2; auto).
    assert (IM : exists M, imass t' = Fin M /\ 0 < M). { unfold targets in T. rewrite Forall_forall in T. destruct (T t' I') as (M & s & IM & HM & _). eauto. }
    assert (K := slower _ u v m t' IM U1 U2 Hm RC). apply C' in K; lra.
  - intros m L. exists t. split; auto. split; auto. apply C; lra.
Qed.

Lemma minimum_mass_undefined sigma v n : (forall t, In t (all_isotopes n) -> exists s, sigma t v = Ok (Fin s) /\ s <= 0) -> Nuclear_Minimum_Mass sigma v n = UB.
Proof.
  intros H. unfold Nuclear_Minimum_Mass. assert (E : forall l e, (forall t, In t l -> exists s, sigma t v = Ok (Fin s) /\ s <= 0) -> mass_loop sigma e v l = Ok []).
  { clear. induction l as [|t l IH]; intros e H; cbn [mass_loop]; auto. destruct (H t (or_introl eq_refl)) as (s & S & N). rewrite S. cbn [bind]. rewrite IH by (intros; apply H; right; auto). cbn [bind]. rewrite xlt_false by lra. auto. }
  rewrite E by auto. reflexivity.
Qed.

(** ** Minimum speed *)
Lemma speed_loop_fin sigma E m l : 0 <= E -> 0 < m -> targets sigma (1 / 1000) l -> forall vcut, exists r, speed_loop sigma (Fin E) (Fin m) (Fin vcut) l = Ok (Fin r) /\ r <= vcut /\
  (r < vcut -> exists t M, In t l /\ scatters sigma (1 / 1000) t /\ imass t = Fin M /\ r = vmin_R E m M) /\
  (forall t M, In t l -> scatters sigma (1 / 1000) t -> imass t = Fin M -> r <= vmin_R E m M).
Proof.
  intros HE Hm T. induction l as [|t l IH]; intros vcut; cbn [speed_loop].
  - exists vcut. split; auto. split; [lra|]. split; [lra|]. intros t M [].
  - inversion T as [|? ? (M & s & IM & HM & S) T']; subst. rewrite IM, vMinimal_fin by auto. replace (Fin 1.0e-3) with (Fin (1 / 1000)) by (f_equal; lra). rewrite S.
    assert (KEEP : vcut <= vmin_R E m M \/ s <= 0 -> exists r, speed_loop sigma (Fin E) (Fin m) (Fin vcut) l = Ok (Fin r) /\ r <= vcut /\
      (r < vcut -> exists t' M', In t' (t :: l) /\ scatters sigma (1 / 1000) t' /\ imass t' = Fin M' /\ r = vmin_R E m M') /\
      (forall t' M', In t' (t :: l) -> scatters sigma (1 / 1000) t' -> imass t' = Fin M' -> r <= vmin_R E m M')).
    { intros D. destruct (IH T' vcut) as (r & E1 & L & A & B). exists r. split; auto. split; auto. split.
      - intros L'. destruct (A L') as (t' & M' & I' & X). exists t', M'. split; [right; auto|auto].
      - intros t' M' [<- | I'] S' IM'; [|eapply B; eauto]. rewrite IM in IM'. injection IM' as <-. destruct D as [D | D]; [lra|]. destruct S' as (s' & S' & P). rewrite S in S'. injection S' as <-. lra. }
    destruct (Rlt_le_dec (vmin_R E m M) vcut) as [L | L]; [|rewrite xlt_false by auto; apply KEEP; auto]. rewrite (xlt_true (vmin_R E m M)) by auto. cbn [bind].
    destruct (Rlt_le_dec 0 s) as [P | P]; [|rewrite xlt_false by lra; apply KEEP; auto]. rewrite xlt_true by lra.
    destruct (IH T' (vmin_R E m M)) as (r & E1 & L1 & A & B). exists r. split; auto. split; [lra|]. split.
    + intros _. destruct (Rle_lt_or_eq_dec _ _ L1) as [L2 | L2].
      * destruct (A L2) as (t' & M' & I' & X). exists t', M'. split; [right; auto|auto].
      * exists t, M. split; [left; auto|]. split; [exists s; auto|auto].
    + intros t' M' [<- | I'] S' IM'; [|eapply B; eauto]. rewrite IM in IM'. injection IM' as <-. auto.
Qed.
Lemma recoils_vmin E u m t M : imass t = Fin M -> 0 < M -> 0 < m -> 0 <= E -> 0 <= u -> (recoils E u m t <-> vmin_R E m M <= u).
Proof.
  intros I HM Hm HE U. assert (G : recoils E u m t <-> E <= Emax_R u m M). { split; [intros R; apply (R M I)|intros L M' I'; rewrite I in I'; injection I' as <-; exact L]. }
  rewrite G. assert (P : 0 <= vmin_R E m M) by apply sqrt_pos. split; intros L.
  - apply Rnot_lt_le. intros N. apply (Emax_increasing u (vmin_R E m M) m M) in N; auto. rewrite Emax_vmin in N by auto. lra.
  - apply Rnot_lt_le. intros N. assert (0 <= Emax_R u m M). { rewrite Emax_plain. apply Rmult_le_pos; [|left; apply Rinv_0_lt_compat; auto]. apply Rmult_le_pos; [|apply pow2_ge_0]. assert (h := pow2_ge_0 u). lra. }
    apply (vmin_increasing (Emax_R u m M) E m M) in N; auto. rewrite vmin_Emax in N by auto. lra.
Qed.
Lemma minimum_speed sigma m n th rs : b_threshold (n_base n) = Fin th -> n_resolution n = Fin rs -> 0 <= th - 2 * rs -> 0 < m -> targets sigma (1 / 1000) (all_isotopes n) ->
  exists r, Nuclear_Minimum_Speed sigma (Fin m) n = Ok (Fin r) /\ 0 <= r <= 1 /\
    (forall u t, 0 <= u < r -> In t (all_isotopes n) -> scatters sigma (1 / 1000) t -> ~ recoils (th - 2 * rs) u m t) /\
    (r < 1 -> exists t, In t (all_isotopes n) /\ scatters sigma (1 / 1000) t /\ recoils (th - 2 * rs) r m t).
Proof.
  intros TH RS HE Hm T. unfold Nuclear_Minimum_Speed. rewrite TH, RS, xmul_fin, xsub_fin. replace (th - 2.0 * rs) with (th - 2 * rs) by lra. replace (Fin 1.0) with (Fin 1) by (f_equal; lra).
  destruct (speed_loop_fin sigma _ m _ HE Hm T 1) as (r & E1 & L & A & B). exists r. split; auto.
  assert (MM : forall t, In t (all_isotopes n) -> exists M, imass t = Fin M /\ 0 < M). { unfold targets in T. rewrite Forall_forall in T. intros t I. destruct (T t I) as (M & s & IM & HM & _). eauto. }
  assert (R0 : 0 <= r). { destruct (Rle_lt_or_eq_dec _ _ L) as [L1 | ->]; [|lra]. destruct (A L1) as (t & M & _ & _ & _ & ->). apply sqrt_pos. }
  split; [lra|]. split.
  - intros u t [U1 U2] I S RC. destruct (MM t I) as (M & IM & HM). rewrite (recoils_vmin _ u m t M) in RC by auto. specialize (B t M I S IM). lra.
  - intros L1. destruct (A L1) as (t & M & I & S & IM & EQ). exists t. split; auto. split; auto. destruct (MM t I) as (M' & IM' & HM). rewrite IM in IM'. injection IM' as <-. rewrite (recoils_vmin _ r m t M); auto. lra.
Qed.

(** ** Maximum energy deposit *)
Lemma deposit_loop_fin sigma v m l : 0 <= v -> 0 < m -> targets sigma v l -> forall e, exists r, deposit_loop sigma (Fin v) (Fin m) (Fin e) l = Ok (Fin r) /\ e <= r /\
  (e < r -> exists t M, In t l /\ scatters sigma v t /\ imass t = Fin M /\ r = Emax_R v m M) /\
  (forall t M, In t l -> scatters sigma v t -> imass t = Fin M -> Emax_R v m M <= r).
Proof.
  intros Hv Hm T. induction l as [|t l IH]; intros e; cbn [deposit_loop].
  - exists e. split; auto. split; [lra|]. split; [lra|]. intros t M [].
  - inversion T as [|? ? (M & s & IM & HM & S) T']; subst. rewrite IM, Emax_fin by auto. rewrite S.
    assert (KEEP : Emax_R v m M <= e \/ s <= 0 -> exists r, deposit_loop sigma (Fin v) (Fin m) (Fin e) l = Ok (Fin r) /\ e <= r /\
      (e < r -> exists t' M', In t' (t :: l) /\ scatters sigma v t' /\ imass t' = Fin M' /\ r = Emax_R v m M') /\
      (forall t' M', In t' (t :: l) -> scatters sigma v t' -> imass t' = Fin M' -> Emax_R v m M' <= r)).
    { intros D. destruct (IH T' e) as (r & E1 & L & A & B). exists r. split; auto. split; auto. split.
      - intros L'. destruct (A L') as (t' & M' & I' & X). exists t', M'. split; [right; auto|auto].
      - intros t' M' [<- | I'] S' IM'; [|eapply B; eauto]. rewrite IM in IM'. injection IM' as <-. destruct D as [D | D]; [lra|]. destruct S' as (s' & S' & P). rewrite S in S'. injection S' as <-. lra. }
    destruct (Rlt_le_dec e (Emax_R v m M)) as [L | L]; [|rewrite xlt_false by auto; apply KEEP; auto]. rewrite (xlt_true e) by auto. cbn [bind].
    destruct (Rlt_le_dec 0 s) as [P | P]; [|rewrite xlt_false by lra; apply KEEP; auto]. rewrite xlt_true by lra.
    destruct (IH T' (Emax_R v m M)) as (r & E1 & L1 & A & B). exists r. split; auto. split; [lra|]. split.
    + intros _. destruct (Rle_lt_or_eq_dec _ _ L1) as [L2 | L2].
      * destruct (A L2) as (t' & M' & I' & X). exists t', M'. split; [right; auto|auto].
      * exists t, M. split; [left; auto|]. split; [exists s; auto|auto].
    + intros t' M' [<- | I'] S' IM'; [|eapply B; eauto]. rewrite IM in IM'. injection IM' as <-. auto.
Qed.
Lemma maximum_deposit sigma v m n rs : n_resolution n = Fin rs -> 0 <= v -> 0 < m -> targets sigma v (all_isotopes n) ->
  exists r, Nuclear_Deposit sigma (Fin m) (Fin v) n = Ok (Fin (r + 6 * rs)) /\ 0 <= r /\
    (forall E u t, r < E -> 0 <= u <= v -> In t (all_isotopes n) -> scatters sigma v t -> ~ recoils E u m t) /\
    (0 < r -> exists t, In t (all_isotopes n) /\ scatters sigma v t /\ recoils r v m t).
Proof.
  intros RS Hv Hm T. unfold Nuclear_Deposit. replace (Fin 0.0) with (Fin 0) by (f_equal; lra). destruct (deposit_loop_fin sigma v m _ Hv Hm T 0) as (r & E1 & L & A & B).
  rewrite E1. cbn [bind]. rewrite RS, xmul_fin, xadd_fin. exists r. split; [do 2 f_equal; lra|]. split; auto.
  assert (MM : forall t, In t (all_isotopes n) -> exists M, imass t = Fin M /\ 0 < M). { unfold targets in T. rewrite Forall_forall in T. intros t I. destruct (T t I) as (M & s & IM & HM & _). eauto. }
  split.
  - intros E u t LE [U1 U2] I S RC. apply (slower E u v m t (MM t I) U1 U2 Hm) in RC. destruct (MM t I) as (M & IM & HM). specialize (RC M IM). specialize (B t M I S IM). rewrite Emax_plain in B. lra.
  - intros P. destruct (A P) as (t & M & I & S & IM & EQ). exists t. split; auto. split; auto. intros M' IM'. rewrite IM in IM'. injection IM' as <-. rewrite EQ, Emax_plain. lra.
Qed.
