(** Property theorems about the standard halo model and SHM++ (C20-C26, C63, C64). *)
From Coq Require Import Reals List ZArith String Lra Lia.
From Coquelicot Require Import Coquelicot.
From Verif Require Import Base XrFacts Quadrature Erf Astronomy_Model Distribution_Model Interpolation Halo_Model Halo_Proofs Eta_Proofs
  HaloState_Proofs HaloShape_Proofs HaloMarginal_Proofs HaloFinal_Proofs.
Import ListNotations.
Local Open Scope R_scope.

(** C20: for every halo built by a parametrised constructor and any number of setters, the cumulative function is the
    integral of the density, 0 below and 1 from the maximum speed on. *)
Theorem C20_cdf_is_integral : forall s v0 vel ve, halo_history s v0 vel ve -> 0 < v0 -> 0 < ve -> vnorm vel <= ve ->
  exists f, (forall v, PDF_Speed_SHM s (Fin v) = Fin (f v)) /\
    (forall v, 0 <= v -> exists c, CDF_Speed_SHM s (Fin v) = Fin c /\ is_RInt f 0 v c) /\
    (forall v, v <= 0 -> CDF_Speed_SHM s (Fin v) = Fin 0) /\
    (forall v, ve + vnorm vel <= v -> CDF_Speed_SHM s (Fin v) = Fin 1).
Proof. exact history_cdf. Qed.
Print Assumptions C20_cdf_is_integral.

(** C21: the density is never negative as long as the observer is not faster than the escape speed ... *)
Theorem C21_nonnegative : forall s v0 vel ve v, halo_history s v0 vel ve -> 0 < v0 -> 0 < ve -> vnorm vel <= ve ->
  exists p, PDF_Speed_SHM s (Fin v) = Fin p /\ 0 <= p.
Proof. exact history_nonneg. Qed.
Print Assumptions C21_nonnegative.

(** ... but it is negative at every low speed for every faster observer ... *)
Theorem C21_fast_observer : forall s v0 vel ve v, halo_history s v0 vel ve -> 0 < v0 -> 0 < ve -> ve < vnorm vel ->
  0 < v < vnorm vel - ve -> exists p, PDF_Speed_SHM s (Fin v) = Fin p /\ p < 0.
Proof. exact history_fast. Qed.
Print Assumptions C21_fast_observer.

(** ... and for the halo of the default constructor, whose speed domain is longer than v_esc + v_obs. *)
Theorem C21_default_refuted : exists v p, 0 < v <= 776.58 * km_sec /\ PDF_Speed_SHM SHM_default (Fin v) = Fin p /\ p < 0.
Proof. exact default_negative. Qed.
Print Assumptions C21_default_refuted.

(** C22: the eta function is finite, non-negative, non-increasing, zero above the maximum speed; away from the numerical
    cut-off (1e-8 v0 below the maximum speed) it is the integral of PDF/v, and at the cut-off the missing part is tiny. *)
Theorem C22_eta : forall s v0 vel ve, halo_history s v0 vel ve -> 0 < v0 -> 0 < ve -> vnorm vel <= ve ->
  exists f E, (forall v, PDF_Speed_SHM s (Fin v) = Fin (f v)) /\ (forall x, 0 <= x -> Eta_Function_SHM s (Fin x) = Fin (E x)) /\
    (forall x y, 0 <= x -> x <= y -> 0 <= E y <= E x) /\
    (forall x, ve + vnorm vel < x -> E x = 0) /\
    ((vnorm vel = 0 \/ eps8 * v0 <= vnorm vel) ->
      (forall x, 0 <= x <= ve + vnorm vel - eps8 * v0 -> is_RInt (fun v => f v / v) x (ve + vnorm vel) (E x)) /\
      (forall x, 0 <= x -> ve + vnorm vel - eps8 * v0 < x <= ve + vnorm vel -> exists I, is_RInt (fun v => f v / v) x (ve + vnorm vel) I /\
         0 <= I <= 2 * eps8 / (gauss3 (ve / v0) * sqrt PI * v0))).
Proof. exact history_eta. Qed.
Print Assumptions C22_eta.

(** A halo meeting the hypotheses of C20-C22 and C63: built with one set of parameters, then changed by three setters. *)
Example halo_example : exists s, halo_history s 2 (V3 0 3 4) 6 /\ 0 < 2 /\ 0 < 6 /\ vnorm (V3 0 3 4) = 5 /\ vnorm (V3 0 3 4) <= 6 /\
  eps8 * 2 <= vnorm (V3 0 3 4).
Proof. exact example_history. Qed.
(** A halo meeting the hypotheses of the fast-observer refutation: speed 5, escape speed 4. *)
Example halo_example_fast : exists s, halo_history s 2 (V3 0 3 4) 4 /\ 4 < vnorm (V3 0 3 4) /\ 0 < 1/2 < vnorm (V3 0 3 4) - 4.
Proof. exact example_fast. Qed.

(** C23: every history leaves exactly the object that a constructor with the final parameters builds. *)
Theorem C23_history_is_fresh : forall rho v0 vel ve l s, hrun (SHM_of_velocity rho v0 vel ve) l = Ok s ->
  exists u, last_vel vel l u /\ s = SHM_of_velocity rho (last_v0 v0 l) u (last_vesc ve l).
Proof. exact run_fresh_flat. Qed.
Print Assumptions C23_history_is_fresh.

(** Setters never fail, and the maximum speed is v_esc + |v_obs| in every reachable state. *)
Theorem C23_domain : forall s v0 vel ve, halo_history s v0 vel ve ->
  h_dmin s = Fin 0 /\ h_dmax s = Fin (ve + vnorm vel) /\ h_v0 s = Fin v0 /\ h_vesc s = Fin ve /\ h_velobs s = vel /\
  h_vobs s = Fin (vnorm vel) /\ h_N s = N_esc_of (Fin v0) (Fin ve) /\ forall o, exists s', hstep s o = Ok s'.
Proof. exact history_domain. Qed.
Print Assumptions C23_domain.

(** The default constructor starts with another maximum speed ... *)
Theorem C23_default_refuted : exists D V O, h_dmax SHM_default = Fin D /\ h_vesc SHM_default = Fin V /\ h_vobs SHM_default = Fin O /\
  V + O < D.
Proof. exact default_domain. Qed.
Print Assumptions C23_default_refuted.

(** ... which any setter except Set_Speed_Dispersion repairs. *)
Theorem C23_default_repaired : forall l s, hrun SHM_default l = Ok s -> Exists touches_domain l ->
  exists v0 vo ve, consistent s v0 vo ve /\ 0 <= vo.
Proof. exact default_repaired. Qed.
Print Assumptions C23_default_repaired.

Example C23_instance : exists s, hrun (SHM_of_velocity 1 2 (V3 1 0 0) 5) [Set_Escape_Velocity 7; Set_Observer_Velocity (V3 0 3 4); Set_Speed_Dispersion 3] = Ok s /\
  h_dmax s = Fin (7 + vnorm (V3 0 3 4)).
Proof. eexists. split; reflexivity. Qed.
Example C23_default_instance : exists s, hrun SHM_default [Set_Escape_Velocity 7] = Ok s /\ Exists touches_domain [Set_Escape_Velocity 7].
Proof. eexists. split; [reflexivity|]. constructor. exact I. Qed.

(** C24: after Set_Escape_Velocity the eta function still uses the table of the old parameters: a query the fresh object
    answers terminates the program. The constructor itself succeeds (second part), so the situation is reachable. *)
Theorem C24_stale_eta : forall Integrate Integrate_2D Interp s0 s1 fresh, ideal_interpolation Interp ->
  SHMpp_of_speed Integrate Integrate_2D 1 1 1 2 (1/5) (9/10) = Ok s0 ->
  ppstep s0 (PBase (Set_Escape_Velocity 4)) = Ok s1 ->
  SHMpp_of_speed Integrate Integrate_2D 1 1 1 4 (1/5) (9/10) = Ok fresh ->
  Eta_Function_pp Interp s1 (Fin 4) = Exit /\ exists y, Eta_Function_pp Interp fresh (Fin 4) = Ok y.
Proof. exact stale_eta. Qed.
Print Assumptions C24_stale_eta.

(** Everything except that table follows the parameters, for every history. *)
Theorem C24_rest_follows : forall I I2 rho v0 vel ve e b l s0 s,
  SHMpp_of_velocity I I2 rho v0 vel ve e b = Ok s0 -> pprun s0 l = Ok s ->
  exists u, last_vel vel (base_ops l) u /\
    s = with_table (p_table s0) (pp_core (SHM_of_velocity rho (last_v0 v0 (base_ops l)) u (last_vesc ve (base_ops l))) (last_eta e l) (last_beta b l)).
Proof. exact pp_history. Qed.
Print Assumptions C24_rest_follows.

Theorem C24_stale_eta_refuted : exists Integrate Integrate_2D Interp s0 s1 fresh, ideal_interpolation Interp /\
  SHMpp_of_speed Integrate Integrate_2D 1 1 1 2 (1/5) (9/10) = Ok s0 /\ ppstep s0 (PBase (Set_Escape_Velocity 4)) = Ok s1 /\
  SHMpp_of_speed Integrate Integrate_2D 1 1 1 4 (1/5) (9/10) = Ok fresh /\
  Eta_Function_pp Interp s1 (Fin 4) = Exit /\ exists y, Eta_Function_pp Interp fresh (Fin 4) = Ok y.
Proof. exact stale_refuted. Qed.
Print Assumptions C24_stale_eta_refuted.

Example C24_instance : exists I I2 J s0 s1 fresh, ideal_interpolation J /\
  SHMpp_of_speed I I2 1 1 1 2 (1/5) (9/10) = Ok s0 /\ ppstep s0 (PBase (Set_Escape_Velocity 4)) = Ok s1 /\
  SHMpp_of_speed I I2 1 1 1 4 (1/5) (9/10) = Ok fresh.
Proof. exact stale_instance. Qed.

(** C25: after any history the three dispersions satisfy the defining relations of the final parameters. *)
Theorem C25_dispersions : forall I I2 rho v0 vel ve e b l s0 s,
  SHMpp_of_velocity I I2 rho v0 vel ve e b = Ok s0 -> pprun s0 l = Ok s ->
  0 < last_v0 v0 (base_ops l) -> last_beta b l < 1 ->
  exists sr st, p_sr s = Fin sr /\ p_st s = Fin st /\ p_sp s = Fin st /\ 0 < sr /\ 0 < st /\
    1 - st ^ 2 / sr ^ 2 = last_beta b l /\ sr ^ 2 + st ^ 2 + st ^ 2 = 3 / 2 * last_v0 v0 (base_ops l) ^ 2.
Proof. exact history_sigmas. Qed.
Print Assumptions C25_dispersions.

Example C25_instance : exists I I2 s0 s, SHMpp_of_velocity I I2 1 1 (V3 0 1 0) 2 (1/5) (9/10) = Ok s0 /\
  pprun s0 [Set_Beta (1/2); PBase (Set_Speed_Dispersion 3); Set_Eta (1/3)] = Ok s /\
  last_v0 1 (base_ops [Set_Beta (1/2); PBase (Set_Speed_Dispersion 3); Set_Eta (1/3)]) = 3 /\
  last_beta (9/10) [Set_Beta (1/2); PBase (Set_Speed_Dispersion 3); Set_Eta (1/3)] = 1/2.
Proof. exact sigmas_instance. Qed.

(** C26: after any history, the velocity density is the (1-eta, eta) mixture of the density of the standard halo with the same
    parameters and of the pure sausage (the same object after Set_Eta 1); at eta = 0 it is the standard halo. *)
Theorem C26_mixture : forall I I2 rho v0 vel ve e b l s0 s s1 w,
  SHMpp_of_velocity I I2 rho v0 vel ve e b = Ok s0 -> pprun s0 l = Ok s -> ppstep s (Set_Eta 1) = Ok s1 ->
  0 < last_v0 v0 (base_ops l) -> 0 < last_vesc ve (base_ops l) -> 0 < last_beta b l < 1 ->
  exists u r q, last_vel vel (base_ops l) u /\
    PDF_Velocity (SHM_of_velocity rho (last_v0 v0 (base_ops l)) u (last_vesc ve (base_ops l))) w = Fin r /\ 0 <= r /\
    PDF_Velocity_pp s1 w = Fin q /\ 0 <= q /\
    PDF_Velocity_pp s w = Fin ((1 - last_eta e l) * r + last_eta e l * q) /\
    (last_eta e l = 0 -> PDF_Velocity_pp s w = Fin r).
Proof. exact history_mixture. Qed.
Print Assumptions C26_mixture.

Theorem C26_mixture_speed : forall I I2 rho v0 vel ve e b l s0 s s1 v q,
  SHMpp_of_velocity I I2 rho v0 vel ve e b = Ok s0 -> pprun s0 l = Ok s -> ppstep s (Set_Eta 1) = Ok s1 ->
  0 < last_v0 v0 (base_ops l) -> 0 < last_vesc ve (base_ops l) -> PDF_Speed_pp I2 s1 (Fin v) = Ok (Fin q) ->
  exists u r, last_vel vel (base_ops l) u /\
    PDF_Speed_SHM (SHM_of_velocity rho (last_v0 v0 (base_ops l)) u (last_vesc ve (base_ops l))) (Fin v) = Fin r /\
    PDF_Speed_pp I2 s (Fin v) = Ok (Fin ((1 - last_eta e l) * r + last_eta e l * q)).
Proof. exact history_mixture_speed. Qed.
Print Assumptions C26_mixture_speed.

Theorem C26_mixture_cdf : forall I I2 rho v0 vel ve e b l s0 s s1 v q,
  SHMpp_of_velocity I I2 rho v0 vel ve e b = Ok s0 -> pprun s0 l = Ok s -> ppstep s (Set_Eta 1) = Ok s1 ->
  0 < last_v0 v0 (base_ops l) -> 0 < last_vesc ve (base_ops l) -> (forall u, last_vel vel (base_ops l) u -> vnorm u <= last_vesc ve (base_ops l)) ->
  CDF_Speed_pp I I2 s1 (Fin v) = Ok (Fin q) ->
  exists u r, last_vel vel (base_ops l) u /\
    CDF_Speed_SHM (SHM_of_velocity rho (last_v0 v0 (base_ops l)) u (last_vesc ve (base_ops l))) (Fin v) = Fin r /\
    CDF_Speed_pp I I2 s (Fin v) = Ok (Fin ((1 - last_eta e l) * r + last_eta e l * q)).
Proof. exact history_mixture_cdf. Qed.
Print Assumptions C26_mixture_cdf.

(** With beta = 0 the density is not-a-number at every velocity below the escape speed, whatever eta is, so even eta = 0 does
    not give the standard halo. *)
Theorem C26_isotropic : forall I I2 rho v0 vel ve e s w, 0 < v0 -> vnorm (vadd w vel) <= ve ->
  SHMpp_of_velocity I I2 rho v0 vel ve e 0 = Ok s -> PDF_Velocity_pp s w = NaN.
Proof. exact ctor_isotropic. Qed.
Print Assumptions C26_isotropic.

Theorem C26_isotropic_refuted : exists I I2 s w, SHMpp_of_velocity I I2 1 1 (V3 0 1 0) 2 0 0 = Ok s /\ vnorm (vadd w (V3 0 1 0)) <= 2 /\ PDF_Velocity_pp s w = NaN.
Proof. exact isotropic_refuted. Qed.
Print Assumptions C26_isotropic_refuted.

Example C26_instance : exists I I2 s0 s s1 q c,
  SHMpp_of_velocity I I2 1 1 (V3 0 1 0) 2 (1/5) (9/10) = Ok s0 /\
  pprun s0 [Set_Beta (1/2); PBase (Set_Speed_Dispersion 3); Set_Eta (1/3)] = Ok s /\ ppstep s (Set_Eta 1) = Ok s1 /\
  PDF_Speed_pp I2 s1 (Fin 1) = Ok (Fin q) /\ CDF_Speed_pp I I2 s1 (Fin 1) = Ok (Fin c) /\ vnorm (V3 0 1 0) <= 2.
Proof. exact mixture_instance. Qed.
Example C26_isotropic_instance : exists I I2 s, SHMpp_of_velocity I I2 1 1 (V3 0 1 0) 2 0 0 = Ok s /\ vnorm (vadd (V3 1 0 0) (V3 0 1 0)) <= 2.
Proof. exact isotropic_instance. Qed.

(** C63: integrated over all directions, the velocity density gives the speed density, for any observer direction; and
    the speed density integrates to one. *)
Theorem C63_angular_marginal : forall s v0 vel ve e e1 e2, halo_history s v0 vel ve ->
  0 < v0 -> 0 < ve -> vnorm vel <= ve -> orthonormal e e1 e2 -> vel = vscale (vnorm vel) e ->
  exists f p, (forall v c phi, 0 < v -> -1 < c <= 1 -> PDF_Velocity s (polar e e1 e2 v c phi) = Fin (f v c)) /\
    (forall v, PDF_Speed_SHM s (Fin v) = Fin (p v)) /\
    (forall v, 0 < v <= ve + vnorm vel -> is_RInt (fun c => 2 * PI * v ^ 2 * f v c) (-1) 1 (p v)) /\
    is_RInt p 0 (ve + vnorm vel) 1.
Proof. exact history_marginal. Qed.
Print Assumptions C63_angular_marginal.

Example C63_instance : orthonormal (V3 0 (3/5) (4/5)) (V3 1 0 0) (V3 0 (-4/5) (3/5)) /\ V3 0 3 4 = vscale (vnorm (V3 0 3 4)) (V3 0 (3/5) (4/5)).
Proof. exact marginal_instance. Qed.

(** C64: the sausage velocity density (the SHM++ density at eta = 1, in the galactic frame) is non-negative and integrates to one. *)
Theorem C64_sausage_normalised : forall I I2 rho v0 vel ve e b l s0 s,
  SHMpp_of_velocity I I2 rho v0 vel ve e b = Ok s0 -> pprun s0 l = Ok s ->
  0 < last_v0 v0 (base_ops l) -> 0 < last_vesc ve (base_ops l) -> 0 < last_beta b l < 1 ->
  exists f F, (forall w, PDF_Velocity_S s w = Fin (f w)) /\ (forall w, 0 <= f w) /\
    (forall w, last_vesc ve (base_ops l) < vnorm w -> f w = 0) /\
    (forall v phi, 0 < v <= last_vesc ve (base_ops l) -> is_RInt (fun c => 2 * PI * v ^ 2 * f (radial_polar v c phi)) (-1) 1 (F v)) /\
    is_RInt F 0 (last_vesc ve (base_ops l)) 1.
Proof. exact history_sausage. Qed.
Print Assumptions C64_sausage_normalised.

Example C64_instance : exists I I2 s0 s, SHMpp_of_velocity I I2 1 1 (V3 0 1 0) 2 (1/5) (9/10) = Ok s0 /\
  pprun s0 [Set_Beta (1/2); PBase (Set_Speed_Dispersion 3); Set_Eta (1/3)] = Ok s /\
  0 < last_v0 1 (base_ops [Set_Beta (1/2); PBase (Set_Speed_Dispersion 3); Set_Eta (1/3)]) /\
  0 < last_vesc 2 (base_ops [Set_Beta (1/2); PBase (Set_Speed_Dispersion 3); Set_Eta (1/3)]) /\
  0 < last_beta (9/10) [Set_Beta (1/2); PBase (Set_Speed_Dispersion 3); Set_Eta (1/3)] < 1.
Proof.
  destruct sigmas_instance as (I & I2 & s0 & s & A & B & C & D). exists I, I2, s0, s. split; [exact A|]. split; [exact B|]. rewrite C, D. cbn. lra.
Qed.
