(** Property theorems C07-C11 (source: /repo/src/DM_Particle_Standard.cpp). *)
From Coq Require Import Reals List ZArith String Lra.
From Verif Require Import Base XrFacts Nucleus_Model Particle_Model Particle_Proofs.
Import ListNotations.
Local Open Scope R_scope.

(** C07. [reachable s]: s results from a constructor (positive mass, non-negative cross section) and any list of
    public calls with finite, physically meaningful arguments. *)
Theorem C07_proton_round_trip : forall s x, reachable s -> 0 <= x ->
  (fixed s = true -> fp_relative s <> Fin 0) ->
  Sigma_Proton (Set_Sigma_Proton (Fin x) s) = Fin x.
Proof. exact round_trip_proton. Qed.
Print Assumptions C07_proton_round_trip.

Theorem C07_neutron_round_trip : forall s x, reachable s -> 0 <= x ->
  (fixed s = true -> fn_relative s <> Fin 0) ->
  Sigma_Neutron (Set_Sigma_Neutron (Fin x) s) = Fin x.
Proof. exact round_trip_neutron. Qed.
Print Assumptions C07_neutron_round_trip.

Theorem C07_electron_round_trip : forall s x, Sigma_Electron (Set_Sigma_Electron x s) = x.
Proof. exact (fun s x => eq_refl). Qed.
Print Assumptions C07_electron_round_trip.

Theorem C07_interaction_parameter_round_trip : forall s x, reachable s -> 0 <= x ->
  forall t, t = "Nuclei"%string \/ t = "Electrons"%string ->
  exists s', Set_Interaction_Parameter (Fin x) t s = Ok s' /\ Get_Interaction_Parameter t s' = Ok (Fin x).
Proof. exact round_trip_interaction. Qed.
Print Assumptions C07_interaction_parameter_round_trip.

Theorem C07_unknown_target_rejected : forall t, t <> "Nuclei"%string -> t <> "Electrons"%string ->
  forall s x, Get_Interaction_Parameter t s = Exit /\ Set_Interaction_Parameter x t s = Exit.
Proof. exact unknown_target. Qed.
Print Assumptions C07_unknown_target_rejected.

Example C07_instance : reachable start /\ fp_relative start <> Fin 0 /\ fn_relative start <> Fin 0.
Proof.
  split; [exists SI, 10, 1, []; repeat split; auto; lra|]. rewrite start_eq; cbn.
  split; intros K; apply Fin_inj in K; lra.
Qed.

(** C08 *)
Theorem C08_set_mass_keeps_settings : forall k m0 x0 ops s m',
  0 < m0 -> 0 <= x0 -> safe_run (Particle_ctor k (Fin m0) (Fin x0)) ops s -> 0 < m' ->
  let s' := Set_Mass (Fin m') s in
  mass s' = Fin m' /\ is_fin (Sigma_Proton s) /\ is_fin (Sigma_Neutron s) /\
  Sigma_Proton s' = Sigma_Proton s /\ Sigma_Neutron s' = Sigma_Neutron s /\ Sigma_Electron s' = Sigma_Electron s /\
  low_mass s' = low_mass s /\ fractional_density s' = fractional_density s /\ FF_DM s' = FF_DM s /\
  mMediator s' = mMediator s /\ use_eta s' = use_eta s /\
  fixed s' = fixed s /\ fp_relative s' = fp_relative s /\ fn_relative s' = fn_relative s.
Proof. exact set_mass_keeps. Qed.
Print Assumptions C08_set_mass_keeps_settings.

Theorem C08_set_mass_keeps_cross_sections : forall s m', reachable s -> respects_ratio s ->
  (fixed s = false -> is_fin (fp s) /\ is_fin (fn s)) -> 0 < m' ->
  let s' := Set_Mass (Fin m') s in
  Sigma_Proton s' = Sigma_Proton s /\ Sigma_Neutron s' = Sigma_Neutron s /\ Sigma_Electron s' = Sigma_Electron s.
Proof. exact set_mass_keeps_reachable. Qed.
Print Assumptions C08_set_mass_keeps_cross_sections.

(** Without the hypothesis that the fixed ratio is respected, the mass setter can switch the interaction off. *)
Theorem C08_every_reachable_state_refuted :
  exists s x m', reachable s /\ 0 < m' /\ Sigma_Neutron s = Fin x /\ 0 < x /\
    Sigma_Neutron (Set_Mass (Fin m') s) = Fin 0 /\ Sigma_Proton (Set_Mass (Fin m') s) = Fin 0.
Proof. exact set_mass_switches_off. Qed.
Print Assumptions C08_every_reachable_state_refuted.

(** A safe history with a ratio change, a release and independent cross sections. *)
Example C08_instance : exists s,
  safe_run start [PFix_fn_over_fp (Fin (-1 / 2)); PUnfix; PSet_Sigma_Neutron (Fin 3); PSet_Mass (Fin 50)] s.
Proof.
  assert (h := c0_pos).
  assert (P : Sigma_Proton start <> Fin 0).
  { rewrite start_eq, (Sigma_Proton_eq _ 10 1 c0) by (auto; lra). intros K; apply Fin_inj in K. apply sig_zero in K; lra. }
  destruct (fix_fn_eq start (-1 / 2)) as (s' & x & y & E & _); [apply sound_ctor; lra|lra|exact P|].
  eexists.
  eapply safe_cons; [split; [exists (-1 / 2); auto|split; [intros K; apply Fin_inj in K; lra|exact P]]|exact E|].
  eapply safe_cons; [split; exact I|reflexivity|].
  eapply safe_cons; [split; [exists 3; split; auto; lra|exact I]|reflexivity|].
  eapply safe_cons; [split; [exists 50; split; auto; lra|exact I]|reflexivity|].
  apply safe_nil.
Qed.

(** C09 *)
Theorem C09_fixed_ratio_pattern_kept : forall k m0 x0 ops s m',
  0 < m0 -> 0 <= x0 -> safe_run (Particle_ctor k (Fin m0) (Fin x0)) ops s -> fixed s = true -> 0 < m' ->
  exists p n c, couplings s p n /\ c <> 0 /\ couplings (Set_Mass (Fin m') s) (c * p) (c * n).
Proof. exact set_mass_pattern_fixed. Qed.
Print Assumptions C09_fixed_ratio_pattern_kept.

Theorem C09_free_same_sign_pattern_kept : forall s m' p n,
  reachable s -> fixed s = false -> couplings s p n -> 0 <= p * n -> 0 < m' ->
  exists c, c <> 0 /\ couplings (Set_Mass (Fin m') s) (c * p) (c * n).
Proof. exact set_mass_pattern_free. Qed.
Print Assumptions C09_free_same_sign_pattern_kept.

(** A reachable particle blind to an isotope with 1 proton and 2 neutrons (coupling p*1 + n*2 = 0) sees it after
    its mass is set to the value it already has. *)
Theorem C09_free_couplings_refuted :
  exists s p n, reachable s /\ couplings s p n /\ p * 1 + n * 2 = 0 /\
    exists p' n', couplings (Set_Mass (mass s) s) p' n' /\ p' * 1 + n' * 2 <> 0 /\
    ~ exists c, p' = c * p /\ n' = c * n.
Proof. exact sign_lost. Qed.
Print Assumptions C09_free_couplings_refuted.

Example C09_instance : reachable neutron_only /\ fixed neutron_only = false /\ couplings neutron_only 0 c0 /\ 0 < c0.
Proof.
  split; [exact neutron_only_reachable|]. split; [reflexivity|]. split; [split; reflexivity|exact c0_pos].
Qed.

(** C10: realised, and kept by every later list of calls that neither changes nor releases the relation. *)
Theorem C10_coupling_ratio_kept : forall k m0 x0 ops0 s p n,
  0 < m0 -> 0 <= x0 -> safe_run (Particle_ctor k (Fin m0) (Fin x0)) ops0 s ->
  p + n <> 0 -> Sigma_Proton s <> Fin 0 ->
  exists s', Fix_Coupling_Ratio (Fin p) (Fin n) s = Ok s' /\
  forall ops s'', Forall valid_call ops -> Forall keeps_relation ops -> prun s' ops = Ok s'' ->
    exists x y, couplings s'' x y /\ x * n = y * p.
Proof. exact ratio_kept. Qed.
Print Assumptions C10_coupling_ratio_kept.

Theorem C10_fn_over_fp_kept : forall k m0 x0 ops0 s r,
  0 < m0 -> 0 <= x0 -> safe_run (Particle_ctor k (Fin m0) (Fin x0)) ops0 s ->
  r <> -1 -> Sigma_Proton s <> Fin 0 ->
  exists s', Fix_fn_over_fp (Fin r) s = Ok s' /\ Sigma_Proton s' = Sigma_Proton s /\
  forall ops s'', Forall valid_call ops -> Forall keeps_relation ops -> prun s' ops = Ok s'' ->
    exists x y, couplings s'' x y /\ y = r * x.
Proof. exact ratio_kept_fn. Qed.
Print Assumptions C10_fn_over_fp_kept.

Theorem C10_fp_over_fn_kept : forall k m0 x0 ops0 s r,
  0 < m0 -> 0 <= x0 -> safe_run (Particle_ctor k (Fin m0) (Fin x0)) ops0 s ->
  Sigma_Proton s <> Fin 0 ->
  exists s', Fix_fp_over_fn (Fin r) s = Ok s' /\
  forall ops s'', Forall valid_call ops -> Forall keeps_relation ops -> prun s' ops = Ok s'' ->
    exists x y, couplings s'' x y /\ x = r * y.
Proof. exact ratio_kept_fp. Qed.
Print Assumptions C10_fp_over_fn_kept.

(** For a particle that couples to neutrons only, no requested ratio is realised. *)
Theorem C10_any_history_refuted :
  exists s, reachable s /\ (exists x, Sigma_Neutron s = Fin x /\ 0 < x) /\
  (forall r, r <> -1 -> r <> 0 -> exists s' x y, Fix_fn_over_fp (Fin r) s = Ok s' /\ couplings s' x y /\ y <> r * x) /\
  (forall r, r <> 0 -> exists s' x y, Fix_fp_over_fn (Fin r) s = Ok s' /\ couplings s' x y /\ x <> r * y) /\
  (forall p n, p <> 0 -> n <> 0 -> p + n <> 0 ->
     exists s' x y, Fix_Coupling_Ratio (Fin p) (Fin n) s = Ok s' /\ couplings s' x y /\ x * n <> y * p).
Proof. exact ratio_not_realised. Qed.
Print Assumptions C10_any_history_refuted.

(** Instance: fixing fn/fp = -0.7 and then changing mass and cross sections. *)
Example C10_instance : exists s' s'' x y, Fix_fn_over_fp (Fin (-0.7)) start = Ok s' /\
  prun s' [PSet_Mass (Fin 100); PSet_Sigma_Neutron (Fin 2); PLow_Mass true] = Ok s'' /\
  couplings s'' x y /\ y = -0.7 * x.
Proof.
  assert (h := c0_pos).
  destruct (ratio_kept_fn SI 10 1 [] start (-0.7)) as (s' & E & _ & K); try lra.
  - apply safe_nil.
  - rewrite start_eq, (Sigma_Proton_eq _ 10 1 c0) by (auto; lra). intros Q; apply Fin_inj in Q.
    apply sig_zero in Q; lra.
  - destruct (K [PSet_Mass (Fin 100); PSet_Sigma_Neutron (Fin 2); PLow_Mass true]
                (with_low_mass true (Set_Sigma_Neutron (Fin 2) (Set_Mass (Fin 100) s')))) as (x & y & C & R).
    + repeat constructor; eexists; split; try reflexivity; lra.
    + repeat constructor.
    + reflexivity.
    + exists s'; eexists; exists x, y; repeat split; eauto; apply C.
Qed.

(** C11 *)
Theorem C11_fixing_keeps_interaction : forall k m0 x0 ops0 s,
  0 < m0 -> 0 <= x0 -> safe_run (Particle_ctor k (Fin m0) (Fin x0)) ops0 s ->
  Sigma_Proton s <> Fin 0 ->
  (forall p n, p + n <> 0 -> (n = 0 -> Sigma_Neutron s <> Fin 0) ->
     exists s' x y, Fix_Coupling_Ratio (Fin p) (Fin n) s = Ok s' /\ couplings s' x y /\ (x <> 0 \/ y <> 0)) /\
  (forall r, r <> -1 -> exists s' x y, Fix_fn_over_fp (Fin r) s = Ok s' /\ couplings s' x y /\ (x <> 0 \/ y <> 0)) /\
  (forall r, (r = 0 -> Sigma_Neutron s <> Fin 0) ->
     exists s' x y, Fix_fp_over_fn (Fin r) s = Ok s' /\ couplings s' x y /\ (x <> 0 \/ y <> 0)).
Proof. exact fix_keeps_interaction. Qed.
Print Assumptions C11_fixing_keeps_interaction.

Theorem C11_interaction_lost_refuted :
  exists s s' x, reachable s /\ Sigma_Neutron s = Fin x /\ 0 < x /\
    Fix_Coupling_Ratio (Fin 0) (Fin 1) s = Ok s' /\ couplings s' 0 0.
Proof. exact double_fix_kills. Qed.
Print Assumptions C11_interaction_lost_refuted.

Theorem C11_not_a_number_refuted :
  exists s s' x, reachable s /\ Sigma_Proton s = Fin x /\ 0 < x /\ Fix_fn_over_fp (Fin (-1)) s = Ok s' /\ fn s' = NaN.
Proof. exact ratio_minus_one_nan. Qed.
Print Assumptions C11_not_a_number_refuted.

Example C11_instance : safe_run start [] start /\ Sigma_Proton start <> Fin 0 /\ Sigma_Neutron start <> Fin 0.
Proof.
  assert (h := c0_pos). split; [apply safe_nil|]. rewrite start_eq. split.
  - rewrite (Sigma_Proton_eq _ 10 1 c0) by (auto; lra). intros Q; apply Fin_inj in Q. apply sig_zero in Q; lra.
  - rewrite (Sigma_Neutron_eq _ 10 1 c0) by (auto; lra). intros Q; apply Fin_inj in Q. apply sig_zero in Q; lra.
Qed.
