(** The halo lemmas restated for every reachable object, and instances. *)
From Coq Require Import Reals List ZArith String Lra Lia Bool.
From Coquelicot Require Import Coquelicot.
From Verif Require Import Base XrFacts Quadrature Erf Astronomy_Model Distribution_Model Interpolation Halo_Model Halo_Proofs Eta_Proofs
  HaloState_Proofs HaloShape_Proofs HaloMarginal_Proofs.
Import ListNotations.
Local Open Scope R_scope.

Lemma history_cdf s v0 vel ve : halo_history s v0 vel ve -> 0 < v0 -> 0 < ve -> vnorm vel <= ve ->
  exists f, (forall v, PDF_Speed_SHM s (Fin v) = Fin (f v)) /\
    (forall v, 0 <= v -> exists c, CDF_Speed_SHM s (Fin v) = Fin c /\ is_RInt f 0 v c) /\
    (forall v, v <= 0 -> CDF_Speed_SHM s (Fin v) = Fin 0) /\
    (forall v, ve + vnorm vel <= v -> CDF_Speed_SHM s (Fin v) = Fin 1).
Proof. intros H H0 He Ho. apply history_consistent in H. apply (halo_cdf s v0); auto; [tauto|]. split; auto. apply vnorm_nonneg. Qed.
Lemma history_nonneg s v0 vel ve v : halo_history s v0 vel ve -> 0 < v0 -> 0 < ve -> vnorm vel <= ve ->
  exists p, PDF_Speed_SHM s (Fin v) = Fin p /\ 0 <= p.
Proof.
  intros H H0 He Ho. apply history_consistent in H. apply (halo_pdf_nonneg s v0 (vnorm vel) ve v); auto; [tauto|]. split; auto. apply vnorm_nonneg.
Qed.
Lemma history_fast s v0 vel ve v : halo_history s v0 vel ve -> 0 < v0 -> 0 < ve -> ve < vnorm vel ->
  0 < v < vnorm vel - ve -> exists p, PDF_Speed_SHM s (Fin v) = Fin p /\ p < 0.
Proof. intros H H0 He Ho Hv. apply history_consistent in H. apply (fast_observer s v0 (vnorm vel) ve v); tauto. Qed.
Lemma history_eta s v0 vel ve : halo_history s v0 vel ve -> 0 < v0 -> 0 < ve -> vnorm vel <= ve ->
  exists f E, (forall v, PDF_Speed_SHM s (Fin v) = Fin (f v)) /\ (forall x, 0 <= x -> Eta_Function_SHM s (Fin x) = Fin (E x)) /\
    (forall x y, 0 <= x -> x <= y -> 0 <= E y <= E x) /\
    (forall x, ve + vnorm vel < x -> E x = 0) /\
    ((vnorm vel = 0 \/ eps8 * v0 <= vnorm vel) ->
      (forall x, 0 <= x <= ve + vnorm vel - eps8 * v0 -> is_RInt (fun v => f v / v) x (ve + vnorm vel) (E x)) /\
      (forall x, 0 <= x -> ve + vnorm vel - eps8 * v0 < x <= ve + vnorm vel -> exists I, is_RInt (fun v => f v / v) x (ve + vnorm vel) I /\
         0 <= I <= 2 * eps8 / (gauss3 (ve / v0) * sqrt PI * v0))).
Proof. intros H H0 He Ho. apply history_consistent in H. apply (halo_eta s v0); auto; [tauto|]. split; auto. apply vnorm_nonneg. Qed.
Lemma history_marginal s v0 vel ve e e1 e2 : halo_history s v0 vel ve ->
  0 < v0 -> 0 < ve -> vnorm vel <= ve -> orthonormal e e1 e2 -> vel = vscale (vnorm vel) e ->
  exists f p, (forall v c phi, 0 < v -> -1 < c <= 1 -> PDF_Velocity s (polar e e1 e2 v c phi) = Fin (f v c)) /\
    (forall v, PDF_Speed_SHM s (Fin v) = Fin (p v)) /\
    (forall v, 0 < v <= ve + vnorm vel -> is_RInt (fun c => 2 * PI * v ^ 2 * f v c) (-1) 1 (p v)) /\
    is_RInt p 0 (ve + vnorm vel) 1.
Proof. intros H. apply history_consistent in H. destruct H. intros. apply (angular_marginal s v0 vel ve e e1 e2); auto. Qed.
Lemma history_domain s v0 vel ve : halo_history s v0 vel ve ->
  h_dmin s = Fin 0 /\ h_dmax s = Fin (ve + vnorm vel) /\ h_v0 s = Fin v0 /\ h_vesc s = Fin ve /\ h_velobs s = vel /\
  h_vobs s = Fin (vnorm vel) /\ h_N s = N_esc_of (Fin v0) (Fin ve) /\ forall o, exists s', hstep s o = Ok s'.
Proof.
  intros H. apply history_consistent in H. destruct H as ((E0 & Eo & Ee & Ed & EM & EN) & V).
  repeat (split; [assumption|]). intros o. apply step_ok.
Qed.

Lemma norm345 : vnorm (V3 0 3 4) = 5.
Proof. unfold vnorm, vdot; cbn. replace (0 * 0 + 3 * 3 + 4 * 4) with (5 * 5) by ring. apply sqrt_square; lra. Qed.
Lemma example_history : exists s, halo_history s 2 (V3 0 3 4) 6 /\ 0 < 2 /\ 0 < 6 /\ vnorm (V3 0 3 4) = 5 /\ vnorm (V3 0 3 4) <= 6 /\
  eps8 * 2 <= vnorm (V3 0 3 4).
Proof.
  destruct (step_ok (SHM_of_speed 1 1 1 1) (Set_Speed_Dispersion 2)) as [s1 E1].
  destruct (step_ok s1 (Set_Observer_Velocity (V3 0 3 4))) as [s2 E2]. destruct (step_ok s2 (Set_Escape_Velocity 6)) as [s3 E3].
  exists s3. rewrite norm345. split; [|unfold eps8; repeat split; try reflexivity; lra].
  eapply hh_set_vesc; [|exact E3]. eapply hh_set_vel; [|exact E2]. eapply hh_set_v0; [|exact E1]. apply hh_speed. lra.
Qed.
Lemma example_fast : exists s, halo_history s 2 (V3 0 3 4) 4 /\ 4 < vnorm (V3 0 3 4) /\ 0 < 1/2 < vnorm (V3 0 3 4) - 4.
Proof. eexists. rewrite norm345. split; [apply (hh_velocity 1)|lra]. Qed.

Lemma run_fresh_flat : forall rho v0 vel ve l s, hrun (SHM_of_velocity rho v0 vel ve) l = Ok s ->
  exists u, last_vel vel l u /\ s = SHM_of_velocity rho (last_v0 v0 l) u (last_vesc ve l).
Proof. intros. apply run_fresh; auto. Qed.
Lemma default_domain : exists D V O, h_dmax SHM_default = Fin D /\ h_vesc SHM_default = Fin V /\ h_vobs SHM_default = Fin O /\ V + O < D.
Proof.
  destruct default_configured as (_ & Eo & Ee & _ & EM & _). do 3 eexists. split; [exact EM|]. split; [exact Ee|]. split; [exact Eo|].
  assert (K := km_sec_pos). assert (B := default_speed_bound).
  assert (sqrt 54093.34 * km_sec < 232.58 * km_sec) by (apply Rmult_lt_compat_r; lra). lra.
Qed.
Lemma default_repaired : forall l s, hrun SHM_default l = Ok s -> Exists touches_domain l ->
  exists v0 vo ve, consistent s v0 vo ve /\ 0 <= vo.
Proof. intros l s H X. eapply default_run; eauto. do 2 eexists. apply default_configured. Qed.

(** * SHM++ *)
Lemma reference_ctor_base b e be D : h_dmin b = Fin 0 -> h_dmax b = Fin D -> exists s, SHMpp_of_base reference_Integrate reference_Integrate_2D b e be = Ok s.
Proof.
  intros _ _. unfold SHMpp_of_base, Interpolate_Eta_Function_S.
  match goal with |- context [map_res ?f ?l] => destruct (map_res f l) as [t| | |] eqn:E end; cbn [bind]; eauto; exfalso; revert E;
    match goal with |- map_res ?f ?l = _ -> _ => generalize l; intros l0; induction l0 as [|v l0 IH]; cbn; [discriminate|] end;
    unfold Eta_Function_S at 1; destruct (_ || _)%bool; cbn [bind reference_Integrate];
    match goal with |- context [map_res ?f ?l] => destruct (map_res f l) end; cbn; auto; discriminate.
Qed.
Lemma reference_ctor_velocity rho v0 vel ve e b : exists s, SHMpp_of_velocity reference_Integrate reference_Integrate_2D rho v0 vel ve e b = Ok s.
Proof. apply (reference_ctor_base _ e b (ve + vnorm vel)); reflexivity. Qed.
Lemma ppstep_ok s o : exists s', ppstep s o = Ok s'.
Proof.
  destruct o as [o|x|x]; cbn; eauto. destruct o as [v|v|u|d m y h mi]; cbn; eauto.
  destruct (earth_ok (Fractional_Days_since_J2000 d m y (IZR h) (IZR mi) 0)) as [v ->]. cbn; eauto.
Qed.
Lemma pprun_ok l : forall s, exists s', pprun s l = Ok s'.
Proof. induction l as [|o r IH]; intros s; cbn; eauto. destruct (ppstep_ok s o) as [s1 ->]. cbn. apply IH. Qed.

Lemma stale_instance : exists I I2 J s0 s1 fresh, ideal_interpolation J /\
  SHMpp_of_speed I I2 1 1 1 2 (1/5) (9/10) = Ok s0 /\ ppstep s0 (PBase (Set_Escape_Velocity 4)) = Ok s1 /\
  SHMpp_of_speed I I2 1 1 1 4 (1/5) (9/10) = Ok fresh.
Proof.
  destruct (reference_ctor 1 1 1 2 (1/5) (9/10)) as [s0 H0]. destruct (reference_ctor 1 1 1 4 (1/5) (9/10)) as [s2 H2].
  destruct (ppstep_ok s0 (PBase (Set_Escape_Velocity 4))) as [s1 H1]. assert (HJ := ideal_interpolation_exists).
  exists reference_Integrate, reference_Integrate_2D, reference_Interpolation, s0, s1, s2. auto.
Qed.

Lemma history_sigmas I I2 rho v0 vel ve e b l s0 s :
  SHMpp_of_velocity I I2 rho v0 vel ve e b = Ok s0 -> pprun s0 l = Ok s ->
  0 < last_v0 v0 (base_ops l) -> last_beta b l < 1 ->
  exists sr st, p_sr s = Fin sr /\ p_st s = Fin st /\ p_sp s = Fin st /\ 0 < sr /\ 0 < st /\
    1 - st ^ 2 / sr ^ 2 = last_beta b l /\ sr ^ 2 + st ^ 2 + st ^ 2 = 3 / 2 * last_v0 v0 (base_ops l) ^ 2.
Proof.
  intros H0 H P Q. destruct (pp_history _ _ _ _ _ _ _ _ _ _ _ H0 H) as (u & _ & ->).
  destruct (sigmas _ _ P Q) as (sr & st & A & B & C). exists sr, st. split; [exact A|]. split; [exact B|]. split; [exact B|]. exact C.
Qed.
Lemma sigmas_instance : exists I I2 s0 s, SHMpp_of_velocity I I2 1 1 (V3 0 1 0) 2 (1/5) (9/10) = Ok s0 /\
  pprun s0 [Set_Beta (1/2); PBase (Set_Speed_Dispersion 3); Set_Eta (1/3)] = Ok s /\
  last_v0 1 (base_ops [Set_Beta (1/2); PBase (Set_Speed_Dispersion 3); Set_Eta (1/3)]) = 3 /\
  last_beta (9/10) [Set_Beta (1/2); PBase (Set_Speed_Dispersion 3); Set_Eta (1/3)] = 1/2.
Proof.
  destruct (reference_ctor_velocity 1 1 (V3 0 1 0) 2 (1/5) (9/10)) as [s0 H0].
  destruct (pprun_ok [Set_Beta (1/2); PBase (Set_Speed_Dispersion 3); Set_Eta (1/3)] s0) as [s H].
  exists reference_Integrate, reference_Integrate_2D, s0, s. auto.
Qed.

Lemma history_mixture I I2 rho v0 vel ve e b l s0 s s1 w :
  SHMpp_of_velocity I I2 rho v0 vel ve e b = Ok s0 -> pprun s0 l = Ok s -> ppstep s (Set_Eta 1) = Ok s1 ->
  0 < last_v0 v0 (base_ops l) -> 0 < last_vesc ve (base_ops l) -> 0 < last_beta b l < 1 ->
  exists u r q, last_vel vel (base_ops l) u /\
    PDF_Velocity (SHM_of_velocity rho (last_v0 v0 (base_ops l)) u (last_vesc ve (base_ops l))) w = Fin r /\ 0 <= r /\
    PDF_Velocity_pp s1 w = Fin q /\ 0 <= q /\
    PDF_Velocity_pp s w = Fin ((1 - last_eta e l) * r + last_eta e l * q) /\
    (last_eta e l = 0 -> PDF_Velocity_pp s w = Fin r).
Proof.
  intros H0 H H1 P Q B. destruct (pp_history _ _ _ _ _ _ _ _ _ _ _ H0 H) as (u & L & ->). apply pp_put_eta in H1. subst s1.
  destruct (mixture_velocity (p_table s0) rho _ u _ (last_eta e l) _ w P Q B) as (r & q & E1 & P1 & E2 & P2 & E3).
  exists u, r, q. repeat (split; [assumption|]). intros Z. rewrite E3, Z. f_equal. ring.
Qed.
Lemma history_mixture_speed I I2 rho v0 vel ve e b l s0 s s1 v q :
  SHMpp_of_velocity I I2 rho v0 vel ve e b = Ok s0 -> pprun s0 l = Ok s -> ppstep s (Set_Eta 1) = Ok s1 ->
  0 < last_v0 v0 (base_ops l) -> 0 < last_vesc ve (base_ops l) -> PDF_Speed_pp I2 s1 (Fin v) = Ok (Fin q) ->
  exists u r, last_vel vel (base_ops l) u /\
    PDF_Speed_SHM (SHM_of_velocity rho (last_v0 v0 (base_ops l)) u (last_vesc ve (base_ops l))) (Fin v) = Fin r /\
    PDF_Speed_pp I2 s (Fin v) = Ok (Fin ((1 - last_eta e l) * r + last_eta e l * q)).
Proof.
  intros H0 H H1 P Q F. destruct (pp_history _ _ _ _ _ _ _ _ _ _ _ H0 H) as (u & L & ->). apply pp_put_eta in H1. subst s1.
  destruct (mixture_speed I2 (p_table s0) rho _ u _ (last_eta e l) _ v q P Q F) as (r & E1 & E2). exists u, r. auto.
Qed.
Lemma history_mixture_cdf I I2 rho v0 vel ve e b l s0 s s1 v q :
  SHMpp_of_velocity I I2 rho v0 vel ve e b = Ok s0 -> pprun s0 l = Ok s -> ppstep s (Set_Eta 1) = Ok s1 ->
  0 < last_v0 v0 (base_ops l) -> 0 < last_vesc ve (base_ops l) -> (forall u, last_vel vel (base_ops l) u -> vnorm u <= last_vesc ve (base_ops l)) ->
  CDF_Speed_pp I I2 s1 (Fin v) = Ok (Fin q) ->
  exists u r, last_vel vel (base_ops l) u /\
    CDF_Speed_SHM (SHM_of_velocity rho (last_v0 v0 (base_ops l)) u (last_vesc ve (base_ops l))) (Fin v) = Fin r /\
    CDF_Speed_pp I I2 s (Fin v) = Ok (Fin ((1 - last_eta e l) * r + last_eta e l * q)).
Proof.
  intros H0 H H1 P Q V F. destruct (pp_history _ _ _ _ _ _ _ _ _ _ _ H0 H) as (u & L & ->). apply pp_put_eta in H1. subst s1.
  destruct (mixture_cdf I I2 (p_table s0) rho _ u _ (last_eta e l) _ v q P Q (V u L) F) as (r & E1 & E2). exists u, r. auto.
Qed.
Lemma ctor_isotropic I I2 rho v0 vel ve e s w : 0 < v0 -> vnorm (vadd w vel) <= ve ->
  SHMpp_of_velocity I I2 rho v0 vel ve e 0 = Ok s -> PDF_Velocity_pp s w = NaN.
Proof. intros P Q H. rewrite SHMpp_of_velocity_eq in H. apply ctor_core in H. rewrite H. apply isotropic_nan; auto. Qed.

Lemma mixture_instance : exists I I2 s0 s s1 q c,
  SHMpp_of_velocity I I2 1 1 (V3 0 1 0) 2 (1/5) (9/10) = Ok s0 /\
  pprun s0 [Set_Beta (1/2); PBase (Set_Speed_Dispersion 3); Set_Eta (1/3)] = Ok s /\ ppstep s (Set_Eta 1) = Ok s1 /\
  PDF_Speed_pp I2 s1 (Fin 1) = Ok (Fin q) /\ CDF_Speed_pp I I2 s1 (Fin 1) = Ok (Fin c) /\ vnorm (V3 0 1 0) <= 2.
Proof.
  destruct (reference_ctor_velocity 1 1 (V3 0 1 0) 2 (1/5) (9/10)) as [s0 H0].
  destruct (pprun_ok [Set_Beta (1/2); PBase (Set_Speed_Dispersion 3); Set_Eta (1/3)] s0) as [s H].
  destruct (ppstep_ok s (Set_Eta 1)) as [s1 H1].
  assert (V1 : vnorm (V3 0 1 0) = 1) by (apply vnorm_y; lra).
  destruct (pp_history _ _ _ _ _ _ _ _ _ _ _ H0 H) as (u & L & E). assert (H1' := H1). rewrite E in H1'. apply pp_put_eta in H1'.
  assert (U : u = V3 0 1 0) by (inversion L as [|? ? ? ? L'| | |]; inversion L'; auto). subst u.
  set (b := SHM_of_velocity 1 _ _ _) in *.
  assert (PB : PDF_Speed_SHM (p_base s1) (Fin 1) = Fin (pdf_all (gauss3 (2 / 3)) 3 (vnorm (V3 0 1 0)) 2 1)).
  { rewrite H1'. apply (PDF_Speed_all b 3 (vnorm (V3 0 1 0)) 2 1); [apply velocity_consistent|lra|lra|apply vnorm_nonneg]. }
  assert (CB : exists r, CDF_Speed_SHM (p_base s1) (Fin 1) = Fin r).
  { destruct (halo_cdf b 3 (vnorm (V3 0 1 0)) 2 (velocity_consistent _ _ _ _) ltac:(lra) ltac:(lra) ltac:(lra)) as (f & _ & A & _).
    destruct (A 1 ltac:(lra)) as (c & Ec & _). exists c. rewrite H1'. exact Ec. }
  destruct CB as [r CB]. assert (Pe : p_eta s1 = Fin 1) by (rewrite H1'; reflexivity).
  assert (X : exists x, PDF_Speed_S reference_Integrate_2D s1 (Fin 1) = Ok (Fin x))
    by (unfold PDF_Speed_S; destruct (_ || _)%bool; unfold reference_Integrate_2D; eauto).
  assert (Y : exists y, CDF_Speed_S reference_Integrate reference_Integrate_2D s1 (Fin 1) = Ok (Fin y))
    by (unfold CDF_Speed_S; destruct (xle _ _); [eauto|]; destruct (xle _ _); unfold reference_Integrate; eauto).
  destruct X as [x X]. destruct Y as [y Y].
  eexists reference_Integrate, reference_Integrate_2D, s0, s, s1, _, _. split; [exact H0|]. split; [exact H|]. split; [exact H1|].
  unfold PDF_Speed_pp, CDF_Speed_pp. rewrite X, Y, Pe, PB, CB. cbn [bind]. rewrite !xsub_fin, !xmul_fin, !xadd_fin.
  split; [reflexivity|]. split; [reflexivity|]. lra.
Qed.
Lemma isotropic_instance : exists I I2 s, SHMpp_of_velocity I I2 1 1 (V3 0 1 0) 2 0 0 = Ok s /\ vnorm (vadd (V3 1 0 0) (V3 0 1 0)) <= 2.
Proof.
  destruct (reference_ctor_velocity 1 1 (V3 0 1 0) 2 0 0) as [s0 H0]. exists reference_Integrate, reference_Integrate_2D, s0. split; auto.
  unfold vnorm, vdot, vadd; cbn. apply Rle_trans with (sqrt (2 * 2)); [apply sqrt_le_1_alt; lra|rewrite sqrt_square; lra].
Qed.
Lemma marginal_instance : orthonormal (V3 0 (3/5) (4/5)) (V3 1 0 0) (V3 0 (-4/5) (3/5)) /\ V3 0 3 4 = vscale (vnorm (V3 0 3 4)) (V3 0 (3/5) (4/5)).
Proof.
  rewrite norm345. split; [unfold orthonormal, vdot; cbn; repeat split; field|unfold vscale; cbn; f_equal; field].
Qed.

Lemma history_sausage I I2 rho v0 vel ve e b l s0 s :
  SHMpp_of_velocity I I2 rho v0 vel ve e b = Ok s0 -> pprun s0 l = Ok s ->
  0 < last_v0 v0 (base_ops l) -> 0 < last_vesc ve (base_ops l) -> 0 < last_beta b l < 1 ->
  exists f F, (forall w, PDF_Velocity_S s w = Fin (f w)) /\ (forall w, 0 <= f w) /\
    (forall w, last_vesc ve (base_ops l) < vnorm w -> f w = 0) /\
    (forall v phi, 0 < v <= last_vesc ve (base_ops l) -> is_RInt (fun c => 2 * PI * v ^ 2 * f (radial_polar v c phi)) (-1) 1 (F v)) /\
    is_RInt F 0 (last_vesc ve (base_ops l)) 1.
Proof.
  intros H0 H P Q B. destruct (pp_history _ _ _ _ _ _ _ _ _ _ _ H0 H) as (u & L & E).
  assert (CC := core_consistent (p_table s0) rho (last_v0 v0 (base_ops l)) u (last_vesc ve (base_ops l)) (last_eta e l) (last_beta b l)).
  rewrite <- E in CC. destruct (sausage_normalised s _ _ _ _ _ CC P Q B) as (f & F & A1 & A2 & A3 & A4).
  exists f, F. split; [auto|]. split; [auto|]. split; [|auto]. intros w W. assert (Z := A1 w).
  destruct CC as ((_ & _ & Ee & _) & _). unfold PDF_Velocity_S in Z. rewrite Ee, xlt_true in Z by auto. apply Fin_inj in Z. auto.
Qed.

(** * Existential forms of the refutations *)
Lemma stale_refuted : exists Integrate Integrate_2D Interp s0 s1 fresh, ideal_interpolation Interp /\
  SHMpp_of_speed Integrate Integrate_2D 1 1 1 2 (1/5) (9/10) = Ok s0 /\ ppstep s0 (PBase (Set_Escape_Velocity 4)) = Ok s1 /\
  SHMpp_of_speed Integrate Integrate_2D 1 1 1 4 (1/5) (9/10) = Ok fresh /\
  Eta_Function_pp Interp s1 (Fin 4) = Exit /\ exists y, Eta_Function_pp Interp fresh (Fin 4) = Ok y.
Proof. destruct stale_instance as (I & I2 & J & s0 & s1 & fresh & A & B & C & D). exists I, I2, J, s0, s1, fresh. repeat (split; [assumption|]). exact (stale_eta I I2 J s0 s1 fresh A B C D). Qed.
Lemma isotropic_refuted : exists I I2 s w, SHMpp_of_velocity I I2 1 1 (V3 0 1 0) 2 0 0 = Ok s /\ vnorm (vadd w (V3 0 1 0)) <= 2 /\ PDF_Velocity_pp s w = NaN.
Proof. destruct isotropic_instance as (I & I2 & s & A & B). exists I, I2, s, (V3 1 0 0). split; [exact A|]. split; [exact B|]. apply (ctor_isotropic I I2 1 1 (V3 0 1 0) 2 0 s (V3 1 0 0)); auto; lra. Qed.
