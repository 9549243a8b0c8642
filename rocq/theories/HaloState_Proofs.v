(** Lemmas about histories of setter calls on halo objects. *)
From Coq Require Import Reals List ZArith String Lra Lia Bool Psatz.
From Coquelicot Require Import Coquelicot.
From Verif Require Import Base XrFacts Analysis Quadrature Erf Astronomy_Model Astronomy_Proofs Distribution_Model Halo_Model Halo_Proofs Eta_Proofs.
Import ListNotations.
Local Open Scope R_scope.

(** * Specification: the parameters a history leaves behind *)
Fixpoint last_v0 (v0 : R) (l : list hop) : R :=
  match l with
  | [] => v0
  | Set_Speed_Dispersion v :: r => last_v0 v r
  | _ :: r => last_v0 v0 r
  end.
Fixpoint last_vesc (ve : R) (l : list hop) : R :=
  match l with
  | [] => ve
  | Set_Escape_Velocity v :: r => last_vesc v r
  | _ :: r => last_vesc ve r
  end.
(** The velocity of the Earth on a date (the result of the astronomy module). *)
Definition velocity_on (d m y h mi : Z) (vel : vec3) : Prop :=
  Earth_Velocity (Fractional_Days_since_J2000 d m y (IZR h) (IZR mi) 0) = Ok vel.
Inductive last_vel : vec3 -> list hop -> vec3 -> Prop :=
| lv_nil vel : last_vel vel [] vel
| lv_v0 vel v r w : last_vel vel r w -> last_vel vel (Set_Speed_Dispersion v :: r) w
| lv_esc vel v r w : last_vel vel r w -> last_vel vel (Set_Escape_Velocity v :: r) w
| lv_vel vel u r w : last_vel u r w -> last_vel vel (Set_Observer_Velocity u :: r) w
| lv_date vel d m y h mi u r w : velocity_on d m y h mi u -> last_vel u r w -> last_vel vel (Set_Observer_Date d m y h mi :: r) w.

Lemma step_fresh rho v0 vel ve o s : hstep (SHM_of_velocity rho v0 vel ve) o = Ok s ->
  exists u, last_vel vel [o] u /\ s = SHM_of_velocity rho (last_v0 v0 [o]) u (last_vesc ve [o]).
Proof.
  destruct o as [v|v|u|d m y h mi]; cbn; intros H.
  - injection H as <-. exists vel. split; [repeat constructor|reflexivity].
  - injection H as <-. exists vel. split; [repeat constructor|reflexivity].
  - injection H as <-. exists u. split; [repeat constructor|reflexivity].
  - destruct (Earth_Velocity _) as [u| | |] eqn:E; cbn in H; try discriminate. injection H as <-.
    exists u. split; [|reflexivity]. econstructor; [exact E|constructor].
Qed.

Lemma last_v0_cons v0 o r : last_v0 (last_v0 v0 [o]) r = last_v0 v0 (o :: r).
Proof. destruct o; reflexivity. Qed.
Lemma last_vesc_cons v o r : last_vesc (last_vesc v [o]) r = last_vesc v (o :: r).
Proof. destruct o; reflexivity. Qed.
Lemma last_vel_cons vel o r u w : last_vel vel [o] u -> last_vel u r w -> last_vel vel (o :: r) w.
Proof.
  intros H K. inversion H; subst; try match goal with X : last_vel _ [] _ |- _ => inversion X; subst end.
  - constructor; auto. - constructor; auto. - constructor; auto. - econstructor; eauto.
Qed.

(** Every history ends in the state a constructor with the final parameters would give. *)
Lemma run_fresh rho l : forall v0 vel ve s, hrun (SHM_of_velocity rho v0 vel ve) l = Ok s ->
  exists u, last_vel vel l u /\ s = SHM_of_velocity rho (last_v0 v0 l) u (last_vesc ve l).
Proof.
  induction l as [|o r IH]; intros v0 vel ve s H.
  - cbn in H. injection H as <-. exists vel. split; [constructor|reflexivity].
  - cbn [hrun] in H. destruct (hstep _ o) as [s1| | |] eqn:E; cbn in H; try discriminate.
    apply step_fresh in E. destruct E as [u [L ->]].
    apply IH in H. destruct H as [w [L' ->]]. exists w.
    rewrite last_v0_cons, last_vesc_cons. split; [eapply last_vel_cons; eauto|reflexivity].
Qed.

Lemma earth_ok n : exists v, Earth_Velocity n = Ok v.
Proof. destruct (earth_relative n) as [v [H _]]. eauto. Qed.

Lemma step_ok s o : exists s', hstep s o = Ok s'.
Proof.
  destruct o; cbn; eauto. destruct (earth_ok (Fractional_Days_since_J2000 d m y (IZR h) (IZR mi) 0)) as [v ->]. cbn; eauto.
Qed.
Lemma run_ok l : forall s, exists s', hrun s l = Ok s'.
Proof.
  induction l as [|o r IH]; intros s; cbn; eauto. destruct (step_ok s o) as [s1 ->]. cbn. apply IH.
Qed.

Lemma velocity_consistent rho v0 vel ve : consistent (SHM_of_velocity rho v0 vel ve) v0 (vnorm vel) ve.
Proof. repeat split. Qed.

Lemma vnorm_nonneg u : 0 <= vnorm u.
Proof. apply sqrt_pos. Qed.
Lemma vnorm_y x : 0 <= x -> vnorm (V3 0 x 0) = x.
Proof. intros H. unfold vnorm, vdot; cbn [vx vy vz]. replace (0 * 0 + x * x + 0 * 0) with (x * x) by ring. apply sqrt_square; auto. Qed.

(** The scalar constructor agrees with the vector one (up to the name) for a non-negative speed. *)
Lemma speed_is_velocity rho v0 vo ve : 0 <= vo ->
  SHM_of_speed rho v0 vo ve =
  let s := SHM_of_velocity rho v0 (V3 0 vo 0) ve in
  {| h_name := "Standard halo model (SHM)"; h_rho := h_rho s; h_dmin := h_dmin s; h_dmax := h_dmax s; h_use_eta := h_use_eta s;
     h_v0 := h_v0 s; h_vesc := h_vesc s; h_vobs := h_vobs s; h_velobs := h_velobs s; h_N := h_N s |}.
Proof. intros H. unfold SHM_of_speed, SHM_of_velocity, Normalize_PDF; cbn. rewrite vnorm_y by auto. reflexivity. Qed.

Lemma speed_consistent rho v0 vo ve : consistent (SHM_of_speed rho v0 vo ve) v0 vo ve.
Proof. repeat split. Qed.

(** Consistency is kept whatever the constructor was: what matters is that the domain matches to begin with. *)
Lemma step_consistent s v0 vo ve o s' : consistent s v0 vo ve -> hstep s o = Ok s' ->
  exists vo', consistent s' (last_v0 v0 [o]) vo' (last_vesc ve [o]) /\
    (vo' = vo \/ exists u, vo' = vnorm u /\ h_velobs s' = u).
Proof.
  intros (E0 & Eo & Ee & Ed & EM & EN) H.
  destruct o as [v|v|u|d m y h mi]; cbn in H.
  - injection H as <-. exists vo. split; [|auto]. unfold consistent, configured. cbn. rewrite Ee. auto 10.
  - injection H as <-. exists vo. split; [|auto]. unfold consistent, configured. cbn. rewrite E0, Eo. auto 10.
  - injection H as <-. exists (vnorm u). split; [|right; eexists; split; eauto]. unfold consistent, configured. cbn. rewrite Ee. auto 10.
  - destruct (Earth_Velocity _) as [u| | |] eqn:E; cbn in H; try discriminate. injection H as <-.
    exists (vnorm u). split; [|right; eexists; split; eauto]. unfold consistent, configured. cbn. rewrite Ee. auto 10.
Qed.

Lemma run_consistent l : forall s v0 vo ve s', consistent s v0 vo ve -> 0 <= vo -> hrun s l = Ok s' ->
  exists vo', consistent s' (last_v0 v0 l) vo' (last_vesc ve l) /\ 0 <= vo'.
Proof.
  induction l as [|o r IH]; intros s v0 vo ve s' C Ho H.
  - cbn in H. injection H as <-. exists vo; auto.
  - cbn [hrun] in H. destruct (hstep s o) as [s1| | |] eqn:E; cbn in H; try discriminate.
    destruct (step_consistent _ _ _ _ _ _ C E) as [vo1 [C1 D]].
    assert (0 <= vo1) by (destruct D as [-> | [u [-> _]]]; [auto|apply vnorm_nonneg]).
    destruct (IH _ _ _ _ _ C1 H0 H) as [vo' [C' P]]. exists vo'. rewrite last_v0_cons, last_vesc_cons in C'. auto.
Qed.

(** The default constructor: the domain is not the one of its own parameters. *)
Lemma default_mismatch : h_dmax SHM_default <> xadd (h_vesc SHM_default) (h_vobs SHM_default).
Proof.
  destruct default_configured as (_ & Eo & Ee & _ & EM & _). rewrite Eo, Ee, EM, xadd_fin. intros H. apply Fin_inj in H.
  assert (K := km_sec_pos). assert (B := default_speed_bound).
  assert (sqrt 54093.34 * km_sec < 232.58 * km_sec) by (apply Rmult_lt_compat_r; lra). lra.
Qed.

(** It stays wrong under Set_Speed_Dispersion and is repaired by the first call that touches the domain. *)
Definition touches_domain (o : hop) : Prop := match o with Set_Speed_Dispersion _ => False | _ => True end.
Lemma default_run l : forall s, (exists v0 D, configured s v0 (sqrt 54093.34 * km_sec) (544 * km_sec) D) ->
  forall s', hrun s l = Ok s' -> Exists touches_domain l ->
  exists v0 vo ve, consistent s' v0 vo ve /\ 0 <= vo.
Proof.
  induction l as [|o r IH]; intros s [v0 [D C]] s' H X; [inversion X|].
  assert (K := km_sec_pos). assert (B := default_speed_bound).
  assert (0 <= sqrt 54093.34 * km_sec) by (apply Rmult_le_pos; lra).
  cbn [hrun] in H. destruct (hstep s o) as [s1| | |] eqn:E; cbn in H; try discriminate.
  destruct C as (E0 & Eo & Ee & Ed & EM & EN).
  destruct o as [v|v|u|d m y h mi].
  - inversion X as [? ? T|? ? X']; subst; [destruct T|]. cbn in E. injection E as <-.
    apply (IH (Normalize_PDF (put_v0 s v))); auto. exists v, D. unfold configured; cbn. rewrite Ee. auto 10.
  - cbn in E. injection E as <-.
    assert (C1 : consistent (Normalize_PDF (put_vesc s v)) v0 (sqrt 54093.34 * km_sec) v)
      by (unfold consistent, configured; cbn; rewrite E0, Eo; auto 10).
    destruct (run_consistent r _ _ _ _ _ C1 H0 H) as [vo' [C' P]]. eauto 6.
  - cbn in E. injection E as <-.
    assert (C1 : consistent (put_velobs s u) v0 (vnorm u) (544 * km_sec))
      by (unfold consistent, configured; cbn; rewrite Ee; auto 10).
    destruct (run_consistent r _ _ _ _ _ C1 (vnorm_nonneg u) H) as [vo' [C' P]]. eauto 6.
  - cbn in E. destruct (Earth_Velocity _) as [u| | |] eqn:EV; cbn in E; try discriminate. injection E as <-.
    assert (C1 : consistent (put_velobs s u) v0 (vnorm u) (544 * km_sec))
      by (unfold consistent, configured; cbn; rewrite Ee; auto 10).
    destruct (run_consistent r _ _ _ _ _ C1 (vnorm_nonneg u) H) as [vo' [C' P]]. eauto 6.
Qed.

(** * SHM++ *)
(** The state after the constructor body, before the table of the eta function is filled. *)
Definition pp_core (b : SHM) (e be : R) : SHMpp :=
  Normalize_PDF_pp (Compute_Sigmas
    {| p_base := renamed b; p_eta := Fin e; p_beta := Fin be; p_sr := NaN; p_st := NaN; p_sp := NaN; p_NS := NaN; p_table := [] |}).
Definition with_table (t : list (xr * xr)) (s : SHMpp) : SHMpp :=
  {| p_base := p_base s; p_eta := p_eta s; p_beta := p_beta s; p_sr := p_sr s; p_st := p_st s; p_sp := p_sp s; p_NS := p_NS s; p_table := t |}.

Definition base_ops (l : list ppop) : list hop := flat_map (fun o => match o with PBase h => [h] | _ => [] end) l.
Fixpoint last_eta (e : R) (l : list ppop) : R :=
  match l with [] => e | Set_Eta x :: r => last_eta x r | _ :: r => last_eta e r end.
Fixpoint last_beta (b : R) (l : list ppop) : R :=
  match l with [] => b | Set_Beta x :: r => last_beta x r | _ :: r => last_beta b r end.

Lemma ppstep_fresh t rho v0 vel ve e b o s :
  ppstep (with_table t (pp_core (SHM_of_velocity rho v0 vel ve) e b)) o = Ok s ->
  exists u, last_vel vel (base_ops [o]) u /\
    s = with_table t (pp_core (SHM_of_velocity rho (last_v0 v0 (base_ops [o])) u (last_vesc ve (base_ops [o]))) (last_eta e [o]) (last_beta b [o])).
Proof.
  destruct o as [[v|v|u|d m y h mi]|x|x]; cbn; intros H.
  - injection H as <-. exists vel. split; [repeat constructor|reflexivity].
  - injection H as <-. exists vel. split; [repeat constructor|reflexivity].
  - injection H as <-. exists u. split; [repeat constructor|reflexivity].
  - destruct (Earth_Velocity _) as [u| | |] eqn:E; cbn in H; try discriminate. injection H as <-.
    exists u. split; [|reflexivity]. econstructor; [exact E|constructor].
  - injection H as <-. exists vel. split; [constructor|reflexivity].
  - injection H as <-. exists vel. split; [constructor|reflexivity].
Qed.

Lemma last_eta_cons e o r : last_eta (last_eta e [o]) r = last_eta e (o :: r).
Proof. destruct o; reflexivity. Qed.
Lemma last_beta_cons e o r : last_beta (last_beta e [o]) r = last_beta e (o :: r).
Proof. destruct o; reflexivity. Qed.
Lemma base_ops_cons o r : base_ops (o :: r) = base_ops [o] ++ base_ops r.
Proof. unfold base_ops; cbn. rewrite app_nil_r. reflexivity. Qed.
Lemma last_v0_app a l1 : forall l2, last_v0 a (l1 ++ l2) = last_v0 (last_v0 a l1) l2.
Proof. revert a; induction l1 as [|o r IH]; intros a l2; auto. destruct o; cbn; apply IH. Qed.
Lemma last_vesc_app a l1 : forall l2, last_vesc a (l1 ++ l2) = last_vesc (last_vesc a l1) l2.
Proof. revert a; induction l1 as [|o r IH]; intros a l2; auto. destruct o; cbn; apply IH. Qed.
Lemma last_vel_app a l1 b l2 c : last_vel a l1 b -> last_vel b l2 c -> last_vel a (l1 ++ l2) c.
Proof. intros H K. induction H; cbn; auto; econstructor; eauto. Qed.

(** After any history everything except the tabulated eta function is what a constructor with the final parameters
    would give; the table is still the one of the original construction. *)
Lemma pprun_fresh t rho l : forall v0 vel ve e b s,
  pprun (with_table t (pp_core (SHM_of_velocity rho v0 vel ve) e b)) l = Ok s ->
  exists u, last_vel vel (base_ops l) u /\
    s = with_table t (pp_core (SHM_of_velocity rho (last_v0 v0 (base_ops l)) u (last_vesc ve (base_ops l))) (last_eta e l) (last_beta b l)).
Proof.
  induction l as [|o r IH]; intros v0 vel ve e b s H.
  - cbn in H. injection H as <-. exists vel. split; [constructor|reflexivity].
  - cbn [pprun] in H. destruct (ppstep _ o) as [s1| | |] eqn:E; cbn in H; try discriminate.
    apply ppstep_fresh in E. destruct E as [u [L ->]].
    apply IH in H. destruct H as [w [L' ->]]. exists w.
    rewrite base_ops_cons, last_v0_app, last_vesc_app, <- (last_eta_cons e o r), <- (last_beta_cons b o r).
    split; [eapply last_vel_app; eauto|reflexivity].
Qed.

Lemma ctor_core I I2 b e be s : SHMpp_of_base I I2 b e be = Ok s -> s = with_table (p_table s) (pp_core b e be).
Proof.
  unfold SHMpp_of_base, Interpolate_Eta_Function_S. destruct (map_res _ _) as [t| | |]; cbn; intros H; try discriminate.
  injection H as <-. reflexivity.
Qed.
Lemma SHMpp_of_velocity_eq I I2 rho v0 vel ve e b :
  SHMpp_of_velocity I I2 rho v0 vel ve e b = SHMpp_of_base I I2 (SHM_of_velocity rho v0 vel ve) e b.
Proof. reflexivity. Qed.
Lemma SHMpp_of_speed_eq I I2 rho v0 vo ve e b :
  SHMpp_of_speed I I2 rho v0 vo ve e b = SHMpp_of_base I I2 (SHM_of_speed rho v0 vo ve) e b.
Proof. reflexivity. Qed.
Lemma ppstep_table s o s' : ppstep s o = Ok s' -> p_table s' = p_table s.
Proof.
  destruct o as [[v|v|u|d m y h mi]|x|x]; cbn; intros H; try (injection H as <-; reflexivity).
  destruct (Earth_Velocity _) as [u| | |] eqn:E; cbn in H; try discriminate. injection H as <-. reflexivity.
Qed.
Lemma pprun_table l : forall s s', pprun s l = Ok s' -> p_table s' = p_table s.
Proof.
  induction l as [|o r IH]; intros s s' H; cbn in H; [injection H as <-; auto|].
  destruct (ppstep s o) as [s1| | |] eqn:E; cbn in H; try discriminate.
  apply IH in H. rewrite H. eapply ppstep_table; eauto.
Qed.

(** Full statement, for an object built by the vector constructor. *)
Lemma pp_history I I2 rho v0 vel ve e b l s0 s :
  SHMpp_of_velocity I I2 rho v0 vel ve e b = Ok s0 -> pprun s0 l = Ok s ->
  exists u, last_vel vel (base_ops l) u /\
    s = with_table (p_table s0) (pp_core (SHM_of_velocity rho (last_v0 v0 (base_ops l)) u (last_vesc ve (base_ops l))) (last_eta e l) (last_beta b l)).
Proof.
  intros H0 H. rewrite SHMpp_of_velocity_eq in H0. apply ctor_core in H0. rewrite H0 in H. apply pprun_fresh in H. exact H.
Qed.

(** C25 *)
Lemma sigmas v0 b : 0 < v0 -> b < 1 ->
  exists sr st, sigma_r_of (Fin v0) (Fin b) = Fin sr /\ sigma_theta_of (Fin v0) (Fin b) = Fin st /\ 0 < sr /\ 0 < st /\
    1 - st ^ 2 / sr ^ 2 = b /\ sr ^ 2 + st ^ 2 + st ^ 2 = 3 / 2 * v0 ^ 2.
Proof.
  intros H0 Hb. unfold sigma_r_of, sigma_theta_of. rewrite !xmul_fin, !xsub_fin, !xmul_fin. repeat (rewrite xdiv_fin by lra).
  assert (A : 0 < 3 * v0 * v0 / 2 / (3 - 2 * b)) by (repeat (apply Rdiv_lt_0_compat; [|lra]); nra).
  assert (B : 0 < 3 * v0 * v0 * (1 - b) / 2 / (3 - 2 * b)).
  { repeat (apply Rdiv_lt_0_compat; [|lra]). repeat apply Rmult_lt_0_compat; lra. }
  rewrite !xsqrt_fin by lra. eexists _, _. split; [reflexivity|]. split; [reflexivity|].
  split; [apply sqrt_lt_R0; auto|]. split; [apply sqrt_lt_R0; auto|].
  rewrite !pow2_sqrt by lra. split; field; lra.
Qed.

(** * Halos reachable from the parametrised constructors, with the parameters a user has asked for *)
Inductive halo_history : SHM -> R -> vec3 -> R -> Prop :=
| hh_speed rho v0 vo ve : 0 <= vo -> halo_history (SHM_of_speed rho v0 vo ve) v0 (V3 0 vo 0) ve
| hh_velocity rho v0 vel ve : halo_history (SHM_of_velocity rho v0 vel ve) v0 vel ve
| hh_set_v0 s v0 vel ve x s' : halo_history s v0 vel ve -> hstep s (Set_Speed_Dispersion x) = Ok s' -> halo_history s' x vel ve
| hh_set_vesc s v0 vel ve x s' : halo_history s v0 vel ve -> hstep s (Set_Escape_Velocity x) = Ok s' -> halo_history s' v0 vel x
| hh_set_vel s v0 vel ve u s' : halo_history s v0 vel ve -> hstep s (Set_Observer_Velocity u) = Ok s' -> halo_history s' v0 u ve
| hh_set_date s v0 vel ve d m y h mi u s' : halo_history s v0 vel ve -> velocity_on d m y h mi u ->
    hstep s (Set_Observer_Date d m y h mi) = Ok s' -> halo_history s' v0 u ve.

Lemma history_consistent s v0 vel ve : halo_history s v0 vel ve -> consistent s v0 (vnorm vel) ve /\ h_velobs s = vel.
Proof.
  intros H. induction H as [rho v0 vo ve Ho|rho v0 vel ve|s v0 vel ve x s' _ [C V] E|s v0 vel ve x s' _ [C V] E|s v0 vel ve u s' _ [C V] E|s v0 vel ve d m y h mi u s' _ [C V] D E].
  - rewrite vnorm_y by auto. split; [apply speed_consistent|reflexivity].
  - split; [apply velocity_consistent|reflexivity].
  - destruct C as (E0 & Eo & Ee & Ed & EM & EN). cbn in E. injection E as <-. split; [|exact V]. unfold consistent, configured. cbn. rewrite Ee. auto 10.
  - destruct C as (E0 & Eo & Ee & Ed & EM & EN). cbn in E. injection E as <-. split; [|exact V]. unfold consistent, configured. cbn. rewrite E0, Eo. auto 10.
  - destruct C as (E0 & Eo & Ee & Ed & EM & EN). cbn in E. injection E as <-. split; [|reflexivity]. unfold consistent, configured. cbn. rewrite Ee. auto 10.
  - destruct C as (E0 & Eo & Ee & Ed & EM & EN). unfold velocity_on in D. cbn in E. rewrite D in E. cbn in E. injection E as <-.
    split; [|reflexivity]. unfold consistent, configured. cbn. rewrite Ee. auto 10.
Qed.
