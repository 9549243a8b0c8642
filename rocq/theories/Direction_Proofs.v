(** Predictions for the standard halo and the direction of the observer's motion (C116). *)
From Coq Require Import Reals ZArith String Lia Lra Bool.
From Coquelicot Require Import Coquelicot.
From Coq Require Import List.
From Verif Require Import Base XrFacts Quadrature Astronomy_Model Nucleus_Model Nuclear_Model Particle_Model CrossSection_Model Distribution_Model Halo_Model Atom_Model Crystal_Model Rates_Model
  Eta_Proofs Halo_Proofs HaloState_Proofs HaloFinal_Proofs FormulasHalo_Proofs.
Import ListNotations.
Local Open Scope R_scope.

(** * Lemmas *)
Lemma step_flag s o s' : hstep s o = Ok s' -> h_use_eta s' = h_use_eta s /\ h_rho s' = h_rho s.
Proof.
  destruct o; cbn; intros H; try (injection H as <-; auto).
  destruct (Earth_Velocity _); try discriminate. injection H as <-. auto.
Qed.
Lemma history_flag s v0 vel ve : halo_history s v0 vel ve -> h_use_eta s = true.
Proof.
  intros H. induction H; try reflexivity.
  all: match goal with E : hstep _ _ = Ok _ |- _ => apply step_flag in E; destruct E as [-> _]; auto end.
Qed.
Lemma vnorm_vdot a b : vnorm a = vnorm b -> vdot a a = vdot b b.
Proof.
  unfold vnorm. intros H. assert (P : forall u, 0 <= vdot u u) by (intros [x y z]; unfold vdot; cbn; nra).
  rewrite <- (sqrt_sqrt (vdot a a)), <- (sqrt_sqrt (vdot b b)) by apply P. now rewrite H.
Qed.

Lemma direction_speeds s1 s2 v0 ve vel1 vel2 : halo_history s1 v0 vel1 ve -> halo_history s2 v0 vel2 ve -> vnorm vel1 = vnorm vel2 ->
  (forall v, PDF_Speed_SHM s1 v = PDF_Speed_SHM s2 v) /\ (forall v, CDF_Speed_SHM s1 v = CDF_Speed_SHM s2 v) /\ (forall v, Eta_Function_SHM s1 v = Eta_Function_SHM s2 v) /\
  h_dmin s1 = h_dmin s2 /\ h_dmax s1 = h_dmax s2.
Proof.
  intros H1 H2 E.
  destruct (history_domain _ _ _ _ H1) as (A1 & A2 & A3 & A4 & _ & A6 & A7 & _). destruct (history_domain _ _ _ _ H2) as (B1 & B2 & B3 & B4 & _ & B6 & B7 & _).
  unfold PDF_Speed_SHM, CDF_Speed_SHM, Eta_Function_SHM. rewrite A1, A2, A3, A4, A6, A7, B1, B2, B3, B4, B6, B7, E. auto.
Qed.
Lemma direction_velocities s1 s2 v0 ve vel1 vel2 w1 w2 : halo_history s1 v0 vel1 ve -> halo_history s2 v0 vel2 ve -> vnorm (vadd w1 vel1) = vnorm (vadd w2 vel2) ->
  PDF_Velocity s1 w1 = PDF_Velocity s2 w2.
Proof.
  intros H1 H2 E.
  destruct (history_domain _ _ _ _ H1) as (A1 & _ & A3 & A4 & A5 & _ & A7 & _). destruct (history_domain _ _ _ _ H2) as (B1 & _ & B3 & B4 & B5 & _ & B7 & _).
  unfold PDF_Velocity, PDF_Velocity_SHM. rewrite A5, B5, A1, A3, A4, A7, B1, B3, B4, B7, E, (vnorm_vdot _ _ E). reflexivity.
Qed.
Lemma direction_interface s1 s2 v0 ve vel1 vel2 : halo_history s1 v0 vel1 ve -> halo_history s2 v0 vel2 ve -> vnorm vel1 = vnorm vel2 -> h_rho s1 = h_rho s2 ->
  halo_interface s1 = halo_interface s2.
Proof.
  intros H1 H2 E R. destruct (direction_speeds s1 s2 v0 ve vel1 vel2 H1 H2 E) as (P & _ & T & D1 & D2).
  unfold halo_interface. rewrite R, D1, D2, (history_flag _ _ _ _ H1), (history_flag _ _ _ _ H2). f_equal; apply FunctionalExtensionality.functional_extensionality; intros v; [now rewrite P|now rewrite T].
Qed.
Lemma direction_rates Integrate I2 DM s1 s2 v0 ve vel1 vel2 : halo_history s1 v0 vel1 ve -> halo_history s2 v0 vel2 ve -> vnorm vel1 = vnorm vel2 -> h_rho s1 = h_rho s2 ->
  (forall n E, dRdER_Nucleus Integrate E DM (halo_interface s1) n = dRdER_Nucleus Integrate E DM (halo_interface s2) n) /\
  (forall a E, dRdEe_ER_atom Integrate E DM (halo_interface s1) a = dRdEe_ER_atom Integrate E DM (halo_interface s2) a) /\
  (forall a E, dRdEe_Migdal_atom Integrate I2 E DM (halo_interface s1) a = dRdEe_Migdal_atom Integrate I2 E DM (halo_interface s2) a) /\
  (forall c E, dRdEe_Crystal Integrate E DM (halo_interface s1) c = dRdEe_Crystal Integrate E DM (halo_interface s2) c) /\
  (forall c Q, R_Q_Crystal Integrate Q DM (halo_interface s1) c = R_Q_Crystal Integrate Q DM (halo_interface s2) c) /\
  (forall c Q, R_total_Crystal Integrate Q DM (halo_interface s1) c = R_total_Crystal Integrate Q DM (halo_interface s2) c).
Proof. intros H1 H2 E R. rewrite (direction_interface s1 s2 v0 ve vel1 vel2 H1 H2 E R). repeat split. Qed.

(** * Instance: motion in two different directions with the same speed. *)
Lemma norm500 : vnorm (V3 5 0 0) = 5.
Proof. unfold vnorm, vdot; cbn. replace (5 * 5 + 0 * 0 + 0 * 0) with (5 * 5) by ring. apply sqrt_square; lra. Qed.
Lemma direction_instance : exists s1 s2, halo_history s1 2 (V3 0 3 4) 6 /\ halo_history s2 2 (V3 5 0 0) 6 /\ vnorm (V3 0 3 4) = vnorm (V3 5 0 0) /\ h_rho s1 = h_rho s2 /\ h_velobs s1 <> h_velobs s2 /\
  vnorm (vadd (V3 0 0 1) (V3 0 3 4)) = vnorm (vadd (V3 0 0 3) (V3 5 0 0)).
Proof.
  destruct (step_ok (SHM_of_velocity 1 2 (V3 1 0 0) 6) (Set_Observer_Velocity (V3 0 3 4))) as [s1 E1].
  exists s1, (SHM_of_velocity 1 2 (V3 5 0 0) 6).
  assert (H1 : halo_history s1 2 (V3 0 3 4) 6) by (eapply hh_set_vel; [apply hh_velocity|exact E1]).
  split; [exact H1|]. split; [apply hh_velocity|]. split; [rewrite norm345, norm500; reflexivity|]. split; [apply step_flag in E1; destruct E1 as [_ ->]; reflexivity|].
  split.
  - destruct (history_domain _ _ _ _ H1) as (_ & _ & _ & _ & -> & _). cbn. intros K. injection K. intros. lra.
  - unfold vnorm, vdot, vadd; cbn. f_equal. ring.
Qed.
