(** C116: the standard halo and the direction of the observer's motion. *)
From Coq Require Import Reals ZArith String Lia Lra Bool.
From Coquelicot Require Import Coquelicot.
From Coq Require Import List.
From Verif Require Import Base XrFacts Quadrature Astronomy_Model Nucleus_Model Nuclear_Model Particle_Model CrossSection_Model Distribution_Model Halo_Model Atom_Model Crystal_Model Rates_Model
  Eta_Proofs Halo_Proofs HaloState_Proofs HaloFinal_Proofs FormulasHalo_Proofs Direction_Proofs.
Import ListNotations.
Local Open Scope R_scope.

(** C116: two standard halos, set up and changed by any histories of calls, that end with the same dispersion and escape velocity and with observers of the same speed in any directions have the same speed distribution, cumulative distribution, eta function and speed domain. *)
Theorem C116_speeds : forall s1 s2 v0 ve vel1 vel2, halo_history s1 v0 vel1 ve -> halo_history s2 v0 vel2 ve -> vnorm vel1 = vnorm vel2 ->
  (forall v, PDF_Speed_SHM s1 v = PDF_Speed_SHM s2 v) /\ (forall v, CDF_Speed_SHM s1 v = CDF_Speed_SHM s2 v) /\ (forall v, Eta_Function_SHM s1 v = Eta_Function_SHM s2 v) /\
  h_dmin s1 = h_dmin s2 /\ h_dmax s1 = h_dmax s2.
Proof. exact direction_speeds. Qed.
Print Assumptions C116_speeds.

(** C116: their velocity distributions agree at velocities of the same speed in the galactic frame, so they differ only by the observer's motion. *)
Theorem C116_velocities : forall s1 s2 v0 ve vel1 vel2 w1 w2, halo_history s1 v0 vel1 ve -> halo_history s2 v0 vel2 ve -> vnorm (vadd w1 vel1) = vnorm (vadd w2 vel2) ->
  PDF_Velocity s1 w1 = PDF_Velocity s2 w2.
Proof. exact direction_velocities. Qed.
Print Assumptions C116_velocities.

(** C116: with the same density all predicted rates agree: nuclear recoils, ionisation by electron recoils and by the Migdal effect, and electron-hole pairs in crystals. *)
Theorem C116_rates : forall Integrate I2 DM s1 s2 v0 ve vel1 vel2, halo_history s1 v0 vel1 ve -> halo_history s2 v0 vel2 ve -> vnorm vel1 = vnorm vel2 -> h_rho s1 = h_rho s2 ->
  (forall n E, dRdER_Nucleus Integrate E DM (halo_interface s1) n = dRdER_Nucleus Integrate E DM (halo_interface s2) n) /\
  (forall a E, dRdEe_ER_atom Integrate E DM (halo_interface s1) a = dRdEe_ER_atom Integrate E DM (halo_interface s2) a) /\
  (forall a E, dRdEe_Migdal_atom Integrate I2 E DM (halo_interface s1) a = dRdEe_Migdal_atom Integrate I2 E DM (halo_interface s2) a) /\
  (forall c E, dRdEe_Crystal Integrate E DM (halo_interface s1) c = dRdEe_Crystal Integrate E DM (halo_interface s2) c) /\
  (forall c Q, R_Q_Crystal Integrate Q DM (halo_interface s1) c = R_Q_Crystal Integrate Q DM (halo_interface s2) c) /\
  (forall c Q, R_total_Crystal Integrate Q DM (halo_interface s1) c = R_total_Crystal Integrate Q DM (halo_interface s2) c).
Proof. exact direction_rates. Qed.
Print Assumptions C116_rates.

Example C116_instance : exists s1 s2, halo_history s1 2 (V3 0 3 4) 6 /\ halo_history s2 2 (V3 5 0 0) 6 /\ vnorm (V3 0 3 4) = vnorm (V3 5 0 0) /\ h_rho s1 = h_rho s2 /\ h_velobs s1 <> h_velobs s2 /\
  vnorm (vadd (V3 0 0 1) (V3 0 3 4)) = vnorm (vadd (V3 0 0 3) (V3 5 0 0)).
Proof. exact direction_instance. Qed.
