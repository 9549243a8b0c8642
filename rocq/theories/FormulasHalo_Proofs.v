(** The two rate formulas for library particles in the standard halo and in any speed distribution (C55, C71). *)
From Coq Require Import Reals ZArith String Lia Lra Bool.
From Coquelicot Require Import Coquelicot.
From Coq Require Import List.
From Verif Require Import Base XrFacts Quadrature Astronomy_Model Nucleus_Model Nuclear_Model Particle_Model CrossSection_Model CrossSection_Proofs Distribution_Model Distribution_Proofs Halo_Model Atom_Model Crystal_Model Rates_Model
  Kinematics_Proofs Eta_Proofs HaloState_Proofs HaloFinal_Proofs Detector_Model DetectorTypes_Model DetectorBins_Proofs Formulas_Proofs.
Import ListNotations.
Local Open Scope R_scope.

(** A standard halo as the rate functions see it: DM_Distribution members and the overriding functions PDF_Speed and Eta_Function,
    /repo/src/DM_Halo_Models.cpp:124-127,153-156. *)
Definition halo_interface (s : SHM) : Distr_interface :=
  mkDistr (h_rho s) (h_dmin s) (h_dmax s) (h_use_eta s) (fun v => Ok (PDF_Speed_SHM s v)) (fun v => Ok (Eta_Function_SHM s v)).
(** Any distribution with the inherited eta function, /repo/include/obscura/DM_Distribution.hpp:47 and /repo/src/DM_Distribution.cpp:121-139. *)
Definition inherited_interface (Integrate : integrator) (rho : xr) (pdf : xr -> res xr) (dmin dmax : xr) : Distr_interface :=
  mkDistr rho dmin dmax true pdf (Eta_Function_Base Integrate pdf dmin dmax).

Lemma halo_mean_inverse s rho v0 vel ve : halo_history s v0 vel ve -> 0 < v0 -> 0 < ve -> vnorm vel <= ve -> (vnorm vel = 0 \/ eps8 * v0 <= vnorm vel) -> h_rho s = Fin rho ->
  exists f, (forall v, PDF_Speed_SHM s (Fin v) = Fin (f v)) /\ mean_inverse (halo_interface s) f rho (ve + vnorm vel) 0 (ve + vnorm vel - eps8 * v0).
Proof.
  intros H H0 He Ho Hs R. destruct (history_eta s v0 vel ve H H0 He Ho) as (f & E & F & G & _ & _ & K). destruct (K Hs) as [K1 _]. exists f. split; auto.
  destruct (history_domain s v0 vel ve H) as (_ & DM & _). unfold mean_inverse, halo_interface. cbn [d_rho d_vmax d_pdf_speed d_eta]. split; auto. split; auto. split; [intros v _; rewrite F; auto|].
  intros x X0 X1 _. exists (E x). split; [rewrite G by lra; auto|]. apply K1. lra.
Qed.
Lemma inherited_mean_inverse Integrate rho pdf f a b : ideal_quadrature Integrate -> speed_density pdf f a b -> (forall v, 0 < v < a -> pdf (Fin v) = Ok (Fin (f v))) ->
  mean_inverse (inherited_interface Integrate (Fin rho) pdf (Fin a) (Fin b)) f rho b a b.
Proof.
  intros Q S L. destruct (generic_eta Integrate pdf f a b Q S) as (E & G & _ & _ & K & _). unfold mean_inverse, inherited_interface. cbn [d_rho d_vmax d_pdf_speed d_eta]. split; auto. split; auto. split.
  - intros v V. destruct (Rlt_le_dec v a) as [LT | GE]; [apply L; lra|]. apply S. lra.
  - intros x X0 X1 _. exists (E x). split; [apply G; lra|]. apply K; lra.
Qed.

(** Cross sections of the library particles fall like 1/v^2 wherever they are finite. *)
Lemma library_inverse_square I2 p q t a : dSigma_dq2_Nucleus p q t (Fin (1 / 1000)) = Ok (Fin a) -> inverse_square (dm_dSigma_dq2_Nucleus (interface_of I2 p) q t) ((1 / 1000) ^ 2 * a).
Proof.
  intros H v Hv. cbn [dm_dSigma_dq2_Nucleus interface_of]. destruct (speed_scaling_nucleus p q t (1 / 1000) v a) as (b & B & E); auto; [lra|]. rewrite B. do 2 f_equal. rewrite E. field. lra.
Qed.

Lemma library_formulas Integrate I2 p n D f m fr rho vmax lo hi E : ideal_quadrature Integrate -> mean_inverse D f rho vmax lo hi -> d_use_eta D = true ->
  mass p = Fin m -> 0 < m -> fractional_density p = Fin fr -> use_eta p = true -> 0 < E ->
  (forall t, In t (nisotopes n) -> exists M a, imass t = Fin M /\ 0 < M /\ (vmax < vmin_R E m M \/ lo <= vmin_R E m M <= hi) /\ dSigma_dq2_Nucleus p (Fin (sqrt (2 * M * E))) t (Fin (1 / 1000)) = Ok (Fin a)) ->
  dRdER_Nucleus Integrate (Fin E) (switch_off (interface_of I2 p)) D n = dRdER_Nucleus Integrate (Fin E) (interface_of I2 p) D n /\
  dRdER_Nucleus Integrate (Fin E) (interface_of I2 p) (halo_off D) n = dRdER_Nucleus Integrate (Fin E) (interface_of I2 p) D n.
Proof.
  intros Q H U Em Hm Ef Up HE T. apply (formulas_nucleus Integrate (interface_of I2 p) D n m fr f rho vmax lo hi E); auto. intros t I. destruct (T t I) as (M & a & EM & HM & C & S). exists M, ((1 / 1000) ^ 2 * a). split; auto. split; auto. split; auto. apply library_inverse_square. exact S.
Qed.
