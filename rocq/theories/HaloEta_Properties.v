(** Properties C86 - C88: tabulated eta functions and the default speed density. *)
From Coq Require Import Reals ZArith String Lra Lia.
From Coquelicot Require Import Coquelicot.
From Coq Require Import List.
From Verif Require Import Base XrFacts Quadrature Astronomy_Model Distribution_Model Interpolation Halo_Model Halo_Proofs HaloState_Proofs HaloFinal_Proofs
  Distribution_Proofs HaloEta_Proofs AverageHalo_Proofs.
Import ListNotations.
Local Open Scope R_scope.

(** C86: after any setters the eta function of the SHM++ is the mixture, with the current sausage fraction, of the eta function of the standard halo with the current parameters and of that of the pure sausage (the same object at fraction 1). *)
Theorem C86_mixture : forall I I2 J rho v0 vel ve e b l s0 s s1 x q, SHMpp_of_velocity I I2 rho v0 vel ve e b = Ok s0 -> pprun s0 l = Ok s -> ppstep s (Set_Eta 1) = Ok s1 ->
  0 < last_v0 v0 (base_ops l) -> 0 < last_vesc ve (base_ops l) ->
  (forall u, last_vel vel (base_ops l) u -> vnorm u <= last_vesc ve (base_ops l) /\ 0 <= x <= last_vesc ve (base_ops l) + vnorm u) ->
  Eta_Function_pp J s1 (Fin x) = Ok (Fin q) ->
  exists u r, last_vel vel (base_ops l) u /\
    Eta_Function_SHM (SHM_of_velocity rho (last_v0 v0 (base_ops l)) u (last_vesc ve (base_ops l))) (Fin x) = Fin r /\
    Eta_Function_pp J s (Fin x) = Ok (Fin ((1 - last_eta e l) * r + last_eta e l * q)).
Proof. exact history_mixture_eta. Qed.
Print Assumptions C86_mixture.

(** It is zero above the current maximum speed and refuses negative speeds. *)
Theorem C86_outside : forall I I2 J rho v0 vel ve e b l s0 s x, SHMpp_of_velocity I I2 rho v0 vel ve e b = Ok s0 -> pprun s0 l = Ok s ->
  (x < 0 -> Eta_Function_pp J s (Fin x) = Exit) /\
  ((forall u, last_vel vel (base_ops l) u -> last_vesc ve (base_ops l) + vnorm u < x) -> 0 <= x -> Eta_Function_pp J s (Fin x) = Ok (Fin 0)).
Proof. exact history_eta_outside. Qed.
Print Assumptions C86_outside.

(** The sausage part of a new object is, at each of the hundred speeds at which it is tabulated, the integral of the sausage speed density over the speed. *)
Theorem C86_sausage_integral : forall I I2 J rho v0 vel ve e b s s1 f k (q : R), ideal_quadrature I -> ideal_interpolation J -> 0 < v0 -> 0 < ve -> vnorm vel <= ve ->
  SHMpp_of_velocity I I2 rho v0 vel ve e b = Ok s -> ppstep s (Set_Eta 1) = Ok s1 ->
  (forall v, 0 < v <= ve + vnorm vel -> PDF_Speed_pp I2 s1 (Fin v) = Ok (Fin (f v))) ->
  (1 <= k <= 99)%nat -> let x := INR k * ((ve + vnorm vel) / 99) in
  is_RInt (fun v => f v / v) x (ve + vnorm vel) q -> Eta_Function_pp J s1 (Fin x) = Ok (Fin q).
Proof. exact sausage_eta_nodes. Qed.
Print Assumptions C86_sausage_integral.

Example C86_instance : exists I I2 J s0 s s1 q,
  SHMpp_of_velocity I I2 1 1 (V3 0 1 0) 2 (1/5) (9/10) = Ok s0 /\
  pprun s0 [Set_Beta (1/2); Set_Eta (1/3)] = Ok s /\ ppstep s (Set_Eta 1) = Ok s1 /\ vnorm (V3 0 1 0) <= 2 /\
  Eta_Function_pp J s1 (Fin 1) = Ok (Fin q).
Proof. exact eta_mixture_instance. Qed.
(** A (made up) two dimensional quadrature giving a constant sausage density: the integral from node 33 of the table is ln 3. *)
Example C86_nodes_instance : exists I I2 J s s1 f, ideal_quadrature I /\ ideal_interpolation J /\
  SHMpp_of_velocity I I2 1 1 (V3 0 1 0) 2 (1/5) (9/10) = Ok s /\ ppstep s (Set_Eta 1) = Ok s1 /\ vnorm (V3 0 1 0) = 1 /\
  (forall v, 0 < v <= 2 + vnorm (V3 0 1 0) -> PDF_Speed_pp I2 s1 (Fin v) = Ok (Fin (f v))) /\
  INR 33 * ((2 + vnorm (V3 0 1 0)) / 99) = 1 /\ is_RInt (fun v => f v / v) 1 (2 + vnorm (V3 0 1 0)) (ln 3).
Proof. exact eta_nodes_instance. Qed.

(** C87: a distribution that only defines its velocity density gets the speed density 4 pi v^2 f(v) from the base class if the density is isotropic. *)
Theorem C87_isotropic : forall I2 pdf g v, ideal_quadrature_2D I2 -> 0 <= v -> (forall w, vnorm w = v -> pdf w = Fin (g v)) ->
  PDF_Speed_Base I2 pdf (Fin v) = Ok (Fin (4 * PI * v ^ 2 * g v)).
Proof. exact base_speed_isotropic. Qed.
Print Assumptions C87_isotropic.

(** If the density only depends on the speed and the angle with the polar axis, it is the integral over the cosine times 2 pi v^2. *)
Theorem C87_axial : forall I2 pdf f v p, ideal_quadrature_2D I2 ->
  (forall c phi, -1 <= c <= 1 -> pdf (Spherical_Coordinates v (acos c) phi) = Fin (f c)) ->
  is_RInt (fun c => 2 * PI * v ^ 2 * f c) (-1) 1 p -> PDF_Speed_Base I2 pdf (Fin v) = Ok (Fin p).
Proof. exact base_speed_axial. Qed.
Print Assumptions C87_axial.

(** For the standard halo the default agrees with the closed formula of the halo, for every direction of the observer and whatever setters were called before. *)
Theorem C87_standard_halo : forall I2 s v0 vel ve v, ideal_quadrature_2D I2 -> halo_history s v0 vel ve -> 0 < v0 -> 0 < ve -> vnorm vel <= ve ->
  0 < v <= ve + vnorm vel -> PDF_Speed_Base I2 (PDF_Velocity s) (Fin v) = Ok (PDF_Speed_SHM s (Fin v)).
Proof. exact base_speed_any. Qed.
Print Assumptions C87_standard_halo.

Example C87_instance : ideal_quadrature_2D reference_quadrature_2D /\ (exists s, halo_history s 2 (V3 0 0 5) 6) /\
  (forall w, vnorm w = 3 -> Fin (exp (- (vnorm w))) = Fin ((fun x => exp (- x)) 3)).
Proof. exact base_speed_instance. Qed.
(** An observer moving at 3 in an oblique direction. *)
Example C87_oblique_instance : exists s, halo_history s 2 (V3 1 2 (-2)) 6 /\ vnorm (V3 1 2 (-2)) = 3.
Proof. destruct average_any_instance as (s & A & B & _). exists s. split; [exact A | exact B]. Qed.

(** C88: an imported speed density reproduces the table, stays between its smallest and largest value in between, and is zero outside. *)
Theorem C88_density : forall I J p r s, ideal_interpolation J -> increasing (p :: r) -> imported I J p r s ->
  let a := fst p in let b := fst (last r p) in
  (forall v, v < a \/ b < v -> Imported_PDF_Speed J s (Fin v) = Ok (Fin 0)) /\
  (forall q, In q (p :: r) -> Imported_PDF_Speed J s (Fin (fst q)) = Ok (snd q)) /\
  (forall lo hi v, (forall q, In q (p :: r) -> exists y, snd q = Fin y /\ lo <= y <= hi) -> a <= v <= b ->
     exists y, Imported_PDF_Speed J s (Fin v) = Ok (Fin y) /\ lo <= y <= hi).
Proof. exact imported_density. Qed.
Print Assumptions C88_density.

(** Its eta function refuses speeds below the table, is zero above it, is the integral of density over speed at its five hundred nodes, and in between lies between 0 and the integral over the whole table. *)
Theorem C88_eta : forall I J p r s f, ideal_quadrature I -> ideal_interpolation J -> increasing (p :: r) -> 0 < fst p < fst (last r p) -> imported I J p r s ->
  let a := fst p in let b := fst (last r p) in
  (forall x, x < a -> Imported_Eta_Function J s (Fin x) = Exit) /\
  (forall x, b < x -> Imported_Eta_Function J s (Fin x) = Ok (Fin 0)) /\
  ((forall v, a <= v <= b -> Imported_PDF_Speed J s (Fin v) = Ok (Fin (f v))) ->
   (forall k (q : R), (k <= 499)%nat -> is_RInt (fun v => f v / v) (a + INR k * ((b - a) / 499)) b q ->
     Imported_Eta_Function J s (Fin (a + INR k * ((b - a) / 499))) = Ok (Fin q)) /\
   (forall (T : R) x, (forall v, a <= v <= b -> 0 <= f v) -> is_RInt (fun v => f v / v) a b T -> a <= x <= b ->
     exists y, Imported_Eta_Function J s (Fin x) = Ok (Fin y) /\ 0 <= y <= T)).
Proof. exact imported_eta. Qed.
Print Assumptions C88_eta.

Example C88_instance : exists I J s f T, ideal_quadrature I /\ ideal_interpolation J /\ increasing [(1, Fin (1/2)); (2, Fin (1/2)); (3, Fin (1/2))] /\
  imported I J (1, Fin (1/2)) [(2, Fin (1/2)); (3, Fin (1/2))] s /\
  (forall v, 1 <= v <= 3 -> Imported_PDF_Speed J s (Fin v) = Ok (Fin (f v))) /\ is_RInt (fun v => f v / v) 1 3 T /\ T = ln 3 / 2.
Proof. exact imported_instance. Qed.
