(** What is assumed about the external numerical routines of libphysica. *)
From Coq Require Import Reals Lra.
From Coquelicot Require Import Coquelicot.
From Verif Require Import Base XrFacts Analysis.
Local Open Scope R_scope.

(** libphysica::Integrate(f, a, b) (external; called e.g. in /repo/src/DM_Particle.cpp:68), idealised: whenever the
    integrand evaluates to finite numbers g(x) on the closed interval and g is Riemann integrable, the result is the
    exact integral. Nothing is assumed otherwise. *)
Definition ideal_quadrature (Integrate : (xr -> res xr) -> xr -> xr -> res xr) : Prop :=
  forall f g a b, (forall x, Rmin a b <= x <= Rmax a b -> f (Fin x) = Ok (Fin (g x))) ->
    ex_RInt g a b -> Integrate f (Fin a) (Fin b) = Ok (Fin (RInt g a b)).

(** A function with that property exists (so theorems assuming it are not vacuous). *)
Definition reference_Integrate (f : xr -> res xr) (a b : xr) : res xr :=
  Ok (Fin (RInt (fun x => match f (Fin x) with Ok (Fin y) => y | _ => 0 end) (val a) (val b))).

Lemma ideal_quadrature_exists : ideal_quadrature reference_Integrate.
Proof.
  intros f g a b Hf Hg. unfold reference_Integrate; cbn [val]. do 2 f_equal.
  apply RInt_ext. intros x Hx. rewrite Hf by lra. reflexivity.
Qed.

(** libphysica::Find_Root(f, a, b, eps) (external; called e.g. in /repo/src/DM_Particle.cpp:185), idealised: for a function
    that is finite and continuous on [a, b] with a sign change it returns an exact root in [a, b]. *)
Definition ideal_root_finder (Find_Root : (xr -> res xr) -> xr -> xr -> res xr) : Prop :=
  forall f g a b, a < b -> (forall x, a <= x <= b -> f (Fin x) = Ok (Fin (g x))) ->
    (forall x, a <= x <= b -> continuous g x) -> g a * g b <= 0 ->
    exists r, Find_Root f (Fin a) (Fin b) = Ok (Fin r) /\ a <= r <= b /\ g r = 0.

(** A function with that property exists: the smallest zero. *)
Definition reference_Find_Root (f : xr -> res xr) (a b : xr) : res xr :=
  match Glb_Rbar (fun x => val a <= x <= val b /\ f (Fin x) = Ok (Fin 0)) with
  | Finite r => Ok (Fin r)
  | _ => Exit
  end.

Lemma ideal_root_finder_exists : ideal_root_finder reference_Find_Root.
Proof.
  intros f g a b Hab Hf Hc Hs. unfold reference_Find_Root; cbn [val].
  destruct (first_zero (fun x => a <= x <= b /\ f (Fin x) = Ok (Fin 0)) g a b Hab Hc Hs) as [r [E [Hr Hz]]].
  - intros x; split; intros [H1 H2]; split; auto.
    + rewrite Hf in H2 by auto. injection H2; auto.
    + rewrite Hf, H2; auto.
  - rewrite E. exists r; auto.
Qed.
