(** The error functions used by the halo models. *)
From Coq Require Import Reals Lra Psatz.
From Coquelicot Require Import Coquelicot.
From Verif Require Import Base Analysis.
Local Open Scope R_scope.

(** C [erf] (e.g. /repo/src/DM_Halo_Models.cpp:80) on finite arguments: 2/sqrt(pi) times the integral of exp(-t^2). *)
Definition erf (x : R) : R := 2 / sqrt PI * RInt (fun t => exp (- (t * t))) 0 x.

(** libphysica::Erfi (external; /repo/src/DM_Halo_Models.cpp:187): 2/sqrt(pi) times the integral of exp(t^2). *)
Definition erfi (x : R) : R := 2 / sqrt PI * RInt (fun t => exp (t * t)) 0 x.

Lemma sqrt_PI_pos : 0 < sqrt PI.
Proof. apply sqrt_lt_R0, PI_RGT_0. Qed.
Lemma sqrt_PI_sq : sqrt PI * sqrt PI = PI.
Proof. apply sqrt_sqrt. left; apply PI_RGT_0. Qed.

Lemma gauss_continuous x : continuous (fun t => exp (- (t * t))) x.
Proof. apply continuous_of_ex_derive. auto_derive. auto. Qed.
Lemma igauss_continuous x : continuous (fun t => exp (t * t)) x.
Proof. apply continuous_of_ex_derive. auto_derive. auto. Qed.

Lemma RInt_derive_all (f : R -> R) a x : (forall y, continuous f y) -> is_derive (fun y => RInt f a y) x (f x).
Proof.
  intros C. apply (is_derive_RInt f (fun y => RInt f a y) a).
  - apply filter_forall. intros y. apply (RInt_correct (V := R_CompleteNormedModule)). apply (ex_RInt_continuous (V := R_CompleteNormedModule)). intros; apply C.
  - apply C.
Qed.

Lemma erf_derive x : is_derive erf x (2 / sqrt PI * exp (- (x * x))).
Proof.
  unfold erf. assert (h := RInt_derive_all _ 0 x gauss_continuous).
  apply (is_derive_scal (fun y => RInt (fun t => exp (- (t * t))) 0 y) x (2 / sqrt PI)). exact h.
Qed.
Lemma erfi_derive x : is_derive erfi x (2 / sqrt PI * exp (x * x)).
Proof.
  unfold erfi. assert (h := RInt_derive_all _ 0 x igauss_continuous).
  apply (is_derive_scal (fun y => RInt (fun t => exp (t * t)) 0 y) x (2 / sqrt PI)). exact h.
Qed.
Lemma erf_ex_derive x : ex_derive erf x. Proof. eexists; apply erf_derive. Qed.
Lemma erfi_ex_derive x : ex_derive erfi x. Proof. eexists; apply erfi_derive. Qed.
Lemma Derive_erf x : Derive erf x = 2 / sqrt PI * exp (- (x * x)).
Proof. apply is_derive_unique, erf_derive. Qed.
Lemma Derive_erfi x : Derive erfi x = 2 / sqrt PI * exp (x * x).
Proof. apply is_derive_unique, erfi_derive. Qed.
Lemma erf_0 : erf 0 = 0.
Proof. unfold erf. rewrite RInt_point_R. ring. Qed.
Lemma erfi_0 : erfi 0 = 0.
Proof. unfold erfi. rewrite RInt_point_R. ring. Qed.

(** A function with derivative 0 everywhere is constant. *)
Lemma derive_zero_const (g : R -> R) : (forall x, is_derive g x 0) -> forall x, g x = g 0.
Proof.
  intros H x. destruct (MVT_gen g 0 x (fun _ => 0)) as [c [_ E]].
  - intros; apply H.
  - intros y _. apply continuity_pt_filterlim. apply continuous_of_ex_derive. eexists; apply H.
  - lra.
Qed.

Lemma erf_odd x : erf (- x) = - erf x.
Proof.
  assert (E := derive_zero_const (fun y => erf (- y) + erf y)). cbn beta in E.
  assert (H : forall x, is_derive (fun y => erf (- y) + erf y) x 0).
  { intros y. auto_derive; [split; [apply erf_ex_derive|split; [apply erf_ex_derive|auto]]|].
    change (fun x => erf x) with erf. rewrite !Derive_erf.
    replace (- y * - y) with (y * y) by ring. ring. }
  specialize (E H x). rewrite Ropp_0, erf_0 in E. lra.
Qed.

(** Strict monotonicity from a positive derivative. *)
Lemma derive_increasing (g g' : R -> R) a b : a < b ->
  (forall x, a <= x <= b -> is_derive g x (g' x)) -> (forall x, a < x < b -> 0 < g' x) -> g a < g b.
Proof.
  intros Hab D P. destruct (MVT_cor2 g g' a b Hab) as [c [E Hc]].
  - intros c Hc. apply is_derive_Reals, D; auto.
  - specialize (P c Hc). assert (0 < g' c * (b - a)) by (apply Rmult_lt_0_compat; lra). lra.
Qed.

Lemma erf_increasing a b : a < b -> erf a < erf b.
Proof.
  intros H. apply (derive_increasing erf (fun x => 2 / sqrt PI * exp (- (x * x)))); auto.
  - intros; apply erf_derive.
  - intros x _. assert (h := sqrt_PI_pos). apply Rmult_lt_0_compat; [|apply exp_pos].
    apply Rdiv_lt_0_compat; lra.
Qed.

(** erf x - 2 x / sqrt(pi) exp(-x^2), the mass of a truncated Gaussian in three dimensions. *)
Definition gauss3 (x : R) : R := erf x - 2 * x / sqrt PI * exp (- (x * x)).
Lemma gauss3_derive x : is_derive gauss3 x (4 * x * x / sqrt PI * exp (- (x * x))).
Proof.
  unfold gauss3. assert (h := sqrt_PI_pos). auto_derive; [repeat split; try apply erf_ex_derive; auto|].
  change (fun x => erf x) with erf. rewrite Derive_erf. field. lra.
Qed.
Lemma gauss3_0 : gauss3 0 = 0.
Proof. unfold gauss3. rewrite erf_0. unfold Rdiv. ring. Qed.
Lemma gauss3_pos x : 0 < x -> 0 < gauss3 x.
Proof.
  intros H. rewrite <- gauss3_0. apply (derive_increasing gauss3 (fun x => 4 * x * x / sqrt PI * exp (- (x * x)))); auto.
  - intros; apply gauss3_derive.
  - intros y Hy. assert (h := sqrt_PI_pos). apply Rmult_lt_0_compat; [|apply exp_pos].
    apply Rdiv_lt_0_compat; auto. nra.
Qed.
