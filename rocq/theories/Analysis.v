(** General analysis lemmas on top of Coquelicot. *)
From Coq Require Import Reals Lra Psatz.
From Coquelicot Require Import Coquelicot.
Local Open Scope R_scope.

(** Fundamental theorem of calculus, in the form used everywhere: F' = f on [a,b], f continuous there. *)
Lemma RInt_by_derive (F f : R -> R) a b : a <= b ->
  (forall x, a <= x <= b -> is_derive F x (f x)) -> (forall x, a <= x <= b -> continuous f x) ->
  is_RInt f a b (F b - F a).
Proof.
  intros Hab HF Hf. apply (is_RInt_derive F f); rewrite Rmin_left, Rmax_right by auto; auto.
Qed.

Lemma continuous_of_ex_derive (f : R -> R) x : ex_derive f x -> continuous f x.
Proof. exact (ex_derive_continuous (K := R_AbsRing) (V := R_NormedModule) f x). Qed.

(** Clamping to [a,b] makes a function continuous on [a,b] continuous everywhere. *)
Definition clamp (a b x : R) : R := Rmax a (Rmin b x).
Lemma clamp_in a b x : a <= b -> a <= clamp a b x <= b.
Proof.
  intros H; unfold clamp. split; [apply Rmax_l|]. apply Rmax_lub; auto. apply Rmin_l.
Qed.
Lemma clamp_id a b x : a <= x <= b -> clamp a b x = x.
Proof. intros H; unfold clamp. rewrite Rmin_right, Rmax_right; lra. Qed.
Lemma clamp_lipschitz a b x y : Rabs (clamp a b x - clamp a b y) <= Rabs (x - y).
Proof.
  unfold clamp, Rmax, Rmin.
  destruct (Rle_dec b x), (Rle_dec b y);
    repeat match goal with |- context [Rle_dec ?u ?v] => destruct (Rle_dec u v) end;
    unfold Rabs; repeat match goal with |- context [Rcase_abs ?u] => destruct (Rcase_abs u) end; lra.
Qed.
Lemma clamp_continuous a b x : continuous (clamp a b) x.
Proof.
  intros P [eps HP]. exists eps. intros y Hy. apply HP.
  unfold ball in *; simpl in *; unfold AbsRing_ball, abs, minus, plus, opp in *; simpl in *.
  eapply Rle_lt_trans; [|exact Hy]. replace (clamp a b y + - clamp a b x) with (clamp a b y - clamp a b x) by ring.
  replace (y + - x) with (y - x) by ring. apply clamp_lipschitz.
Qed.

Lemma IVT_interval (g : R -> R) a b : a < b -> (forall x, a <= x <= b -> continuous g x) -> g a * g b <= 0 ->
  exists r, a <= r <= b /\ g r = 0.
Proof.
  intros Hab Hc Hs.
  destruct (IVT_gen (fun x => g (clamp a b x)) a b 0) as [x [Hx E]].
  - intros x. apply continuity_pt_filterlim. apply (continuous_comp (clamp a b) g).
    + apply clamp_continuous.
    + apply Hc, clamp_in; lra.
  - rewrite !clamp_id by lra. unfold Rmin, Rmax. destruct (Rle_dec (g a) (g b)); split.
    + destruct (Rle_lt_dec (g a) 0); auto. exfalso. assert (0 < g a * g b) by (apply Rmult_lt_0_compat; lra). lra.
    + destruct (Rle_lt_dec 0 (g b)); auto. exfalso.
      assert (0 < (- g a) * (- g b)) by (apply Rmult_lt_0_compat; lra). lra.
    + destruct (Rle_lt_dec (g b) 0); auto. exfalso. assert (0 < g a * g b) by (apply Rmult_lt_0_compat; lra). lra.
    + destruct (Rle_lt_dec 0 (g a)); auto. exfalso.
      assert (0 < (- g a) * (- g b)) by (apply Rmult_lt_0_compat; lra). lra.
  - rewrite Rmin_left, Rmax_right in Hx by lra. rewrite clamp_id in E by auto. exists x; auto.
Qed.

(** The infimum of the zeros is a zero. *)
Lemma first_zero (Z : R -> Prop) (g : R -> R) a b : a < b -> (forall x, a <= x <= b -> continuous g x) -> g a * g b <= 0 ->
  (forall x, Z x <-> a <= x <= b /\ g x = 0) ->
  exists r, Glb_Rbar Z = Finite r /\ a <= r <= b /\ g r = 0.
Proof.
  intros Hab Hc Hs HZ. destruct (IVT_interval g a b Hab Hc Hs) as [x0 [Hx0 E0]].
  destruct (Glb_Rbar_correct Z) as [Hlb Hglb]. set (l := Glb_Rbar Z) in *.
  assert (La : Rbar_le a l). { apply Hglb. intros x Hx. apply HZ in Hx; simpl; lra. }
  assert (Lx : Rbar_le l x0). { apply Hlb, HZ; auto. }
  destruct l as [r| |]; simpl in La, Lx; try contradiction.
  exists r. split; auto. assert (Hr : a <= r <= b) by lra. split; auto.
  destruct (Req_dec (g r) 0) as [|N]; auto. exfalso.
  (* g is non-zero near r *)
  assert (Hcr := Hc r Hr).
  assert (Hpos : 0 < Rabs (g r)) by (apply Rabs_pos_lt; auto).
  destruct (Hcr (fun y => Rabs (y - g r) < Rabs (g r))) as [d Hd].
  { exists (mkposreal _ Hpos). intros y Hy. unfold ball in Hy; simpl in Hy; unfold AbsRing_ball, abs, minus, plus, opp in Hy; simpl in Hy. exact Hy. }
  assert (Hlow : Rbar_le (Finite (r + d)) (Finite r)).
  { apply Hglb. intros x Hx. simpl. destruct (Rle_lt_dec (r + d) x) as [|L]; auto. exfalso.
    assert (Hx' := Hx). apply HZ in Hx as [Hx E]. assert (r <= x) by (apply Hlb in Hx'; simpl in Hx'; auto).
    assert (B : Rabs (g x - g r) < Rabs (g r)).
    { apply Hd. unfold ball; simpl; unfold AbsRing_ball, abs, minus, plus, opp; simpl.
      replace (x + - r) with (x - r) by ring. rewrite Rabs_pos_eq by lra. lra. }
    rewrite E in B. replace (0 - g r) with (- g r) in B by ring. rewrite Rabs_Ropp in B. lra. }
  simpl in Hlow. destruct d as [d Hd0]; simpl in *. lra.
Qed.

Lemma ex_RInt_sub (f : R -> R) a b x y : a <= x -> x <= y -> y <= b -> ex_RInt f a b -> ex_RInt f x y.
Proof.
  intros H1 H2 H3 H. apply (ex_RInt_Chasles_2 f a x y); [lra|]. apply (ex_RInt_Chasles_1 f a y b); [lra|auto].
Qed.

Lemma is_RInt_zero (f : R -> R) a b : (forall x, Rmin a b < x < Rmax a b -> f x = 0) -> is_RInt f a b 0.
Proof.
  intros H. apply (is_RInt_ext (fun _ => 0)); [intros; symmetry; auto|].
  assert (C := is_RInt_const (V := R_NormedModule) a b 0). change (scal (b - a) 0) with ((b - a) * 0) in C.
  rewrite Rmult_0_r in C. exact C.
Qed.


(** The integral with variable upper end is continuous (as a function on the whole line). *)
Lemma RInt_continuous_ext (f : R -> R) a b : a <= b -> ex_RInt f a b ->
  exists G, (forall x, a <= x <= b -> is_RInt f a x (G x)) /\ forall x, continuous G x.
Proof.
  intros Hab Hf.
  set (e := fun x => if Rle_dec a x then if Rle_dec x b then f x else 0 else 0).
  assert (Ein : forall x, a <= x <= b -> e x = f x).
  { intros x Hx. unfold e. destruct (Rle_dec a x); [|lra]. destruct (Rle_dec x b); [auto|lra]. }
  assert (HG : forall x, ex_RInt e a x).
  { intros x. destruct (Rle_lt_dec a x) as [L|L].
    - destruct (Rle_lt_dec x b) as [L2|L2].
      + apply (ex_RInt_ext f); [intros y Hy; rewrite Rmin_left, Rmax_right in Hy by lra; symmetry; apply Ein; lra|].
        apply (ex_RInt_sub f a b); auto; lra.
      + apply (ex_RInt_Chasles e a b x).
        * apply (ex_RInt_ext f); [intros y Hy; rewrite Rmin_left, Rmax_right in Hy by lra; symmetry; apply Ein; lra|auto].
        * exists 0. apply is_RInt_zero. intros y Hy. rewrite Rmin_left, Rmax_right in Hy by lra. unfold e.
          destruct (Rle_dec a y); auto. destruct (Rle_dec y b); auto; lra.
    - exists 0. apply is_RInt_zero. intros y Hy. rewrite Rmin_right, Rmax_left in Hy by lra. unfold e.
      destruct (Rle_dec a y); auto; lra. }
  exists (fun x => RInt e a x). split.
  - intros x Hx. apply (is_RInt_ext e).
    + intros y Hy. rewrite Rmin_left, Rmax_right in Hy by lra. apply Ein; lra.
    + apply (RInt_correct e); auto.
  - intros x. apply (continuous_RInt_1 e a x). exists (mkposreal 1 Rlt_0_1). intros y _. apply (RInt_correct e); auto.
Qed.

(** The integral of a non-negative function grows with the upper end. *)
Lemma RInt_monotone (f : R -> R) a b x y Gx Gy : a <= x -> x <= y -> y <= b -> ex_RInt f a b ->
  (forall t, a <= t <= b -> 0 <= f t) -> is_RInt f a x Gx -> is_RInt f a y Gy -> 0 <= Gx /\ Gx <= Gy.
Proof.
  intros H1 H2 H3 Hf Hp HGx HGy.
  assert (I1 : ex_RInt f x y) by (apply (ex_RInt_sub f a b); auto).
  assert (C := is_RInt_Chasles f a x y Gx (RInt f x y) HGx (RInt_correct f x y I1)).
  change (is_RInt f a y (Gx + RInt f x y)) in C.
  assert (E : Gx + RInt f x y = Gy) by (rewrite <- (is_RInt_unique f a y _ C), <- (is_RInt_unique f a y _ HGy); auto).
  assert (0 <= RInt f x y) by (apply RInt_ge_0; auto; intros; apply Hp; lra).
  assert (0 <= RInt f a x) by (apply RInt_ge_0; auto; [exists Gx; auto|intros; apply Hp; lra]).
  rewrite (is_RInt_unique f a x _ HGx) in *. lra.
Qed.

Lemma RInt_point_R (f : R -> R) a : RInt f a a = 0.
Proof. exact (RInt_point a f). Qed.
