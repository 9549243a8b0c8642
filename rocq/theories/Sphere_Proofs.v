(** Integrals over the unit sphere in polar coordinates: invariance under rotations, for functions that jump along a circle. *)
From Coq Require Import Reals Lra Psatz.
From Coquelicot Require Import Coquelicot.
From Verif Require Import Analysis.
Local Open Scope R_scope.
Ltac req := match goal with |- @eq _ ?a ?b => change (@eq R a b) end.

(** * Squeezing *)
Lemma is_RInt_squeeze (f : R -> R) a b L : a <= b ->
  (forall eps : posreal, exists l h A B, is_RInt l a b A /\ is_RInt h a b B /\ (forall x, a < x < b -> l x <= f x <= h x) /\ L - eps <= A /\ B <= L + eps) ->
  is_RInt f a b L.
Proof.
  intros AB H. destruct (Req_dec a b) as [<- | N].
  { destruct (H (mkposreal 1 Rlt_0_1)) as (l & h & A & B & Il & Ih & _ & _ & _).
    assert (Z : L = 0).
    { apply Rle_antisym; apply Rnot_lt_le; intros Q.
      - destruct (H (mkposreal (L / 2) ltac:(lra))) as (l' & h' & A' & B' & Il' & Ih' & _ & E1 & E2). cbn [pos] in *.
        assert (h1 := is_RInt_unique _ _ _ _ Il'). rewrite RInt_point in h1. change (zero : R) with 0 in h1. lra.
      - destruct (H (mkposreal (- L / 2) ltac:(lra))) as (l' & h' & A' & B' & Il' & Ih' & _ & E1 & E2). cbn [pos] in *.
        assert (h1 := is_RInt_unique _ _ _ _ Ih'). rewrite RInt_point in h1. change (zero : R) with 0 in h1. lra. }
    rewrite Z. apply (is_RInt_point (V := R_NormedModule)). }
  assert (AB' : a < b) by lra. clear AB N.
  set (cut := fun (g : R -> R) x => if Rle_dec x a then 0 else if Rle_dec b x then 0 else g x).
  assert (CUT : forall g I, is_RInt g a b I <-> is_RInt (cut g) a b I).
  { intros g I. split; apply is_RInt_ext; intros x Hx; rewrite Rmin_left, Rmax_right in Hx by lra; unfold cut;
    destruct (Rle_dec x a); [lra| |lra|]; destruct (Rle_dec b x); try lra; reflexivity. }
  apply (CUT f L). unfold is_RInt. apply filterlim_locally. intros eps.
  assert (E2 : 0 < eps / 2) by (assert (P := cond_pos eps); lra).
  destruct (H (mkposreal _ E2)) as (l & h & A & B & Il & Ih & LE & EA & EB). cbn [pos] in *.
  apply (CUT l A) in Il. apply (CUT h B) in Ih. unfold is_RInt in Il, Ih.
  assert (Fl := proj1 (filterlim_locally _ _) Il (mkposreal _ E2)). assert (Fh := proj1 (filterlim_locally _ _) Ih (mkposreal _ E2)).
  cbn [pos] in *. assert (FF : Filter (Riemann_fine a b)) by typeclasses eauto.
  assert (FA := filter_and _ _ Fl Fh). clear Fl Fh Il Ih.
  unfold Riemann_fine, within in *. revert FA. apply filter_imp. intros ptd K Hp. destruct (K Hp) as [K1 K2]. clear K.
  assert (LE' : forall t, cut l t <= cut f t <= cut h t).
  { intros t. unfold cut. destruct (Rle_dec t a); [lra|]. destruct (Rle_dec b t); [lra|]. apply LE; lra. }
  assert (S1 := Riemann_sum_le (cut l) (cut f) ptd (proj1 Hp) (fun t _ => proj1 (LE' t))).
  assert (S2 := Riemann_sum_le (cut f) (cut h) ptd (proj1 Hp) (fun t _ => proj2 (LE' t))).
  rewrite sign_eq_1 in K1, K2 by lra. rewrite sign_eq_1 by lra.
  change (Rabs (1 * Riemann_sum (cut l) ptd - A) < eps / 2) in K1. change (Rabs (1 * Riemann_sum (cut h) ptd - B) < eps / 2) in K2.
  change (Rabs (1 * Riemann_sum (cut f) ptd - L) < eps).
  apply Rabs_lt_between in K1. apply Rabs_lt_between in K2. apply Rabs_lt_between. lra.
Qed.

(** * Integrals with a parameter *)
Lemma param_continuous (f : R -> R -> R) a b x : a <= b -> (forall u t, continuity_2d_pt f u t) -> continuous (fun u => RInt (f u) a b) x.
Proof.
  intros AB C. assert (X : forall u, ex_RInt (f u) a b).
  { intros u. apply (ex_RInt_continuous (V := R_CompleteNormedModule)). intros t _. apply continuity_pt_filterlim.
    intros eps He. destruct (C u t (mkposreal _ He)) as [d Hd]. exists d. split; [apply cond_pos|]. intros y [_ Hy]. apply Hd; auto. rewrite Rminus_eq_0, Rabs_R0. apply cond_pos. }
  apply filterlim_locally. intros eps. assert (E2 : 0 < eps / (b - a + 1)) by (apply Rdiv_lt_0_compat; [apply cond_pos|lra]).
  destruct (uniform_continuity_2d f (x - 1) (x + 1) a b (fun u t _ _ => C u t) (mkposreal _ E2)) as [d Hd]. cbn [pos] in Hd.
  assert (Dm : 0 < Rmin d 1) by (apply Rmin_pos; [apply cond_pos|lra]). exists (mkposreal _ Dm). intros y Hy.
  unfold ball in *; cbn in *; unfold AbsRing_ball, abs, minus, plus, opp in *; cbn in *.
  assert (Y1 := Rlt_le_trans _ _ _ Hy (Rmin_l _ _)). assert (Y2 := Rlt_le_trans _ _ _ Hy (Rmin_r _ _)). apply Rabs_lt_between in Y2.
  change (Rabs (RInt (f y) a b - RInt (f x) a b) < eps). assert (M := RInt_minus (V := R_CompleteNormedModule) (f y) (f x) a b (X y) (X x)).
  change (RInt (fun t => f y t - f x t) a b = RInt (f y) a b - RInt (f x) a b) in M. rewrite <- M.
  eapply Rle_lt_trans; [apply (abs_RInt_le_const (fun t => f y t - f x t) a b (eps / (b - a + 1)) AB)|].
  - apply (ex_RInt_minus (V := R_CompleteNormedModule)); auto.
  - intros t Ht. left. apply Hd; try lra; auto. rewrite Rminus_eq_0, Rabs_R0. apply cond_pos.
  - assert (P := cond_pos eps). replace ((b - a) * (eps / (b - a + 1))) with (eps - eps / (b - a + 1)) by (field; lra). lra.
Qed.

Lemma cont2_cont (f : R -> R -> R) u t : continuity_2d_pt f u t -> continuous (f u) t.
Proof.
  intros C. apply continuity_pt_filterlim. intros eps He. destruct (C (mkposreal _ He)) as [d Hd]. exists d. split; [apply cond_pos|].
  intros y [_ Hy]. apply Hd; auto. rewrite Rminus_eq_0, Rabs_R0. apply cond_pos.
Qed.
Lemma cont2_ex (f : R -> R -> R) u a b : (forall u t, continuity_2d_pt f u t) -> ex_RInt (f u) a b.
Proof. intros C. apply (ex_RInt_continuous (V := R_CompleteNormedModule)). intros t _. apply cont2_cont; auto. Qed.
Lemma cont_pt (f : R -> R) x : continuous f x -> continuity_pt f x.
Proof. intros H. apply continuity_pt_filterlim. exact H. Qed.

(** d/dx of the integral of P(x,t) over t, when the derivative [D] of P in x is jointly continuous. *)
Lemma param_derive (P D : R -> R -> R) a b x : a <= b -> (forall u t, continuity_2d_pt P u t) -> (forall u t, continuity_2d_pt D u t) ->
  (forall u t, is_derive (fun z => P z t) u (D u t)) -> is_derive (fun u => RInt (P u) a b) x (RInt (D x) a b).
Proof.
  intros AB CP CD H. assert (E : forall u t, Derive (fun z => P z t) u = D u t) by (intros; apply is_derive_unique, H).
  replace (RInt (D x) a b) with (RInt (fun t => Derive (fun u => P u t) x) a b) by (apply RInt_ext; intros; apply E).
  apply is_derive_RInt_param.
  - apply filter_forall. intros u t _. exists (D u t). apply H.
  - intros t _. apply (continuity_2d_pt_ext D); auto.
  - apply filter_forall. intros u. apply (cont2_ex P u); auto.
Qed.

Lemma cont2_of (h : R -> R) (g : R -> R -> R) u t : (forall x, continuous h x) -> continuity_2d_pt g u t -> continuity_2d_pt (fun x y => h (g x y)) u t.
Proof. intros H G. apply continuity_1d_2d_pt_comp; auto. apply cont_pt, H. Qed.
Lemma continuous_cos_all x : continuous cos x. Proof. apply continuous_of_ex_derive. auto_derive. auto. Qed.
Lemma continuous_sin_all x : continuous sin x. Proof. apply continuous_of_ex_derive. auto_derive. auto. Qed.
Lemma continuous_sqrt_all x : continuous sqrt x. Proof. exact (continuous_sqrt x). Qed.
Ltac c2 H := repeat first [match type of H with forall x, continuous ?h x => apply (cont2_of h); [exact H|] end | apply continuity_2d_pt_id1 | apply continuity_2d_pt_id2 | apply continuity_2d_pt_const | apply continuity_2d_pt_plus
  | apply continuity_2d_pt_minus | apply continuity_2d_pt_mult | apply continuity_2d_pt_opp
  | apply (cont2_of cos); [exact continuous_cos_all|] | apply (cont2_of sin); [exact continuous_sin_all|] | apply (cont2_of sqrt); [exact continuous_sqrt_all|]].

(** * The unit sphere, smooth functions *)
(** The scalar product of the direction at polar angle th and azimuth f with the direction at polar angle al and azimuth 0. *)
Definition W (al th f : R) : R := cos th * cos al + sin th * sin al * cos f.
Lemma W_bound al th f : -1 <= W al th f <= 1.
Proof.
  unfold W. assert (a := sin2_cos2 al). assert (b := sin2_cos2 th). assert (c := sin2_cos2 f). unfold Rsqr in *.
  assert (K : (cos th * cos al + sin th * sin al * cos f) * (cos th * cos al + sin th * sin al * cos f) <= 1).
  { assert (h1 := Rle_0_sqr (cos th * sin al * cos f - sin th * cos al)). assert (h2 := Rle_0_sqr (sin al * sin f)). unfold Rsqr in *.
    assert (h3 : cos f * cos f = 1 - sin f * sin f) by lra. assert (h4 : cos al * cos al = 1 - sin al * sin al) by lra. assert (h5 : cos th * cos th = 1 - sin th * sin th) by lra.
    assert (Q : 1 - (cos th * cos al + sin th * sin al * cos f) * (cos th * cos al + sin th * sin al * cos f) =
      (cos th * sin al * cos f - sin th * cos al) * (cos th * sin al * cos f - sin th * cos al) + sin al * sin f * (sin al * sin f)).
    { transitivity (1 - (cos th * cos th) * (cos al * cos al) - 2 * (cos th * cos al * sin th * sin al * cos f) - (sin th * sin th) * (sin al * sin al) * (cos f * cos f)); [ring|].
      transitivity ((cos th * cos th) * (sin al * sin al) * (cos f * cos f) + (sin th * sin th) * (cos al * cos al) - 2 * (cos th * cos al * sin th * sin al * cos f) + sin al * sin al * (sin f * sin f)); [|ring].
      rewrite h3, h4, h5. ring. }
    lra. }
  split; nra.
Qed.
(** The components along the directions of increasing polar angle and azimuth of the axis. *)
Definition E1 (al th f : R) : R := sin th * cos al * cos f - cos th * sin al.
Definition E2 (th f : R) : R := sin th * sin f.

Lemma gradient_zero (H h : R -> R) al : (forall x, is_derive H x (h x)) -> (forall x, continuous h x) ->
  is_RInt (fun th => RInt (fun f => sin th * (E1 al th f * h (W al th f))) 0 (2 * PI)) 0 PI 0.
Proof.
  intros DH Ch. assert (PP := PI_RGT_0). assert (CH : forall x, continuous H x) by (intros x; apply continuous_of_ex_derive; exists (h x); auto).
  set (P := fun th f => sin th * cos f * H (W al th f)).
  set (D := fun th f => cos th * cos f * H (W al th f) + sin th * cos f * (h (W al th f) * (- sin th * cos al + cos th * sin al * cos f))).
  assert (CP : forall u t, continuity_2d_pt P u t) by (intros; unfold P, W; c2 CH).
  assert (CD : forall u t, continuity_2d_pt D u t) by (intros; unfold D, W; c2 Ch; c2 CH).
  assert (DP : forall u t, is_derive (fun z => P z t) u (D u t)).
  { intros u t. unfold P, D.
    apply (is_derive_ext (fun z => sin z * cos t * H (W al z t))); [reflexivity|].
    assert (K := is_derive_mult (fun z => sin z * cos t) (fun z => H (W al z t)) u (cos u * cos t) (h (W al u t) * (- sin u * cos al + cos u * sin al * cos t))).
    unfold mult, plus in K; cbn in K. apply K.
    - auto_derive; auto. ring.
    - assert (K2 := is_derive_comp H (fun z => W al z t) u (h (W al u t)) (- sin u * cos al + cos u * sin al * cos t) (DH _)).
      unfold scal in K2; cbn in K2; unfold mult in K2; cbn in K2. rewrite Rmult_comm. apply K2. unfold W. auto_derive; auto. ring.
    - intros; apply Rmult_comm. }
  assert (Q := RInt_by_derive (fun th => RInt (P th) 0 (2 * PI)) (fun th => RInt (D th) 0 (2 * PI)) 0 PI ltac:(lra)
    (fun x _ => param_derive P D 0 (2 * PI) x ltac:(lra) CP CD DP) (fun x _ => param_continuous D 0 (2 * PI) x ltac:(lra) CD)).
  assert (Z : forall x, sin x = 0 -> RInt (P x) 0 (2 * PI) = 0).
  { intros x Hx. apply is_RInt_unique, is_RInt_zero. intros t _. unfold P. rewrite Hx. ring. }
  cbv beta in Q. rewrite (Z PI sin_PI), (Z 0 sin_0), Rminus_0_r in Q. apply (is_RInt_opp (V := R_NormedModule)) in Q.
  change (opp (0 : R_NormedModule)) with (- 0) in Q. rewrite Ropp_0 in Q. revert Q. apply is_RInt_ext. intros th _.
  symmetry. apply is_RInt_unique. change (opp (RInt (D th) 0 (2 * PI))) with (- RInt (D th) 0 (2 * PI)). rewrite <- (Rplus_0_r (- _)).
  apply (is_RInt_ext (fun f => - D th f + (cos th * cos f * H (W al th f) + cos th * sin f * (h (W al th f) * (- sin th * sin al * sin f))))).
  { intros f _. unfold D, E1. assert (c := sin2_cos2 f). unfold Rsqr in *. req.
    assert (S1 : sin f * sin f = 1 - cos f * cos f) by lra.
    transitivity (- (sin th * cos f * (h (W al th f) * (- sin th * cos al + cos th * sin al * cos f))) - cos th * sin th * sin al * h (W al th f) * (sin f * sin f)); [ring|].
    rewrite S1. ring. }
  apply (is_RInt_plus (V := R_NormedModule)).
  - apply (is_RInt_opp (V := R_NormedModule)). apply (RInt_correct (V := R_CompleteNormedModule)). apply (cont2_ex D); auto.
  - replace 0 with (cos th * sin (2 * PI) * H (W al th (2 * PI)) - cos th * sin 0 * H (W al th 0)) at 2 by (rewrite sin_2PI, sin_0; ring).
    apply (RInt_by_derive (fun f => cos th * sin f * H (W al th f))); [lra| |]; intros f _.
    + assert (K := is_derive_mult (fun z => cos th * sin z) (fun z => H (W al th z)) f (cos th * cos f) (h (W al th f) * (- sin th * sin al * sin f))).
      unfold mult, plus in K; cbn in K. apply K.
      * auto_derive; auto. ring.
      * assert (K2 := is_derive_comp H (fun z => W al th z) f (h (W al th f)) (- sin th * sin al * sin f) (DH _)).
        unfold scal in K2; cbn in K2; unfold mult in K2; cbn in K2. rewrite Rmult_comm. apply K2. unfold W. auto_derive; auto. ring.
      * intros; apply Rmult_comm.
    + apply (cont2_cont (fun th f => cos th * cos f * H (W al th f) + cos th * sin f * (h (W al th f) * (- sin th * sin al * sin f)))). unfold W. c2 Ch; c2 CH.
Qed.
Lemma azimuth_zero (H h : R -> R) a b : (forall x, is_derive H x (h x)) -> (forall x, continuous h x) ->
  is_RInt (fun f => sin f * h (a + b * cos f)) 0 (2 * PI) 0.
Proof.
  intros DH Ch. assert (PP := PI_RGT_0). destruct (Req_dec b 0) as [-> | B].
  - apply (is_RInt_ext (fun f => h a * sin f)); [intros f _; rewrite Rmult_0_l, Rplus_0_r; apply Rmult_comm|].
    replace 0 with (- h a * cos (2 * PI) - - h a * cos 0) at 2 by (rewrite cos_2PI, cos_0; ring).
    apply (RInt_by_derive (fun x => - h a * cos x)); [lra| |]; intros x _; [auto_derive; auto; ring|]. apply continuous_of_ex_derive. auto_derive. auto.
  - replace 0 with (- H (a + b * cos (2 * PI)) / b - - H (a + b * cos 0) / b) at 2 by (rewrite cos_2PI, cos_0; ring).
    apply (RInt_by_derive (fun f => - H (a + b * cos f) / b)); [lra| |]; intros f _.
    + assert (K2 := is_derive_comp H (fun z => a + b * cos z) f (h (a + b * cos f)) (- (b * sin f)) (DH _) ltac:(auto_derive; auto; ring)).
      unfold scal in K2; cbn in K2; unfold mult in K2; cbn in K2.
      assert (K3 := is_derive_scal (fun z => H (a + b * cos z)) f (- / b) _ K2).
      apply (is_derive_ext (fun z => - / b * H (a + b * cos z))); [intros; req; field; auto|].
      replace (sin f * h (a + b * cos f)) with (- / b * (- (b * sin f) * h (a + b * cos f))) by (field; auto). exact K3.
    + apply (cont2_cont (fun _ f => sin f * h (a + b * cos f)) 0). c2 Ch.
Qed.

Lemma bounded_on (f : R -> R) : (forall x, continuous f x) -> exists C, 0 <= C /\ forall x, -1 <= x <= 1 -> Rabs (f x) <= C.
Proof.
  intros Cf. destruct (continuity_ab_maj (fun x => Rabs (f x)) (-1) 1 ltac:(lra)) as (m & Hm & _).
  - intros c _. apply (continuity_pt_comp f Rabs); [apply cont_pt, Cf|]. apply Rcontinuity_abs.
  - exists (Rabs (f m)). split; [apply Rabs_pos|auto].
Qed.
Lemma E1_bound al th f : -1 <= E1 al th f <= 1.
Proof.
  assert (B := W_bound (PI / 2 + al) th f). unfold W in B. rewrite <- cos_sin in B. replace (cos (PI / 2 + al)) with (- sin al) in B by (rewrite sin_cos; ring).
  unfold E1. lra.
Qed.
Lemma E1_derive al th f : is_derive (fun a => W a th f) al (E1 al th f).
Proof. unfold W, E1. auto_derive; auto. ring. Qed.
Lemma E1_derive2 al th f : is_derive (fun a => E1 a th f) al (- W al th f).
Proof. unfold W, E1. auto_derive; auto. ring. Qed.
(** Twice continuously differentiable. *)
Definition smooth (K K1 K2 : R -> R) : Prop := (forall x, is_derive K x (K1 x)) /\ (forall x, is_derive K1 x (K2 x)) /\ (forall x, continuous K2 x).
Lemma smooth_cont K K1 K2 : smooth K K1 K2 -> (forall x, continuous K x) /\ (forall x, continuous K1 x).
Proof. intros (A & B & _). split; intros x; apply continuous_of_ex_derive; eexists; [apply A|apply B]. Qed.
Lemma second_order K K1 K2 : smooth K K1 K2 -> exists C, 0 <= C /\ forall a b th f,
  Rabs (K (W b th f) - K (W a th f) - (b - a) * (E1 a th f * K1 (W a th f))) <= C * ((b - a) * (b - a)).
Proof.
  intros S. assert (SC := smooth_cont _ _ _ S). destruct SC as [C0 C1]. destruct S as (D0 & D1 & C2).
  destruct (bounded_on K1 C1) as (A & A0 & HA). destruct (bounded_on K2 C2) as (B & B0 & HB). exists (A + B). split; [lra|]. intros a b th f.
  assert (F1 : forall x, is_derive (fun z => K (W z th f)) x (E1 x th f * K1 (W x th f))).
  { intros x. assert (Q := is_derive_comp K (fun z => W z th f) x _ _ (D0 _) (E1_derive x th f)). exact Q. }
  assert (F2 : forall x, is_derive (fun z => E1 z th f * K1 (W z th f)) x (- W x th f * K1 (W x th f) + E1 x th f * (E1 x th f * K2 (W x th f)))).
  { intros x. apply (is_derive_mult (fun z => E1 z th f) (fun z => K1 (W z th f)) x); [apply E1_derive2| |intros; apply Rmult_comm].
    exact (is_derive_comp K1 (fun z => W z th f) x _ _ (D1 _) (E1_derive x th f)). }
  destruct (MVT_gen (fun z => K (W z th f)) a b _ (fun x _ => F1 x)) as (c & Hc & Ec).
  { intros x _. apply cont_pt, continuous_of_ex_derive. eexists. apply F1. }
  destruct (MVT_gen (fun z => E1 z th f * K1 (W z th f)) a c _ (fun x _ => F2 x)) as (d & Hd & Ed).
  { intros x _. apply cont_pt, continuous_of_ex_derive. eexists. apply F2. }
  cbv beta in Ec, Ed. rewrite Ec.
  replace (E1 c th f * K1 (W c th f) * (b - a) - (b - a) * (E1 a th f * K1 (W a th f)))
    with ((E1 c th f * K1 (W c th f) - E1 a th f * K1 (W a th f)) * (b - a)) by ring. rewrite Ed.
  assert (M : Rabs (- W d th f * K1 (W d th f) + E1 d th f * (E1 d th f * K2 (W d th f))) <= A + B).
  { eapply Rle_trans; [apply Rabs_triang|]. rewrite !Rabs_mult, Rabs_Ropp. assert (w := W_bound d th f). assert (e := E1_bound d th f).
    assert (a1 := HA _ w). assert (b1 := HB _ w). assert (w1 : Rabs (W d th f) <= 1) by (apply Rabs_le; lra). assert (e1 : Rabs (E1 d th f) <= 1) by (apply Rabs_le; lra).
    assert (p1 := Rabs_pos (W d th f)). assert (p2 := Rabs_pos (E1 d th f)). assert (p3 := Rabs_pos (K1 (W d th f))). assert (p4 := Rabs_pos (K2 (W d th f))).
    apply Rplus_le_compat; [nra|]. apply Rle_trans with (1 * (1 * B)); [|lra]. apply Rmult_le_compat; auto; [nra|]. apply Rmult_le_compat; auto. }
  assert (L1 : Rabs (c - a) <= Rabs (b - a)).
  { unfold Rmin, Rmax in Hc. destruct (Rle_dec a b); [rewrite !Rabs_right by lra|rewrite !Rabs_left1 by lra]; lra. }
  rewrite !Rabs_mult. apply Rle_trans with ((A + B) * Rabs (b - a) * Rabs (b - a)).
  - apply Rmult_le_compat_r; [apply Rabs_pos|]. apply Rmult_le_compat; auto; apply Rabs_pos.
  - rewrite Rmult_assoc, <- Rabs_mult. apply Req_le. f_equal. apply Rabs_right. assert (q := Rle_0_sqr (b - a)). unfold Rsqr in q. lra.
Qed.

(** The integral over the sphere of a function of the angle to an axis does not depend on the axis. *)
Definition sphere (K : R -> R) (al : R) : R := RInt (fun th => RInt (fun f => sin th * K (W al th f)) 0 (2 * PI)) 0 PI.
Lemma inner_cont (K : R -> R) al : (forall x, continuous K x) -> forall u t, continuity_2d_pt (fun th f => sin th * K (W al th f)) u t.
Proof. intros C u t. unfold W. c2 C. Qed.
Lemma outer_ex (g : R -> R -> R) : (forall u t, continuity_2d_pt g u t) -> ex_RInt (fun th => RInt (g th) 0 (2 * PI)) 0 PI.
Proof. intros C. assert (PP := PI_RGT_0). apply (ex_RInt_continuous (V := R_CompleteNormedModule)). intros x _. apply param_continuous; auto. lra. Qed.
Lemma sphere_step K K1 K2 : smooth K K1 K2 -> exists C, 0 <= C /\ forall a b, Rabs (sphere K b - sphere K a) <= C * ((b - a) * (b - a)).
Proof.
  intros S. assert (PP := PI_RGT_0). assert (SC := smooth_cont _ _ _ S). destruct SC as [C0 C1].
  destruct (second_order _ _ _ S) as (C & P & HC). exists (2 * PI * PI * C). split; [apply Rmult_le_pos; nra|]. intros a b.
  assert (G := gradient_zero K K1 a (proj1 S) C1).
  set (g0 := fun th f => sin th * K (W a th f)). set (g1 := fun th f => sin th * K (W b th f)). set (g2 := fun th f => sin th * (E1 a th f * K1 (W a th f))).
  assert (c0 : forall u t, continuity_2d_pt g0 u t) by apply (inner_cont K a C0). assert (c1 : forall u t, continuity_2d_pt g1 u t) by apply (inner_cont K b C0).
  assert (c2' : forall u t, continuity_2d_pt g2 u t) by (intros u t; unfold g2, E1, W; c2 C1).
  assert (I0 := RInt_correct (V := R_CompleteNormedModule) _ _ _ (outer_ex g0 c0)). assert (I1 := RInt_correct (V := R_CompleteNormedModule) _ _ _ (outer_ex g1 c1)).
  fold g2 in G. change (RInt (fun th => RInt (g0 th) 0 (2 * PI)) 0 PI) with (sphere K a) in I0. change (RInt (fun th => RInt (g1 th) 0 (2 * PI)) 0 PI) with (sphere K b) in I1.
  assert (J := is_RInt_minus (V := R_NormedModule) _ _ _ _ _ _ (is_RInt_minus (V := R_NormedModule) _ _ _ _ _ _ I1 I0) (is_RInt_scal (V := R_NormedModule) _ _ _ (b - a) _ G)).
  change (is_RInt (fun th => (RInt (g1 th) 0 (2 * PI) - RInt (g0 th) 0 (2 * PI)) - (b - a) * RInt (g2 th) 0 (2 * PI)) 0 PI (sphere K b - sphere K a - (b - a) * 0)) in J.
  rewrite Rmult_0_r, Rminus_0_r in J. rewrite <- (is_RInt_unique _ _ _ _ J).
  eapply Rle_trans; [apply (abs_RInt_le_const _ 0 PI (2 * PI * (C * ((b - a) * (b - a))))); [lra|eexists; exact J|]|apply Req_le; ring].
  intros th Hth. assert (X0 := RInt_correct (V := R_CompleteNormedModule) _ _ _ (cont2_ex g0 th 0 (2 * PI) c0)).
  assert (X1 := RInt_correct (V := R_CompleteNormedModule) _ _ _ (cont2_ex g1 th 0 (2 * PI) c1)). assert (X2 := RInt_correct (V := R_CompleteNormedModule) _ _ _ (cont2_ex g2 th 0 (2 * PI) c2')).
  assert (Y := is_RInt_minus (V := R_NormedModule) _ _ _ _ _ _ (is_RInt_minus (V := R_NormedModule) _ _ _ _ _ _ X1 X0) (is_RInt_scal (V := R_NormedModule) _ _ _ (b - a) _ X2)).
  change (is_RInt (fun f => g1 th f - g0 th f - (b - a) * g2 th f) 0 (2 * PI) (RInt (g1 th) 0 (2 * PI) - RInt (g0 th) 0 (2 * PI) - (b - a) * RInt (g2 th) 0 (2 * PI))) in Y.
  rewrite <- (is_RInt_unique _ _ _ _ Y).
  eapply Rle_trans; [apply (abs_RInt_le_const _ 0 (2 * PI) (C * ((b - a) * (b - a)))); [lra|eexists; exact Y|]|apply Req_le; ring].
  intros f _. unfold g0, g1, g2. assert (Q := HC a b th f). set (X := K (W b th f) - K (W a th f) - (b - a) * (E1 a th f * K1 (W a th f))) in *.
  match goal with |- Rabs ?z <= _ => replace z with (sin th * X) by (unfold X; ring) end. rewrite Rabs_mult.
  assert (s1 : Rabs (sin th) <= 1) by (apply Rabs_le; assert (h := SIN_bound th); lra). assert (p1 := Rabs_pos X). assert (p2 := Rabs_pos (sin th)).
  apply Rle_trans with (1 * Rabs X); [|lra]. apply Rmult_le_compat_r; auto.
Qed.
Lemma sphere_const K K1 K2 al : smooth K K1 K2 -> sphere K al = sphere K 0.
Proof.
  intros S. destruct (sphere_step _ _ _ S) as (C & P & HC).
  assert (D : forall x, is_derive (sphere K) x 0).
  { intros x. apply is_derive_Reals. intros eps He. assert (Q : 0 < eps / (C + 1)) by (apply Rdiv_lt_0_compat; lra). exists (mkposreal _ Q). intros t Ht Lt. cbn [pos] in Lt.
    rewrite Rminus_0_r. unfold Rdiv. rewrite Rabs_mult, Rabs_inv. assert (H := HC x (x + t)). replace (x + t - x) with t in H by ring.
    assert (T := Rabs_pos_lt t Ht). apply Rle_lt_trans with (C * (Rabs t * Rabs t) * / Rabs t).
    - apply Rmult_le_compat_r; [left; apply Rinv_0_lt_compat; auto|]. rewrite <- Rabs_mult, (Rabs_right (t * t)); auto. assert (q := Rle_0_sqr t). unfold Rsqr in q. lra.
    - replace (C * (Rabs t * Rabs t) * / Rabs t) with (C * Rabs t) by (field; lra).
      apply Rle_lt_trans with ((C + 1) * Rabs t - Rabs t); [lra|]. assert (Z : (C + 1) * Rabs t < eps); [|lra].
      apply Rmult_lt_compat_l with (r := C + 1) in Lt; [|lra]. replace ((C + 1) * (eps / (C + 1))) with eps in Lt by (field; lra). exact Lt. }
  destruct (MVT_gen (sphere K) 0 al (fun _ => 0) (fun x _ => D x)) as (c & _ & E); [|lra].
  intros x _. apply cont_pt, continuous_of_ex_derive. exists 0. apply D.
Qed.

Lemma antiderivative (K : R -> R) : (forall x, continuous K x) -> exists H, forall x, is_derive H x (K x).
Proof.
  intros C. exists (fun x => RInt K 0 x). intros x. apply (is_derive_RInt (V := R_CompleteNormedModule) K _ 0); auto.
  apply filter_forall. intros y. apply (RInt_correct (V := R_CompleteNormedModule)). apply (ex_RInt_continuous (V := R_CompleteNormedModule)). auto.
Qed.
Lemma cosine_substitution (F : R -> R) L : (forall x, continuous F x) -> is_RInt (fun th => sin th * F (cos th)) 0 PI L -> is_RInt F (-1) 1 L.
Proof.
  intros C H. assert (PP := PI_RGT_0).
  assert (Q := is_RInt_comp (V := R_CompleteNormedModule) F cos (fun x => - sin x) 0 PI (fun x _ => C _)).
  assert (D : forall x, Rmin 0 PI <= x <= Rmax 0 PI -> is_derive cos x (- sin x) /\ continuous (fun x => - sin x) x).
  { intros x _. split; [auto_derive; auto; ring|]. apply continuous_of_ex_derive. auto_derive. auto. }
  specialize (Q D). rewrite cos_0, cos_PI in Q.
  apply (is_RInt_opp (V := R_NormedModule)) in Q.
  assert (X : ex_RInt F (-1) 1) by (apply (ex_RInt_continuous (V := R_CompleteNormedModule)); auto).
  replace L with (RInt F (-1) 1); [apply (RInt_correct (V := R_CompleteNormedModule)); auto|].
  rewrite <- (is_RInt_unique _ _ _ _ H). symmetry. apply is_RInt_unique. revert Q.
  match goal with |- is_RInt _ _ _ ?z -> _ => replace z with (RInt F (-1) 1) end.
  - apply is_RInt_ext. intros x _. unfold scal; cbn; unfold mult, opp; cbn. req. ring.
  - rewrite <- (opp_RInt_swap F 1 (-1)) by (apply ex_RInt_swap; auto). reflexivity.
Qed.
Lemma sphere_axis (K : R -> R) : (forall x, continuous K x) -> sphere K 0 = 2 * PI * RInt K (-1) 1.
Proof.
  intros C. unfold sphere. assert (X : ex_RInt K (-1) 1) by (apply (ex_RInt_continuous (V := R_CompleteNormedModule)); auto).
  assert (E : forall th, RInt (fun f => sin th * K (W 0 th f)) 0 (2 * PI) = 2 * PI * (sin th * K (cos th))).
  { intros th. apply is_RInt_unique. apply (is_RInt_ext (fun _ => sin th * K (cos th))).
    - intros f _. unfold W. rewrite cos_0, sin_0. do 2 f_equal. req. ring.
    - assert (Q := is_RInt_const (V := R_NormedModule) 0 (2 * PI) (sin th * K (cos th))). unfold scal in Q; cbn in Q; unfold mult in Q; cbn in Q.
      rewrite Rminus_0_r in Q. exact Q. }
  rewrite (RInt_ext _ (fun th => 2 * PI * (sin th * K (cos th)))) by (intros; apply E).
  apply is_RInt_unique. apply (is_RInt_scal (V := R_NormedModule) (fun th => sin th * K (cos th)) 0 PI (2 * PI)).
  assert (Y : ex_RInt (fun th => sin th * K (cos th)) 0 PI).
  { apply (ex_RInt_continuous (V := R_CompleteNormedModule)). intros x _. apply (cont2_cont (fun _ x => sin x * K (cos x)) 0). c2 C. }
  destruct Y as [l Hl]. rewrite (is_RInt_unique _ _ _ _ (cosine_substitution K l C Hl)). exact Hl.
Qed.

(** The same in terms of the cosine of the polar angle. *)
Definition w (al c f : R) : R := c * cos al + sqrt (1 - c * c) * sin al * cos f.
Definition e1 (al c f : R) : R := sqrt (1 - c * c) * cos al * cos f - c * sin al.
Definition e2 (c f : R) : R := sqrt (1 - c * c) * sin f.
Definition weight (a0 a1 a2 a3 al c f : R) : R := a0 + a1 * w al c f + a2 * e1 al c f + a3 * e2 c f.
Lemma sin_of_cos th : 0 <= th <= PI -> sqrt (1 - cos th * cos th) = sin th.
Proof.
  intros H. assert (a := sin2_cos2 th). unfold Rsqr in a. replace (1 - cos th * cos th) with (sin th * sin th) by lra. apply sqrt_square. apply sin_ge_0; lra.
Qed.
Lemma smooth_line K K1 K2 a b : smooth K K1 K2 -> smooth (fun t => (a + b * t) * K t) (fun t => b * K t + (a + b * t) * K1 t) (fun t => b * K1 t + (b * K1 t + (a + b * t) * K2 t)).
Proof.
  intros S. assert (SC := smooth_cont _ _ _ S). destruct SC as [C0 C1]. destruct S as (D0 & D1 & C2). split; [|split]; intros x.
  - apply (is_derive_mult (fun t => a + b * t) K x b (K1 x)); [auto_derive; auto; ring|auto|intros; apply Rmult_comm].
  - apply (is_derive_plus (K := R_AbsRing) (V := R_NormedModule) (fun t => b * K t) (fun t => (a + b * t) * K1 t) x (b * K1 x) (b * K1 x + (a + b * x) * K2 x)).
    + apply (is_derive_scal K x b (K1 x)). auto.
    + apply (is_derive_mult (fun t => a + b * t) K1 x b (K2 x)); [auto_derive; auto; ring|auto|intros; apply Rmult_comm].
  - apply (cont2_cont (fun _ x => b * K1 x + (b * K1 x + (a + b * x) * K2 x)) 0). c2 C1; c2 C2.
Qed.
Lemma weighted_cont (K : R -> R) a0 a1 a2 a3 al : (forall x, continuous K x) -> forall u t, continuity_2d_pt (fun c f => weight a0 a1 a2 a3 al c f * K (w al c f)) u t.
Proof. intros C u t. unfold weight, w, e1, e2. c2 C. Qed.
Lemma smooth_sphere K K1 K2 a0 a1 a2 a3 al : smooth K K1 K2 ->
  is_RInt (fun c => RInt (fun f => weight a0 a1 a2 a3 al c f * K (w al c f)) 0 (2 * PI)) (-1) 1 (2 * PI * RInt (fun t => (a0 + a1 * t) * K t) (-1) 1).
Proof.
  intros S. assert (PP := PI_RGT_0). assert (SC := smooth_cont _ _ _ S). destruct SC as [C0 C1].
  assert (WC := weighted_cont K a0 a1 a2 a3 al C0).
  apply cosine_substitution. { intros x. apply (param_continuous (fun c f => weight a0 a1 a2 a3 al c f * K (w al c f))); auto. lra. }
  set (L := fun t => (a0 + a1 * t) * K t). assert (SL := smooth_line K K1 K2 a0 a1 S). fold L in SL. assert (CL := proj1 (smooth_cont _ _ _ SL)).
  rewrite <- (sphere_axis L CL), <- (sphere_const _ _ _ al SL).
  destruct (antiderivative K C0) as [H DH]. assert (G := gradient_zero H K al DH C0).
  assert (IL := RInt_correct (V := R_CompleteNormedModule) _ _ _ (outer_ex _ (inner_cont L al CL))).
  change (is_RInt (fun th => RInt (fun f => sin th * L (W al th f)) 0 (2 * PI)) 0 PI (sphere L al)) in IL.
  assert (J := is_RInt_plus (V := R_NormedModule) _ _ _ _ _ _ IL (is_RInt_scal (V := R_NormedModule) _ _ _ a2 _ G)).
  match type of J with is_RInt ?g _ _ _ => change (is_RInt g 0 PI (sphere L al + a2 * 0)) in J end. rewrite Rmult_0_r, Rplus_0_r in J.
  revert J. apply is_RInt_ext. intros th Hth. rewrite Rmin_left, Rmax_right in Hth by lra.
  set (g1 := fun f => sin th * L (W al th f)). set (g2 := fun f => sin th * (E1 al th f * K (W al th f))).
  assert (X1 : ex_RInt g1 0 (2 * PI)) by apply (cont2_ex _ th _ _ (inner_cont L al CL)).
  assert (X2 : ex_RInt g2 0 (2 * PI)) by (apply (cont2_ex (fun th f => sin th * (E1 al th f * K (W al th f))) th); intros u t; unfold E1, W; c2 C0).
  assert (A := azimuth_zero H K (cos th * cos al) (sin th * sin al) DH C0).
  symmetry. etransitivity; [symmetry; apply (RInt_scal (V := R_CompleteNormedModule) (fun f => weight a0 a1 a2 a3 al (cos th) f * K (w al (cos th) f)) 0 (2 * PI) (sin th)); apply (cont2_ex _ (cos th) _ _ WC)|].
  apply is_RInt_unique.
  assert (Y := is_RInt_plus (V := R_NormedModule) _ _ _ _ _ _ (is_RInt_plus (V := R_NormedModule) _ _ _ _ _ _ (RInt_correct (V := R_CompleteNormedModule) _ _ _ X1)
    (is_RInt_scal (V := R_NormedModule) _ _ _ a2 _ (RInt_correct (V := R_CompleteNormedModule) _ _ _ X2))) (is_RInt_scal (V := R_NormedModule) _ _ _ (a3 * (sin th * sin th)) _ A)).
  match type of Y with is_RInt ?g _ _ _ => change (is_RInt g 0 (2 * PI) (RInt g1 0 (2 * PI) + a2 * RInt g2 0 (2 * PI) + a3 * (sin th * sin th) * 0)) in Y end. rewrite Rmult_0_r, Rplus_0_r in Y.
  revert Y. apply is_RInt_ext. intros f _. unfold g1, g2, L, weight, w, e1, e2, W, E1, plus, scal; cbn; unfold mult; cbn. rewrite sin_of_cos by lra. req. ring.
Qed.

(** * Functions with a jump *)
Definition slope (A B E t : R) : R := A * exp (B + E * t).
Definition jump (T A B E t : R) : R := if Rlt_dec T t then 0 else slope A B E t.
Definition logistic (n T t : R) : R := / (1 + exp (n * (t - T))).
Definition soft (A B E n T eta t : R) : R := slope A B E t * (logistic n T t + eta).
Lemma logistic_range n T t : 0 < logistic n T t < 1.
Proof.
  unfold logistic. assert (P := exp_pos (n * (t - T))). split; [apply Rinv_0_lt_compat; lra|].
  rewrite <- Rinv_1 at 2. apply Rinv_lt_contravar; lra.
Qed.
Lemma smooth_product f f1 f2 g g1 g2 : smooth f f1 f2 -> smooth g g1 g2 ->
  smooth (fun t => f t * g t) (fun t => f1 t * g t + f t * g1 t) (fun t => (f2 t * g t + f1 t * g1 t) + (f1 t * g1 t + f t * g2 t)).
Proof.
  intros S S'. assert (SC := smooth_cont _ _ _ S). destruct SC as [C0 C1]. assert (SC' := smooth_cont _ _ _ S'). destruct SC' as [C0' C1'].
  destruct S as (D0 & D1 & C2). destruct S' as (D0' & D1' & C2'). split; [|split]; intros x.
  - apply (is_derive_mult f g x); auto. intros; apply Rmult_comm.
  - apply (is_derive_plus (K := R_AbsRing) (V := R_NormedModule) (fun t => f1 t * g t) (fun t => f t * g1 t) x);
    [apply (is_derive_mult f1 g x)|apply (is_derive_mult f g1 x)]; auto; intros; apply Rmult_comm.
  - apply (cont2_cont (fun _ t => (f2 t * g t + f1 t * g1 t) + (f1 t * g1 t + f t * g2 t)) 0). c2 C0; c2 C1; c2 C2; c2 C0'; c2 C1'; c2 C2'.
Qed.
Lemma slope_smooth A B E : smooth (slope A B E) (fun t => E * slope A B E t) (fun t => E * (E * slope A B E t)).
Proof. unfold slope. split; [|split]; intros x; [auto_derive; auto; ring|auto_derive; auto; ring|apply continuous_of_ex_derive; auto_derive; auto]. Qed.
Lemma logistic_smooth n T eta : smooth (fun t => logistic n T t + eta) (fun t => - n * exp (n * (t - T)) * / (1 + exp (n * (t - T))) * / (1 + exp (n * (t - T))))
  (fun t => - n * n * exp (n * (t - T)) / (1 + exp (n * (t - T))) / (1 + exp (n * (t - T)))
    + 2 * n * n * exp (n * (t - T)) * exp (n * (t - T)) / (1 + exp (n * (t - T))) / (1 + exp (n * (t - T))) / (1 + exp (n * (t - T)))).
Proof.
  assert (N : forall t, 1 + exp (n * (t - T)) <> 0) by (intros t; assert (P := exp_pos (n * (t - T))); lra).
  unfold logistic. split; [|split]; intros x; assert (Nx := N x).
  - auto_derive; auto. replace (x + - T) with (x - T) by ring. set (e := exp (n * (x - T))) in *. field. auto.
  - auto_derive; auto. replace (x + - T) with (x - T) by ring. set (e := exp (n * (x - T))) in *. field. auto.
  - apply continuous_of_ex_derive. auto_derive. repeat split; auto.
Qed.
Lemma soft_smooth A B E n T eta : exists K1 K2, smooth (soft A B E n T eta) K1 K2.
Proof. eexists _, _. unfold soft. apply smooth_product; [apply slope_smooth|apply logistic_smooth]. Qed.
Lemma slope_pos A B E t : 0 <= A -> 0 <= slope A B E t.
Proof. intros H. unfold slope. assert (P := exp_pos (B + E * t)). nra. Qed.
Lemma logistic_ends n d : 0 < n -> 0 < d -> (forall T t, t <= T -> 1 <= logistic n (T + d) t + / (1 + exp (n * d))) /\ (forall T t, T < t -> logistic n (T - d) t <= / (1 + exp (n * d))).
Proof.
  intros Hn Hd. assert (P := exp_pos (n * d)). split; intros T t Ht; unfold logistic; assert (Q := exp_pos).
  - assert (M : exp (n * (t - (T + d))) <= exp (- (n * d))). { destruct (Req_dec t T) as [-> | N]; [right; f_equal; ring|left; apply exp_increasing; nra]. }
    assert (I := Rinv_le_contravar (1 + exp (n * (t - (T + d)))) (1 + exp (- (n * d))) ltac:(assert (h := Q (n * (t - (T + d)))); lra) ltac:(lra)).
    replace 1 with (/ (1 + exp (- (n * d))) + / (1 + exp (n * d))) at 1; [lra|]. rewrite exp_Ropp. field. lra.
  - apply Rinv_le_contravar; [lra|]. assert (M : exp (n * d) < exp (n * (t - (T - d)))) by (apply exp_increasing; nra). lra.
Qed.
Lemma soft_bounds A B E n d T t : 0 <= A -> 0 < n -> 0 < d ->
  soft A B E n (T - d) (- / (1 + exp (n * d))) t <= jump T A B E t <= soft A B E n (T + d) (/ (1 + exp (n * d))) t.
Proof.
  intros HA Hn Hd. destruct (logistic_ends n d Hn Hd) as [L1 L2]. assert (P := slope_pos A B E t HA). assert (I : 0 < / (1 + exp (n * d))) by (apply Rinv_0_lt_compat; assert (h := exp_pos (n * d)); lra).
  assert (R1 := logistic_range n (T - d) t). assert (R2 := logistic_range n (T + d) t). unfold soft, jump. destruct (Rlt_dec T t) as [H | H].
  - assert (h := L2 T t H). split; nra.
  - assert (h := L1 T t ltac:(lra)). split; nra.
Qed.
Definition primitive (n T t : R) : R := t - ln (1 + exp (n * (t - T))) / n.
Lemma logistic_integral n T : 0 < n -> is_RInt (logistic n T) (-1) 1 (primitive n T 1 - primitive n T (-1)).
Proof.
  intros H. assert (P : forall x, 0 < 1 + exp (n * (x - T))) by (intros x; assert (h := exp_pos (n * (x - T))); lra). apply RInt_by_derive; [lra| |]; intros x _; assert (Px := P x).
  - unfold primitive, logistic. auto_derive; auto. replace (x + - T) with (x - T) by ring. set (e := exp (n * (x - T))) in *. field. split; lra.
  - unfold logistic. apply continuous_of_ex_derive. auto_derive. apply Rgt_not_eq. exact Px.
Qed.
Lemma logistic_gap n T d : 0 < n -> 0 < d -> (primitive n (T + d) 1 - primitive n (T + d) (-1)) - (primitive n (T - d) 1 - primitive n (T - d) (-1)) <= 2 * d.
Proof.
  intros Hn Hd. unfold primitive. set (l := fun x => ln (1 + exp (n * x))).
  assert (P : forall x, 0 < 1 + exp (n * x)) by (intros x; assert (h := exp_pos (n * x)); lra).
  assert (L1 : forall x, l (x + 2 * d) <= l x + n * (2 * d)).
  { intros x. unfold l. rewrite <- (ln_exp (n * (2 * d))), <- ln_mult by (auto using exp_pos). apply ln_le; auto. replace (n * (x + 2 * d)) with (n * x + n * (2 * d)) by ring. rewrite exp_plus.
    assert (1 <= exp (n * (2 * d))) by (rewrite <- exp_0 at 1; left; apply exp_increasing; nra). nra. }
  assert (L2 : forall x, l x <= l (x + 2 * d)). { intros x. unfold l. apply ln_le; auto. assert (exp (n * x) < exp (n * (x + 2 * d))) by (apply exp_increasing; nra). lra. }
  assert (a := L1 (1 - (T + d))). assert (b := L2 (-1 - (T + d))). unfold l in a, b.
  replace (1 - (T + d) + 2 * d) with (1 - (T - d)) in a by ring. replace (-1 - (T + d) + 2 * d) with (-1 - (T - d)) in b by ring.
  set (x1 := ln (1 + exp (n * (1 - (T - d))))) in *. set (x2 := ln (1 + exp (n * (1 - (T + d))))) in *.
  set (x3 := ln (1 + exp (n * (-1 - (T - d))))) in *. set (x4 := ln (1 + exp (n * (-1 - (T + d))))) in *.
  apply Rmult_le_reg_l with n; auto. replace (n * (1 - x2 / n - (-1 - x4 / n) - (1 - x1 / n - (-1 - x3 / n)))) with (x1 - x2 - (x3 - x4)) by (field; lra). lra.
Qed.

(** Integrability of functions made of two continuous pieces. *)
Lemma ex_RInt_piece (f g : R -> R) a b : a <= b -> (forall x, a < x < b -> f x = g x) -> (forall x, continuous g x) -> ex_RInt f a b.
Proof.
  intros AB E C. apply (ex_RInt_ext g); [|apply (ex_RInt_continuous (V := R_CompleteNormedModule)); auto].
  intros x Hx. rewrite Rmin_left, Rmax_right in Hx by lra. symmetry. auto.
Qed.
Lemma jump_ex T A B E a0 a1 : ex_RInt (fun t => (a0 + a1 * t) * jump T A B E t) (-1) 1.
Proof.
  set (m := clamp (-1) 1 T). assert (M : -1 <= m <= 1) by (apply clamp_in; lra).
  assert (CS := proj1 (smooth_cont _ _ _ (slope_smooth A B E))).
  apply ex_RInt_Chasles with m.
  - apply (ex_RInt_piece _ (fun t => (a0 + a1 * t) * slope A B E t)); [lra| |].
    + intros x Hx. unfold jump. destruct (Rlt_dec T x); [|reflexivity]. exfalso. unfold m, clamp, Rmax, Rmin in Hx. destruct (Rle_dec 1 T), (Rle_dec (-1) _); lra.
    + intros x. apply (cont2_cont (fun _ t => (a0 + a1 * t) * slope A B E t) 0). c2 CS.
  - apply (ex_RInt_piece _ (fun t => 0)); [lra| |intros; apply continuous_const].
    intros x Hx. unfold jump. destruct (Rlt_dec T x); [ring|]. exfalso. unfold m, clamp, Rmax, Rmin in Hx. destruct (Rle_dec 1 T), (Rle_dec (-1) _); lra.
Qed.
Lemma cos_lt_acos x f : -1 <= x <= 1 -> 0 <= f <= PI -> (x < cos f <-> f < acos x).
Proof.
  intros Hx Hf. assert (B := acos_bound x). split; intros H.
  - apply Rnot_le_lt. intros N. assert (Q : cos f <= cos (acos x)) by (apply cos_decr_1; lra). rewrite cos_acos in Q by lra. lra.
  - apply (cos_decreasing_1 f (acos x)) in H; try lra. rewrite cos_acos in H by lra. lra.
Qed.
Lemma cos_reflect f : cos (2 * PI - f) = cos f.
Proof. rewrite cos_minus, cos_2PI, sin_2PI. ring. Qed.
(** Along a circle of latitude. *)
Lemma circle_ex (p : R -> R) T A B E a b : 0 <= b -> (forall x, continuous p x) -> ex_RInt (fun f => p f * jump T A B E (a + b * cos f)) 0 (2 * PI).
Proof.
  intros Hb Cp. assert (PP := PI_RGT_0). assert (CS := proj1 (smooth_cont _ _ _ (slope_smooth A B E))).
  assert (CK : forall x, continuous (fun f => p f * slope A B E (a + b * cos f)) x).
  { intros x. apply (cont2_cont (fun _ f => p f * slope A B E (a + b * cos f)) 0). apply continuity_2d_pt_mult; [apply (cont2_of p (fun _ f => f)); auto; c2 Cp|c2 CS]. }
  assert (ALL : (forall f, a + b * cos f <= T) -> ex_RInt (fun f => p f * jump T A B E (a + b * cos f)) 0 (2 * PI)).
  { intros H. apply (ex_RInt_piece _ (fun f => p f * slope A B E (a + b * cos f))); [lra| |auto]. intros f _. unfold jump. destruct (Rlt_dec T _); [|reflexivity]. assert (h := H f). lra. }
  assert (NONE : (forall f, T < a + b * cos f) -> ex_RInt (fun f => p f * jump T A B E (a + b * cos f)) 0 (2 * PI)).
  { intros H. apply (ex_RInt_piece _ (fun f => 0)); [lra| |intros; apply continuous_const]. intros f _. unfold jump. destruct (Rlt_dec T _) as [_|n]; [ring|]. exfalso. apply n. auto. }
  destruct Hb as [Hb | <-].
  2:{ destruct (Rlt_dec T a); [apply NONE|apply ALL]; intros f; lra. }
  set (x := (T - a) / b). assert (X : forall f, T < a + b * cos f <-> x < cos f).
  { intros f. unfold x. split; intros H.
    - apply Rmult_lt_reg_l with b; auto. replace (b * ((T - a) / b)) with (T - a) by (field; lra). lra.
    - apply Rmult_lt_compat_l with (r := b) in H; auto. replace (b * ((T - a) / b)) with (T - a) in H by (field; lra). lra. }
  destruct (Rlt_dec x (-1)) as [L | L]. { apply NONE. intros f. apply X. assert (h := COS_bound f). lra. }
  destruct (Rlt_dec 1 x) as [L1 | L1]. { apply ALL. intros f. apply Rnot_lt_le. intros Q. apply X in Q. assert (h := COS_bound f). lra. }
  assert (Hx : -1 <= x <= 1) by lra. set (m := acos x). assert (M := acos_bound x). fold m in M.
  assert (IN : forall f, 0 <= f <= PI -> (T < a + b * cos f <-> f < m)) by (intros f Hf; rewrite X; apply cos_lt_acos; auto).
  assert (OUT : forall f, PI <= f <= 2 * PI -> (T < a + b * cos f <-> 2 * PI - m < f)).
  { intros f Hf. rewrite <- (cos_reflect f), IN by lra. split; lra. }
  apply ex_RInt_Chasles with m; [|apply ex_RInt_Chasles with PI; [|apply ex_RInt_Chasles with (2 * PI - m)]].
  - apply (ex_RInt_piece _ (fun f => 0)); [lra| |intros; apply continuous_const]. intros f Hf. unfold jump. destruct (Rlt_dec T _) as [_|n]; [ring|]. exfalso. apply n. apply IN; lra.
  - apply (ex_RInt_piece _ (fun f => p f * slope A B E (a + b * cos f))); [lra| |auto]. intros f Hf. unfold jump. destruct (Rlt_dec T _) as [n|_]; [|reflexivity]. apply IN in n; lra.
  - apply (ex_RInt_piece _ (fun f => p f * slope A B E (a + b * cos f))); [lra| |auto]. intros f Hf. unfold jump. destruct (Rlt_dec T _) as [n|_]; [|reflexivity]. apply OUT in n; lra.
  - apply (ex_RInt_piece _ (fun f => 0)); [lra| |intros; apply continuous_const]. intros f Hf. unfold jump. destruct (Rlt_dec T _) as [_|n]; [ring|]. exfalso. apply n. apply OUT; lra.
Qed.
Lemma circle_weight_ex T A B E a0 a1 a2 a3 al c : 0 <= al <= PI -> ex_RInt (fun f => weight a0 a1 a2 a3 al c f * jump T A B E (w al c f)) 0 (2 * PI).
Proof.
  intros Hal. apply (circle_ex (weight a0 a1 a2 a3 al c) T A B E (c * cos al) (sqrt (1 - c * c) * sin al)).
  - apply Rmult_le_pos; [apply sqrt_pos|apply sin_ge_0; lra].
  - intros f. apply (cont2_cont (weight a0 a1 a2 a3 al)). unfold weight, w, e1, e2. c2 continuous_cos_all.
Qed.

Lemma jump_sphere T A B E a0 a1 a2 a3 al : 0 <= al <= PI -> 0 <= A -> Rabs a1 <= a0 -> (forall c f, -1 <= c <= 1 -> 0 <= weight a0 a1 a2 a3 al c f) ->
  is_RInt (fun c => RInt (fun f => weight a0 a1 a2 a3 al c f * jump T A B E (w al c f)) 0 (2 * PI)) (-1) 1
    (2 * PI * RInt (fun t => (a0 + a1 * t) * jump T A B E t) (-1) 1).
Proof.
  intros Hal HA Ha HW. assert (PP := PI_RGT_0). assert (CS := proj1 (smooth_cont _ _ _ (slope_smooth A B E))).
  assert (LP : forall t, -1 <= t <= 1 -> 0 <= a0 + a1 * t).
  { intros t Ht. assert (h1 := Rle_abs a1). assert (h2 := Rle_abs (- a1)). rewrite Rabs_Ropp in h2. nra. }
  destruct (bounded_on (fun t => (a0 + a1 * t) * slope A B E t)) as (M & M0 & HM).
  { intros x. apply (cont2_cont (fun _ t => (a0 + a1 * t) * slope A B E t) 0). c2 CS. }
  apply is_RInt_squeeze; [lra|]. intros eps. assert (EP := cond_pos eps).
  set (d := eps / (12 * PI * (M + 1))). assert (Dd : 0 < d) by (apply Rdiv_lt_0_compat; nra).
  set (n := / d * / d). assert (Hn : 0 < n) by (apply Rmult_lt_0_compat; apply Rinv_0_lt_compat; auto).
  set (eta := / (1 + exp (n * d))).
  assert (ETA : 0 < eta <= d).
  { unfold eta. assert (P := exp_pos (n * d)). split; [apply Rinv_0_lt_compat; lra|]. rewrite <- (Rinv_inv d) at 2. apply Rinv_le_contravar; [apply Rinv_0_lt_compat; auto|].
    replace (n * d) with (/ d) by (unfold n; field; lra). assert (h := exp_ineq1_le (/ d)). lra. }
  destruct (soft_smooth A B E n (T - d) (- eta)) as (L1 & L2 & SL). destruct (soft_smooth A B E n (T + d) eta) as (U1 & U2 & SU).
  set (lo := soft A B E n (T - d) (- eta)) in *. set (up := soft A B E n (T + d) eta) in *.
  assert (BD : forall t, lo t <= jump T A B E t <= up t) by (intros t; apply soft_bounds; auto).
  assert (Cl := proj1 (smooth_cont _ _ _ SL)). assert (Cu := proj1 (smooth_cont _ _ _ SU)).
  assert (X : forall K : R -> R, (forall x, continuous K x) -> ex_RInt (fun t => (a0 + a1 * t) * K t) (-1) 1).
  { intros K C. apply (ex_RInt_continuous (V := R_CompleteNormedModule)). intros x _. apply (cont2_cont (fun _ t => (a0 + a1 * t) * K t) 0). c2 C. }
  set (J := RInt (fun t => (a0 + a1 * t) * jump T A B E t) (-1) 1).
  assert (J1 : RInt (fun t => (a0 + a1 * t) * lo t) (-1) 1 <= J).
  { apply RInt_le; [lra|apply X; auto|apply jump_ex|]. intros t Ht. apply Rmult_le_compat_l; [apply LP; lra|apply BD]. }
  assert (J2 : J <= RInt (fun t => (a0 + a1 * t) * up t) (-1) 1).
  { apply RInt_le; [lra|apply jump_ex|apply X; auto|]. intros t Ht. apply Rmult_le_compat_l; [apply LP; lra|apply BD]. }
  assert (GAP : RInt (fun t => (a0 + a1 * t) * up t) (-1) 1 - RInt (fun t => (a0 + a1 * t) * lo t) (-1) 1 <= 6 * M * d).
  { assert (I := is_RInt_minus (V := R_NormedModule) _ _ _ _ _ _ (RInt_correct (V := R_CompleteNormedModule) _ _ _ (X up Cu)) (RInt_correct (V := R_CompleteNormedModule) _ _ _ (X lo Cl))).
    assert (I2 := is_RInt_minus (V := R_NormedModule) _ _ _ _ _ _ (logistic_integral n (T + d) Hn) (logistic_integral n (T - d) Hn)).
    assert (I3 := is_RInt_plus (V := R_NormedModule) _ _ _ _ _ _ I2 (is_RInt_const (V := R_NormedModule) (-1) 1 (2 * eta))).
    assert (I4 := is_RInt_scal (V := R_NormedModule) _ _ _ M _ I3).
    eapply Rle_trans; [apply (is_RInt_le _ _ (-1) 1 _ _ ltac:(lra) I I4)|].
    - intros t Ht. unfold minus, plus, opp, scal; cbn; unfold mult; cbn. unfold up, lo, soft.
      assert (R1 := logistic_range n (T - d) t). assert (R2 := logistic_range n (T + d) t).
      assert (MM := HM t ltac:(lra)). assert (Q : 0 <= (a0 + a1 * t) * slope A B E t) by (apply Rmult_le_pos; [apply LP; lra|apply slope_pos; auto]).
      rewrite Rabs_right in MM by lra.
      assert (LI : logistic n (T - d) t <= logistic n (T + d) t).
      { unfold logistic. apply Rinv_le_contravar; [assert (h := exp_pos (n * (t - (T + d)))); lra|]. assert (exp (n * (t - (T + d))) < exp (n * (t - (T - d)))) by (apply exp_increasing; nra). lra. }
      replace ((a0 + a1 * t) * (slope A B E t * (logistic n (T + d) t + eta)) + - ((a0 + a1 * t) * (slope A B E t * (logistic n (T - d) t + - eta))))
        with ((a0 + a1 * t) * slope A B E t * (logistic n (T + d) t + - logistic n (T - d) t + 2 * eta)) by ring.
      apply Rmult_le_compat_r; auto. lra.
    - unfold minus, plus, opp, scal; cbn; unfold mult; cbn. assert (G := logistic_gap n T d Hn Dd).
      set (z := primitive n (T + d) 1 - primitive n (T + d) (-1) + - (primitive n (T - d) 1 - primitive n (T - d) (-1))) in *.
      assert (Z : z <= 2 * d) by (unfold z; lra). apply Rle_trans with (M * (2 * d + (1 - -1) * (2 * d))); [|lra]. apply Rmult_le_compat_l; auto. nra. }
  assert (SMALL : 2 * PI * (6 * M * d) <= eps).
  { replace (2 * PI * (6 * M * d)) with (eps * (M / (M + 1))) by (unfold d; field; split; lra).
    assert (M / (M + 1) <= 1) by (apply Rmult_le_reg_r with (M + 1); [lra|]; unfold Rdiv; rewrite Rmult_assoc, Rinv_l; lra). nra. }
  exists (fun c => RInt (fun f => weight a0 a1 a2 a3 al c f * lo (w al c f)) 0 (2 * PI)), (fun c => RInt (fun f => weight a0 a1 a2 a3 al c f * up (w al c f)) 0 (2 * PI)),
    (2 * PI * RInt (fun t => (a0 + a1 * t) * lo t) (-1) 1), (2 * PI * RInt (fun t => (a0 + a1 * t) * up t) (-1) 1).
  split; [apply (smooth_sphere lo L1 L2); auto|]. split; [apply (smooth_sphere up U1 U2); auto|]. split.
  - intros c Hc. assert (XL := cont2_ex _ c 0 (2 * PI) (weighted_cont lo a0 a1 a2 a3 al Cl)). assert (XU := cont2_ex _ c 0 (2 * PI) (weighted_cont up a0 a1 a2 a3 al Cu)).
    assert (XJ := circle_weight_ex T A B E a0 a1 a2 a3 al c Hal). clear - XL XU XJ BD HW Hc PP. clearbody lo up.
    split; (apply RInt_le; [lra|assumption|assumption|]); intros f _; (apply Rmult_le_compat_l; [apply HW; lra|apply BD]).
  - split; nra.
Qed.
