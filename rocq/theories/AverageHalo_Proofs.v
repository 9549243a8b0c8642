(** The average velocity in the standard halo for observers moving in any direction. *)
From Coq Require Import Reals Lra Psatz.
From Coquelicot Require Import Coquelicot.
From Verif Require Import Base XrFacts Analysis Erf Quadrature Astronomy_Model Distribution_Model Distribution_Proofs Halo_Model Halo_Proofs HaloState_Proofs HaloMarginal_Proofs HaloFinal_Proofs
  HaloEta_Proofs Average_Model Average_Proofs Sphere_Proofs.
Local Open Scope R_scope.

(** * The azimuth counted from the axis *)
Lemma periodic_shift (f : R -> R) be q : (forall x, f (x + 2 * PI) = f x) -> 0 <= be <= 2 * PI -> is_RInt f 0 (2 * PI) q -> is_RInt (fun x => f (x - be)) 0 (2 * PI) q.
Proof.
  intros P Hb H. assert (PP := PI_RGT_0). assert (X : ex_RInt f 0 (2 * PI)) by (exists q; auto).
  assert (X1 := ex_RInt_sub f 0 (2 * PI) 0 (2 * PI - be) ltac:(lra) ltac:(lra) ltac:(lra) X). assert (X2 := ex_RInt_sub f 0 (2 * PI) (2 * PI - be) (2 * PI) ltac:(lra) ltac:(lra) ltac:(lra) X).
  destruct X1 as [a A]. destruct X2 as [b B]. assert (Q := is_RInt_Chasles (V := R_NormedModule) _ _ _ _ _ _ A B).
  assert (E : q = a + b) by (rewrite <- (is_RInt_unique _ _ _ _ H); apply is_RInt_unique; exact Q). rewrite E, Rplus_comm.
  apply (is_RInt_Chasles (V := R_NormedModule) _ 0 be (2 * PI)).
  - assert (K := is_RInt_comp_lin (V := R_NormedModule) f 1 (2 * PI - be) 0 be b). replace (1 * 0 + (2 * PI - be)) with (2 * PI - be) in K by ring. replace (1 * be + (2 * PI - be)) with (2 * PI) in K by ring.
    specialize (K B). revert K. apply is_RInt_ext. intros x _. unfold scal; cbn; unfold mult; cbn. rewrite Rmult_1_l. rewrite <- (P (x - be)). f_equal. req. ring.
  - assert (K := is_RInt_comp_lin (V := R_NormedModule) f 1 (- be) be (2 * PI) a). replace (1 * be + - be) with 0 in K by ring. replace (1 * (2 * PI) + - be) with (2 * PI - be) in K by ring.
    specialize (K A). revert K. apply is_RInt_ext. intros x _. unfold scal; cbn; unfold mult; cbn. rewrite Rmult_1_l. f_equal. req. ring.
Qed.
Lemma direction_angles u : vdot u u = 1 -> exists al be, 0 <= al <= PI /\ 0 <= be <= 2 * PI /\ u = V3 (sin al * cos be) (sin al * sin be) (cos al).
Proof.
  destruct u as [x y z]. unfold vdot. cbn [vx vy vz]. intros H. assert (PP := PI_RGT_0).
  assert (Z : -1 <= z <= 1) by (split; nra). set (s := sqrt (1 - z * z)). assert (Z2 : 0 <= 1 - z * z) by nra.
  assert (SS : s * s = 1 - z * z) by (apply sqrt_sqrt; auto). assert (S0 : 0 <= s) by apply sqrt_pos.
  assert (SA : sin (acos z) = s) by (rewrite sin_acos by auto; unfold s; do 2 f_equal; unfold Rsqr; ring).
  assert (AB := acos_bound z). exists (acos z). destruct S0 as [SP | <-].
  - set (k := x / s). assert (K2 : k * k + (y / s) * (y / s) = 1) by (unfold k; replace (x / s * (x / s) + y / s * (y / s)) with ((x * x + y * y) / (s * s)) by (field; lra); rewrite SS; replace (x * x + y * y) with (1 - z * z) by lra; field; nra).
    assert (KB : -1 <= k <= 1) by (split; nra). assert (BB := acos_bound k).
    assert (SK : sin (acos k) = Rabs (y / s)) by (rewrite sin_acos by auto; rewrite <- sqrt_Rsqr_abs; f_equal; unfold Rsqr; lra).
    assert (KX : s * k = x) by (unfold k; field; lra).
    destruct (Rle_dec 0 y) as [Y | Y].
    + exists (acos k). split; [lra|]. split; [lra|]. rewrite SA, !cos_acos, SK, Rabs_right by (try lra; try (apply Rle_ge, Rmult_le_pos; [lra|left; apply Rinv_0_lt_compat; lra])).
      rewrite KX. f_equal. field. lra.
    + exists (2 * PI - acos k). split; [lra|]. split; [lra|]. rewrite sin_minus, cos_minus, cos_2PI, sin_2PI, SA, !cos_acos, SK, Rabs_left by (try lra; unfold Rdiv; assert (0 < / s) by (apply Rinv_0_lt_compat; lra); nra).
      f_equal; [rewrite <- KX; ring|field; lra].
  - exists 0. split; [lra|]. split; [lra|]. rewrite SA, cos_acos by auto. assert (x = 0 /\ y = 0) as [-> ->] by (split; nra). f_equal; ring.
Qed.
Definition axis_comp (i : component) (al be : R) : R := comp i (V3 (sin al * cos be) (sin al * sin be) (cos al)).
Definition axis1 (i : component) (al be : R) : R := comp i (V3 (cos al * cos be) (cos al * sin be) (- sin al)).
Definition axis2 (i : component) (be : R) : R := comp i (V3 (- sin be) (cos be) 0).
Lemma sin_acos_alt c : -1 <= c <= 1 -> sin (acos c) = sqrt (1 - c * c).
Proof. intros H. rewrite sin_acos by auto. reflexivity. Qed.
Lemma component_weight i al be c p : -1 <= c <= 1 ->
  comp i (Spherical_Coordinates 1 (acos c) p) = weight 0 (axis_comp i al be) (axis1 i al be) (axis2 i be) al c (p - be).
Proof.
  intros H. unfold weight, w, e1, e2, axis_comp, axis1, axis2, Spherical_Coordinates. assert (a := sin2_cos2 al). unfold Rsqr in a.
  rewrite cos_minus, sin_minus, sin_acos_alt, cos_acos by auto. set (s := sqrt (1 - c * c)). assert (b := sin2_cos2 be). unfold Rsqr in b.
  assert (A : sin al * sin al = 1 - cos al * cos al) by lra. assert (B : sin be * sin be = 1 - cos be * cos be) by lra.
  destruct i; cbn [comp vx vy vz].
  - transitivity (s * (cos p * cos be + sin p * sin be) * cos be * (sin al * sin al + cos al * cos al) - s * (sin p * cos be - cos p * sin be) * sin be); [|ring].
    rewrite A. transitivity (s * cos p * (cos be * cos be + sin be * sin be)); [rewrite B; ring|ring].
  - transitivity (s * (cos p * cos be + sin p * sin be) * sin be * (sin al * sin al + cos al * cos al) + s * (sin p * cos be - cos p * sin be) * cos be); [|ring].
    rewrite A. transitivity (s * sin p * (cos be * cos be + sin be * sin be)); [rewrite B; ring|ring].
  - transitivity (c * (sin al * sin al + cos al * cos al)); [rewrite A; ring|ring].
Qed.
Lemma axis_product al be c p : -1 <= c <= 1 -> vdot (V3 (sin al * cos be) (sin al * sin be) (cos al)) (Spherical_Coordinates 1 (acos c) p) = w al c (p - be).
Proof.
  intros H. unfold vdot, Spherical_Coordinates, w. cbn [vx vy vz]. rewrite cos_minus, sin_acos_alt, cos_acos by auto. ring.
Qed.
Lemma sphere_component_bound i c p : -1 <= c <= 1 -> -1 <= comp i (Spherical_Coordinates 1 (acos c) p) <= 1.
Proof.
  intros H. assert (N := spherical_norm 1 c p ltac:(lra) H). assert (D : vdot (Spherical_Coordinates 1 (acos c) p) (Spherical_Coordinates 1 (acos c) p) = 1).
  { unfold vnorm in N. assert (0 <= vdot (Spherical_Coordinates 1 (acos c) p) (Spherical_Coordinates 1 (acos c) p)) by (unfold vdot; nra).
    rewrite <- (sqrt_sqrt _ H0), N. ring. }
  unfold vdot in D. destruct i; cbn [comp]; split; nra.
Qed.

(** * Integrals over a sphere in the coordinates of the code *)
(** [g] may differ from the jump function where the direction is opposite to the axis. *)
Lemma circle_value (g : R -> R) T A B E a0 a1 a2 a3 al c : 0 <= al <= PI -> -1 <= c <= 1 -> (forall t, -1 < t <= 1 -> g t = jump T A B E t) ->
  exists q, is_RInt (fun f => weight a0 a1 a2 a3 al c f * g (w al c f)) 0 (2 * PI) q /\
    (-1 < c < 1 -> q = RInt (fun f => weight a0 a1 a2 a3 al c f * jump T A B E (w al c f)) 0 (2 * PI)).
Proof.
  intros Hal Hc Hg. assert (PP := PI_RGT_0). assert (X := circle_weight_ex T A B E a0 a1 a2 a3 al c Hal).
  assert (WB : forall f, -1 <= w al c f <= 1).
  { intros f. assert (h := W_bound al (acos c) f). unfold W in h. rewrite cos_acos, sin_acos_alt in h by auto. exact h. }
  assert (SA : 0 <= sin al) by (apply sin_ge_0; lra). assert (SQ := sqrt_pos (1 - c * c)).
  destruct (Req_dec (sqrt (1 - c * c) * sin al) 0) as [Z | Z].
  - assert (WC : forall f, w al c f = c * cos al) by (intros f; unfold w; rewrite Z; ring).
    destruct (Req_dec (c * cos al) (-1)) as [M | M].
    + assert (CW : forall x, continuous (fun f => weight a0 a1 a2 a3 al c f * g (w al c f)) x).
      { intros x. apply (continuous_ext (fun f => weight a0 a1 a2 a3 al c f * g (c * cos al))); [intros; rewrite WC; reflexivity|].
        apply (cont2_cont (fun c0 f => weight a0 a1 a2 a3 al c0 f * g (c * cos al)) c). unfold weight, w, e1, e2. c2 continuous_cos_all. }
      exists (RInt (fun f => weight a0 a1 a2 a3 al c f * g (w al c f)) 0 (2 * PI)). split.
      * apply (RInt_correct (V := R_CompleteNormedModule)). apply (ex_RInt_continuous (V := R_CompleteNormedModule)). auto.
      * intros Hc'. exfalso. assert (CB := COS_bound al). assert (c * c < 1) by nra. assert (cos al * cos al <= 1) by nra.
        assert (Q : (c * cos al) * (c * cos al) = 1) by (rewrite M; ring). replace ((c * cos al) * (c * cos al)) with ((c * c) * (cos al * cos al)) in Q by ring. assert (0 <= c * c) by nra. nra.
    + exists (RInt (fun f => weight a0 a1 a2 a3 al c f * jump T A B E (w al c f)) 0 (2 * PI)). split; [|auto].
      apply (is_RInt_ext (fun f => weight a0 a1 a2 a3 al c f * jump T A B E (w al c f))); [|apply (RInt_correct (V := R_CompleteNormedModule)); auto].
      intros f _. rewrite Hg; auto. assert (h := WB f). rewrite WC in *. lra.
  - exists (RInt (fun f => weight a0 a1 a2 a3 al c f * jump T A B E (w al c f)) 0 (2 * PI)). split; [|auto].
    assert (BP : 0 < sqrt (1 - c * c) * sin al) by (assert (0 <= sqrt (1 - c * c) * sin al) by (apply Rmult_le_pos; auto); lra).
    assert (OPEN : forall f, -1 < cos f -> -1 < w al c f <= 1).
    { intros f Hf. assert (h1 := WB f). assert (h2 := WB PI). unfold w in *. rewrite cos_PI in h2. split; [nra|lra]. }
    assert (X1 := ex_RInt_sub _ 0 (2 * PI) 0 PI ltac:(lra) ltac:(lra) ltac:(lra) X). assert (X2 := ex_RInt_sub _ 0 (2 * PI) PI (2 * PI) ltac:(lra) ltac:(lra) ltac:(lra) X).
    apply (RInt_correct (V := R_CompleteNormedModule)) in X1. apply (RInt_correct (V := R_CompleteNormedModule)) in X2.
    assert (Q := is_RInt_Chasles (V := R_NormedModule) _ _ _ _ _ _ X1 X2). rewrite (is_RInt_unique _ _ _ _ Q).
    apply (is_RInt_Chasles (V := R_NormedModule) _ 0 PI (2 * PI)).
    + revert X1. apply is_RInt_ext. intros f Hf. rewrite Rmin_left, Rmax_right in Hf by lra. rewrite Hg; auto. apply OPEN.
      rewrite <- cos_PI. apply cos_decreasing_1; lra.
    + revert X2. apply is_RInt_ext. intros f Hf. rewrite Rmin_left, Rmax_right in Hf by lra. rewrite Hg; auto. apply OPEN.
      rewrite <- cos_PI, <- (cos_reflect f). apply cos_decreasing_1; lra.
Qed.
Lemma weight_periodic a0 a1 a2 a3 al c f : weight a0 a1 a2 a3 al c (f + 2 * PI) = weight a0 a1 a2 a3 al c f /\ w al c (f + 2 * PI) = w al c f.
Proof.
  assert (C : cos (f + 2 * PI) = cos f) by (rewrite cos_plus, cos_2PI, sin_2PI; ring). assert (D : sin (f + 2 * PI) = sin f) by (rewrite sin_plus, cos_2PI, sin_2PI; ring).
  unfold weight, w, e1, e2. rewrite C, D. split; reflexivity.
Qed.
Lemma weighted_sphere (g : R -> R) T A B E a0 a1 a2 a3 al be : 0 <= al <= PI -> 0 <= be <= 2 * PI -> 0 <= A -> (forall t, -1 < t <= 1 -> g t = jump T A B E t) ->
  Rabs a1 <= a0 -> (forall c f, -1 <= c <= 1 -> 0 <= weight a0 a1 a2 a3 al c f) ->
  exists G, (forall c, -1 <= c <= 1 -> is_RInt (fun f => weight a0 a1 a2 a3 al c (f - be) * g (w al c (f - be))) 0 (2 * PI) (G c)) /\
    is_RInt G (-1) 1 (2 * PI * RInt (fun t => (a0 + a1 * t) * jump T A B E t) (-1) 1).
Proof.
  intros Hal Hbe HA Hg Ha HW. exists (fun c => RInt (fun f => weight a0 a1 a2 a3 al c f * g (w al c f)) 0 (2 * PI)). split.
  - intros c Hc. destruct (circle_value g T A B E a0 a1 a2 a3 al c Hal Hc Hg) as (q & Hq & _). rewrite (is_RInt_unique _ _ _ _ Hq).
    apply (periodic_shift (fun f => weight a0 a1 a2 a3 al c f * g (w al c f))); auto.
    intros x. destruct (weight_periodic a0 a1 a2 a3 al c x) as [-> ->]. reflexivity.
  - assert (K := jump_sphere T A B E a0 a1 a2 a3 al Hal HA Ha HW). revert K. apply is_RInt_ext. intros c Hc. rewrite Rmin_left, Rmax_right in Hc by lra.
    destruct (circle_value g T A B E a0 a1 a2 a3 al c Hal ltac:(lra) Hg) as (q & Hq & Eq). rewrite (is_RInt_unique _ _ _ _ Hq). symmetry. auto.
Qed.
(** The integral of a function of the angle to an axis, in the polar coordinates of the code. *)
Lemma sphere_total (g : R -> R) T A B E u : vdot u u = 1 -> 0 <= A -> (forall t, -1 < t <= 1 -> g t = jump T A B E t) ->
  exists G, (forall c, -1 <= c <= 1 -> is_RInt (fun f => g (vdot u (Spherical_Coordinates 1 (acos c) f))) 0 (2 * PI) (G c)) /\
    is_RInt G (-1) 1 (2 * PI * RInt (jump T A B E) (-1) 1).
Proof.
  intros U HA Hg. destruct (direction_angles u U) as (al & be & Hal & Hbe & ->).
  destruct (weighted_sphere g T A B E 1 0 0 0 al be Hal Hbe HA Hg) as (G & G1 & G2).
  { rewrite Rabs_R0. lra. } { intros c f _. unfold weight. lra. }
  exists G. split.
  - intros c Hc. apply (is_RInt_ext (fun f => weight 1 0 0 0 al c (f - be) * g (w al c (f - be)))); auto.
    intros f _. rewrite axis_product by auto. unfold weight. req. ring.
  - replace (RInt (jump T A B E) (-1) 1) with (RInt (fun t => (1 + 0 * t) * jump T A B E t) (-1) 1); auto.
    apply RInt_ext. intros t _. req. ring.
Qed.
Lemma sphere_component (g : R -> R) T A B E u i : vdot u u = 1 -> 0 <= A -> (forall t, -1 < t <= 1 -> g t = jump T A B E t) ->
  exists G, (forall c, -1 <= c <= 1 -> is_RInt (fun f => comp i (Spherical_Coordinates 1 (acos c) f) * g (vdot u (Spherical_Coordinates 1 (acos c) f))) 0 (2 * PI) (G c)) /\
    is_RInt G (-1) 1 (comp i u * (2 * PI * RInt (fun t => t * jump T A B E t) (-1) 1)).
Proof.
  intros U HA Hg. assert (Ui : Rabs (comp i u) <= 1) by (unfold vdot in U; apply Rabs_le; destruct i; cbn [comp]; split; nra).
  destruct (sphere_total g T A B E u U HA Hg) as (G0 & Z1 & Z2).
  destruct (direction_angles u U) as (al & be & Hal & Hbe & ->). fold (axis_comp i al be) in *.
  destruct (weighted_sphere g T A B E 1 (axis_comp i al be) (axis1 i al be) (axis2 i be) al be Hal Hbe HA Hg Ui) as (G & G1 & G2).
  { intros c f Hc. assert (h := sphere_component_bound i c (f + be) Hc). rewrite (component_weight i al be) in h by auto.
    replace (f + be - be) with f in h by ring. unfold weight in *. lra. }
  exists (fun c => G c - G0 c). split.
  - intros c Hc. assert (K := is_RInt_minus (V := R_NormedModule) _ _ _ _ _ _ (G1 c Hc) (Z1 c Hc)). revert K. apply is_RInt_ext.
    intros f _. rewrite axis_product, (component_weight i al be) by auto. unfold minus, plus, opp; cbn. unfold weight. req. ring.
  - assert (K := is_RInt_minus (V := R_NormedModule) _ _ _ _ _ _ G2 Z2).
    match goal with |- is_RInt _ _ _ ?z => match type of K with is_RInt ?g _ _ ?y => replace z with y; [exact K|] end end.
    assert (X0 := jump_ex T A B E 1 0). assert (X1 := jump_ex T A B E 0 1).
    assert (X0' : ex_RInt (jump T A B E) (-1) 1) by (revert X0; apply ex_RInt_ext; intros; req; ring).
    assert (X1' : ex_RInt (fun t => t * jump T A B E t) (-1) 1) by (revert X1; apply ex_RInt_ext; intros; req; ring).
    assert (S1 := is_RInt_plus (V := R_NormedModule) _ _ _ _ _ _ (RInt_correct (V := R_CompleteNormedModule) _ _ _ X0')
      (is_RInt_scal (V := R_NormedModule) _ _ _ (axis_comp i al be) _ (RInt_correct (V := R_CompleteNormedModule) _ _ _ X1'))).
    assert (S2 : RInt (fun t => (1 + axis_comp i al be * t) * jump T A B E t) (-1) 1 = RInt (jump T A B E) (-1) 1 + axis_comp i al be * RInt (fun t => t * jump T A B E t) (-1) 1).
    { apply is_RInt_unique. revert S1. apply is_RInt_ext. intros t _. unfold plus, scal; cbn; unfold mult; cbn. req. ring. }
    change (2 * PI * RInt (fun t => (1 + axis_comp i al be * t) * jump T A B E t) (-1) 1 - 2 * PI * RInt (jump T A B E) (-1) 1 = axis_comp i al be * (2 * PI * RInt (fun t => t * jump T A B E t) (-1) 1)).
    rewrite S2. ring.
Qed.

(** * The standard halo *)
Lemma density_of_norm s a b : vdot a a = vdot b b -> PDF_Velocity_SHM s a = PDF_Velocity_SHM s b.
Proof. intros H. unfold PDF_Velocity_SHM, vnorm. rewrite H. reflexivity. Qed.
Lemma vdens_jump N v0 ve v vo t : 0 < v -> 0 < vo -> 0 < ve -> -1 <= t <= 1 ->
  vdens N v0 ve (v * v + vo * vo + 2 * v * vo * t) = jump ((ve * ve - v * v - vo * vo) / (2 * v * vo)) (1 / N * (1 / (v0 * sqrt PI) ^ 3)) (- (v * v + vo * vo) / v0 / v0) (- (2 * v * vo) / v0 / v0) t.
Proof.
  intros Hv Ho He Ht. assert (VV : 0 < 2 * v * vo) by nra. assert (W0 : 0 <= v * v + vo * vo + 2 * v * vo * t) by (assert (h := Rle_0_sqr (v - vo)); unfold Rsqr in h; nra).
  assert (IFF : ve < sqrt (v * v + vo * vo + 2 * v * vo * t) <-> (ve * ve - v * v - vo * vo) / (2 * v * vo) < t).
  { assert (SS := sqrt_sqrt _ W0). assert (S0 := sqrt_pos (v * v + vo * vo + 2 * v * vo * t)). set (s := sqrt _) in *. split; intros H.
    - apply Rmult_lt_reg_l with (2 * v * vo); auto. replace (2 * v * vo * ((ve * ve - v * v - vo * vo) / (2 * v * vo))) with (ve * ve - v * v - vo * vo) by (field; lra). nra.
    - apply Rmult_lt_compat_l with (r := 2 * v * vo) in H; auto. replace (2 * v * vo * ((ve * ve - v * v - vo * vo) / (2 * v * vo))) with (ve * ve - v * v - vo * vo) in H by (field; lra). nra. }
  unfold vdens, jump, slope. destruct (Rlt_dec ve _) as [a | a], (Rlt_dec _ t) as [b | b]; try reflexivity; try (exfalso; tauto).
  do 2 f_equal. unfold Rdiv. ring.
Qed.
Lemma shifted_square u v vo c p : vdot u u = 1 -> 0 <= v -> -1 <= c <= 1 ->
  let x := vadd (Spherical_Coordinates v (acos c) p) (vscale vo u) in vdot x x = v * v + vo * vo + 2 * v * vo * vdot u (Spherical_Coordinates 1 (acos c) p).
Proof.
  intros U Hv Hc x. assert (N := spherical_norm v c p Hv Hc). unfold vnorm in N.
  assert (D : vdot (Spherical_Coordinates v (acos c) p) (Spherical_Coordinates v (acos c) p) = v * v).
  { rewrite <- N at 3 4. symmetry. apply sqrt_sqrt. unfold vdot; nra. }
  transitivity (vdot (Spherical_Coordinates v (acos c) p) (Spherical_Coordinates v (acos c) p) + vo * vo * vdot u u + 2 * v * vo * vdot u (Spherical_Coordinates 1 (acos c) p)).
  - unfold x, vdot, vadd, vscale, Spherical_Coordinates. cbn [vx vy vz]. ring.
  - rewrite D, U. ring.
Qed.
Lemma cauchy_unit u c p : vdot u u = 1 -> -1 <= c <= 1 -> -1 <= vdot u (Spherical_Coordinates 1 (acos c) p) <= 1.
Proof.
  intros U Hc. assert (N := spherical_norm 1 c p ltac:(lra) Hc). assert (NU : vnorm u = 1) by (unfold vnorm; rewrite U; apply sqrt_1).
  assert (A := cauchy_vec u (Spherical_Coordinates 1 (acos c) p)). assert (B := cauchy_vec (vscale (-1) u) (Spherical_Coordinates 1 (acos c) p)).
  assert (NU' : vnorm (vscale (-1) u) = 1) by (unfold vnorm; replace (vdot (vscale (-1) u) (vscale (-1) u)) with (vdot u u) by (unfold vdot, vscale; cbn [vx vy vz]; ring); rewrite U; apply sqrt_1).
  rewrite N, NU in A. rewrite N, NU' in B. replace (vdot (vscale (-1) u) (Spherical_Coordinates 1 (acos c) p)) with (- vdot u (Spherical_Coordinates 1 (acos c) p)) in B by (unfold vdot, vscale; cbn [vx vy vz]; ring). lra.
Qed.
(** The velocity density at a given speed as a function of the cosine of the angle to the observer's velocity. *)
Lemma halo_angle s v0 vel ve u : halo_history s v0 vel ve -> 0 < v0 -> 0 < ve -> 0 < vnorm vel -> vdot u u = 1 -> vel = vscale (vnorm vel) u ->
  forall v, 0 < v -> exists g, (forall c p, -1 <= c <= 1 -> PDF_Velocity s (Spherical_Coordinates v (acos c) p) = Fin (g (vdot u (Spherical_Coordinates 1 (acos c) p)))) /\
    (forall t, -1 < t <= 1 -> g t = vdens (gauss3 (ve / v0)) v0 ve (v * v + vnorm vel * vnorm vel + 2 * v * vnorm vel * t)).
Proof.
  intros HH H0 He Ho U Ev v Hv. destruct (history_consistent _ _ _ _ HH) as [CS VE]. set (vo := vnorm vel) in *.
  set (x := fun t => V3 0 0 (sqrt (v * v + vo * vo + 2 * v * vo * t))).
  assert (W0 : forall t, -1 <= t <= 1 -> 0 <= v * v + vo * vo + 2 * v * vo * t) by (intros t Ht; assert (h := Rle_0_sqr (v - vo)); unfold Rsqr in h; assert (0 < v * vo) by nra; nra).
  assert (XX : forall t, -1 <= t <= 1 -> vdot (x t) (x t) = v * v + vo * vo + 2 * v * vo * t).
  { intros t Ht. unfold x, vdot. cbn [vx vy vz]. rewrite <- (sqrt_sqrt _ (W0 t Ht)) at 3. ring. }
  exists (fun t => val (PDF_Velocity_SHM s (x t))). split.
  - intros c p Hc. unfold PDF_Velocity. rewrite VE, Ev. assert (CU := cauchy_unit u c p U Hc).
    rewrite (density_of_norm s _ (x (vdot u (Spherical_Coordinates 1 (acos c) p)))).
    + destruct (PDF_Velocity_any s v0 vo ve (x (vdot u (Spherical_Coordinates 1 (acos c) p))) CS H0 He) as (z & -> & _). reflexivity.
    + rewrite XX by auto. apply (shifted_square u v vo c p U ltac:(lra) Hc).
  - intros t Ht. rewrite (PDF_Velocity_fin s v0 vo ve); auto; rewrite XX by lra; [reflexivity|]. assert (h := Rle_0_sqr (v - vo)); unfold Rsqr in h. assert (0 < v * vo) by nra. nra.
Qed.
Lemma spherical_scale v th p i : comp i (Spherical_Coordinates v th p) = v * comp i (Spherical_Coordinates 1 th p).
Proof. destruct i; unfold Spherical_Coordinates; cbn [comp vx vy vz]; ring. Qed.
Lemma jump_coefficient N v0 : 0 < N -> 0 < v0 -> 0 <= 1 / N * (1 / (v0 * sqrt PI) ^ 3).
Proof. intros HN H0. assert (P := sqrt_PI_pos). left. apply Rmult_lt_0_compat; apply Rdiv_lt_0_compat; try lra. apply pow_lt. nra. Qed.

Lemma halo_component s v0 vel ve i : halo_history s v0 vel ve -> 0 < v0 -> 0 < ve -> 0 < vnorm vel <= ve ->
  exists f, (forall v c p, 0 <= v -> -1 <= c <= 1 -> PDF_Velocity s (Spherical_Coordinates v (acos c) p) = Fin (f v c p)) /\
    volume_integral (fun v c p => comp i (Spherical_Coordinates v (acos c) p) * f v c p) 0 (ve + vnorm vel) (-1) 1 0 (2 * PI) (- comp i vel).
Proof.
  intros HH H0 He Ho. destruct (history_consistent _ _ _ _ HH) as [CS VE]. set (vo := vnorm vel) in *. set (N := gauss3 (ve / v0)).
  assert (HN : 0 < N) by (apply gauss3_pos, Rdiv_lt_0_compat; auto).
  set (u := vscale (/ vo) vel).
  assert (U : vdot u u = 1).
  { assert (D : vdot vel vel = vo * vo) by (unfold vo, vnorm; rewrite sqrt_sqrt; auto; unfold vdot; nra).
    replace (vdot u u) with (/ vo * / vo * vdot vel vel) by (unfold u, vdot, vscale; cbn [vx vy vz]; ring). rewrite D. field. lra. }
  assert (Ev : vel = vscale vo u) by (unfold u, vscale; destruct vel as [a b c]; cbn [vx vy vz]; f_equal; field; lra).
  assert (Cu : comp i vel = vo * comp i u) by (rewrite Ev at 1; destruct i; reflexivity).
  assert (FIN : forall y, exists z, PDF_Velocity s y = Fin z) by (intros y; destruct (PDF_Velocity_any s v0 vo ve (vadd y (h_velobs s)) CS H0 He) as (z & E & _); exists z; exact E).
  exists (fun v c p => val (PDF_Velocity s (Spherical_Coordinates v (acos c) p))). split.
  { intros v c p _ _. destruct (FIN (Spherical_Coordinates v (acos c) p)) as [z ->]. reflexivity. }
  set (F := fun v c p => v * v * (comp i (Spherical_Coordinates v (acos c) p) * val (PDF_Velocity s (Spherical_Coordinates v (acos c) p)))).
  assert (K : forall v, 0 < v <= ve + vo -> exists G, (forall c, -1 <= c <= 1 -> is_RInt (F v c) 0 (2 * PI) (G c)) /\ is_RInt G (-1) 1 (comp i u * mean_moving N v0 vo ve v)).
  { intros v Hv. destruct (halo_angle s v0 vel ve u HH H0 He ltac:(fold vo; lra) U Ev v ltac:(lra)) as (g & G1 & G2). fold vo in G2.
    set (T := (ve * ve - v * v - vo * vo) / (2 * v * vo)). set (A := 1 / N * (1 / (v0 * sqrt PI) ^ 3)). set (B := - (v * v + vo * vo) / v0 / v0). set (E := - (2 * v * vo) / v0 / v0).
    assert (GJ : forall t, -1 < t <= 1 -> g t = jump T A B E t) by (intros t Ht; rewrite G2 by auto; apply vdens_jump; lra).
    destruct (sphere_component g T A B E u i U (jump_coefficient N v0 HN H0) GJ) as (G & Q1 & Q2).
    exists (fun c => v ^ 3 * G c). split.
    - intros c Hc. assert (K := is_RInt_scal_R (v ^ 3) _ _ _ _ (Q1 c Hc)). revert K. apply is_RInt_ext. intros p _. unfold F. rewrite G1 by auto. cbn [val]. rewrite (spherical_scale v). req. ring.
    - assert (K := is_RInt_scal_R (v ^ 3) _ _ _ _ Q2).
      assert (M := mean_marginal N v0 vo ve v HN H0 ltac:(lra) Hv). rewrite <- (is_RInt_unique _ _ _ _ M).
      assert (X : ex_RInt (fun t => t * jump T A B E t) (-1) 1) by (assert (X := jump_ex T A B E 0 1); revert X; apply ex_RInt_ext; intros; req; ring).
      replace (RInt (fun c => 2 * PI * v ^ 3 * c * vdens N v0 ve (v * v + vo * vo + 2 * v * vo * c)) (-1) 1) with (2 * PI * v ^ 3 * RInt (fun t => t * jump T A B E t) (-1) 1).
      + match goal with |- is_RInt _ _ _ ?z => match type of K with is_RInt _ _ _ ?y => replace z with y by ring; exact K end end.
      + symmetry. apply is_RInt_unique. assert (L := is_RInt_scal_R (2 * PI * v ^ 3) _ _ _ _ (RInt_correct (V := R_CompleteNormedModule) _ _ _ X)). revert L. apply is_RInt_ext.
        intros t Ht. rewrite Rmin_left, Rmax_right in Ht by lra. rewrite vdens_jump by lra. fold T A B E. req. ring. }
  exists (fun v c => RInt (F v c) 0 (2 * PI)), (fun v => RInt (fun c => RInt (F v c) 0 (2 * PI)) (-1) 1). split; [|split].
  - intros v c Hv Hc. apply (RInt_correct (V := R_CompleteNormedModule)). destruct (Req_dec v 0) as [-> | Nz].
    + exists 0. apply is_RInt_zero. intros p _. unfold F. ring.
    + destruct (K v ltac:(lra)) as (G & G1 & _). eexists. apply G1; auto.
  - intros v Hv. apply (RInt_correct (V := R_CompleteNormedModule)). destruct (Req_dec v 0) as [-> | Nz].
    + exists 0. apply is_RInt_zero. intros c _. apply is_RInt_unique, is_RInt_zero. intros p _. unfold F. ring.
    + destruct (K v ltac:(lra)) as (G & G1 & G2). exists (comp i u * mean_moving N v0 vo ve v). revert G2. apply is_RInt_ext. intros c Hc. rewrite Rmin_left, Rmax_right in Hc by lra. symmetry. apply is_RInt_unique, G1. lra.
  - rewrite Cu. replace (- (vo * comp i u)) with (comp i u * - vo) by ring.
    assert (M := is_RInt_scal_R (comp i u) _ _ _ _ (mean_integral N v0 vo ve eq_refl HN H0 ltac:(lra))). revert M. apply is_RInt_ext. intros v Hv. rewrite Rmin_left, Rmax_right in Hv by lra.
    destruct (K v ltac:(lra)) as (G & G1 & G2). rewrite <- (is_RInt_unique _ _ _ _ G2). apply RInt_ext. intros c Hc. rewrite Rmin_left, Rmax_right in Hc by lra. symmetry. apply is_RInt_unique, G1. lra.
Qed.
Lemma average_any I3 s v0 vel ve : ideal_quadrature_3D I3 -> halo_history s v0 vel ve -> 0 < v0 -> 0 < ve -> vnorm vel <= ve ->
  Average_Velocity I3 (PDF_Velocity s) (h_dmin s) (h_dmax s) = Ok (Fin (- vx vel), Fin (- vy vel), Fin (- vz vel)).
Proof.
  intros H3 HH H0 He L. destruct (vnorm_nonneg vel) as [P | Z].
  - destruct (history_consistent _ _ _ _ HH) as [CS VE]. destruct CS as (_ & _ & _ & D0 & D1 & _). rewrite D0, D1. unfold Average_Velocity.
    assert (K : forall i, Average_Component I3 (PDF_Velocity s) (Fin 0) (Fin (ve + vnorm vel)) i = Ok (Fin (- comp i vel))).
    { intros i. destruct (halo_component s v0 vel ve i HH H0 He ltac:(lra)) as (f & F1 & F2). apply (average_component I3 _ f); auto; [lra|]. intros v c p Hv Hc _. apply F1; lra. }
    rewrite !K. reflexivity.
  - assert (E : vel = V3 0 0 0).
    { unfold vnorm in Z. symmetry in Z. apply sqrt_eq_0 in Z; [|unfold vdot; nra]. destruct vel as [a b c]. unfold vdot in Z. cbn [vx vy vz] in Z. f_equal; nra. }
    subst vel. cbn [vx vy vz]. rewrite Ropp_0. rewrite <- Ropp_0 at 3. apply (average_halo I3 s v0 0 ve); auto. rewrite Rabs_R0. lra.
Qed.

(** * The speed density of the base class *)
Lemma base_speed_any I2 s v0 vel ve v : ideal_quadrature_2D I2 -> halo_history s v0 vel ve -> 0 < v0 -> 0 < ve -> vnorm vel <= ve ->
  0 < v <= ve + vnorm vel -> PDF_Speed_Base I2 (PDF_Velocity s) (Fin v) = Ok (PDF_Speed_SHM s (Fin v)).
Proof.
  intros H2 HH H0 He L Hv. assert (PP := PI_RGT_0). destruct (vnorm_nonneg vel) as [P | Z].
  - destruct (history_consistent _ _ _ _ HH) as [CS VE]. set (vo := vnorm vel) in *. set (N := gauss3 (ve / v0)).
    assert (HN : 0 < N) by (apply gauss3_pos, Rdiv_lt_0_compat; auto). set (u := vscale (/ vo) vel).
    assert (U : vdot u u = 1).
    { assert (D : vdot vel vel = vo * vo) by (unfold vo, vnorm; rewrite sqrt_sqrt; auto; unfold vdot; nra).
      replace (vdot u u) with (/ vo * / vo * vdot vel vel) by (unfold u, vdot, vscale; cbn [vx vy vz]; ring). rewrite D. field. lra. }
    assert (Ev : vel = vscale vo u) by (unfold u, vscale; destruct vel as [a b c]; cbn [vx vy vz]; f_equal; field; lra).
    destruct (halo_angle s v0 vel ve u HH H0 He P U Ev v ltac:(lra)) as (g & G1 & G2). fold vo N in G2.
    set (T := (ve * ve - v * v - vo * vo) / (2 * v * vo)). set (A := 1 / N * (1 / (v0 * sqrt PI) ^ 3)). set (B := - (v * v + vo * vo) / v0 / v0). set (E := - (2 * v * vo) / v0 / v0).
    assert (GJ : forall t, -1 < t <= 1 -> g t = jump T A B E t) by (intros t Ht; rewrite G2 by auto; apply vdens_jump; lra).
    destruct (sphere_total g T A B E u U (jump_coefficient N v0 HN H0) GJ) as (G & Q1 & Q2).
    assert (M := marginal_moving N v0 vo ve v HN H0 ltac:(lra) Hv).
    assert (PS : PDF_Speed_SHM s (Fin v) = Fin (pdf_moving N v0 vo ve v)).
    { rewrite (PDF_Speed_all s v0 vo ve) by (auto; lra). unfold pdf_all. destruct (Rlt_dec v 0); [lra|]. destruct (Rlt_dec (ve + vo) v); [lra|]. destruct (Rlt_dec 0 vo); [reflexivity|lra]. }
    rewrite PS. unfold PDF_Speed_Base. change (xopp (Fin 1)) with (Fin (-1)). rewrite xmul_fin.
    rewrite (H2 _ (fun c p => v * v * g (vdot u (Spherical_Coordinates 1 (acos c) p))) (fun c => v * v * G c)); try lra.
    + do 2 f_equal. rewrite <- (is_RInt_unique _ _ _ _ M). rewrite (is_RInt_unique _ _ _ _ (is_RInt_scal_R (v * v) _ _ _ _ Q2)).
      symmetry. apply is_RInt_unique.
      assert (X : ex_RInt (jump T A B E) (-1) 1) by (assert (X := jump_ex T A B E 1 0); revert X; apply ex_RInt_ext; intros; req; ring).
      assert (K := is_RInt_scal_R (2 * PI * v ^ 2) _ _ _ _ (RInt_correct (V := R_CompleteNormedModule) _ _ _ X)).
      replace (v * v * (2 * PI * RInt (jump T A B E) (-1) 1)) with (2 * PI * v ^ 2 * RInt (jump T A B E) (-1) 1) by ring. revert K. apply is_RInt_ext.
      intros t Ht. rewrite Rmin_left, Rmax_right in Ht by lra. rewrite vdens_jump by lra. reflexivity.
    + intros c p Hc _. unfold angular_integrand. rewrite acos_fin by auto. rewrite G1 by auto. rewrite !xmul_fin. reflexivity.
    + intros c Hc. apply is_RInt_scal_R. auto.
    + eexists. exact (is_RInt_scal_R (v * v) _ _ _ _ Q2).
  - assert (E : vel = V3 0 0 0).
    { unfold vnorm in Z. symmetry in Z. apply sqrt_eq_0 in Z; [|unfold vdot; nra]. destruct vel as [a b c]. unfold vdot in Z. cbn [vx vy vz] in Z. f_equal; nra. }
    rewrite <- Z in Hv. subst vel. apply (base_speed_halo I2 s v0 0 ve); auto. lra.
Qed.
Lemma average_any_instance : exists s, halo_history s 2 (V3 1 2 (-2)) 6 /\ vnorm (V3 1 2 (-2)) = 3 /\
  Average_Velocity reference_quadrature_3D (PDF_Velocity s) (h_dmin s) (h_dmax s) = Ok (Fin (-1), Fin (-2), Fin 2) /\
  PDF_Speed_Base reference_quadrature_2D (PDF_Velocity s) (Fin 7) = Ok (PDF_Speed_SHM s (Fin 7)).
Proof.
  assert (N : vnorm (V3 1 2 (-2)) = 3) by (unfold vnorm, vdot; cbn [vx vy vz]; replace (1 * 1 + 2 * 2 + -2 * -2) with (3 * 3) by ring; apply sqrt_square; lra).
  exists (SHM_of_velocity 1 2 (V3 1 2 (-2)) 6). assert (H := hh_velocity 1 2 (V3 1 2 (-2)) 6). split; [auto|]. split; [auto|]. split.
  - rewrite (average_any _ _ 2 (V3 1 2 (-2)) 6 ideal_quadrature_3D_exists H) by (try lra; rewrite N; lra). cbn [vx vy vz]. do 3 f_equal. ring.
  - apply (base_speed_any _ _ 2 (V3 1 2 (-2)) 6); auto using ideal_quadrature_2D_exists; try lra; rewrite N; lra.
Qed.
