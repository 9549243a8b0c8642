(** Proofs about the average velocity. *)
From Coq Require Import Reals ZArith Lra Lia Bool Psatz.
From Coquelicot Require Import Coquelicot.
From Coq Require Import List.
From Verif Require Import Base XrFacts Analysis Quadrature Erf Astronomy_Model Astronomy_Proofs Distribution_Model Interpolation
  Halo_Model Halo_Proofs Eta_Proofs HaloState_Proofs HaloShape_Proofs HaloMarginal_Proofs HaloFinal_Proofs HaloEta_Proofs Average_Model.
Import ListNotations.
Local Open Scope R_scope.

(** * Volume integrals in spherical coordinates *)
(** [q] is the iterated integral of g(r, c, phi) r^2 over the azimuth, the cosine of the polar angle and the radius. *)
Definition volume_integral (g : R -> R -> R -> R) (r1 r2 c1 c2 p1 p2 q : R) : Prop :=
  exists (G : R -> R -> R) (M : R -> R), (forall r c, r1 <= r <= r2 -> c1 <= c <= c2 -> is_RInt (fun phi => r * r * g r c phi) p1 p2 (G r c)) /\
    (forall r, r1 <= r <= r2 -> is_RInt (G r) c1 c2 (M r)) /\ is_RInt M r1 r2 q.
(** libphysica::Integrate_3D for a function of a vector (external; /repo/src/DM_Distribution.cpp:88), idealised: where the function is
    finite on the domain and the iterated integrals exist, the result is the exact volume integral. *)
Definition ideal_quadrature_3D (I3 : integrator3) : Prop :=
  forall F g r1 r2 c1 c2 p1 p2 q, 0 <= r1 <= r2 -> -1 <= c1 <= c2 -> c2 <= 1 -> p1 <= p2 ->
    (forall r c phi, r1 <= r <= r2 -> c1 <= c <= c2 -> p1 <= phi <= p2 -> F (Spherical_Coordinates r (acos c) phi) = Ok (Fin (g r c phi))) ->
    volume_integral g r1 r2 c1 c2 p1 p2 q -> I3 F (Fin r1) (Fin r2) (Fin c1) (Fin c2) (Fin p1) (Fin p2) = Ok (Fin q).
(** A function with that property exists. *)
Definition reference_quadrature_3D (F : vec3 -> res xr) (r1 r2 c1 c2 p1 p2 : xr) : res xr :=
  Ok (Fin (RInt (fun r => RInt (fun c => RInt (fun phi =>
    r * r * match F (Spherical_Coordinates r (acos c) phi) with Ok (Fin z) => z | _ => 0 end) (val p1) (val p2)) (val c1) (val c2)) (val r1) (val r2))).
Lemma ideal_quadrature_3D_exists : ideal_quadrature_3D reference_quadrature_3D.
Proof.
  intros F g r1 r2 c1 c2 p1 p2 q HR HC HC2 HP HF (G & M & HG & HM & HQ). unfold reference_quadrature_3D. cbn [val]. do 2 f_equal.
  rewrite <- (is_RInt_unique _ _ _ _ HQ). apply RInt_ext. intros r Hr. rewrite Rmin_left, Rmax_right in Hr by lra.
  rewrite <- (is_RInt_unique _ _ _ _ (HM r ltac:(lra))). apply RInt_ext. intros c Hc. rewrite Rmin_left, Rmax_right in Hc by lra.
  rewrite <- (is_RInt_unique _ _ _ _ (HG r c ltac:(lra) ltac:(lra))). apply RInt_ext. intros p Hp. rewrite Rmin_left, Rmax_right in Hp by lra.
  rewrite (HF r c p) by lra. reflexivity.
Qed.

Lemma average_component I3 pdf f i a b q : ideal_quadrature_3D I3 -> 0 <= a <= b ->
  (forall v c phi, a <= v <= b -> -1 <= c <= 1 -> 0 <= phi <= 2 * PI -> pdf (Spherical_Coordinates v (acos c) phi) = Fin (f v c phi)) ->
  volume_integral (fun v c phi => comp i (Spherical_Coordinates v (acos c) phi) * f v c phi) a b (-1) 1 0 (2 * PI) q ->
  Average_Component I3 pdf (Fin a) (Fin b) i = Ok (Fin q).
Proof.
  intros H3 AB Hf Hq. unfold Average_Component. rewrite xopp_fin, xmul_fin. assert (PP := PI_RGT_0).
  apply (H3 _ (fun v c phi => comp i (Spherical_Coordinates v (acos c) phi) * f v c phi)); try lra; auto.
  intros r c phi Hr Hc Hp. rewrite Hf by lra. rewrite xmul_fin. reflexivity.
Qed.

(** * Distributions with rotational symmetry around the polar axis *)
Lemma cos_period k : is_RInt (fun phi => k * cos phi) 0 (2 * PI) 0.
Proof.
  assert (PP := PI_RGT_0). replace 0 with (k * sin (2 * PI) - k * sin 0) at 2 by (rewrite sin_2PI, sin_0; ring).
  apply (RInt_by_derive (fun x => k * sin x)); [lra| |]; intros x _; [auto_derive; auto; ring|].
  apply continuous_of_ex_derive. auto_derive. auto.
Qed.
Lemma sin_period k : is_RInt (fun phi => k * sin phi) 0 (2 * PI) 0.
Proof.
  assert (PP := PI_RGT_0). replace 0 with (- k * cos (2 * PI) - - k * cos 0) at 2 by (rewrite cos_2PI, cos_0; ring).
  apply (RInt_by_derive (fun x => - k * cos x)); [lra| |]; intros x _; [auto_derive; auto; ring|].
  apply continuous_of_ex_derive. auto_derive. auto.
Qed.
Lemma zero_volume (g : R -> R -> R -> R) a b : a <= b ->
  (forall v c, a <= v <= b -> -1 <= c <= 1 -> is_RInt (fun phi => v * v * g v c phi) 0 (2 * PI) 0) -> volume_integral g a b (-1) 1 0 (2 * PI) 0.
Proof.
  intros AB H. exists (fun _ _ => 0), (fun _ => 0). split; [auto|]. split; [intros r Hr|]; apply is_RInt_zero; auto.
Qed.
Lemma average_axial I3 pdf f a b m q : ideal_quadrature_3D I3 -> 0 <= a <= b ->
  (forall v c phi, a <= v <= b -> -1 <= c <= 1 -> pdf (Spherical_Coordinates v (acos c) phi) = Fin (f v c)) ->
  (forall v, a <= v <= b -> is_RInt (fun c => 2 * PI * v ^ 3 * c * f v c) (-1) 1 (m v)) -> is_RInt m a b q ->
  Average_Velocity I3 pdf (Fin a) (Fin b) = Ok (Fin 0, Fin 0, Fin q).
Proof.
  intros H3 AB Hf Hm Hq. unfold Average_Velocity.
  rewrite (average_component I3 pdf (fun v c _ => f v c) cx a b 0), (average_component I3 pdf (fun v c _ => f v c) cy a b 0),
    (average_component I3 pdf (fun v c _ => f v c) cz a b q); auto.
  - exists (fun v c => 2 * PI * v ^ 3 * c * f v c), m. split; [|split; auto].
    intros r c Hr Hc. apply (is_RInt_ext (fun _ => r * r * (r * c * f r c))).
    + intros phi _. cbn [comp Spherical_Coordinates vz]. rewrite cos_acos by lra. reflexivity.
    + assert (K := is_RInt_const (V := R_NormedModule) 0 (2 * PI) (r * r * (r * c * f r c))).
      match type of K with is_RInt _ _ _ ?z => replace (2 * PI * r ^ 3 * c * f r c) with z; auto end.
      unfold scal; cbn; unfold mult; cbn. ring.
  - apply zero_volume; [lra|]. intros v c Hv Hc. apply (is_RInt_ext (fun phi => v * v * (v * sin (acos c)) * f v c * sin phi)); [|apply sin_period].
    intros phi _. cbn [comp Spherical_Coordinates vy]. req. ring.
  - apply zero_volume; [lra|]. intros v c Hv Hc. apply (is_RInt_ext (fun phi => v * v * (v * sin (acos c)) * f v c * cos phi)); [|apply cos_period].
    intros phi _. cbn [comp Spherical_Coordinates vx]. req. ring.
Qed.
(** Isotropic distributions. *)
Lemma odd_integral k : is_RInt (fun c => k * c) (-1) 1 0.
Proof.
  replace 0 with (k * (1 * 1 / 2) - k * (-1 * -1 / 2)) by field. apply (RInt_by_derive (fun c => k * (c * c / 2))); [lra| |]; intros x _.
  - auto_derive; auto. field.
  - apply continuous_of_ex_derive. auto_derive. auto.
Qed.
Lemma average_isotropic I3 pdf g a b : ideal_quadrature_3D I3 -> 0 <= a <= b ->
  (forall w, a <= vnorm w <= b -> pdf w = Fin (g (vnorm w))) -> Average_Velocity I3 pdf (Fin a) (Fin b) = Ok (Fin 0, Fin 0, Fin 0).
Proof.
  intros H3 AB Hg. apply (average_axial I3 pdf (fun v _ => g v) a b (fun _ => 0)); auto.
  - intros v c phi Hv Hc. rewrite Hg; rewrite spherical_norm by lra; auto.
  - intros v Hv. apply (is_RInt_ext (fun c => 2 * PI * v ^ 3 * g v * c)); [intros; req; ring|apply odd_integral].
  - apply is_RInt_zero. auto.
Qed.
(** Distributions that do not override the velocity density. *)
Lemma average_default I3 a b : ideal_quadrature_3D I3 -> 0 <= a <= b -> Average_Velocity I3 PDF_Velocity_default (Fin a) (Fin b) = Ok (Fin 0, Fin 0, Fin 0).
Proof. intros H3 AB. apply (average_isotropic I3 _ (fun _ => 0)); auto. Qed.

(** * The average velocity is never longer than the average speed *)
Lemma volume_linear g h a b c1 c2 p1 p2 q s k l : volume_integral g a b c1 c2 p1 p2 q -> volume_integral h a b c1 c2 p1 p2 s ->
  volume_integral (fun r c p => k * g r c p + l * h r c p) a b c1 c2 p1 p2 (k * q + l * s).
Proof.
  assert (L : forall (u w : R -> R) x y A B, is_RInt u x y A -> is_RInt w x y B -> is_RInt (fun t => k * u t + l * w t) x y (k * A + l * B)).
  { intros u w x y A B HA HB. apply (is_RInt_plus (V := R_NormedModule)); apply (is_RInt_scal (V := R_NormedModule)); auto. }
  intros (G & M & G1 & M1 & Q1) (H & N & H1 & N1 & S1).
  exists (fun r c => k * G r c + l * H r c), (fun r => k * M r + l * N r). split; [|split].
  - intros r c Hr Hc. apply (is_RInt_ext (fun phi => k * (r * r * g r c phi) + l * (r * r * h r c phi))); [intros; req; ring|]. apply L; auto.
  - intros r Hr. apply L; auto.
  - apply L; auto.
Qed.
Lemma volume_le g h a b c1 c2 p1 p2 q s : a <= b -> c1 <= c2 -> p1 <= p2 ->
  (forall r c p, a <= r <= b -> c1 <= c <= c2 -> p1 <= p <= p2 -> g r c p <= h r c p) ->
  volume_integral g a b c1 c2 p1 p2 q -> volume_integral h a b c1 c2 p1 p2 s -> q <= s.
Proof.
  intros AB HC HP LE (G & M & G1 & M1 & Q1) (H & N & H1 & N1 & S1).
  apply (is_RInt_le M N a b); auto. intros r Hr. apply (is_RInt_le (G r) (H r) c1 c2); auto; [apply M1; lra|apply N1; lra|].
  intros c Hc. eapply is_RInt_le; [exact HP|apply G1; lra|apply H1; lra|]. intros p Hp. cbv beta.
  apply Rmult_le_compat_l; [nra|]. apply LE; lra.
Qed.
Lemma cauchy_vec a b : vdot a b <= vnorm a * vnorm b.
Proof.
  unfold vnorm. rewrite <- sqrt_mult_alt by (unfold vdot; nra). apply Rle_trans with (Rabs (vdot a b)); [apply Rle_abs|].
  rewrite <- sqrt_Rsqr_abs. apply sqrt_le_1_alt. unfold Rsqr, vdot. destruct a as [a1 a2 a3], b as [b1 b2 b3]. cbn [vx vy vz].
  assert (h1 := Rle_0_sqr (a1 * b2 - a2 * b1)). assert (h2 := Rle_0_sqr (a1 * b3 - a3 * b1)). assert (h3 := Rle_0_sqr (a2 * b3 - a3 * b2)).
  unfold Rsqr in *. nra.
Qed.
Lemma average_bounded f a b x y z s : 0 <= a <= b ->
  (forall v c phi, a <= v <= b -> -1 <= c <= 1 -> 0 <= phi <= 2 * PI -> 0 <= f v c phi) ->
  (forall i, volume_integral (fun v c phi => comp i (Spherical_Coordinates v (acos c) phi) * f v c phi) a b (-1) 1 0 (2 * PI)
     (match i with cx => x | cy => y | cz => z end)) ->
  volume_integral (fun v c phi => v * f v c phi) a b (-1) 1 0 (2 * PI) s ->
  vnorm (V3 x y z) <= s.
Proof.
  intros AB Hf HV HS. assert (PP := PI_RGT_0). set (V := V3 x y z). assert (NN := vnorm_nonneg V).
  assert (K : vdot V V <= vnorm V * s).
  { assert (L1 := volume_linear _ _ _ _ _ _ _ _ _ _ x y (HV cx) (HV cy)).
    assert (L2 := volume_linear _ _ _ _ _ _ _ _ _ _ 1 z L1 (HV cz)).
    assert (L3 := volume_linear _ _ _ _ _ _ _ _ _ _ (vnorm V) 0 HS HS).
    eapply Rle_trans; [|eapply Rle_trans; [eapply (volume_le _ _ a b (-1) 1 0 (2 * PI)); [lra|lra|lra| |exact L2|exact L3]|]].
    - apply Req_le. unfold V, vdot. cbn [vx vy vz]. ring.
    - intros r c p Hr Hc Hp. cbv beta. assert (C := cauchy_vec V (Spherical_Coordinates r (acos c) p)).
      rewrite spherical_norm in C by lra. assert (F := Hf r c p Hr Hc Hp).
      unfold vdot in C. cbn [comp]. unfold V in C at 1 2 3. cbn [vx vy vz] in C.
      replace (vnorm V * (r * f r c p) + 0 * (r * f r c p)) with (vnorm V * r * f r c p) by ring.
      match goal with |- ?l <= _ => replace l with ((x * vx (Spherical_Coordinates r (acos c) p) + y * vy (Spherical_Coordinates r (acos c) p)
        + z * vz (Spherical_Coordinates r (acos c) p)) * f r c p) by ring end.
      apply Rmult_le_compat_r; auto.
    - lra. }
  assert (E : vdot V V = vnorm V * vnorm V) by (unfold vnorm; rewrite sqrt_sqrt; auto; unfold vdot; nra).
  rewrite E in K. destruct NN as [P | <-].
  - apply Rmult_le_reg_l with (vnorm V); auto.
  - assert (L3 := volume_linear _ _ _ _ _ _ _ _ _ _ 0 0 HS HS).
    replace 0 with (0 * s + 0 * s) by ring. eapply (volume_le _ _ a b (-1) 1 0 (2 * PI)); [lra|lra|lra| |exact L3|exact HS].
    intros r c p Hr Hc Hp. cbv beta. assert (F := Hf r c p Hr Hc Hp). nra.
Qed.

(** The average speed in terms of the same density: the default speed density integrated over the speeds. *)
Lemma is_RInt_scal_R (k : R) (u : R -> R) x y A : is_RInt u x y A -> is_RInt (fun t => k * u t) x y (k * A).
Proof. intros H. exact (is_RInt_scal (V := R_NormedModule) u x y k A H). Qed.
Lemma average_speed_volume I I2 pdf cdf f a b s : ideal_quadrature I -> ideal_quadrature_2D I2 -> 0 <= a <= b ->
  (forall v c phi, a <= v <= b -> -1 <= c <= 1 -> 0 <= phi <= 2 * PI -> pdf (Spherical_Coordinates v (acos c) phi) = Fin (f v c phi)) ->
  volume_integral (fun v c phi => v * f v c phi) a b (-1) 1 0 (2 * PI) s ->
  Average_Speed I (PDF_Speed_Base I2 pdf) cdf (Fin a) (Fin b) (Fin (-1)) = Ok (Fin s).
Proof.
  intros HI H2 AB Hf (G & M & G1 & M1 & Q1). assert (PP := PI_RGT_0).
  assert (SP : forall v, a <= v <= b -> PDF_Speed_Base I2 pdf (Fin v) = Ok (Fin (/ v * M v))).
  { intros v Hv. unfold PDF_Speed_Base. rewrite xopp_fin, xmul_fin.
    assert (X : forall c, -1 <= c <= 1 -> is_RInt (fun phi => v * v * f v c phi) 0 (2 * PI) (/ v * G v c)).
    { intros c Hc. destruct (Req_dec v 0) as [-> | N].
      - replace (/ 0 * G 0 c) with 0; [apply is_RInt_zero; intros; cbv beta; ring|].
        assert (Z := is_RInt_zero (fun phi => 0 * 0 * (0 * f 0 c phi)) 0 (2 * PI) ltac:(intros; cbv beta; ring)).
        assert (E := is_RInt_unique _ _ _ _ (G1 0 c Hv Hc)). cbv beta in E. rewrite (is_RInt_unique _ _ _ _ Z) in E. rewrite <- E. symmetry. apply Rmult_0_r.
      - apply (is_RInt_ext (fun phi => / v * (v * v * (v * f v c phi)))); [intros; req; field; auto|]. apply is_RInt_scal_R; auto. }
    rewrite (H2 _ (fun c phi => v * v * f v c phi) (fun c => / v * G v c)); try lra.
    - do 2 f_equal. apply is_RInt_unique. apply is_RInt_scal_R. auto.
    - intros c phi Hc Hp. unfold angular_integrand. rewrite acos_fin by auto. rewrite Hf by auto. rewrite !xmul_fin. reflexivity.
    - auto.
    - exists (/ v * M v). apply is_RInt_scal_R. auto. }
  unfold Average_Speed. rewrite xlt_true by lra.
  assert (EM : forall v, a < v < b -> M v = v * (/ v * M v) :> R) by (intros; req; field; lra).
  assert (Q2 : is_RInt (fun v => v * (/ v * M v)) a b s).
  { apply (is_RInt_ext M); auto. intros v Hv. rewrite Rmin_left, Rmax_right in Hv by lra. apply EM; auto. }
  rewrite (HI _ (fun v => v * (/ v * M v)) a b).
  - do 2 f_equal. apply is_RInt_unique, Q2.
  - intros v Hv. rewrite Rmin_left, Rmax_right in Hv by lra. rewrite SP by auto. cbn [bind]. rewrite xmul_fin. reflexivity.
  - exists s. auto.
Qed.
Lemma velocity_below_speed I I2 I3 pdf cdf f a b x y z s : ideal_quadrature I -> ideal_quadrature_2D I2 -> ideal_quadrature_3D I3 -> 0 <= a <= b ->
  (forall v c phi, a <= v <= b -> -1 <= c <= 1 -> 0 <= phi <= 2 * PI -> pdf (Spherical_Coordinates v (acos c) phi) = Fin (f v c phi)) ->
  (forall v c phi, a <= v <= b -> -1 <= c <= 1 -> 0 <= phi <= 2 * PI -> 0 <= f v c phi) ->
  volume_integral (fun v c phi => vx (Spherical_Coordinates v (acos c) phi) * f v c phi) a b (-1) 1 0 (2 * PI) x ->
  volume_integral (fun v c phi => vy (Spherical_Coordinates v (acos c) phi) * f v c phi) a b (-1) 1 0 (2 * PI) y ->
  volume_integral (fun v c phi => vz (Spherical_Coordinates v (acos c) phi) * f v c phi) a b (-1) 1 0 (2 * PI) z ->
  volume_integral (fun v c phi => v * f v c phi) a b (-1) 1 0 (2 * PI) s ->
  Average_Velocity I3 pdf (Fin a) (Fin b) = Ok (Fin x, Fin y, Fin z) /\
  Average_Speed I (PDF_Speed_Base I2 pdf) cdf (Fin a) (Fin b) (Fin (-1)) = Ok (Fin s) /\
  vnorm (V3 x y z) <= s.
Proof.
  intros HI H2 H3 AB Hf Pf X Y Z S'. split; [|split].
  - unfold Average_Velocity. rewrite (average_component I3 pdf f cx a b x), (average_component I3 pdf f cy a b y), (average_component I3 pdf f cz a b z); auto.
  - apply (average_speed_volume I I2 pdf cdf f); auto.
  - apply (average_bounded f a b); auto. intros []; auto.
Qed.

(** * The standard halo of an observer moving along the polar axis *)
Definition mean_moving (N v0 vo ve v : R) : R :=
  let m := Rmin (v + vo) ve in
  1 / (2 * N * v0 * sqrt PI * vo ^ 2) * (v * ((v0 ^ 2 - 2 * v * vo) * bell v0 (v - vo) - (m ^ 2 - v ^ 2 - vo ^ 2 + v0 ^ 2) * bell v0 m)).
Lemma mean_marginal N v0 vo ve v : 0 < N -> 0 < v0 -> 0 < vo <= ve -> 0 < v <= ve + vo ->
  is_RInt (fun c => 2 * PI * v ^ 3 * c * vdens N v0 ve (v * v + vo * vo + 2 * v * vo * c)) (-1) 1 (mean_moving N v0 vo ve v).
Proof.
  intros HN H0 Ho Hv. assert (P := sqrt_PI_pos). assert (P0 := PI_RGT_0). assert (VV : 0 < v * vo) by nra.
  set (cs := (ve * ve - v * v - vo * vo) / (2 * v * vo)).
  assert (Ecs : v * v + vo * vo + 2 * v * vo * cs = ve * ve) by (unfold cs; field; lra).
  assert (Hcs : -1 <= cs).
  { apply Rmult_le_reg_l with (2 * v * vo); [lra|].
    assert (2 * v * vo * cs = ve * ve - v * v - vo * vo) by (unfold cs; field; lra). rewrite H.
    assert (0 <= (ve - (v - vo)) * (ve + (v - vo))) by (apply Rmult_le_pos; lra). lra. }
  set (m := Rmin 1 cs). assert (Hm : -1 <= m <= 1) by (unfold m; split; [apply Rmin_glb; lra|apply Rmin_l]).
  set (K := 2 * PI * v ^ 3 * (1 / N * (1 / (v0 * sqrt PI) ^ 3))).
  set (S := fun c => v * v + vo * vo + 2 * v * vo * c).
  set (G := fun c => - (K * (v0 * v0 / (4 * v ^ 2 * vo ^ 2))) * (2 * v * vo * c + v0 * v0) * exp (- S c / v0 / v0)).
  set (g := fun c => K * c * exp (- S c / v0 / v0)).
  assert (I1 : is_RInt g (-1) m (G m - G (-1))).
  { apply RInt_by_derive; [lra| |]; intros x _.
    - unfold G, g, S. auto_derive; auto. unfold Rdiv. field. lra.
    - apply continuous_of_ex_derive. unfold g, S. auto_derive. auto. }
  assert (J1 : is_RInt (fun c => 2 * PI * v ^ 3 * c * vdens N v0 ve (v * v + vo * vo + 2 * v * vo * c)) (-1) m (G m - G (-1))).
  { apply (is_RInt_ext g); auto. intros c Hc. rewrite Rmin_left, Rmax_right in Hc by lra. unfold vdens.
    assert (c < cs) by (assert (h := Rmin_r 1 cs); fold m in h; lra).
    destruct (Rlt_dec ve _) as [L | L].
    - exfalso. assert (v * v + vo * vo + 2 * v * vo * c <= ve * ve) by nra.
      apply (Rlt_not_le _ _ L). rewrite <- (sqrt_square ve) by lra. apply sqrt_le_1_alt; auto.
    - req. unfold g, K, S. ring. }
  assert (J2 : is_RInt (fun c => 2 * PI * v ^ 3 * c * vdens N v0 ve (v * v + vo * vo + 2 * v * vo * c)) m 1 0).
  { apply is_RInt_zero. intros c Hc. rewrite Rmin_left, Rmax_right in Hc by lra. unfold vdens.
    assert (cs < c). { unfold m, Rmin in Hc. destruct (Rle_dec 1 cs); lra. }
    destruct (Rlt_dec ve _) as [L | L]; [req; ring|]. exfalso. apply L. rewrite <- (sqrt_square ve) at 1 by lra. apply sqrt_lt_1_alt. nra. }
  replace (mean_moving N v0 vo ve v) with (plus (G m - G (-1)) 0 : R).
  { apply (is_RInt_Chasles (V := R_NormedModule) _ (-1) m 1); auto. }
  change (G m - G (-1) + 0 = mean_moving N v0 vo ve v). unfold G, mean_moving. cbv zeta.
  replace (exp (- S (-1) / v0 / v0)) with (bell v0 (v - vo)) by (unfold bell, S; f_equal; field; lra).
  set (M := Rmin (v + vo) ve).
  assert (EM : S m = M * M).
  { unfold M, S, m. destruct (Rle_dec 1 cs) as [L | L].
    - rewrite (Rmin_left 1 cs) by auto. assert ((v + vo) * (v + vo) <= ve * ve) by nra. rewrite Rmin_left by nra. ring.
    - rewrite (Rmin_right 1 cs) by lra. assert (ve * ve < (v + vo) * (v + vo)) by nra. rewrite Ecs, Rmin_right by nra. ring. }
  replace (exp (- S m / v0 / v0)) with (bell v0 M) by (unfold bell; rewrite EM; f_equal; field; lra).
  replace (2 * v * vo * m + v0 * v0) with (M ^ 2 - v ^ 2 - vo ^ 2 + v0 ^ 2) by (replace (M ^ 2) with (S m) by (rewrite EM; ring); unfold S; ring).
  replace (K * (v0 * v0 / (4 * v ^ 2 * vo ^ 2))) with (1 / (2 * N * v0 * sqrt PI * vo ^ 2) * v).
  - ring.
  - unfold K. replace (2 * PI * v ^ 3 * (1 / N * (1 / (v0 * sqrt PI) ^ 3)) * (v0 * v0 / (4 * v ^ 2 * vo ^ 2)))
      with (1 / (2 * N * v0 * sqrt PI * vo ^ 2) * v * (PI / (sqrt PI * sqrt PI))) by (field; repeat split; lra).
    rewrite sqrt_sqrt by lra. field. repeat split; lra.
Qed.

(** An antiderivative of v (v0^2 - 2 v vo) exp(-(v - vo)^2 / v0^2) at v = w + vo. *)
Definition HH (v0 vo w : R) : R := bell v0 w * (vo * v0 ^ 2 * w - v0 ^ 2 * (v0 ^ 2 - 4 * vo ^ 2) / 2) - vo ^ 3 * v0 * sqrt PI * erf (w / v0).
Lemma HH_derive v0 vo w : 0 < v0 -> is_derive (HH v0 vo) w ((w + vo) * (v0 ^ 2 - 2 * (w + vo) * vo) * bell v0 w).
Proof.
  intros H. assert (P := sqrt_PI_pos). unfold HH, bell. auto_derive; [repeat split; auto; apply erf_ex_derive|].
  rewrite Derive_erf. unfold Rdiv. field. split; lra.
Qed.
Lemma HH_ex_derive v0 vo w : 0 < v0 -> ex_derive (HH v0 vo) w.
Proof. intros. eexists. apply HH_derive; auto. Qed.
Lemma Derive_HH v0 vo w : 0 < v0 -> Derive (HH v0 vo) w = (w + vo) * (v0 ^ 2 - 2 * (w + vo) * vo) * bell v0 w.
Proof. intros. apply is_derive_unique, HH_derive; auto. Qed.
Lemma RInt_const_zero_point (f g : R -> R) a b q : a <= b -> (forall x, a < x < b -> f x = g x) -> is_RInt f a b q -> is_RInt g a b q.
Proof. intros AB E. apply is_RInt_ext. intros x Hx. rewrite Rmin_left, Rmax_right in Hx by auto. apply E; auto. Qed.
Lemma mean_integral N v0 vo ve : N = gauss3 (ve / v0) -> 0 < N -> 0 < v0 -> 0 < vo <= ve ->
  is_RInt (mean_moving N v0 vo ve) 0 (ve + vo) (- vo).
Proof.
  intros EN HN H0 Ho. assert (P := sqrt_PI_pos). assert (P0 := PI_RGT_0). set (C := 1 / (2 * N * v0 * sqrt PI * vo ^ 2)).
  set (k := bell v0 ve).
  assert (cont : forall (f F : R -> R) x, (forall y, is_derive F y (f y)) -> (forall y, ex_derive f y) -> continuous f x)
    by (intros; apply continuous_of_ex_derive; auto).
  assert (R1 : is_RInt (mean_moving N v0 vo ve) 0 (ve - vo) (C * (HH v0 vo (ve - 2 * vo) - HH v0 vo (- ve)))).
  { apply (RInt_const_zero_point (fun v => C * (v * ((v0 ^ 2 - 2 * v * vo) * bell v0 (v - vo)) - v * ((v0 ^ 2 + 2 * v * vo) * bell v0 (v + vo))))); [lra| |].
    - intros v Hv. unfold mean_moving. cbv zeta. rewrite Rmin_left by lra. fold C. req. ring.
    - replace (C * (HH v0 vo (ve - 2 * vo) - HH v0 vo (- ve))) with
        (C * (HH v0 vo (ve - vo - vo) - HH v0 vo (- (ve - vo) - vo)) - C * (HH v0 vo (0 - vo) - HH v0 vo (- 0 - vo))).
      + apply (RInt_by_derive (fun v => C * (HH v0 vo (v - vo) - HH v0 vo (- v - vo)))); [lra| |]; intros v _.
        * auto_derive; [repeat split; auto; apply HH_ex_derive; auto|].
          match goal with |- context [Derive ?f _] => change f with (HH v0 vo) end. rewrite !Derive_HH by auto.
          replace (bell v0 (- v + - vo)) with (bell v0 (v + vo)) by (unfold bell; f_equal; field; lra). unfold Rminus. ring.
        * apply continuous_of_ex_derive. unfold bell. auto_derive. auto.
      + replace (ve - vo - vo) with (ve - 2 * vo) by ring. replace (- (ve - vo) - vo) with (- ve) by ring. replace (- 0 - vo) with (0 - vo) by ring. ring. }
  set (B := fun v => k * ((ve ^ 2 - vo ^ 2 + v0 ^ 2) * v ^ 2 / 2 - v ^ 4 / 4)).
  assert (R2 : is_RInt (mean_moving N v0 vo ve) (ve - vo) (ve + vo) (C * (HH v0 vo ve - B (ve + vo)) - C * (HH v0 vo (ve - 2 * vo) - B (ve - vo)))).
  { apply (RInt_const_zero_point (fun v => C * (v * ((v0 ^ 2 - 2 * v * vo) * bell v0 (v - vo)) - k * v * (ve ^ 2 - v ^ 2 - vo ^ 2 + v0 ^ 2)))); [lra| |].
    - intros v Hv. unfold mean_moving. cbv zeta. rewrite Rmin_right by lra. fold C k. req. ring.
    - replace (HH v0 vo ve) with (HH v0 vo (ve + vo - vo)) by (f_equal; ring). replace (HH v0 vo (ve - 2 * vo)) with (HH v0 vo (ve - vo - vo)) by (f_equal; ring).
      apply (RInt_by_derive (fun v => C * (HH v0 vo (v - vo) - B v))); [lra| |]; intros v _.
      + unfold B. auto_derive; [repeat split; auto; apply HH_ex_derive; auto|].
        match goal with |- context [Derive ?f _] => change f with (HH v0 vo) end. rewrite !Derive_HH by auto. unfold Rminus. field.
      + apply continuous_of_ex_derive. unfold bell. auto_derive. auto. }
  assert (R3 := is_RInt_Chasles (V := R_NormedModule) _ _ _ _ _ _ R1 R2).
  match type of R3 with is_RInt _ _ _ ?z => replace (- vo) with z; auto end.
  match goal with |- @eq _ (plus ?a ?b) _ => change (a + b = - vo) end.
  assert (EN' : N = erf (ve / v0) - 2 * ve / (v0 * sqrt PI) * k).
  { rewrite EN. unfold gauss3, k, bell. field. split; lra. }
  transitivity (C * (- 2 * vo ^ 3 * v0 * sqrt PI * N)).
  - rewrite EN'. unfold HH, B. replace (bell v0 (- ve)) with k by (unfold k, bell; f_equal; field; lra). fold k.
    replace (- ve / v0) with (- (ve / v0)) by (field; lra). rewrite erf_odd. field. split; lra.
  - unfold C. field. repeat split; lra.
Qed.

Lemma spherical_shift v c phi u : -1 <= c <= 1 ->
  let w := vadd (Spherical_Coordinates v (acos c) phi) (V3 0 0 u) in vdot w w = v * v + u * u + 2 * v * u * c.
Proof.
  intros H. cbv zeta. unfold vdot, vadd, Spherical_Coordinates. cbn [vx vy vz]. rewrite cos_acos, sin_acos' by lra.
  assert (Q : sqrt (1 - c * c) * sqrt (1 - c * c) = 1 - c * c) by (apply sqrt_sqrt; nra).
  assert (P := sin2_cos2 phi). unfold Rsqr in P. set (S := sqrt (1 - c * c)) in *.
  transitivity (v * v * (S * S) * (sin phi * sin phi + cos phi * cos phi) + (v * c + u) * (v * c + u)); [ring|]. rewrite P, Q. ring.
Qed.
Lemma axis_norm u : vnorm (V3 0 0 u) = Rabs u.
Proof. unfold vnorm, vdot. cbn [vx vy vz]. replace (0 * 0 + 0 * 0 + u * u) with (Rsqr u) by (unfold Rsqr; ring). apply sqrt_Rsqr_abs. Qed.
Lemma mean_axis N v0 u ve : N = gauss3 (ve / v0) -> 0 < N -> 0 < v0 -> u <> 0 -> Rabs u <= ve ->
  exists m, (forall v, 0 < v <= ve + Rabs u -> is_RInt (fun c => 2 * PI * v ^ 3 * c * vdens N v0 ve (v * v + u * u + 2 * v * u * c)) (-1) 1 (m v)) /\
    is_RInt m 0 (ve + Rabs u) (- u).
Proof.
  intros EN HN H0 U L. destruct (Rlt_dec 0 u) as [P | P].
  - rewrite Rabs_right in * by lra. exists (mean_moving N v0 u ve). split; [intros; apply mean_marginal; auto|apply mean_integral; auto].
  - rewrite Rabs_left in * by lra. exists (fun v => - mean_moving N v0 (- u) ve v). split.
    + intros v Hv. assert (M := mean_marginal N v0 (- u) ve v HN H0 ltac:(lra) ltac:(lra)).
      assert (A := is_RInt_comp_opp (V := R_NormedModule) (fun c => 2 * PI * v ^ 3 * c * vdens N v0 ve (v * v + - u * - u + 2 * v * - u * c)) 1 (-1)
        (mean_moving N v0 (- u) ve v)).
      replace (- (-1)) with 1 in A by ring. specialize (A M). apply (is_RInt_swap (V := R_NormedModule)) in A.
      apply (is_RInt_ext (fun c => opp (2 * PI * v ^ 3 * (- c) * vdens N v0 ve (v * v + - u * - u + 2 * v * - u * (- c))))); [|exact A].
      intros c _. match goal with |- opp ?z = _ => change (opp z) with (- z) end. req.
      replace (v * v + - u * - u + 2 * v * - u * - c) with (v * v + u * u + 2 * v * u * c) by ring. ring.
    + replace (- u) with (- - - u) at 2 by ring. apply (is_RInt_opp (V := R_NormedModule)). apply mean_integral; auto. lra.
Qed.
Lemma average_halo I3 s v0 u ve : ideal_quadrature_3D I3 -> halo_history s v0 (V3 0 0 u) ve -> 0 < v0 -> 0 < ve -> Rabs u <= ve ->
  Average_Velocity I3 (PDF_Velocity s) (h_dmin s) (h_dmax s) = Ok (Fin 0, Fin 0, Fin (- u)).
Proof.
  intros H3 HH H0 He L. destruct (history_consistent _ _ _ _ HH) as [CS VE]. rewrite axis_norm in CS.
  assert (HN : 0 < gauss3 (ve / v0)) by (apply gauss3_pos, Rdiv_lt_0_compat; auto). assert (AU := Rabs_pos u).
  assert (CS' := CS). destruct CS' as (_ & _ & _ & D0 & D1 & _). rewrite D0, D1.
  assert (FIN : forall w, exists p, PDF_Velocity s w = Fin p) by (intros w; destruct (PDF_Velocity_any s v0 (Rabs u) ve (vadd w (h_velobs s)) CS H0 He) as (p & E & _); exists p; exact E).
  set (f := fun v c => val (PDF_Velocity s (Spherical_Coordinates v (acos c) 0))).
  assert (EF : forall v c phi, -1 <= c <= 1 -> PDF_Velocity s (Spherical_Coordinates v (acos c) phi) = Fin (f v c)).
  { intros v c phi Hc. unfold f. destruct (FIN (Spherical_Coordinates v (acos c) 0)) as [p Ep]. rewrite Ep. cbn [val]. rewrite <- Ep.
    unfold PDF_Velocity, PDF_Velocity_SHM. rewrite VE. assert (S1 := spherical_shift v c phi u Hc). assert (S2 := spherical_shift v c 0 u Hc).
    cbv zeta in *. unfold vnorm. rewrite S1, S2. reflexivity. }
  assert (VD : forall v c, 0 < v -> -1 < c < 1 -> f v c = vdens (gauss3 (ve / v0)) v0 ve (v * v + u * u + 2 * v * u * c)).
  { intros v c Hv Hc. unfold f, PDF_Velocity. assert (S1 := spherical_shift v c 0 u ltac:(lra)). cbv zeta in S1.
    rewrite VE, (PDF_Velocity_fin s v0 (Rabs u) ve), S1; auto. rewrite S1.
    replace (v * v + u * u + 2 * v * u * c) with ((v * c + u) * (v * c + u) + v * v * (1 - c * c)) by ring.
    assert (h := Rle_0_sqr (v * c + u)). unfold Rsqr in h. assert (0 < v * v * (1 - c * c)) by (apply Rmult_lt_0_compat; nra). lra. }
  destruct (Req_dec u 0) as [-> | U].
  - rewrite Rabs_R0, Ropp_0. apply (average_isotropic I3 _ (fun x => val (PDF_Velocity s (V3 0 0 x)))); auto; [lra|].
    intros w [W _]. destruct (FIN (V3 0 0 (vnorm w))) as [p Ep]. rewrite Ep. cbn [val]. rewrite <- Ep.
    unfold PDF_Velocity, PDF_Velocity_SHM. rewrite VE.
    assert (Z : forall a, vadd a (V3 0 0 0) = a) by (intros [a b c]; unfold vadd; cbn [vx vy vz]; f_equal; ring). rewrite !Z.
    rewrite axis_norm, Rabs_right by lra.
    replace (vdot (V3 0 0 (vnorm w)) (V3 0 0 (vnorm w))) with (vdot w w); auto.
    unfold vdot at 2. cbn [vx vy vz]. unfold vnorm. replace (0 * 0 + 0 * 0) with 0 by ring. rewrite Rplus_0_l, sqrt_sqrt; auto. unfold vdot; nra.
  - destruct (mean_axis (gauss3 (ve / v0)) v0 u ve eq_refl HN H0 U L) as (m & M1 & M2).
    apply (average_axial I3 _ f 0 (ve + Rabs u) (fun v => if Req_EM_T v 0 then 0 else m v)); auto; [lra| |].
    + intros v Hv. destruct (Req_EM_T v 0) as [-> | N].
      * apply is_RInt_zero. intros x _. ring.
      * apply (RInt_const_zero_point (fun c => 2 * PI * v ^ 3 * c * vdens (gauss3 (ve / v0)) v0 ve (v * v + u * u + 2 * v * u * c))); [lra| |apply M1; lra].
        intros c Hc. rewrite VD by lra. reflexivity.
    + apply (RInt_const_zero_point m); [lra| |auto]. intros v Hv. destruct (Req_EM_T v 0); [lra|reflexivity].
Qed.

(** Any direction, in polar coordinates around it: the mean of the velocity density. *)
Lemma halo_mean s v0 vel ve e e1 e2 : halo_history s v0 vel ve -> 0 < v0 -> 0 < ve -> vnorm vel <= ve ->
  orthonormal e e1 e2 -> vel = vscale (vnorm vel) e ->
  exists f m, (forall v c phi, 0 < v -> -1 < c <= 1 -> PDF_Velocity s (polar e e1 e2 v c phi) = Fin (f v c)) /\
    (forall v, 0 < v <= ve + vnorm vel -> is_RInt (fun c => 2 * PI * v ^ 3 * c * f v c) (-1) 1 (m v)) /\
    is_RInt m 0 (ve + vnorm vel) (- vnorm vel).
Proof.
  intros HH H0 He Ho O Ev. destruct (history_consistent _ _ _ _ HH) as [CS VE]. set (vo := vnorm vel) in *. assert (Vo : 0 <= vo) by apply vnorm_nonneg.
  assert (HN : 0 < gauss3 (ve / v0)) by (apply gauss3_pos, Rdiv_lt_0_compat; auto).
  assert (F : forall v c phi, 0 < v -> -1 < c <= 1 -> PDF_Velocity s (polar e e1 e2 v c phi) = Fin (vdens (gauss3 (ve / v0)) v0 ve (v * v + vo * vo + 2 * v * vo * c))).
  { intros v c phi Hv Hc. unfold PDF_Velocity. rewrite VE, Ev.
    assert (D := polar_dot e e1 e2 v c phi vo O ltac:(lra)). cbv zeta in D. rewrite <- D. apply (PDF_Velocity_fin s v0 vo ve); auto.
    rewrite D. destruct Vo as [Vo | <-]; [|nra].
    assert (0 < v * vo) by nra. assert (h := Rle_0_sqr (v - vo)). unfold Rsqr in h. nra. }
  destruct Vo as [P | Z].
  - exists (fun v c => vdens (gauss3 (ve / v0)) v0 ve (v * v + vo * vo + 2 * v * vo * c)), (mean_moving (gauss3 (ve / v0)) v0 vo ve).
    split; [auto|]. split; [intros; apply mean_marginal; auto|apply mean_integral; auto].
  - exists (fun v c => vdens (gauss3 (ve / v0)) v0 ve (v * v + vo * vo + 2 * v * vo * c)), (fun _ => 0).
    split; [auto|]. rewrite <- Z. split; [|replace (- 0) with 0 by ring; apply is_RInt_zero; auto].
    intros v Hv. apply (is_RInt_ext (fun c => 2 * PI * v ^ 3 * vdens (gauss3 (ve / v0)) v0 ve (v * v) * c)); [|apply odd_integral].
    intros c _. req. replace (v * v + 0 * 0 + 2 * v * 0 * c) with (v * v) by ring. ring.
Qed.
