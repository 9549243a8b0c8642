(** The speed density as the angular marginal of the velocity density, and the SHM++ mixture. *)
From Coq Require Import Reals List ZArith String Lra Lia Bool Psatz.
From Coquelicot Require Import Coquelicot.
From Verif Require Import Base XrFacts Analysis Quadrature Erf Astronomy_Model Astronomy_Proofs Distribution_Model Interpolation
  Halo_Model Halo_Proofs Eta_Proofs HaloState_Proofs HaloShape_Proofs.
Import ListNotations.
Local Open Scope R_scope.

(** An orthonormal basis and the velocity of speed v at polar angle arccos c and azimuth phi around its first vector. *)
Definition orthonormal (e e1 e2 : vec3) : Prop :=
  vdot e e = 1 /\ vdot e1 e1 = 1 /\ vdot e2 e2 = 1 /\ vdot e e1 = 0 /\ vdot e e2 = 0 /\ vdot e1 e2 = 0.
Definition polar (e e1 e2 : vec3) (v c phi : R) : vec3 :=
  vadd (vscale (v * c) e) (vadd (vscale (v * sqrt (1 - c * c) * cos phi) e1) (vscale (v * sqrt (1 - c * c) * sin phi) e2)).

Lemma polar_dot e e1 e2 v c phi vo : orthonormal e e1 e2 -> -1 <= c <= 1 ->
  let w := vadd (polar e e1 e2 v c phi) (vscale vo e) in vdot w w = v * v + vo * vo + 2 * v * vo * c.
Proof.
  intros (A & B & C & D & E & F) Hc. cbv zeta.
  assert (S : sqrt (1 - c * c) * sqrt (1 - c * c) = 1 - c * c) by (apply sqrt_sqrt; nra).
  assert (T := sin2_cos2 phi). unfold Rsqr in T.
  unfold polar, vadd, vscale, vdot in *. cbn [vx vy vz] in *. set (q := sqrt (1 - c * c)) in *.
  set (sn := sin phi) in *. set (cs := cos phi) in *.
  destruct e as [a1 a2 a3], e1 as [b1 b2 b3], e2 as [c1 c2 c3]; cbn [vx vy vz] in *.
  transitivity ((v * c + vo) * (v * c + vo) * (a1 * a1 + a2 * a2 + a3 * a3) + (v * q * cs) * (v * q * cs) * (b1 * b1 + b2 * b2 + b3 * b3)
    + (v * q * sn) * (v * q * sn) * (c1 * c1 + c2 * c2 + c3 * c3) + 2 * (v * c + vo) * (v * q * cs) * (a1 * b1 + a2 * b2 + a3 * b3)
    + 2 * (v * c + vo) * (v * q * sn) * (a1 * c1 + a2 * c2 + a3 * c3) + 2 * (v * q * cs) * (v * q * sn) * (b1 * c1 + b2 * c2 + b3 * c3)); [ring|].
  rewrite A, B, C, D, E, F.
  transitivity ((v * c + vo) * (v * c + vo) + v * v * (q * q) * (sn * sn + cs * cs)); [ring|]. rewrite S, T. ring.
Qed.

Definition vdens (N v0 ve w2 : R) : R := if Rlt_dec ve (sqrt w2) then 0 else 1 / N * (1 / (v0 * sqrt PI) ^ 3) * exp (- w2 / v0 / v0).
Lemma PDF_Velocity_fin s v0 vo ve w : consistent s v0 vo ve -> 0 < v0 -> 0 < ve -> 0 < vdot w w ->
  PDF_Velocity_SHM s w = Fin (vdens (gauss3 (ve / v0)) v0 ve (vdot w w)).
Proof.
  intros (E0 & Eo & Ee & Ed & EM & EN) H0 He Hw. assert (P := sqrt_PI_pos). assert (P0 := PI_RGT_0).
  assert (HN : 0 < gauss3 (ve / v0)) by (apply gauss3_pos, Rdiv_lt_0_compat; auto).
  assert (Q : 0 < v0 * sqrt PI) by (apply Rmult_lt_0_compat; auto). assert (Q3 := pow_lt _ 3 Q).
  unfold PDF_Velocity_SHM, vdens. rewrite E0, Ee, Ed, EN, N_fin by lra.
  assert (0 < vnorm w) by (apply sqrt_lt_R0; auto). rewrite (xle_false (vnorm w) 0) by lra. fold (vnorm w).
  destruct (Rlt_dec ve (vnorm w)); [rewrite xlt_true by auto; reflexivity|]. rewrite xlt_false by lra. cbn [orb].
  rewrite xsqrt_fin by lra. rewrite xopp_fin, !xmul_fin, xpow_fin. repeat (rewrite xdiv_fin by lra). rewrite xexp_fin, !xmul_fin.
  do 3 f_equal. field. lra.
Qed.

(** Moving observer: the angular integral. *)
Lemma marginal_moving N v0 vo ve v : 0 < N -> 0 < v0 -> 0 < vo <= ve -> 0 < v <= ve + vo ->
  is_RInt (fun c => 2 * PI * v ^ 2 * vdens N v0 ve (v * v + vo * vo + 2 * v * vo * c)) (-1) 1 (pdf_moving N v0 vo ve v).
Proof.
  intros HN H0 Ho Hv. assert (P := sqrt_PI_pos). assert (P0 := PI_RGT_0). assert (VV : 0 < v * vo) by nra.
  set (cs := (ve * ve - v * v - vo * vo) / (2 * v * vo)).
  assert (Ecs : v * v + vo * vo + 2 * v * vo * cs = ve * ve) by (unfold cs; field; lra).
  assert (Hcs : -1 <= cs).
  { apply Rmult_le_reg_l with (2 * v * vo); [lra|].
    assert (2 * v * vo * cs = ve * ve - v * v - vo * vo) by (unfold cs; field; lra). rewrite H.
    assert (0 <= (ve - (v - vo)) * (ve + (v - vo))) by (apply Rmult_le_pos; lra). lra. }
  set (m := Rmin 1 cs). assert (Hm : -1 <= m <= 1) by (unfold m; split; [apply Rmin_glb; lra|apply Rmin_l]).
  set (K := 2 * PI * v ^ 2 * (1 / N * (1 / (v0 * sqrt PI) ^ 3))).
  set (G := fun c => - (K * (v0 * v0 / (2 * v * vo))) * exp (- (v * v + vo * vo + 2 * v * vo * c) / v0 / v0)).
  set (g := fun c => K * exp (- (v * v + vo * vo + 2 * v * vo * c) / v0 / v0)).
  assert (I1 : is_RInt g (-1) m (G m - G (-1))).
  { apply RInt_by_derive; [lra| |]; intros x _.
    - unfold G, g. auto_derive; auto. unfold Rdiv. field. lra.
    - apply continuous_of_ex_derive. unfold g. auto_derive. auto. }
  assert (SQ : forall c, -1 <= c -> 0 <= v * v + vo * vo + 2 * v * vo * c) by (intros; assert (h := Rle_0_sqr (v - vo)); unfold Rsqr in h; nra).
  assert (J1 : is_RInt (fun c => 2 * PI * v ^ 2 * vdens N v0 ve (v * v + vo * vo + 2 * v * vo * c)) (-1) m (G m - G (-1))).
  { apply (is_RInt_ext g); auto. intros c Hc. rewrite Rmin_left, Rmax_right in Hc by lra. unfold vdens.
    assert (c < cs) by (assert (h := Rmin_r 1 cs); fold m in h; lra).
    destruct (Rlt_dec ve _) as [L | L].
    - exfalso. assert (v * v + vo * vo + 2 * v * vo * c <= ve * ve) by nra.
      apply (Rlt_not_le _ _ L). rewrite <- (sqrt_square ve) by lra. apply sqrt_le_1_alt; auto.
    - req. unfold g, K. ring. }
  assert (J2 : is_RInt (fun c => 2 * PI * v ^ 2 * vdens N v0 ve (v * v + vo * vo + 2 * v * vo * c)) m 1 0).
  { apply is_RInt_zero. intros c Hc. rewrite Rmin_left, Rmax_right in Hc by lra. unfold vdens.
    assert (cs < c). { unfold m, Rmin in Hc. destruct (Rle_dec 1 cs); lra. }
    destruct (Rlt_dec ve _) as [L | L]; [req; ring|]. exfalso. apply L. rewrite <- (sqrt_square ve) at 1 by lra. apply sqrt_lt_1_alt. nra. }
  replace (pdf_moving N v0 vo ve v) with (plus (G m - G (-1)) 0 : R).
  { apply (is_RInt_Chasles (V := R_NormedModule) _ (-1) m 1); auto. }
  change (G m - G (-1) + 0 = pdf_moving N v0 vo ve v). unfold G, pdf_moving.
  replace (exp (- (v * v + vo * vo + 2 * v * vo * -1) / v0 / v0)) with (bell v0 (v - vo)) by (unfold bell; f_equal; field; lra).
  replace (exp (- (v * v + vo * vo + 2 * v * vo * m) / v0 / v0)) with (bell v0 (Rmin (v + vo) ve)).
  - unfold K. replace (2 * PI * v ^ 2 * (1 / N * (1 / (v0 * sqrt PI) ^ 3)) * (v0 * v0 / (2 * v * vo)))
      with (v / N / v0 / sqrt PI / vo * (PI / (sqrt PI * sqrt PI))) by (field; repeat split; lra).
    rewrite sqrt_sqrt by lra. replace (PI / PI) with 1 by (field; lra). ring.
  - unfold bell, m. f_equal. destruct (Rle_dec 1 cs) as [L | L].
    + rewrite (Rmin_left 1 cs) by auto. assert ((v + vo) * (v + vo) <= ve * ve) by nra.
      rewrite Rmin_left by nra. field. lra.
    + rewrite (Rmin_right 1 cs) by lra. assert (ve * ve < (v + vo) * (v + vo)) by nra.
      rewrite Ecs, Rmin_right by nra. field. lra.
Qed.

Lemma marginal_rest N v0 ve v : 0 < N -> 0 < v0 -> 0 < v <= ve ->
  is_RInt (fun c => 2 * PI * v ^ 2 * vdens N v0 ve (v * v + 0 * 0 + 2 * v * 0 * c)) (-1) 1 (pdf_rest N v0 v).
Proof.
  intros HN H0 Hv. assert (P := sqrt_PI_pos). assert (P0 := PI_RGT_0).
  apply (is_RInt_ext (fun _ => 2 * PI * v ^ 2 * (1 / N * (1 / (v0 * sqrt PI) ^ 3)) * bell v0 v)).
  - intros c _. replace (v * v + 0 * 0 + 2 * v * 0 * c) with (v * v) by ring. unfold vdens. rewrite sqrt_square by lra.
    destruct (Rlt_dec ve v); [lra|]. req. unfold bell. replace (- (v * v) / v0 / v0) with (- (v / v0 * (v / v0))) by (field; lra). ring.
  - replace (pdf_rest N v0 v) with (scal (1 - -1) (2 * PI * v ^ 2 * (1 / N * (1 / (v0 * sqrt PI) ^ 3)) * bell v0 v) : R).
    { apply (is_RInt_const (V := R_NormedModule)). }
    change ((1 - -1) * (2 * PI * v ^ 2 * (1 / N * (1 / (v0 * sqrt PI) ^ 3)) * bell v0 v) = pdf_rest N v0 v). unfold pdf_rest.
    transitivity (4 * v * v / N / sqrt PI / v0 / v0 / v0 * bell v0 v * (PI / (sqrt PI * sqrt PI))); [field; repeat split; lra|].
    rewrite sqrt_sqrt by lra. field. repeat split; lra.
Qed.

(** C63 *)
Lemma angular_marginal s v0 vel ve e e1 e2 : consistent s v0 (vnorm vel) ve -> h_velobs s = vel ->
  0 < v0 -> 0 < ve -> vnorm vel <= ve -> orthonormal e e1 e2 -> vel = vscale (vnorm vel) e ->
  exists f p, (forall v c phi, 0 < v -> -1 < c <= 1 -> PDF_Velocity s (polar e e1 e2 v c phi) = Fin (f v c)) /\
    (forall v, PDF_Speed_SHM s (Fin v) = Fin (p v)) /\
    (forall v, 0 < v <= ve + vnorm vel -> is_RInt (fun c => 2 * PI * v ^ 2 * f v c) (-1) 1 (p v)) /\
    is_RInt p 0 (ve + vnorm vel) 1.
Proof.
  intros C Hvel H0 He Ho O Ev. set (vo := vnorm vel) in *. assert (Vo : 0 <= vo) by apply vnorm_nonneg.
  assert (HN : 0 < gauss3 (ve / v0)) by (apply gauss3_pos, Rdiv_lt_0_compat; auto).
  exists (fun v c => vdens (gauss3 (ve / v0)) v0 ve (v * v + vo * vo + 2 * v * vo * c)), (pdf_all (gauss3 (ve / v0)) v0 vo ve).
  split; [|split; [|split]].
  - intros v c phi Hv Hc. unfold PDF_Velocity. rewrite Hvel, Ev.
    assert (D := polar_dot e e1 e2 v c phi vo O ltac:(lra)). cbv zeta in D. rewrite <- D. apply (PDF_Velocity_fin s v0 vo ve); auto.
    rewrite D. destruct Vo as [Vo | <-]; [|nra].
    assert (0 < v * vo) by nra. assert (h := Rle_0_sqr (v - vo)). unfold Rsqr in h. nra.
  - intros v. apply PDF_Speed_all; auto.
  - intros v Hv. unfold pdf_all.
    destruct (Rlt_dec v 0); [lra|]. destruct (Rlt_dec (ve + vo) v); [lra|].
    destruct (Rlt_dec 0 vo); [apply marginal_moving; auto; lra|].
    assert (Z : vo = 0) by lra. rewrite Z. apply marginal_rest; auto; lra.
  - destruct (halo_cdf s v0 vo ve C H0 He ltac:(lra)) as (f & F1 & F2 & _ & F4).
    destruct (F2 (ve + vo) ltac:(lra)) as (c & E & I). rewrite F4 in E by lra. apply Fin_inj in E. subst c.
    apply (is_RInt_ext f); auto. intros x _. assert (Q := F1 x). rewrite (PDF_Speed_all s v0 vo ve) in Q; auto.
    apply Fin_inj in Q. auto.
Qed.

(** * C26 *)
Lemma pp_put_eta t b e be x s : ppstep (with_table t (pp_core b e be)) (Set_Eta x) = Ok s -> s = with_table t (pp_core b x be).
Proof. cbn. intros H. injection H as <-. reflexivity. Qed.

Lemma PDF_Velocity_any s v0 vo ve w : consistent s v0 vo ve -> 0 < v0 -> 0 < ve -> exists p, PDF_Velocity_SHM s w = Fin p /\ 0 <= p.
Proof.
  intros C H0 He. assert (P := sqrt_PI_pos).
  assert (HN : 0 < gauss3 (ve / v0)) by (apply gauss3_pos, Rdiv_lt_0_compat; auto).
  destruct (Rlt_dec 0 (vdot w w)) as [L | L].
  - eexists. split; [apply (PDF_Velocity_fin s v0 vo ve); auto|]. unfold vdens. destruct (Rlt_dec _ _); [lra|].
    assert (Q : 0 < v0 * sqrt PI) by (apply Rmult_lt_0_compat; auto). assert (Q3 := pow_lt _ 3 Q).
    left. apply Rmult_lt_0_compat; [|apply exp_pos]. apply Rmult_lt_0_compat; apply Rdiv_lt_0_compat; lra.
  - exists 0. split; [|lra]. destruct C as (E0 & Eo & Ee & Ed & EM & EN). unfold PDF_Velocity_SHM. rewrite Ed, Ee.
    assert (Z : vdot w w = 0). { assert (0 <= vdot w w) by (unfold vdot; nra). lra. }
    unfold vnorm. rewrite Z, sqrt_0. rewrite (xle_true 0 0), orb_true_r by lra. reflexivity.
Qed.

(** The velocity density is the mixture of the standard halo's and the sausage's (that of the same object at eta = 1). *)
Lemma mixture_velocity t rho v0 vel ve e b w : 0 < v0 -> 0 < ve -> 0 < b < 1 ->
  exists r q, PDF_Velocity (SHM_of_velocity rho v0 vel ve) w = Fin r /\ 0 <= r /\
    PDF_Velocity_pp (with_table t (pp_core (SHM_of_velocity rho v0 vel ve) 1 b)) w = Fin q /\ 0 <= q /\
    PDF_Velocity_pp (with_table t (pp_core (SHM_of_velocity rho v0 vel ve) e b)) w = Fin ((1 - e) * r + e * q).
Proof.
  intros H0 He Hb.
  assert (CC := core_consistent t rho v0 vel ve e b). set (s := with_table _ _) in CC.
  destruct (PDF_Velocity_any _ _ _ _ (vadd w vel) (proj1 CC) H0 He) as [r [Er Pr]].
  destruct (sausage_normalised s _ _ _ _ _ CC H0 He Hb) as (f & F & Ef & Pf & _).
  exists r, (f (vadd w vel)). split; [exact Er|]. split; [exact Pr|]. specialize (Ef (vadd w vel)).
  split; [|split; [apply Pf|]]; unfold PDF_Velocity_pp.
  - change (PDF_Velocity_SHM _ _) with (PDF_Velocity_SHM (p_base s) (vadd w vel)) at 1.
    change (PDF_Velocity_S _ _) with (PDF_Velocity_S s (vadd w vel)). rewrite Er, Ef.
    change (p_eta _) with (Fin 1). rewrite xsub_fin, !xmul_fin, xadd_fin. f_equal. ring.
  - change (PDF_Velocity_SHM _ _) with (PDF_Velocity_SHM (p_base s) (vadd w vel)) at 1.
    change (PDF_Velocity_S _ _) with (PDF_Velocity_S s (vadd w vel)). rewrite Er, Ef.
    change (p_eta _) with (Fin e). rewrite xsub_fin, !xmul_fin, xadd_fin. reflexivity.
Qed.

Lemma mixture_speed I2 t rho v0 vel ve e b v q : 0 < v0 -> 0 < ve ->
  PDF_Speed_pp I2 (with_table t (pp_core (SHM_of_velocity rho v0 vel ve) 1 b)) (Fin v) = Ok (Fin q) ->
  exists r, PDF_Speed_SHM (SHM_of_velocity rho v0 vel ve) (Fin v) = Fin r /\
    PDF_Speed_pp I2 (with_table t (pp_core (SHM_of_velocity rho v0 vel ve) e b)) (Fin v) = Ok (Fin ((1 - e) * r + e * q)).
Proof.
  intros H0 He H.
  assert (E : PDF_Speed_SHM (SHM_of_velocity rho v0 vel ve) (Fin v) = Fin (pdf_all (gauss3 (ve / v0)) v0 (vnorm vel) ve v))
    by (apply PDF_Speed_all; auto; [apply velocity_consistent|apply vnorm_nonneg]).
  exists (pdf_all (gauss3 (ve / v0)) v0 (vnorm vel) ve v). split; [exact E|]. revert H.
  unfold PDF_Speed_pp.
  change (PDF_Speed_S I2 (with_table t (pp_core (SHM_of_velocity rho v0 vel ve) e b)) (Fin v))
    with (PDF_Speed_S I2 (with_table t (pp_core (SHM_of_velocity rho v0 vel ve) 1 b)) (Fin v)).
  destruct (PDF_Speed_S _ _ _) as [x| | |]; cbn [bind]; try discriminate.
  change (p_base _) with (renamed (SHM_of_velocity rho v0 vel ve)).
  change (PDF_Speed_SHM (renamed ?s) ?v) with (PDF_Speed_SHM s v). rewrite E.
  change (p_eta (with_table t (pp_core (SHM_of_velocity rho v0 vel ve) 1 b))) with (Fin 1).
  change (p_eta (with_table t (pp_core (SHM_of_velocity rho v0 vel ve) e b))) with (Fin e).
  intros H. apply Ok_inj in H. rewrite xsub_fin, xmul_fin in H.
  destruct x as [x| | |]; [|cbn in H; unfold inf_sign in H; repeat (match type of H with context [if ?x then _ else _] => destruct x end; cbn in H); discriminate..].
  rewrite xmul_fin, xadd_fin in H. apply Fin_inj in H. rewrite xsub_fin, !xmul_fin, xadd_fin. do 2 f_equal. rewrite <- H. ring.
Qed.

Lemma mixture_cdf I I2 t rho v0 vel ve e b v q : 0 < v0 -> 0 < ve -> vnorm vel <= ve ->
  CDF_Speed_pp I I2 (with_table t (pp_core (SHM_of_velocity rho v0 vel ve) 1 b)) (Fin v) = Ok (Fin q) ->
  exists r, CDF_Speed_SHM (SHM_of_velocity rho v0 vel ve) (Fin v) = Fin r /\
    CDF_Speed_pp I I2 (with_table t (pp_core (SHM_of_velocity rho v0 vel ve) e b)) (Fin v) = Ok (Fin ((1 - e) * r + e * q)).
Proof.
  intros H0 He Hle H. assert (Vo := vnorm_nonneg vel).
  assert (E : exists r, CDF_Speed_SHM (SHM_of_velocity rho v0 vel ve) (Fin v) = Fin r).
  { destruct (halo_cdf _ v0 (vnorm vel) ve (velocity_consistent rho v0 vel ve) H0 He ltac:(lra)) as (f & _ & A & B & _).
    destruct (Rle_dec 0 v) as [L | L]; [destruct (A v L) as (c & -> & _); eauto|rewrite B by lra; eauto]. }
  destruct E as [r E]. exists r. split; [exact E|]. revert H.
  unfold CDF_Speed_pp.
  change (CDF_Speed_S I I2 (with_table t (pp_core (SHM_of_velocity rho v0 vel ve) e b)) (Fin v))
    with (CDF_Speed_S I I2 (with_table t (pp_core (SHM_of_velocity rho v0 vel ve) 1 b)) (Fin v)).
  destruct (CDF_Speed_S _ _ _ _) as [x| | |]; cbn [bind]; try discriminate.
  change (p_base _) with (renamed (SHM_of_velocity rho v0 vel ve)).
  change (CDF_Speed_SHM (renamed ?s) ?v) with (CDF_Speed_SHM s v). rewrite E.
  change (p_eta (with_table t (pp_core (SHM_of_velocity rho v0 vel ve) 1 b))) with (Fin 1).
  change (p_eta (with_table t (pp_core (SHM_of_velocity rho v0 vel ve) e b))) with (Fin e).
  intros H. apply Ok_inj in H. rewrite xsub_fin, xmul_fin in H.
  destruct x as [x| | |]; [|cbn in H; unfold inf_sign in H; repeat (match type of H with context [if ?x then _ else _] => destruct x end; cbn in H); discriminate..].
  rewrite xmul_fin, xadd_fin in H. apply Fin_inj in H. rewrite xsub_fin, !xmul_fin, xadd_fin. do 2 f_equal. rewrite <- H. ring.
Qed.

(** beta = 0 (an isotropic "sausage"): the normalisation is 0 * infinity. *)
Lemma isotropic_N_S v0 ve : 0 < v0 -> exists sr st, sigma_r_of (Fin v0) (Fin 0) = Fin sr /\ sigma_theta_of (Fin v0) (Fin 0) = Fin st /\
  N_S_of (Fin ve) (Fin 0) (Fin sr) (Fin st) = NaN.
Proof.
  intros H0. destruct (sigmas v0 0 H0 ltac:(lra)) as (sr & st & E1 & E2 & P1 & P2 & _). exists sr, st. split; auto. split; auto.
  destruct sqrt2 as [S2 _]. unfold N_S_of. rewrite xsub_fin, Rminus_0_r.
  replace (xdiv (Fin 1) (Fin 0)) with PInf by (cbn; destruct (Req_EM_T 0 0); [|lra]; unfold inf_sign; rewrite rpos_true by lra; auto).
  change (xsqrt PInf) with PInf. repeat (rewrite xdiv_fin by lra).
  rewrite !xsqrt_fin by lra. replace (0 / 1) with 0 by field. rewrite sqrt_0. rewrite !xopp_fin, !xmul_fin. repeat (rewrite xdiv_fin by lra).
  rewrite xexp_fin, ?xmul_fin. cbn [xerf xerfi]. rewrite Rmult_0_r, erfi_0.
  replace (xmul PInf (Fin (exp (- ve * ve / 2 / st / st)))) with PInf.
  - cbn. unfold inf_sign. rewrite rpos_false, rneg_false by lra. reflexivity.
  - cbn. unfold inf_sign. rewrite rpos_true; auto. apply exp_pos.
Qed.
Lemma isotropic_nan t rho v0 vel ve e w : 0 < v0 -> vnorm (vadd w vel) <= ve ->
  PDF_Velocity_pp (with_table t (pp_core (SHM_of_velocity rho v0 vel ve) e 0)) w = NaN.
Proof.
  intros H0 Hw. destruct (isotropic_N_S v0 ve H0) as (sr & st & E1 & E2 & E3).
  unfold PDF_Velocity_pp, PDF_Velocity_S.
  cbn [with_table pp_core Normalize_PDF_pp Compute_Sigmas p_base p_eta p_beta p_sr p_st p_sp p_NS renamed Normalize_PDF SHM_of_velocity h_v0 h_vesc h_velobs].
  rewrite E1, E2, E3. rewrite xlt_false by lra.
  assert (D1 : xdiv (Fin 1) NaN = NaN) by reflexivity. assert (D2 : forall y, xdiv NaN y = NaN) by (intros []; reflexivity).
  assert (D3 : forall y, xmul NaN y = NaN) by (intros []; reflexivity). assert (D4 : forall y, xmul y NaN = NaN) by (intros []; reflexivity).
  assert (D5 : forall y, xadd y NaN = NaN) by (intros []; reflexivity).
  rewrite D1, !D2, D3, D4, D5. reflexivity.
Qed.
