(** Lemmas about the standard halo model. *)
From Coq Require Import Reals List ZArith String Lra Lia Bool Psatz.
From Coquelicot Require Import Coquelicot.
From Verif Require Import Base XrFacts Analysis Quadrature Erf Astronomy_Model Distribution_Model Halo_Model.
Import ListNotations.
Local Open Scope R_scope.

(** * Specification vocabulary *)

(** A consistently configured halo with dispersion v0, observer speed vo and escape speed ve: the speed domain is
    [0, ve + vo] and the normalisation is that of a Gaussian truncated at ve. *)
Definition configured (s : SHM) (v0 vo ve D : R) : Prop :=
  h_v0 s = Fin v0 /\ h_vobs s = Fin vo /\ h_vesc s = Fin ve /\ h_dmin s = Fin 0 /\ h_dmax s = Fin D /\
  h_N s = N_esc_of (Fin v0) (Fin ve).
Definition consistent (s : SHM) (v0 vo ve : R) : Prop := configured s v0 vo ve (ve + vo).

(** * Real versions of the formulas *)
Definition bell (v0 u : R) : R := exp (- (u / v0 * (u / v0))).
Lemma bell_derive v0 u : v0 <> 0 -> is_derive (bell v0) u (- (2 * u / v0 / v0) * bell v0 u).
Proof. intros H. unfold bell. auto_derive; [auto|]. unfold Rdiv. field. auto. Qed.
Lemma bell_ex_derive v0 u : v0 <> 0 -> ex_derive (bell v0) u.
Proof. intros; eexists; apply bell_derive; auto. Qed.
Lemma Derive_bell v0 u : v0 <> 0 -> Derive (bell v0) u = - (2 * u / v0 / v0) * bell v0 u.
Proof. intros; apply is_derive_unique, bell_derive; auto. Qed.
Lemma bell_continuous v0 u : v0 <> 0 -> continuous (bell v0) u.
Proof. intros; apply continuous_of_ex_derive, bell_ex_derive; auto. Qed.
Lemma bell_pos v0 u : 0 < bell v0 u. Proof. apply exp_pos. Qed.
Lemma bell_even v0 u : v0 <> 0 -> bell v0 (- u) = bell v0 u.
Proof. intros. unfold bell. f_equal. field. auto. Qed.
Lemma bell_le v0 a b : 0 < v0 -> Rabs a <= Rabs b -> bell v0 b <= bell v0 a.
Proof.
  intros H0 H. unfold bell. assert (a * a <= b * b).
  { replace (a * a) with (Rabs a * Rabs a) by (rewrite <- Rabs_mult; apply Rabs_pos_eq; nra).
    replace (b * b) with (Rabs b * Rabs b) by (rewrite <- Rabs_mult; apply Rabs_pos_eq; nra).
    assert (h := Rabs_pos a). nra. }
  assert (a / v0 * (a / v0) <= b / v0 * (b / v0)).
  { replace (a / v0 * (a / v0)) with (a * a / (v0 * v0)) by (field; lra).
    replace (b / v0 * (b / v0)) with (b * b / (v0 * v0)) by (field; lra).
    apply Rmult_le_compat_r; auto. left; apply Rinv_0_lt_compat; nra. }
  destruct (Rle_lt_or_eq_dec (- (b / v0 * (b / v0))) (- (a / v0 * (a / v0))) ltac:(lra)) as [L | E].
  - left; apply exp_increasing; auto.
  - rewrite E; lra.
Qed.
Lemma bell_lt v0 a b : 0 < v0 -> Rabs a < Rabs b -> bell v0 b < bell v0 a.
Proof.
  intros H0 H. unfold bell. assert (a * a < b * b).
  { replace (a * a) with (Rabs a * Rabs a) by (rewrite <- Rabs_mult; apply Rabs_pos_eq; nra).
    replace (b * b) with (Rabs b * Rabs b) by (rewrite <- Rabs_mult; apply Rabs_pos_eq; nra).
    assert (h := Rabs_pos a). nra. }
  apply exp_increasing. apply Ropp_lt_contravar.
  replace (a / v0 * (a / v0)) with (a * a / (v0 * v0)) by (field; lra).
  replace (b / v0 * (b / v0)) with (b * b / (v0 * v0)) by (field; lra).
  apply Rmult_lt_compat_r; auto. apply Rinv_0_lt_compat; nra.
Qed.

Lemma N_fin v0 ve : v0 <> 0 -> N_esc_of (Fin v0) (Fin ve) = Fin (gauss3 (ve / v0)).
Proof.
  intros H. assert (P := sqrt_PI_pos). assert (P0 := PI_RGT_0). unfold N_esc_of, gauss3.
  rewrite xopp_fin, xsqrt_fin by lra. rewrite !xmul_fin. repeat (rewrite xdiv_fin by lra).
  rewrite xexp_fin. cbn [xerf]. rewrite xmul_fin, xsub_fin. do 2 f_equal.
  replace (- ve * ve / v0 / v0) with (- (ve / v0 * (ve / v0))) by (field; auto). field. lra.
Qed.

(** Speed density for a moving and for a resting observer. *)
Definition pdf_moving (N v0 vo ve v : R) : R := v / N / v0 / sqrt PI / vo * (bell v0 (v - vo) - bell v0 (Rmin (v + vo) ve)).
Definition pdf_rest (N v0 v : R) : R := 4 * v * v / N / sqrt PI / v0 / v0 / v0 * bell v0 v.

Lemma two_sinh v0 v vo : v0 <> 0 ->
  2 * exp (- (v * v + vo * vo) / v0 / v0) * sinh (2 * v * vo / v0 / v0) = bell v0 (v - vo) - bell v0 (v + vo).
Proof.
  intros H. unfold bell, sinh.
  replace (2 * exp (- (v * v + vo * vo) / v0 / v0) * ((exp (2 * v * vo / v0 / v0) - exp (- (2 * v * vo / v0 / v0))) / 2))
    with (exp (- (v * v + vo * vo) / v0 / v0) * exp (2 * v * vo / v0 / v0) - exp (- (v * v + vo * vo) / v0 / v0) * exp (- (2 * v * vo / v0 / v0)))
    by field.
  rewrite <- !exp_plus. f_equal; [f_equal|f_equal; f_equal]; field; auto.
Qed.

Lemma PDF_Speed_moving s v0 vo ve D v : configured s v0 vo ve D -> 0 < v0 -> 0 < vo -> 0 < ve -> 0 <= v <= D ->
  PDF_Speed_SHM s (Fin v) = Fin (pdf_moving (gauss3 (ve / v0)) v0 vo ve v).
Proof.
  intros (E0 & Eo & Ee & Ed & EM & EN) H0 Ho He Hv.
  assert (HN : 0 < gauss3 (ve / v0)) by (apply gauss3_pos, Rdiv_lt_0_compat; auto).
  assert (P := sqrt_PI_pos). assert (P0 := PI_RGT_0).
  unfold PDF_Speed_SHM. rewrite E0, Eo, Ee, Ed, EM, EN, N_fin by lra.
  rewrite !xlt_false by lra. rewrite xlt_true by lra. cbn [orb].
  rewrite xsqrt_fin by lra.
  rewrite ?xopp_fin, ?xmul_fin, ?xadd_fin, ?xopp_fin, xpow_fin, ?xopp_fin, ?xmul_fin.
  repeat (rewrite xdiv_fin by lra). cbn [xsinh]. rewrite !xexp_fin, xabs_fin, !xsub_fin, !xmul_fin.
  rewrite two_sinh by lra. unfold StepFunction.
  rewrite Rabs_pos_eq by lra.
  replace (exp (- (v + vo) ^ 2 / v0 / v0)) with (bell v0 (v + vo)) by (unfold bell; f_equal; field; lra).
  replace (exp (- ve * ve / v0 / v0)) with (bell v0 ve) by (unfold bell; f_equal; field; lra).
  unfold pdf_moving. destruct (Rle_dec ve (v + vo)).
  - rewrite xle_true by lra. rewrite xmul_fin, xadd_fin, xmul_fin. rewrite Rmin_right by lra. f_equal. ring.
  - rewrite xle_false by lra. rewrite xmul_fin, xadd_fin, xmul_fin. rewrite Rmin_left by lra. f_equal. ring.
Qed.

Lemma PDF_Speed_rest s v0 ve v : consistent s v0 0 ve -> 0 < v0 -> 0 < ve -> 0 <= v <= ve ->
  PDF_Speed_SHM s (Fin v) = Fin (pdf_rest (gauss3 (ve / v0)) v0 v).
Proof.
  intros (E0 & Eo & Ee & Ed & EM & EN) H0 He Hv.
  assert (HN : 0 < gauss3 (ve / v0)) by (apply gauss3_pos, Rdiv_lt_0_compat; auto).
  assert (P := sqrt_PI_pos). assert (P0 := PI_RGT_0).
  unfold PDF_Speed_SHM. rewrite E0, Eo, Ed, EM, EN, N_fin by lra.
  rewrite (xlt_false v 0), (xlt_false (ve + 0) v), (xlt_false 0 0) by lra. cbn [orb].
  rewrite xsqrt_fin by lra. rewrite ?xopp_fin, ?xmul_fin. repeat (rewrite xdiv_fin by lra).
  rewrite xexp_fin, xsub_fin. unfold StepFunction. rewrite xle_true by lra. rewrite !xmul_fin. f_equal. unfold pdf_rest.
  replace (exp (- v * v / v0 / v0)) with (bell v0 v) by (unfold bell; f_equal; field; lra). ring.
Qed.

Lemma PDF_Speed_outside s v0 vo ve v : consistent s v0 vo ve -> v < 0 \/ ve + vo < v -> PDF_Speed_SHM s (Fin v) = Fin 0.
Proof.
  intros (E0 & Eo & Ee & Ed & EM & EN) H. unfold PDF_Speed_SHM. rewrite Ed, EM.
  destruct H as [H | H].
  - rewrite (xlt_true v 0) by lra. reflexivity.
  - rewrite (xlt_true (ve + vo) v), orb_true_r by lra. reflexivity.
Qed.

Definition cdf_low (N v0 vo v : R) : R := 1 / 2 / N * (erf ((v - vo) / v0) + erf ((v + vo) / v0) -
  v0 / vo / sqrt PI * (bell v0 (v - vo) - bell v0 (v + vo))).
Definition cdf_add (N v0 vo ve v : R) : R := 1 / 2 / N * (erf (ve / v0) - erf ((v + vo) / v0) -
  v0 / vo / sqrt PI * bell v0 (v + vo) + (v0 * v0 - v * v + (ve - vo) * (ve - vo)) / vo / v0 / sqrt PI * bell v0 ve).
Definition cdf_moving (N v0 vo ve v : R) : R :=
  cdf_low N v0 vo v + (if Rlt_dec (ve - vo) v then cdf_add N v0 vo ve v else 0).
Definition cdf_rest (N v0 v : R) : R := 1 / N * gauss3 (v / v0).

Lemma CDF_Speed_moving s v0 vo ve v : consistent s v0 vo ve -> 0 < v0 -> 0 < vo -> 0 < ve -> 0 < v < ve + vo ->
  CDF_Speed_SHM s (Fin v) = Fin (cdf_moving (gauss3 (ve / v0)) v0 vo ve v).
Proof.
  intros (E0 & Eo & Ee & Ed & EM & EN) H0 Ho He Hv.
  assert (HN : 0 < gauss3 (ve / v0)) by (apply gauss3_pos, Rdiv_lt_0_compat; auto).
  assert (P := sqrt_PI_pos). assert (P0 := PI_RGT_0).
  unfold CDF_Speed_SHM. rewrite E0, Eo, Ee, Ed, EM, EN, N_fin by lra.
  rewrite !xle_false by lra. rewrite (xlt_true 0 vo) by lra.
  rewrite !xsqrt_fin by lra. rewrite ?xadd_fin, ?xsub_fin, ?xopp_fin, ?xmul_fin, ?xadd_fin, ?xsub_fin, ?xadd_fin.
  repeat (rewrite xdiv_fin by lra). cbn [xerf]. rewrite ?xexp_fin, ?xadd_fin, ?xsub_fin, ?xmul_fin, ?xadd_fin, ?xsub_fin, ?xmul_fin, ?xsub_fin, ?xmul_fin, ?xadd_fin.
  replace (exp (- (v - vo) * (v - vo) / v0 / v0)) with (bell v0 (v - vo)) by (unfold bell; f_equal; field; lra).
  replace (exp (- (v + vo) * (v + vo) / v0 / v0)) with (bell v0 (v + vo)) by (unfold bell; f_equal; field; lra).
  replace (exp (- ve * ve / v0 / v0)) with (bell v0 ve) by (unfold bell; f_equal; field; lra).
  unfold cdf_moving, cdf_low, cdf_add. destruct (Rlt_dec (ve - vo) v).
  - rewrite (xlt_true (ve - vo) v) by lra. reflexivity.
  - rewrite (xlt_false (ve - vo) v) by lra. f_equal. ring.
Qed.

Lemma CDF_Speed_rest s v0 ve v : consistent s v0 0 ve -> 0 < v0 -> 0 < ve -> 0 < v < ve ->
  CDF_Speed_SHM s (Fin v) = Fin (cdf_rest (gauss3 (ve / v0)) v0 v).
Proof.
  intros (E0 & Eo & Ee & Ed & EM & EN) H0 He Hv.
  assert (HN : 0 < gauss3 (ve / v0)) by (apply gauss3_pos, Rdiv_lt_0_compat; auto).
  assert (P := sqrt_PI_pos). assert (P0 := PI_RGT_0).
  unfold CDF_Speed_SHM. rewrite E0, Eo, Ed, EM, EN, N_fin by lra.
  rewrite !xle_false by lra. rewrite (xlt_false 0 0) by lra.
  rewrite !xsqrt_fin by lra. rewrite ?xopp_fin, ?xmul_fin. repeat (rewrite xdiv_fin by lra). cbn [xerf].
  rewrite xexp_fin, xmul_fin, xsub_fin, xmul_fin. f_equal. unfold cdf_rest.
  generalize dependent (gauss3 (ve / v0)). intros N HN. unfold gauss3.
  replace (exp (- v * v / v0 / v0)) with (exp (- (v / v0 * (v / v0)))) by (f_equal; field; lra). field. lra.
Qed.

Lemma CDF_Speed_low s v0 vo ve v : consistent s v0 vo ve -> v <= 0 -> CDF_Speed_SHM s (Fin v) = Fin 0.
Proof.
  intros (E0 & Eo & Ee & Ed & EM & EN) H. unfold CDF_Speed_SHM. rewrite Ed, xle_true by lra. reflexivity.
Qed.
Lemma CDF_Speed_high s v0 vo ve v : consistent s v0 vo ve -> 0 < v -> ve + vo <= v -> CDF_Speed_SHM s (Fin v) = Fin 1.
Proof.
  intros (E0 & Eo & Ee & Ed & EM & EN) H H'. unfold CDF_Speed_SHM. rewrite Ed, EM, xle_false, xle_true by lra. reflexivity.
Qed.

(** * The cumulative function is the integral of the density *)
Section Moving.
Variables N v0 vo ve : R.
Hypothesis (HN : 0 < N) (H0 : 0 < v0) (Ho : 0 < vo) (He : vo <= ve).

Definition pdf_a v := v / N / v0 / sqrt PI / vo * (bell v0 (v - vo) - bell v0 (v + vo)).
Definition pdf_b v := v / N / v0 / sqrt PI / vo * (bell v0 (v - vo) - bell v0 ve).

Lemma pdf_a_continuous v : continuous pdf_a v.
Proof.
  apply continuous_of_ex_derive. unfold pdf_a. auto_derive. repeat split; auto; apply bell_ex_derive; lra.
Qed.
Lemma pdf_b_continuous v : continuous pdf_b v.
Proof.
  apply continuous_of_ex_derive. unfold pdf_b. auto_derive. repeat split; auto; apply bell_ex_derive; lra.
Qed.

Lemma cdf_low_derive v : is_derive (cdf_low N v0 vo) v (pdf_a v).
Proof.
  assert (P := sqrt_PI_pos). unfold cdf_low, pdf_a. auto_derive.
  - repeat split; auto; try apply erf_ex_derive; apply bell_ex_derive; lra.
  - change (fun x => erf x) with erf. change (fun x => bell v0 x) with (bell v0).
    rewrite !Derive_erf, !Derive_bell by lra. unfold bell, Rminus, Rdiv.
    field. lra.
Qed.
Lemma cdf_add_derive v : is_derive (fun v => cdf_low N v0 vo v + cdf_add N v0 vo ve v) v (pdf_b v).
Proof.
  assert (P := sqrt_PI_pos). unfold cdf_low, cdf_add, pdf_b. auto_derive.
  - repeat split; auto; try apply erf_ex_derive; apply bell_ex_derive; lra.
  - change (fun x => erf x) with erf. change (fun x => bell v0 x) with (bell v0).
    rewrite !Derive_erf, !Derive_bell by lra. unfold bell, Rminus, Rdiv.
    field. lra.
Qed.

Lemma cdf_low_0 : cdf_low N v0 vo 0 = 0.
Proof.
  assert (P := sqrt_PI_pos). unfold cdf_low. replace ((0 - vo) / v0) with (- (vo / v0)) by (field; lra).
  rewrite erf_odd. replace (0 + vo) with vo by ring. replace (0 - vo) with (- vo) by ring. rewrite bell_even by lra.
  field. lra.
Qed.
Lemma cdf_add_start : cdf_add N v0 vo ve (ve - vo) = 0.
Proof.
  assert (P := sqrt_PI_pos). unfold cdf_add. replace (ve - vo + vo) with ve by ring. field. lra.
Qed.
Lemma cdf_end : N = gauss3 (ve / v0) -> cdf_low N v0 vo (ve + vo) + cdf_add N v0 vo ve (ve + vo) = 1.
Proof.
  intros EN. assert (P := sqrt_PI_pos). unfold cdf_low, cdf_add.
  replace (ve + vo - vo) with ve by ring.
  replace (1 / 2 / N * _ + 1 / 2 / N * _) with
    (1 / N * (erf (ve / v0) - 2 * (ve / v0) / sqrt PI * bell v0 ve)) by (field; lra).
  assert (G : gauss3 (ve / v0) = erf (ve / v0) - 2 * (ve / v0) / sqrt PI * bell v0 ve) by reflexivity.
  rewrite <- G, <- EN. field. lra.
Qed.

Lemma pdf_moving_low v : v <= ve - vo -> pdf_moving N v0 vo ve v = pdf_a v.
Proof. intros. unfold pdf_moving, pdf_a. rewrite Rmin_left by lra. reflexivity. Qed.
Lemma pdf_moving_high v : ve - vo <= v -> pdf_moving N v0 vo ve v = pdf_b v.
Proof. intros. unfold pdf_moving, pdf_b. rewrite Rmin_right by lra. reflexivity. Qed.

Lemma moving_integral v : 0 <= v -> is_RInt (pdf_moving N v0 vo ve) 0 v (cdf_moving N v0 vo ve v).
Proof.
  intros Hv.
  assert (L : forall w, 0 <= w <= ve - vo -> is_RInt (pdf_moving N v0 vo ve) 0 w (cdf_low N v0 vo w)).
  { intros w Hw. apply (is_RInt_ext pdf_a).
    - intros x Hx. rewrite Rmin_left, Rmax_right in Hx by lra. symmetry; apply pdf_moving_low; lra.
    - replace (cdf_low N v0 vo w) with (cdf_low N v0 vo w - cdf_low N v0 vo 0) by (rewrite cdf_low_0; ring).
      apply RInt_by_derive; [lra| |]; intros; [apply cdf_low_derive|apply pdf_a_continuous]. }
  unfold cdf_moving. destruct (Rlt_dec (ve - vo) v) as [H | H].
  - replace (cdf_low N v0 vo v + cdf_add N v0 vo ve v) with
      (cdf_low N v0 vo (ve - vo) + ((cdf_low N v0 vo v + cdf_add N v0 vo ve v) - (cdf_low N v0 vo (ve - vo) + cdf_add N v0 vo ve (ve - vo))))
      by (rewrite cdf_add_start; ring).
    apply (is_RInt_Chasles (V := R_NormedModule) _ 0 (ve - vo) v).
    + apply L; lra.
    + apply (is_RInt_ext pdf_b).
      * intros x Hx. rewrite Rmin_left, Rmax_right in Hx by lra. symmetry; apply pdf_moving_high; lra.
      * apply (RInt_by_derive (fun v => cdf_low N v0 vo v + cdf_add N v0 vo ve v)); [lra| |]; intros; [apply cdf_add_derive|apply pdf_b_continuous].
  - rewrite Rplus_0_r. apply L. lra.
Qed.
End Moving.

Lemma pdf_rest_continuous N v0 v : 0 < v0 -> continuous (pdf_rest N v0) v.
Proof.
  intros H. apply continuous_of_ex_derive. unfold pdf_rest. auto_derive. apply bell_ex_derive; lra.
Qed.
Lemma rest_integral N v0 v : 0 < N -> 0 < v0 -> 0 <= v -> is_RInt (pdf_rest N v0) 0 v (cdf_rest N v0 v).
Proof.
  intros HN H0 Hv. assert (P := sqrt_PI_pos).
  replace (cdf_rest N v0 v) with (cdf_rest N v0 v - cdf_rest N v0 0)
    by (unfold cdf_rest; replace (0 / v0) with 0 by (field; lra); rewrite gauss3_0; ring).
  apply RInt_by_derive; auto; intros x Hx; [|apply pdf_rest_continuous; auto].
  unfold cdf_rest, pdf_rest. auto_derive.
  - eexists; apply gauss3_derive.
  - change (fun x => gauss3 x) with gauss3. rewrite (is_derive_unique _ _ _ (gauss3_derive (x * / v0))).
    unfold bell, Rdiv. field. lra.
Qed.

(** The density, for all speeds. *)
Definition pdf_all (N v0 vo ve v : R) : R :=
  if Rlt_dec v 0 then 0 else if Rlt_dec (ve + vo) v then 0
  else if Rlt_dec 0 vo then pdf_moving N v0 vo ve v else pdf_rest N v0 v.

Lemma PDF_Speed_all s v0 vo ve v : consistent s v0 vo ve -> 0 < v0 -> 0 < ve -> 0 <= vo ->
  PDF_Speed_SHM s (Fin v) = Fin (pdf_all (gauss3 (ve / v0)) v0 vo ve v).
Proof.
  intros C H0 He Ho. unfold pdf_all. destruct (Rlt_dec v 0); [apply (PDF_Speed_outside s v0 vo ve); auto|].
  destruct (Rlt_dec (ve + vo) v); [apply (PDF_Speed_outside s v0 vo ve); auto|].
  destruct (Rlt_dec 0 vo).
  - apply (PDF_Speed_moving s v0 vo ve (ve + vo)); auto; lra.
  - assert (vo = 0) by lra; subst vo. apply PDF_Speed_rest; auto; lra.
Qed.

(** C20 *)
Lemma halo_cdf s v0 vo ve : consistent s v0 vo ve -> 0 < v0 -> 0 < ve -> 0 <= vo <= ve ->
  exists f, (forall v, PDF_Speed_SHM s (Fin v) = Fin (f v)) /\
    (forall v, 0 <= v -> exists c, CDF_Speed_SHM s (Fin v) = Fin c /\ is_RInt f 0 v c) /\
    (forall v, v <= 0 -> CDF_Speed_SHM s (Fin v) = Fin 0) /\
    (forall v, ve + vo <= v -> CDF_Speed_SHM s (Fin v) = Fin 1).
Proof.
  intros C H0 He Ho. assert (HN : 0 < gauss3 (ve / v0)) by (apply gauss3_pos, Rdiv_lt_0_compat; auto).
  exists (pdf_all (gauss3 (ve / v0)) v0 vo ve). split; [intros; apply PDF_Speed_all; auto; lra|].
  split; [|split; [intros; apply (CDF_Speed_low s v0 vo ve); auto|intros; apply (CDF_Speed_high s v0 vo ve); auto; lra]].
  set (N := gauss3 (ve / v0)) in *.
  set (F := fun v => if Rlt_dec 0 vo then cdf_moving N v0 vo ve v else cdf_rest N v0 v).
  assert (I : forall v, 0 <= v <= ve + vo -> is_RInt (pdf_all N v0 vo ve) 0 v (F v)).
  { intros v Hv. unfold F. destruct (Rlt_dec 0 vo).
    - apply (is_RInt_ext (pdf_moving N v0 vo ve)); [|apply moving_integral; lra].
      intros x Hx. rewrite Rmin_left, Rmax_right in Hx by lra. unfold pdf_all.
      destruct (Rlt_dec x 0); [lra|]. destruct (Rlt_dec (ve + vo) x); [lra|]. destruct (Rlt_dec 0 vo); [auto|lra].
    - apply (is_RInt_ext (pdf_rest N v0)); [|apply rest_integral; lra].
      intros x Hx. rewrite Rmin_left, Rmax_right in Hx by lra. unfold pdf_all.
      destruct (Rlt_dec x 0); [lra|]. destruct (Rlt_dec (ve + vo) x); [lra|]. destruct (Rlt_dec 0 vo); [lra|auto]. }
  assert (FE : F (ve + vo) = 1).
  { unfold F. destruct (Rlt_dec 0 vo).
    - unfold cdf_moving. destruct (Rlt_dec (ve - vo) (ve + vo)); [|lra]. apply cdf_end; auto.
    - unfold cdf_rest. replace (ve + vo) with ve by lra. fold N. field. lra. }
  intros v Hv. destruct (Rle_lt_dec (ve + vo) v) as [H | H].
  - exists 1. split; [apply (CDF_Speed_high s v0 vo ve); auto; lra|].
    replace 1 with (F (ve + vo) + 0) by (rewrite FE; ring).
    apply (is_RInt_Chasles (V := R_NormedModule) _ 0 (ve + vo) v); [apply I; lra|].
    apply is_RInt_zero. intros x Hx. rewrite Rmin_left, Rmax_right in Hx by lra. unfold pdf_all.
    destruct (Rlt_dec x 0); [lra|]. destruct (Rlt_dec (ve + vo) x); [auto|lra].
  - destruct (Rle_lt_or_eq_dec 0 v Hv) as [Hp | Hz].
    + exists (F v). split; [|apply I; lra]. unfold F. destruct (Rlt_dec 0 vo).
      * apply CDF_Speed_moving; auto; lra.
      * assert (vo = 0) by lra; subst vo. apply CDF_Speed_rest; auto; lra.
    + subst v. exists 0. split; [apply (CDF_Speed_low s v0 vo ve); auto; lra|]. apply (is_RInt_point (V := R_NormedModule)).
Qed.

(** C21 *)
Lemma pdf_moving_nonneg N v0 vo ve v : 0 < N -> 0 < v0 -> 0 < vo -> vo <= ve -> 0 <= v <= ve + vo ->
  0 <= pdf_moving N v0 vo ve v.
Proof.
  intros HN H0 Ho He Hv. assert (P := sqrt_PI_pos). unfold pdf_moving.
  apply Rmult_le_pos.
  - repeat (apply Rdiv_le_0_compat; [|lra]). lra.
  - assert (bell v0 (Rmin (v + vo) ve) <= bell v0 (v - vo)); [|lra]. apply bell_le; auto.
    rewrite (Rabs_pos_eq (Rmin _ _)) by (apply Rmin_glb; lra). unfold Rmin. destruct (Rle_dec (v + vo) ve);
      unfold Rabs; destruct (Rcase_abs _); lra.
Qed.
Lemma pdf_rest_nonneg N v0 v : 0 < N -> 0 < v0 -> 0 <= pdf_rest N v0 v.
Proof.
  intros HN H0. assert (P := sqrt_PI_pos). unfold pdf_rest. apply Rmult_le_pos; [|left; apply bell_pos].
  repeat (apply Rdiv_le_0_compat; [|lra]). nra.
Qed.
Lemma pdf_all_nonneg N v0 vo ve v : 0 < N -> 0 < v0 -> 0 <= vo <= ve -> 0 <= pdf_all N v0 vo ve v.
Proof.
  intros HN H0 Ho. unfold pdf_all. destruct (Rlt_dec v 0); [lra|]. destruct (Rlt_dec (ve + vo) v); [lra|].
  destruct (Rlt_dec 0 vo); [apply pdf_moving_nonneg; lra|apply pdf_rest_nonneg; auto].
Qed.
Lemma halo_pdf_nonneg s v0 vo ve v : consistent s v0 vo ve -> 0 < v0 -> 0 < ve -> 0 <= vo <= ve ->
  exists p, PDF_Speed_SHM s (Fin v) = Fin p /\ 0 <= p.
Proof.
  intros C H0 He Ho. eexists; split; [apply PDF_Speed_all; eauto; lra|]. apply pdf_all_nonneg; auto.
  apply gauss3_pos, Rdiv_lt_0_compat; auto.
Qed.

(** An observer faster than the escape speed sees negative densities at low speeds. *)
Lemma fast_observer s v0 vo ve v : consistent s v0 vo ve -> 0 < v0 -> 0 < ve -> ve < vo -> 0 < v < vo - ve ->
  exists p, PDF_Speed_SHM s (Fin v) = Fin p /\ p < 0.
Proof.
  intros C H0 He Ho Hv. assert (P := sqrt_PI_pos).
  assert (HN : 0 < gauss3 (ve / v0)) by (apply gauss3_pos, Rdiv_lt_0_compat; auto).
  eexists; split; [apply (PDF_Speed_moving s v0 vo ve (ve + vo)); eauto; lra|].
  unfold pdf_moving. rewrite Rmin_right by lra.
  assert (0 < v / gauss3 (ve / v0) / v0 / sqrt PI / vo) by (repeat (apply Rdiv_lt_0_compat; [|lra]); lra).
  assert (bell v0 (v - vo) < bell v0 ve); [|nra]. apply bell_lt; auto.
  rewrite (Rabs_pos_eq ve) by lra. rewrite Rabs_left by lra. lra.
Qed.

(** A domain that is too large gives negative densities at its upper end. *)
Lemma overlong_domain s v0 vo ve D v : configured s v0 vo ve D -> 0 < v0 -> 0 < ve -> 0 < vo -> ve + vo < v <= D ->
  exists p, PDF_Speed_SHM s (Fin v) = Fin p /\ p < 0.
Proof.
  intros C H0 He Ho Hv. assert (P := sqrt_PI_pos).
  assert (HN : 0 < gauss3 (ve / v0)) by (apply gauss3_pos, Rdiv_lt_0_compat; auto).
  eexists; split; [apply (PDF_Speed_moving s v0 vo ve D); eauto; lra|].
  unfold pdf_moving. rewrite Rmin_right by lra.
  assert (0 < v / gauss3 (ve / v0) / v0 / sqrt PI / vo) by (repeat (apply Rdiv_lt_0_compat; [|lra]); lra).
  assert (bell v0 (v - vo) < bell v0 ve); [|nra]. apply bell_lt; auto.
  rewrite !Rabs_pos_eq by lra. lra.
Qed.

Lemma default_vobs : h_vobs SHM_default = Fin (sqrt 54093.34 * km_sec).
Proof.
  unfold SHM_default. cbn [h_vobs Normalize_PDF]. f_equal. unfold vnorm, vdot, vadd; cbn [vx vy vz].
  assert (K := km_sec_pos).
  assert (h := sec_pos). assert (hk : forall x, x * km / sec = x * km_sec) by (intros; unfold km_sec; field; lra).
  rewrite !hk.
  match goal with |- sqrt ?a = _ => replace a with (54093.34 * (km_sec * km_sec)) by lra end.
  rewrite sqrt_mult by nra. rewrite sqrt_square by lra. reflexivity.
Qed.
Lemma default_speed_bound : 232 < sqrt 54093.34 < 232.58.
Proof.
  split.
  - rewrite <- (sqrt_square 232) by lra. apply sqrt_lt_1; lra.
  - rewrite <- (sqrt_square 232.58) by lra. apply sqrt_lt_1; lra.
Qed.
Lemma default_configured : configured SHM_default (220 * km_sec) (sqrt 54093.34 * km_sec) (544 * km_sec) (776.58 * km_sec).
Proof.
  assert (h := sec_pos). assert (hk : forall x, x * km / sec = x * km_sec) by (intros; unfold km_sec; field; lra).
  split; [cbn; rewrite hk; reflexivity|]. split; [apply default_vobs|]. split; [cbn; rewrite hk; reflexivity|].
  split; [reflexivity|]. split; [cbn; rewrite hk; do 2 f_equal; lra|].
  cbn [SHM_default Normalize_PDF h_N h_v0 h_vesc]. rewrite !hk. reflexivity.
Qed.
Lemma default_negative : exists v p, 0 < v <= 776.58 * km_sec /\ PDF_Speed_SHM SHM_default (Fin v) = Fin p /\ p < 0.
Proof.
  assert (K := km_sec_pos). assert (B := default_speed_bound).
  destruct (overlong_domain SHM_default _ _ _ _ (776.58 * km_sec) default_configured) as [p [E L]].
  - nra. - nra. - apply Rmult_lt_0_compat; lra. - split; [|lra].
    replace (544 * km_sec + sqrt 54093.34 * km_sec) with ((544 + sqrt 54093.34) * km_sec) by ring.
    apply Rmult_lt_compat_r; lra.
  - exists (776.58 * km_sec), p. split; [nra|]. auto.
Qed.
