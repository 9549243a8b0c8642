(** Lemmas about the eta function of the standard halo model and about its setters. *)
From Coq Require Import Reals List ZArith String Lra Lia Bool Psatz.
From Coquelicot Require Import Coquelicot.
From Verif Require Import Base XrFacts Analysis Quadrature Erf Astronomy_Model Astronomy_Proofs Distribution_Model Halo_Model Halo_Proofs.
Import ListNotations.
Local Open Scope R_scope.

(** The cut-off of the code. *)
Definition eps8 : R := 1 / 10 ^ 8.
Lemma eps8_pos : 0 < eps8. Proof. unfold eps8. apply Rdiv_lt_0_compat; [lra|]. apply pow_lt; lra. Qed.

Definition eta_rest (N v0 ve v : R) : R := 2 / N / sqrt PI / v0 * (bell v0 v - bell v0 ve).
Definition eta_high (N v0 vo ve v : R) : R := 1 / v0 / 2 / N / (vo / v0) *
  (erf (ve / v0) - erf (v / v0 - vo / v0) - 2 / sqrt PI * (vo / v0 + ve / v0 - v / v0) * bell v0 ve).
Definition eta_low (N v0 vo ve v : R) : R := 1 / v0 / 2 / N / (vo / v0) *
  (erf (v / v0 + vo / v0) - erf (v / v0 - vo / v0) - 4 / sqrt PI * (vo / v0) * bell v0 ve).
(** The uncut function. *)
Definition eta_moving (N v0 vo ve v : R) : R := if Rlt_dec (ve - vo) v then eta_high N v0 vo ve v else eta_low N v0 vo ve v.

Lemma bell_code v0 v : v0 <> 0 -> exp (- (v / v0) * (v / v0)) = bell v0 v.
Proof. intros. unfold bell. f_equal. field. auto. Qed.

Lemma div_lt a b c : 0 < c -> a < b -> a / c < b / c.
Proof. intros. apply Rmult_lt_compat_r; auto. apply Rinv_0_lt_compat; auto. Qed.
Lemma div_le a b c : 0 < c -> a <= b -> a / c <= b / c.
Proof. intros. apply Rmult_le_compat_r; auto. left; apply Rinv_0_lt_compat; auto. Qed.

Ltac req := match goal with |- @eq _ ?a ?b => change (a = b :> R) end.

Section Eta.
Variables (s : SHM) (v0 vo ve : R).
Hypothesis (C : consistent s v0 vo ve) (H0 : 0 < v0) (Hve : 0 < ve) (Ho : 0 <= vo <= ve).
Let N := gauss3 (ve / v0).
Lemma N_pos : 0 < N. Proof. apply gauss3_pos, Rdiv_lt_0_compat; auto. Qed.

Ltac start :=
  destruct C as (E0 & Eo & Ee & Ed & EM & EN); assert (HN := N_pos);
  assert (P := sqrt_PI_pos); assert (P0 := PI_RGT_0);
  unfold Eta_Function_SHM; rewrite E0, Eo, Ee, EN, N_fin by lra; fold N eps8;
  repeat (rewrite xdiv_fin by lra); rewrite !xadd_fin, !xsub_fin, !xabs_fin.

Lemma eta_zero v : ve + vo - eps8 * v0 < v -> Eta_Function_SHM s (Fin v) = Fin 0.
Proof.
  intros Hv. start.
  destruct (Rlt_dec (ve + vo) v) as [H | H].
  - rewrite (xlt_true (vo / v0 + ve / v0)); auto. replace (vo / v0 + ve / v0) with ((ve + vo) / v0) by (field; lra). apply div_lt; auto.
  - rewrite (xlt_false (vo / v0 + ve / v0)) by (replace (vo / v0 + ve / v0) with ((ve + vo) / v0) by (field; lra); apply div_le; lra).
    rewrite xlt_true; auto. replace (v / v0 - vo / v0 - ve / v0) with (- ((ve + vo - v) / v0)) by (field; lra).
    rewrite Rabs_Ropp, Rabs_pos_eq.
    + apply Rmult_lt_reg_r with v0; auto. unfold Rdiv. rewrite Rmult_assoc, Rinv_l by lra. lra.
    + apply Rdiv_le_0_compat; lra.
Qed.

Lemma not_cut v : v <= ve + vo - eps8 * v0 ->
  xlt (Fin (vo / v0 + ve / v0)) (Fin (v / v0)) = false /\ xlt (Fin (Rabs (v / v0 - vo / v0 - ve / v0))) (Fin eps8) = false.
Proof.
  intros Hv. assert (e := eps8_pos). assert (0 < eps8 * v0) by (apply Rmult_lt_0_compat; auto). split; apply xlt_false.
  - replace (vo / v0 + ve / v0) with ((ve + vo) / v0) by (field; lra). apply div_le; lra.
  - replace (v / v0 - vo / v0 - ve / v0) with (- ((ve + vo - v) / v0)) by (field; lra).
    rewrite Rabs_Ropp, Rabs_pos_eq by (apply Rdiv_le_0_compat; lra).
    apply Rmult_le_reg_r with v0; auto. unfold Rdiv. rewrite Rmult_assoc, Rinv_l by lra. lra.
Qed.

Lemma eta_slow v : vo < eps8 * v0 -> v <= ve + vo - eps8 * v0 -> Eta_Function_SHM s (Fin v) = Fin (eta_rest N v0 ve v).
Proof.
  intros Hs Hv. destruct (not_cut v Hv) as [K1 K2]. start. rewrite K1, K2.
  rewrite (xlt_true (vo / v0) eps8) by (apply Rmult_lt_reg_r with v0; auto; unfold Rdiv; rewrite Rmult_assoc, Rinv_l by lra; lra).
  rewrite !xsqrt_fin by lra. rewrite !xopp_fin, !xmul_fin, !xexp_fin, !bell_code by lra.
  repeat (rewrite xdiv_fin by lra). rewrite xsub_fin, xmul_fin. reflexivity.
Qed.

Lemma eta_fast v : eps8 * v0 <= vo -> 0 <= v -> v <= ve + vo - eps8 * v0 ->
  Eta_Function_SHM s (Fin v) = Fin (eta_moving N v0 vo ve v).
Proof.
  intros Hs Hv0 Hv. assert (e := eps8_pos). assert (0 < eps8 * v0) by (apply Rmult_lt_0_compat; auto).
  destruct (not_cut v Hv) as [K1 K2]. start. rewrite K1, K2.
  rewrite (xlt_false (vo / v0) eps8) by (apply Rmult_le_reg_r with v0; auto; unfold Rdiv; rewrite Rmult_assoc, Rinv_l by lra; lra).
  assert (X : 0 < vo / v0) by (apply Rdiv_lt_0_compat; lra).
  rewrite !xsqrt_fin by lra. rewrite !xopp_fin, !xmul_fin, !xexp_fin, !bell_code by lra.
  replace (Rabs (vo / v0 - ve / v0)) with ((ve - vo) / v0)
    by (replace (vo / v0 - ve / v0) with (- ((ve - vo) / v0)) by (field; lra); rewrite Rabs_Ropp, Rabs_pos_eq; auto; apply Rdiv_le_0_compat; lra).
  repeat (rewrite xdiv_fin by lra). cbn [xerf]. rewrite !xmul_fin, !xsub_fin, !xmul_fin.
  unfold eta_moving. destruct (Rlt_dec (ve - vo) v) as [H1 | H1].
  - rewrite xlt_true by (apply div_lt; auto). rewrite ?xsub_fin, ?xmul_fin. reflexivity.
  - rewrite xlt_false by (apply div_le; lra).
    destruct (Rlt_dec vo ve) as [H2 | H2].
    + rewrite xlt_true by (apply div_lt; auto). rewrite ?xsub_fin, ?xmul_fin. reflexivity.
    + assert (vo = ve) by lra. assert (v = 0) by lra. subst v vo.
      rewrite xlt_false by lra. f_equal. unfold eta_low.
      replace (0 / v0 + ve / v0) with (ve / v0) by (field; lra). replace (0 / v0 - ve / v0) with (- (ve / v0)) by (field; lra).
      rewrite erf_odd.
      assert (G : erf (ve / v0) = N + 2 * (ve / v0) / sqrt PI * bell v0 ve) by (unfold N, gauss3, bell; ring).
      rewrite G. field. lra.
Qed.

(** The integrand f(v)/v without the division by v. *)
Definition inv_rest v := 4 * v / N / sqrt PI / v0 / v0 / v0 * bell v0 v.
Definition inv_a v := 1 / N / v0 / sqrt PI / vo * (bell v0 (v - vo) - bell v0 (v + vo)).
Definition inv_b v := 1 / N / v0 / sqrt PI / vo * (bell v0 (v - vo) - bell v0 ve).

Lemma eta_rest_int x : x <= ve -> is_RInt inv_rest x ve (eta_rest N v0 ve x).
Proof.
  intros Hx. assert (HN := N_pos). assert (P := sqrt_PI_pos).
  replace (eta_rest N v0 ve x) with (- eta_rest N v0 ve ve - - eta_rest N v0 ve x) by (unfold eta_rest; ring).
  apply (RInt_by_derive (fun v => - eta_rest N v0 ve v)); auto; intros y Hy.
  - unfold eta_rest, inv_rest. auto_derive; [apply bell_ex_derive; lra|]. change (fun x => bell v0 x) with (bell v0).
    rewrite Derive_bell by lra. field. lra.
  - apply continuous_of_ex_derive. unfold inv_rest. auto_derive. apply bell_ex_derive; lra.
Qed.

Lemma eta_high_int x y : 0 < vo -> x <= y -> is_RInt inv_b x y (eta_high N v0 vo ve x - eta_high N v0 vo ve y).
Proof.
  intros Hp Hx. assert (HN := N_pos). assert (P := sqrt_PI_pos).
  replace (eta_high N v0 vo ve x - eta_high N v0 vo ve y) with (- eta_high N v0 vo ve y - - eta_high N v0 vo ve x) by ring.
  apply (RInt_by_derive (fun v => - eta_high N v0 vo ve v)); auto; intros z Hz.
  - unfold eta_high, inv_b. auto_derive; [apply erf_ex_derive|]. change (fun x => erf x) with erf. rewrite Derive_erf.
    replace (exp _) with (bell v0 (z - vo)) by (unfold bell; f_equal; field; lra). field. lra.
  - apply continuous_of_ex_derive. unfold inv_b. auto_derive. repeat split; auto; apply bell_ex_derive; lra.
Qed.
Lemma eta_high_end : 0 < vo -> eta_high N v0 vo ve (ve + vo) = 0.
Proof.
  intros Hp. assert (HN := N_pos). unfold eta_high.
  replace ((ve + vo) / v0 - vo / v0) with (ve / v0) by (field; lra).
  replace (vo / v0 + ve / v0 - (ve + vo) / v0) with 0 by (field; lra). ring.
Qed.
Lemma eta_low_int x y : 0 < vo -> x <= y -> is_RInt inv_a x y (eta_low N v0 vo ve x - eta_low N v0 vo ve y).
Proof.
  intros Hp Hx. assert (HN := N_pos). assert (P := sqrt_PI_pos).
  replace (eta_low N v0 vo ve x - eta_low N v0 vo ve y) with (- eta_low N v0 vo ve y - - eta_low N v0 vo ve x) by ring.
  apply (RInt_by_derive (fun v => - eta_low N v0 vo ve v)); auto; intros z Hz.
  - unfold eta_low, inv_a. auto_derive; [repeat split; auto; apply erf_ex_derive|].
    change (fun x => erf x) with erf. rewrite !Derive_erf.
    replace (bell v0 (z - vo)) with (exp (- ((z * / v0 + - (vo * / v0)) * (z * / v0 + - (vo * / v0))))) by (unfold bell; f_equal; field; lra).
    replace (bell v0 (z + vo)) with (exp (- ((z * / v0 + vo * / v0) * (z * / v0 + vo * / v0)))) by (unfold bell; f_equal; field; lra).
    unfold Rdiv, Rminus. field. lra.
  - apply continuous_of_ex_derive. unfold inv_a. auto_derive. repeat split; auto; apply bell_ex_derive; lra.
Qed.
Lemma eta_join : 0 < vo -> eta_low N v0 vo ve (ve - vo) = eta_high N v0 vo ve (ve - vo).
Proof.
  intros Hp. assert (HN := N_pos). assert (P := sqrt_PI_pos). unfold eta_low, eta_high.
  replace ((ve - vo) / v0 + vo / v0) with (ve / v0) by (field; lra). field. lra.
Qed.

Notation f := (pdf_all N v0 vo ve).

Lemma eta_moving_int x : 0 < vo -> 0 <= x <= ve + vo ->
  is_RInt (fun v => f v / v) x (ve + vo) (eta_moving N v0 vo ve x).
Proof.
  intros Hp Hx.
  assert (F : forall v, 0 < v < ve + vo -> f v = pdf_moving N v0 vo ve v).
  { intros v Hv. unfold pdf_all. destruct (Rlt_dec v 0); [lra|]. destruct (Rlt_dec (ve + vo) v); [lra|].
    destruct (Rlt_dec 0 vo); [auto|lra]. }
  assert (HI : forall y, ve - vo <= y <= ve + vo -> is_RInt (fun v => f v / v) y (ve + vo) (eta_high N v0 vo ve y)).
  { intros y Hy. apply (is_RInt_ext inv_b).
    - intros v Hv. rewrite Rmin_left, Rmax_right in Hv by lra. rewrite F by lra. rewrite pdf_moving_high by lra.
      unfold pdf_b, inv_b. assert (HN := N_pos). assert (P := sqrt_PI_pos). req. field. lra.
    - replace (eta_high N v0 vo ve y) with (eta_high N v0 vo ve y - eta_high N v0 vo ve (ve + vo)) by (rewrite eta_high_end by auto; ring).
      apply eta_high_int; lra. }
  unfold eta_moving. destruct (Rlt_dec (ve - vo) x); [apply HI; lra|].
  replace (eta_low N v0 vo ve x) with ((eta_low N v0 vo ve x - eta_low N v0 vo ve (ve - vo)) + eta_high N v0 vo ve (ve - vo))
    by (rewrite eta_join by auto; ring).
  apply (is_RInt_Chasles (V := R_NormedModule) _ x (ve - vo) (ve + vo)); [|apply HI; lra].
  apply (is_RInt_ext inv_a); [|apply eta_low_int; lra].
  intros v Hv. rewrite Rmin_left, Rmax_right in Hv by lra. rewrite F by lra. rewrite pdf_moving_low by lra.
  unfold pdf_a, inv_a. assert (HN := N_pos). assert (P := sqrt_PI_pos). req. field. lra.
Qed.

Lemma eta_rest_int' x : vo = 0 -> 0 <= x <= ve -> is_RInt (fun v => f v / v) x ve (eta_rest N v0 ve x).
Proof.
  intros Hz Hx. apply (is_RInt_ext inv_rest); [|apply eta_rest_int; lra].
  intros v Hv. rewrite Rmin_left, Rmax_right in Hv by lra. unfold pdf_all.
  destruct (Rlt_dec v 0); [lra|]. destruct (Rlt_dec (ve + vo) v); [lra|]. destruct (Rlt_dec 0 vo); [lra|].
  unfold pdf_rest, inv_rest. assert (HN := N_pos). assert (P := sqrt_PI_pos). req. field. lra.
Qed.

(** Value for all vMin >= 0. *)
Definition eta_all (v : R) : R :=
  if Rlt_dec (ve + vo - eps8 * v0) v then 0
  else if Rlt_dec vo (eps8 * v0) then eta_rest N v0 ve v else eta_moving N v0 vo ve v.
Lemma Eta_all v : 0 <= v -> Eta_Function_SHM s (Fin v) = Fin (eta_all v).
Proof.
  intros Hv. unfold eta_all. destruct (Rlt_dec (ve + vo - eps8 * v0) v); [apply eta_zero; auto|].
  destruct (Rlt_dec vo (eps8 * v0)); [apply eta_slow; lra|apply eta_fast; lra].
Qed.

Lemma eta_nonneg_decreasing x y : 0 <= x -> x <= y -> 0 <= eta_all y <= eta_all x.
Proof.
  intros Hx Hxy. assert (HN := N_pos). assert (P := sqrt_PI_pos). assert (e := eps8_pos).
  assert (He8 : 0 < eps8 * v0) by (apply Rmult_lt_0_compat; auto).
  assert (NN : forall v, 0 <= v -> 0 <= f v / v).
  { intros v Hv. destruct (Rle_lt_or_eq_dec 0 v Hv) as [h | h].
    - apply Rdiv_le_0_compat; auto. apply pdf_all_nonneg; auto.
    - subst v. unfold Rdiv. replace (f 0) with 0; [lra|]. unfold pdf_all. destruct (Rlt_dec 0 0); [lra|].
      destruct (Rlt_dec (ve + vo) 0); [lra|]. destruct (Rlt_dec 0 vo).
      + unfold pdf_moving. unfold Rdiv. ring.
      + unfold pdf_rest. unfold Rdiv. ring. }
  assert (Z : forall v, 0 <= v -> 0 <= eta_all v).
  { intros v Hv. unfold eta_all. destruct (Rlt_dec (ve + vo - eps8 * v0) v); [lra|].
    destruct (Rlt_dec vo (eps8 * v0)).
    - unfold eta_rest. apply Rmult_le_pos.
      + repeat (apply Rdiv_le_0_compat; [|lra]). lra.
      + assert (bell v0 ve <= bell v0 v); [|lra]. apply bell_le; auto. rewrite !Rabs_pos_eq; lra.
    - assert (I := eta_moving_int v ltac:(lra) ltac:(lra)).
      apply (is_RInt_le (fun _ => 0) (fun v => f v / v) v (ve + vo) 0); try lra; auto.
      + apply is_RInt_zero; auto.
      + intros w Hw. apply NN. lra. }
  split; [apply Z; lra|].
  unfold eta_all at 1. destruct (Rlt_dec (ve + vo - eps8 * v0) y); [apply Z; auto|].
  unfold eta_all. destruct (Rlt_dec (ve + vo - eps8 * v0) x); [lra|].
  destruct (Rlt_dec vo (eps8 * v0)).
  - unfold eta_rest. apply Rmult_le_compat_l.
    + repeat (apply Rdiv_le_0_compat; [|lra]). lra.
    + assert (bell v0 y <= bell v0 x); [|lra]. apply bell_le; auto. rewrite !Rabs_pos_eq; lra.
  - assert (I := eta_moving_int x ltac:(lra) ltac:(lra)). assert (J := eta_moving_int y ltac:(lra) ltac:(lra)).
    assert (K : is_RInt (fun v => f v / v) x y (eta_moving N v0 vo ve x - eta_moving N v0 vo ve y)).
    { apply (is_RInt_Chasles (V := R_NormedModule) _ x (ve + vo) y); auto.
      apply (is_RInt_swap (V := R_NormedModule)) in J. exact J. }
    assert (0 <= eta_moving N v0 vo ve x - eta_moving N v0 vo ve y); [|lra].
    apply (is_RInt_le (fun _ => 0) (fun v => f v / v) x y 0 _); auto.
    + apply is_RInt_zero; auto.
    + intros w Hw. apply NN. lra.
Qed.
End Eta.

(** How much the cut-off can discard. *)
Lemma x_gauss x : 0 <= x -> 2 * x * exp (- (x * x)) <= 1.
Proof.
  intros Hx. assert (E : 1 + x * x <= exp (x * x)).
  { destruct (Req_dec (x * x) 0) as [Z | Z]; [rewrite Z, exp_0; lra|]. left; apply exp_ineq1; auto. }
  rewrite exp_Ropp. assert (0 < exp (x * x)) by apply exp_pos.
  apply Rmult_le_reg_r with (exp (x * x)); auto.
  replace (2 * x * / exp (x * x) * exp (x * x)) with (2 * x) by (field; apply Rgt_not_eq, exp_pos).
  assert (S := Rle_0_sqr (x - 1)). unfold Rsqr in S. lra.
Qed.
Lemma bell_gap v0 a b : 0 < v0 -> 0 <= a -> a <= b -> bell v0 a - bell v0 b <= (b - a) / v0.
Proof.
  intros H0 Ha Hab. destruct (Req_dec a b) as [-> | Hne]; [unfold Rdiv; rewrite !Rminus_diag_eq, Rmult_0_l by reflexivity; lra|].
  destruct (MVT_cor2 (bell v0) (fun u => - (2 * u / v0 / v0) * bell v0 u) a b ltac:(lra)) as [c [E Hc]].
  - intros c Hc. apply is_derive_Reals, bell_derive. lra.
  - assert (G := x_gauss (c / v0) ltac:(apply Rdiv_le_0_compat; lra)). fold (bell v0 c) in G.
    replace (bell v0 a - bell v0 b) with (2 * (c / v0) * bell v0 c * ((b - a) / v0)) by (replace (bell v0 a - bell v0 b) with (- (bell v0 b - bell v0 a)) by ring; rewrite E; field; lra).
    assert (0 <= (b - a) / v0) by (apply Rdiv_le_0_compat; lra). nra.
Qed.

Lemma halo_eta s v0 vo ve : consistent s v0 vo ve -> 0 < v0 -> 0 < ve -> 0 <= vo <= ve ->
  exists f E, (forall v, PDF_Speed_SHM s (Fin v) = Fin (f v)) /\ (forall x, 0 <= x -> Eta_Function_SHM s (Fin x) = Fin (E x)) /\
    (forall x y, 0 <= x -> x <= y -> 0 <= E y <= E x) /\
    (forall x, ve + vo < x -> E x = 0) /\
    ((vo = 0 \/ eps8 * v0 <= vo) ->
      (forall x, 0 <= x <= ve + vo - eps8 * v0 -> is_RInt (fun v => f v / v) x (ve + vo) (E x)) /\
      (forall x, 0 <= x -> ve + vo - eps8 * v0 < x <= ve + vo -> exists I, is_RInt (fun v => f v / v) x (ve + vo) I /\
         0 <= I <= 2 * eps8 / (gauss3 (ve / v0) * sqrt PI * v0))).
Proof.
  intros C H0 Hve Ho. assert (e := eps8_pos). assert (He8 : 0 < eps8 * v0) by (apply Rmult_lt_0_compat; auto).
  assert (HN := N_pos v0 ve H0 Hve). assert (P := sqrt_PI_pos).
  exists (pdf_all (gauss3 (ve / v0)) v0 vo ve), (eta_all v0 vo ve).
  split; [intros; apply PDF_Speed_all; auto; lra|]. split; [intros; apply Eta_all; auto|].
  split; [intros; apply (eta_nonneg_decreasing v0 vo ve); auto|].
  split. { intros x Hx. unfold eta_all. destruct (Rlt_dec (ve + vo - eps8 * v0) x); auto. lra. }
  intros Hcase. split.
  - intros x Hx. unfold eta_all. destruct (Rlt_dec (ve + vo - eps8 * v0) x); [lra|].
    destruct (Rlt_dec vo (eps8 * v0)).
    + assert (Z : vo = 0) by lra. assert (I := eta_rest_int' v0 vo ve H0 Hve Ho x Z ltac:(lra)).
      replace (ve + vo) with ve by lra. exact I.
    + apply eta_moving_int; auto; lra.
  - intros x Hx0 Hx. set (N := gauss3 (ve / v0)) in *.
    assert (D : 0 < N * sqrt PI * v0) by (repeat apply Rmult_lt_0_compat; auto).
    destruct Hcase as [Z | Z].
    + exists (eta_rest N v0 ve x). assert (I := eta_rest_int' v0 vo ve H0 Hve Ho x Z ltac:(lra)). fold N in I.
      replace (ve + vo) with ve by lra. split; [exact I|].
      assert (B := bell_gap v0 x ve H0 Hx0 ltac:(lra)).
      assert (B' : bell v0 ve <= bell v0 x) by (apply bell_le; auto; rewrite !Rabs_pos_eq; lra).
      assert (T : (ve - x) / v0 <= eps8).
      { apply Rmult_le_reg_r with v0; auto. unfold Rdiv. rewrite Rmult_assoc, Rinv_l by lra. lra. }
      unfold eta_rest. replace (2 / N / sqrt PI / v0) with (2 / (N * sqrt PI * v0)) by (field; lra).
      assert (Q : 0 < 2 / (N * sqrt PI * v0)) by (apply Rdiv_lt_0_compat; lra).
      replace (2 * eps8 / (N * sqrt PI * v0)) with (2 / (N * sqrt PI * v0) * eps8) by (field; lra).
      split; [apply Rmult_le_pos; lra|]. apply Rmult_le_compat_l; lra.
    + assert (Hp : 0 < vo) by lra. exists (eta_moving N v0 vo ve x).
      assert (I := eta_moving_int v0 vo ve H0 Hve Ho x Hp ltac:(lra)). fold N in I. split; [exact I|].
      assert (NN : forall v, 0 <= v -> 0 <= pdf_all N v0 vo ve v) by (intros; apply pdf_all_nonneg; auto).
      assert (Q : 0 < 1 / N / v0 / sqrt PI / vo) by (repeat (apply Rdiv_lt_0_compat; [|lra]); lra).
      split.
      * apply (is_RInt_le (fun _ => 0) (fun v => pdf_all N v0 vo ve v / v) x (ve + vo) 0 _); try lra; auto.
        -- apply is_RInt_zero; auto.
        -- intros w Hw. apply Rdiv_le_0_compat; [apply NN; lra|lra].
      * assert (U : eta_moving N v0 vo ve x <= (ve + vo - x) * (1 / N / v0 / sqrt PI / vo * eps8)).
        { apply (is_RInt_le (fun v => pdf_all N v0 vo ve v / v) (fun _ => 1 / N / v0 / sqrt PI / vo * eps8) x (ve + vo)); try lra; auto.
          - apply (is_RInt_const (V := R_NormedModule)).
          - intros w Hw. unfold pdf_all. destruct (Rlt_dec w 0); [lra|]. destruct (Rlt_dec (ve + vo) w); [lra|].
            destruct (Rlt_dec 0 vo); [|lra].
            replace (pdf_moving N v0 vo ve w / w) with (1 / N / v0 / sqrt PI / vo * (bell v0 (w - vo) - bell v0 (Rmin (w + vo) ve)))
              by (unfold pdf_moving; field; lra).
            apply Rmult_le_compat_l; [lra|].
            assert (L : bell v0 ve <= bell v0 (Rmin (w + vo) ve)).
            { apply bell_le; auto. rewrite !Rabs_pos_eq; try lra; [apply Rmin_r|apply Rmin_glb; lra]. }
            destruct (Rle_lt_dec 0 (w - vo)) as [G | G].
            + assert (B := bell_gap v0 (w - vo) ve H0 G ltac:(lra)).
              assert (T : (ve - (w - vo)) / v0 <= eps8).
              { apply Rmult_le_reg_r with v0; auto. unfold Rdiv. rewrite Rmult_assoc, Rinv_l by lra. lra. }
              lra.
            + assert (B := bell_gap v0 (vo - w) ve H0 ltac:(lra) ltac:(lra)).
              rewrite <- (bell_even v0 (vo - w)) in B by lra. replace (- (vo - w)) with (w - vo) in B by ring.
              assert (T : (ve - (vo - w)) / v0 <= eps8).
              { apply Rmult_le_reg_r with v0; auto. unfold Rdiv. rewrite Rmult_assoc, Rinv_l by lra. lra. }
              lra. }
        apply Rle_trans with (1 := U).
        apply Rle_trans with (eps8 * v0 * (1 / N / v0 / sqrt PI / vo * eps8)).
        -- apply Rmult_le_compat_r; [|lra]. apply Rmult_le_pos; lra.
        -- replace (eps8 * v0 * (1 / N / v0 / sqrt PI / vo * eps8)) with (eps8 / (N * sqrt PI * v0) * (eps8 * v0 / vo)) by (field; lra).
           replace (2 * eps8 / (N * sqrt PI * v0)) with (eps8 / (N * sqrt PI * v0) * 2) by (field; lra).
           apply Rmult_le_compat_l; [left; apply Rdiv_lt_0_compat; lra|].
           apply Rmult_le_reg_r with vo; auto. unfold Rdiv. rewrite Rmult_assoc, Rinv_l by lra. lra.
Qed.
