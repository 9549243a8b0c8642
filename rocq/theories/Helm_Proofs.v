(** Lemmas about the Helm form factor. *)
From Coq Require Import Reals List ZArith String Lra Lia Bool Psatz.
From Coquelicot Require Import Coquelicot.
From Verif Require Import Base XrFacts Analysis Nucleus_Model.
Local Open Scope R_scope.

Lemma grows_from_zero (f f' : R -> R) x : 0 <= x -> (forall t, is_derive f t (f' t)) -> (forall t, 0 <= t -> 0 <= f' t) -> f 0 <= f x.
Proof.
  intros Hx Hd Hp. destruct (Req_dec x 0) as [->|N]; [lra|].
  destruct (MVT_gen f 0 x f') as (c & Hc & E).
  - intros; apply Hd.
  - intros y _. apply continuity_pt_filterlim. apply continuous_of_ex_derive. eexists; apply Hd.
  - rewrite Rmin_left, Rmax_right in Hc by lra. assert (0 <= f' c) by (apply Hp; lra). nra.
Qed.

Lemma sin_between t : 0 <= t -> - t <= sin t <= t.
Proof.
  intros Ht. split.
  - assert (H := grows_from_zero (fun t => sin t + t) (fun t => cos t + 1) t Ht). cbv beta in H. rewrite sin_0 in H.
    cut (0 + 0 <= sin t + t); [intros; lra|]. apply H.
    + intros u. auto_derive; [auto|lra].
    + intros u _. assert (h := COS_bound u); lra.
  - assert (H := grows_from_zero (fun t => t - sin t) (fun t => 1 - cos t) t Ht). cbv beta in H. rewrite sin_0 in H.
    cut (0 - 0 <= t - sin t); [intros; lra|]. apply H.
    + intros u. auto_derive; [auto|lra].
    + intros u _. assert (h := COS_bound u); lra.
Qed.

(** |sin x - x cos x| <= x^3 / 3 for x >= 0. *)
Lemma j1_bound x : 0 <= x -> - (x ^ 3 / 3) <= sin x - x * cos x <= x ^ 3 / 3.
Proof.
  intros Hx.
  split.
  - assert (H := grows_from_zero (fun t => sin t - t * cos t + t ^ 3 / 3) (fun t => t * sin t + t ^ 2) x Hx). cbv beta in H.
    rewrite sin_0 in H. replace (0 - 0 * cos 0 + 0 ^ 3 / 3) with 0 in H by field.
    cut (0 <= sin x - x * cos x + x ^ 3 / 3); [intros; lra|]. apply H.
    + intros t. auto_derive; [auto|]. simpl; lra.
    + intros t Ht. assert (h := sin_between t Ht). simpl; nra.
  - assert (H := grows_from_zero (fun t => t ^ 3 / 3 - (sin t - t * cos t)) (fun t => t ^ 2 - t * sin t) x Hx). cbv beta in H.
    rewrite sin_0 in H. replace (0 ^ 3 / 3 - (0 - 0 * cos 0)) with 0 in H by field.
    cut (0 <= x ^ 3 / 3 - (sin x - x * cos x)); [intros; lra|]. apply H.
    + intros t. auto_derive; [auto|]. simpl; lra.
    + intros t Ht. assert (h := sin_between t Ht). simpl; nra.
Qed.

Lemma fm_pos : 0 < fm. Proof. unfold fm; assert (h := cm_pos); lra. Qed.

(** The squared radius is positive for every mass number. *)
Definition radicand_R (a : Z) : R :=
  ((1.23 * pow_third a - 0.6) * fm) * ((1.23 * pow_third a - 0.6) * fm) + 7 / 3 * (PI * (0.52 * fm)) ^ 2 - 5 * (0.9 * fm) * (0.9 * fm).
Lemma radicand_eq a : Helm_radicand a = Fin (radicand_R a).
Proof. unfold Helm_radicand, radicand_R. rewrite (xdiv_fin 7 3) by lra. rewrite xmul_fin, xpow_fin. reflexivity. Qed.
Lemma radicand_pos a : 0 < radicand_R a.
Proof.
  unfold radicand_R. assert (h := fm_pos). assert (P : 3 < PI) by (assert (p := PI2_3_2); lra).
  assert (S := Rle_0_sqr ((1.23 * pow_third a - 0.6) * fm)). unfold Rsqr in S.
  assert (0 < fm * fm) by (apply Rmult_lt_0_compat; auto).
  replace (7 / 3 * (PI * (0.52 * fm)) ^ 2) with (7 / 3 * 0.52 * 0.52 * (PI * PI) * (fm * fm)) by (simpl; lra).
  replace (5 * (0.9 * fm) * (0.9 * fm)) with (5 * 0.9 * 0.9 * (fm * fm)) by lra.
  assert (9 < PI * PI) by nra. nra.
Qed.

(** Real-valued Helm form factor. *)
Definition q_min_Helm : R := 1 / 1000000 * MeV.
Lemma q_min_pos : 0 < q_min_Helm. Proof. unfold q_min_Helm, MeV; lra. Qed.
Definition helm (a : Z) (q : R) : R :=
  let x := q * sqrt (radicand_R a) in
  3 * (sin x / x ^ 3 - cos x / x ^ 2) * exp (- q * q * (0.9 * fm) * (0.9 * fm) / 2).
Definition Helm_R (a : Z) (q : R) : R := if Rlt_dec q q_min_Helm then 1 else helm a q.

Lemma Helm_eq iso q : Helm_Form_Factor iso (Fin q) = Fin (Helm_R (iA iso) q).
Proof.
  unfold Helm_Form_Factor, Helm_R. fold q_min_Helm. destruct (Rlt_dec q q_min_Helm) as [L|L].
  - rewrite xlt_true by auto. reflexivity.
  - rewrite xlt_false by lra. rewrite radicand_eq, xsqrt_fin by (left; apply radicand_pos).
    assert (h := q_min_pos). assert (S : 0 < sqrt (radicand_R (iA iso))) by apply sqrt_lt_R0, radicand_pos.
    assert (X : 0 < q * sqrt (radicand_R (iA iso))) by (apply Rmult_lt_0_compat; lra).
    unfold helm. rewrite xmul_fin. cbn [xsin xcos]. rewrite !xpow_fin, !xdiv_fin by (apply pow_nonzero; lra).
    rewrite xopp_fin, !xmul_fin, xdiv_fin by lra. reflexivity.
Qed.

Lemma Helm_bound a q : 0 <= q -> Rabs (Helm_R a q) <= 1.
Proof.
  intros Hq. unfold Helm_R. destruct (Rlt_dec q q_min_Helm) as [L|L]; [rewrite Rabs_R1; lra|].
  assert (h := q_min_pos). assert (S : 0 < sqrt (radicand_R a)) by apply sqrt_lt_R0, radicand_pos.
  unfold helm. set (x := q * sqrt (radicand_R a)). assert (X : 0 < x) by (apply Rmult_lt_0_compat; lra).
  rewrite Rabs_mult. rewrite (Rabs_pos_eq (exp _)) by (left; apply exp_pos).
  assert (E1 : exp (- q * q * (0.9 * fm) * (0.9 * fm) / 2) <= 1).
  { rewrite <- exp_0. destruct (Rle_lt_or_eq_dec (- q * q * (0.9 * fm) * (0.9 * fm) / 2) 0) as [G|G].
    - assert (0 <= (q * (0.9 * fm)) ^ 2) by apply pow2_ge_0. nra.
    - left; apply exp_increasing; auto.
    - rewrite G; lra. }
  assert (E0 := exp_pos (- q * q * (0.9 * fm) * (0.9 * fm) / 2)).
  assert (B : Rabs (3 * (sin x / x ^ 3 - cos x / x ^ 2)) <= 1).
  { replace (3 * (sin x / x ^ 3 - cos x / x ^ 2)) with (3 * (sin x - x * cos x) / x ^ 3) by (field; lra).
    assert (X3 : 0 < x ^ 3) by (apply pow_lt; auto). destruct (j1_bound x) as [B1 B2]; [lra|].
    unfold Rdiv. rewrite Rabs_mult. rewrite (Rabs_pos_eq (/ _)) by (left; apply Rinv_0_lt_compat; auto).
    apply (Rmult_le_reg_r (x ^ 3)); auto. rewrite Rmult_assoc, Rinv_l, Rmult_1_r by lra. rewrite Rmult_1_l.
    apply Rabs_le. lra. }
  assert (A := Rabs_pos (3 * (sin x / x ^ 3 - cos x / x ^ 2))). nra.
Qed.

Lemma helm_derivable a q : 0 < q -> ex_derive (helm a) q.
Proof.
  intros Hq. assert (S : 0 < sqrt (radicand_R a)) by apply sqrt_lt_R0, radicand_pos.
  assert (X : 0 < q * sqrt (radicand_R a)) by (apply Rmult_lt_0_compat; lra).
  unfold helm. auto_derive. set (x := q * sqrt (radicand_R a)) in *. split; [|split; auto].
  - apply (pow_nonzero x 3); lra.
  - apply (pow_nonzero x 2); lra.
Qed.

(** Properties used by C32. *)
Lemma helm_suppression iso q : 0 <= q -> exists F, Helm_Form_Factor iso (Fin q) = Fin F /\ Rabs F <= 1.
Proof. intros Hq. exists (Helm_R (iA iso) q). split; [apply Helm_eq|apply Helm_bound; auto]. Qed.
Lemma helm_zero iso : Helm_Form_Factor iso (Fin 0) = Fin 1.
Proof. rewrite Helm_eq. unfold Helm_R. assert (h := q_min_pos). destruct (Rlt_dec 0 q_min_Helm); auto; lra. Qed.
