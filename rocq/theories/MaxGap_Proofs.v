(** The maximum gap method. *)
From Coq Require Import Reals Lra Lia ZArith Bool String.
From Coquelicot Require Import Coquelicot.
From Coq Require Import List.
From Verif Require Import Base XrFacts Analysis Particle_Model Distribution_Model Atom_Model Rates_Model Crystal_Model Crystal_Proofs Detector_Model Poisson_Proofs.
Import ListNotations.
Local Open Scope R_scope.

Local Ltac req := match goal with |- ?a = ?b => change (@eq R a b) end.

(** * The series *)
Definition monomial (k : nat) (u : R) : R := u ^ k / INR (fact k).
Definition size (x : R) (k : nat) (mu : R) : R :=
  match k with
  | O => 1
  | S j => exp (- (INR k * x)) * (monomial k (mu - INR k * x) + monomial j (mu - INR k * x))
  end.
Definition term (x : R) (k : nat) (mu : R) : R := (-1) ^ k * size x k mu.
(** Partial sums; the probability that no gap is larger than x is the sum up to the integer part of mu / x. *)
Definition series (x : R) (n : nat) (mu : R) : R := sum_f_R0 (fun k => term x k mu) n.

Lemma monomial_derive k u : is_derive (monomial (S k)) u (monomial k u).
Proof.
  unfold monomial. assert (F := fact_pos (S k)). assert (F' := fact_pos k).
  assert (FS : INR (fact (S k)) = INR (S k) * INR (fact k)) by (rewrite fact_simpl, mult_INR; reflexivity).
  auto_derive; [lra|]. change (fact k + k * fact k)%nat with (fact (S k)). rewrite FS.
  assert (0 < INR (S k)) by (apply lt_0_INR; lia).
  change (match k with O => 1 | S _ => INR k + 1 end) with (INR (S k)). field. split; lra.
Qed.
Lemma monomial_0 u : monomial 0 u = 1.
Proof. unfold monomial. simpl. lra. Qed.
Lemma monomial_derive_shift k c mu : is_derive (fun t => monomial (S k) (t - c)) mu (monomial k (mu - c)).
Proof.
  evar_last. apply (is_derive_comp (monomial (S k)) (fun t => t - c)).
  - apply monomial_derive.
  - auto_derive; auto.
  - unfold scal; simpl; unfold mult; simpl. ring.
Qed.
Lemma monomial_nonneg k u : 0 <= u -> 0 <= monomial k u.
Proof. intros. apply Rmult_le_pos; [apply pow_le; auto|left; apply Rinv_0_lt_compat, fact_pos]. Qed.
Lemma monomial_at_0 k : monomial (S k) 0 = 0.
Proof. unfold monomial. simpl. unfold Rdiv. ring. Qed.

Lemma size_derive x k mu : is_derive (size x (S k)) mu (exp (- x) * size x k (mu - x)).
Proof.
  destruct k as [|k]; unfold size.
  - apply is_derive_ext with (f := fun t => exp (- (INR 1 * x)) * (monomial 1 (t - INR 1 * x) + 1)).
    { intros t. rewrite monomial_0. reflexivity. }
    evar_last.
    { apply is_derive_scal. apply (is_derive_plus (fun t => monomial 1 (t - INR 1 * x)) (fun _ => 1)).
      - apply monomial_derive_shift.
      - apply is_derive_const. }
    unfold plus, zero, scal; simpl; unfold mult; simpl. rewrite monomial_0, Rmult_1_l. ring.
  - evar_last.
    { apply is_derive_scal. apply (is_derive_plus (fun t => monomial (S (S k)) (t - INR (S (S k)) * x)) (fun t => monomial (S k) (t - INR (S (S k)) * x))).
      - apply monomial_derive_shift.
      - apply monomial_derive_shift. }
    unfold plus; simpl plus. change (exp (- (INR (S (S k)) * x)) * (monomial (S k) (mu - INR (S (S k)) * x) + monomial k (mu - INR (S (S k)) * x)) =
      exp (- x) * (exp (- (INR (S k) * x)) * (monomial (S k) (mu - x - INR (S k) * x) + monomial k (mu - x - INR (S k) * x)))).
    rewrite <- Rmult_assoc, <- exp_plus.
    replace (mu - x - INR (S k) * x) with (mu - INR (S (S k)) * x) by (rewrite (S_INR (S k)); ring).
    replace (- x + - (INR (S k) * x)) with (- (INR (S (S k)) * x)) by (rewrite (S_INR (S k)); ring). reflexivity.
Qed.
Lemma term_derive x k mu : is_derive (term x (S k)) mu (- (exp (- x) * term x k (mu - x))).
Proof.
  unfold term. evar_last. apply is_derive_scal, size_derive.
  simpl pow. ring.
Qed.
Lemma series_derive x n mu : is_derive (series x (S n)) mu (- (exp (- x) * series x n (mu - x))).
Proof.
  unfold series. induction n as [|n IH].
  - apply is_derive_ext with (f := fun t => 1 + term x 1 t).
    { intros t. cbn [sum_f_R0]. replace (term x 0 t) with 1 by (unfold term, size; simpl; ring). reflexivity. }
    evar_last. apply (is_derive_plus (fun _ => 1)); [apply is_derive_const|apply term_derive].
    unfold plus, zero; simpl. ring.
  - apply is_derive_ext with (f := fun t => sum_f_R0 (fun k => term x k t) (S n) + term x (S (S n)) t).
    { intros t. rewrite (tech5 _ (S n)). reflexivity. }
    evar_last. apply (is_derive_plus (fun t => sum_f_R0 (fun k => term x k t) (S n)) (term x (S (S n)))); [apply IH|apply term_derive].
    unfold plus; simpl plus. rewrite tech5. change (- (exp (- x) * sum_f_R0 (fun k => term x k (mu - x)) n) + - (exp (- x) * term x (S n) (mu - x)) =
      - (exp (- x) * (sum_f_R0 (fun k => term x k (mu - x)) n + term x (S n) (mu - x)))). ring.
Qed.
Lemma series_0 x mu : series x 0 mu = 1.
Proof. unfold series, term; simpl. ring. Qed.
Lemma series_ex_derive x n mu : ex_derive (series x n) mu.
Proof.
  destruct n as [|n]; [|eexists; apply series_derive].
  apply ex_derive_ext with (f := fun _ => 1); [intros; symmetry; apply series_0|apply ex_derive_const].
Qed.

(** [exp mu * series] *)
Definition grown (x : R) (n : nat) (mu : R) : R := exp mu * series x n mu.
Lemma grown_derive x n mu : is_derive (grown x (S n)) mu (grown x (S n) mu - grown x n (mu - x)).
Proof.
  unfold grown. evar_last.
  - apply (is_derive_mult exp (series x (S n)) mu (exp mu)); [apply is_derive_exp|apply series_derive|intros; apply Rmult_comm].
  - unfold plus, mult; simpl plus; simpl mult.
    change (exp mu * series x (S n) mu + exp mu * - (exp (- x) * series x n (mu - x)) =
            exp mu * series x (S n) mu - exp (mu - x) * series x n (mu - x)).
    replace (exp (mu - x)) with (exp mu * exp (- x)) by (rewrite <- exp_plus; f_equal; ring). ring.
Qed.
Lemma grown_continuous x n mu : continuous (grown x n) mu.
Proof.
  apply continuous_of_ex_derive. unfold grown. apply ex_derive_mult; [eexists; apply is_derive_exp|apply series_ex_derive].
Qed.
Lemma grown_int x n a b : ex_RInt (grown x n) a b.
Proof. apply (ex_RInt_continuous (V := R_CompleteNormedModule)). intros; apply grown_continuous. Qed.

(** At the joints the partial sums agree, except at the first one. *)
Lemma series_joint x n : series x (S (S n)) (INR (S (S n)) * x) = series x (S n) (INR (S (S n)) * x).
Proof.
  unfold series. rewrite (tech5 _ (S n)). unfold term at 2, size.
  replace (INR (S (S n)) * x - INR (S (S n)) * x) with 0 by ring. rewrite !monomial_at_0. ring.
Qed.
Lemma series_first x : series x 1 x = 1 - exp (- x).
Proof.
  unfold series, term, size, sum_f_R0. replace (x - INR 1 * x) with 0 by (simpl; ring).
  rewrite monomial_at_0, monomial_0. change (INR 1) with 1. simpl pow. rewrite (Rmult_1_l x). ring.
Qed.

Lemma RInt_shift (f : R -> R) c a b : (forall t, continuous f t) -> RInt (fun t => f (t - c)) a b = RInt f (a - c) (b - c).
Proof.
  intros C. replace (a - c) with (1 * a + (- c)) by ring. replace (b - c) with (1 * b + (- c)) by ring.
  rewrite <- (RInt_comp_lin (V := R_CompleteNormedModule) f 1 (- c) a b).
  - apply RInt_ext. intros t _. unfold scal; simpl; unfold mult; simpl. rewrite Rmult_1_l. f_equal. ring.
  - apply (ex_RInt_continuous (V := R_CompleteNormedModule)). intros; apply C.
Qed.

Lemma grown_step x n c mu : grown x (S n) mu - grown x (S n) c = RInt (grown x (S n)) c mu - RInt (grown x n) (c - x) (mu - x).
Proof.
  assert (I : is_RInt (fun t => grown x (S n) t - grown x n (t - x)) c mu (grown x (S n) mu - grown x (S n) c)).
  { apply (is_RInt_derive (V := R_CompleteNormedModule) (grown x (S n))).
    - intros; apply grown_derive.
    - intros t _. apply (continuous_minus (V := R_NormedModule)); [apply grown_continuous|].
      apply continuous_comp with (g := grown x n); [|apply grown_continuous].
      apply continuous_of_ex_derive. auto_derive; auto. }
  apply (is_RInt_unique (V := R_CompleteNormedModule)) in I. rewrite <- I.
  rewrite <- (RInt_shift (grown x n) x c mu) by (intros; apply grown_continuous).
  rewrite <- (RInt_minus (V := R_CompleteNormedModule)).
  - reflexivity.
  - apply grown_int.
  - apply (ex_RInt_continuous (V := R_CompleteNormedModule)). intros t _.
    apply continuous_comp with (g := grown x n); [|apply grown_continuous]. apply continuous_of_ex_derive. auto_derive; auto.
Qed.

(** exp mu * (probability) is the integral of itself over the last x. *)
Lemma grown_identity x n mu :
  grown x (S n) mu = RInt (grown x n) (mu - x) (INR (S n) * x) + RInt (grown x (S n)) (INR (S n) * x) mu.
Proof.
  assert (J : forall n, grown x (S n) (INR (S n) * x) = RInt (grown x n) (INR n * x) (INR (S n) * x)).
  { clear n mu. induction n as [|n IH].
    - replace (INR 1 * x) with x by (simpl; ring). replace (INR 0 * x) with 0 by (simpl; ring).
      unfold grown at 1. rewrite series_first.
      rewrite (RInt_ext _ exp).
      2:{ intros t _. unfold grown. rewrite series_0. req. ring. }
      rewrite (is_RInt_unique exp 0 x (exp x - exp 0)).
      + rewrite exp_0, exp_Ropp. field. assert (h := exp_pos x). lra.
      + apply (is_RInt_derive (V := R_CompleteNormedModule) exp); [intros; apply is_derive_exp|].
        intros t _. apply continuous_of_ex_derive. eexists; apply is_derive_exp.
    - unfold grown at 1. rewrite series_joint. fold (grown x (S n) (INR (S (S n)) * x)).
      assert (h := grown_step x n (INR (S n) * x) (INR (S (S n)) * x)). rewrite IH in h.
      replace (INR (S n) * x - x) with (INR n * x) in h by (rewrite S_INR; ring).
      replace (INR (S (S n)) * x - x) with (INR (S n) * x) in h by (rewrite (S_INR (S n)); ring). lra. }
  assert (h := grown_step x n (INR (S n) * x) mu). rewrite J in h.
  replace (INR (S n) * x - x) with (INR n * x) in h by (rewrite S_INR; ring).
  assert (Ch := RInt_Chasles (V := R_CompleteNormedModule) (grown x n) (INR n * x) (mu - x) (INR (S n) * x) (grown_int _ _ _ _) (grown_int _ _ _ _)).
  change (RInt (grown x n) (INR n * x) (mu - x) + RInt (grown x n) (mu - x) (INR (S n) * x) = RInt (grown x n) (INR n * x) (INR (S n) * x)) in Ch.
  lra.
Qed.

Lemma decreasing_by_derive (f f' : R -> R) a b : a <= b -> (forall t, is_derive f t (f' t)) -> (forall t, a <= t <= b -> f' t <= 0) -> f b <= f a.
Proof.
  intros Hab D S. destruct (MVT_gen f a b f') as [c [Hc E]].
  - intros; apply D.
  - intros t _. apply derivable_continuous_pt. eexists. apply is_derive_Reals, D.
  - rewrite Rmin_left, Rmax_right in Hc by lra. assert (f' c <= 0) by (apply S; lra).
    assert (0 <= - f' c * (b - a)) by (apply Rmult_le_pos; lra). lra.
Qed.

Lemma RInt_exp a b c : RInt (fun t => exp t * c) a b = (exp b - exp a) * c.
Proof.
  apply (is_RInt_unique (V := R_CompleteNormedModule)). evar_last.
  - apply (is_RInt_derive (V := R_CompleteNormedModule) (fun t => exp t * c) (fun t => exp t * c)).
    + intros t _. auto_derive; auto. ring.
    + intros t _. apply continuous_of_ex_derive. auto_derive; auto.
  - unfold minus, plus, opp; simpl. ring.
Qed.

(** Non-negative and decreasing on every piece. *)
Lemma series_piece x n : 0 < x ->
  (forall a b, INR n * x <= a -> a <= b -> b <= INR (S n) * x -> series x n b <= series x n a) /\
  (forall mu, INR n * x <= mu <= INR (S n) * x -> 0 <= series x n mu).
Proof.
  intros Hx. induction n as [|n [D P]].
  - split; intros; rewrite ?series_0; lra.
  - assert (D' : forall a b, INR (S n) * x <= a -> a <= b -> b <= INR (S (S n)) * x -> series x (S n) b <= series x (S n) a).
    { intros a b Ha Hab Hb. apply (decreasing_by_derive (series x (S n)) (fun t => - (exp (- x) * series x n (t - x)))); auto.
      - intros; apply series_derive.
      - intros t Ht. assert (0 <= series x n (t - x)).
        { apply P. rewrite (S_INR (S n)) in Hb. rewrite S_INR in *. lra. }
        assert (h := exp_pos (- x)). assert (0 <= exp (- x) * series x n (t - x)) by (apply Rmult_le_pos; lra). lra. }
    split; auto. intros mu Hmu.
    set (c := INR (S n) * x) in *. set (s := series x (S n) mu).
    assert (Hn : INR n * x <= mu - x <= c).
    { unfold c in *. rewrite (S_INR (S n)) in Hmu. rewrite S_INR in *. lra. }
    assert (L1 : forall t, mu - x <= t <= c -> s <= series x n t).
    { intros t Ht. unfold s. apply Rle_trans with (series x (S n) c); [apply D'; fold c; lra|].
      apply Rle_trans with (series x n c).
      - destruct n as [|n].
        + unfold c. replace (INR 1 * x) with x by (simpl; ring). rewrite series_first, series_0.
          assert (h := exp_pos (- x)). lra.
        + unfold c. rewrite series_joint. lra.
      - apply D; fold c; lra. }
    assert (L2 : forall t, c <= t <= mu -> s <= series x (S n) t).
    { intros t Ht. apply D'; fold c; lra. }
    assert (E := grown_identity x n mu). fold c in E. unfold grown at 1 in E. fold s in E.
    assert (EC : forall a b, ex_RInt (fun t => exp t * s) a b).
    { intros a b. apply (ex_RInt_continuous (V := R_CompleteNormedModule)). intros t _. apply continuous_of_ex_derive. auto_derive; auto. }
    assert (B1 : (exp c - exp (mu - x)) * s <= RInt (grown x n) (mu - x) c).
    { rewrite <- RInt_exp. apply RInt_le; [lra|apply EC|apply grown_int|].
      intros t Ht. unfold grown. apply Rmult_le_compat_l; [left; apply exp_pos|]. apply L1; lra. }
    assert (B2 : (exp mu - exp c) * s <= RInt (grown x (S n)) c mu).
    { rewrite <- RInt_exp. apply RInt_le; [lra|apply EC|apply grown_int|].
      intros t Ht. unfold grown. apply Rmult_le_compat_l; [left; apply exp_pos|]. apply L2; lra. }
    assert (0 <= exp (mu - x) * s) by lra.
    assert (h := exp_pos (mu - x)). apply Rmult_le_reg_l with (exp (mu - x)); lra.
Qed.

Lemma series_upper x n mu : 0 < x -> INR (S n) * x <= mu <= INR (S (S n)) * x -> series x (S n) mu <= 1 - exp (- x).
Proof.
  intros Hx. revert mu. induction n as [|n IH]; intros mu Hmu.
  - rewrite <- series_first. replace (series x 1 x) with (series x 1 (INR 1 * x)) by (f_equal; simpl; ring).
    apply (proj1 (series_piece x 1 Hx)); lra.
  - apply Rle_trans with (series x (S (S n)) (INR (S (S n)) * x)); [apply (proj1 (series_piece x (S (S n)) Hx)); lra|].
    rewrite series_joint. apply IH. split; [|lra]. apply Rmult_le_compat_r; [lra|]. apply le_INR; lia.
Qed.

(** * Stopping early *)

Lemma size_nonneg x k mu : INR k * x <= mu -> 0 <= size x k mu.
Proof.
  intros H. unfold size. destruct k as [|k]; [lra|]. apply Rmult_le_pos; [left; apply exp_pos|].
  assert (0 <= monomial (S k) (mu - INR (S k) * x)) by (apply monomial_nonneg; lra).
  assert (0 <= monomial k (mu - INR (S k) * x)) by (apply monomial_nonneg; lra). lra.
Qed.

Lemma pow_reg a b k : 0 <= a -> 0 <= b -> (0 < k)%nat -> a ^ k <= b ^ k -> a <= b.
Proof.
  intros Ha Hb Hk H. destruct (Rle_lt_dec a b) as [|h]; auto. exfalso.
  assert (b ^ k < a ^ k); [|lra]. clear H. induction k as [|k IH]; [lia|]. destruct k as [|k]; [simpl; lra|].
  specialize (IH ltac:(lia)). change (b * b ^ S k < a * a ^ S k).
  apply Rle_lt_trans with (b * a ^ S k); [apply Rmult_le_compat_l; lra|].
  apply Rmult_lt_compat_r; [|lra]. apply Rle_lt_trans with (b ^ S k); [apply pow_le; auto|auto].
Qed.
Lemma fact_le_pow k : INR (fact k) <= INR k ^ k.
Proof.
  assert (G : forall n k, (k <= n)%nat -> INR (fact k) <= INR n ^ k).
  { intros n j. induction j as [|j IH]; intros H; [simpl; lra|].
    rewrite fact_simpl, mult_INR. simpl pow. apply Rmult_le_compat; [apply pos_INR|left; apply fact_pos|apply le_INR; lia|apply IH; lia]. }
  apply G; lia.
Qed.

(** Once a term is at most 1 the sizes decrease. *)
Lemma size_decreases x k mu : 0 < x -> INR (S (S k)) * x <= mu -> size x (S k) mu <= 1 -> size x (S (S k)) mu <= size x (S k) mu.
Proof.
  intros Hx Hmu H.
  set (u := mu - INR (S k) * x). assert (E : mu - INR (S (S k)) * x = u - x) by (unfold u; rewrite (S_INR (S k)); ring).
  assert (U : 0 <= u - x) by (rewrite <- E; lra).
  set (y := u * exp (- x)). assert (hx := exp_pos (- x)). assert (Hy0 : 0 <= y) by (apply Rmult_le_pos; lra).
  assert (EE : exp (- (INR (S k) * x)) = exp (- x) ^ S k).
  { rewrite <- Rpower_pow by apply exp_pos. unfold Rpower. rewrite ln_exp. f_equal. ring. }
  assert (Y : y <= INR (S k)).
  { apply (pow_reg y (INR (S k)) (S k)); [auto|apply pos_INR|lia|].
    apply Rle_trans with (INR (fact (S k))); [|apply fact_le_pow].
    unfold size in H. fold u in H. rewrite EE in H.
    assert (0 <= monomial k u) by (apply monomial_nonneg; lra).
    assert (0 < exp (- x) ^ S k) by (apply pow_lt; auto).
    assert (exp (- x) ^ S k * monomial (S k) u <= 1).
    { assert (0 <= exp (- x) ^ S k * monomial k u) by (apply Rmult_le_pos; lra). lra. }
    unfold y. rewrite Rpow_mult_distr. unfold monomial in H2.
    assert (F := fact_pos (S k)). apply Rmult_le_reg_r with (/ INR (fact (S k))); [apply Rinv_0_lt_compat; auto|].
    rewrite Rinv_r by lra. replace (u ^ S k * exp (- x) ^ S k * / INR (fact (S k))) with (exp (- x) ^ S k * (u ^ S k / INR (fact (S k)))) by (unfold Rdiv; ring).
    exact H2. }
  unfold size. rewrite E. fold u.
  replace (exp (- (INR (S (S k)) * x))) with (exp (- (INR (S k) * x)) * exp (- x)) by (rewrite <- exp_plus; f_equal; rewrite (S_INR (S k)); ring).
  rewrite Rmult_assoc. apply Rmult_le_compat_l; [left; apply exp_pos|].
  assert (M : forall j, monomial j (u - x) <= monomial j u).
  { intros j. unfold monomial. apply Rmult_le_compat_r; [left; apply Rinv_0_lt_compat, fact_pos|]. apply pow_incr; lra. }
  assert (N0 : forall j, 0 <= monomial j u) by (intros; apply monomial_nonneg; lra).
  assert (St : forall j, (j <= S k)%nat -> exp (- x) * monomial (S j) u <= monomial j u * (INR (S k) / INR (S j))).
  { intros j Hj. assert (Hp : 0 < INR (S j)) by (apply lt_0_INR; lia).
    replace (exp (- x) * monomial (S j) u) with (monomial j u * (y / INR (S j))).
    - apply Rmult_le_compat_l; auto. apply Rmult_le_compat_r; [left; apply Rinv_0_lt_compat; auto|auto].
    - unfold monomial, y. rewrite fact_simpl, mult_INR. simpl pow. assert (F := fact_pos j). field. lra. }
  rewrite Rmult_plus_distr_l. apply Rplus_le_compat.
  - apply Rle_trans with (exp (- x) * monomial (S (S k)) u); [apply Rmult_le_compat_l; [lra|apply M]|].
    apply Rle_trans with (1 := St (S k) ltac:(lia)).
    rewrite <- (Rmult_1_r (monomial (S k) u)) at 2. apply Rmult_le_compat_l; auto.
    assert (0 < INR (S (S k))) by (apply lt_0_INR; lia). apply Rmult_le_reg_r with (INR (S (S k))); auto.
    unfold Rdiv. rewrite Rmult_assoc, Rinv_l by lra. rewrite Rmult_1_r, Rmult_1_l. apply le_INR; lia.
  - apply Rle_trans with (exp (- x) * monomial (S k) u); [apply Rmult_le_compat_l; [lra|apply M]|].
    apply Rle_trans with (1 := St k ltac:(lia)).
    assert (0 < INR (S k)) by (apply lt_0_INR; lia). right. field. lra.
Qed.

(** A partial sum with a small last term is close to the full sum. *)
Lemma series_tail x k d mu e : 0 < x -> INR (S k + d) * x <= mu -> size x (S k) mu <= e -> e <= 1 ->
  Rabs (series x (S k + d) mu - series x (S k) mu) <= e.
Proof.
  intros Hx Hmu He H1.
  (* alternating sum of the remaining terms *)
  assert (A : forall d k, INR (S k + d) * x <= mu -> size x (S k) mu <= 1 ->
    exists r, series x (S k + d) mu - series x (S k) mu = (-1) ^ k * r /\ 0 <= r <= size x (S k) mu).
  { clear k d Hmu He. induction d as [|d IH]; intros k Hmu He.
    - exists 0. rewrite Nat.add_0_r in *. split; [ring|]. split; [lra|]. apply size_nonneg; auto.
    - assert (Hmu' : INR (S (S k) + d) * x <= mu) by (replace (S (S k) + d)%nat with (S k + S d)%nat by lia; auto).
      assert (Hk2 : INR (S (S k)) * x <= mu).
      { apply Rle_trans with (2 := Hmu'). apply Rmult_le_compat_r; [lra|]. apply le_INR; lia. }
      assert (De := size_decreases x k mu Hx Hk2 He).
      destruct (IH (S k) Hmu' ltac:(lra)) as [r [E R]].
      exists (size x (S (S k)) mu - r). split; [|lra].
      replace (S k + S d)%nat with (S (S k) + d)%nat by lia.
      replace (series x (S (S k) + d) mu - series x (S k) mu) with
        ((series x (S (S k) + d) mu - series x (S (S k)) mu) + (series x (S (S k)) mu - series x (S k) mu)) by ring.
      rewrite E. unfold series at 1. rewrite tech5. fold (series x (S k) mu). unfold term. simpl pow. ring. }
  destruct (A d k Hmu ltac:(lra)) as [r [E R]]. rewrite E, Rabs_mult, pow_1_abs, Rmult_1_l, Rabs_pos_eq; lra.
Qed.

(** * The code *)

Lemma gap_term_fin x mu k : 0 < x -> 0 < mu -> IZR (Z.of_nat k) * x <> mu -> gap_term (Fin x) (Fin mu) (Z.of_nat k) = Fin (term x k mu).
Proof.
  intros Hx Hmu N. rewrite <- INR_IZR_INZ in N. unfold gap_term. cbv zeta. rewrite <- INR_IZR_INZ, Nat2Z.id.
  assert (F := fact_pos k).
  rewrite !xmul_fin, !xsub_fin, xpow_fin, xdiv_fin by lra. rewrite (xdiv_fin (INR k)) by lra.
  rewrite xopp_fin, !xmul_fin, xexp_fin, xadd_fin, !xmul_fin. f_equal. unfold term, size.
  destruct k as [|k].
  - simpl. replace (- 0 * x) with 0 by ring. rewrite exp_0. replace 1.0 with 1 by lra. field. lra.
  - set (K := INR (S k)) in *. set (u := mu - K * x). assert (U : u <> 0) by (unfold u; lra).
    replace (K * x - mu) with (-1 * u) by (unfold u; ring). rewrite Rpow_mult_distr.
    replace (- K * x) with (- (K * x)) by ring. unfold monomial.
    assert (FS : INR (fact (S k)) = K * INR (fact k)) by (rewrite fact_simpl, mult_INR; reflexivity).
    assert (Fk := fact_pos k). rewrite FS. simpl pow. assert (0 < K) by (apply lt_0_INR; lia).
    replace 1.0 with 1 by lra. field. lra.
Qed.

Lemma Zrange_cons lo hi : (lo < hi)%Z -> Zrange lo hi = lo :: Zrange (lo + 1) hi.
Proof.
  intros H. rewrite (Zrange_split lo (lo + 1) hi) by lia. f_equal.
  unfold Zrange. replace (lo + 1 - lo)%Z with 1%Z by lia. change (Z.to_nat 1) with 1%nat. cbn [seq map]. change (Z.of_nat 0) with 0%Z. rewrite Z.add_0_r. reflexivity.
Qed.

(** The loop returns a partial sum: the full one, or one whose last term is tiny. *)
Lemma gap_loop_series x mu : 0 < x -> 0 < mu -> forall d k m, (k + d = m)%nat ->
  (forall j, (k <= j <= m)%nat -> INR j * x <> mu) ->
  exists r, gap_loop (Fin x) (Fin mu) (Fin (match k with O => 0 | S j => series x j mu end)) (Zrange (Z.of_nat k) (Z.of_nat m + 1)) = Fin (series x r mu) /\
    (k <= r <= m)%nat /\ (r = m \/ Rabs (term x r mu) < 1e-20).
Proof.
  intros Hx Hmu. induction d as [|d IH]; intros k m Hm N.
  - assert (k = m) by lia. subst k. rewrite Zrange_cons, Zrange_empty by lia. cbn [gap_loop].
    rewrite gap_term_fin by (auto; rewrite <- INR_IZR_INZ; apply N; lia). cbv zeta. rewrite xadd_fin.
    exists m. split; [|split; [lia|left; auto]].
    replace (Fin (match m with O => 0 | S j => series x j mu end + term x m mu)) with (Fin (series x m mu)).
    + destruct (xlt _ _); reflexivity.
    + f_equal. destruct m as [|m]; [unfold series; simpl; ring|]. unfold series. rewrite tech5. reflexivity.
  - rewrite Zrange_cons by lia. cbn [gap_loop].
    rewrite gap_term_fin by (auto; rewrite <- INR_IZR_INZ; apply N; lia). cbv zeta. rewrite xadd_fin.
    replace (Fin (match k with O => 0 | S j => series x j mu end + term x k mu)) with (Fin (series x k mu)).
    2:{ f_equal. destruct k as [|k]; [unfold series; simpl; ring|]. unfold series. rewrite tech5. reflexivity. }
    rewrite xabs_fin. destruct (xlt (Fin (Rabs (term x k mu))) (Fin 1e-20)) eqn:L.
    + exists k. split; auto. split; [lia|right]. apply xlt_spec; auto.
    + replace (Z.of_nat k + 1)%Z with (Z.of_nat (S k)) by lia.
      destruct (IH (S k) m ltac:(lia)) as [r [E [R1 R2]]]; [intros; apply N; lia|].
      exists r. split; [exact E|split; [lia|auto]].
Qed.

(** The number of gap sizes that fit into the total. *)
Definition pieces (x mu : R) : nat := Z.to_nat (Rfloor (mu / x)).
Lemma pieces_spec x mu : 0 < x < mu -> (1 <= pieces x mu)%nat /\ INR (pieces x mu) * x <= mu < INR (S (pieces x mu)) * x /\
  Z.of_nat (pieces x mu) = Rfloor (mu / x).
Proof.
  intros H. destruct (Rfloor_bounds (mu / x)) as [F1 F2].
  assert (Q : 1 < mu / x). { apply Rmult_lt_reg_r with x; [lra|]. unfold Rdiv. rewrite Rmult_assoc, Rinv_l by lra. lra. }
  assert (Z1 : (1 <= Rfloor (mu / x))%Z). { assert (0 < Rfloor (mu / x))%Z; [|lia]. apply lt_IZR. lra. }
  unfold pieces. assert (E : Z.of_nat (Z.to_nat (Rfloor (mu / x))) = Rfloor (mu / x)) by lia.
  split; [lia|]. split; auto. rewrite S_INR, INR_IZR_INZ, E.
  assert (M : mu / x * x = mu) by (field; lra). split.
  - rewrite <- M at 2. apply Rmult_le_compat_r; lra.
  - rewrite <- M at 1. apply Rmult_lt_compat_r; lra.
Qed.

(** No gap size divides the total. *)
Definition indivisible (x mu : R) : Prop := forall k : nat, (2 <= k)%nat -> mu <> INR k * x.

Lemma cdf_gap x mu : 0 < x < mu -> indivisible x mu -> mu / x < 2 ^ 31 ->
  exists c, CDF_Maximum_Gap (Fin x) (Fin mu) = Ok (Fin c) /\ - 1e-20 <= c <= 1 - exp (- x) + 1e-20.
Proof.
  intros Hx N L. destruct (pieces_spec x mu Hx) as (P1 & P2 & P3). set (m := pieces x mu) in *.
  unfold CDF_Maximum_Gap. rewrite xeq_false by lra. rewrite xdiv_fin by lra. unfold to_int, double_to_int.
  assert (Q : 0 < mu / x) by (apply Rdiv_lt_0_compat; lra).
  unfold Rtrunc. destruct (Rlt_dec (mu / x) 0); [lra|]. cbv zeta. rewrite <- P3.
  assert (B : (Z.of_nat m < 2 ^ 31)%Z).
  { apply lt_IZR. rewrite P3. destruct (Rfloor_bounds (mu / x)) as [F1 F2]. apply Rle_lt_trans with (1 := F1).
    replace (IZR (2 ^ 31)) with (2 ^ 31); [auto|]. rewrite pow_IZR. reflexivity. }
  replace ((- 2 ^ 31 <=? Z.of_nat m)%Z && (Z.of_nat m <=? 2 ^ 31 - 1)%Z)%bool with true
    by (symmetry; apply andb_true_intro; split; apply Z.leb_le; lia).
  cbn [bind].
  destruct (gap_loop_series x mu ltac:(lra) ltac:(lra) m O m ltac:(lia)) as [r [E [R1 R2]]].
  { intros j Hj. destruct j as [|[|j]].
    - simpl. lra.
    - simpl. lra.
    - intros C. apply (N (S (S j))); [lia|auto]. }
  replace 0.0 with 0 by lra. change (Z.of_nat 0) with 0%Z in E. rewrite E. eexists. split; [reflexivity|].
  (* the full sum *)
  assert (F : 0 <= series x m mu <= 1 - exp (- x)).
  { destruct m as [|m']; [lia|]. split; [apply (proj2 (series_piece x (S m') ltac:(lra))); lra|apply series_upper; lra]. }
  destruct R2 as [->|R2]; [lra|].
  destruct r as [|r].
  { exfalso. unfold term, size in R2. simpl in R2. rewrite Rmult_1_l, Rabs_R1 in R2. lra. }
  assert (Sr : INR (S r) * x <= mu).
  { apply Rle_trans with (INR m * x); [|lra]. apply Rmult_le_compat_r; [lra|]. apply le_INR; lia. }
  assert (T : Rabs (series x (S r + (m - S r)) mu - series x (S r) mu) <= 1e-20).
  { apply series_tail; [lra| | |lra].
    - replace (S r + (m - S r))%nat with m by lia. lra.
    - unfold term in R2. rewrite Rabs_mult, pow_1_abs, Rmult_1_l, Rabs_pos_eq in R2 by (apply size_nonneg; auto). lra. }
  replace (S r + (m - S r))%nat with m in T by lia. apply Rabs_le_between in T. lra.
Qed.

(** ** The p-value *)

(** The largest of some numbers. *)
Definition greatest (q : R) (l : list R) : Prop := In q l /\ forall x, In x l -> x <= q.
Lemma max_fold l a : exists q, fold_left (fun m y => if xlt m y then y else m) (map Fin l) (Fin a) = Fin q /\ greatest q (a :: l).
Proof.
  revert a. induction l as [|x l IH]; intros a; simpl.
  - exists a. split; auto. split; [left; auto|]. intros y [<-|[]]; lra.
  - destruct (Rlt_dec a x) as [h|h].
    + destruct (IH x) as [q [E [I1 I2]]]. exists q. split; auto. split; [right; auto|].
      intros y [<-|Hy]; auto. apply Rle_trans with x; [lra|apply I2; left; auto].
    + destruct (IH a) as [q [E [I1 I2]]]. exists q. split; auto. split.
      * destruct I1 as [<-|I1]; [left; auto|right; right; auto].
      * intros y [<-|[<-|Hy]]; [apply I2; left; auto| |apply I2; right; auto].
        apply Rle_trans with a; [lra|apply I2; left; auto].
Qed.
Lemma max_element_greatest l : l <> [] -> exists q, max_element (map Fin l) = Ok (Fin q) /\ greatest q l.
Proof.
  destruct l as [|a l]; [congruence|]. intros _. unfold max_element; cbn [map].
  destruct (max_fold l a) as [q [E H]]. exists q. rewrite E. auto.
Qed.
Lemma greatest_unique q q' l : greatest q l -> greatest q' l -> q = q'.
Proof. intros [A B] [C D]. apply Rle_antisym; auto. Qed.

Lemma Rsum_bounds l x : Forall (fun g => 0 <= g) l -> (forall g, In g l -> g <= x) -> 0 <= Rsum l <= INR (List.length l) * x.
Proof.
  induction 1 as [|g l Hg Hl IH]; intros B.
  - simpl. lra.
  - cbn [List.length Rsum fold_right]. rewrite S_INR. specialize (IH ltac:(intros; apply B; right; auto)).
    assert (g <= x) by (apply B; left; auto). unfold Rsum in IH. lra.
Qed.
Lemma Rsum_ge_member l g : Forall (fun g => 0 <= g) l -> In g l -> g <= Rsum l.
Proof.
  induction 1 as [|h l Hh Hl IH]; intros I; [destruct I|]. cbn [Rsum fold_right]. destruct I as [<-|I].
  - assert (0 <= Rsum l) by (apply (Rsum_bounds l (Rsum l)); auto; intros; clear - Hl H; induction Hl; [destruct H|]; simpl;
      destruct H as [<-|H]; [assert (0 <= Rsum l) by (clear - Hl; induction Hl; simpl; lra); lra|specialize (IHHl H); lra]).
    unfold Rsum in *. lra.
  - specialize (IH I). unfold Rsum in *. lra.
Qed.

(** The expected number of events between the successive entries of a list of energies. *)
Fixpoint gap_sizes (N : R -> R -> R) (l : list R) : list R :=
  match l with
  | [] => []
  | a :: t => match t with [] => [] | b :: _ => N a b :: gap_sizes N t end
  end.

(** What the spectrum predicts: [N a b] events between the energies a and b (see /repo/src/Direct_Detection.cpp:272-294). *)
Definition predicts (Interpolate : interpolation_integral) (deposit : res xr) (dRdE : xr -> res xr) (d : detector) (N : R -> R -> R) : Prop :=
  exists m energies spectrum, deposit = Ok m /\
    energies = (if xlt m (b_energy_max d) then Linear_Space (b_threshold d) m 400 ++ [b_energy_max d]
                else Linear_Space (b_threshold d) (b_energy_max d) 400) /\
    map_res (fun E => let* r := dRdE E in Ok (xmul (b_exposure d) r)) energies = Ok spectrum /\
    forall a b, In (Fin a) (b_gap_data d) -> In (Fin b) (b_gap_data d) -> a <= b ->
      Interpolate energies spectrum (Fin a) (Fin b) = Ok (Fin (N a b)) /\ 0 <= N a b.

Fixpoint ascending (l : list R) : Prop :=
  match l with
  | [] => True
  | a :: t => match t with [] => True | b :: _ => a <= b /\ ascending t end
  end.

Lemma gaps_computed (I : xr -> xr -> res xr) (N : R -> R -> R) (all l : list R) : (forall e, In e l -> In e all) ->
  (forall a b, In (Fin a) (map Fin all) -> In (Fin b) (map Fin all) -> a <= b -> I (Fin a) (Fin b) = Ok (Fin (N a b)) /\ 0 <= N a b) ->
  ascending l ->
  map_res (fun p => I (fst p) (snd p)) (consecutive (map Fin l)) = Ok (map Fin (gap_sizes N l)) /\ Forall (fun g => 0 <= g) (gap_sizes N l).
Proof.
  intros Sub H A. induction l as [|a l IH]; [split; [reflexivity|constructor]|].
  destruct l as [|b l]; [split; [reflexivity|constructor]|]. destruct A as [Hab A].
  destruct IH as [E F]; auto. { intros; apply Sub; right; auto. }
  destruct (H a b) as [E1 P1]; auto; try (apply in_map, Sub; simpl; auto).
  cbn [map consecutive map_res fst snd gap_sizes] in *. rewrite E1. cbn [bind]. rewrite E. cbn [bind].
  split; [reflexivity|]. constructor; auto.
Qed.

Lemma gap_sizes_length N l : List.length (gap_sizes N l) = (List.length l - 1)%nat.
Proof.
  induction l as [|a l IH]; [reflexivity|]. destruct l as [|b l]; [reflexivity|].
  cbn [gap_sizes List.length] in *. rewrite IH. lia.
Qed.

Lemma P_Value_gaps Interpolate deposit dRdE d N es : predicts Interpolate deposit dRdE d N ->
  b_gap_data d = map Fin es -> ascending es -> es <> [] ->
  P_Value_Maximum_Gap Interpolate deposit dRdE d =
    (let* x := max_element (map Fin (gap_sizes N es)) in
     let* c := CDF_Maximum_Gap x (Fin (Rsum (gap_sizes N es))) in Ok (xsub (Fin 1.0) c)) /\ Forall (fun g => 0 <= g) (gap_sizes N es).
Proof.
  intros (m & en & sp & Dp & En & Sp & H) D A NE. rewrite D in H.
  destruct (gaps_computed (Interpolate en sp) N es es (fun e h => h) H A) as [G P]. split; auto.
  unfold P_Value_Maximum_Gap. rewrite Dp. cbn [bind]. cbv zeta. rewrite <- En, Sp. cbn [bind]. rewrite D, G. cbn [bind].
  rewrite xsum_fin. destruct es; [congruence|]. cbn [map]. reflexivity.
Qed.

(** Everything but an exact multiple: a number between 0 and 1, up to the truncation at 1e-20. *)
Lemma gap_p_value Interpolate deposit dRdE d N es x : predicts Interpolate deposit dRdE d N ->
  b_gap_data d = map Fin es -> ascending es -> (2 <= List.length es)%nat -> (Z.of_nat (List.length es) <= 2 ^ 31)%Z ->
  greatest x (gap_sizes N es) -> x = 0 \/ indivisible x (Rsum (gap_sizes N es)) ->
  exists q, P_Value_Maximum_Gap Interpolate deposit dRdE d = Ok (Fin q) /\ exp (- x) - 1e-20 <= q <= 1 + 1e-20.
Proof.
  intros Pr D A L1 L2 G C.
  destruct (P_Value_gaps Interpolate deposit dRdE d N es Pr D A) as [E F]. { intros ->. simpl in L1; lia. }
  set (l := gap_sizes N es) in *. set (mu := Rsum l) in *.
  destruct (max_element_greatest l) as [x' [E' G']].
  { intros E0. destruct G as [G _]. rewrite E0 in G. destruct G. }
  assert (x' = x) by (apply (greatest_unique _ _ l); auto). subst x'.
  rewrite E, E'. cbn [bind].
  assert (X0 : 0 <= x). { rewrite Forall_forall in F. apply F, G. }
  assert (Xmu : x <= mu) by (apply Rsum_ge_member; [auto|apply G]).
  destruct (Rsum_bounds l x F (proj2 G)) as [M0 M1]. fold mu in M0, M1.
  destruct (Req_dec x mu) as [Eq|Ne].
  - unfold CDF_Maximum_Gap. rewrite xeq_true by auto. cbn [bind]. rewrite xopp_fin, xexp_fin, !xsub_fin.
    eexists. split; [reflexivity|]. rewrite Eq. assert (h := exp_pos (- mu)).
    assert (exp (- mu) <= 1). { rewrite <- exp_0. destruct (Req_dec mu 0) as [->|]; [rewrite Ropp_0; lra|]. left; apply exp_increasing; lra. }
    lra.
  - assert (Xp : 0 < x). { destruct (Rle_lt_or_eq_dec 0 x X0) as [|Z]; auto. exfalso. subst x. rewrite Rmult_0_r in M1. lra. }
    destruct C as [C|C]; [lra|].
    destruct (cdf_gap x mu) as [c [Ec Bc]]; [lra|auto| |].
    + apply Rmult_lt_reg_r with x; auto. unfold Rdiv. rewrite Rmult_assoc, Rinv_l by lra. rewrite Rmult_1_r.
      apply Rle_lt_trans with (1 := M1). apply Rmult_lt_compat_r; auto.
      rewrite INR_IZR_INZ. replace (2 ^ 31) with (IZR (2 ^ 31)) by (rewrite pow_IZR; reflexivity). apply IZR_lt.
      unfold l. rewrite gap_sizes_length. lia.
    + rewrite Ec. cbn [bind]. rewrite xsub_fin. eexists. split; [reflexivity|]. replace 1.0 with 1 by lra. lra.
Qed.

(** With two gaps there is no truncation: the bounds are exact. *)

(** One event: the maximum of no gaps is taken. *)
Lemma one_event Interpolate deposit dRdE d N e : predicts Interpolate deposit dRdE d N -> b_gap_data d = [Fin e] ->
  P_Value_Maximum_Gap Interpolate deposit dRdE d = UB.
Proof.
  intros Pr D. destruct (P_Value_gaps Interpolate deposit dRdE d N [e] Pr D) as [E _]; [simpl; auto|discriminate|].
  rewrite E. reflexivity.
Qed.

(** Two equal gaps: not a number. *)
Lemma two_equal_gaps Interpolate deposit dRdE d N a b c x : predicts Interpolate deposit dRdE d N -> b_gap_data d = [Fin a; Fin b; Fin c] ->
  a <= b <= c -> N a b = x -> N b c = x -> 0 < x <= 40 ->
  P_Value_Maximum_Gap Interpolate deposit dRdE d = Ok NaN.
Proof.
  intros Pr D O N1 N2 Hx. destruct (P_Value_gaps Interpolate deposit dRdE d N [a; b; c] Pr D) as [E _]; [simpl; tauto|discriminate|].
  rewrite E. cbn [gap_sizes map max_element fold_left]. rewrite N1, N2, xlt_false by lra. cbn [bind].
  cbn [Rsum fold_right]. replace (x + (x + 0)) with (2 * x) by ring.
  unfold CDF_Maximum_Gap. rewrite xeq_false by lra. rewrite xdiv_fin by lra. replace (2 * x / x) with (IZR 2) by (field; lra).
  unfold to_int. rewrite double_to_int_IZR. cbn [bind]. replace ((- 2 ^ 31 <=? 2)%Z && (2 <=? 2 ^ 31 - 1)%Z)%bool with true by reflexivity.
  cbn [bind]. replace (Zrange 0 (2 + 1)) with [0; 1; 2]%Z by reflexivity. cbn [gap_loop].
  assert (T0 := gap_term_fin x (2 * x) 0 ltac:(lra) ltac:(lra) ltac:(simpl; lra)).
  assert (T1 := gap_term_fin x (2 * x) 1 ltac:(lra) ltac:(lra) ltac:(simpl; lra)).
  change (Z.of_nat 0) with 0%Z in T0. change (Z.of_nat 1) with 1%Z in T1. rewrite T0, T1. cbv zeta.
  rewrite xabs_fin, xlt_false by (unfold term, size; simpl pow; rewrite Rmult_1_l, Rabs_R1; lra).
  rewrite xabs_fin, xlt_false.
  2:{ unfold term. rewrite Rabs_mult, pow_1_abs, Rmult_1_l, Rabs_pos_eq by (apply size_nonneg; simpl; lra).
      unfold size. rewrite monomial_0. change (INR 1) with 1. rewrite Rmult_1_l.
      assert (0 <= monomial 1 (2 * x - x)) by (apply monomial_nonneg; lra).
      assert (1e-20 <= exp (- x)).
      { rewrite exp_Ropp. apply Rmult_le_reg_l with (exp x); [apply exp_pos|]. rewrite Rinv_r by (assert (h := exp_pos x); lra).
        assert (exp x <= 3 ^ 40); [|lra].
        apply Rle_trans with (exp (INR 40 * ln 3)).
        - assert (1 <= ln 3). { destruct (Rle_lt_dec 1 (ln 3)) as [|h1]; auto. apply exp_increasing in h1. rewrite exp_ln in h1 by lra. assert (h := exp_le_3). lra. }
          destruct (Req_dec x (INR 40 * ln 3)) as [->|]; [lra|]. left. apply exp_increasing.
          rewrite (INR_IZR_INZ 40) in *. change (IZR (Z.of_nat 40)) with 40 in *. lra.
        - right. rewrite <- ln_pow, exp_ln by (try apply pow_lt; lra). reflexivity. }
      assert (h := exp_pos (- x)).
      rewrite Rmult_plus_distr_l, Rmult_1_r. assert (0 <= exp (- x) * monomial 1 (2 * x - x)) by (apply Rmult_le_pos; lra). lra. }
  assert (T2 : gap_term (Fin x) (Fin (2 * x)) 2 = NaN).
  { unfold gap_term. rewrite !xmul_fin, !xsub_fin. replace (2 * x - 2 * x) with 0 by ring. change (Z.to_nat 2) with 2%nat.
    rewrite xpow_fin, xdiv_zero. unfold inf_sign. rewrite rpos_true by lra. rewrite xdiv_fin by (simpl; lra).
    rewrite xopp_fin, xmul_fin, xexp_fin, xmul_fin. cbn [xadd xmul]. unfold inf_sign.
    replace (0 ^ 2 / INR (fact 2) * exp (- 2 * x)) with 0 by (simpl; unfold Rdiv; ring).
    rewrite rpos_false, rneg_false by lra. reflexivity. }
  rewrite T2. cbn [xadd xabs xlt gap_loop]. reflexivity.
Qed.

(** * Event lists as given by the user *)
From Coq Require Import Permutation.

Lemma insert_perm a l : exists t, insert_sorted (Fin a) (map Fin l) = map Fin t /\ Permutation (a :: l) t /\
  (ascending l -> ascending t /\ match l, t with [], h :: _ => h = a | b :: _, h :: _ => h = a \/ h = b | _, [] => False end).
Proof.
  induction l as [|b l IH]; cbn [map insert_sorted].
  - exists [a]. repeat split; auto.
  - destruct (xlt (Fin b) (Fin a)) eqn:C.
    + destruct IH as [t [E [P O]]]. exists (b :: t). rewrite E. split; [reflexivity|]. split.
      * apply perm_trans with (b :: a :: l); [apply perm_swap|apply perm_skip; auto].
      * intros A. assert (A' : ascending l) by (destruct l; [exact Logic.I|apply A]). destruct (O A') as [O1 O2]. split; [|right; auto].
        apply xlt_spec in C. destruct t as [|h t]; [exact Logic.I|]. split; auto. destruct l as [|c l]; [subst; lra|].
        destruct O2 as [->| ->]; [lra|apply A].
    + exists (a :: b :: l). split; [reflexivity|]. split; [apply Permutation_refl|]. intros A. split; [|left; auto].
      split; auto. destruct (Rle_lt_dec a b) as [h|h]; auto. apply (xlt_true b a) in h. congruence.
Qed.

Lemma sort_perm l : exists t, sort_doubles (map Fin l) = map Fin t /\ Permutation l t /\ ascending t.
Proof.
  unfold sort_doubles. induction l as [|a l IH]; cbn [map fold_right].
  - exists []. repeat split; auto.
  - destruct IH as [t [E [P A]]]. rewrite E. destruct (insert_perm a t) as [t' [E' [P' A']]].
    exists t'. split; auto. split; [|apply A'; auto]. apply perm_trans with (a :: t); [apply perm_skip; auto|auto].
Qed.

Lemma use_maximum_gap l d0 d : Use_Maximum_Gap (map Fin l) d0 = Ok d ->
  exists t, b_analysis d = Maximum_Gap /\ b_gap_data d = map Fin t /\ Permutation l t /\ ascending t.
Proof.
  unfold Use_Maximum_Gap. destruct (_ && _)%bool; try discriminate. destruct (sort_perm l) as [t [E [P A]]]. rewrite E.
  destruct t as [|h t]; cbn [map]; try discriminate. intros H. apply Ok_inj in H. subst d. exists (h :: t). auto.
Qed.

(** The full claim for a user's list of at least two events. *)
Lemma gap_p_value_user l d0 d Interpolate deposit dRdE N x t : Use_Maximum_Gap (map Fin l) d0 = Ok d ->
  (2 <= List.length l)%nat -> (Z.of_nat (List.length l) <= 2 ^ 31)%Z -> Permutation l t -> ascending t ->
  predicts Interpolate deposit dRdE d N -> greatest x (gap_sizes N t) ->
  (forall k : nat, (2 <= k)%nat -> x = 0 \/ Rsum (gap_sizes N t) <> INR k * x) ->
  exists q, P_Value_Maximum_Gap Interpolate deposit dRdE d = Ok (Fin q) /\ exp (- x) - 1e-20 <= q <= 1 + 1e-20.
Proof.
  intros U L1 L2 P A Pr G C. destruct (use_maximum_gap l d0 d U) as (t' & _ & D & P' & A').
  assert (t' = t).
  { assert (PP : Permutation t t') by (apply perm_trans with l; [apply Permutation_sym; auto|auto]). clear - PP A A'.
    revert t' PP A'. induction t as [|a t IH]; intros t' PP A'.
    - apply Permutation_nil in PP. auto.
    - destruct t' as [|b t']; [apply Permutation_sym, Permutation_nil in PP; discriminate|].
      assert (Lo : forall h s, ascending (h :: s) -> forall y, In y (h :: s) -> h <= y).
      { clear. intros h s. revert h. induction s as [|c s IH]; intros h A y [<-|I]; try lra; [destruct I|].
        destruct A as [A1 A2]. apply Rle_trans with c; auto. }
      assert (a = b).
      { apply Rle_antisym.
        - apply (Lo a t A). apply Permutation_in with (1 := Permutation_sym PP). left; auto.
        - apply (Lo b t' A'). apply Permutation_in with (1 := PP). left; auto. }
      subst b. f_equal. apply IH.
      + destruct t; [exact Logic.I|apply A].
      + apply Permutation_cons_inv with a; auto.
      + destruct t'; [exact Logic.I|apply A']. }
  subst t'. apply (gap_p_value Interpolate deposit dRdE d N t x); auto.
  - rewrite <- (Permutation_length P). auto.
  - rewrite <- (Permutation_length P). auto.
  - destruct (Req_dec x 0) as [|X]; [left; auto|right]. intros k Hk. destruct (C k Hk) as [|]; [contradiction|auto].
Qed.

(** * Concrete cases: a flat spectrum of one event per unit of energy *)
Definition flat_integral : interpolation_integral := fun _ _ a b => Ok (xsub b a).
Definition flat_rate : xr -> res xr := fun _ => Ok (Fin 1).
Definition gap_example (l : list R) : res detector := Use_Maximum_Gap (map Fin l) (Detector_ctor "example"%string (Fin 1) "Nuclei"%string).

Lemma flat_predicts l d : gap_example l = Ok d -> predicts flat_integral (Ok (Fin 1000)) flat_rate d (fun a b => Rmax 0 (b - a)).
Proof.
  intros E. unfold predicts. do 3 eexists. split; [reflexivity|]. split; [reflexivity|]. split.
  - apply (map_res_ok _ (fun _ => xmul (b_exposure d) (Fin 1))). reflexivity.
  - intros a b _ _ H. unfold flat_integral. rewrite xsub_fin, Rmax_right by lra. split; auto; lra.
Qed.

Lemma example_nan : exists l d Interpolate deposit dRdE N,
  gap_example l = Ok d /\ predicts Interpolate deposit dRdE d N /\ (2 <= List.length l)%nat /\
  P_Value_Maximum_Gap Interpolate deposit dRdE d = Ok NaN.
Proof.
  assert (E : exists d, gap_example [1; 2; 3] = Ok d /\ b_gap_data d = [Fin 1; Fin 2; Fin 3]).
  { unfold gap_example, Use_Maximum_Gap. cbn [map existsb is_nan orb andb sort_doubles fold_right insert_sorted].
    rewrite (xlt_false 3 2) by lra. cbn [insert_sorted]. rewrite (xlt_false 2 1) by lra. cbv zeta. eexists. split; reflexivity. }
  destruct E as [d [E D]]. exists [1; 2; 3], d, flat_integral, (Ok (Fin 1000)), flat_rate, (fun a b => Rmax 0 (b - a)).
  split; auto. split; [apply (flat_predicts [1; 2; 3]); auto|]. split; [simpl; lia|].
  apply (two_equal_gaps _ _ _ _ (fun a b => Rmax 0 (b - a)) 1 2 3 1); auto; try lra; [apply (flat_predicts [1; 2; 3]); auto| |];
    rewrite Rmax_right; lra.
Qed.

Lemma example_one_event : exists l d Interpolate deposit dRdE N,
  gap_example l = Ok d /\ l <> [] /\ predicts Interpolate deposit dRdE d N /\
  P_Value_Maximum_Gap Interpolate deposit dRdE d = UB.
Proof.
  assert (E : exists d, gap_example [1] = Ok d /\ b_gap_data d = [Fin 1]) by (eexists; split; reflexivity).
  destruct E as [d [E D]]. exists [1], d, flat_integral, (Ok (Fin 1000)), flat_rate, (fun a b => Rmax 0 (b - a)).
  split; auto. split; [discriminate|]. split; [apply (flat_predicts [1]); auto|].
  apply (one_event _ _ _ _ (fun a b => Rmax 0 (b - a)) 1); auto. apply (flat_predicts [1]); auto.
Qed.

Lemma example_number : exists d, gap_example [4; 1; 2] = Ok d /\ predicts flat_integral (Ok (Fin 1000)) flat_rate d (fun a b => Rmax 0 (b - a)) /\
  Permutation [4; 1; 2] [1; 2; 4] /\ ascending [1; 2; 4] /\ greatest 2 (gap_sizes (fun a b => Rmax 0 (b - a)) [1; 2; 4]) /\
  (forall k : nat, (2 <= k)%nat -> 2 = 0 \/ Rsum (gap_sizes (fun a b => Rmax 0 (b - a)) [1; 2; 4]) <> INR k * 2).
Proof.
  assert (E : exists d, gap_example [4; 1; 2] = Ok d).
  { unfold gap_example, Use_Maximum_Gap. cbn [map existsb is_nan orb andb sort_doubles fold_right insert_sorted].
    rewrite (xlt_false 2 1) by lra. cbn [insert_sorted]. rewrite (xlt_true 1 4) by lra. cbn [insert_sorted].
    destruct (xlt _ _); eexists; reflexivity. }
  destruct E as [d E]. exists d. split; auto. split; [apply (flat_predicts [4; 1; 2]); auto|].
  cbn [gap_sizes]. rewrite !Rmax_right by lra. split; [|split; [|split]].
  - apply perm_trans with [1; 4; 2]; [apply perm_swap|apply perm_skip, perm_swap].
  - simpl. lra.
  - split; [right; left; lra|]. intros y [<-|[<-|[]]]; lra.
  - intros k Hk. right. simpl. intros C. assert (INR k = IZR (Z.of_nat k)) by apply INR_IZR_INZ.
    assert (3 = 2 * IZR (Z.of_nat k)) by lra. rewrite <- mult_IZR in H0. apply eq_IZR in H0. lia.
Qed.
