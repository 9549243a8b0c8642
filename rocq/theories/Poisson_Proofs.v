(** Poisson statistics: monotonicity of p-values and profiling of backgrounds. *)
From Coq Require Import Reals Lra Lia ZArith Bool String.
From Coquelicot Require Import Coquelicot.
From Coq Require Import List.
From Verif Require Import Base XrFacts Particle_Model Detector_Model DetectorTypes_Model.
Import ListNotations.
Local Open Scope R_scope.

(** * The Poisson distribution *)

(** Probability of at most n events when lambda are expected. *)
Definition poisson_sum (lambda : R) (n : nat) : R := sum_f_R0 (fun k => lambda ^ k / INR (fact k)) n.
Definition at_most (n : nat) (lambda : R) : R := exp (- lambda) * poisson_sum lambda n.

(** Logarithm of the probability of exactly n events. *)
Definition log_probability (n : nat) (lambda : R) : R := INR n * ln lambda - ln (INR (fact n)) - lambda.

(** libphysica::CDF_Poisson, Log_Likelihood_Poisson and Log_Likelihood_Poisson_Binned (external), idealised as the exact functions
    (called in /repo/src/Direct_Detection.cpp:30,39,94,113). Nothing is assumed for a vanishing expectation in the logarithm or for lists
    of different lengths. *)
Definition ideal_statistics (X : statistics) : Prop :=
  (forall lambda n, 0 <= lambda -> (0 <= n)%Z -> CDF_Poisson X (Fin lambda) n = Ok (Fin (at_most (Z.to_nat n) lambda))) /\
  (forall s n b, 0 < s + b -> (0 <= n)%Z -> LogL_Poisson X (Fin s) n (Fin b) = Ok (Fin (log_probability (Z.to_nat n) (s + b)))) /\
  (forall l, Forall (fun t => 0 < fst (fst t) + snd t /\ (0 <= snd (fst t))%Z) l ->
    LogL_Poisson_Binned X (map (fun t => Fin (fst (fst t))) l) (map (fun t => snd (fst t)) l) (map (fun t => Fin (snd t)) l) =
    Ok (Fin (Rsum (map (fun t => log_probability (Z.to_nat (snd (fst t))) (fst (fst t) + snd t)) l)))).

Lemma fact_pos n : 0 < INR (fact n).
Proof. apply lt_0_INR, lt_O_fact. Qed.

Lemma poisson_sum_pos lambda n : 0 <= lambda -> 0 < poisson_sum lambda n.
Proof.
  intros H. unfold poisson_sum. induction n as [|n IH].
  - simpl. lra.
  - rewrite tech5. assert (0 <= lambda ^ S n / INR (fact (S n))).
    { apply Rmult_le_pos; [apply pow_le; auto|left; apply Rinv_0_lt_compat, fact_pos]. } lra.
Qed.

Lemma at_most_0 n : at_most n 0 = 1.
Proof.
  unfold at_most, poisson_sum. rewrite Ropp_0, exp_0, Rmult_1_l. induction n as [|n IH].
  - simpl. lra.
  - rewrite tech5, IH. rewrite pow_i by lia. unfold Rdiv; rewrite Rmult_0_l. lra.
Qed.

Lemma poisson_sum_derive n lambda :
  is_derive (fun x => poisson_sum x n) lambda (match n with O => 0 | S m => poisson_sum lambda m end).
Proof.
  unfold poisson_sum. induction n as [|n IH].
  - simpl. auto_derive; auto.
  - apply is_derive_ext with (f := fun x => sum_f_R0 (fun k => x ^ k / INR (fact k)) n + x ^ S n / INR (fact (S n))).
    { intros t. rewrite tech5. reflexivity. }
    assert (D : is_derive (fun x => x ^ S n / INR (fact (S n))) lambda (lambda ^ n / INR (fact n))).
    { assert (F := fact_pos (S n)). assert (F' := fact_pos n).
      auto_derive; [lra|].
      assert (FS : INR (fact (S n)) = INR (S n) * INR (fact n)) by (rewrite fact_simpl, mult_INR; reflexivity).
      change (fact n + n * fact n)%nat with (fact (S n)). rewrite FS.
      assert (0 < INR (S n)) by (apply lt_0_INR; lia).
      change (match n with O => 1 | S _ => INR n + 1 end) with (INR (S n)).
      field. split; lra. }
    destruct n as [|n].
    + replace (sum_f_R0 (fun k => lambda ^ k / INR (fact k)) 0) with (0 + lambda ^ 0 / INR (fact 0)) by (simpl; lra).
      apply (is_derive_plus _ _ _ _ _ IH D).
    + rewrite tech5. apply (is_derive_plus _ _ _ _ _ IH D).
Qed.

Lemma at_most_derive n lambda : is_derive (at_most n) lambda (- (exp (- lambda) * (lambda ^ n / INR (fact n)))).
Proof.
  unfold at_most.
  assert (D := poisson_sum_derive n lambda).
  assert (E : is_derive (fun x => exp (- x)) lambda (- exp (- lambda))) by (auto_derive; auto; ring).
  evar_last.
  - apply (is_derive_mult (fun x => exp (- x)) (fun x => poisson_sum x n) lambda _ _ E D). intros; apply Rmult_comm.
  - unfold plus, mult; simpl. destruct n as [|n].
    + unfold poisson_sum; simpl. field.
    + replace (poisson_sum lambda (S n)) with (poisson_sum lambda n + lambda ^ S n / INR (fact (S n)))
        by (unfold poisson_sum; rewrite tech5; reflexivity).
      simpl pow. ring.
Qed.

Lemma at_most_decreasing n a b : 0 <= a < b -> at_most n b < at_most n a.
Proof.
  intros [Ha Hab].
  destruct (MVT_gen (at_most n) a b (fun x => - (exp (- x) * (x ^ n / INR (fact n))))) as [c [Hc E]].
  - intros x _. apply at_most_derive.
  - intros x _. apply derivable_continuous_pt. eexists. apply is_derive_Reals, at_most_derive.
  - rewrite Rmin_left, Rmax_right in Hc by lra.
    (* split once more so that the intermediate point is positive *)
    set (m := (a + b) / 2).
    destruct (MVT_gen (at_most n) m b (fun x => - (exp (- x) * (x ^ n / INR (fact n))))) as [c2 [Hc2 E2]].
    { intros x _. apply at_most_derive. }
    { intros x _. apply derivable_continuous_pt. eexists. apply is_derive_Reals, at_most_derive. }
    destruct (MVT_gen (at_most n) a m (fun x => - (exp (- x) * (x ^ n / INR (fact n))))) as [c1 [Hc1 E1]].
    { intros x _. apply at_most_derive. }
    { intros x _. apply derivable_continuous_pt. eexists. apply is_derive_Reals, at_most_derive. }
    assert (a < m < b) by (unfold m; lra).
    rewrite Rmin_left, Rmax_right in Hc1, Hc2 by lra.
    assert (P1 : 0 <= exp (- c1) * (c1 ^ n / INR (fact n))).
    { apply Rmult_le_pos; [left; apply exp_pos|]. apply Rmult_le_pos; [apply pow_le; lra|left; apply Rinv_0_lt_compat, fact_pos]. }
    assert (P2 : 0 < exp (- c2) * (c2 ^ n / INR (fact n))).
    { apply Rmult_lt_0_compat; [apply exp_pos|]. apply Rdiv_lt_0_compat; [apply pow_lt; lra|apply fact_pos]. }
    assert (0 <= exp (- c1) * (c1 ^ n / INR (fact n)) * (m - a)) by (apply Rmult_le_pos; lra).
    assert (0 < exp (- c2) * (c2 ^ n / INR (fact n)) * (b - m)) by (apply Rmult_lt_0_compat; lra).
    lra.
Qed.

Lemma at_most_le n a b : 0 <= a <= b -> at_most n b <= at_most n a.
Proof. intros [H [H1|H1]]; [left; apply at_most_decreasing; lra|right; congruence]. Qed.

Lemma at_most_bounds n a : 0 <= a -> 0 < at_most n a <= 1.
Proof.
  intros H. split.
  - apply Rmult_lt_0_compat; [apply exp_pos|apply poisson_sum_pos; auto].
  - rewrite <- (at_most_0 n). apply at_most_le; lra.
Qed.

Lemma at_most_count n m a : 0 <= a -> (n <= m)%nat -> at_most n a <= at_most m a.
Proof.
  intros Ha H. induction H as [|m H IH]; [lra|].
  apply Rle_trans with (1 := IH). unfold at_most, poisson_sum. rewrite tech5.
  apply Rmult_le_compat_l; [left; apply exp_pos|].
  assert (0 <= a ^ S m / INR (fact (S m))) by (apply Rmult_le_pos; [apply pow_le; auto|left; apply Rinv_0_lt_compat, fact_pos]). lra.
Qed.
Lemma at_most_count_strict n m a : 0 < a -> (n < m)%nat -> at_most n a < at_most m a.
Proof.
  intros Ha H. apply Rlt_le_trans with (at_most (S n) a); [|apply at_most_count; [lra|lia]].
  unfold at_most, poisson_sum. rewrite tech5. apply Rmult_lt_compat_l; [apply exp_pos|].
  assert (0 < a ^ S n / INR (fact (S n))) by (apply Rdiv_lt_0_compat; [apply pow_lt; auto|apply fact_pos]). lra.
Qed.

Lemma ln_le_sub1 x : 0 < x -> ln x <= x - 1.
Proof. intros H. assert (h := exp_ineq1_le (ln x)). rewrite exp_ln in h by auto. lra. Qed.

(** The most probable expectation for n events is n itself. *)
Lemma log_probability_max n lambda : 0 < INR n -> 0 < lambda -> log_probability n lambda <= log_probability n (INR n).
Proof.
  intros Hn Hl. unfold log_probability.
  assert (h := ln_le_sub1 (lambda / INR n) ltac:(apply Rdiv_lt_0_compat; auto)).
  rewrite ln_div in h by auto.
  assert (INR n * (ln lambda - ln (INR n)) <= INR n * (lambda / INR n - 1)) by (apply Rmult_le_compat_l; lra).
  replace (INR n * (lambda / INR n - 1)) with (lambda - INR n) in H by (field; lra).
  lra.
Qed.
(** Above that it decreases. *)
Lemma log_probability_above n a b : 0 < a -> INR n <= a -> a <= b -> log_probability n b <= log_probability n a.
Proof.
  intros Ha Hn Hab. unfold log_probability.
  assert (h := ln_le_sub1 (b / a) ltac:(apply Rdiv_lt_0_compat; lra)).
  rewrite ln_div in h by lra.
  assert (Hp := pos_INR n).
  assert (INR n * (ln b - ln a) <= INR n * (b / a - 1)) by (apply Rmult_le_compat_l; lra).
  assert (INR n * (b / a - 1) <= a * (b / a - 1)).
  { apply Rmult_le_compat_r; auto. assert (1 <= b / a); [|lra]. apply Rmult_le_reg_r with a; auto. field_simplify; lra. }
  replace (a * (b / a - 1)) with (b - a) in H0 by (field; lra). lra.
Qed.

(** * The detector functions *)

(** The configuration a user sets up (as opposed to the temporary one inside a limit search). *)
Definition direct (d : detector) : Prop := b_using_fiducial d = false.

(** The predictions of the detector do not look at data and backgrounds. *)
Definition predictions_ignore_data (V : virtuals) : Prop :=
  forall d d' p, (exists n, Set_Observed_Events n d = Ok d') \/ (exists l, Set_Observed_Events_Binned l d = Ok d') \/
                 (exists b, Set_Expected_Background b d = Ok d') \/ (exists l, Set_Expected_Background_Binned l d = Ok d') ->
    v_total V d' p = v_total V d p /\ v_binned V d' p = v_binned V d p.

Lemma data_setters d d' :
  (exists n, Set_Observed_Events n d = Ok d') \/ (exists l, Set_Observed_Events_Binned l d = Ok d') \/
  (exists b, Set_Expected_Background b d = Ok d') \/ (exists l, Set_Expected_Background_Binned l d = Ok d') ->
  exists n b no nb, d' = with_observed n (with_background b (with_bin_observed no n (with_bin_background nb b d))).
Proof.
  intros [[n H]|[[l H]|[[b H]|[l H]]]].
  - unfold Set_Observed_Events in H. destruct (b_analysis d) eqn:A; try discriminate. apply Ok_inj in H; subst.
    exists n, (b_background d), (b_bin_observed d), (b_bin_background d). destruct d; reflexivity.
  - unfold Set_Observed_Events_Binned in H. destruct (b_analysis d) eqn:A; try discriminate.
    destruct (_ =? _)%Z in H; try discriminate. apply Ok_inj in H; subst.
    exists (u64 (accumulate_int l)), (b_background d), l, (b_bin_background d). destruct d; reflexivity.
  - unfold Set_Expected_Background in H. destruct (b_analysis d) eqn:A; try discriminate. apply Ok_inj in H; subst.
    exists (b_observed d), b, (b_bin_observed d), (b_bin_background d). destruct d; reflexivity.
  - unfold Set_Expected_Background_Binned in H. destruct (b_analysis d) eqn:A; try discriminate.
    destruct (_ =? _)%Z in H; try discriminate. apply Ok_inj in H; subst.
    exists (b_observed d), (xsum l), (b_bin_observed d), l. destruct d; reflexivity.
Qed.

Lemma nuclear_ignores_data X D n : predictions_ignore_data (nuclear_virtuals X D n).
Proof.
  intros d d' p H. apply data_setters in H as (k & b & no & nb & ->). split; reflexivity.
Qed.
Lemma ionization_ignores_data X D s : predictions_ignore_data (ionization_virtuals X D s).
Proof.
  intros d d' p H. apply data_setters in H as (k & b & no & nb & ->). split; reflexivity.
Qed.
Lemma semiconductor_ignores_data X D s : predictions_ignore_data (semiconductor_virtuals X D s).
Proof.
  intros d d' p H. apply data_setters in H as (k & b & no & nb & ->). split; reflexivity.
Qed.

Lemma P_Value_Poisson X V d p s b : ideal_statistics X -> direct d -> b_analysis d = Poisson -> (0 <= b_observed d)%Z ->
  b_background d = Fin b -> 0 <= b -> v_total V d p = Ok (Fin s) -> 0 <= s ->
  P_Value X V d p = Ok (Fin (at_most (Z.to_nat (b_observed d)) (s + b))).
Proof.
  intros [I _] F A N B Hb S Hs. unfold P_Value. rewrite A, F, S. cbn [bind]. rewrite B, xadd_fin. apply I; auto; lra.
Qed.

(** More signal: smaller p-value. *)
Lemma p_value_decreases X V d p p' s s' b : ideal_statistics X -> direct d -> b_analysis d = Poisson -> (0 <= b_observed d)%Z ->
  b_background d = Fin b -> 0 <= b ->
  v_total V d p = Ok (Fin s) -> v_total V d p' = Ok (Fin s') -> 0 <= s < s' ->
  exists q q', P_Value X V d p = Ok (Fin q) /\ P_Value X V d p' = Ok (Fin q') /\ 0 < q' < q /\ q <= 1.
Proof.
  intros I F A N B Hb S S' Hs.
  rewrite (P_Value_Poisson X V d p s b), (P_Value_Poisson X V d p' s' b) by (auto; lra).
  do 2 eexists. split; [reflexivity|split; [reflexivity|]].
  assert (h := at_most_bounds (Z.to_nat (b_observed d)) (s' + b)). assert (h' := at_most_bounds (Z.to_nat (b_observed d)) (s + b)).
  assert (at_most (Z.to_nat (b_observed d)) (s' + b) < at_most (Z.to_nat (b_observed d)) (s + b)) by (apply at_most_decreasing; lra).
  lra.
Qed.

(** More observed events: larger p-value. *)
Lemma p_value_counts X V d d1 d2 p n1 n2 s b : ideal_statistics X -> predictions_ignore_data V -> direct d ->
  Set_Observed_Events n1 d = Ok d1 -> Set_Observed_Events n2 d = Ok d2 -> (0 <= n1 < n2)%Z ->
  b_background d = Fin b -> 0 <= b -> v_total V d p = Ok (Fin s) -> 0 <= s ->
  exists q1 q2, P_Value X V d1 p = Ok (Fin q1) /\ P_Value X V d2 p = Ok (Fin q2) /\ q1 <= q2 /\ (0 < s + b -> q1 < q2).
Proof.
  intros I V0 F D1 D2 N B Hb S Hs.
  assert (S1 : v_total V d1 p = Ok (Fin s)) by (rewrite <- S; apply V0; eauto).
  assert (S2 : v_total V d2 p = Ok (Fin s)) by (rewrite <- S; apply V0; eauto).
  unfold Set_Observed_Events in D1, D2. destruct (b_analysis d) eqn:A; try discriminate.
  apply Ok_inj in D1, D2. subst d1 d2.
  rewrite (P_Value_Poisson X V (with_observed n1 d) p s b), (P_Value_Poisson X V (with_observed n2 d) p s b) by (auto; cbn; lia).
  do 2 eexists. split; [reflexivity|split; [reflexivity|]]. cbn [b_observed with_observed]. split.
  - apply at_most_count; [lra|lia].
  - intros. apply at_most_count_strict; [lra|lia].
Qed.

(** More background: smaller p-value. *)
Lemma p_value_background X V d d1 d2 p b1 b2 s : ideal_statistics X -> predictions_ignore_data V -> direct d ->
  Set_Expected_Background (Fin b1) d = Ok d1 -> Set_Expected_Background (Fin b2) d = Ok d2 -> 0 <= b1 < b2 ->
  (0 <= b_observed d)%Z -> v_total V d p = Ok (Fin s) -> 0 <= s ->
  exists q1 q2, P_Value X V d1 p = Ok (Fin q1) /\ P_Value X V d2 p = Ok (Fin q2) /\ q2 < q1.
Proof.
  intros I V0 F D1 D2 N B S Hs.
  assert (S1 : v_total V d1 p = Ok (Fin s)) by (rewrite <- S; apply V0; eauto 6).
  assert (S2 : v_total V d2 p = Ok (Fin s)) by (rewrite <- S; apply V0; eauto 6).
  unfold Set_Expected_Background in D1, D2. destruct (b_analysis d) eqn:A; try discriminate.
  apply Ok_inj in D1, D2. subst d1 d2.
  rewrite (P_Value_Poisson X V (with_background (Fin b1) d) p s b1), (P_Value_Poisson X V (with_background (Fin b2) d) p s b2)
    by (auto; cbn; lra).
  do 2 eexists. split; [reflexivity|split; [reflexivity|]]. cbn [b_observed with_background].
  apply at_most_decreasing; lra.
Qed.

(** * Bins *)

(** The smallest of some numbers. *)
Definition least (q : R) (l : list R) : Prop := In q l /\ forall x, In x l -> q <= x.

Lemma min_fold l a : exists q, fold_left (fun m y => if xlt y m then y else m) (map Fin l) (Fin a) = Fin q /\ least q (a :: l).
Proof.
  revert a. induction l as [|x l IH]; intros a; simpl.
  - exists a. split; auto. split; [left; auto|]. intros y [<-|[]]; lra.
  - destruct (Rlt_dec x a) as [h|h].
    + destruct (IH x) as [q [E [I1 I2]]]. exists q. split; auto. split; [right; auto|].
      intros y [<-|Hy]; auto. apply Rle_trans with x; [apply I2; left; auto|lra].
    + destruct (IH a) as [q [E [I1 I2]]]. exists q. split; auto. split.
      * destruct I1 as [<-|I1]; [left; auto|right; right; auto].
      * intros y [<-|[<-|Hy]]; [apply I2; left; auto| |apply I2; right; auto].
        apply Rle_trans with a; [apply I2; left; auto|lra].
Qed.
Lemma min_element_least l : l <> [] -> exists q, min_element (map Fin l) = Ok (Fin q) /\ least q l.
Proof.
  destruct l as [|a l]; [congruence|]. intros _. unfold min_element; cbn [map].
  destruct (min_fold l a) as [q [E H]]. exists q. rewrite E. auto.
Qed.

(** What each bin contributes: signal, background, count. *)
Record bin : Type := mkBin { signal : R; background : R; count : Z }.
Definition good_bin (x : bin) : Prop := 0 <= signal x /\ 0 <= background x /\ (0 <= count x)%Z.
Definition bin_p (x : bin) : R := at_most (Z.to_nat (count x)) (signal x + background x).
Definition has_bins (V : virtuals) (d : detector) (p : particle) (l : list bin) : Prop :=
  b_analysis d = Binned_Poisson /\ b_bins d = Z.of_nat (List.length l) /\
  v_binned V d p = Ok (map (fun x => Fin (signal x)) l) /\
  b_bin_background d = map (fun x => Fin (background x)) l /\ b_bin_observed d = map count l.

Lemma map_seq_nth {A B} (f : A -> B) (l : list A) (g : nat -> B) :
  (forall i a, nth_error l i = Some a -> g i = f a) -> map g (seq 0 (List.length l)) = map f l.
Proof.
  revert g. induction l as [|a l IH]; intros g H; cbn [List.length seq map]; auto.
  rewrite (H O a) by reflexivity. f_equal. rewrite <- seq_shift, map_map. apply IH.
  intros i b Hb. apply H. exact Hb.
Qed.

Lemma map_res_seq {A B} (f : A -> B) (l : list A) (g : nat -> res B) :
  (forall i a, nth_error l i = Some a -> g i = Ok (f a)) -> map_res g (seq 0 (List.length l)) = Ok (map f l).
Proof.
  intros H.
  assert (forall k l', (forall i a, nth_error l' i = Some a -> g (k + i)%nat = Ok (f a)) ->
    map_res g (seq k (List.length l')) = Ok (map f l')) as G.
  { intros k l'. revert k. induction l' as [|a l' IH]; intros k Hk; cbn [List.length seq map map_res]; auto.
    rewrite <- (Nat.add_0_r k) at 1. rewrite (Hk O a) by reflexivity. cbn [bind].
    rewrite IH; [reflexivity|]. intros i b Hb. replace (S k + i)%nat with (k + S i)%nat by lia. apply Hk; exact Hb. }
  apply (G O). exact H.
Qed.

Lemma P_Value_Binned X V d p l : ideal_statistics X -> direct d -> has_bins V d p l -> Forall good_bin l ->
  P_Value X V d p = min_element (map Fin (map bin_p l)).
Proof.
  intros [I _] F (A & N & S & B & O) G. unfold P_Value. rewrite A, F, S. cbn [bind]. rewrite N, Nat2Z.id.
  rewrite (map_res_seq (fun x => Fin (bin_p x)) l).
  - cbn [bind]. rewrite map_map. reflexivity.
  - intros i a Ha. rewrite Forall_forall in G. destruct (G a (nth_error_In _ _ Ha)) as (G1 & G2 & G3).
    rewrite (at_ub_ok _ i (Fin (signal a))) by (rewrite nth_error_map, Ha; reflexivity). cbn [bind].
    rewrite B, (at_ub_ok _ i (Fin (background a))) by (rewrite nth_error_map, Ha; reflexivity). cbn [bind].
    rewrite O, (at_ub_ok _ i (count a)) by (rewrite nth_error_map, Ha; reflexivity). cbn [bind].
    rewrite xadd_fin. apply I; auto; lra.
Qed.

Lemma p_value_least X V d p l : ideal_statistics X -> direct d -> has_bins V d p l -> Forall good_bin l -> l <> [] ->
  exists q, P_Value X V d p = Ok (Fin q) /\ least q (map bin_p l).
Proof.
  intros I F H G N. rewrite (P_Value_Binned X V d p l) by auto. apply min_element_least. destruct l; [congruence|discriminate].
Qed.

Lemma p_value_no_bins X V d p l : direct d -> b_analysis d = Binned_Poisson -> b_bins d = 0%Z -> v_binned V d p = Ok l ->
  P_Value X V d p = UB.
Proof. intros F A N S. unfold P_Value. rewrite A, F, S, N. reflexivity. Qed.

Lemma p_value_bin_order X V d1 d2 p1 p2 l1 l2 : ideal_statistics X -> direct d1 -> direct d2 ->
  has_bins V d1 p1 l1 -> has_bins V d2 p2 l2 -> Forall good_bin l1 -> Forall good_bin l2 -> l1 <> [] ->
  Forall2 (fun x y => signal x <= signal y /\ background x <= background y /\ (count y <= count x)%Z) l1 l2 ->
  exists q1 q2, P_Value X V d1 p1 = Ok (Fin q1) /\ P_Value X V d2 p2 = Ok (Fin q2) /\ q2 <= q1.
Proof.
  intros I F1 F2 H1 H2 G1 G2 N O.
  assert (N2 : l2 <> []) by (destruct O; congruence).
  destruct (p_value_least X V d1 p1 l1) as [q1 [E1 [I1 L1]]]; auto.
  destruct (p_value_least X V d2 p2 l2) as [q2 [E2 [I2 L2]]]; auto.
  exists q1, q2. split; auto. split; auto.
  clear E1 E2 H1 H2 L1 I2 N N2. revert G1 G2 I1 L2. induction O as [|x y l1 l2 Hxy O IH]; intros G1 G2 I1 L2; [destruct I1|].
  inversion G1; inversion G2; subst. destruct I1 as [<-|I1].
  - apply Rle_trans with (bin_p y); [apply L2; left; auto|]. unfold bin_p.
    destruct H1 as (A1 & A2 & A3), H5 as (B1 & B2 & B3), Hxy as (C1 & C2 & C3).
    apply Rle_trans with (at_most (Z.to_nat (count y)) (signal x + background x)).
    + apply at_most_le; lra.
    + apply at_most_count; [lra|lia].
  - apply IH; auto. intros z Hz. apply L2. right; auto.
Qed.

(** * Likelihoods *)

Definition profiled_R (b : R) (n : Z) (s : R) : R := if Rlt_dec b 1.0e-4 then if Rlt_dec s (IZR n) then IZR n - s else b else b.
Lemma profiled_fin b n s : profiled (Fin b) n (Fin s) = Fin (profiled_R b n s).
Proof.
  unfold profiled, profiled_R. cbn [xlt xsub].
  destruct (Rlt_dec b 1.0e-4); cbn [andb]; auto. destruct (Rlt_dec s (IZR n)); auto.
Qed.

(** The background the fit chooses gives the largest probability among all backgrounds: in the profiled branch for every nominal
    background, and everywhere when the nominal background is 0. *)
Lemma profile_is_best n s b b' : (0 <= n)%Z -> 0 <= s -> 0 <= b -> (b < 1.0e-4 /\ s < IZR n) \/ (b = 0 /\ 0 < s) -> 0 <= b' -> 0 < s + b' ->
  log_probability (Z.to_nat n) (s + b') <= log_probability (Z.to_nat n) (s + profiled_R b n s).
Proof.
  intros Hn Hs Hb C Hb' P.
  assert (E : INR (Z.to_nat n) = IZR n) by (rewrite INR_IZR_INZ, Z2Nat.id; auto).
  unfold profiled_R. destruct (Rlt_dec b 1.0e-4) as [h|h]; [|lra]. destruct (Rlt_dec s (IZR n)) as [h'|h'].
  - replace (s + (IZR n - s)) with (INR (Z.to_nat n)) by lra. apply log_probability_max; auto. rewrite E; lra.
  - destruct C as [[? ?]|[-> Hs0]]; [lra|]. rewrite Rplus_0_r. apply log_probability_above; lra.
Qed.

Lemma log_likelihood_best X V d p s b : ideal_statistics X -> b_analysis d = Poisson -> (0 <= b_observed d)%Z ->
  b_background d = Fin b -> 0 <= b -> v_total V d p = Ok (Fin s) -> 0 <= s ->
  (b < 1.0e-4 /\ s < IZR (b_observed d)) \/ (b = 0 /\ 0 < s) ->
  exists L, Log_Likelihood X V d p = Ok (Fin L) /\
    (forall b', 0 <= b' -> 0 < s + b' -> log_probability (Z.to_nat (b_observed d)) (s + b') <= L) /\
    (exists b', 0 <= b' /\ 0 < s + b' /\ L = log_probability (Z.to_nat (b_observed d)) (s + b')).
Proof.
  intros (_ & I & _) A N B Hb S Hs C.
  assert (P : 0 <= profiled_R b (b_observed d) s /\ 0 < s + profiled_R b (b_observed d) s).
  { unfold profiled_R. destruct (Rlt_dec b 1.0e-4); [|lra]. destruct (Rlt_dec s (IZR (b_observed d))); lra. }
  exists (log_probability (Z.to_nat (b_observed d)) (s + profiled_R b (b_observed d) s)). split; [|split].
  - unfold Log_Likelihood. rewrite A, S. cbn [bind]. rewrite B, profiled_fin. apply I; auto; lra.
  - intros b' Hb' P'. apply profile_is_best; auto.
  - eexists. split; [apply P|split; [apply P|reflexivity]].
Qed.

(** With an appreciable nominal background the nominal value is used. *)
Lemma log_likelihood_nominal X V d p s b : ideal_statistics X -> b_analysis d = Poisson -> (0 <= b_observed d)%Z ->
  b_background d = Fin b -> 1.0e-4 <= b -> v_total V d p = Ok (Fin s) -> 0 <= s ->
  Log_Likelihood X V d p = Ok (Fin (log_probability (Z.to_nat (b_observed d)) (s + b))).
Proof.
  intros (_ & I & _) A N B Hb S Hs. unfold Log_Likelihood. rewrite A, S. cbn [bind]. rewrite B, profiled_fin.
  unfold profiled_R. destruct (Rlt_dec b 1.0e-4); [lra|]. apply I; auto; lra.
Qed.

Definition bin_profile (x : bin) : R := profiled_R (background x) (count x) (signal x).
Definition profiled_bin (x : bin) : Prop :=
  (background x < 1.0e-4 /\ signal x < IZR (count x)) \/ (background x = 0 /\ 0 < signal x).

Lemma Log_Likelihood_Binned X V d p l : ideal_statistics X -> has_bins V d p l -> Forall good_bin l ->
  Forall (fun x => 0 < signal x + bin_profile x) l ->
  Log_Likelihood X V d p = Ok (Fin (Rsum (map (fun x => log_probability (Z.to_nat (count x)) (signal x + bin_profile x)) l))).
Proof.
  intros (_ & _ & I) (A & N & S & B & O) G P. unfold Log_Likelihood. rewrite A, S. cbn [bind].
  rewrite B, map_length. rewrite (map_res_seq (fun x => Fin (bin_profile x)) l).
  - cbn [bind]. rewrite O.
    specialize (I (map (fun x => (signal x, count x, bin_profile x)) l)). rewrite !map_map in I. cbn [fst snd] in I.
    apply I. rewrite Forall_forall in *. intros t Ht. apply in_map_iff in Ht as [x [<- Hx]]. cbn [fst snd].
    split; [apply P; auto|apply G; auto].
  - intros i a Ha. rewrite (at_ub_ok _ i (Fin (background a))) by (rewrite nth_error_map, Ha; reflexivity). cbn [bind].
    unfold bin_profile. rewrite <- profiled_fin. destruct (xlt (Fin (background a)) (Fin 1.0e-4)) eqn:E.
    + rewrite O, (at_ub_ok _ i (count a)) by (rewrite nth_error_map, Ha; reflexivity). cbn [bind].
      rewrite (at_ub_ok _ i (Fin (signal a))) by (rewrite nth_error_map, Ha; reflexivity). reflexivity.
    + unfold profiled. rewrite E. reflexivity.
Qed.

Lemma Rsum_le (f g : bin -> R) l : Forall (fun x => f x <= g x) l -> Rsum (map f l) <= Rsum (map g l).
Proof. induction 1; simpl; lra. Qed.

Lemma log_likelihood_best_binned X V d p l : ideal_statistics X -> has_bins V d p l -> Forall good_bin l -> Forall profiled_bin l ->
  exists L, Log_Likelihood X V d p = Ok (Fin L) /\
    forall b' : bin -> R, Forall (fun x => 0 <= b' x /\ 0 < signal x + b' x) l ->
      Rsum (map (fun x => log_probability (Z.to_nat (count x)) (signal x + b' x)) l) <= L.
Proof.
  intros I H G C.
  assert (P : Forall (fun x => 0 < signal x + bin_profile x) l).
  { rewrite Forall_forall in *. intros x Hx. destruct (G x Hx) as (G1 & G2 & G3). unfold bin_profile, profiled_R.
    destruct (C x Hx) as [[? ?]|[? ?]]; destruct (Rlt_dec (background x) 1.0e-4); try lra;
    destruct (Rlt_dec (signal x) (IZR (count x))); lra. }
  eexists. split; [apply (Log_Likelihood_Binned X V d p l); auto|].
  intros b' Hb'. apply (Rsum_le (fun x => log_probability (Z.to_nat (count x)) (signal x + b' x))).
  rewrite Forall_forall in *. intros x Hx. destruct (G x Hx) as (G1 & G2 & G3). destruct (Hb' x Hx). unfold bin_profile.
  apply profile_is_best; auto. apply C; auto.
Qed.

(** * Exact statistics exist *)
Fixpoint zip_R (l1 : list xr) (l2 : list Z) (l3 : list xr) : list R :=
  match l1, l2, l3 with
  | a :: t1, n :: t2, b :: t3 => log_probability (Z.to_nat n) (val a + val b) :: zip_R t1 t2 t3
  | _, _, _ => []
  end.
Definition exact_statistics : statistics :=
  mkStatistics (fun l n => Ok (Fin (at_most (Z.to_nat n) (val l))))
    (fun s n b => Ok (Fin (log_probability (Z.to_nat n) (val s + val b))))
    (fun s n b => Ok (Fin (Rsum (zip_R s n b))))
    (fun _ _ _ _ => Exit).
Lemma exact_statistics_ideal : ideal_statistics exact_statistics.
Proof.
  split; [|split]; [reflexivity|reflexivity|]. intros l _. cbn [LogL_Poisson_Binned exact_statistics]. do 3 f_equal.
  induction l as [|x l IH]; cbn [map zip_R]; auto. rewrite IH. reflexivity.
Qed.

Lemma profile_second_choice n s b b' : (0 <= n)%Z -> 0 < s -> IZR n <= s -> 0 < b < 1.0e-4 -> b' = 0 ->
  log_probability (Z.to_nat n) (s + profiled_R b n s) < log_probability (Z.to_nat n) (s + b').
Proof.
  intros Hn Hs Hns Hb ->. unfold profiled_R. destruct (Rlt_dec b 1.0e-4); [|lra]. destruct (Rlt_dec s (IZR n)); [lra|].
  assert (E : INR (Z.to_nat n) = IZR n) by (rewrite INR_IZR_INZ, Z2Nat.id; auto).
  unfold log_probability. rewrite Rplus_0_r, E.
  assert (L : ln (s + b) < ln s + b / s).
  { assert (h := exp_ineq1 (b / s)). assert (0 < b / s) by (apply Rdiv_lt_0_compat; lra).
    apply Rlt_le_trans with (ln (s * exp (b / s))); [|rewrite ln_mult, ln_exp by (auto using exp_pos); lra].
    apply ln_increasing; [lra|]. replace (s + b) with (s * (1 + b / s)) by (field; lra). apply Rmult_lt_compat_l; auto. apply h; lra. }
  apply IZR_le in Hn. destruct (Req_dec (IZR n) 0) as [Z|Z]; [rewrite Z; lra|].
  assert (IZR n * (ln (s + b) - ln s) < IZR n * (b / s)) by (apply Rmult_lt_compat_l; lra).
  assert (IZR n * (b / s) <= s * (b / s)).
  { apply Rmult_le_compat_r; auto. left; apply Rdiv_lt_0_compat; lra. }
  replace (s * (b / s)) with b in H0 by (field; lra). lra.
Qed.
