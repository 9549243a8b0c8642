(** Lemmas and tactics about [xr] and [res]. *)
From Coq Require Import Reals List ZArith Lia Lra Bool.
From Verif Require Import Base.
Import ListNotations.
Local Open Scope R_scope.

Lemma rpos_true x : 0 < x -> rpos x = true.
Proof. unfold rpos; destruct (Rlt_dec 0 x); auto; lra. Qed.
Lemma rpos_false x : x <= 0 -> rpos x = false.
Proof. unfold rpos; destruct (Rlt_dec 0 x); auto; lra. Qed.
Lemma rneg_true x : x < 0 -> rneg x = true.
Proof. unfold rneg; destruct (Rlt_dec x 0); auto; lra. Qed.
Lemma rneg_false x : 0 <= x -> rneg x = false.
Proof. unfold rneg; destruct (Rlt_dec x 0); auto; lra. Qed.

Lemma xadd_fin x y : xadd (Fin x) (Fin y) = Fin (x + y).
Proof. reflexivity. Qed.
Lemma xsub_fin x y : xsub (Fin x) (Fin y) = Fin (x - y).
Proof. reflexivity. Qed.
Lemma xmul_fin x y : xmul (Fin x) (Fin y) = Fin (x * y).
Proof. reflexivity. Qed.
Lemma xopp_fin x : xopp (Fin x) = Fin (- x).
Proof. reflexivity. Qed.
Lemma xdiv_fin x y : y <> 0 -> xdiv (Fin x) (Fin y) = Fin (x / y).
Proof. intros H; simpl; destruct (Req_EM_T y 0); [contradiction|reflexivity]. Qed.
Lemma xdiv_zero x : xdiv (Fin x) (Fin 0) = inf_sign x.
Proof. simpl; destruct (Req_EM_T 0 0) as [_|n]; [reflexivity|contradiction n; reflexivity]. Qed.
Lemma xsqrt_fin x : 0 <= x -> xsqrt (Fin x) = Fin (sqrt x).
Proof. intros H; simpl; rewrite rneg_false; auto. Qed.
Lemma xlog_fin x : 0 < x -> xlog (Fin x) = Fin (ln x).
Proof. intros H; simpl; rewrite rpos_true; auto. Qed.
Lemma xexp_fin x : xexp (Fin x) = Fin (exp x).
Proof. reflexivity. Qed.
Lemma xabs_fin x : xabs (Fin x) = Fin (Rabs x).
Proof. reflexivity. Qed.
Lemma xpow_fin x n : xpow (Fin x) n = Fin (x ^ n).
Proof. induction n as [|n IH]; simpl; [reflexivity|rewrite IH; reflexivity]. Qed.

Lemma xlt_true x y : x < y -> xlt (Fin x) (Fin y) = true.
Proof. simpl; destruct (Rlt_dec x y); auto; lra. Qed.
Lemma xlt_false x y : y <= x -> xlt (Fin x) (Fin y) = false.
Proof. simpl; destruct (Rlt_dec x y); auto; lra. Qed.
Lemma xeq_true x y : x = y -> xeq (Fin x) (Fin y) = true.
Proof. simpl; destruct (Req_EM_T x y); auto; contradiction. Qed.
Lemma xeq_false x y : x <> y -> xeq (Fin x) (Fin y) = false.
Proof. simpl; destruct (Req_EM_T x y); auto; contradiction. Qed.
Lemma xne_true x y : x <> y -> xne (Fin x) (Fin y) = true.
Proof. intros H; unfold xne; rewrite xeq_false; auto. Qed.
Lemma xne_false x y : x = y -> xne (Fin x) (Fin y) = false.
Proof. intros H; unfold xne; rewrite xeq_true; auto. Qed.
Lemma xle_true x y : x <= y -> xle (Fin x) (Fin y) = true.
Proof.
  intros H; unfold xle; destruct (Rle_lt_or_eq_dec x y H) as [H1|H1].
  - rewrite xlt_true; auto.
  - rewrite (xeq_true x y); auto; apply orb_true_r.
Qed.
Lemma xle_false x y : y < x -> xle (Fin x) (Fin y) = false.
Proof. intros H; unfold xle; rewrite xlt_false, xeq_false; auto; lra. Qed.

Lemma xlt_spec x y : xlt (Fin x) (Fin y) = true <-> x < y.
Proof. simpl; destruct (Rlt_dec x y); split; intros; auto; discriminate. Qed.
Lemma xeq_spec x y : xeq (Fin x) (Fin y) = true <-> x = y.
Proof. simpl; destruct (Req_EM_T x y); split; intros; auto; try discriminate; contradiction. Qed.
Lemma xle_spec x y : xle (Fin x) (Fin y) = true <-> x <= y.
Proof.
  split; intros H.
  - destruct (Rle_lt_dec x y) as [h|h]; auto. rewrite xle_false in H; [discriminate|auto].
  - apply xle_true; auto.
Qed.

Lemma is_fin_Fin r : is_fin (Fin r).
Proof. exists r; reflexivity. Qed.
#[global] Hint Resolve is_fin_Fin : core.

Lemma Ok_inj {A} (a b : A) : Ok a = Ok b -> a = b.
Proof. intros H; injection H; auto. Qed.
Lemma Fin_inj a b : Fin a = Fin b -> a = b.
Proof. intros H; injection H; auto. Qed.

Lemma bind_ok {A B} (m : res A) (k : A -> res B) b :
  bind m k = Ok b -> exists a, m = Ok a /\ k a = Ok b.
Proof. destruct m; simpl; intros H; try discriminate; eauto. Qed.

Lemma at_ub_ok {A} (l : list A) i a : nth_error l i = Some a -> at_ub l i = Ok a.
Proof. unfold at_ub; intros ->; reflexivity. Qed.
Lemma at_ub_lt {A} (l : list A) i : (i < length l)%nat -> exists a, at_ub l i = Ok a /\ nth_error l i = Some a.
Proof.
  intros H. destruct (nth_error l i) as [a|] eqn:E.
  - exists a; unfold at_ub; rewrite E; auto.
  - apply nth_error_None in E; lia.
Qed.
Lemma at_ub_ge {A} (l : list A) i : (length l <= i)%nat -> at_ub l i = UB.
Proof. intros H; unfold at_ub; apply nth_error_None in H; rewrite H; reflexivity. Qed.
Lemma at_ub_spec {A} (l : list A) i : at_ub l i <> UB <-> (i < length l)%nat.
Proof.
  split; intros H.
  - destruct (Nat.lt_ge_cases i (length l)) as [h|h]; auto. rewrite at_ub_ge in H; auto; contradiction.
  - destruct (at_ub_lt l i H) as [a [E _]]; rewrite E; discriminate.
Qed.

Lemma xsum_acc l a : fold_left xadd (map Fin l) (Fin a) = Fin (fold_left Rplus l a).
Proof. revert a; induction l as [|x l IH]; intros a; simpl; auto. Qed.
Definition Rsum (l : list R) : R := fold_right Rplus 0 l.
Lemma fold_left_Rplus l a : fold_left Rplus l a = a + Rsum l.
Proof. revert a; induction l as [|x l IH]; intros a; simpl; [lra|rewrite IH; simpl; lra]. Qed.
Lemma xsum_fin l : xsum (map Fin l) = Fin (Rsum l).
Proof. unfold xsum; rewrite xsum_acc, fold_left_Rplus; f_equal; lra. Qed.
Lemma Rsum_app l1 l2 : Rsum (l1 ++ l2) = Rsum l1 + Rsum l2.
Proof. induction l1 as [|x l IH]; simpl; [lra|rewrite IH; lra]. Qed.

Lemma map_res_length {A B} (f : A -> res B) l bs : map_res f l = Ok bs -> length bs = length l.
Proof.
  revert bs; induction l as [|a l IH]; simpl; intros bs H.
  - injection H as <-; reflexivity.
  - apply bind_ok in H as [b [Hb H]]. apply bind_ok in H as [bs' [Hbs H]].
    injection H as <-; simpl; rewrite (IH _ Hbs); reflexivity.
Qed.
Lemma map_res_ok {A B} (f : A -> res B) (g : A -> B) l :
  (forall a, In a l -> f a = Ok (g a)) -> map_res f l = Ok (map g l).
Proof.
  induction l as [|a l IH]; simpl; intros H; auto.
  rewrite (H a) by auto; simpl. rewrite IH by (intros; apply H; auto); reflexivity.
Qed.

(** Positivity of the unit constants. *)
Lemma cm_pos : 0 < cm. Proof. unfold cm; lra. Qed.
Lemma sec_pos : 0 < sec. Proof. unfold sec, meter; assert (h := cm_pos); lra. Qed.
Lemma km_pos : 0 < km. Proof. unfold km, meter; assert (h := cm_pos); lra. Qed.
Lemma km_sec_pos : 0 < km_sec.
Proof. unfold km_sec; apply Rdiv_lt_0_compat; [apply km_pos|apply sec_pos]. Qed.
Lemma km_sec_val : km_sec = 1000 / 299792458.
Proof. unfold km_sec, km, sec, meter; assert (h := cm_pos); field; lra. Qed.
Lemma deg_pos : 0 < deg. Proof. unfold deg; assert (h := PI_RGT_0); lra. Qed.
Lemma gram_pos : 0 < gram. Proof. unfold gram; lra. Qed.
Lemma mProton_pos : 0 < mProton. Proof. unfold mProton; lra. Qed.
Lemma mElectron_pos : 0 < mElectron. Proof. unfold mElectron; lra. Qed.
Lemma mNucleon_pos : 0 < mNucleon. Proof. unfold mNucleon; lra. Qed.
Lemma aEM_pos : 0 < aEM. Proof. unfold aEM; lra. Qed.
Lemma eV_pos : 0 < eV. Proof. unfold eV; lra. Qed.
