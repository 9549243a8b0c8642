(** Which parameter an upper limit reports, for one Poisson count and for bins. *)
From Coq Require Import Reals ZArith String Lia Lra Bool.
From Coquelicot Require Import Coquelicot.
From Coq Require Import List.
From Verif Require Import Base XrFacts Analysis Quadrature Nucleus_Model Nuclear_Model Particle_Model CrossSection_Model Distribution_Model Atom_Model
  Crystal_Model Rates_Model Detector_Model DetectorTypes_Model Particle_Proofs Poisson_Proofs Scaling_Proofs Couplings_Proofs Limits_Proofs Fiducial_Proofs.
Import ListNotations.
Local Open Scope R_scope.
Local Ltac req := match goal with |- @eq _ ?a ?b => change (a = b :> R) end.

(** * Specification *)

(** The data of a detector: one count, or one for each bin. *)
Definition counted (V : virtuals) (d : detector) (p : particle) (l : list bin) : Prop :=
  (b_analysis d = Poisson /\ exists x, l = [x] /\ v_total V d p = Ok (Fin (signal x)) /\ b_background d = Fin (background x) /\ b_observed d = count x) \/
  (l <> [] /\ has_bins V d p l).
(** The probability of at most the observed number of events in a bin, if the signal is k times as large. *)
Definition chance (k : R) (x : bin) : R := at_most (Z.to_nat (count x)) (k * signal x + background x).
(** With k times the signal the smallest of these is 1 - cert. *)
Definition crossing (l : list bin) (k cert : R) : Prop := least (1 - cert) (map (chance k) l).
(** The number u is k x0 up to the accuracy 1e-4 of its logarithm. *)
Definition limit_of (l : list bin) (x0 cert u : R) : Prop :=
  exists k e, 0 < k /\ Rpower 10 (-30) <= k * x0 <= Rpower 10 10 /\ crossing l k cert /\ u = k * x0 * Rpower 10 e /\ Rabs e <= 1.0e-4.
Definition more_signal (k : R) (x : bin) : bin := mkBin (k * signal x) (background x) (count x).

(** * The search *)
Lemma limit_root FR X V d p cert x0 (pv : R -> R) : accurate_search FR -> blind V -> rested d ->
  good p -> share_ok p -> proportional V d p ->
  Get_Interaction_Parameter (b_targets d) p = Ok (Fin x0) -> 0 < x0 -> (exists d1, set_fiducial V (Fin x0) d p = Ok d1) ->
  (forall x q, 0 < x -> Set_Interaction_Parameter (Fin x) (b_targets d) p = Ok q -> P_Value X V d q = Ok (Fin (pv x))) ->
  (forall x, 0 < x -> continuous pv x) ->
  exists u d' p', Upper_Limit FR X V d p (Fin cert) = Ok (Fin u, d', p') /\
    ((u = -1 /\ 0 < (pv (Rpower 10 (-30)) - (1 - cert)) * (pv (Rpower 10 10) - (1 - cert))) \/
     (exists L e, u = L * Rpower 10 e /\ Rabs e <= 1.0e-4 /\ Rpower 10 (-30) <= L <= Rpower 10 10 /\ pv L = 1 - cert)).
Proof.
  intros HF B Rd G Sh P Gt X0 SF PV PC. assert (Dd : direct d) by apply Rd.
  set (g := fun y => pv (Rpower 10 y) - (1 - cert)).
  assert (ST : forall x s, exists q, Set_Interaction_Parameter x (b_targets d) s = Ok q).
  { intros x s. unfold Set_Interaction_Parameter, Get_Interaction_Parameter in *. destruct (_ =? _)%string; eauto. destruct (_ =? _)%string; eauto. discriminate. }
  destruct SF as [d1 SF]. destruct (set_fiducial_frame _ _ _ _ _ SF) as (T & A1 & W & _).
  set (inv := fun q => forall x, Set_Interaction_Parameter x (b_targets d) q = Set_Interaction_Parameter x (b_targets d) p).
  assert (LF : forall s y, inv s -> exists s1, limit_func X V d1 (Fin cert) s (Fin y) = Ok (Fin (g y), s1) /\ inv s1).
  { intros s y I. destruct (ST (xpow10 (Fin y)) p) as [q Hq]. exists q. unfold limit_func. rewrite T, I, Hq. cbn [bind]. cbn [xpow10] in Hq.
    assert (Hp := Rpower_pos 10 y).
    rewrite (rescaled X V d d1 p x0 (Rpower 10 y) q), (PV (Rpower 10 y)); auto. 2: apply tried_first; auto. cbn [bind]. rewrite !xsub_fin. split.
    - unfold g. replace 1.0 with 1 by lra. auto.
    - intros x. rewrite (set_twice x _ _ _ _ Hq). auto. }
  assert (I0 : inv p) by (intros x; auto).
  destruct (LF p (-30.0) I0) as (p1 & L1 & I1). destruct (LF p1 10.0 I1) as (p2 & L2 & I2).
  replace (-30.0) with (-30) in * by lra. replace 10.0 with 10 in * by lra.
  unfold Upper_Limit. rewrite Gt. cbn [bind]. rewrite SF. cbn [bind]. replace (-30.0) with (-30) by lra. replace 10.0 with 10 by lra. rewrite L1. cbn [bind]. rewrite L2. cbn [bind]. rewrite xmul_fin.
  destruct (Rlt_dec 0 (g (-30) * g 10)) as [Pos|Neg].
  - rewrite xlt_true by auto. cbn [bind]. rewrite T, I2. destruct (ST (Fin x0) p) as [p4 H4]. rewrite H4. cbn [bind]. do 3 eexists. split; [f_equal; f_equal; f_equal|].
    left. split; [lra|exact Pos].
  - rewrite xlt_false by lra. destruct (HF particle (limit_func X V d1 (Fin cert)) g inv (-30) 10 1.0e-4 p2) as (r & r0 & p3 & F1 & F2 & F3 & F4); auto; try lra.
    { intros y _. unfold g. apply (continuous_minus (V := R_NormedModule) (fun y => pv (Rpower 10 y)) (fun _ => 1 - cert)); [|apply continuous_const].
      apply (continuous_comp (Rpower 10) pv); [apply Rpower_continuous|]. apply PC, Rpower_pos. }
    replace (-30.0) with (-30) by lra. replace 10.0 with 10 by lra. rewrite F1. cbn [bind]. rewrite T. destruct (ST (Fin x0) p3) as [p4 H4]. rewrite H4. cbn [bind xpow10]. do 3 eexists. split; [reflexivity|].
    right. exists (Rpower 10 r0), (r - r0). split; [rewrite <- Rpower_plus; f_equal; ring|]. split; auto. split.
    { split; apply Rle_Rpower; lra. }
    unfold g in F3. lra.
Qed.

(** * The p-value as a function of the parameter *)
Fixpoint lowest (f : bin -> R) (a : R) (l : list bin) : R := match l with [] => a | x :: t => lowest f (Rmin a (f x)) t end.
Lemma lowest_least f : forall l a, least (lowest f a l) (a :: map f l).
Proof.
  induction l as [|x l IH]; intros a; cbn [lowest map].
  - split; [left; auto|]. intros y [<-|[]]. lra.
  - destruct (IH (Rmin a (f x))) as [H1 H2]. split.
    + destruct H1 as [H1|H1]; [|right; right; auto]. rewrite <- H1. unfold Rmin. destruct (Rle_dec a (f x)); [left; auto|right; left; auto].
    + assert (h := H2 (Rmin a (f x)) ltac:(left; auto)). assert (h1 := Rmin_l a (f x)). assert (h2 := Rmin_r a (f x)).
      intros y [<-|[<-|Hy]]; [lra|lra|]. apply H2. right; auto.
Qed.
Lemma least_unique q r l : least q l -> least r l -> q = r.
Proof. intros [A1 A2] [B1 B2]. apply Rle_antisym; auto. Qed.
Lemma continuous_Rmin (f g : R -> R) x : continuous f x -> continuous g x -> continuous (fun y => Rmin (f y) (g y)) x.
Proof.
  intros A B. apply (continuous_ext (fun y => (f y + g y - Rabs (f y - g y)) / 2)).
  - intros y. unfold Rmin. destruct (Rle_dec (f y) (g y)); [rewrite Rabs_left1 by lra|rewrite Rabs_right by lra]; req; field.
  - apply (continuous_mult (K := R_AbsRing) (fun y => f y + g y - Rabs (f y - g y)) (fun _ => / 2)); [|apply continuous_const].
    apply (continuous_minus (V := R_NormedModule) (fun y => f y + g y) (fun y => Rabs (f y - g y))).
    + apply (continuous_plus (V := R_NormedModule) f g); auto.
    + apply (continuous_comp (fun y => f y - g y) Rabs); [apply (continuous_minus (V := R_NormedModule) f g); auto|apply continuous_Rabs].
Qed.
Lemma lowest_continuous (f : R -> bin -> R) x : forall l (a : R -> R), continuous a x -> (forall b, In b l -> continuous (fun y => f y b) x) ->
  continuous (fun y => lowest (f y) (a y) l) x.
Proof.
  induction l as [|b l IH]; intros a A H; cbn [lowest]; auto.
  apply (IH (fun y => Rmin (a y) (f y b))); [|intros; apply H; right; auto]. apply continuous_Rmin; auto. apply H. left; auto.
Qed.
Lemma chance_continuous c b x : continuous (fun y => chance (y * c) b) x.
Proof.
  unfold chance. apply (continuous_comp (fun y => y * c * signal b + background b) (at_most (Z.to_nat (count b)))); [|apply at_most_continuous].
  apply (continuous_plus (V := R_NormedModule) (fun y => y * c * signal b) (fun _ => background b)); [|apply continuous_const].
  apply (continuous_mult (K := R_AbsRing) (fun y => y * c) (fun _ => signal b)); [|apply continuous_const].
  apply (continuous_mult (K := R_AbsRing) (fun y => y) (fun _ => c)); [apply continuous_id|apply continuous_const].
Qed.
Lemma chance_le k k' x : good_bin x -> 0 <= k <= k' -> chance k' x <= chance k x.
Proof. intros (A & B & C) H. unfold chance. apply at_most_le. nra. Qed.

(** The p-value as a function of the parameter x. *)
Definition pvalue (l : list bin) (x0 x : R) : R := match l with [] => 0 | b :: t => lowest (chance (x * / x0)) (chance (x * / x0) b) t end.
Lemma pvalue_least l x0 x : l <> [] -> least (pvalue l x0 x) (map (chance (x / x0)) l).
Proof. destruct l as [|b t]; [congruence|]. intros _. apply lowest_least. Qed.
Lemma pvalue_continuous l x0 x : continuous (pvalue l x0) x.
Proof.
  destruct l as [|b t]; unfold pvalue; [apply continuous_const|].
  apply (lowest_continuous (fun y => chance (y * / x0)) x t (fun y => chance (y * / x0) b)); intros; apply chance_continuous.
Qed.
Lemma pvalue_le l x0 x y : l <> [] -> Forall good_bin l -> 0 < x0 -> 0 <= x <= y -> pvalue l x0 y <= pvalue l x0 x.
Proof.
  intros N G X0 H. destruct (pvalue_least l x0 x N) as [H1 _]. destruct (pvalue_least l x0 y N) as [_ H2].
  apply in_map_iff in H1 as (b & E & I). rewrite <- E. apply Rle_trans with (chance (y / x0) b); [apply H2, in_map; auto|].
  rewrite Forall_forall in G. apply chance_le; auto. assert (0 < / x0) by (apply Rinv_0_lt_compat; auto). unfold Rdiv. nra.
Qed.

Lemma pvalue_P X V d p l x0 x q : ideal_statistics X -> direct d -> counted V d p l -> Forall good_bin l -> 0 < x0 -> 0 < x ->
  scales V d (x / x0) p q -> P_Value X V d q = Ok (Fin (pvalue l x0 x)).
Proof.
  intros HS Dd C G X0 X1 (_ & S2 & S3). assert (HX : 0 < x / x0) by (apply Rdiv_lt_0_compat; auto). destruct C as [(A & b & -> & E1 & E2 & E3)|(N & A & N1 & E1 & E2 & E3)].
  - inversion G; subst. destruct H1 as (G1 & G2 & G3). rewrite E1 in S2. cbn [times bind] in S2. rewrite xmul_fin in S2.
    rewrite (P_Value_Poisson X V d q (x / x0 * signal b) (background b)); auto; try congruence; try nra. rewrite E3. reflexivity.
  - rewrite E1 in S3. cbn [times_all bind] in S3. rewrite map_map in S3.
    assert (HB : has_bins V d q (map (more_signal (x / x0)) l)).
    { split; auto. split; [rewrite map_length; auto|]. rewrite !map_map. cbn [signal background count more_signal]. split; [|split; auto].
      rewrite S3. f_equal. }
    assert (GB : Forall good_bin (map (more_signal (x / x0)) l)).
    { apply Forall_map. revert G. apply Forall_impl. intros b (G1 & G2 & G3). split; [cbn; nra|split; auto]. }
    destruct (p_value_least X V d q _ HS Dd HB GB) as (v & E & L); [destruct l; [congruence|discriminate]|]. rewrite E. do 2 f_equal.
    rewrite map_map in L. apply (least_unique _ _ _ L). apply pvalue_least; auto.
Qed.

(** * The reported number *)
Lemma limit_value FR X V d p cert x0 l : accurate_search FR -> ideal_statistics X -> blind V -> rested d ->
  good p -> share_ok p -> proportional V d p -> counted V d p l -> Forall good_bin l ->
  Get_Interaction_Parameter (b_targets d) p = Ok (Fin x0) -> 0 < x0 ->
  exists u d' p', Upper_Limit FR X V d p (Fin cert) = Ok (Fin u, d', p') /\
    (limit_of l x0 cert u \/ (u = -1 /\ forall k, Rpower 10 (-30) <= k * x0 <= Rpower 10 10 -> ~ crossing l k cert)).
Proof.
  intros HF HS B Rd G Sh P C GB Gt X0. assert (Dd : direct d) by apply Rd.
  assert (N : l <> []) by (destruct C as [(_ & b & -> & _)|[N _]]; [discriminate|auto]).
  destruct (limit_root FR X V d p cert x0 (pvalue l x0)) as (u & d' & p' & U & R); auto.
  - unfold set_fiducial. destruct C as [(A & b & _ & E & _)|(_ & A & _ & E & _)]; rewrite A.
    + destruct (B true (Fin x0) (b_fiducial_signals d) (b_fiducial_spectrum d) d p) as (_ & _ & _ & BT & _). rewrite BT, E. cbn [bind]. eauto.
    + destruct (B true (Fin x0) (b_fiducial_signals d) (b_fiducial_spectrum d) d p) as (_ & _ & _ & _ & BT). rewrite BT, E. cbn [bind]. eauto.
  - intros x q Hx Hq. apply (pvalue_P X V d p); auto.
  - intros; apply pvalue_continuous.
  - exists u, d', p'. split; auto. destruct R as [[R1 R2]|(L & e & R1 & R2 & R3 & R4)].
    + right. split; auto. intros k Hk C1. assert (E : pvalue l x0 (k * x0) = 1 - cert).
      { apply (least_unique _ _ (map (chance k) l)); auto. replace k with (k * x0 / x0) at 2 by (field; lra). apply pvalue_least; auto. }
      assert (Hp := Rpower_pos 10 (-30)).
      assert (H1 := pvalue_le l x0 (Rpower 10 (-30)) (k * x0) N GB X0 ltac:(lra)). assert (H2 := pvalue_le l x0 (k * x0) (Rpower 10 10) N GB X0 ltac:(lra)). nra.
    + left. assert (Hp := Rpower_pos 10 (-30)). exists (L / x0), e. replace (L / x0 * x0) with L by (field; lra). split; [apply Rdiv_lt_0_compat; lra|]. split; [auto|]. split; [|auto].
      unfold crossing. rewrite <- R4. apply pvalue_least; auto.
Qed.

(** * Comparisons *)
Lemma crossing_order l1 l2 k1 k2 c1 c2 : Forall good_bin l1 -> Forall good_bin l2 -> 0 <= k1 -> 0 <= k2 ->
  Forall2 (fun x y => 0 < signal y <= signal x /\ background y <= background x /\ (count x <= count y)%Z) l1 l2 -> c1 <= c2 ->
  crossing l1 k1 c1 -> crossing l2 k2 c2 -> k1 <= k2.
Proof.
  intros G1 G2 K1 K2 O Hc [_ L1] [I2 _]. destruct (Rle_dec k1 k2) as [|K]; auto. exfalso. apply in_map_iff in I2 as (y & E & I).
  assert (X : exists x, In x l1 /\ good_bin x /\ good_bin y /\ 0 < signal y <= signal x /\ background y <= background x /\ (count x <= count y)%Z).
  { clear L1 E. revert G1 G2 I. induction O as [|a b m1 m2 Hab O IH]; intros G1 G2 []; inversion G1; inversion G2; subst.
    - exists a. split; [left; auto|]. auto.
    - destruct IH as (x & Hx & R); auto. exists x. split; [right; auto|]. auto. }
  destruct X as (x & Ix & (A1 & A2 & A3) & (B1 & B2 & B3) & S & Bg & Ct). assert (h := L1 (chance k1 x) (in_map _ _ _ Ix)).
  assert (chance k1 x < chance k2 y); [|lra]. unfold chance.
  apply Rle_lt_trans with (at_most (Z.to_nat (count y)) (k1 * signal x + background x)); [apply at_most_count; [nra|lia]|].
  apply at_most_decreasing. nra.
Qed.
Lemma Rpower_mono e e' : e <= e' -> Rpower 10 e <= Rpower 10 e'.
Proof. intros H. apply Rle_Rpower; lra. Qed.
Lemma limit_order l1 l2 x0 c1 c2 u1 u2 : Forall good_bin l1 -> Forall good_bin l2 -> 0 < x0 ->
  Forall2 (fun x y => 0 < signal y <= signal x /\ background y <= background x /\ (count x <= count y)%Z) l1 l2 -> c1 <= c2 ->
  limit_of l1 x0 c1 u1 -> limit_of l2 x0 c2 u2 -> 0 < u1 <= u2 * Rpower 10 (2 * 1.0e-4).
Proof.
  intros G1 G2 X0 O Hc (k1 & e1 & K1 & _ & C1 & -> & E1) (k2 & e2 & K2 & _ & C2 & -> & E2).
  assert (K := crossing_order l1 l2 k1 k2 c1 c2 G1 G2 ltac:(lra) ltac:(lra) O Hc C1 C2). split.
  - apply Rmult_lt_0_compat; [nra|apply Rpower_pos].
  - rewrite (Rmult_assoc (k2 * x0)), <- Rpower_plus. apply Rabs_le_between in E1. apply Rabs_le_between in E2.
    apply Rmult_le_compat; [nra|left; apply Rpower_pos|nra|apply Rpower_mono; lra].
Qed.
Lemma crossing_scaled l c k cert : crossing (map (more_signal c) l) k cert <-> crossing l (k * c) cert.
Proof.
  unfold crossing. rewrite map_map. rewrite (map_ext (fun x => chance k (more_signal c x)) (chance (k * c))); [tauto|].
  intros x. unfold chance, more_signal. cbn [signal background count]. f_equal. ring.
Qed.
Lemma limit_scaled l x0 c cert u u' : Forall good_bin l -> Forall (fun x => 0 < signal x) l -> 0 < x0 -> 0 < c ->
  limit_of l x0 cert u -> limit_of (map (more_signal c) l) x0 cert u' ->
  u <= c * u' * Rpower 10 (2 * 1.0e-4) /\ c * u' <= u * Rpower 10 (2 * 1.0e-4).
Proof.
  intros G S X0 Hc (k & e & K & _ & C & -> & E) (k' & e' & K' & _ & C' & -> & E'). apply crossing_scaled in C'.
  assert (O : Forall2 (fun x y => 0 < signal y <= signal x /\ background y <= background x /\ (count x <= count y)%Z) l l).
  { clear C C' G. induction S; constructor; auto. split; [lra|split; [lra|lia]]. }
  assert (0 < k' * c) by nra. assert (A := crossing_order l l k (k' * c) cert cert G G ltac:(lra) ltac:(lra) O ltac:(lra) C C').
  assert (B := crossing_order l l (k' * c) k cert cert G G ltac:(lra) ltac:(lra) O ltac:(lra) C' C). assert (Eq : k = k' * c) by lra. subst k.
  apply Rabs_le_between in E. apply Rabs_le_between in E'.
  replace (c * (k' * x0 * Rpower 10 e') * Rpower 10 (2 * 1.0e-4)) with (k' * c * x0 * (Rpower 10 e' * Rpower 10 (2 * 1.0e-4))) by ring.
  replace (c * (k' * x0 * Rpower 10 e')) with (k' * c * x0 * Rpower 10 e') by ring. rewrite (Rmult_assoc (k' * c * x0) (Rpower 10 e)). rewrite <- !Rpower_plus.
  assert (0 < k' * c * x0) by nra. split; apply Rmult_le_compat_l; try lra; apply Rpower_mono; lra.
Qed.
(** No event and no background: the limit is the parameter at which -ln(1 - cert) events are expected. *)
Lemma crossing_empty s k cert : crossing [mkBin s 0 0] k cert -> cert < 1 /\ k * s = - ln (1 - cert).
Proof.
  intros [[H|[]] _]. unfold chance in H. cbn [signal background count] in H. change (Z.to_nat 0) with 0%nat in H. unfold at_most, poisson_sum in H. cbn [sum_f_R0] in H.
  replace (k * s + 0) with (k * s) in H by ring. cbn [pow fact INR] in H. replace (exp (- (k * s)) * (1 / 1)) with (exp (- (k * s))) in H by field.
  assert (h := exp_pos (- (k * s))). split; [lra|]. rewrite <- H, ln_exp. ring.
Qed.
Lemma limit_empty s x0 cert u : 0 < s -> limit_of [mkBin s 0 0] x0 cert u ->
  exists e, Rabs e <= 1.0e-4 /\ u = - ln (1 - cert) / s * x0 * Rpower 10 e.
Proof.
  intros S (k & e & K & _ & C & -> & E). apply crossing_empty in C as [_ C]. exists e. split; auto. f_equal. f_equal. rewrite <- C. field. lra.
Qed.
