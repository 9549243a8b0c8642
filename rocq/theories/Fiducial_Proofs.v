(** The rescaled signal of a limit calculation against the recomputed one, and the limit itself. *)
From Coq Require Import Reals ZArith String Lia Lra Bool.
From Coquelicot Require Import Coquelicot.
From Coq Require Import List.
From Verif Require Import Base XrFacts Analysis Quadrature Nucleus_Model Nuclear_Model Particle_Model CrossSection_Model Distribution_Model Atom_Model
  Crystal_Model Rates_Model Detector_Model DetectorTypes_Model Particle_Proofs Poisson_Proofs Scaling_Proofs Couplings_Proofs Limits_Proofs.
Import ListNotations.
Local Open Scope R_scope.

(** Predictions do not look at the stored fiducial values. *)
Definition blind (V : virtuals) : Prop := forall f c n l d p,
  v_deposit V (with_fiducial f c n l d) p = v_deposit V d p /\ v_minimum_mass V (with_fiducial f c n l d) p = v_minimum_mass V d p /\
  (forall E, v_dRdE V (with_fiducial f c n l d) p E = v_dRdE V d p E) /\
  v_total V (with_fiducial f c n l d) p = v_total V d p /\ v_binned V (with_fiducial f c n l d) p = v_binned V d p.
Lemma nuclear_blind X D n : blind (nuclear_virtuals X D n). Proof. intros f c k l d p. repeat split. Qed.
Lemma ionization_blind X D n : blind (ionization_virtuals X D n). Proof. intros f c k l d p. repeat split. Qed.
Lemma semiconductor_blind X D n : blind (semiconductor_virtuals X D n). Proof. intros f c k l d p. repeat split. Qed.

(** Predictions for the detector d are proportional to the interaction parameter of p. *)
Definition proportional (V : virtuals) (d : detector) (p : particle) : Prop := forall x0 x q,
  Get_Interaction_Parameter (b_targets d) p = Ok (Fin x0) -> 0 < x0 -> 0 < x -> Set_Interaction_Parameter (Fin x) (b_targets d) p = Ok q ->
  scales V d (x / x0) p q.

(** Particles tried in a search that began with p, the last trial value being x. *)
Inductive tried (t : string) (p : particle) : R -> particle -> Prop :=
| tried_first x q : 0 < x -> Set_Interaction_Parameter (Fin x) t p = Ok q -> tried t p x q
| tried_next y x q r : tried t p y q -> 0 < x -> Set_Interaction_Parameter (Fin x) t q = Ok r -> tried t p x r.
Lemma tried_direct t p x q : tried t p x q -> 0 < x /\ Set_Interaction_Parameter (Fin x) t p = Ok q.
Proof.
  induction 1 as [x q X H|y x q r T [Y IH] X H]; auto. split; auto. rewrite <- H. symmetry. apply (set_twice _ (Fin y)); auto.
Qed.

Lemma round_trip t p x q : good p -> share_ok p -> 0 <= x -> Set_Interaction_Parameter (Fin x) t p = Ok q -> Get_Interaction_Parameter t q = Ok (Fin x).
Proof.
  intros G Sh X H. destruct (good_pre p G) as (m & pre & Hm & Hm0 & Hpre & Hpre0).
  unfold Set_Interaction_Parameter in H. unfold Get_Interaction_Parameter. destruct (_ =? _)%string.
  2:{ destruct (_ =? _)%string; [|discriminate]. apply Ok_inj in H. subst q. reflexivity. }
  apply Ok_inj in H. destruct (xlt (Fin 0) (fp_relative p)) eqn:E.
  - destruct (set_proton_like (Fin x) p) as (L & M & _). pose proof L as (_ & _ & _ & _ & L5 & _ & L7 & _). rewrite H in L5, L7, M. rewrite L7, E.
    rewrite (Set_Sigma_Proton_eq p m pre x) in H by auto. rewrite (Sigma_Proton_eq q m pre (cpl pre m x)); try congruence.
    + rewrite sig_cpl by auto. auto.
    + destruct (fixed p); [|subst q; reflexivity]. replace (xeq (fp_relative p) (Fin 0)) with false in H; [subst q; reflexivity|].
      destruct (fp_relative p) as [r| | |]; try discriminate; auto. apply xlt_spec in E. rewrite xeq_false by lra. auto.
  - destruct (set_neutron_like (Fin x) p) as (L & M & _). pose proof L as (_ & _ & _ & _ & L5 & _ & L7 & _). rewrite H in L5, L7, M. rewrite L7, E.
    rewrite (Set_Sigma_Neutron_eq p m pre x) in H by auto. rewrite (Sigma_Neutron_eq q m pre (cpl pre m x)); try congruence.
    + rewrite sig_cpl by auto. auto.
    + destruct (fixed p); [|subst q; reflexivity]. rewrite share_not_zero in H by auto. subst q; reflexivity.
Qed.

Lemma pow_1 c : xpow (Fin c) 1 = Fin c.
Proof. cbn [xpow]. rewrite xmul_fin. f_equal. ring. Qed.

(** * C48 *)
Lemma rescaled X V d d1 p x0 x q : blind V -> direct d -> good p -> share_ok p -> proportional V d p ->
  Get_Interaction_Parameter (b_targets d) p = Ok (Fin x0) -> 0 < x0 -> set_fiducial V (Fin x0) d p = Ok d1 -> tried (b_targets d) p x q ->
  P_Value X V d1 q = P_Value X V d q.
Proof.
  intros B Dd G Sh P Gt X0 F T. destruct (tried_direct _ _ _ _ T) as [X1 St].
  assert (Gq : Get_Interaction_Parameter (b_targets d) q = Ok (Fin x)).
  { eapply round_trip; eauto; lra. }
  destruct (P x0 x q Gt X0 X1 St) as (S1 & S2 & S3).
  unfold set_fiducial in F. unfold P_Value. destruct (b_analysis d) eqn:A.
  - destruct (B true (Fin x0) (b_fiducial_signals d) (b_fiducial_spectrum d) d p) as (_ & _ & _ & BT & _). rewrite BT in F. step F. apply Ok_inj in F. subst d1.
    cbn [b_analysis with_fiducial b_using_fiducial b_fiducial_coupling b_fiducial_signals b_background b_observed b_targets]. rewrite A, Gq, Dd. cbn [bind].
    rewrite S2. cbn [times bind]. rewrite xdiv_fin, pow_1 by lra. auto.
  - destruct (B true (Fin x0) (b_fiducial_signals d) (b_fiducial_spectrum d) d p) as (_ & _ & _ & _ & BT). rewrite BT in F. step F. apply Ok_inj in F. subst d1.
    cbn [b_analysis with_fiducial b_using_fiducial b_fiducial_coupling b_fiducial_spectrum b_bin_background b_bin_observed b_targets b_bins]. rewrite A, Gq, Dd. cbn [bind].
    rewrite S3. cbn [times_all bind]. rewrite xdiv_fin, pow_1 by lra. auto.
  - apply Ok_inj in F. subst d1. rewrite A. auto.
Qed.

(** The detector classes predict proportionally. *)
Lemma nuclear_proportional X D n d p : homogeneous_externals X -> good p -> share_ok p -> fixed p = true -> respects_ratio p -> b_targets d = "Nuclei"%string ->
  proportional (nuclear_virtuals X D n) d p.
Proof.
  intros HX G Sh F R T x0 x q Gt X0 X1 St. rewrite T in Gt, St. destruct (set_nuclei_scaled p x0 x q G Sh F R Gt X0 X1 St) as (k & K & <- & C).
  apply nuclear_scales; auto; [destruct (Rlt_dec 0 k); nra|]. apply nuclear_coupled; auto.
Qed.
Lemma migdal_proportional X D s d p : homogeneous_externals X -> good p -> share_ok p -> fixed p = true -> respects_ratio p -> b_targets d = "Nuclei"%string ->
  i_channel s = Migdal -> proportional (ionization_virtuals X D s) d p.
Proof.
  intros HX G Sh F R T Ch x0 x q Gt X0 X1 St. rewrite T in Gt, St. destruct (set_nuclei_scaled p x0 x q G Sh F R Gt X0 X1 St) as (k & K & <- & C).
  apply ionization_scales; auto; [destruct (Rlt_dec 0 k); nra|]. rewrite Ch. apply nuclear_coupled; auto.
Qed.
Lemma electron_proportional X D s d p : homogeneous_externals X -> b_targets d = "Electrons"%string -> i_channel s = Electron_Recoil ->
  proportional (ionization_virtuals X D s) d p.
Proof.
  intros HX T Ch x0 x q Gt X0 X1 St. rewrite T in Gt, St. apply ionization_scales; auto; [apply Rdiv_lt_0_compat; auto|]. rewrite Ch.
  eapply set_electrons_scaled; eauto.
Qed.
Lemma crystal_proportional X D s d p : homogeneous_externals X -> b_targets d = "Electrons"%string -> proportional (semiconductor_virtuals X D s) d p.
Proof.
  intros HX T x0 x q Gt X0 X1 St. rewrite T in Gt, St. apply semiconductor_scales; auto; [apply Rdiv_lt_0_compat; auto|].
  eapply set_electrons_scaled; eauto.
Qed.

Lemma nuclear_ctor_idle label expo nuclei abund n : Nuclear_ctor label expo nuclei abund = Ok n -> idle "Nuclei" (n_base n).
Proof. unfold Nuclear_ctor. intros H. step H. apply Ok_inj in H. subst n. apply idle_ctor. Qed.
Lemma ionization_ctor_idle T w ch label expo atoms fr s w' : Ionization_ctor T w ch label expo atoms fr = Ok (s, w') -> idle (channel_targets ch) (i_base s) /\ i_channel s = ch.
Proof. unfold Ionization_ctor. intros H. step H. destruct a as [l w1]. step H. apply Ok_inj in H. injection H as <- <-. split; [apply idle_ctor|reflexivity]. Qed.
Lemma semiconductor_ctor_idle T label expo crys s : Semiconductor_ctor T label expo crys = Ok s -> idle "Electrons" (c_base s).
Proof. unfold Semiconductor_ctor. intros H. step H. apply Ok_inj in H. subst s. apply idle_ctor. Qed.

(** C48 for the classes: any configuration history, any search history. *)
Lemma nuclear_rescaled S X D label expo nuclei abund n0 ops n p x0 d1 x q : homogeneous_externals X ->
  Nuclear_ctor label expo nuclei abund = Ok n0 -> nuclear_run n0 ops = Ok n ->
  reachable p -> fixed p = true -> respects_ratio p ->
  Get_Interaction_Parameter "Nuclei" p = Ok (Fin x0) -> 0 < x0 ->
  set_fiducial (nuclear_virtuals X D n) (Fin x0) (n_base n) p = Ok d1 -> tried "Nuclei" p x q ->
  P_Value S (nuclear_virtuals X D n) d1 q = P_Value S (nuclear_virtuals X D n) (n_base n) q.
Proof.
  intros HX HC HR R F Rr Gt X0 Sf T. destruct (reachable_good p R) as [G Sh].
  destruct (nuclear_run_idle "Nuclei" ops n0 n (nuclear_ctor_idle _ _ _ _ _ HC) HR) as [Ht Hi].
  eapply rescaled; eauto; rewrite ?Ht; eauto; [apply nuclear_blind|apply Hi|apply nuclear_proportional; auto].
Qed.
Lemma ionization_rescaled S X D I w ch label expo atoms fr s0 w' ops s p x0 d1 x q : homogeneous_externals X ->
  Ionization_ctor I w ch label expo atoms fr = Ok (s0, w') -> ionization_run s0 ops = Ok s ->
  reachable p -> (ch = Migdal -> fixed p = true /\ respects_ratio p) ->
  Get_Interaction_Parameter (channel_targets ch) p = Ok (Fin x0) -> 0 < x0 ->
  set_fiducial (ionization_virtuals X D s) (Fin x0) (i_base s) p = Ok d1 -> tried (channel_targets ch) p x q ->
  P_Value S (ionization_virtuals X D s) d1 q = P_Value S (ionization_virtuals X D s) (i_base s) q.
Proof.
  intros HX HC HR R F Gt X0 Sf T. destruct (reachable_good p R) as [G Sh].
  destruct (ionization_ctor_idle _ _ _ _ _ _ _ _ _ HC) as [H0 Hch].
  destruct (ionization_run_idle _ ops s0 s H0 HR) as [[Ht Hi] Hc]. rewrite Hch in Hc.
  eapply rescaled; eauto; rewrite ?Ht; eauto; [apply ionization_blind|apply Hi|].
  destruct ch; cbn [channel_targets] in *.
  - apply electron_proportional; auto.
  - destruct F; auto. apply migdal_proportional; auto.
Qed.
Lemma semiconductor_rescaled S X D I label expo crys s0 ops s p x0 d1 x q : homogeneous_externals X ->
  Semiconductor_ctor I label expo crys = Ok s0 -> semiconductor_run s0 ops = Ok s ->
  reachable p ->
  Get_Interaction_Parameter "Electrons" p = Ok (Fin x0) -> 0 < x0 ->
  set_fiducial (semiconductor_virtuals X D s) (Fin x0) (c_base s) p = Ok d1 -> tried "Electrons" p x q ->
  P_Value S (semiconductor_virtuals X D s) d1 q = P_Value S (semiconductor_virtuals X D s) (c_base s) q.
Proof.
  intros HX HC HR R Gt X0 Sf T. destruct (reachable_good p R) as [G Sh].
  destruct (semiconductor_run_idle "Electrons" ops s0 s (semiconductor_ctor_idle _ _ _ _ _ HC) HR) as [Ht Hi].
  eapply rescaled; eauto; rewrite ?Ht; eauto; [apply semiconductor_blind|apply Hi|apply crystal_proportional; auto].
Qed.

(** * C45: the limit separates *)
Lemma at_most_continuous n x : continuous (at_most n) x.
Proof. apply (ex_derive_continuous (V := R_NormedModule)). eexists. apply at_most_derive. Qed.
Lemma Rpower_continuous b x : continuous (Rpower b) x.
Proof.
  unfold Rpower. apply (continuous_comp (fun y => y * ln b) exp); [|apply continuous_exp].
  apply (continuous_mult (K := R_AbsRing) (fun y : R => y) (fun _ : R => ln b)); [apply continuous_id|apply continuous_const].
Qed.
Lemma Rpower_pos b x : 0 < Rpower b x. Proof. apply exp_pos. Qed.
Lemma Rpower_ln x : 0 < x -> Rpower 10 (ln x / ln 10) = x.
Proof. intros H. unfold Rpower. assert (0 < ln 10) by (rewrite <- ln_1; apply ln_increasing; lra). replace (ln x / ln 10 * ln 10) with (ln x) by (field; lra). apply exp_ln; auto. Qed.

(** What a limit u says about the p-values at confidence [cert]: L is within the requested accuracy of u and separates. *)
Definition excluded (X : statistics) (V : virtuals) (d : detector) (p : particle) (cert x : R) : Prop :=
  forall q v, Set_Interaction_Parameter (Fin x) (b_targets d) p = Ok q -> P_Value X V d q = Ok (Fin v) -> v < 1 - cert.
Definition allowed (X : statistics) (V : virtuals) (d : detector) (p : particle) (cert x : R) : Prop :=
  forall q v, Set_Interaction_Parameter (Fin x) (b_targets d) p = Ok q -> P_Value X V d q = Ok (Fin v) -> 1 - cert < v.
Definition separates (X : statistics) (V : virtuals) (d : detector) (p : particle) (cert u : R) : Prop :=
  exists L e, u = L * Rpower 10 e /\ Rabs e <= 1.0e-4 /\ Rpower 10 (-30) <= L <= Rpower 10 10 /\
    (forall x, 0 < x < L -> allowed X V d p cert x) /\ (forall x, L < x -> excluded X V d p cert x).
Definition no_crossing (X : statistics) (V : virtuals) (d : detector) (p : particle) (cert : R) : Prop :=
  (forall x, Rpower 10 (-30) <= x <= Rpower 10 10 -> allowed X V d p cert x) \/
  (forall x, Rpower 10 (-30) <= x <= Rpower 10 10 -> excluded X V d p cert x).

Lemma limit_separates FR X V d p cert x0 s0 b : accurate_search FR -> ideal_statistics X -> blind V -> rested d ->
  good p -> share_ok p -> proportional V d p -> b_analysis d = Poisson -> (0 <= b_observed d)%Z -> b_background d = Fin b -> 0 <= b ->
  Get_Interaction_Parameter (b_targets d) p = Ok (Fin x0) -> 0 < x0 -> v_total V d p = Ok (Fin s0) -> 0 < s0 ->
  exists u d' p', Upper_Limit FR X V d p (Fin cert) = Ok (Fin u, d', p') /\
    ((u = -1 /\ no_crossing X V d p cert) \/ (0 < u /\ separates X V d p cert u)).
Proof.
  intros HF HS B Rd G Sh P A N Hb Hb0 Gt X0 Vt S0. assert (Dd : direct d) by apply Rd.
  set (n := Z.to_nat (b_observed d)). set (pv := fun x => at_most n (x / x0 * s0 + b)). set (g := fun y => pv (Rpower 10 y) - (1 - cert)).
  (* every parameter can be set *)
  assert (ST : forall x s, exists q, Set_Interaction_Parameter x (b_targets d) s = Ok q).
  { intros x s. unfold Set_Interaction_Parameter, Get_Interaction_Parameter in *. destruct (_ =? _)%string; eauto. destruct (_ =? _)%string; eauto. discriminate. }
  assert (PV : forall x q, 0 < x -> Set_Interaction_Parameter (Fin x) (b_targets d) p = Ok q -> P_Value X V d q = Ok (Fin (pv x))).
  { intros x q Hx Hq. destruct (P x0 x q Gt X0 Hx Hq) as (_ & S2 & _). rewrite Vt in S2. cbn [times bind] in S2. rewrite xmul_fin in S2.
    rewrite (P_Value_Poisson X V d q (x / x0 * s0) b); auto. apply Rmult_le_pos; [|lra]. left. apply Rdiv_lt_0_compat; auto. }
  assert (MONO : forall x y, 0 < x < y -> pv y < pv x).
  { intros x y H. unfold pv. apply at_most_decreasing. assert (0 < x / x0) by (apply Rdiv_lt_0_compat; lra).
    assert (x / x0 < y / x0) by (apply Rmult_lt_compat_r; [apply Rinv_0_lt_compat; auto|lra]). split; [|apply Rplus_lt_compat_r, Rmult_lt_compat_r; auto].
    apply Rplus_le_le_0_compat; auto. apply Rmult_le_pos; lra. }
  assert (SF : exists d1, set_fiducial V (Fin x0) d p = Ok d1).
  { unfold set_fiducial. rewrite A. destruct (B true (Fin x0) (b_fiducial_signals d) (b_fiducial_spectrum d) d p) as (_ & _ & _ & BT & _). rewrite BT, Vt. cbn [bind]. eauto. }
  destruct SF as [d1 SF]. destruct (set_fiducial_frame _ _ _ _ _ SF) as (T & A1 & W & _).
  set (inv := fun q => forall x, Set_Interaction_Parameter x (b_targets d) q = Set_Interaction_Parameter x (b_targets d) p).
  assert (LF : forall s y, inv s -> exists s1, limit_func X V d1 (Fin cert) s (Fin y) = Ok (Fin (g y), s1) /\ inv s1).
  { intros s y I. destruct (ST (xpow10 (Fin y)) p) as [q Hq]. exists q. unfold limit_func. rewrite T, I, Hq. cbn [bind]. cbn [xpow10] in Hq.
    assert (Hp := Rpower_pos 10 y).
    rewrite (rescaled X V d d1 p x0 (Rpower 10 y) q), (PV (Rpower 10 y)); auto. 2: apply tried_first; auto. cbn [bind]. rewrite !xsub_fin. split.
    - unfold g. replace 1.0 with 1 by lra. auto.
    - intros x. rewrite (set_twice x _ _ _ _ Hq). auto. }
  assert (I0 : inv p) by (intros x; auto).
  destruct (LF p (-30.0) I0) as (p1 & L1 & I1). destruct (LF p1 10.0 I1) as (p2 & L2 & I2).
  replace (-30.0) with (-30) in * by lra. replace 10.0 with 10 in * by lra.
  assert (GM : forall y z, y < z -> g z < g y).
  { intros y z H. unfold g. assert (pv (Rpower 10 z) < pv (Rpower 10 y)); [|lra]. apply MONO. split; [apply Rpower_pos|]. apply Rpower_lt; lra. }
  assert (SG : forall q v x, 0 < x -> Set_Interaction_Parameter (Fin x) (b_targets d) p = Ok q -> P_Value X V d q = Ok (Fin v) -> v - (1 - cert) = g (ln x / ln 10)).
  { intros q v x Hx Hq Hv. rewrite (PV x q Hx Hq) in Hv. apply Ok_inj, Fin_inj in Hv. subst v. unfold g. rewrite Rpower_ln; auto. }
  assert (LN : forall x y, 0 < x -> (x < Rpower 10 y -> ln x / ln 10 < y) /\ (Rpower 10 y < x -> y < ln x / ln 10) /\ (x = Rpower 10 y -> ln x / ln 10 = y)).
  { intros x y Hx. assert (HL : 0 < ln 10) by (rewrite <- ln_1; apply ln_increasing; lra). split; [|split]; intros H.
    - apply Rmult_lt_reg_r with (ln 10); auto. unfold Rdiv. rewrite Rmult_assoc, Rinv_l by lra. rewrite Rmult_1_r. rewrite <- (ln_exp (y * ln 10)). apply ln_increasing; auto.
    - apply Rmult_lt_reg_r with (ln 10); auto. unfold Rdiv. rewrite Rmult_assoc, Rinv_l by lra. rewrite Rmult_1_r. rewrite <- (ln_exp (y * ln 10)). apply ln_increasing; auto. apply exp_pos.
    - rewrite H. unfold Rpower. rewrite ln_exp. field. lra. }
  unfold Upper_Limit. rewrite Gt. cbn [bind]. rewrite SF. cbn [bind]. replace (-30.0) with (-30) by lra. replace 10.0 with 10 by lra. rewrite L1. cbn [bind]. rewrite L2. cbn [bind]. rewrite xmul_fin.
  destruct (Rlt_dec 0 (g (-30) * g 10)) as [Pos|Neg].
  - rewrite xlt_true by auto. cbn [bind]. rewrite T, I2. destruct (ST (Fin x0) p) as [p4 H4]. rewrite H4. cbn [bind]. do 3 eexists. split; [f_equal; f_equal; f_equal|].
    left. split; [lra|]. assert (g 10 < g (-30)) by (apply GM; lra).
    assert (BD : forall x, Rpower 10 (-30) <= x <= Rpower 10 10 -> 0 < x /\ g 10 <= g (ln x / ln 10) <= g (-30)).
    { intros x [H1 H2]. assert (0 < x) by (assert (h := Rpower_pos 10 (-30)); lra). split; auto.
      destruct (LN x (-30) H0) as (_ & Q1 & Q2). destruct (LN x 10 H0) as (Q3 & _ & Q4). split.
      - destruct H2 as [H2|H2]; [left; apply GM; auto|rewrite Q4 by auto; lra].
      - destruct H1 as [H1|H1]; [left; apply GM; auto|rewrite Q2 by auto; lra]. }
    destruct (Rlt_dec 0 (g 10)); [left|right]; intros x Hx q v Hq Hv; destruct (BD x Hx) as [H0 Hg]; specialize (SG q v x H0 Hq Hv); [lra|].
    assert (g (-30) < 0) by nra. lra.
  - rewrite xlt_false by lra. destruct (HF particle (limit_func X V d1 (Fin cert)) g inv (-30) 10 1.0e-4 p2) as (r & r0 & p3 & F1 & F2 & F3 & F4); auto; try lra.
    { intros y _. unfold g, pv. apply (continuous_minus (V := R_NormedModule) (fun y => at_most n (Rpower 10 y / x0 * s0 + b)) (fun _ => 1 - cert)); [|apply continuous_const].
      apply (continuous_comp (fun y => Rpower 10 y / x0 * s0 + b) (at_most n)); [|apply at_most_continuous].
      apply (continuous_plus (V := R_NormedModule) (fun y => Rpower 10 y / x0 * s0) (fun _ => b)); [|apply continuous_const].
      apply (continuous_mult (K := R_AbsRing) (fun y => Rpower 10 y / x0) (fun _ => s0)); [|apply continuous_const].
      apply (continuous_mult (K := R_AbsRing) (fun y => Rpower 10 y) (fun _ => / x0)); [|apply continuous_const]. apply Rpower_continuous. }
    replace (-30.0) with (-30) by lra. replace 10.0 with 10 by lra. rewrite F1. cbn [bind]. rewrite T. destruct (ST (Fin x0) p3) as [p4 H4]. rewrite H4. cbn [bind xpow10]. do 3 eexists. split; [reflexivity|].
    right. split; [apply Rpower_pos|]. exists (Rpower 10 r0), (r - r0). split; [rewrite <- Rpower_plus; f_equal; ring|]. split; auto. split.
    { split; apply Rle_Rpower; lra. }
    split; intros x Hx q v Hq Hv.
    + destruct (LN x r0) as (Q1 & _); [lra|]. specialize (SG q v x). assert (g r0 < g (ln x / ln 10)) by (apply GM, Q1; lra). rewrite <- SG in H; auto; lra.
    + assert (0 < x) by (assert (h := Rpower_pos 10 r0); lra). destruct (LN x r0) as (_ & Q1 & _); [lra|]. specialize (SG q v x).
      assert (g (ln x / ln 10) < g r0) by (apply GM, Q1; lra). rewrite <- SG in H0; auto; lra.
Qed.
