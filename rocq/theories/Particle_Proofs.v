(** Lemmas about the coupling state machine of Particle_Model. *)
From Coq Require Import Reals List ZArith String Lra Lia Bool.
From Verif Require Import Base XrFacts Nucleus_Model Particle_Model.
Import ListNotations.
Local Open Scope R_scope.

(** * Specification vocabulary (independent of the model's helpers) *)

(** The arguments a user may pass: positive finite masses, finite non-negative cross sections,
    finite coupling ratios. *)
Definition valid_call (o : pop) : Prop :=
  match o with
  | PSet_Mass m => exists r, m = Fin r /\ 0 < r
  | PSet_Sigma_Proton x | PSet_Sigma_Neutron x | PSet_Sigma_Electron x | PSet_Interaction x _ =>
      exists r, x = Fin r /\ 0 <= r
  | PFix_Ratio p n => is_fin p /\ is_fin n
  | PFix_fn_over_fp r | PFix_fp_over_fn r => is_fin r
  | _ => True
  end.

(** States a user can produce with such calls, starting from any constructor. *)
Definition reachable (s : particle) : Prop :=
  exists k m0 x0 ops, 0 < m0 /\ 0 <= x0 /\ Forall valid_call ops /\
    prun (Particle_ctor k (Fin m0) (Fin x0)) ops = Ok s.

(** The stored couplings obey the stored relation a : b (a, b not both zero) when it is fixed. *)
Definition respects_ratio (s : particle) : Prop :=
  fixed s = true ->
  exists p n a b, fp s = Fin p /\ fn s = Fin n /\ fp_relative s = Fin a /\ fn_relative s = Fin b /\
    (a <> 0 \/ b <> 0) /\ p * b = n * a.

(** * Real-valued core *)
Definition mu (m : R) : R := m * mProton / (m + mProton).
Lemma mu_pos m : 0 < m -> 0 < mu m.
Proof.
  intros H; assert (h := mProton_pos); unfold mu. apply Rdiv_lt_0_compat; [apply Rmult_lt_0_compat|]; lra.
Qed.
Lemma Reduced_Mass_p m : 0 < m -> Reduced_Mass (Fin m) (Fin mProton) = Fin (mu m).
Proof.
  intros H; assert (h := mProton_pos); unfold Reduced_Mass, mu.
  rewrite xmul_fin, xadd_fin, xdiv_fin; auto; lra.
Qed.

Definition cpl (pre m x : R) : R := sqrt (PI * x / pre) / mu m.
Definition sig (pre m f : R) : R := pre * f * f * mu m * mu m / PI.

Lemma cpl_nonneg pre m x : 0 < m -> 0 <= cpl pre m x.
Proof.
  intros H; unfold cpl. apply Rmult_le_pos; [apply sqrt_pos|]. left; apply Rinv_0_lt_compat, mu_pos; auto.
Qed.
Lemma sig_nonneg pre m f : 0 < pre -> 0 < m -> 0 <= sig pre m f.
Proof.
  intros Hp H; unfold sig. assert (h := mu_pos m H). assert (hp := PI_RGT_0).
  apply Rmult_le_pos; [|left; apply Rinv_0_lt_compat; lra].
  replace (pre * f * f * mu m * mu m) with (pre * (f * mu m)²) by (unfold Rsqr; ring).
  apply Rmult_le_pos; [lra|apply Rle_0_sqr].
Qed.
Lemma sig_cpl pre m x : 0 < pre -> 0 < m -> 0 <= x -> sig pre m (cpl pre m x) = x.
Proof.
  intros Hp Hm Hx. unfold sig, cpl. assert (h := mu_pos m Hm). assert (hp := PI_RGT_0).
  assert (Hs : sqrt (PI * x / pre) * sqrt (PI * x / pre) = PI * x / pre).
  { apply sqrt_sqrt. apply Rmult_le_pos; [apply Rmult_le_pos; lra|left; apply Rinv_0_lt_compat; auto]. }
  transitivity (pre * (sqrt (PI * x / pre) * sqrt (PI * x / pre)) / PI); [field; lra|].
  rewrite Hs; field; lra.
Qed.
Lemma cpl_sig pre m m' f : 0 < pre -> 0 < m -> 0 < m' -> cpl pre m' (sig pre m f) = Rabs f * mu m / mu m'.
Proof.
  intros Hp Hm Hm'. unfold sig, cpl. assert (h := mu_pos m Hm). assert (hp := PI_RGT_0).
  replace (PI * (pre * f * f * mu m * mu m / PI) / pre) with ((f * mu m)²) by (unfold Rsqr; field; lra).
  rewrite sqrt_Rsqr_abs, Rabs_mult, (Rabs_pos_eq (mu m)); [reflexivity|lra].
Qed.
Lemma sig_scale pre m m' f c : 0 < m -> 0 < m' -> c * c = 1 -> sig pre m' (c * f * mu m / mu m') = sig pre m f.
Proof.
  intros Hm Hm' Hc. unfold sig. assert (h := mu_pos m Hm). assert (h' := mu_pos m' Hm'). assert (hp := PI_RGT_0).
  transitivity (pre * (c * c) * f * f * mu m * mu m / PI); [field; lra|]. rewrite Hc; field; lra.
Qed.
Lemma sig_zero pre m f : 0 < pre -> 0 < m -> sig pre m f = 0 -> f = 0.
Proof.
  intros Hp Hm H. unfold sig in H. assert (h := mu_pos m Hm). assert (hp := PI_RGT_0).
  destruct (Req_dec f 0) as [|N]; auto. exfalso.
  assert (0 < f * f) by (apply Rlt_0_sqr; auto).
  assert (0 < pre * f * f * mu m * mu m / PI); [|lra].
  apply Rdiv_lt_0_compat; auto. replace (pre * f * f * mu m * mu m) with (pre * (f * f) * (mu m * mu m)) by ring.
  apply Rmult_lt_0_compat; apply Rmult_lt_0_compat; auto.
Qed.

(** * Bridging to the model *)
Definition good (s : particle) : Prop :=
  (exists m, mass s = Fin m /\ 0 < m) /\ (prefactor s = Fin 1 \/ prefactor s = Fin 3).

Lemma good_pre s : good s -> exists m pre, mass s = Fin m /\ 0 < m /\ prefactor s = Fin pre /\ 0 < pre.
Proof. intros [[m [H1 H2]] [H|H]]; exists m; [exists 1|exists 3]; repeat split; auto; lra. Qed.

Lemma Sigma_Proton_eq s m pre p : mass s = Fin m -> 0 < m -> prefactor s = Fin pre -> fp s = Fin p ->
  Sigma_Proton s = Fin (sig pre m p).
Proof.
  intros Hm H Hp Hf. unfold Sigma_Proton, sig. rewrite Hm, Hp, Hf, Reduced_Mass_p, !xmul_fin, xdiv_fin; auto.
  apply PI_neq0.
Qed.
Lemma Sigma_Neutron_eq s m pre p : mass s = Fin m -> 0 < m -> prefactor s = Fin pre -> fn s = Fin p ->
  Sigma_Neutron s = Fin (sig pre m p).
Proof.
  intros Hm H Hp Hf. unfold Sigma_Neutron, sig. rewrite Hm, Hp, Hf, Reduced_Mass_p, !xmul_fin, xdiv_fin; auto.
  apply PI_neq0.
Qed.
Lemma coupling_eq s m pre x : mass s = Fin m -> 0 < m -> prefactor s = Fin pre -> 0 < pre -> 0 <= x ->
  coupling_of_sigma s (Fin x) = Fin (cpl pre m x).
Proof.
  intros Hm H Hp Hpre Hx. unfold coupling_of_sigma, cpl. assert (hp := PI_RGT_0). assert (h := mu_pos m H).
  rewrite Hm, Hp, Reduced_Mass_p, xmul_fin, xdiv_fin, xsqrt_fin, xdiv_fin; auto; try lra.
  apply Rmult_le_pos; [apply Rmult_le_pos; lra|left; apply Rinv_0_lt_compat; auto].
Qed.

Lemma Set_Sigma_Proton_eq s m pre x : mass s = Fin m -> 0 < m -> prefactor s = Fin pre -> 0 < pre -> 0 <= x ->
  Set_Sigma_Proton (Fin x) s =
  if fixed s then
    if xeq (fp_relative s) (Fin 0) then with_fp (Fin 0) s
    else with_fn (fn_relative s / fp_relative s * Fin (cpl pre m x))%xr (with_fp (Fin (cpl pre m x)) s)
  else with_fp (Fin (cpl pre m x)) s.
Proof.
  intros. unfold Set_Sigma_Proton. rewrite (coupling_eq s m pre x) by auto. cbn [fixed fp_relative fn_relative fp with_fp].
  destruct (fixed s); auto.
Qed.
Lemma Set_Sigma_Neutron_eq s m pre x : mass s = Fin m -> 0 < m -> prefactor s = Fin pre -> 0 < pre -> 0 <= x ->
  Set_Sigma_Neutron (Fin x) s =
  if fixed s then
    if xeq (fn_relative s) (Fin 0) then with_fn (Fin 0) s
    else with_fp (fp_relative s / fn_relative s * Fin (cpl pre m x))%xr (with_fn (Fin (cpl pre m x)) s)
  else with_fn (Fin (cpl pre m x)) s.
Proof.
  intros. unfold Set_Sigma_Neutron. rewrite (coupling_eq s m pre x) by auto. cbn [fixed fp_relative fn_relative fn with_fn].
  destruct (fixed s); auto.
Qed.

(** Fields left alone by the setters. *)
Lemma Set_Sigma_Proton_frame x s :
  let s' := Set_Sigma_Proton x s in
  kind s' = kind s /\ low_mass s' = low_mass s /\ mass s' = mass s /\ fractional_density s' = fractional_density s /\
  use_eta s' = use_eta s /\ prefactor s' = prefactor s /\ fixed s' = fixed s /\ fp_relative s' = fp_relative s /\
  fn_relative s' = fn_relative s /\ sigma_electron s' = sigma_electron s /\ FF_DM s' = FF_DM s /\ mMediator s' = mMediator s.
Proof. unfold Set_Sigma_Proton; cbn. destruct (fixed s) eqn:E; cbn; [destruct (xeq (fp_relative s) (Fin 0)); cbn|]; rewrite ?E; tauto. Qed.
Lemma Set_Sigma_Neutron_frame x s :
  let s' := Set_Sigma_Neutron x s in
  kind s' = kind s /\ low_mass s' = low_mass s /\ mass s' = mass s /\ fractional_density s' = fractional_density s /\
  use_eta s' = use_eta s /\ prefactor s' = prefactor s /\ fixed s' = fixed s /\ fp_relative s' = fp_relative s /\
  fn_relative s' = fn_relative s /\ sigma_electron s' = sigma_electron s /\ FF_DM s' = FF_DM s /\ mMediator s' = mMediator s.
Proof. unfold Set_Sigma_Neutron; cbn. destruct (fixed s) eqn:E; cbn; [destruct (xeq (fn_relative s) (Fin 0)); cbn|]; rewrite ?E; tauto. Qed.

Lemma Set_Mass_frame x s :
  let s' := Set_Mass x s in
  kind s' = kind s /\ low_mass s' = low_mass s /\ mass s' = x /\ fractional_density s' = fractional_density s /\
  use_eta s' = use_eta s /\ prefactor s' = prefactor s /\ fixed s' = fixed s /\ fp_relative s' = fp_relative s /\
  fn_relative s' = fn_relative s /\ sigma_electron s' = sigma_electron s /\ FF_DM s' = FF_DM s /\ mMediator s' = mMediator s.
Proof.
  unfold Set_Mass. cbv zeta. destruct (fixed s) eqn:E; [destruct (xne (fp_relative s) (Fin 0))|].
  - pose proof (Set_Sigma_Proton_frame (Sigma_Proton s) (with_mass x s)) as H; cbv zeta in H.
    cbn [kind low_mass mass fractional_density use_eta prefactor fixed fp_relative fn_relative sigma_electron FF_DM mMediator with_mass] in H.
    rewrite E in H; tauto.
  - pose proof (Set_Sigma_Neutron_frame (Sigma_Neutron s) (with_mass x s)) as H; cbv zeta in H.
    cbn [kind low_mass mass fractional_density use_eta prefactor fixed fp_relative fn_relative sigma_electron FF_DM mMediator with_mass] in H.
    rewrite E in H; tauto.
  - pose proof (Set_Sigma_Proton_frame (Sigma_Proton s) (with_mass x s)) as H; cbv zeta in H.
    pose proof (Set_Sigma_Neutron_frame (Sigma_Neutron s) (Set_Sigma_Proton (Sigma_Proton s) (with_mass x s))) as G; cbv zeta in G.
    decompose [and] G; clear G. decompose [and] H; clear H.
    repeat split; etransitivity; eauto.
Qed.

(** * Reachable states are good, and a vanishing neutron share means a pure proton share *)
Definition share_ok (s : particle) : Prop := fn_relative s = Fin 0 -> fp_relative s = Fin 1.

Lemma prun_snoc s ops o : prun s (ops ++ [o]) = bind (prun s ops) (fun x => pstep x o).
Proof. unfold prun. rewrite fold_left_app; reflexivity. Qed.

Lemma prun_cons s o ops : prun s (o :: ops) = bind (pstep s o) (fun x => prun x ops).
Proof.
  unfold prun; simpl. destruct (pstep s o) as [x| | |]; simpl; auto; induction ops; simpl; auto.
Qed.

Lemma prun_inv (P : particle -> Prop) :
  (forall s o s', P s -> valid_call o -> pstep s o = Ok s' -> P s') ->
  forall ops s s', P s -> Forall valid_call ops -> prun s ops = Ok s' -> P s'.
Proof.
  intros Hstep. induction ops as [|o ops IH]; intros s s' Hs Hv H.
  - injection H as <-; auto.
  - rewrite prun_cons in H. apply bind_ok in H as [x [H1 H2]]. inversion Hv; subst. eauto.
Qed.

Ltac unfold_fix H :=
  unfold Fix_Coupling_Ratio, Fix_fn_over_fp, Fix_fp_over_fn in H; cbv zeta in H;
  cbn [fp fn fp_relative fn_relative with_relation] in H;
  repeat match type of H with context [if ?b then _ else _] => destruct b eqn:? end;
  try discriminate H; injection H as <-.

Lemma Fix_frame s s' : (exists p n, Fix_Coupling_Ratio p n s = Ok s') \/ (exists r, Fix_fn_over_fp r s = Ok s') \/
  (exists r, Fix_fp_over_fn r s = Ok s') ->
  kind s' = kind s /\ low_mass s' = low_mass s /\ mass s' = mass s /\ fractional_density s' = fractional_density s /\
  use_eta s' = use_eta s /\ prefactor s' = prefactor s /\ sigma_electron s' = sigma_electron s /\ FF_DM s' = FF_DM s /\
  mMediator s' = mMediator s /\ fixed s' = true.
Proof. intros [[p [n H]]|[[r H]|[r H]]]; unfold_fix H; cbn; tauto. Qed.

Lemma Set_Interaction_cases x t s s' : Set_Interaction_Parameter x t s = Ok s' ->
  s' = Set_Sigma_Proton x s \/ s' = Set_Sigma_Neutron x s \/ s' = Set_Sigma_Electron x s.
Proof.
  unfold Set_Interaction_Parameter.
  destruct (t =? "Nuclei")%string; [destruct (xlt _ _)|destruct (t =? "Electrons")%string]; intros H; try discriminate H; injection H as <-; auto.
Qed.

Lemma good_ext s s' : mass s' = mass s -> prefactor s' = prefactor s -> good s -> good s'.
Proof. unfold good; intros -> ->; auto. Qed.

Lemma FormFactor_frame ff m s s' : Set_FormFactor_DM ff m s = Ok s' ->
  kind s' = kind s /\ low_mass s' = low_mass s /\ mass s' = mass s /\ fractional_density s' = fractional_density s /\
  use_eta s' = use_eta s /\ fp s' = fp s /\ fn s' = fn s /\ prefactor s' = prefactor s /\ fixed s' = fixed s /\ fp_relative s' = fp_relative s /\
  fn_relative s' = fn_relative s /\ sigma_electron s' = sigma_electron s.
Proof.
  unfold Set_FormFactor_DM. destruct (_ || _)%bool; [|discriminate].
  destruct (_ && _)%bool; intros H; injection H as <-; cbn; tauto.
Qed.

Lemma good_step s o s' : good s -> valid_call o -> pstep s o = Ok s' -> good s'.
Proof.
  intros G V H. destruct o; cbn [pstep valid_call] in *.
  - injection H as <-. pose proof (Set_Mass_frame m s) as F; cbv zeta in F; decompose [and] F.
    destruct V as [r [-> Hr]]. destruct G as [_ G]. split; [eauto|]. congruence.
  - injection H as <-. pose proof (Set_Sigma_Proton_frame x s) as F; cbv zeta in F; decompose [and] F; eapply good_ext; eauto.
  - injection H as <-. pose proof (Set_Sigma_Neutron_frame x s) as F; cbv zeta in F; decompose [and] F; eapply good_ext; eauto.
  - injection H as <-. eapply good_ext; [| |exact G]; reflexivity.
  - apply Set_Interaction_cases in H as [-> | [-> | ->]].
    + pose proof (Set_Sigma_Proton_frame x s) as F; cbv zeta in F; decompose [and] F; eapply good_ext; eauto.
    + pose proof (Set_Sigma_Neutron_frame x s) as F; cbv zeta in F; decompose [and] F; eapply good_ext; eauto.
    + eapply good_ext; [| |exact G]; reflexivity.
  - destruct (Fix_frame s s') as (?&?&?&?&?&?&?); [eauto|]. eapply good_ext; eauto.
  - destruct (Fix_frame s s') as (?&?&?&?&?&?&?); [eauto|]. eapply good_ext; eauto.
  - destruct (Fix_frame s s') as (?&?&?&?&?&?&?); [eauto 6|]. eapply good_ext; eauto.
  - injection H as <-. eapply good_ext; [| |exact G]; reflexivity.
  - injection H as <-. eapply good_ext; [| |exact G]; reflexivity.
  - injection H as <-. eapply good_ext; [| |exact G]; reflexivity.
  - destruct (kind s); [|injection H as <-; auto].
    apply FormFactor_frame in H as (?&?&?&?&?&?&?&?&?). eapply good_ext; eauto.
  - destruct (kind s); injection H as <-; auto. 
Qed.

Lemma share_ext s s' : fp_relative s' = fp_relative s -> fn_relative s' = fn_relative s -> share_ok s -> share_ok s'.
Proof. unfold share_ok; intros -> ->; auto. Qed.

Lemma inf_sign_not_fin x r : inf_sign x <> Fin r.
Proof. unfold inf_sign; destruct (rpos x); [discriminate|destruct (rneg x); discriminate]. Qed.

Lemma xdiv_Fin_inv a b r : xdiv (Fin a) (Fin b) = Fin r -> b <> 0 /\ r = a / b.
Proof.
  simpl. destruct (Req_EM_T b 0); intros H; [exfalso; eapply inf_sign_not_fin; eauto|].
  injection H as <-; auto.
Qed.

Lemma share_step s o s' : share_ok s -> valid_call o -> pstep s o = Ok s' -> share_ok s'.
Proof.
  intros G V H. destruct o; cbn [pstep valid_call] in *.
  - injection H as <-. pose proof (Set_Mass_frame m s) as F; cbv zeta in F; decompose [and] F; eapply share_ext; eauto.
  - injection H as <-. pose proof (Set_Sigma_Proton_frame x s) as F; cbv zeta in F; decompose [and] F; eapply share_ext; eauto.
  - injection H as <-. pose proof (Set_Sigma_Neutron_frame x s) as F; cbv zeta in F; decompose [and] F; eapply share_ext; eauto.
  - injection H as <-. eapply share_ext; [| |exact G]; reflexivity.
  - apply Set_Interaction_cases in H as [-> | [-> | ->]].
    + pose proof (Set_Sigma_Proton_frame x s) as F; cbv zeta in F; decompose [and] F; eapply share_ext; eauto.
    + pose proof (Set_Sigma_Neutron_frame x s) as F; cbv zeta in F; decompose [and] F; eapply share_ext; eauto.
    + eapply share_ext; [| |exact G]; reflexivity.
  - destruct V as [[a ->] [b ->]].
    assert (E : fp_relative s' = xdiv (Fin a) (Fin (a + b)) /\ fn_relative s' = xdiv (Fin b) (Fin (a + b))).
    { unfold_fix H; cbn [fp_relative fn_relative with_fp with_fn with_relation]; auto. }
    destruct E as [E1 E2]. unfold share_ok; rewrite E1, E2. intros E.
    apply xdiv_Fin_inv in E as [Hn E]. rewrite xdiv_fin by auto. f_equal.
    assert (b = 0). { apply Rmult_eq_reg_r with (/ (a + b)); [unfold Rdiv in E; lra|apply Rinv_neq_0_compat; auto]. }
    subst b; field; lra.
  - destruct V as [a ->].
    assert (E : fp_relative s' = xdiv (Fin 1) (Fin (1 + a)) /\ fn_relative s' = xdiv (Fin a) (Fin (1 + a))).
    { unfold_fix H; cbn [fp_relative fn_relative with_fp with_fn with_relation]; auto. }
    destruct E as [E1 E2]. unfold share_ok; rewrite E1, E2. intros E.
    apply xdiv_Fin_inv in E as [Hn E]. rewrite xdiv_fin by auto. f_equal.
    assert (a = 0). { apply Rmult_eq_reg_r with (/ (1 + a)); [unfold Rdiv in E; lra|apply Rinv_neq_0_compat; auto]. }
    subst a; field.
  - assert (E : fn_relative s' = Fin 1) by (unfold_fix H; reflexivity).
    unfold share_ok; rewrite E; intros K; injection K as K; lra.
  - injection H as <-. eapply share_ext; [| |exact G]; reflexivity.
  - injection H as <-. eapply share_ext; [| |exact G]; reflexivity.
  - injection H as <-. eapply share_ext; [| |exact G]; reflexivity.
  - destruct (kind s); [|injection H as <-; auto].
    apply FormFactor_frame in H; decompose [and] H. eapply share_ext; eauto.
  - destruct (kind s); injection H as <-; auto.
Qed.

Lemma good_ctor k m0 x0 : 0 < m0 -> good (Particle_ctor k (Fin m0) (Fin x0)).
Proof.
  intros H. unfold Particle_ctor.
  pose proof (Set_Sigma_Proton_frame (Fin x0) (Standard_ctor k (Fin m0))) as F; cbv zeta in F; decompose [and] F.
  eapply good_ext; eauto. split; [exists m0; auto|]. destruct k; cbn; auto.
Qed.
Lemma share_ctor k m0 x0 : share_ok (Particle_ctor k m0 x0).
Proof.
  unfold Particle_ctor.
  pose proof (Set_Sigma_Proton_frame x0 (Standard_ctor k m0)) as F; cbv zeta in F; decompose [and] F.
  eapply share_ext; eauto. unfold share_ok; cbn; intros E; injection E; lra.
Qed.

Lemma reachable_good s : reachable s -> good s /\ share_ok s.
Proof.
  intros (k & m0 & x0 & ops & Hm & Hx & Hv & H). split.
  - eapply (prun_inv good good_step); eauto. apply good_ctor; auto.
  - eapply (prun_inv share_ok share_step); eauto. apply share_ctor.
Qed.

(** * C07 *)
Lemma round_trip_proton_good s x : good s -> 0 <= x -> (fixed s = true -> fp_relative s <> Fin 0) ->
  Sigma_Proton (Set_Sigma_Proton (Fin x) s) = Fin x.
Proof.
  intros G Hx Hr. destruct (good_pre s G) as (m & pre & Hm & Hm0 & Hp & Hp0).
  rewrite (Set_Sigma_Proton_eq s m pre x) by auto.
  destruct (fixed s) eqn:E.
  - destruct (xeq (fp_relative s) (Fin 0)) eqn:Q.
    + exfalso; apply (Hr eq_refl). destruct (fp_relative s); try discriminate Q. apply xeq_spec in Q; subst; auto.
    + erewrite Sigma_Proton_eq; [|exact Hm|auto|exact Hp|reflexivity]. rewrite sig_cpl; auto.
  - erewrite Sigma_Proton_eq; [|exact Hm|auto|exact Hp|reflexivity]. rewrite sig_cpl; auto.
Qed.
Lemma round_trip_neutron_good s x : good s -> 0 <= x -> (fixed s = true -> fn_relative s <> Fin 0) ->
  Sigma_Neutron (Set_Sigma_Neutron (Fin x) s) = Fin x.
Proof.
  intros G Hx Hr. destruct (good_pre s G) as (m & pre & Hm & Hm0 & Hp & Hp0).
  rewrite (Set_Sigma_Neutron_eq s m pre x) by auto.
  destruct (fixed s) eqn:E.
  - destruct (xeq (fn_relative s) (Fin 0)) eqn:Q.
    + exfalso; apply (Hr eq_refl). destruct (fn_relative s); try discriminate Q. apply xeq_spec in Q; subst; auto.
    + erewrite Sigma_Neutron_eq; [|exact Hm|auto|exact Hp|reflexivity]. rewrite sig_cpl; auto.
  - erewrite Sigma_Neutron_eq; [|exact Hm|auto|exact Hp|reflexivity]. rewrite sig_cpl; auto.
Qed.
Lemma round_trip_proton s x : reachable s -> 0 <= x -> (fixed s = true -> fp_relative s <> Fin 0) ->
  Sigma_Proton (Set_Sigma_Proton (Fin x) s) = Fin x.
Proof. intros R; apply round_trip_proton_good, reachable_good; auto. Qed.
Lemma round_trip_neutron s x : reachable s -> 0 <= x -> (fixed s = true -> fn_relative s <> Fin 0) ->
  Sigma_Neutron (Set_Sigma_Neutron (Fin x) s) = Fin x.
Proof. intros R; apply round_trip_neutron_good, reachable_good; auto. Qed.

Lemma round_trip_interaction s x : reachable s -> 0 <= x ->
  forall t, t = "Nuclei"%string \/ t = "Electrons"%string ->
  exists s', Set_Interaction_Parameter (Fin x) t s = Ok s' /\ Get_Interaction_Parameter t s' = Ok (Fin x).
Proof.
  intros R Hx t [-> | ->]; unfold Set_Interaction_Parameter, Get_Interaction_Parameter; cbn [String.eqb Ascii.eqb Bool.eqb].
  2:{ eexists; split; [reflexivity|]. reflexivity. }
  destruct (reachable_good s R) as [G Sh].
  eexists; split; [reflexivity|]. f_equal.
  destruct (xlt (Fin 0) (fp_relative s)) eqn:E.
  - pose proof (Set_Sigma_Proton_frame (Fin x) s) as F; cbv zeta in F. decompose [and] F.
    match goal with H : fp_relative (Set_Sigma_Proton _ _) = _ |- _ => rewrite H, E end.
    apply round_trip_proton_good; auto. intros _ N. rewrite N in E. apply xlt_spec in E; lra.
  - pose proof (Set_Sigma_Neutron_frame (Fin x) s) as F; cbv zeta in F. decompose [and] F.
    match goal with H : fp_relative (Set_Sigma_Neutron _ _) = _ |- _ => rewrite H, E end.
    apply round_trip_neutron_good; auto. intros _ N. apply Sh in N. rewrite N in E.
    rewrite xlt_true in E; [discriminate|lra].
Qed.

Lemma unknown_target t : t <> "Nuclei"%string -> t <> "Electrons"%string ->
  forall s x, Get_Interaction_Parameter t s = Exit /\ Set_Interaction_Parameter x t s = Exit.
Proof.
  intros H1 H2 s x. unfold Set_Interaction_Parameter, Get_Interaction_Parameter.
  apply String.eqb_neq in H1, H2. rewrite H1, H2; auto.
Qed.

(** * C08 / C09 *)
Definition couplings (s : particle) (p n : R) : Prop := fp s = Fin p /\ fn s = Fin n.

Lemma set_mass_fixed s m' : good s -> fixed s = true -> respects_ratio s -> 0 < m' ->
  exists p n c m, couplings s p n /\ mass s = Fin m /\ 0 < m /\ (c = 1 \/ c = -1) /\
    couplings (Set_Mass (Fin m') s) (c * p * mu m / mu m') (c * n * mu m / mu m').
Proof.
  intros G E Rr Hm'. destruct (Rr E) as (p & n & a & b & Hp & Hn & Ha & Hb & Hab & Hr).
  destruct (good_pre s G) as (m & pre & Hm & Hm0 & Hpre & Hpre0).
  assert (hmu := mu_pos m Hm0). assert (hmu' := mu_pos m' Hm').
  exists p, n.
  assert (Hm1 : mass (with_mass (Fin m') s) = Fin m') by reflexivity.
  assert (Hpre1 : prefactor (with_mass (Fin m') s) = Fin pre) by exact Hpre.
  destruct (Req_dec a 0) as [A0|A0].
  - (* neutron branch *)
    subst a. assert (B0 : b <> 0) by (destruct Hab; lra). assert (P0 : p = 0).
    { apply Rmult_eq_reg_r with b; auto; lra. }
    exists (if Rle_lt_dec 0 n then 1 else -1), m.
    unfold couplings; repeat split; auto; [destruct (Rle_lt_dec 0 n); auto| |];
    (unfold Set_Mass; rewrite E, Ha, xne_false by reflexivity; cbv zeta;
     rewrite (Sigma_Neutron_eq s m pre n) by auto;
     rewrite (Set_Sigma_Neutron_eq (with_mass (Fin m') s) m' pre) by (auto; apply sig_nonneg; auto);
     cbn [fixed with_mass fn_relative fp_relative]; rewrite E, Hb, Ha, xeq_false by auto;
     rewrite cpl_sig, xdiv_fin, xmul_fin by auto; cbn [fp fn with_fp with_fn]; f_equal).
    + subst p; field; lra.
    + destruct (Rle_lt_dec 0 n); [rewrite Rabs_pos_eq by auto|rewrite Rabs_left by auto]; field; lra.
  - exists (if Rle_lt_dec 0 p then 1 else -1), m.
    unfold couplings; repeat split; auto; [destruct (Rle_lt_dec 0 p); auto| |];
    (unfold Set_Mass; rewrite E, Ha, xne_true by auto; cbv zeta;
     rewrite (Sigma_Proton_eq s m pre p) by auto;
     rewrite (Set_Sigma_Proton_eq (with_mass (Fin m') s) m' pre) by (auto; apply sig_nonneg; auto);
     cbn [fixed with_mass fn_relative fp_relative]; rewrite E, Hb, Ha, xeq_false by auto;
     rewrite cpl_sig, xdiv_fin, xmul_fin by auto; cbn [fp fn with_fp with_fn]; f_equal).
    + destruct (Rle_lt_dec 0 p); [rewrite Rabs_pos_eq by auto|rewrite Rabs_left by auto]; field; lra.
    + assert (N : n = b / a * p) by (field_simplify_eq; auto; lra).
      destruct (Rle_lt_dec 0 p); [rewrite Rabs_pos_eq by auto|rewrite Rabs_left by auto]; rewrite N; field; lra.
Qed.

Lemma set_mass_free s m' p n : good s -> fixed s = false -> couplings s p n -> 0 < m' ->
  exists m, mass s = Fin m /\ 0 < m /\
    couplings (Set_Mass (Fin m') s) (Rabs p * mu m / mu m') (Rabs n * mu m / mu m').
Proof.
  intros G E [Hp Hn] Hm'.
  destruct (good_pre s G) as (m & pre & Hm & Hm0 & Hpre & Hpre0).
  exists m. split; [auto|split; [auto|]].
  unfold Set_Mass. rewrite E; cbv zeta.
  rewrite (Sigma_Proton_eq s m pre p), (Sigma_Neutron_eq s m pre n) by auto.
  rewrite (Set_Sigma_Proton_eq (with_mass (Fin m') s) m' pre) by (auto; apply sig_nonneg; auto).
  cbn [fixed with_mass]; rewrite E.
  rewrite (Set_Sigma_Neutron_eq (with_fp _ _) m' pre) by (auto; apply sig_nonneg; auto).
  cbn [fixed with_mass with_fp]; rewrite E. unfold couplings; cbn [fp fn with_fn with_fp with_mass].
  rewrite !cpl_sig by auto; auto.
Qed.

Lemma set_mass_sigmas s m' : good s -> 0 < m' -> respects_ratio s ->
  (fixed s = false -> exists p n, couplings s p n) ->
  let s' := Set_Mass (Fin m') s in
  is_fin (Sigma_Proton s) /\ is_fin (Sigma_Neutron s) /\
  Sigma_Proton s' = Sigma_Proton s /\ Sigma_Neutron s' = Sigma_Neutron s /\ Sigma_Electron s' = Sigma_Electron s.
Proof.
  intros G Hm' Rr Hf s'. destruct (good_pre s G) as (m & pre & Hm & Hm0 & Hpre & Hpre0).
  pose proof (Set_Mass_frame (Fin m') s) as F; cbv zeta in F; fold s' in F; decompose [and] F.
  assert (HP : prefactor s' = Fin pre) by congruence. assert (HM : mass s' = Fin m') by congruence.
  destruct (fixed s) eqn:E.
  - destruct (set_mass_fixed s m' G E Rr Hm') as (p & n & c & m1 & [Hp Hn] & Hm1 & _ & Hc & [Hp' Hn']).
    assert (m1 = m) by congruence; subst m1.
    fold s' in Hp', Hn'. assert (Hcc : c * c = 1) by (destruct Hc; subst; lra).
    rewrite (Sigma_Proton_eq s' m' pre _ HM Hm' HP Hp'), (Sigma_Neutron_eq s' m' pre _ HM Hm' HP Hn').
    rewrite (Sigma_Proton_eq s m pre _ Hm Hm0 Hpre Hp), (Sigma_Neutron_eq s m pre _ Hm Hm0 Hpre Hn).
    rewrite !sig_scale by auto. repeat split; auto.
  - destruct (Hf eq_refl) as (p & n & C).
    destruct (set_mass_free s m' p n G E C Hm') as (m1 & Hm1 & _ & [Hp' Hn']).
    assert (m1 = m) by congruence; subst m1. destruct C as [Hp Hn].
    fold s' in Hp', Hn'.
    rewrite (Sigma_Proton_eq s' m' pre _ HM Hm' HP Hp'), (Sigma_Neutron_eq s' m' pre _ HM Hm' HP Hn').
    rewrite (Sigma_Proton_eq s m pre _ Hm Hm0 Hpre Hp), (Sigma_Neutron_eq s m pre _ Hm Hm0 Hpre Hn).
    assert (A : forall x, exists c, c * c = 1 /\ Rabs x = c * x).
    { intros x. destruct (Rle_lt_dec 0 x); [exists 1; rewrite Rabs_pos_eq; auto; lra|exists (-1); rewrite Rabs_left; auto; lra]. }
    destruct (A p) as [c [Hc ->]], (A n) as [d [Hd ->]]. rewrite !sig_scale by auto. repeat split; auto.
Qed.

(** * Histories that keep a meaningful coupling relation *)

(** A call that asks for a ratio which exists (p + n <> 0) while the particle couples to protons. Asking for a
    vanishing proton or neutron coupling is always allowed. *)
Definition safe_call (s : particle) (o : pop) : Prop :=
  valid_call o /\
  match o with
  | PFix_Ratio p n => (p + n)%xr <> Fin 0 /\ (p <> Fin 0 -> n <> Fin 0 -> Sigma_Proton s <> Fin 0)
  | PFix_fn_over_fp r => r <> Fin (-1) /\ Sigma_Proton s <> Fin 0
  | PFix_fp_over_fn r => r <> Fin 0 -> Sigma_Proton s <> Fin 0
  | _ => True
  end.

Inductive safe_run : particle -> list pop -> particle -> Prop :=
| safe_nil s : safe_run s [] s
| safe_cons s o s1 ops s' : safe_call s o -> pstep s o = Ok s1 -> safe_run s1 ops s' -> safe_run s (o :: ops) s'.

Definition finite_couplings (s : particle) : Prop := exists p n, couplings s p n.
Definition sound (s : particle) : Prop := good s /\ finite_couplings s /\ respects_ratio s.

Lemma sound_ext s s' : mass s' = mass s -> prefactor s' = prefactor s -> fp s' = fp s -> fn s' = fn s ->
  fixed s' = fixed s -> fp_relative s' = fp_relative s -> fn_relative s' = fn_relative s -> sound s -> sound s'.
Proof.
  intros A B C D E F G (H1 & H2 & H3). split; [eapply good_ext; eauto|].
  split; unfold finite_couplings, couplings, respects_ratio in *; rewrite ?C, ?D, ?E, ?F, ?G; auto.
Qed.

Lemma sound_sigma_p s : sound s -> exists p, fp s = Fin p /\ (Sigma_Proton s <> Fin 0 -> p <> 0).
Proof.
  intros (G & (p & n & Hp & Hn) & _). exists p; split; auto. intros H ->. apply H.
  destruct (good_pre s G) as (m & pre & Hm & Hm0 & Hpre & Hpre0).
  rewrite (Sigma_Proton_eq s m pre 0) by auto. f_equal. unfold sig. unfold Rdiv; ring.
Qed.

Lemma sound_set_p s x : sound s -> 0 <= x -> sound (Set_Sigma_Proton (Fin x) s).
Proof.
  intros (G & (p & n & Hp & Hn) & Rr) Hx.
  destruct (good_pre s G) as (m & pre & Hm & Hm0 & Hpre & Hpre0).
  pose proof (Set_Sigma_Proton_frame (Fin x) s) as F; cbv zeta in F; decompose [and] F.
  split; [eapply good_ext; eauto|].
  rewrite (Set_Sigma_Proton_eq s m pre x) by auto.
  destruct (fixed s) eqn:E.
  - destruct (Rr E) as (p' & n' & a & b & Hp' & Hn' & Ha & Hb & Hab & Hr).
    rewrite Ha. destruct (Req_EM_T a 0) as [->|A0].
    + rewrite xeq_true by auto. split; [exists 0, n; split; auto|].
      intros _. exists 0, n, 0, b. repeat split; auto; ring.
    + rewrite xeq_false by auto. rewrite Hb, xdiv_fin, xmul_fin by auto.
      split; [eexists _, _; split; reflexivity|].
      intros _. exists (cpl pre m x), (b / a * cpl pre m x), a, b. repeat split; auto. field; auto.
  - split; [eexists _, _; split; [reflexivity|exact Hn]|]. intros K; cbn [fixed with_fp] in K; congruence.
Qed.
Lemma sound_set_n s x : sound s -> 0 <= x -> sound (Set_Sigma_Neutron (Fin x) s).
Proof.
  intros (G & (p & n & Hp & Hn) & Rr) Hx.
  destruct (good_pre s G) as (m & pre & Hm & Hm0 & Hpre & Hpre0).
  pose proof (Set_Sigma_Neutron_frame (Fin x) s) as F; cbv zeta in F; decompose [and] F.
  split; [eapply good_ext; eauto|].
  rewrite (Set_Sigma_Neutron_eq s m pre x) by auto.
  destruct (fixed s) eqn:E.
  - destruct (Rr E) as (p' & n' & a & b & Hp' & Hn' & Ha & Hb & Hab & Hr).
    rewrite Hb. destruct (Req_EM_T b 0) as [->|B0].
    + rewrite xeq_true by auto. split; [exists p, 0; split; auto|].
      intros _. exists p, 0, a, 0. repeat split; auto; ring.
    + rewrite xeq_false by auto. rewrite Ha, xdiv_fin, xmul_fin by auto.
      split; [eexists _, _; split; reflexivity|].
      intros _. exists (a / b * cpl pre m x), (cpl pre m x), a, b. repeat split; auto. field; auto.
  - split; [eexists _, _; split; [exact Hp|reflexivity]|]. intros K; cbn [fixed with_fn] in K; congruence.
Qed.

Lemma sound_set_mass s m' : sound s -> 0 < m' -> sound (Set_Mass (Fin m') s).
Proof.
  intros (G & (p & n & C) & Rr) Hm'.
  pose proof (Set_Mass_frame (Fin m') s) as F; cbv zeta in F; decompose [and] F.
  split. { destruct G as [_ G]; split; [exists m'; auto|congruence]. }
  destruct (fixed s) eqn:E.
  - destruct (set_mass_fixed s m' G E Rr Hm') as (p1 & n1 & c & m & [Hp1 Hn1] & Hm & Hm0 & Hc & C').
    split; [exists (c * p1 * mu m / mu m'), (c * n1 * mu m / mu m'); exact C'|].
    intros _. destruct (Rr E) as (p2 & n2 & a & b & Hp2 & Hn2 & Ha & Hb & Hab & Hr).
    assert (p2 = p1) by (apply Fin_inj; congruence). assert (n2 = n1) by (apply Fin_inj; congruence). subst p2 n2.
    exists (c * p1 * mu m / mu m'), (c * n1 * mu m / mu m'), a, b. destruct C'.
    repeat split; auto; try congruence.
    transitivity (c * (p1 * b) * mu m / mu m'); [unfold Rdiv; ring|rewrite Hr; unfold Rdiv; ring].
  - destruct (set_mass_free s m' p n G E C Hm') as (m & Hm & Hm0 & C').
    split; [eexists _, _; exact C'|]. intros K; congruence.
Qed.

(** What the three fixing calls do when they are safe. *)
Lemma fix_ratio_eq s p n : sound s -> p + n <> 0 -> (p <> 0 -> n <> 0 -> Sigma_Proton s <> Fin 0) ->
  exists s' x y, Fix_Coupling_Ratio (Fin p) (Fin n) s = Ok s' /\ couplings s' x y /\ x * n = y * p /\
    fixed s' = true /\ fp_relative s' = Fin (p / (p + n)) /\ fn_relative s' = Fin (n / (p + n)).
Proof.
  intros S Ht Hs. destruct (sound_sigma_p s S) as (q & Hq & Hq0). destruct S as (G & (q' & r & Hq' & Hr) & _).
  assert (q' = q) by (apply Fin_inj; congruence); subst q'.
  unfold Fix_Coupling_Ratio. cbv zeta. rewrite xadd_fin, !xdiv_fin by auto.
  cbn [fp fn fp_relative fn_relative with_relation].
  destruct (Req_EM_T p 0) as [->|P0].
  { rewrite xeq_true by auto. eexists _, _, _. split; [reflexivity|]. unfold couplings; cbn [fp fn with_fp with_fn with_relation].
    rewrite Hq. repeat split; try reflexivity; lra. }
  rewrite xeq_false by auto. destruct (Req_EM_T n 0) as [->|N0].
  { rewrite xeq_true by auto. eexists _, _, _. split; [reflexivity|]. unfold couplings; cbn [fp fn with_fp with_fn with_relation].
    rewrite Hr. repeat split; try reflexivity; lra. }
  rewrite xeq_false by auto. rewrite Hq, xne_true by auto. rewrite xdiv_fin, xmul_fin.
  2:{ unfold Rdiv; apply Rmult_integral_contrapositive; split; auto; apply Rinv_neq_0_compat; auto. }
  eexists _, _, _. split; [reflexivity|]. unfold couplings; cbn [fp fn with_fp with_fn with_relation].
  rewrite Hq. repeat split; try reflexivity. field; auto.
Qed.
Lemma fix_fn_eq s r : sound s -> r <> -1 -> Sigma_Proton s <> Fin 0 ->
  exists s' x y, Fix_fn_over_fp (Fin r) s = Ok s' /\ couplings s' x y /\ y = r * x /\ fp s' = fp s /\
    fixed s' = true /\ fp_relative s' = Fin (1 / (1 + r)) /\ fn_relative s' = Fin (r / (1 + r)).
Proof.
  intros S Ht Hs. destruct (sound_sigma_p s S) as (q & Hq & Hq0). destruct S as (G & (q' & z & Hq' & Hz) & _).
  assert (R0 : 1 + r <> 0) by lra.
  unfold Fix_fn_over_fp. cbv zeta. rewrite xadd_fin, !xdiv_fin by auto.
  cbn [fp fn fp_relative fn_relative with_relation].
  rewrite Hq, xne_true by auto. rewrite xdiv_fin, xmul_fin.
  2:{ unfold Rdiv; apply Rmult_integral_contrapositive; split; [lra|]; apply Rinv_neq_0_compat; auto. }
  eexists _, _, _. split; [reflexivity|]. unfold couplings; cbn [fp fn with_fp with_fn with_relation].
  rewrite Hq. repeat split; try reflexivity. field; auto.
Qed.
Lemma fix_fp_eq s r : sound s -> (r <> 0 -> Sigma_Proton s <> Fin 0) ->
  exists s' x y, Fix_fp_over_fn (Fin r) s = Ok s' /\ couplings s' x y /\ x = r * y /\
    fixed s' = true /\ fp_relative s' = Fin r /\ fn_relative s' = Fin 1.
Proof.
  intros S Hs. destruct (sound_sigma_p s S) as (q & Hq & Hq0). destruct S as (G & (q' & z & Hq' & Hz) & _).
  unfold Fix_fp_over_fn. cbv zeta.
  cbn [fp fn fp_relative fn_relative with_relation].
  destruct (Req_EM_T r 0) as [->|R0].
  { rewrite xeq_true by auto. eexists _, _, _. split; [reflexivity|]. unfold couplings; cbn [fp fn with_fp with_fn with_relation].
    rewrite Hz. repeat split; try reflexivity; lra. }
  rewrite xeq_false by auto. rewrite Hq, xne_true by auto. rewrite xdiv_fin, xmul_fin by auto.
  eexists _, _, _. split; [reflexivity|]. unfold couplings; cbn [fp fn with_fp with_fn with_relation].
  rewrite Hq. repeat split; try reflexivity. field; auto.
Qed.

Lemma ratio_share p n x y : p + n <> 0 -> x * n = y * p -> x * (n / (p + n)) = y * (p / (p + n)).
Proof. intros H E. unfold Rdiv. rewrite <- !Rmult_assoc, E; auto. Qed.
Lemma share_ratio p n x y : p + n <> 0 -> x * (n / (p + n)) = y * (p / (p + n)) -> x * n = y * p.
Proof.
  intros H E. apply Rmult_eq_reg_r with (/ (p + n)); [|apply Rinv_neq_0_compat; auto].
  unfold Rdiv in E. lra.
Qed.
Lemma share_nonzero p n : p + n <> 0 -> p / (p + n) <> 0 \/ n / (p + n) <> 0.
Proof.
  intros H. destruct (Req_dec p 0) as [->|P].
  - right. unfold Rdiv; apply Rmult_integral_contrapositive; split; [lra|apply Rinv_neq_0_compat; auto].
  - left. unfold Rdiv; apply Rmult_integral_contrapositive; split; [auto|apply Rinv_neq_0_compat; auto].
Qed.

Lemma sound_step s o s' : sound s -> safe_call s o -> pstep s o = Ok s' -> sound s'.
Proof.
  intros S [V Sf] H. assert (G' : good s') by (eapply good_step; eauto; apply S).
  destruct o; cbn [pstep valid_call] in *.
  - injection H as <-. destruct V as [r [-> Hr]]. apply sound_set_mass; auto.
  - injection H as <-. destruct V as [r [-> Hr]]. apply sound_set_p; auto.
  - injection H as <-. destruct V as [r [-> Hr]]. apply sound_set_n; auto.
  - injection H as <-. eapply sound_ext; [| | | | | | |exact S]; reflexivity.
  - destruct V as [r [-> Hr]]. apply Set_Interaction_cases in H as [-> | [-> | ->]].
    + apply sound_set_p; auto.
    + apply sound_set_n; auto.
    + eapply sound_ext; [| | | | | | |exact S]; reflexivity.
  - destruct V as [[a ->] [b ->]], Sf as [T0 Sf]. rewrite xadd_fin in T0.
    assert (T : a + b <> 0) by (intros K; apply T0; rewrite K; auto).
    destruct (fix_ratio_eq s a b S T) as (s1 & x & y & E & C & Rt & Fx & Ep & En).
    { intros A B; apply Sf; intros K; apply Fin_inj in K; auto. }
    rewrite E in H; injection H as <-. split; [auto|]. split; [exists x, y; auto|].
    intros _. destruct C. exists x, y, (a / (a + b)), (b / (a + b)). repeat split; auto.
    + apply share_nonzero; auto.
    + apply ratio_share; auto.
  - destruct V as [rr ->], Sf as [T0 Sf].
    assert (T : rr <> -1) by (intros K; apply T0; rewrite K; auto).
    destruct (fix_fn_eq s rr S T Sf) as (s1 & x & y & E & C & Rt & _ & Fx & Ep & En).
    rewrite E in H; injection H as <-. split; [auto|]. split; [exists x, y; auto|].
    intros _. destruct C. exists x, y, (1 / (1 + rr)), (rr / (1 + rr)). repeat split; auto.
    + apply share_nonzero; lra.
    + apply ratio_share; [lra|rewrite Rt; ring].
  - destruct V as [rr ->].
    destruct (fix_fp_eq s rr S) as (s1 & x & y & E & C & Rt & Fx & Ep & En).
    { intros A; apply Sf; intros K; apply Fin_inj in K; auto. }
    rewrite E in H; injection H as <-. split; [auto|]. split; [exists x, y; auto|].
    intros _. destruct C. exists x, y, rr, 1. repeat split; auto; rewrite Rt; ring.
  - injection H as <-. split; [auto|]. destruct S as (_ & F & _). split; [exact F|]. intros K; discriminate K.
  - injection H as <-. eapply sound_ext; [| | | | | | |exact S]; reflexivity.
  - injection H as <-. eapply sound_ext; [| | | | | | |exact S]; reflexivity.
  - destruct (kind s); [|injection H as <-; auto].
    apply FormFactor_frame in H; decompose [and] H. eapply sound_ext; eauto.
  - destruct (kind s); injection H as <-; auto.
Qed.

Lemma sound_ctor k m0 x0 : 0 < m0 -> 0 <= x0 -> sound (Particle_ctor k (Fin m0) (Fin x0)).
Proof.
  intros Hm Hx. split; [apply good_ctor; auto|].
  unfold Particle_ctor.
  assert (exists pre, prefactor (Standard_ctor k (Fin m0)) = Fin pre /\ 0 < pre) as (pre & Hpre & Hpre0).
  { destruct k; [exists 1|exists 3]; split; auto; lra. }
  rewrite (Set_Sigma_Proton_eq (Standard_ctor k (Fin m0)) m0 pre x0) by auto.
  cbn [fixed Standard_ctor fp_relative fn_relative]. rewrite xeq_false, xdiv_fin, xmul_fin by lra.
  split; [eexists _, _; split; reflexivity|].
  intros _. exists (cpl pre m0 x0), (0.5 / 0.5 * cpl pre m0 x0), 0.5, 0.5.
  split; [reflexivity|split; [reflexivity|split; [reflexivity|split; [reflexivity|split; [left; lra|field; lra]]]]].
Qed.

Lemma safe_run_sound s ops s' : sound s -> safe_run s ops s' -> sound s'.
Proof. intros S H; induction H; auto. apply IHsafe_run. eapply sound_step; eauto. Qed.

Lemma safe_run_prun s ops s' : safe_run s ops s' -> prun s ops = Ok s' /\ Forall valid_call ops.
Proof.
  intros H; induction H as [|s o s1 ops s' Hc Hs Hr [IH1 IH2]]; [split; auto|].
  rewrite prun_cons, Hs. split; auto. constructor; auto. apply Hc.
Qed.

(** C08 for histories *)
Lemma set_mass_keeps k m0 x0 ops s m' : 0 < m0 -> 0 <= x0 -> safe_run (Particle_ctor k (Fin m0) (Fin x0)) ops s -> 0 < m' ->
  let s' := Set_Mass (Fin m') s in
  mass s' = Fin m' /\ is_fin (Sigma_Proton s) /\ is_fin (Sigma_Neutron s) /\
  Sigma_Proton s' = Sigma_Proton s /\ Sigma_Neutron s' = Sigma_Neutron s /\ Sigma_Electron s' = Sigma_Electron s /\
  low_mass s' = low_mass s /\ fractional_density s' = fractional_density s /\ FF_DM s' = FF_DM s /\
  mMediator s' = mMediator s /\ use_eta s' = use_eta s /\
  fixed s' = fixed s /\ fp_relative s' = fp_relative s /\ fn_relative s' = fn_relative s.
Proof.
  intros Hm Hx Hr Hm' s'. assert (S := safe_run_sound _ _ _ (sound_ctor k m0 x0 Hm Hx) Hr).
  destruct S as (G & F & Rr).
  destruct (set_mass_sigmas s m' G Hm' Rr) as (A & B & C & D & E); [intros _; exact F|].
  fold s' in A, B, C, D, E.
  pose proof (Set_Mass_frame (Fin m') s) as Fr; cbv zeta in Fr; fold s' in Fr. tauto.
Qed.
Lemma set_mass_keeps_reachable s m' : reachable s -> respects_ratio s ->
  (fixed s = false -> is_fin (fp s) /\ is_fin (fn s)) -> 0 < m' ->
  let s' := Set_Mass (Fin m') s in
  Sigma_Proton s' = Sigma_Proton s /\ Sigma_Neutron s' = Sigma_Neutron s /\ Sigma_Electron s' = Sigma_Electron s.
Proof.
  intros Rch Rr F Hm' s'. destruct (reachable_good s Rch) as [G _].
  destruct (set_mass_sigmas s m' G Hm' Rr) as (A & B & C & D & E).
  { intros K. destruct (F K) as [[p P] [n N]]. exists p, n; split; auto. }
  auto.
Qed.

(** C09 *)
Lemma set_mass_pattern_fixed k m0 x0 ops s m' : 0 < m0 -> 0 <= x0 ->
  safe_run (Particle_ctor k (Fin m0) (Fin x0)) ops s -> fixed s = true -> 0 < m' ->
  exists p n c, couplings s p n /\ c <> 0 /\ couplings (Set_Mass (Fin m') s) (c * p) (c * n).
Proof.
  intros Hm Hx Hr Hf Hm'. assert (S := safe_run_sound _ _ _ (sound_ctor k m0 x0 Hm Hx) Hr).
  destruct S as (G & F & Rr).
  destruct (set_mass_fixed s m' G Hf Rr Hm') as (p & n & c & m & C & Hms & Hm1 & Hc & C').
  exists p, n, (c * mu m / mu m'). assert (h := mu_pos m Hm1). assert (h' := mu_pos m' Hm').
  split; [auto|split].
  - unfold Rdiv. apply Rmult_integral_contrapositive; split; [|apply Rinv_neq_0_compat; lra].
    apply Rmult_integral_contrapositive; split; [destruct Hc; subst; lra|lra].
  - replace (c * mu m / mu m' * p) with (c * p * mu m / mu m') by (unfold Rdiv; ring).
    replace (c * mu m / mu m' * n) with (c * n * mu m / mu m') by (unfold Rdiv; ring). exact C'.
Qed.
Lemma set_mass_pattern_free s m' p n : reachable s -> fixed s = false -> couplings s p n -> 0 <= p * n -> 0 < m' ->
  exists c, c <> 0 /\ couplings (Set_Mass (Fin m') s) (c * p) (c * n).
Proof.
  intros Rch Hf C Hpn Hm'. destruct (reachable_good s Rch) as [G _].
  destruct (set_mass_free s m' p n G Hf C Hm') as (m & Hms & Hm1 & C').
  assert (h := mu_pos m Hm1). assert (h' := mu_pos m' Hm').
  assert (K : exists e, (e = 1 \/ e = -1) /\ Rabs p = e * p /\ Rabs n = e * n).
  { destruct (Rle_lt_dec 0 p) as [P|P]; destruct (Rle_lt_dec 0 n) as [N|N].
    - exists 1; rewrite !Rabs_pos_eq; auto; repeat split; auto; lra.
    - exists (-1). rewrite (Rabs_left n) by auto. destruct (Req_dec p 0) as [->|P0]; [rewrite Rabs_R0; repeat split; auto; lra|].
      exfalso. assert (0 < p * - n) by (apply Rmult_lt_0_compat; lra). lra.
    - exists (-1). rewrite (Rabs_left p) by auto. destruct (Req_dec n 0) as [->|N0]; [rewrite Rabs_R0; repeat split; auto; lra|].
      exfalso. assert (0 < - p * n) by (apply Rmult_lt_0_compat; lra). lra.
    - exists (-1); rewrite !Rabs_left; auto; repeat split; auto; lra. }
  destruct K as (e & He & Ep & En). rewrite Ep, En in C'.
  exists (e * mu m / mu m'). split.
  - unfold Rdiv. apply Rmult_integral_contrapositive; split; [|apply Rinv_neq_0_compat; lra].
    apply Rmult_integral_contrapositive; split; [destruct He; subst; lra|lra].
  - replace (e * mu m / mu m' * p) with (e * p * mu m / mu m') by (unfold Rdiv; ring).
    replace (e * mu m / mu m' * n) with (e * n * mu m / mu m') by (unfold Rdiv; ring). exact C'.
Qed.

(** * C10: the ratio is realised and kept *)
Definition keeps_relation (o : pop) : Prop :=
  match o with PFix_Ratio _ _ | PFix_fn_over_fp _ | PFix_fp_over_fn _ | PUnfix => False | _ => True end.

Definition tied (a b : R) (s : particle) : Prop :=
  sound s /\ fixed s = true /\ fp_relative s = Fin a /\ fn_relative s = Fin b.

Lemma tied_step a b s o s' : tied a b s -> valid_call o -> keeps_relation o -> pstep s o = Ok s' -> tied a b s'.
Proof.
  intros (S & F & A & B) V K H.
  assert (S' : sound s').
  { eapply sound_step; eauto. split; auto. destruct o; auto; contradiction. }
  split; [auto|]. destruct o; cbn [pstep valid_call keeps_relation] in *; try contradiction.
  - injection H as <-. pose proof (Set_Mass_frame m s) as Fr; cbv zeta in Fr; decompose [and] Fr. repeat split; congruence.
  - injection H as <-. pose proof (Set_Sigma_Proton_frame x s) as Fr; cbv zeta in Fr; decompose [and] Fr. repeat split; congruence.
  - injection H as <-. pose proof (Set_Sigma_Neutron_frame x s) as Fr; cbv zeta in Fr; decompose [and] Fr. repeat split; congruence.
  - injection H as <-. auto.
  - apply Set_Interaction_cases in H as [-> | [-> | ->]].
    + pose proof (Set_Sigma_Proton_frame x s) as Fr; cbv zeta in Fr; decompose [and] Fr. repeat split; congruence.
    + pose proof (Set_Sigma_Neutron_frame x s) as Fr; cbv zeta in Fr; decompose [and] Fr. repeat split; congruence.
    + auto.
  - injection H as <-. auto.
  - injection H as <-. auto.
  - destruct (kind s); [|injection H as <-; auto].
    apply FormFactor_frame in H; decompose [and] H. repeat split; congruence.
  - destruct (kind s); injection H as <-; auto.
Qed.

Lemma tied_run a b ops : forall s s', tied a b s -> Forall valid_call ops -> Forall keeps_relation ops ->
  prun s ops = Ok s' -> tied a b s'.
Proof.
  induction ops as [|o ops IH]; intros s s' T V K H.
  - injection H as <-; auto.
  - rewrite prun_cons in H. apply bind_ok in H as [x [H1 H2]]. inversion V; inversion K; subst.
    apply (IH x); auto. apply (tied_step a b s o x); auto.
Qed.

Lemma tied_ratio a b s : tied a b s -> exists x y, couplings s x y /\ x * b = y * a.
Proof.
  intros ((_ & _ & Rr) & F & A & B). destruct (Rr F) as (x & y & a' & b' & Hx & Hy & Ha & Hb & _ & E).
  assert (a' = a) by (apply Fin_inj; congruence). assert (b' = b) by (apply Fin_inj; congruence). subst.
  exists x, y; repeat split; auto.
Qed.

Lemma ratio_kept k m0 x0 ops0 s p n : 0 < m0 -> 0 <= x0 -> safe_run (Particle_ctor k (Fin m0) (Fin x0)) ops0 s ->
  p + n <> 0 -> Sigma_Proton s <> Fin 0 ->
  exists s', Fix_Coupling_Ratio (Fin p) (Fin n) s = Ok s' /\
  forall ops s'', Forall valid_call ops -> Forall keeps_relation ops -> prun s' ops = Ok s'' ->
    exists x y, couplings s'' x y /\ x * n = y * p.
Proof.
  intros Hm Hx Hr Ht Hs. assert (S := safe_run_sound _ _ _ (sound_ctor k m0 x0 Hm Hx) Hr).
  destruct (fix_ratio_eq s p n S Ht) as (s1 & x & y & E & C & Rt & Fx & Ep & En); [auto|].
  exists s1; split; auto. intros ops s'' V K H.
  assert (T : tied (p / (p + n)) (n / (p + n)) s1).
  { split; [|auto]. eapply (sound_step s (PFix_Ratio (Fin p) (Fin n))); eauto.
    split; [split; eauto|]. split; auto. rewrite xadd_fin; intros Q; apply Fin_inj in Q; auto. }
  apply (tied_run _ _ ops s1 s'') in T; auto.
  apply tied_ratio in T as (x' & y' & C' & E'). exists x', y'; split; auto. eapply share_ratio; eauto.
Qed.
Lemma ratio_kept_fn k m0 x0 ops0 s r : 0 < m0 -> 0 <= x0 -> safe_run (Particle_ctor k (Fin m0) (Fin x0)) ops0 s ->
  r <> -1 -> Sigma_Proton s <> Fin 0 ->
  exists s', Fix_fn_over_fp (Fin r) s = Ok s' /\ Sigma_Proton s' = Sigma_Proton s /\
  forall ops s'', Forall valid_call ops -> Forall keeps_relation ops -> prun s' ops = Ok s'' ->
    exists x y, couplings s'' x y /\ y = r * x.
Proof.
  intros Hm Hx Hr Ht Hs. assert (S := safe_run_sound _ _ _ (sound_ctor k m0 x0 Hm Hx) Hr).
  destruct (fix_fn_eq s r S Ht Hs) as (s1 & x & y & E & C & Rt & Hfp & Fx & Ep & En).
  assert (T : tied (1 / (1 + r)) (r / (1 + r)) s1).
  { split; [|auto]. eapply (sound_step s (PFix_fn_over_fp (Fin r))); eauto.
    split; [cbn; eauto|]. split; auto. intros Q; apply Fin_inj in Q; auto. }
  exists s1; split; auto. split.
  { destruct (Fix_frame s s1) as (?&?&Ms&?&?&Pr&?); [eauto|]. unfold Sigma_Proton. rewrite Hfp, Ms, Pr; reflexivity. }
  intros ops s'' V K H.
  apply (tied_run _ _ ops s1 s'') in T; auto.
  apply tied_ratio in T as (x' & y' & C' & E'). exists x', y'; split; auto.
  apply share_ratio in E'; lra.
Qed.
Lemma ratio_kept_fp k m0 x0 ops0 s r : 0 < m0 -> 0 <= x0 -> safe_run (Particle_ctor k (Fin m0) (Fin x0)) ops0 s ->
  Sigma_Proton s <> Fin 0 ->
  exists s', Fix_fp_over_fn (Fin r) s = Ok s' /\
  forall ops s'', Forall valid_call ops -> Forall keeps_relation ops -> prun s' ops = Ok s'' ->
    exists x y, couplings s'' x y /\ x = r * y.
Proof.
  intros Hm Hx Hr Hs. assert (S := safe_run_sound _ _ _ (sound_ctor k m0 x0 Hm Hx) Hr).
  destruct (fix_fp_eq s r S) as (s1 & x & y & E & C & Rt & Fx & Ep & En); [auto|].
  assert (T : tied r 1 s1).
  { split; [|auto]. eapply (sound_step s (PFix_fp_over_fn (Fin r))); eauto. split; cbn; eauto. }
  exists s1; split; auto.
  intros ops s'' V K H.
  apply (tied_run _ _ ops s1 s'') in T; auto.
  apply tied_ratio in T as (x' & y' & C' & E'). exists x', y'; split; auto. lra.
Qed.

(** * C11: fixing a realisable ratio keeps the interaction *)
Lemma fix_keeps_interaction k m0 x0 ops0 s : 0 < m0 -> 0 <= x0 -> safe_run (Particle_ctor k (Fin m0) (Fin x0)) ops0 s ->
  Sigma_Proton s <> Fin 0 ->
  (forall p n, p + n <> 0 -> (n = 0 -> Sigma_Neutron s <> Fin 0) ->
     exists s' x y, Fix_Coupling_Ratio (Fin p) (Fin n) s = Ok s' /\ couplings s' x y /\ (x <> 0 \/ y <> 0)) /\
  (forall r, r <> -1 -> exists s' x y, Fix_fn_over_fp (Fin r) s = Ok s' /\ couplings s' x y /\ (x <> 0 \/ y <> 0)) /\
  (forall r, (r = 0 -> Sigma_Neutron s <> Fin 0) ->
     exists s' x y, Fix_fp_over_fn (Fin r) s = Ok s' /\ couplings s' x y /\ (x <> 0 \/ y <> 0)).
Proof.
  intros Hm Hx Hr Hs. assert (S := safe_run_sound _ _ _ (sound_ctor k m0 x0 Hm Hx) Hr).
  destruct (sound_sigma_p s S) as (q & Hq & Hq0). specialize (Hq0 Hs).
  destruct S as (G & (q' & z & Hq' & Hz) & Rr).
  assert (Hz0 : Sigma_Neutron s <> Fin 0 -> z <> 0).
  { intros H ->. apply H. destruct (good_pre s G) as (m & pre & Hm1 & Hm0 & Hpre & Hpre0).
    rewrite (Sigma_Neutron_eq s m pre 0) by auto. f_equal. unfold sig. unfold Rdiv; ring. }
  split; [|split].
  - intros p n Ht Hn. unfold Fix_Coupling_Ratio. cbv zeta. rewrite xadd_fin, !xdiv_fin by auto.
    cbn [fp fn fp_relative fn_relative with_relation].
    destruct (Req_EM_T p 0) as [->|P0].
    { rewrite xeq_true by auto. eexists _, _, _. split; [reflexivity|]. unfold couplings; cbn [fp fn with_fp with_fn with_relation].
      rewrite Hq. repeat split; try reflexivity; auto. }
    rewrite xeq_false by auto. destruct (Req_EM_T n 0) as [->|N0].
    { rewrite xeq_true by auto. eexists _, _, _. split; [reflexivity|]. unfold couplings; cbn [fp fn with_fp with_fn with_relation].
      rewrite Hz. repeat split; try reflexivity; auto. }
    rewrite xeq_false by auto. rewrite Hq, xne_true by auto. rewrite xdiv_fin, xmul_fin.
    2:{ unfold Rdiv; apply Rmult_integral_contrapositive; split; auto; apply Rinv_neq_0_compat; auto. }
    eexists _, _, _. split; [reflexivity|]. unfold couplings; cbn [fp fn with_fp with_fn with_relation].
    rewrite Hq. repeat split; try reflexivity; auto.
  - intros r Hr1. destruct (fix_fn_eq s r) as (s1 & x & y & E & C & Rt & Hfp & _); auto.
    { split; [auto|split; [exists q', z; split; auto|auto]]. }
    exists s1, x, y. repeat split; auto; try apply C. left. destruct C as [C _].
    assert (x = q) by (apply Fin_inj; congruence). congruence.
  - intros r Hr1. unfold Fix_fp_over_fn. cbv zeta. cbn [fp fn fp_relative fn_relative with_relation].
    destruct (Req_EM_T r 0) as [->|R0].
    { rewrite xeq_true by auto. eexists _, _, _. split; [reflexivity|]. unfold couplings; cbn [fp fn with_fp with_fn with_relation].
      rewrite Hz. repeat split; try reflexivity; auto. }
    rewrite xeq_false by auto. rewrite Hq, xne_true by auto. rewrite xdiv_fin, xmul_fin by auto.
    eexists _, _, _. split; [reflexivity|]. unfold couplings; cbn [fp fn with_fp with_fn with_relation].
    rewrite Hq. repeat split; try reflexivity; auto.
Qed.

(** * Witnesses for the refuted parts *)
Lemma cpl_pos pre m x : 0 < pre -> 0 < m -> 0 < x -> 0 < cpl pre m x.
Proof.
  intros. unfold cpl. apply Rdiv_lt_0_compat; [|apply mu_pos; auto]. apply sqrt_lt_R0.
  apply Rdiv_lt_0_compat; auto. apply Rmult_lt_0_compat; auto. apply PI_RGT_0.
Qed.
Lemma cpl_0 pre m : cpl pre m 0 = 0.
Proof. unfold cpl. replace (PI * 0 / pre) with 0 by (unfold Rdiv; ring). rewrite sqrt_0; unfold Rdiv; ring. Qed.

Definition c0 : R := cpl 1 10 1.
Lemma c0_pos : 0 < c0. Proof. apply cpl_pos; lra. Qed.

(** A 10 GeV particle with unit proton cross section and equal couplings. *)
Definition start : particle := Particle_ctor SI (Fin 10) (Fin 1).
Lemma start_eq : start = mkParticle SI false (Fin 10) (Fin 1) true (Fin c0) (Fin c0) (Fin 1) true (Fin 0.5) (Fin 0.5)
                   (Fin (1 / 10 ^ 40 * cm * cm)) "Contact" (Fin 0).
Proof.
  unfold start, Particle_ctor.
  rewrite (Set_Sigma_Proton_eq (Standard_ctor SI (Fin 10)) 10 1 1) by (auto; lra).
  cbn [fixed Standard_ctor fp_relative fn_relative]. rewrite xeq_false, xdiv_fin, xmul_fin by lra.
  unfold with_fn, with_fp; cbn. fold c0. replace (0.5 / 0.5 * c0) with c0 by (field; lra). reflexivity.
Qed.

(** A particle that couples to neutrons only, with free couplings. *)
Definition neutron_only : particle :=
  mkParticle SI false (Fin 10) (Fin 1) true (Fin 0) (Fin c0) (Fin 1) false (Fin 0.5) (Fin 0.5)
                   (Fin (1 / 10 ^ 40 * cm * cm)) "Contact" (Fin 0).
Lemma neutron_only_reachable : reachable neutron_only.
Proof.
  exists SI, 10, 1, [PUnfix; PSet_Sigma_Proton (Fin 0)]. split; [lra|split; [lra|split]].
  - repeat constructor. exists 0; split; auto; lra.
  - change (Particle_ctor SI (Fin 10) (Fin 1)) with start. rewrite prun_cons, start_eq. cbn [pstep bind].
    unfold prun; cbn [fold_left pstep bind]. f_equal.
    match goal with |- Set_Sigma_Proton _ ?s = _ => rewrite (Set_Sigma_Proton_eq s 10 1 0) by (auto; lra) end.
    cbn. rewrite cpl_0. reflexivity.
Qed.
Lemma neutron_only_couples : exists x, Sigma_Neutron neutron_only = Fin x /\ 0 < x.
Proof.
  rewrite (Sigma_Neutron_eq neutron_only 10 1 c0) by (auto; lra). eexists; split; [reflexivity|].
  destruct (sig_nonneg 1 10 c0) as [H|H]; try lra. symmetry in H. apply sig_zero in H; try lra. assert (h := c0_pos); lra.
Qed.

(** In that state every fixing call with a non-degenerate ratio leaves the couplings at (0, c0). *)
Lemma neutron_only_fix_fn r : r <> -1 -> r <> 0 ->
  Fix_fn_over_fp (Fin r) neutron_only =
  Ok (with_relation true (Fin (1 / (1 + r))) (Fin (r / (1 + r))) neutron_only).
Proof.
  intros R1 R0. unfold Fix_fn_over_fp. cbv zeta. rewrite xadd_fin, !xdiv_fin by lra.
  cbn [fp fn fp_relative fn_relative with_relation neutron_only].
  rewrite xne_false by auto. rewrite xne_true by (assert (h := c0_pos); lra).
  rewrite xdiv_fin by (unfold Rdiv; apply Rmult_integral_contrapositive; split; [auto|apply Rinv_neq_0_compat; lra]).
  rewrite xmul_fin. unfold with_fp, with_relation; cbn. repeat f_equal. ring.
Qed.
Lemma neutron_only_fix_fp r : r <> 0 ->
  Fix_fp_over_fn (Fin r) neutron_only = Ok (with_relation true (Fin r) (Fin 1) neutron_only).
Proof.
  intros R0. unfold Fix_fp_over_fn. cbv zeta.
  cbn [fp fn fp_relative fn_relative with_relation neutron_only].
  rewrite xeq_false by auto. rewrite xne_false by auto. rewrite xne_true by (assert (h := c0_pos); lra).
  rewrite xdiv_fin by lra.
  rewrite xmul_fin. unfold with_fp, with_relation; cbn. repeat f_equal. ring.
Qed.
Lemma neutron_only_fix_ratio p n : p <> 0 -> n <> 0 -> p + n <> 0 ->
  Fix_Coupling_Ratio (Fin p) (Fin n) neutron_only =
  Ok (with_relation true (Fin (p / (p + n))) (Fin (n / (p + n))) neutron_only).
Proof.
  intros P0 N0 T. unfold Fix_Coupling_Ratio. cbv zeta. rewrite xadd_fin, !xdiv_fin by auto.
  cbn [fp fn fp_relative fn_relative with_relation neutron_only].
  rewrite !xeq_false by auto. rewrite xne_false by auto. rewrite xne_true by (assert (h := c0_pos); lra).
  rewrite xdiv_fin by (unfold Rdiv; apply Rmult_integral_contrapositive; split; [auto|apply Rinv_neq_0_compat; lra]).
  rewrite xmul_fin. unfold with_fp, with_relation; cbn. repeat f_equal. ring.
Qed.

Lemma ratio_not_realised :
  exists s, reachable s /\ (exists x, Sigma_Neutron s = Fin x /\ 0 < x) /\
  (forall r, r <> -1 -> r <> 0 -> exists s' x y, Fix_fn_over_fp (Fin r) s = Ok s' /\ couplings s' x y /\ y <> r * x) /\
  (forall r, r <> 0 -> exists s' x y, Fix_fp_over_fn (Fin r) s = Ok s' /\ couplings s' x y /\ x <> r * y) /\
  (forall p n, p <> 0 -> n <> 0 -> p + n <> 0 ->
     exists s' x y, Fix_Coupling_Ratio (Fin p) (Fin n) s = Ok s' /\ couplings s' x y /\ x * n <> y * p).
Proof.
  assert (h := c0_pos).
  exists neutron_only. split; [apply neutron_only_reachable|split; [apply neutron_only_couples|split; [|split]]].
  - intros r R1 R0. rewrite neutron_only_fix_fn by auto. exists (with_relation true (Fin (1 / (1 + r))) (Fin (r / (1 + r))) neutron_only), 0, c0.
    split; [reflexivity|split; [split; reflexivity|lra]].
  - intros r R0. rewrite neutron_only_fix_fp by auto. eexists _, 0, c0.
    split; [reflexivity|split; [split; reflexivity|]]. intros K. symmetry in K; apply Rmult_integral in K as [K|K]; lra.
  - intros p n P0 N0 T. rewrite neutron_only_fix_ratio by auto. eexists _, 0, c0.
    split; [reflexivity|split; [split; reflexivity|]]. rewrite Rmult_0_l. intros K. symmetry in K; apply Rmult_integral in K as [K|K]; lra.
Qed.

Lemma reachable_step s o s' : reachable s -> valid_call o -> pstep s o = Ok s' -> reachable s'.
Proof.
  intros (k & m0 & x0 & ops & A & B & C & D) V H. exists k, m0, x0, (ops ++ [o]). repeat split; auto.
  - apply Forall_app; split; auto.
  - rewrite prun_snoc, D; auto.
Qed.

(** After such a call, changing the mass switches the neutron interaction off. *)
Lemma set_mass_switches_off :
  exists s x m', reachable s /\ 0 < m' /\ Sigma_Neutron s = Fin x /\ 0 < x /\
    Sigma_Neutron (Set_Mass (Fin m') s) = Fin 0 /\ Sigma_Proton (Set_Mass (Fin m') s) = Fin 0.
Proof.
  destruct neutron_only_couples as (x & Hx & Hx0).
  set (s := with_relation true (Fin (1 / (1 + 1))) (Fin (1 / (1 + 1))) neutron_only).
  exists s, x, 10. split.
  { apply (reachable_step neutron_only (PFix_fn_over_fp (Fin 1))).
    - apply neutron_only_reachable.
    - cbn; auto.
    - cbn [pstep]. rewrite neutron_only_fix_fn by lra. reflexivity. }
  split; [lra|]. split; [exact Hx|]. split; [exact Hx0|].
  assert (E : fp (Set_Mass (Fin 10) s) = Fin 0 /\ fn (Set_Mass (Fin 10) s) = Fin 0).
  { unfold Set_Mass. cbn [fixed s with_relation fp_relative]. rewrite xne_true by lra. cbv zeta.
    rewrite (Sigma_Proton_eq s 10 1 0) by (auto; lra).
    replace (sig 1 10 0) with 0 by (unfold sig, Rdiv; ring).
    match goal with |- context [Set_Sigma_Proton _ ?t] => rewrite (Set_Sigma_Proton_eq t 10 1 0) by (auto; lra) end.
    cbn [fixed s with_relation with_mass fp_relative fn_relative]. rewrite xeq_false, xdiv_fin, xmul_fin, cpl_0 by lra.
    cbn [fp fn with_fn with_fp]. split; auto. f_equal; ring. }
  destruct E as [E1 E2].
  pose proof (Set_Mass_frame (Fin 10) s) as F; cbv zeta in F; decompose [and] F.
  rewrite (Sigma_Neutron_eq (Set_Mass (Fin 10) s) 10 1 0), (Sigma_Proton_eq (Set_Mass (Fin 10) s) 10 1 0) by (auto; lra).
  replace (sig 1 10 0) with 0 by (unfold sig, Rdiv; ring). auto.
Qed.

(** Free couplings lose their relative sign, even when the mass is set to its present value. *)
Definition opposite_signs : particle :=
  mkParticle SI false (Fin 10) (Fin 1) true (Fin c0) (Fin (- c0 / 2)) (Fin 1) false (Fin 2) (Fin (-1))
                   (Fin (1 / 10 ^ 40 * cm * cm)) "Contact" (Fin 0).
Lemma opposite_signs_reachable : reachable opposite_signs.
Proof.
  exists SI, 10, 1, [PFix_fn_over_fp (Fin (-1 / 2)); PUnfix]. split; [lra|split; [lra|split]].
  - repeat constructor. exists (-1 / 2); auto.
  - change (Particle_ctor SI (Fin 10) (Fin 1)) with start. rewrite prun_cons, start_eq. cbn [pstep].
    unfold Fix_fn_over_fp. cbv zeta. rewrite xadd_fin, !xdiv_fin by lra.
    cbn [fp fn fp_relative fn_relative with_relation]. rewrite xne_true by (assert (h := c0_pos); lra).
    rewrite xdiv_fin, xmul_fin by lra. cbn [bind]. unfold prun; cbn [fold_left pstep bind].
    unfold Unfix_Coupling_Ratios, with_fn, with_relation, opposite_signs.
    cbn [kind low_mass mass fractional_density use_eta fp fn prefactor fixed fp_relative fn_relative sigma_electron FF_DM mMediator].
    replace (-1 / 2 / (1 + -1 / 2) / (1 / (1 + -1 / 2)) * c0) with (- c0 / 2) by field.
    replace (-1 / 2 / (1 + -1 / 2)) with (-1) by field. replace (1 / (1 + -1 / 2)) with 2 by field. reflexivity.
Qed.
Lemma sign_lost :
  exists s p n, reachable s /\ couplings s p n /\ p * 1 + n * 2 = 0 /\
    exists p' n', couplings (Set_Mass (mass s) s) p' n' /\ p' * 1 + n' * 2 <> 0 /\
    ~ exists c, p' = c * p /\ n' = c * n.
Proof.
  assert (h := c0_pos).
  exists opposite_signs, c0, (- c0 / 2). split; [apply opposite_signs_reachable|]. split; [split; reflexivity|]. split; [field|].
  destruct (set_mass_free opposite_signs 10 c0 (- c0 / 2)) as (m & Hm & Hm0 & C).
  - apply reachable_good, opposite_signs_reachable.
  - reflexivity.
  - split; reflexivity.
  - lra.
  - change (mass opposite_signs) with (Fin 10). assert (m = 10) by (symmetry; apply Fin_inj; exact Hm). subst m.
    assert (hm := mu_pos 10 ltac:(lra)).
    rewrite Rabs_pos_eq in C by lra. rewrite Rabs_left in C by lra.
    replace (c0 * mu 10 / mu 10) with c0 in C by (field; lra).
    replace (- (- c0 / 2) * mu 10 / mu 10) with (c0 / 2) in C by (field; lra).
    exists c0, (c0 / 2). split; [exact C|]. split; [lra|]. intros (c & K1 & K2).
    assert (c = 1) by (apply Rmult_eq_reg_r with c0; lra). subst c; lra.
Qed.

(** Asking twice for a pure neutron coupling removes every coupling. *)
Lemma double_fix_kills :
  exists s s' x, reachable s /\ Sigma_Neutron s = Fin x /\ 0 < x /\
    Fix_Coupling_Ratio (Fin 0) (Fin 1) s = Ok s' /\ couplings s' 0 0.
Proof.
  assert (h := c0_pos).
  set (s := mkParticle SI false (Fin 10) (Fin 1) true (Fin 0) (Fin c0) (Fin 1) true (Fin 0) (Fin 1)
                   (Fin (1 / 10 ^ 40 * cm * cm)) "Contact" (Fin 0)).
  assert (R : reachable s).
  { exists SI, 10, 1, [PFix_Ratio (Fin 0) (Fin 1)]. split; [lra|split; [lra|split]].
    - repeat constructor; eexists; reflexivity.
    - change (Particle_ctor SI (Fin 10) (Fin 1)) with start. rewrite prun_cons, start_eq. cbn [pstep].
      unfold Fix_Coupling_Ratio. cbv zeta. rewrite xadd_fin, !xdiv_fin by lra. rewrite xeq_true by auto.
      replace (0 / (0 + 1)) with 0 by field. replace (1 / (0 + 1)) with 1 by field. reflexivity. }
  exists s. eexists. exists (sig 1 10 c0). split; [auto|]. split; [apply Sigma_Neutron_eq; auto; lra|].
  split. { destruct (sig_nonneg 1 10 c0) as [H|H]; try lra. symmetry in H. apply sig_zero in H; lra. }
  unfold Fix_Coupling_Ratio. cbv zeta. rewrite xeq_true by auto. split; [reflexivity|]. split; reflexivity.
Qed.

(** The ratio fn/fp = -1 turns the neutron coupling into NaN. *)
Lemma ratio_minus_one_nan :
  exists s s' x, reachable s /\ Sigma_Proton s = Fin x /\ 0 < x /\ Fix_fn_over_fp (Fin (-1)) s = Ok s' /\ fn s' = NaN.
Proof.
  assert (h := c0_pos).
  exists start. eexists. exists (sig 1 10 c0). split.
  { exists SI, 10, 1, []. repeat split; auto; lra. }
  rewrite start_eq. split; [apply Sigma_Proton_eq; auto; lra|].
  split. { destruct (sig_nonneg 1 10 c0) as [H|H]; try lra. symmetry in H. apply sig_zero in H; lra. }
  unfold Fix_fn_over_fp. cbv zeta. rewrite xadd_fin. replace (1 + -1) with 0 by ring. rewrite !xdiv_zero.
  unfold inf_sign. rewrite (rpos_true 1), (rpos_false (-1)), (rneg_true (-1)) by lra.
  cbn [fp fn fp_relative fn_relative with_relation]. rewrite xne_true by lra. split; [reflexivity|].
  reflexivity.
Qed.
