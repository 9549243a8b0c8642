(** How the interaction parameter of a particle moves its couplings, and what stays the same. *)
From Coq Require Import Reals ZArith String Lia Lra Bool.
From Coquelicot Require Import Coquelicot.
From Coq Require Import List.
From Verif Require Import Base XrFacts Quadrature Nucleus_Model Particle_Model CrossSection_Model Distribution_Model Atom_Model
  Crystal_Model Rates_Model Detector_Model DetectorTypes_Model Particle_Proofs Scaling_Proofs.
Import ListNotations.
Local Open Scope R_scope.

(** * Multiplying by a number that is not zero *)
Lemma crush_k k (r : R) : k <> 0 -> (0 < k * r <-> (0 < k /\ 0 < r) \/ (k < 0 /\ r < 0)).
Proof. intros K. split; [intros H; destruct (Rlt_dec 0 k); [left|right]; split; nra|intros [[? ?]|[? ?]]; nra]. Qed.
Ltac crush_k K :=
  unfold xmul, xadd, inf_sign, rpos, rneg;
  repeat match goal with |- context [Rlt_dec ?a ?b] => destruct (Rlt_dec a b) end;
  try reflexivity; try (exfalso; nra); try (f_equal; ring).
Lemma assoc_k k a y : k <> 0 -> xmul (Fin (k * a)) y = xmul (Fin k) (xmul (Fin a) y).
Proof.
  intros K. destruct y as [y| | |]; try reflexivity; [crush_k K| |].
  - destruct (Rtotal_order a 0) as [A|[A|A]]; [| |]; destruct (Rlt_dec 0 k); crush_k K.
  - destruct (Rtotal_order a 0) as [A|[A|A]]; [| |]; destruct (Rlt_dec 0 k); crush_k K.
Qed.
Lemma add_k k a b : k <> 0 -> xadd (xmul (Fin k) a) (xmul (Fin k) b) = xmul (Fin k) (xadd a b).
Proof. intros K. destruct a, b; try reflexivity; crush_k K. Qed.
Lemma square_k k a : k <> 0 -> xpow (xmul (Fin k) a) 2 = xmul (Fin (k * k)) (xpow a 2).
Proof.
  intros K. assert (0 < k * k) by (destruct (Rlt_dec 0 k); nra). cbn [xpow]. destruct a; try reflexivity.
  - cbn. f_equal. ring.
  - cbn. unfold inf_sign, rpos, rneg. repeat match goal with |- context [Rlt_dec ?a ?b] => destruct (Rlt_dec a b); try (exfalso; nra) end; cbn;
      unfold inf_sign, rpos, rneg; repeat match goal with |- context [Rlt_dec ?a ?b] => destruct (Rlt_dec a b); try (exfalso; nra) end; auto.
  - cbn. unfold inf_sign, rpos, rneg. repeat match goal with |- context [Rlt_dec ?a ?b] => destruct (Rlt_dec a b); try (exfalso; nra) end; cbn;
      unfold inf_sign, rpos, rneg; repeat match goal with |- context [Rlt_dec ?a ?b] => destruct (Rlt_dec a b); try (exfalso; nra) end; auto.
Qed.

(** * Particles that differ in their couplings only *)

(** Everything but mass and couplings agrees. *)
Definition like (p q : particle) : Prop :=
  kind q = kind p /\ low_mass q = low_mass p /\ fractional_density q = fractional_density p /\ use_eta q = use_eta p /\
  prefactor q = prefactor p /\ fixed q = fixed p /\ fp_relative q = fp_relative p /\ fn_relative q = fn_relative p /\
  FF_DM q = FF_DM p /\ mMediator q = mMediator p.
(** The second particle has k times the nucleon couplings of the first. *)
Definition coupled (k : R) (p q : particle) : Prop :=
  like p q /\ mass q = mass p /\ sigma_electron q = sigma_electron p /\
  exists a b, couplings p a b /\ couplings q (k * a) (k * b).

Lemma FF_like p q x : like p q -> FormFactor2_DM q x = FormFactor2_DM p x.
Proof. intros L. unfold like in L. decompose [and] L. unfold FormFactor2_DM. repeat match goal with H : _ q = _ p |- _ => rewrite !H; clear H end. reflexivity. Qed.

Lemma nuclear_coupled I2 k p q : k <> 0 -> coupled k p q -> nuclear_scaled (k * k) (interface_of I2 p) (interface_of I2 q).
Proof.
  intros K (L & M & E & a & b & [Ha Hb] & [Ha' Hb']). pose proof L as (L1 & L2 & L3 & L4 & L5 & L6 & L7 & L8 & L9 & L10).
  assert (C : 0 < k * k) by (destruct (Rlt_dec 0 k); nra).
  split; [auto|]. split; [auto|]. split; [auto|]. intros x t v. cbn [dm_dSigma_dq2_Nucleus interface_of].
  unfold dSigma_dq2_Nucleus. rewrite L1, L2. destruct (kind p).
  - rewrite (FF_like p q) by auto. cbv zeta. apply times_keep. intros F2.
    assert (S : SI_coupling q t = xmul (Fin k) (SI_coupling p t)).
    { unfold SI_coupling. rewrite Ha, Hb, Ha', Hb'. rewrite !assoc_k, add_k by auto. auto. }
    rewrite S, square_k by auto. leaf C.
  - destruct (xeq (ispin t) (Fin 0)); [apply times_zero|].
    assert (S : SD_coupling q t = xmul (Fin k) (SD_coupling p t)).
    { unfold SD_coupling. rewrite Ha, Hb, Ha', Hb'. rewrite !assoc_k, add_k by auto. auto. }
    rewrite S, square_k by auto. leaf C.
Qed.

Lemma electron_coupled k p q : coupled k p q ->
  (forall x v, dSigma_dq2_Electron q x v = dSigma_dq2_Electron p x v) /\
  (forall x Ee v f, d2Sigma_dq2_dEe_Ionization q x Ee v f = d2Sigma_dq2_dEe_Ionization p x Ee v f) /\
  (forall x Ee v f, d2Sigma_dq2_dEe_Crystal q x Ee v f = d2Sigma_dq2_dEe_Crystal p x Ee v f).
Proof.
  intros (L & M & E & _). assert (A : forall x v, dSigma_dq2_Electron q x v = dSigma_dq2_Electron p x v).
  { intros x v. unfold dSigma_dq2_Electron. rewrite E, M. rewrite (FF_like p q) by auto. destruct L as (-> & _). auto. }
  split; auto. destruct L as (L & _).
  split; intros; [unfold d2Sigma_dq2_dEe_Ionization|unfold d2Sigma_dq2_dEe_Crystal]; rewrite L, A; auto.
Qed.

Lemma sigma_coupled k p q : good p -> coupled k p q -> k * k = 1 -> Sigma_Proton q = Sigma_Proton p /\ Sigma_Neutron q = Sigma_Neutron p.
Proof.
  intros G (L & M & E & a & b & [Ha Hb] & [Ha' Hb']) K. destruct (good_pre p G) as (m & pre & Hm & Hm0 & Hp & Hp0).
  destruct L as (_ & _ & _ & _ & L & _).
  rewrite (Sigma_Proton_eq q m pre (k * a)), (Sigma_Proton_eq p m pre a), (Sigma_Neutron_eq q m pre (k * b)), (Sigma_Neutron_eq p m pre b) by congruence.
  unfold sig. assert (hp := PI_RGT_0). split; f_equal.
  - replace (pre * (k * a) * (k * a)) with (pre * (k * k) * a * a) by ring. rewrite K. field. lra.
  - replace (pre * (k * b) * (k * b)) with (pre * (k * k) * b * b) by ring. rewrite K. field. lra.
Qed.

(** What a user can measure of a particle: mass, reported cross sections, differential cross sections. *)
Definition same_physics (p q : particle) : Prop :=
  mass q = mass p /\ fractional_density q = fractional_density p /\
  Sigma_Proton q = Sigma_Proton p /\ Sigma_Neutron q = Sigma_Neutron p /\ Sigma_Electron q = Sigma_Electron p /\
  (forall t, Get_Interaction_Parameter t q = Get_Interaction_Parameter t p) /\
  (forall x t v, dSigma_dq2_Nucleus q x t v = dSigma_dq2_Nucleus p x t v) /\
  (forall x v, dSigma_dq2_Electron q x v = dSigma_dq2_Electron p x v) /\
  (forall x Ee v f, d2Sigma_dq2_dEe_Ionization q x Ee v f = d2Sigma_dq2_dEe_Ionization p x Ee v f) /\
  (forall x Ee v f, d2Sigma_dq2_dEe_Crystal q x Ee v f = d2Sigma_dq2_dEe_Crystal p x Ee v f) /\
  (forall x t v, dSigma_dER_Nucleus q x t v = dSigma_dER_Nucleus p x t v).

Lemma coupled_physics k p q : good p -> k = 1 \/ k = -1 -> coupled k p q -> same_physics p q.
Proof.
  intros G K C. assert (K1 : k * k = 1) by (destruct K; subst; lra). assert (K0 : k <> 0) by (destruct K; subst; lra).
  destruct (sigma_coupled k p q G C K1) as [SP SN]. destruct (electron_coupled k p q C) as (E1 & E2 & E3).
  assert (N : forall x t v, dSigma_dq2_Nucleus q x t v = dSigma_dq2_Nucleus p x t v).
  { intros. destruct (nuclear_coupled (fun _ _ _ => Exit) k p q K0 C) as (_ & _ & _ & H). specialize (H x t v).
    cbn [dm_dSigma_dq2_Nucleus interface_of] in H. rewrite H, K1. apply times_one. }
  pose proof C as (L & M & E & _). destruct L as (_ & _ & L3 & _ & _ & _ & L7 & _).
  split; auto. split; auto. split; auto. split; auto. split; auto. split.
  { intros t. unfold Get_Interaction_Parameter. rewrite L7, SP, SN. unfold Sigma_Electron. rewrite E. auto. }
  split; auto. split; auto. split; auto. split; auto.
  intros. unfold dSigma_dER_Nucleus. cbv zeta. rewrite N. auto.
Qed.

(** * Setting the interaction parameter *)

(** Only the last value counts. *)
Lemma set_proton_twice x y s : Set_Sigma_Proton x (Set_Sigma_Proton y s) = Set_Sigma_Proton x s.
Proof.
  destruct s as [k0 lm m fd ue p n pre fx pr nr se ff med]. unfold Set_Sigma_Proton, coupling_of_sigma. cbn. destruct fx; [|reflexivity].
  cbn. destruct (xeq pr (Fin 0)) eqn:E; cbn; rewrite ?E; reflexivity.
Qed.
Lemma set_neutron_twice x y s : Set_Sigma_Neutron x (Set_Sigma_Neutron y s) = Set_Sigma_Neutron x s.
Proof.
  destruct s as [k0 lm m fd ue p n pre fx pr nr se ff med]. unfold Set_Sigma_Neutron, coupling_of_sigma. cbn. destruct fx; [|reflexivity].
  cbn. destruct (xeq nr (Fin 0)) eqn:E; cbn; rewrite ?E; reflexivity.
Qed.
Lemma set_twice x y t s s1 : Set_Interaction_Parameter y t s = Ok s1 -> Set_Interaction_Parameter x t s1 = Set_Interaction_Parameter x t s.
Proof.
  unfold Set_Interaction_Parameter. destruct (_ =? _)%string.
  - intros H. apply Ok_inj in H. subst s1. destruct (xlt (Fin 0) (fp_relative s)) eqn:E.
    + pose proof (Set_Sigma_Proton_frame y s) as F. cbv zeta in F. decompose [and] F.
      match goal with H : fp_relative _ = _ |- _ => rewrite H end. rewrite E, set_proton_twice. auto.
    + pose proof (Set_Sigma_Neutron_frame y s) as F. cbv zeta in F. decompose [and] F.
      match goal with H : fp_relative _ = _ |- _ => rewrite H end. rewrite E, set_neutron_twice. auto.
  - destruct (_ =? _)%string; [|discriminate]. intros H. apply Ok_inj in H. subst s1. reflexivity.
Qed.

Lemma set_proton_like x s : like s (Set_Sigma_Proton x s) /\ mass (Set_Sigma_Proton x s) = mass s /\ sigma_electron (Set_Sigma_Proton x s) = sigma_electron s.
Proof. pose proof (Set_Sigma_Proton_frame x s) as F. cbv zeta in F. unfold like. tauto. Qed.
Lemma set_neutron_like x s : like s (Set_Sigma_Neutron x s) /\ mass (Set_Sigma_Neutron x s) = mass s /\ sigma_electron (Set_Sigma_Neutron x s) = sigma_electron s.
Proof. pose proof (Set_Sigma_Neutron_frame x s) as F. cbv zeta in F. unfold like. tauto. Qed.

(** The nuclear interaction parameter, its square root taken: couplings after setting it, for a fixed ratio. *)
Lemma cpl_scaled pre m f x : 0 < pre -> 0 < m -> f <> 0 -> 0 < x ->
  exists k, k <> 0 /\ k * k = x / sig pre m f /\ cpl pre m x = k * f.
Proof.
  intros Hp Hm Hf Hx. assert (h := mu_pos m Hm). assert (hp := PI_RGT_0).
  exists (cpl pre m x / f).
  assert (S : cpl pre m x * cpl pre m x = PI * x / pre / (mu m * mu m)).
  { unfold cpl. assert (sqrt (PI * x / pre) * sqrt (PI * x / pre) = PI * x / pre).
    { apply sqrt_sqrt. left. apply Rdiv_lt_0_compat; auto. apply Rmult_lt_0_compat; auto. }
    transitivity (sqrt (PI * x / pre) * sqrt (PI * x / pre) / (mu m * mu m)); [field; lra|]. rewrite H. auto. }
  assert (C : cpl pre m x <> 0).
  { intros Z. rewrite Z in S. assert (0 < PI * x / pre / (mu m * mu m)); [|lra].
    apply Rdiv_lt_0_compat; [apply Rdiv_lt_0_compat; auto; apply Rmult_lt_0_compat; auto|apply Rmult_lt_0_compat; auto]. }
  split; [|split].
  - apply Rmult_integral_contrapositive_currified; auto. apply Rinv_neq_0_compat; auto.
  - transitivity (cpl pre m x * cpl pre m x / (f * f)); [field; auto|]. rewrite S. unfold sig. field. repeat split; try lra; auto.
  - field; auto.
Qed.

Lemma set_nuclei_scaled s x0 x s' : good s -> share_ok s -> fixed s = true -> respects_ratio s ->
  Get_Interaction_Parameter "Nuclei" s = Ok (Fin x0) -> 0 < x0 -> 0 < x ->
  Set_Interaction_Parameter (Fin x) "Nuclei" s = Ok s' ->
  exists k, k <> 0 /\ k * k = x / x0 /\ coupled k s s'.
Proof.
  intros G Sh F Rr Gt X0 X St. destruct (Rr F) as (p & n & a & b & Hp & Hn & Ha & Hb & Hab & Hr).
  destruct (good_pre s G) as (m & pre & Hm & Hm0 & Hpre & Hpre0).
  unfold Get_Interaction_Parameter in Gt. unfold Set_Interaction_Parameter in St. cbn [String.eqb Ascii.eqb Bool.eqb] in Gt, St.
  rewrite Ha in Gt, St. destruct (Rlt_dec 0 a) as [A|A].
  - rewrite xlt_true in Gt, St by auto. apply Ok_inj in Gt, St.
    rewrite (Sigma_Proton_eq s m pre p) in Gt by auto. apply Fin_inj in Gt.
    assert (P0 : p <> 0). { intros ->. unfold sig in Gt. assert (x0 = 0) by (rewrite <- Gt; unfold Rdiv; ring). lra. }
    destruct (cpl_scaled pre m p x) as (k & K & K2 & E); auto. exists k. split; auto. split; [congruence|].
    destruct (set_proton_like (Fin x) s) as (L & M & Se). rewrite St in L, M, Se.
    split; auto. split; auto. split; auto. exists p, n. split; [split; auto|].
    rewrite (Set_Sigma_Proton_eq s m pre x) in St by (auto; lra). rewrite F, Ha, Hb, xeq_false in St by lra.
    rewrite xdiv_fin, xmul_fin in St by lra. subst s'. split; cbn [fp fn with_fp with_fn]; f_equal; auto.
    rewrite E. assert (n = b / a * p) by (field_simplify_eq; lra). subst n. field. lra.
  - rewrite xlt_false in Gt, St by lra. apply Ok_inj in Gt, St.
    assert (B0 : b <> 0). { intros ->. specialize (Sh Hb). rewrite Ha in Sh. apply Fin_inj in Sh. lra. }
    rewrite (Sigma_Neutron_eq s m pre n) in Gt by auto. apply Fin_inj in Gt.
    assert (P0 : n <> 0). { intros ->. unfold sig in Gt. assert (x0 = 0) by (rewrite <- Gt; unfold Rdiv; ring). lra. }
    destruct (cpl_scaled pre m n x) as (k & K & K2 & E); auto. exists k. split; auto. split; [congruence|].
    destruct (set_neutron_like (Fin x) s) as (L & M & Se). rewrite St in L, M, Se.
    split; auto. split; auto. split; auto. exists p, n. split; [split; auto|].
    rewrite (Set_Sigma_Neutron_eq s m pre x) in St by (auto; lra). rewrite F, Ha, Hb, xeq_false in St by lra.
    rewrite xdiv_fin, xmul_fin in St by lra. subst s'. split; cbn [fp fn with_fp with_fn]; f_equal; auto.
    rewrite E. assert (p = a / b * n) by (field_simplify_eq; lra). subst p. field. lra.
Qed.

Lemma set_electrons_scaled I2 s x0 x s' : Get_Interaction_Parameter "Electrons" s = Ok (Fin x0) -> 0 < x0 -> 0 < x ->
  Set_Interaction_Parameter (Fin x) "Electrons" s = Ok s' -> electron_scaled (x / x0) (interface_of I2 s) (interface_of I2 s').
Proof.
  intros Gt X0 X St. unfold Get_Interaction_Parameter in Gt. unfold Set_Interaction_Parameter in St. cbn [String.eqb Ascii.eqb Bool.eqb] in Gt, St.
  apply Ok_inj in Gt, St. subst s'. unfold Sigma_Electron in Gt.
  assert (C : 0 < x / x0) by (apply Rdiv_lt_0_compat; auto).
  assert (E : Fin x = xmul (Fin (x / x0)) (sigma_electron s)) by (rewrite Gt, xmul_fin; f_equal; field; lra).
  assert (A : forall q v, dSigma_dq2_Electron (Set_Sigma_Electron (Fin x) s) q v = times (x / x0) (dSigma_dq2_Electron s q v)).
  { intros q v. unfold dSigma_dq2_Electron, Set_Sigma_Electron. cbn [kind sigma_electron with_sigma_electron mass]. rewrite E. cbv zeta.
    destruct (kind s).
    - change (FormFactor2_DM (with_sigma_electron (xmul (Fin (x / x0)) (sigma_electron s)) s) q) with (FormFactor2_DM s q).
      apply times_keep. intros F2. leaf C.
    - leaf C. }
  split; [reflexivity|]. split; [reflexivity|]. split; [reflexivity|].
  split; intros; cbn [dm_d2Sigma_Ionization dm_d2Sigma_Crystal interface_of]; apply times_keep; intros f.
  - unfold d2Sigma_dq2_dEe_Ionization. cbn [kind Set_Sigma_Electron with_sigma_electron]. destruct (kind s); [|apply times_zero].
    apply times_scaled; [apply A|]. intros; leaf C.
  - unfold d2Sigma_dq2_dEe_Crystal. cbn [kind Set_Sigma_Electron with_sigma_electron]. destruct (kind s); [|apply times_zero].
    apply times_scaled; [apply A|]. intros; leaf C.
Qed.

(** * Setting the parameter to its present value *)

(** Free couplings must not be negative; fixed ones must obey their ratio. *)
Definition settled (s : particle) : Prop :=
  good s /\ share_ok s /\ respects_ratio s /\ (fixed s = false -> exists a b, couplings s a b /\ 0 <= a /\ 0 <= b).

Lemma settled_couplings s : settled s -> exists a b, couplings s a b.
Proof.
  intros (_ & _ & R & Fr). destruct (fixed s) eqn:E.
  - destruct (R E) as (p & n & _ & _ & Hp & Hn & _). exists p, n. split; auto.
  - destruct Fr as (a & b & C & _); auto. eauto.
Qed.

Lemma settled_parameter s : settled s -> exists x, 0 <= x /\ Get_Interaction_Parameter "Nuclei" s = Ok (Fin x).
Proof.
  intros S. destruct (settled_couplings s S) as (a & b & Ha & Hb). destruct S as (G & _). destruct (good_pre s G) as (m & pre & Hm & Hm0 & Hpre & Hpre0).
  unfold Get_Interaction_Parameter. cbn [String.eqb Ascii.eqb Bool.eqb]. destruct (xlt _ _).
  - rewrite (Sigma_Proton_eq s m pre a) by auto. eexists; split; [|reflexivity]. apply sig_nonneg; auto.
  - rewrite (Sigma_Neutron_eq s m pre b) by auto. eexists; split; [|reflexivity]. apply sig_nonneg; auto.
Qed.

Lemma cpl_sig_same pre m f : 0 < pre -> 0 < m -> cpl pre m (sig pre m f) = Rabs f.
Proof. intros Hp Hm. rewrite cpl_sig by auto. field. apply Rgt_not_eq, mu_pos; auto. Qed.

Lemma coupled_free s s' a b : like s s' -> mass s' = mass s -> sigma_electron s' = sigma_electron s -> couplings s a b -> couplings s' a b ->
  exists k, (k = 1 \/ k = -1) /\ (fixed s = false -> k = 1) /\ coupled k s s'.
Proof.
  intros L M E C C'. exists 1. split; auto. split; auto. split; auto. split; auto. split; auto. exists a, b. split; auto.
  replace (1 * a) with a by ring. replace (1 * b) with b by ring. auto.
Qed.

Lemma restore s t x s' : settled s -> Get_Interaction_Parameter t s = Ok x -> Set_Interaction_Parameter x t s = Ok s' ->
  exists k, (k = 1 \/ k = -1) /\ (fixed s = false -> k = 1) /\ coupled k s s'.
Proof.
  intros S Gt St. pose proof S as (G & Sh & Rr & Fr). destruct (settled_couplings s S) as (p & n & Cs).
  destruct (good_pre s G) as (m & pre & Hm & Hm0 & Hpre & Hpre0).
  unfold Get_Interaction_Parameter in Gt. unfold Set_Interaction_Parameter in St. destruct (_ =? _)%string.
  2:{ destruct (_ =? _)%string; [|discriminate]. apply Ok_inj in Gt, St. subst x s'.
      apply (coupled_free s _ p n); auto; unfold like; tauto. }
  apply Ok_inj in Gt, St. subst x. destruct Cs as [Hp Hn]. destruct (xlt (Fin 0) (fp_relative s)) eqn:X.
  - destruct (set_proton_like (Sigma_Proton s) s) as (L & M & Se). rewrite St in L, M, Se.
    rewrite (Sigma_Proton_eq s m pre p) in St by auto. rewrite (Set_Sigma_Proton_eq s m pre) in St by (auto; apply sig_nonneg; auto).
    rewrite cpl_sig_same in St by auto. destruct (fixed s) eqn:F.
    + destruct (Rr F) as (p' & n' & a & b & Hp' & Hn' & Ha & Hb & Hab & Hr). rewrite Hp in Hp'. rewrite Hn in Hn'. apply Fin_inj in Hp', Hn'. subst p' n'.
      rewrite Ha in X, St. apply xlt_spec in X. rewrite Hb, xeq_false, xdiv_fin, xmul_fin in St by lra. subst s'.
      exists (if Rle_lt_dec 0 p then 1 else -1). split; [destruct (Rle_lt_dec 0 p); auto|]. split; [intros; congruence|]. split; auto. split; auto. split; auto.
      exists p, n. split; [split; auto|]. assert (n = b / a * p) by (field_simplify_eq; lra). subst n.
      split; cbn [fp fn with_fp with_fn]; f_equal; destruct (Rle_lt_dec 0 p); rewrite ?Rabs_pos_eq, ?Rabs_left by auto; ring.
    + destruct (Fr eq_refl) as (a & b & [Ha Hb] & A & B). rewrite Hp in Ha. rewrite Hn in Hb. apply Fin_inj in Ha, Hb. subst a b.
      rewrite Rabs_pos_eq in St by auto. subst s'. match goal with |- exists k, _ /\ _ /\ coupled k s ?q => destruct (coupled_free s q p n) as (k & K1 & K2 & K3) end; auto; [split; auto|split; auto|]. exists k. auto.
  - destruct (set_neutron_like (Sigma_Neutron s) s) as (L & M & Se). rewrite St in L, M, Se.
    rewrite (Sigma_Neutron_eq s m pre n) in St by auto. rewrite (Set_Sigma_Neutron_eq s m pre) in St by (auto; apply sig_nonneg; auto).
    rewrite cpl_sig_same in St by auto. destruct (fixed s) eqn:F.
    + destruct (Rr F) as (p' & n' & a & b & Hp' & Hn' & Ha & Hb & Hab & Hr). rewrite Hp in Hp'. rewrite Hn in Hn'. apply Fin_inj in Hp', Hn'. subst p' n'.
      assert (B0 : b <> 0). { intros ->. specialize (Sh Hb). rewrite Sh in X. rewrite xlt_true in X by lra. discriminate. }
      rewrite Ha, Hb, xeq_false, xdiv_fin, xmul_fin in St by auto. subst s'.
      exists (if Rle_lt_dec 0 n then 1 else -1). split; [destruct (Rle_lt_dec 0 n); auto|]. split; [intros; congruence|]. split; auto. split; auto. split; auto.
      exists p, n. split; [split; auto|]. assert (p = a / b * n) by (field_simplify_eq; lra). subst p.
      split; cbn [fp fn with_fp with_fn]; f_equal; destruct (Rle_lt_dec 0 n); rewrite ?Rabs_pos_eq, ?Rabs_left by auto; ring.
    + destruct (Fr eq_refl) as (a & b & [Ha Hb] & A & B). rewrite Hp in Ha. rewrite Hn in Hb. apply Fin_inj in Ha, Hb. subst a b.
      rewrite Rabs_pos_eq in St by auto. subst s'. match goal with |- exists k, _ /\ _ /\ coupled k s ?q => destruct (coupled_free s q p n) as (k & K1 & K2 & K3) end; auto; [split; auto|split; auto|]. exists k. auto.
Qed.

(** * Particles on the way of a scan *)

(** The second particle has another mass, and couplings that keep the cross sections. *)
Definition drift (p q : particle) : Prop :=
  like p q /\ sigma_electron q = sigma_electron p /\
  exists m m' a b k, mass p = Fin m /\ 0 < m /\ mass q = Fin m' /\ 0 < m' /\ couplings p a b /\ couplings q (k * a) (k * b) /\
    Rabs k = mu m / mu m' /\ (fixed p = false -> 0 < k).

Lemma like_trans p q r : like p q -> like q r -> like p r.
Proof. unfold like. intros A B. decompose [and] A. decompose [and] B. repeat split; congruence. Qed.

Lemma drift_trans p q r : drift p q -> drift q r -> drift p r.
Proof.
  intros (L & E & m & m1 & a & b & k & Hm & M0 & Hm1 & M1 & [Ca Cb] & [Ca' Cb'] & K & F) (L' & E' & m1' & m2 & a' & b' & k' & Hm1' & _ & Hm2 & M2 & [Da Db] & [Da' Db'] & K' & F').
  rewrite Hm1 in Hm1'. apply Fin_inj in Hm1'. subst m1'. rewrite Ca' in Da. rewrite Cb' in Db. apply Fin_inj in Da, Db. subst a' b'.
  split; [eapply like_trans; eauto|]. split; [congruence|]. exists m, m2, a, b, (k' * k).
  assert (h := mu_pos m M0). assert (h1 := mu_pos m1 M1). assert (h2 := mu_pos m2 M2).
  do 4 (split; auto). split; [split; auto|]. split; [split; [rewrite Da'|rewrite Db']; f_equal; ring|]. split.
  - rewrite Rabs_mult, K, K'. field. lra.
  - intros U. apply Rmult_lt_0_compat; auto. apply F'. destruct L as (_ & _ & _ & _ & _ & -> & _). auto.
Qed.

Lemma drift_coupled k p q : good p -> k = 1 \/ k = -1 -> (fixed p = false -> k = 1) -> coupled k p q -> drift p q.
Proof.
  intros G K F (L & M & E & a & b & C & C'). destruct (good_pre p G) as (m & pre & Hm & Hm0 & _). assert (h := mu_pos m Hm0).
  split; auto. split; auto. exists m, m, a, b, k. do 2 (split; auto). split; [congruence|]. split; auto. split; auto. split; auto. split.
  - unfold Rdiv. rewrite Rinv_r by lra. destruct K; subst k; [rewrite Rabs_R1|rewrite Rabs_left by lra]; lra.
  - intros U. rewrite F by auto. lra.
Qed.

Lemma set_mass_like m p : like p (Set_Mass m p) /\ sigma_electron (Set_Mass m p) = sigma_electron p /\ mass (Set_Mass m p) = m.
Proof. pose proof (Set_Mass_frame m p) as F. cbv zeta in F. unfold like. tauto. Qed.

Lemma drift_mass p m : settled p -> 0 < m -> drift p (Set_Mass (Fin m) p).
Proof.
  intros (G & Sh & Rr & Fr) M. destruct (set_mass_like (Fin m) p) as (L & E & Hm). split; auto. split; auto.
  assert (h := mu_pos m M). destruct (fixed p) eqn:F.
  - destruct (set_mass_fixed p m G F Rr M) as (a & b & c & m0 & C & Hm0 & M0 & Hc & [Ca Cb]). assert (h0 := mu_pos m0 M0).
    exists m0, m, a, b, (c * mu m0 / mu m). do 5 (split; auto). split; [split; [rewrite Ca|rewrite Cb]; f_equal; field; lra|]. split; [|intros; congruence].
    rewrite Rabs_div by lra. rewrite Rabs_mult, (Rabs_pos_eq (mu m0)), (Rabs_pos_eq (mu m)) by lra.
    destruct Hc; subst c; [rewrite Rabs_R1|rewrite Rabs_left by lra]; field; lra.
  - destruct (Fr eq_refl) as (a & b & C & A & B). destruct (set_mass_free p m a b G F C M) as (m0 & Hm0 & M0 & Ca & Cb). assert (h0 := mu_pos m0 M0).
    rewrite Rabs_pos_eq in Ca, Cb by auto.
    exists m0, m, a, b, (mu m0 / mu m). do 5 (split; auto). split; [split; [rewrite Ca|rewrite Cb]; f_equal; field; lra|].
    assert (0 < mu m0 / mu m) by (apply Rdiv_lt_0_compat; auto). split; auto. apply Rabs_pos_eq. lra.
Qed.

Lemma settled_drift p q : settled p -> drift p q -> settled q.
Proof.
  intros (G & Sh & Rr & Fr) (L & E & m & m' & a & b & k & Hm & M0 & Hm1 & M1 & [Ca Cb] & [Ca' Cb'] & K & F).
  pose proof L as (L1 & L2 & L3 & L4 & L5 & L6 & L7 & L8 & L9 & L10). destruct G as [_ G]. split; [split; [eauto|congruence]|]. split; [intros X; rewrite L8 in X; rewrite L7; auto|]. split.
  - intros X. rewrite L6 in X. destruct (Rr X) as (p0 & n0 & ra & rb & Hp & Hn & Ha & Hb & Hab & Hr).
    rewrite Ca in Hp. rewrite Cb in Hn. apply Fin_inj in Hp, Hn. subst p0 n0.
    exists (k * a), (k * b), ra, rb. rewrite L7, L8. do 5 (split; auto). rewrite !Rmult_assoc, Hr. auto.
  - intros X. rewrite L6 in X. destruct (Fr X) as (p0 & n0 & [Hp Hn] & Hab). rewrite Ca in Hp. rewrite Cb in Hn. apply Fin_inj in Hp, Hn. subst p0 n0.
    specialize (F X). exists (k * a), (k * b). split; [split; auto|]. nra.
Qed.

Lemma record_eq p q m x y : like p q -> sigma_electron q = sigma_electron p ->
  with_fn y (with_fp x (with_mass m q)) = with_fn y (with_fp x (with_mass m p)).
Proof.
  intros (L1 & L2 & L3 & L4 & L5 & L6 & L7 & L8 & L9 & L10) E. destruct p, q. cbn in *. subst. reflexivity.
Qed.
Lemma fp_fn_swap x y p : with_fp x (with_fn y p) = with_fn y (with_fp x p). Proof. reflexivity. Qed.

(** The couplings after [Set_Mass], for a particle with finite couplings obeying a fixed ratio. *)
Lemma set_mass_eq p m m0 a b : good p -> share_ok p -> respects_ratio p -> 0 < m -> mass p = Fin m0 -> couplings p a b ->
  exists x y, Set_Mass (Fin m) p = with_fn (Fin y) (with_fp (Fin x) (with_mass (Fin m) p)) /\
    (if fixed p then
       if xne (fp_relative p) (Fin 0) then x = Rabs a * mu m0 / mu m /\ Fin y = xmul (xdiv (fn_relative p) (fp_relative p)) (Fin x)
       else y = Rabs b * mu m0 / mu m /\ Fin x = xmul (xdiv (fp_relative p) (fn_relative p)) (Fin y)
     else x = Rabs a * mu m0 / mu m /\ y = Rabs b * mu m0 / mu m).
Proof.
  intros G Sh Rr M Hm [Ca Cb]. destruct (good_pre p G) as (m1 & pre & Hm1 & M1 & Hpre & Hpre0). rewrite Hm in Hm1. apply Fin_inj in Hm1. subst m1.
  unfold Set_Mass. destruct (fixed p) eqn:F.
  - destruct (Rr F) as (p0 & n0 & ra & rb & Hp & Hn & Ha & Hb & Hab & Hr). rewrite Ha, Hb. destruct (Req_EM_T ra 0) as [Z|Z].
    + assert (rb <> 0) by tauto. rewrite xne_false by auto. cbv zeta. rewrite (Sigma_Neutron_eq p m0 pre b) by auto.
      rewrite (Set_Sigma_Neutron_eq _ m pre) by (auto; apply sig_nonneg; auto). cbn [fixed with_mass fn_relative fp_relative]. rewrite F, Ha, Hb, xeq_false, cpl_sig by auto.
      rewrite xdiv_fin, xmul_fin by auto. rewrite fp_fn_swap. do 2 eexists. split; [reflexivity|]. auto.
    + rewrite xne_true by auto. cbv zeta. rewrite (Sigma_Proton_eq p m0 pre a) by auto.
      rewrite (Set_Sigma_Proton_eq _ m pre) by (auto; apply sig_nonneg; auto). cbn [fixed with_mass fn_relative fp_relative]. rewrite F, Ha, Hb, xeq_false, cpl_sig by auto.
      rewrite xdiv_fin, xmul_fin by auto. do 2 eexists. split; [reflexivity|]. auto.
  - cbv zeta. rewrite (Sigma_Proton_eq p m0 pre a), (Sigma_Neutron_eq p m0 pre b) by auto.
    rewrite (Set_Sigma_Proton_eq _ m pre) by (auto; apply sig_nonneg; auto). cbn [fixed with_mass]. rewrite F.
    rewrite (Set_Sigma_Neutron_eq _ m pre) by (auto; apply sig_nonneg; auto). cbn [fixed with_mass with_fp]. rewrite F, !cpl_sig by auto.
    do 2 eexists. split; [reflexivity|]. auto.
Qed.

(** The mass set last decides; how it was reached is forgotten. *)
Lemma set_mass_drift p q m : settled p -> drift p q -> 0 < m -> Set_Mass (Fin m) q = Set_Mass (Fin m) p.
Proof.
  intros S D M. pose proof (settled_drift p q S D) as S'.
  destruct D as (L & E & m0 & m1 & a & b & k & Hm & M0 & Hm1 & M1 & Cp & Cq & K & F).
  destruct S as (G & Sh & Rr & Fr). destruct S' as (G' & Sh' & Rr' & Fr').
  destruct (set_mass_eq p m m0 a b) as (x & y & Ep & Xp); auto. destruct (set_mass_eq q m m1 (k * a) (k * b)) as (x' & y' & Eq & Xq); auto.
  pose proof L as (L1 & L2 & L3 & L4 & L5 & L6 & L7 & L8 & L9 & L10). rewrite L6, L7, L8 in Xq.
  assert (h := mu_pos m M). assert (h0 := mu_pos m0 M0). assert (h1 := mu_pos m1 M1).
  assert (R : forall c, Rabs (k * c) * mu m1 / mu m = Rabs c * mu m0 / mu m) by (intros; rewrite Rabs_mult, K; field; lra).
  rewrite Ep, Eq, (record_eq p q) by auto. rewrite !R in Xq.
  destruct (fixed p); [destruct (xne _ _)|]; destruct Xp as [X1 X2], Xq as [Y1 Y2]; subst; auto.
  - rewrite X2, Y2. auto.
  - rewrite X2, Y2. auto.
Qed.
Lemma set_mass_twice p m m' : settled p -> 0 < m -> 0 < m' -> Set_Mass (Fin m') (Set_Mass (Fin m) p) = Set_Mass (Fin m') p.
Proof. intros. apply set_mass_drift; auto. apply drift_mass; auto. Qed.

(** With a fixed ratio, setting the parameter overwrites both couplings. *)
Lemma share_not_zero p : share_ok p -> xlt (Fin 0) (fp_relative p) = false -> xeq (fn_relative p) (Fin 0) = false.
Proof.
  intros Sh X. destruct (xeq (fn_relative p) (Fin 0)) eqn:E; auto. destruct (fn_relative p) as [r| | |] eqn:N; try discriminate.
  unfold xeq in E. destruct (Req_EM_T r 0); [|discriminate]. subst r. rewrite (Sh N) in X. rewrite xlt_true in X by lra. discriminate.
Qed.
Lemma set_fixed_like x t p q : t = "Nuclei"%string -> fixed p = true -> share_ok p -> like p q -> mass q = mass p -> sigma_electron q = sigma_electron p ->
  Set_Interaction_Parameter x t q = Set_Interaction_Parameter x t p.
Proof.
  intros -> F Sh L M E. pose proof L as (L1 & L2 & L3 & L4 & L5 & L6 & L7 & L8 & L9 & L10).
  unfold Set_Interaction_Parameter. cbn [String.eqb Ascii.eqb Bool.eqb]. f_equal. rewrite L7.
  assert (R : forall x y, with_fn y (with_fp x q) = with_fn y (with_fp x p)).
  { intros. destruct p, q. cbn in *. subst. reflexivity. }
  destruct (xlt (Fin 0) (fp_relative p)) eqn:X.
  - unfold Set_Sigma_Proton, coupling_of_sigma. cbn [fixed with_fp fp_relative fn_relative fp]. rewrite L6, F, L5, L7, L8, M.
    replace (xeq (fp_relative p) (Fin 0)) with false; [apply R|]. destruct (fp_relative p) as [r| | |]; try discriminate; auto.
    apply xlt_spec in X. rewrite xeq_false by lra. auto.
  - unfold Set_Sigma_Neutron, coupling_of_sigma. cbn [fixed with_fn fp_relative fn_relative fn]. rewrite L6, F, L5, L7, L8, M.
    rewrite share_not_zero by auto. rewrite !fp_fn_swap. apply R.
Qed.

Lemma set_interaction_like x t p q : Set_Interaction_Parameter x t p = Ok q ->
  like p q /\ mass q = mass p /\ (t = "Nuclei"%string -> sigma_electron q = sigma_electron p).
Proof.
  unfold Set_Interaction_Parameter. destruct (t =? "Nuclei")%string eqn:T.
  - intros H. apply Ok_inj in H. destruct (xlt _ _); subst q; [pose proof (set_proton_like x p)|pose proof (set_neutron_like x p)]; tauto.
  - destruct (t =? "Electrons")%string eqn:T2; [|discriminate]. intros H. apply Ok_inj in H. subst q. split; [unfold like; tauto|]. split; auto.
    intros ->. discriminate.
Qed.

(** A parameter set before the mass is forgotten once it is set again. *)
(** Free couplings: what the setters do to the members. *)
Definition coupling_value (pre m x : xr) : xr := (xsqrt (Fin PI * x / pre) / Reduced_Mass m (Fin mProton))%xr.
Definition sigma_value (pre f m : xr) : xr := (pre * f * f * Reduced_Mass m (Fin mProton) * Reduced_Mass m (Fin mProton) / Fin PI)%xr.
Lemma free_proton_rec x k lm m fd ue p n pre pr nr se ff med : Set_Sigma_Proton x (mkParticle k lm m fd ue p n pre false pr nr se ff med) = mkParticle k lm m fd ue (coupling_value pre m x) n pre false pr nr se ff med.
Proof. reflexivity. Qed.
Lemma free_neutron_rec x k lm m fd ue p n pre pr nr se ff med : Set_Sigma_Neutron x (mkParticle k lm m fd ue p n pre false pr nr se ff med) = mkParticle k lm m fd ue p (coupling_value pre m x) pre false pr nr se ff med.
Proof. reflexivity. Qed.
Lemma free_mass_rec x k lm m fd ue p n pre pr nr se ff med : Set_Mass x (mkParticle k lm m fd ue p n pre false pr nr se ff med) =
  mkParticle k lm x fd ue (coupling_value pre x (sigma_value pre p m)) (coupling_value pre x (sigma_value pre n m)) pre false pr nr se ff med.
Proof. reflexivity. Qed.
Lemma set_mass_set x y t m p p1 : share_ok p -> Set_Interaction_Parameter y t p = Ok p1 ->
  Set_Interaction_Parameter x t (Set_Mass m p1) = Set_Interaction_Parameter x t (Set_Mass m p).
Proof.
  intros Sh H. destruct (set_interaction_like y t p p1 H) as (L & M & E).
  destruct (set_mass_like m p) as (L1 & E1 & M1). destruct (set_mass_like m p1) as (L2 & E2 & M2).
  assert (T : t = "Nuclei"%string \/ t = "Electrons"%string /\ p1 = Set_Sigma_Electron y p).
  { unfold Set_Interaction_Parameter in H. destruct (t =? "Nuclei")%string eqn:T; [left; apply String.eqb_eq; auto|].
    destruct (t =? "Electrons")%string eqn:T2; [|discriminate]. right. split; [apply String.eqb_eq; auto|]. apply Ok_inj in H. auto. }
  destruct T as [T|[T T']].
  2:{ subst t p1. unfold Set_Interaction_Parameter. cbn [String.eqb Ascii.eqb Bool.eqb]. f_equal. destruct p as [k0 lm m0 fd ue p n pre fx pr nr se ff med].
      unfold Set_Mass, Set_Sigma_Electron. cbn [with_sigma_electron fixed fp_relative]. destruct fx; [destruct (xne pr _)|];
      unfold Set_Sigma_Proton, Set_Sigma_Neutron; cbn [with_sigma_electron with_fp with_fn with_mass fixed fp_relative fn_relative fp fn];
      try destruct (xeq _ _); reflexivity. }
  specialize (E T). destruct (fixed p) eqn:F.
  - pose proof L1 as (_ & _ & _ & _ & _ & A6 & A7 & A8 & _). apply set_fixed_like; auto; try congruence.
    + intros X. rewrite A8 in X. rewrite A7. auto.
    + assert (like p (Set_Mass m p1)) by (apply (like_trans p p1); auto). clear - H0 L1.
      unfold like in *. decompose [and] H0. decompose [and] L1. repeat split; congruence.
  - clear - F H T. subst t. unfold Set_Interaction_Parameter in *. cbn [String.eqb Ascii.eqb Bool.eqb] in *. apply Ok_inj in H. f_equal. subst p1.
    destruct p as [k0 lm m0 fd ue p n pre fx pr nr se ff med]. cbn in F. subst fx. cbn [fp_relative].
    destruct (xlt (Fin 0) pr) eqn:X; rewrite ?free_proton_rec, ?free_neutron_rec, !free_mass_rec, ?free_proton_rec, ?free_neutron_rec; cbn [fp_relative]; rewrite X; reflexivity.
Qed.

(** The same without conditions on the signs of free couplings: [Set_Mass] yields a settled particle, and only the last mass counts. *)
Lemma set_mass_settled p m : sound p -> share_ok p -> 0 < m -> settled (Set_Mass (Fin m) p).
Proof.
  intros S Sh M. pose proof S as (G & (a & b & C) & R). destruct (good_pre p G) as (m0 & pre & Hm & M0 & _).
  destruct (sound_set_mass p m S M) as (G' & _ & R'). destruct (set_mass_like (Fin m) p) as (L & _). pose proof L as (_ & _ & _ & _ & _ & L6 & L7 & L8 & _).
  split; auto. split; [intros X; rewrite L8 in X; rewrite L7; auto|]. split; auto. intros F. rewrite L6 in F.
  destruct (set_mass_eq p m m0 a b G Sh R M Hm C) as (x & y & E & XY). rewrite F in XY. destruct XY as [-> ->]. rewrite E.
  assert (h := mu_pos m M). assert (h0 := mu_pos m0 M0). do 2 eexists. split; [split; reflexivity|].
  split; (apply Rmult_le_pos; [apply Rmult_le_pos; [apply Rabs_pos|lra]|left; apply Rinv_0_lt_compat; auto]).
Qed.
Lemma set_mass_last p m m' : sound p -> share_ok p -> 0 < m -> 0 < m' -> Set_Mass (Fin m') (Set_Mass (Fin m) p) = Set_Mass (Fin m') p.
Proof.
  intros S Sh M M'. pose proof S as (G & (a & b & C) & R). destruct (good_pre p G) as (m0 & pre & Hm & M0 & _).
  pose proof (set_mass_settled p m S Sh M) as (G1 & Sh1 & R1 & _). destruct (set_mass_like (Fin m) p) as (L & E & Hm1). pose proof L as (_ & _ & _ & _ & _ & L6 & L7 & L8 & _).
  destruct (set_mass_eq p m m0 a b G Sh R M Hm C) as (x & y & E1 & XY).
  destruct (set_mass_eq p m' m0 a b G Sh R M' Hm C) as (x' & y' & E2 & XY').
  assert (C1 : couplings (Set_Mass (Fin m) p) x y) by (rewrite E1; split; reflexivity).
  destruct (set_mass_eq _ m' m x y G1 Sh1 R1 M' Hm1 C1) as (x2 & y2 & E3 & XY2). rewrite L6, L7, L8 in XY2.
  rewrite E3, E2, (record_eq p (Set_Mass (Fin m) p)) by auto.
  assert (h := mu_pos m M). assert (h0 := mu_pos m0 M0). assert (h' := mu_pos m' M').
  assert (K : forall c, Rabs (Rabs c * mu m0 / mu m) * mu m / mu m' = Rabs c * mu m0 / mu m').
  { intros c. rewrite (Rabs_pos_eq (Rabs c * mu m0 / mu m)); [field; lra|].
    apply Rmult_le_pos; [apply Rmult_le_pos; [apply Rabs_pos|lra]|left; apply Rinv_0_lt_compat; auto]. }
  destruct (fixed p); [destruct (xne _ _)|]; destruct XY as [X1 X2], XY' as [X3 X4], XY2 as [X5 X6].
  - subst x. rewrite K in X5. subst x2 x'. rewrite X4, X6. auto.
  - subst y. rewrite K in X5. subst y2 y'. rewrite X4, X6. auto.
  - subst x y. rewrite K in X5, X6. subst. auto.
Qed.
