(** Lemmas about infrared divergent interactions and the effect of the setters of a particle. *)
From Coq Require Import Reals ZArith String Lra Lia Bool Psatz.
From Coquelicot Require Import Coquelicot.
From Coq Require Import List.
From Verif Require Import Base XrFacts Analysis Quadrature Nucleus_Model Particle_Model Particle_Proofs CrossSection_Model CrossSection_Proofs Normalisation_Proofs.
Import ListNotations.
Local Open Scope R_scope.

(** * C84: infrared divergent interactions *)
Definition divergent_interaction (s : particle) : Prop :=
  kind s = SI /\ (FF_DM s = "Long-Range"%string \/ FF_DM s = "Electric-Dipole"%string).

Lemma divergent_flag s : divergent_interaction s -> kind s = SI /\ IR_divergent s = true.
Proof. intros [Hk [H|H]]; split; auto; unfold IR_divergent; rewrite H; reflexivity. Qed.

Lemma divergent_refused s : divergent_interaction s -> forall Integrate Find_Root t v c xi,
  Sigma_Total_Nucleus Integrate s t v = Exit /\ Sigma_Total_Electron s v = Exit /\
  PDF_Scattering_Angle_Nucleus Integrate s c t v = Exit /\ PDF_Scattering_Angle_Electron s c v = Exit /\
  CDF_Scattering_Angle_Nucleus Integrate s c t v = Exit /\ CDF_Scattering_Angle_Electron s c v = Exit /\
  Sample_Scattering_Angle_Nucleus Integrate Find_Root s xi t v = Exit /\ Sample_Scattering_Angle_Electron s xi v = Exit.
Proof.
  intros H. apply divergent_flag in H as [Hk Hd]. intros.
  unfold Sigma_Total_Nucleus, Sigma_Total_Electron, PDF_Scattering_Angle_Nucleus, PDF_Scattering_Angle_Electron,
    CDF_Scattering_Angle_Nucleus, CDF_Scattering_Angle_Electron, Sample_Scattering_Angle_Nucleus, Sample_Scattering_Angle_Electron.
  rewrite Hk, Hd. repeat split; reflexivity.
Qed.

(** The form factor as a function of the squared momentum transfer. *)
Definition FFd (s : particle) (x : R) : R := if (FF_DM s =? "Long-Range")%string then qr ^ 4 / x ^ 2 else qr ^ 2 / x.
Lemma FFd_eq s x : divergent_interaction s -> 0 < x -> FormFactor2_DM s (xsqrt (Fin x)) = Ok (Fin (FFd s x)).
Proof.
  intros [_ H] Hx. rewrite xsqrt_fin by lra. assert (Hs := sqrt_lt_R0 x Hx).
  assert (E : sqrt x ^ 2 = x) by (rewrite <- Rsqr_pow2; apply Rsqr_sqrt; lra).
  unfold FFd. destruct H as [H|H].
  - rewrite (FF_long_range s (sqrt x) H Hs), H. rewrite String.eqb_refl. apply f_equal, f_equal.
    rewrite <- E at 2. field. lra.
  - rewrite (FF_dipole s (sqrt x) H Hs), H. change ("Electric-Dipole" =? "Long-Range")%string with false. cbv iota. apply f_equal, f_equal.
    rewrite <- E at 2. field. lra.
Qed.

Lemma RInt_inv2 k a b : 0 < a -> a <= b -> is_RInt (fun x => k / x ^ 2) a b (k * (/ a - / b)).
Proof.
  intros Ha Hab. replace (k * (/ a - / b)) with (minus ((fun x => - (k / x)) b) ((fun x => - (k / x)) a)).
  2: { unfold minus, plus, opp; cbn. field. lra. }
  apply (is_RInt_derive (V := R_CompleteNormedModule) (fun x => - (k / x)) (fun x => k / x ^ 2)).
  - intros x Hx. rewrite Rmin_left, Rmax_right in Hx by lra. auto_derive; [lra|]. field. lra.
  - intros x Hx. rewrite Rmin_left, Rmax_right in Hx by lra. apply (ex_derive_continuous (V := R_NormedModule)).
    auto_derive. nra.
Qed.

Lemma RInt_inv1 k a b : 0 < a -> a <= b -> is_RInt (fun x => k / x) a b (k * (ln b - ln a)).
Proof.
  intros Ha Hab. replace (k * (ln b - ln a)) with (minus ((fun x => k * ln x) b) ((fun x => k * ln x) a)).
  2: { unfold minus, plus, opp; cbn. ring. }
  apply (is_RInt_derive (V := R_CompleteNormedModule) (fun x => k * ln x) (fun x => k / x)).
  - intros x Hx. rewrite Rmin_left, Rmax_right in Hx by lra. auto_derive; [lra|]. field. lra.
  - intros x Hx. rewrite Rmin_left, Rmax_right in Hx by lra. apply (ex_derive_continuous (V := R_NormedModule)).
    auto_derive. lra.
Qed.

Lemma FFd_diverges s Q c B : 0 < Q -> 0 < c ->
  exists eps I, 0 < eps < Q /\ is_RInt (fun x => c * FFd s x) eps Q I /\ B < I.
Proof.
  intros HQ Hc. unfold FFd. assert (Hq := qr_pos). destruct (FF_DM s =? "Long-Range")%string.
  - set (k := c * qr ^ 4). assert (Hk : 0 < k) by (apply Rmult_lt_0_compat; [exact Hc|apply pow_lt, Hq]).
    assert (Hz : 0 < / Q) by (apply Rinv_0_lt_compat, HQ).
    set (y := / Q + Rabs B / k + 1). assert (Hy : / Q < y).
    { unfold y. assert (0 <= Rabs B / k) by (unfold Rdiv; apply Rmult_le_pos; [apply Rabs_pos|left; apply Rinv_0_lt_compat, Hk]). lra. }
    exists (/ y), (k * (/ (/ y) - / Q)).
    assert (H0 : 0 < / y) by (apply Rinv_0_lt_compat; lra).
    assert (H1 : / y < Q). { rewrite <- (Rinv_inv Q). apply Rinv_lt_contravar; [apply Rmult_lt_0_compat; lra|exact Hy]. }
    split; [split; [exact H0|exact H1]|]. split.
    + apply (is_RInt_ext (fun x => k / x ^ 2)).
      * intros x _. match goal with |- ?a = ?b => change (@eq R a b) end. unfold k, Rdiv. ring.
      * apply RInt_inv2; lra.
    + rewrite Rinv_inv. unfold y. replace (k * (/ Q + Rabs B / k + 1 - / Q)) with (Rabs B + k) by (field; lra).
      assert (h := Rle_abs B). lra.
  - set (k := c * qr ^ 2). assert (Hk : 0 < k) by (apply Rmult_lt_0_compat; [exact Hc|apply pow_lt, Hq]).
    set (y := Rabs B / k + 1).
    assert (Hy : 0 < y).
    { unfold y. assert (0 <= Rabs B / k) by (unfold Rdiv; apply Rmult_le_pos; [apply Rabs_pos|left; apply Rinv_0_lt_compat, Hk]). lra. }
    assert (He : 1 < exp y) by (rewrite <- exp_0; apply exp_increasing, Hy).
    exists (Q / exp y), (k * (ln Q - ln (Q / exp y))).
    assert (H0 : 0 < Q / exp y) by (apply Rdiv_lt_0_compat; lra).
    assert (H1 : Q / exp y < Q). { apply Rmult_lt_reg_r with (exp y); [lra|]. unfold Rdiv. rewrite Rmult_assoc, Rinv_l by lra. nra. }
    split; [split; [exact H0|exact H1]|]. split.
    + apply (is_RInt_ext (fun x => k / x)).
      * intros x _. match goal with |- ?a = ?b => change (@eq R a b) end. unfold k, Rdiv. ring.
      * apply RInt_inv1; lra.
    + rewrite ln_div by lra. rewrite ln_exp. unfold y. replace (k * (ln Q - (ln Q - (Rabs B / k + 1)))) with (Rabs B + k) by (field; lra).
      assert (h := Rle_abs B). lra.
Qed.

Lemma divergent_nucleus s t m p n M v B : divergent_interaction s -> low_mass s = true ->
  mass s = Fin m -> 0 < m -> couplings s p n -> imass t = Fin M -> 0 < M -> 0 < v ->
  p * IZR (iZ t) + n * IZR (u32 (iA t - iZ t)) <> 0 ->
  exists eps g I, 0 < eps < q2_max m M v /\
    (forall x, eps <= x <= q2_max m M v -> dSigma_dq2_Nucleus s (xsqrt (Fin x)) t (Fin v) = Ok (Fin (g x))) /\
    is_RInt g eps (q2_max m M v) I /\ B < I.
Proof.
  intros D Hl Hm Hm0 [Hp Hn] HM HM0 Hv HK. set (K := p * IZR (iZ t) + n * IZR (u32 (iA t - iZ t))) in *.
  assert (Hc : 0 < 1 / 4 / PI / v / v * K ^ 2).
  { apply Rmult_lt_0_compat; [|assert (0 < K * K) by nra; lra].
    assert (hp := PI_RGT_0). repeat apply Rdiv_lt_0_compat; lra. }
  destruct (FFd_diverges s (q2_max m M v) _ B (q2_max_pos m M v Hm0 HM0 Hv) Hc) as (eps & I & He & HI & HB).
  exists eps, (fun x => 1 / 4 / PI / v / v * K ^ 2 * FFd s x), I. split; [exact He|]. split; [|split; assumption].
  intros x Hx. unfold dSigma_dq2_Nucleus. rewrite (proj1 D), Hl. rewrite FFd_eq by (try assumption; lra). cbn [bind].
  rewrite inv_v2 by exact Hv. rewrite (SI_coupling_fin s t p n Hp Hn). fold K. cbv [xpow]. rewrite ?xmul_fin. apply f_equal, f_equal. ring.
Qed.

Lemma divergent_electron s m se v B : divergent_interaction s ->
  mass s = Fin m -> 0 < m -> sigma_electron s = Fin se -> 0 < se -> 0 < v ->
  exists eps g I, 0 < eps < q2_max m mElectron v /\
    (forall x, eps <= x <= q2_max m mElectron v -> dSigma_dq2_Electron s (xsqrt (Fin x)) (Fin v) = Ok (Fin (g x))) /\
    is_RInt g eps (q2_max m mElectron v) I /\ B < I.
Proof.
  intros D Hm Hm0 Hs Hs0 Hv. assert (Hr := red_mass_pos m mElectron Hm0 mElectron_pos).
  assert (Hc : 0 < se / (4 * red_mass m mElectron ^ 2 * v ^ 2)).
  { apply Rdiv_lt_0_compat; [exact Hs0|]. apply Rmult_lt_0_compat; [|nra]. nra. }
  destruct (FFd_diverges s (q2_max m mElectron v) _ B (q2_max_pos m mElectron v Hm0 mElectron_pos Hv) Hc) as (eps & I & He & HI & HB).
  exists eps, (fun x => se / (4 * red_mass m mElectron ^ 2 * v ^ 2) * FFd s x), I. split; [exact He|]. split; [|split; assumption].
  intros x Hx. apply (proj2 (electron_formula s (xsqrt (Fin x)) m se v (FFd s x) Hm Hm0 Hs Hv) (proj1 D)).
  apply FFd_eq; [exact D|lra].
Qed.

(** * C85: the effect of the setters *)
Definition names_mass (o : pop) : Prop := match o with PSet_Mass _ => True | _ => False end.
Definition names_electron (o : pop) : Prop :=
  match o with PSet_Sigma_Electron _ => True | PSet_Interaction _ t => t = "Electrons"%string | _ => False end.
Definition names_nucleons (o : pop) : Prop :=
  match o with PSet_Mass _ | PSet_Sigma_Proton _ | PSet_Sigma_Neutron _ | PFix_Ratio _ _ | PFix_fn_over_fp _ | PFix_fp_over_fn _ => True
  | PSet_Interaction _ t => t = "Nuclei"%string | _ => False end.
Definition names_form_factor (o : pop) : Prop := match o with PForm_Factor _ _ | PMediator _ => True | _ => False end.
Definition names_low_mass (o : pop) : Prop := match o with PLow_Mass _ => True | _ => False end.
Definition names_density (o : pop) : Prop := match o with PDensity _ => True | _ => False end.

Lemma FormFactor2_ext s s' q : FF_DM s' = FF_DM s -> mMediator s' = mMediator s -> FormFactor2_DM s' q = FormFactor2_DM s q.
Proof. unfold FormFactor2_DM. intros -> ->. reflexivity. Qed.

Lemma Sigma_ext s s' : mass s' = mass s -> prefactor s' = prefactor s -> fp s' = fp s -> fn s' = fn s ->
  Sigma_Proton s' = Sigma_Proton s /\ Sigma_Neutron s' = Sigma_Neutron s.
Proof. unfold Sigma_Proton, Sigma_Neutron. intros -> -> -> ->. auto. Qed.

Lemma Set_Interaction_exact x t s s' : Set_Interaction_Parameter x t s = Ok s' ->
  (t = "Nuclei"%string /\ (s' = Set_Sigma_Proton x s \/ s' = Set_Sigma_Neutron x s)) \/
  (t = "Electrons"%string /\ s' = Set_Sigma_Electron x s).
Proof.
  unfold Set_Interaction_Parameter. destruct (String.eqb_spec t "Nuclei") as [E|E].
  - intros H. left. split; [exact E|]. destruct (xlt _ _); apply Ok_inj in H; auto.
  - destruct (String.eqb_spec t "Electrons") as [E'|E']; [|discriminate]. intros H. apply Ok_inj in H. auto.
Qed.

(** What a call does not name stays as it was. *)
Lemma setters_frame s o s' : pstep s o = Ok s' ->
  (~ names_mass o -> mass s' = mass s) /\
  (~ names_electron o -> Sigma_Electron s' = Sigma_Electron s) /\
  (~ names_nucleons o -> Sigma_Proton s' = Sigma_Proton s /\ Sigma_Neutron s' = Sigma_Neutron s) /\
  (~ names_form_factor o -> forall q, FormFactor2_DM s' q = FormFactor2_DM s q) /\
  (~ names_low_mass o -> low_mass s' = low_mass s) /\
  (~ names_density o -> fractional_density s' = fractional_density s) /\
  kind s' = kind s.
Proof.
  assert (TP : forall x, let s' := Set_Sigma_Proton x s in
    mass s' = mass s /\ Sigma_Electron s' = Sigma_Electron s /\ (forall q, FormFactor2_DM s' q = FormFactor2_DM s q) /\
    low_mass s' = low_mass s /\ fractional_density s' = fractional_density s /\ kind s' = kind s).
  { intros x. pose proof (Set_Sigma_Proton_frame x s) as F; cbv zeta in *; decompose [and] F.
    repeat split; auto. intros q. apply FormFactor2_ext; auto. }
  assert (TN : forall x, let s' := Set_Sigma_Neutron x s in
    mass s' = mass s /\ Sigma_Electron s' = Sigma_Electron s /\ (forall q, FormFactor2_DM s' q = FormFactor2_DM s q) /\
    low_mass s' = low_mass s /\ fractional_density s' = fractional_density s /\ kind s' = kind s).
  { intros x. pose proof (Set_Sigma_Neutron_frame x s) as F; cbv zeta in *; decompose [and] F.
    repeat split; auto. intros q. apply FormFactor2_ext; auto. }
  assert (TF : forall s', (exists p n, Fix_Coupling_Ratio p n s = Ok s') \/ (exists r, Fix_fn_over_fp r s = Ok s') \/ (exists r, Fix_fp_over_fn r s = Ok s') ->
    mass s' = mass s /\ Sigma_Electron s' = Sigma_Electron s /\ (forall q, FormFactor2_DM s' q = FormFactor2_DM s q) /\
    low_mass s' = low_mass s /\ fractional_density s' = fractional_density s /\ kind s' = kind s).
  { intros s1 F. apply Fix_frame in F. decompose [and] F. repeat split; auto. intros q. apply FormFactor2_ext; auto. }
  intros H. destruct o; cbn [pstep] in H; cbn [names_mass names_electron names_nucleons names_form_factor names_low_mass names_density].
  - apply Ok_inj in H. subst s'. pose proof (Set_Mass_frame m s) as F; cbv zeta in F; decompose [and] F.
    repeat split; try tauto; auto. intros _ q. apply FormFactor2_ext; auto.
  - apply Ok_inj in H. subst s'. pose proof (TP x) as F. cbv zeta in F. tauto.
  - apply Ok_inj in H. subst s'. pose proof (TN x) as F. cbv zeta in F. tauto.
  - apply Ok_inj in H. subst s'. repeat split; try tauto; reflexivity.
  - apply Set_Interaction_exact in H as [[Ht [-> | ->]] | [Ht ->]].
    + pose proof (TP x) as F. cbv zeta in F. tauto.
    + pose proof (TN x) as F. cbv zeta in F. tauto.
    + repeat split; try tauto; reflexivity.
  - pose proof (TF s' ltac:(eauto)) as F. tauto.
  - pose proof (TF s' ltac:(eauto)) as F. tauto.
  - pose proof (TF s' ltac:(eauto 6)) as F. tauto.
  - apply Ok_inj in H. subst s'. repeat split; try tauto; reflexivity.
  - apply Ok_inj in H. subst s'. repeat split; try tauto; reflexivity.
  - apply Ok_inj in H. subst s'. repeat split; try tauto; reflexivity.
  - destruct (kind s) eqn:K.
    + apply FormFactor_frame in H. decompose [and] H. unfold Sigma_Electron.
      assert (HS : Sigma_Proton s' = Sigma_Proton s /\ Sigma_Neutron s' = Sigma_Neutron s) by (apply Sigma_ext; auto).
      assert (HK : kind s' = SI) by congruence. tauto.
    + apply Ok_inj in H. subst s'. repeat split; try tauto; auto.
  - destruct (kind s) eqn:K; apply Ok_inj in H; subst s'; repeat split; try tauto; auto.
Qed.

(** What a call names takes the value given. *)
Lemma setters_effect s :
  (forall b, exists s', pstep s (PLow_Mass b) = Ok s' /\ low_mass s' = b) /\
  (forall f, exists s', pstep s (PDensity f) = Ok s' /\ fractional_density s' = f) /\
  (forall m, exists s', pstep s (PSet_Mass m) = Ok s' /\ mass s' = m) /\
  (forall x, exists s', pstep s (PSet_Sigma_Electron x) = Ok s' /\ Sigma_Electron s' = x).
Proof.
  repeat split; intros.
  - eexists. split; reflexivity.
  - eexists. split; reflexivity.
  - eexists. split; [reflexivity|]. pose proof (Set_Mass_frame m s) as F; cbv zeta in F; tauto.
  - eexists. split; reflexivity.
Qed.

(** After the ratio is released, one nucleon cross section is set without touching the other. *)
Lemma released s x : let s' := Unfix_Coupling_Ratios s in
  Sigma_Proton s' = Sigma_Proton s /\ Sigma_Neutron s' = Sigma_Neutron s /\
  Sigma_Neutron (Set_Sigma_Proton x s') = Sigma_Neutron s /\ Sigma_Proton (Set_Sigma_Neutron x s') = Sigma_Proton s.
Proof. cbv zeta. repeat split; reflexivity. Qed.

(** Choosing the form factor: only the four names are accepted; a positive mediator mass is installed with "General". *)
Lemma form_factor_choice s ff mm : kind s = SI ->
  (~ In ff ["Contact"; "Electric-Dipole"; "Long-Range"; "General"]%string -> pstep s (PForm_Factor ff (Fin mm)) = Exit) /\
  (ff = "Contact"%string -> exists s', pstep s (PForm_Factor ff (Fin mm)) = Ok s' /\ forall q, FormFactor2_DM s' q = Ok (Fin 1)) /\
  (ff = "Electric-Dipole"%string -> exists s', pstep s (PForm_Factor ff (Fin mm)) = Ok s' /\
     forall q, 0 < q -> FormFactor2_DM s' (Fin q) = Ok (Fin ((aEM * mElectron / q) ^ 2))) /\
  (ff = "Long-Range"%string -> exists s', pstep s (PForm_Factor ff (Fin mm)) = Ok s' /\
     forall q, 0 < q -> FormFactor2_DM s' (Fin q) = Ok (Fin ((aEM * mElectron / q) ^ 4))) /\
  (ff = "General"%string -> forall m0, mMediator s = Fin m0 -> let m := if Rlt_dec 0 mm then mm else m0 in
     exists s', pstep s (PForm_Factor ff (Fin mm)) = Ok s' /\
     forall q, 0 < q -> FormFactor2_DM s' (Fin q) = Ok (Fin (((((aEM * mElectron) ^ 2 + m ^ 2) / (q ^ 2 + m ^ 2))) ^ 2))).
Proof.
  intros Hk. cbn [pstep]. rewrite Hk. unfold Set_FormFactor_DM. repeat split.
  - intros H. destruct (String.eqb_spec ff "Contact"); [exfalso; apply H; left; auto|].
    destruct (String.eqb_spec ff "Electric-Dipole"); [exfalso; apply H; right; left; auto|].
    destruct (String.eqb_spec ff "Long-Range"); [exfalso; apply H; right; right; left; auto|].
    destruct (String.eqb_spec ff "General"); [exfalso; apply H; do 3 right; left; auto|]. reflexivity.
  - intros ->. eexists. split; [reflexivity|]. intros q. apply FF_contact. reflexivity.
  - intros ->. eexists. split; [reflexivity|]. intros q Hq. apply (FF_dipole (with_FF "Electric-Dipole" s)); [reflexivity|exact Hq].
  - intros ->. eexists. split; [reflexivity|]. intros q Hq. apply (FF_long_range (with_FF "Long-Range" s)); [reflexivity|exact Hq].
  - intros -> m0 Hm0. cbv zeta. cbn [String.eqb Ascii.eqb Bool.eqb orb FF_DM with_FF andb].
    destruct (Rlt_dec 0 mm) as [h|h].
    + rewrite xlt_true by exact h. eexists. split; [reflexivity|]. intros q Hq.
      rewrite (FF_general (with_mMediator (Fin mm) (with_FF "General" s)) mm q eq_refl eq_refl Hq).
      unfold FFg, qr. apply f_equal, f_equal. f_equal. f_equal; ring.
    + rewrite xlt_false by lra. eexists. split; [reflexivity|]. intros q Hq.
      rewrite (FF_general (with_FF "General" s) m0 q eq_refl Hm0 Hq).
      unfold FFg, qr. apply f_equal, f_equal. f_equal. f_equal; ring.
Qed.

Lemma mediator_choice s m : kind s = SI -> FF_DM s = "General"%string ->
  exists s', pstep s (PMediator (Fin m)) = Ok s' /\
  forall q, 0 < q -> FormFactor2_DM s' (Fin q) = Ok (Fin (((((aEM * mElectron) ^ 2 + m ^ 2) / (q ^ 2 + m ^ 2))) ^ 2)).
Proof.
  intros Hk Hf. cbn [pstep]. rewrite Hk. eexists. split; [reflexivity|]. intros q Hq.
  rewrite (FF_general (Set_Mediator_Mass (Fin m) s) m q Hf eq_refl Hq). unfold FFg, qr. apply f_equal, f_equal. f_equal. f_equal; ring.
Qed.

Lemma ctor_couplings k m x : 0 < m -> 0 <= x -> exists p, couplings (Particle_ctor k (Fin m) (Fin x)) p p.
Proof.
  intros Hm Hx. unfold Particle_ctor.
  assert (Hpre : exists pre, prefactor (Standard_ctor k (Fin m)) = Fin pre /\ 0 < pre) by (destruct k; eexists; split; [reflexivity|lra|reflexivity|lra]).
  destruct Hpre as (pre & Hpre & Hpre0).
  unfold Set_Sigma_Proton. rewrite (coupling_eq (Standard_ctor k (Fin m)) m pre x) by (try assumption; reflexivity).
  cbn [fixed with_fp Standard_ctor fp_relative fn_relative fp]. rewrite xeq_false by lra. rewrite xdiv_fin, xmul_fin by lra.
  eexists. split; [reflexivity|]. cbn [fn with_fn]. apply f_equal. unfold Rdiv. rewrite Rinv_r by lra. ring.
Qed.

Lemma ctor_frame k m x : let s := Particle_ctor k m x in
  kind s = k /\ mass s = m /\ FF_DM s = "Contact"%string /\ sigma_electron s = Fin (1 / 10 ^ 40 * cm * cm) /\ mMediator s = Fin 0 /\ low_mass s = false.
Proof. cbv zeta. unfold Particle_ctor. pose proof (Set_Sigma_Proton_frame x (Standard_ctor k m)) as F; cbv zeta in F; decompose [and] F. repeat split; assumption. Qed.
