(** Lemmas about cross sections and scattering angles. *)
From Coq Require Import Reals List ZArith String Lra Lia Bool Psatz.
From Coquelicot Require Import Coquelicot.
From Verif Require Import Base XrFacts Analysis Quadrature Nucleus_Model Particle_Model CrossSection_Model.
Import ListNotations.
Local Open Scope R_scope.

(** * Specification vocabulary *)

(** Reduced mass and maximal squared momentum transfer of an elastic collision. *)
Definition red_mass (m M : R) : R := m * M / (m + M).
Definition q2_max (m M v : R) : R := 4 * (red_mass m M) ^ 2 * v ^ 2.

(** All parameters of the particle that enter cross sections are finite, its mass is positive. *)
Definition regular (s : particle) (m p n se mm : R) : Prop :=
  mass s = Fin m /\ 0 < m /\ fp s = Fin p /\ fn s = Fin n /\ sigma_electron s = Fin se /\ mMediator s = Fin mm.

(** The two interactions for which the total cross section exists: contact, or a mediator of non-zero mass. *)
Definition IR_finite (s : particle) (mm : R) : Prop :=
  FF_DM s = "Contact"%string \/ FF_DM s = "General"%string /\ mm <> 0.

(** * Real-valued core *)
Lemma red_mass_pos m M : 0 < m -> 0 < M -> 0 < red_mass m M.
Proof. intros; unfold red_mass; apply Rdiv_lt_0_compat; [apply Rmult_lt_0_compat|]; lra. Qed.
Lemma red_mass_sym m M : red_mass m M = red_mass M m.
Proof. unfold red_mass. rewrite Rmult_comm, Rplus_comm; reflexivity. Qed.
Lemma Reduced_Mass_eq m M : 0 < m -> 0 < M -> Reduced_Mass (Fin m) (Fin M) = Fin (red_mass m M).
Proof. intros; unfold Reduced_Mass, red_mass. rewrite xmul_fin, xadd_fin, xdiv_fin; auto; lra. Qed.
Lemma q2_max_pos m M v : 0 < m -> 0 < M -> 0 < v -> 0 < q2_max m M v.
Proof. intros; unfold q2_max. assert (h := red_mass_pos m M). apply Rmult_lt_0_compat; [apply Rmult_lt_0_compat; [lra|]|]; apply pow_lt; auto. Qed.
Lemma q2max_of_eq s m M v : mass s = Fin m -> 0 < m -> 0 < M -> q2max_of s (Fin M) (Fin v) = Fin (q2_max m M v).
Proof.
  intros E Hm HM. unfold q2max_of, q2_max. rewrite E, Reduced_Mass_eq, xmul_fin, xpow_fin, xmul_fin by auto. f_equal. ring.
Qed.

Definition qr : R := aEM * mElectron.
Lemma qr_pos : 0 < qr. Proof. apply Rmult_lt_0_compat; [apply aEM_pos|apply mElectron_pos]. Qed.
Lemma qRef_eq : qRef = Fin qr. Proof. reflexivity. Qed.

(** Form factor squared as a function of q^2. *)
Definition FF2 (s : particle) (mm x : R) : R :=
  if (FF_DM s =? "Contact")%string then 1
  else ((qr * qr + mm * mm) / (x + mm * mm)) * ((qr * qr + mm * mm) / (x + mm * mm)).

Lemma FF2_eq s mm x : mMediator s = Fin mm -> IR_finite s mm -> 0 <= x ->
  FormFactor2_DM s (xsqrt (Fin x)) = Ok (Fin (FF2 s mm x)).
Proof.
  intros Hm HI Hx. unfold FormFactor2_DM, FF2. rewrite xsqrt_fin, Hm, qRef_eq by auto.
  destruct HI as [-> | [-> H0]]; cbn [String.eqb Ascii.eqb Bool.eqb bind].
  - rewrite xmul_fin. do 2 f_equal; ring.
  - rewrite !xmul_fin, !xadd_fin, sqrt_sqrt by auto. rewrite xdiv_fin, xmul_fin; [reflexivity|].
    assert (0 < mm * mm) by (apply Rlt_0_sqr; auto). lra.
Qed.

(** Integral of the form factor squared over q^2. *)
Definition FF2_int (s : particle) (mm Q : R) : R :=
  if (FF_DM s =? "Contact")%string then Q
  else (qr * qr + mm * mm) ^ 2 / mm / mm / (mm * mm + Q) * Q.

Lemma FF2_RInt s mm Q : IR_finite s mm -> 0 <= Q -> is_RInt (FF2 s mm) 0 Q (FF2_int s mm Q).
Proof.
  intros HI HQ. unfold FF2, FF2_int. destruct HI as [-> | [-> H0]]; cbn [String.eqb Ascii.eqb Bool.eqb].
  - replace Q with (Q - 0) at 2 by ring. apply (RInt_by_derive (fun x => x) (fun _ => 1)); auto; intros x Hx.
    + auto_derive; auto.
    + apply continuous_const.
  - assert (P : 0 < mm * mm) by (apply Rlt_0_sqr; auto).
    set (K := qr * qr + mm * mm).
    replace (K ^ 2 / mm / mm / (mm * mm + Q) * Q) with
      ((fun x => - (K ^ 2) / (x + mm * mm)) Q - (fun x => - (K ^ 2) / (x + mm * mm)) 0).
    2:{ field. repeat split; try lra; auto. }
    apply (RInt_by_derive (fun x => - (K ^ 2) / (x + mm * mm)) (fun x => K / (x + mm * mm) * (K / (x + mm * mm)))); auto; intros x Hx.
    + auto_derive; [lra|]. field; lra.
    + apply continuous_of_ex_derive. auto_derive. repeat split; lra.
Qed.

Lemma scal_RInt (f : R -> R) a b k I : is_RInt f a b I -> is_RInt (fun x => k * f x) a b (k * I).
Proof. apply (is_RInt_scal f a b k I). Qed.

(** * C12 *)
(** Coupling of an isotope, finite by assumption. *)
Lemma dSigma_N_SI s t m p n se mm M v x K : kind s = SI -> low_mass s = true -> regular s m p n se mm -> IR_finite s mm ->
  imass t = Fin M -> SI_coupling s t = Fin K -> v <> 0 -> 0 <= x ->
  dSigma_dq2_Nucleus s (xsqrt (Fin x)) t (Fin v) = Ok (Fin (1 / 4 / PI / v / v * K ^ 2 * FF2 s mm x)).
Proof.
  intros Hk Hl (Hm & Hm0 & Hp & Hn & He & Hmm) HI HM HK Hv Hx. unfold dSigma_dq2_Nucleus. rewrite Hk, Hl.
  rewrite (FF2_eq s mm x) by auto. cbn [bind]. rewrite HK, xpow_fin. assert (hp := PI_RGT_0).
  repeat (rewrite xdiv_fin by lra). rewrite !xmul_fin. do 2 f_equal. ring.
Qed.

Lemma SI_coupling_fin s t p n : fp s = Fin p -> fn s = Fin n ->
  SI_coupling s t = Fin (p * IZR (iZ t) + n * IZR (u32 (iA t - iZ t))).
Proof. intros Hp Hn. unfold SI_coupling. rewrite Hp, Hn. reflexivity. Qed.

Lemma total_N_SI Integrate s t m p n se mm M v K : kind s = SI -> low_mass s = true -> regular s m p n se mm -> IR_finite s mm ->
  imass t = Fin M -> 0 < M -> 0 < v -> SI_coupling s t = Fin K ->
  Sigma_Total_Nucleus Integrate s t (Fin v) =
    Ok (Fin (1 / 4 / PI / v / v * K ^ 2 * FF2_int s mm (q2_max m M v))).
Proof.
  intros Hk Hl (Hm & Hm0 & Hp & Hn & He & Hmm) HI HM HM0 Hv HK. unfold Sigma_Total_Nucleus. rewrite Hk, Hl, HK, Hm, HM.
  rewrite Reduced_Mass_eq by auto. rewrite (q2max_of_eq s m M v) by auto.
  assert (hp := PI_RGT_0). assert (hr := red_mass_pos m M Hm0 HM0). assert (hq := q2_max_pos m M v Hm0 HM0 Hv).
  unfold IR_divergent, FF2_int. destruct HI as [E | [E H0]]; rewrite E; cbn [String.eqb Ascii.eqb Bool.eqb negb andb].
  - rewrite !xpow_fin, xdiv_fin, xmul_fin by lra. do 2 f_equal. unfold q2_max. field. lra.
  - assert (P : 0 < mm * mm) by (apply Rlt_0_sqr; auto).
    unfold mediator_factor. rewrite Hmm, qRef_eq, !xmul_fin, !xadd_fin, !xpow_fin.
    rewrite !xdiv_fin by (try assumption; lra). rewrite !xmul_fin. do 2 f_equal. unfold q2_max.
    field. repeat split; try lra. unfold q2_max in hq; lra.
Qed.

Lemma analytic_total_nucleus_SI Integrate s t m p n se mm M v :
  kind s = SI -> low_mass s = true -> regular s m p n se mm -> IR_finite s mm ->
  imass t = Fin M -> 0 < M -> 0 < v ->
  exists g I, (forall x, 0 <= x <= q2_max m M v -> dSigma_dq2_Nucleus s (xsqrt (Fin x)) t (Fin v) = Ok (Fin (g x))) /\
    is_RInt g 0 (q2_max m M v) I /\ Sigma_Total_Nucleus Integrate s t (Fin v) = Ok (Fin I).
Proof.
  intros Hk Hl Hr HI HM HM0 Hv. assert (Hr' := Hr). destruct Hr as (Hm & Hm0 & Hp & Hn & He & Hmm).
  set (K := p * IZR (iZ t) + n * IZR (u32 (iA t - iZ t))).
  assert (HK : SI_coupling s t = Fin K) by (apply SI_coupling_fin; auto).
  exists (fun x => 1 / 4 / PI / v / v * K ^ 2 * FF2 s mm x), (1 / 4 / PI / v / v * K ^ 2 * FF2_int s mm (q2_max m M v)).
  split; [|split].
  - intros x Hx. eapply dSigma_N_SI; eauto; lra.
  - apply scal_RInt. apply FF2_RInt; auto. left; apply q2_max_pos; auto.
  - eapply total_N_SI; eauto.
Qed.

Lemma dSigma_E s m p n se mm v x : regular s m p n se mm -> (kind s = SD \/ IR_finite s mm) -> v <> 0 -> 0 <= x ->
  dSigma_dq2_Electron s (xsqrt (Fin x)) (Fin v) =
  Ok (Fin (se / (2 * red_mass m mElectron * v) ^ 2 * match kind s with SI => FF2 s mm x | SD => 1 end)).
Proof.
  intros (Hm & Hm0 & Hp & Hn & He & Hmm) HI Hv Hx. unfold dSigma_dq2_Electron. assert (hr := red_mass_pos m mElectron Hm0 mElectron_pos).
  rewrite Hm, Reduced_Mass_eq by (auto; apply mElectron_pos). rewrite !xmul_fin, xpow_fin, He.
  rewrite xdiv_fin.
  2:{ apply pow_nonzero. apply Rmult_integral_contrapositive; split; auto. lra. }
  destruct (kind s).
  - destruct HI as [HI|HI]; [discriminate|]. rewrite (FF2_eq s mm x) by auto. cbn [bind]. rewrite xmul_fin. reflexivity.
  - do 2 f_equal; ring.
Qed.

Lemma total_E s m p n se mm v : regular s m p n se mm -> (kind s = SD \/ IR_finite s mm) -> 0 < v ->
  Sigma_Total_Electron s (Fin v) =
  Ok (Fin (se / (2 * red_mass m mElectron * v) ^ 2 *
           match kind s with SI => FF2_int s mm (q2_max m mElectron v) | SD => q2_max m mElectron v end)).
Proof.
  intros (Hm & Hm0 & Hp & Hn & He & Hmm) HI Hv. unfold Sigma_Total_Electron, Sigma_Electron.
  assert (hr := red_mass_pos m mElectron Hm0 mElectron_pos).
  assert (hq := q2_max_pos m mElectron v Hm0 mElectron_pos Hv).
  destruct (kind s).
  - destruct HI as [HI|HI]; [discriminate|].
    rewrite (q2max_of_eq s m mElectron v) by (auto; apply mElectron_pos).
    unfold IR_divergent, FF2_int. destruct HI as [E | [E H0]]; rewrite E; cbn [String.eqb Ascii.eqb Bool.eqb negb andb].
    + rewrite He. do 2 f_equal. unfold q2_max. field. split; lra.
    + assert (P : 0 < mm * mm) by (apply Rlt_0_sqr; auto).
      unfold mediator_factor. rewrite He, Hmm, qRef_eq, !xmul_fin, !xadd_fin, !xpow_fin.
      rewrite !xdiv_fin by (try assumption; lra). rewrite !xmul_fin. do 2 f_equal. unfold q2_max.
      field. repeat split; try lra. unfold q2_max in hq; lra.
  - rewrite He. do 2 f_equal. unfold q2_max. field. split; lra.
Qed.

Lemma analytic_total_electron s m p n se mm v :
  regular s m p n se mm -> (kind s = SD \/ IR_finite s mm) -> 0 < v ->
  exists g I, (forall x, 0 <= x <= q2_max m mElectron v -> dSigma_dq2_Electron s (xsqrt (Fin x)) (Fin v) = Ok (Fin (g x))) /\
    is_RInt g 0 (q2_max m mElectron v) I /\ Sigma_Total_Electron s (Fin v) = Ok (Fin I).
Proof.
  intros Hr HI Hv.
  exists (fun x => se / (2 * red_mass m mElectron * v) ^ 2 * match kind s with SI => FF2 s mm x | SD => 1 end),
    (se / (2 * red_mass m mElectron * v) ^ 2 * match kind s with SI => FF2_int s mm (q2_max m mElectron v) | SD => q2_max m mElectron v end).
  split; [|split].
  - intros x Hx. eapply dSigma_E; eauto; lra.
  - apply scal_RInt. assert (hq : 0 <= q2_max m mElectron v) by (left; apply q2_max_pos; auto; [apply Hr|apply mElectron_pos]).
    destruct (kind s); [apply FF2_RInt; auto; destruct HI; [discriminate|auto]|].
    change (is_RInt (fun _ : R => 1) 0 (q2_max m mElectron v) (q2_max m mElectron v)).
    replace (q2_max m mElectron v) with (q2_max m mElectron v - 0) at 2 by ring.
    apply (RInt_by_derive (fun x => x) (fun _ => 1)); auto; intros x Hx.
    + auto_derive; auto.
    + apply continuous_const.
  - eapply total_E; eauto.
Qed.

Lemma analytic_total_nucleus_SD Integrate s t m p n se mm M v j sp sn :
  kind s = SD -> regular s m p n se mm -> imass t = Fin M -> 0 < M -> 0 < v ->
  ispin t = Fin j -> isp t = Fin sp -> isn t = Fin sn ->
  exists g I, (forall x, 0 <= x <= q2_max m M v -> dSigma_dq2_Nucleus s (xsqrt (Fin x)) t (Fin v) = Ok (Fin (g x))) /\
    is_RInt g 0 (q2_max m M v) I /\ Sigma_Total_Nucleus Integrate s t (Fin v) = Ok (Fin I).
Proof.
  intros Hk (Hm & Hm0 & Hp & Hn & He & Hmm) HM HM0 Hv Hj Hsp Hsn.
  assert (hp := PI_RGT_0). assert (hr := red_mass_pos m M Hm0 HM0). assert (hq := q2_max_pos m M v Hm0 HM0 Hv).
  set (D := if Req_EM_T j 0 then 0 else 1 / PI / v / v * (j + 1) / j * (p * sp + n * sn) ^ 2).
  exists (fun _ => D), (D * q2_max m M v). split; [|split].
  - intros x Hx. unfold dSigma_dq2_Nucleus, SD_coupling, D. rewrite Hk, Hj, Hp, Hn, Hsp, Hsn.
    destruct (Req_EM_T j 0) as [E|E].
    + rewrite xeq_true by auto; reflexivity.
    + rewrite xeq_false by auto. rewrite !xmul_fin, !xadd_fin, xpow_fin.
      repeat (rewrite xdiv_fin by lra). rewrite xmul_fin, xdiv_fin, xmul_fin by auto. reflexivity.
  - replace (D * q2_max m M v) with (D * q2_max m M v - D * 0) by ring.
    apply (RInt_by_derive (fun x => D * x) (fun _ => D)); [lra| |]; intros x Hx.
    + auto_derive; auto; ring.
    + apply continuous_const.
  - unfold Sigma_Total_Nucleus, SD_coupling, D. rewrite Hk, Hj, Hp, Hn, Hsp, Hsn, Hm, HM.
    destruct (Req_EM_T j 0) as [E|E].
    + rewrite xne_false by auto. do 2 f_equal; ring.
    + rewrite xne_true by auto. rewrite Reduced_Mass_eq by auto.
      rewrite !xmul_fin, !xadd_fin, !xpow_fin, xmul_fin.
      repeat (rewrite xdiv_fin by lra). rewrite xmul_fin, xdiv_fin, xmul_fin by auto. do 2 f_equal.
      unfold q2_max. field. repeat split; auto; lra.
Qed.

(** Consequence: the generic numerical integration and the closed formula agree. *)
Lemma closed_equals_base Integrate s t m p n se mm M v : ideal_quadrature Integrate ->
  kind s = SI -> low_mass s = true -> regular s m p n se mm -> IR_finite s mm ->
  imass t = Fin M -> 0 < M -> 0 < v ->
  Sigma_Total_Nucleus_Base Integrate s t (Fin v) = Sigma_Total_Nucleus Integrate s t (Fin v) /\
  Sigma_Total_Electron_Base Integrate s (Fin v) = Sigma_Total_Electron s (Fin v).
Proof.
  intros Q Hk Hl Hr HI HM HM0 Hv. split.
  - destruct (analytic_total_nucleus_SI Integrate s t m p n se mm M v) as (g & I & Hg & HR & HT); auto.
    unfold Sigma_Total_Nucleus_Base. rewrite HT, HM. rewrite (q2max_of_eq s m M v) by (auto; apply Hr).
    assert (hq : 0 < q2_max m M v) by (apply q2_max_pos; auto; apply Hr).
    rewrite (Q _ g); [rewrite (is_RInt_unique g 0 _ I HR); auto| |exists I; auto].
    intros x Hx. rewrite Rmin_left, Rmax_right in Hx by lra. apply Hg; auto.
  - destruct (analytic_total_electron s m p n se mm v) as (g & I & Hg & HR & HT); auto.
    unfold Sigma_Total_Electron_Base. rewrite HT. rewrite (q2max_of_eq s m mElectron v) by (try apply Hr; apply mElectron_pos).
    assert (hq : 0 < q2_max m mElectron v) by (apply q2_max_pos; auto; [apply Hr|apply mElectron_pos]).
    rewrite (Q _ g); [rewrite (is_RInt_unique g 0 _ I HR); auto| |exists I; auto].
    intros x Hx. rewrite Rmin_left, Rmax_right in Hx by lra. apply Hg; auto.
Qed.

(** * C13 *)
Lemma xmul_Fin_inv a b r : xmul a b = Fin r -> exists x y, a = Fin x /\ b = Fin y /\ r = x * y.
Proof.
  destruct a, b; cbn; intros H; try discriminate; try (unfold inf_sign, rpos, rneg in H;
    repeat match type of H with context [Rlt_dec ?u ?v] => destruct (Rlt_dec u v) end; discriminate).
  apply Fin_inj in H. eauto 6.
Qed.


Lemma inv_v2 v : 0 < v -> (Fin 1 / Fin 4 / Fin PI / Fin v / Fin v)%xr = Fin (1 / 4 / PI / v / v).
Proof. intros Hv. assert (h := PI_RGT_0). repeat (rewrite xdiv_fin by lra). reflexivity. Qed.

Lemma speed_scaling_nucleus s q t v1 v2 a : 0 < v1 -> 0 < v2 ->
  dSigma_dq2_Nucleus s q t (Fin v1) = Ok (Fin a) ->
  exists b, dSigma_dq2_Nucleus s q t (Fin v2) = Ok (Fin b) /\ v1 ^ 2 * a = v2 ^ 2 * b.
Proof.
  intros H1 H2 H. assert (hp := PI_RGT_0). unfold dSigma_dq2_Nucleus in *. destruct (kind s).
  - apply bind_ok in H as (F2 & EF & H). rewrite EF; cbn [bind]. apply Ok_inj in H. rewrite inv_v2 in * by auto.
    apply xmul_Fin_inv in H as (x1 & h1 & H & Eh & ->).
    apply xmul_Fin_inv in H as (x2 & h2 & H & Eh2 & ->).
    apply xmul_Fin_inv in H as (x3 & f & H & Ef & ->).
    apply xmul_Fin_inv in H as (x4 & c & H & Ec & ->). apply Fin_inj in H as <-.
    rewrite Eh, Ef, Ec, !xmul_fin. rewrite Eh2 in Eh. apply Fin_inj in Eh as ->.
    eexists; split; [reflexivity|]. field. lra.
  - apply Ok_inj in H. destruct (xeq (ispin t) (Fin 0)) eqn:E.
    + apply Fin_inj in H as <-. exists 0. split; auto. ring.
    + assert (V : forall v, 0 < v -> (Fin 1 / Fin PI / Fin v / Fin v)%xr = Fin (1 / PI / v / v))
        by (intros v Hv; repeat (rewrite xdiv_fin by lra); reflexivity).
      rewrite V in * by auto.
      apply xmul_Fin_inv in H as (x1 & c & H & Ec & ->). rewrite Ec.
      destruct (ispin t) as [j| | |]; try (cbn in H; discriminate).
      2:{ exfalso. cbn in H. destruct (inf_sign (1 / PI / v1 / v1)) eqn:EI; try discriminate H.
          revert EI. unfold inf_sign. repeat match goal with |- context [if ?u then _ else _] => destruct u end; discriminate. }
      2:{ exfalso. cbn in H. destruct (inf_sign (- (1 / PI / v1 / v1))) eqn:EI; try discriminate H.
          revert EI. unfold inf_sign. repeat match goal with |- context [if ?u then _ else _] => destruct u end; discriminate. }
      assert (j <> 0) by (intros ->; rewrite xeq_true in E by auto; discriminate).
      rewrite !xadd_fin, !xmul_fin in *. rewrite xdiv_fin in * by auto. apply Fin_inj in H as <-.
      eexists; split; [reflexivity|]. field. repeat split; lra.
Qed.

Lemma xmul_pos_PInf x : 0 < x -> xmul (Fin x) PInf = PInf.
Proof. intros H; cbn; unfold inf_sign; rewrite rpos_true; auto. Qed.
Lemma xmul_PInf_pos x : 0 < x -> xmul PInf (Fin x) = PInf.
Proof. intros H; cbn; unfold inf_sign; rewrite rpos_true; auto. Qed.
Lemma xmul_pos_NInf x : 0 < x -> xmul (Fin x) NInf = NInf.
Proof. intros H; cbn; unfold inf_sign; rewrite rpos_false, rneg_true by lra; auto. Qed.
Lemma xmul_NInf_pos x : 0 < x -> xmul NInf (Fin x) = NInf.
Proof. intros H; cbn; unfold inf_sign; rewrite rpos_false, rneg_true by lra; auto. Qed.
Lemma PInf_sq : xpow PInf 2 = PInf.
Proof. unfold xpow. rewrite xmul_PInf_pos by lra. reflexivity. Qed.
Lemma NInf_sq : xpow NInf 2 = PInf.
Proof. unfold xpow. rewrite xmul_NInf_pos by lra. reflexivity. Qed.

Lemma speed_scaling_electron s q v1 v2 a : 0 < v1 -> 0 < v2 ->
  dSigma_dq2_Electron s q (Fin v1) = Ok (Fin a) ->
  exists b, dSigma_dq2_Electron s q (Fin v2) = Ok (Fin b) /\ v1 ^ 2 * a = v2 ^ 2 * b.
Proof.
  intros H1 H2 H. unfold dSigma_dq2_Electron in *. set (mu := Reduced_Mass (mass s) (Fin mElectron)) in *.
  assert (D : forall d1, (sigma_electron s / xpow (Fin 2 * mu * Fin v1) 2)%xr = Fin d1 ->
    exists d2, (sigma_electron s / xpow (Fin 2 * mu * Fin v2) 2)%xr = Fin d2 /\ v1 ^ 2 * d1 = v2 ^ 2 * d2).
  { intros d1 E. destruct mu as [r| | |].
    - rewrite !xmul_fin, !xpow_fin in *.
      assert (P : forall v, 0 < v -> (2 * r * v) ^ 2 = 0 <-> r = 0).
      { intros v Hv; split; [intros K|intros ->; ring]. destruct (Req_dec r 0); auto. exfalso. apply (pow_nonzero (2 * r * v) 2); auto.
        apply Rmult_integral_contrapositive; split; lra. }
      destruct (Req_EM_T r 0) as [->|Hr].
      + exfalso. destruct (sigma_electron s); cbn [xdiv] in E; try discriminate.
        * destruct (Req_EM_T _ 0) as [_|n]; [|apply n; ring].
          unfold inf_sign in E. destruct (rpos _); [discriminate|]. destruct (rneg _); discriminate.
        * destruct (rneg _); discriminate.
        * destruct (rneg _); discriminate.
      + assert (N1 : (2 * r * v1) ^ 2 <> 0) by (intros K; apply P in K; auto).
        assert (N2 : (2 * r * v2) ^ 2 <> 0) by (intros K; apply P in K; auto).
        destruct (sigma_electron s) as [se| | |]; cbn [xdiv] in E |- *; try discriminate.
        * destruct (Req_EM_T _ 0) in E; [contradiction|]. apply Fin_inj in E as <-.
          destruct (Req_EM_T ((2 * r * v2) ^ 2) 0); [contradiction|]. eexists; split; [reflexivity|]. field. lra.
        * destruct (rneg _); discriminate.
        * destruct (rneg _); discriminate.
    - assert (Q : forall v, 0 < v -> xpow (Fin 2 * PInf * Fin v) 2 = PInf).
      { intros v Hv. rewrite xmul_pos_PInf, xmul_PInf_pos by lra. apply PInf_sq. }
      rewrite Q in * by auto. exists 0. destruct (sigma_electron s); cbn in E |- *; try discriminate. apply Fin_inj in E as <-. split; auto; ring.
    - assert (Q : forall v, 0 < v -> xpow (Fin 2 * NInf * Fin v) 2 = PInf).
      { intros v Hv. rewrite xmul_pos_NInf, xmul_NInf_pos by lra. apply NInf_sq. }
      rewrite Q in * by auto. exists 0. destruct (sigma_electron s); cbn in E |- *; try discriminate. apply Fin_inj in E as <-. split; auto; ring.
    - cbn in E. destruct (sigma_electron s); discriminate. }
  destruct (kind s).
  - apply bind_ok in H as (F2 & EF & H). rewrite EF; cbn [bind]. apply Ok_inj in H.
    apply xmul_Fin_inv in H as (d1 & f & Ed & Ef & ->). destruct (D _ Ed) as (d2 & E2 & R). rewrite E2, Ef, xmul_fin.
    eexists; split; [reflexivity|]. ring [R].
  - apply Ok_inj in H. destruct (D _ H) as (d2 & E2 & R). rewrite E2. eauto.
Qed.

Lemma speed_scaling_ionization s q Ee ff v1 v2 a : 0 < v1 -> 0 < v2 ->
  d2Sigma_dq2_dEe_Ionization s q Ee (Fin v1) ff = Ok (Fin a) ->
  exists b, d2Sigma_dq2_dEe_Ionization s q Ee (Fin v2) ff = Ok (Fin b) /\ v1 ^ 2 * a = v2 ^ 2 * b.
Proof.
  intros H1 H2 H. unfold d2Sigma_dq2_dEe_Ionization in *. destruct (kind s).
  - apply bind_ok in H as (d & Ed & H). apply Ok_inj in H.
    apply xmul_Fin_inv in H as (x & f & H & -> & ->). apply xmul_Fin_inv in H as (y & d1 & Ey & -> & ->).
    destruct (speed_scaling_electron _ _ _ v2 _ H1 H2 Ed) as (d2 & -> & R). cbn [bind]. rewrite Ey, !xmul_fin.
    eexists; split; [reflexivity|]. ring [R].
  - apply Ok_inj, Fin_inj in H as <-. exists 0; split; auto; ring.
Qed.

Lemma speed_scaling_crystal s q Ee ff v1 v2 a : 0 < v1 -> 0 < v2 ->
  d2Sigma_dq2_dEe_Crystal s q Ee (Fin v1) ff = Ok (Fin a) ->
  exists b, d2Sigma_dq2_dEe_Crystal s q Ee (Fin v2) ff = Ok (Fin b) /\ v1 ^ 2 * a = v2 ^ 2 * b.
Proof.
  intros H1 H2 H. unfold d2Sigma_dq2_dEe_Crystal in *. destruct (kind s).
  - apply bind_ok in H as (d & Ed & H). apply Ok_inj in H.
    apply xmul_Fin_inv in H as (x & f & H & -> & ->). apply xmul_Fin_inv in H as (y & d1 & Ey & -> & ->).
    destruct (speed_scaling_electron _ _ _ v2 _ H1 H2 Ed) as (d2 & -> & R). cbn [bind]. rewrite Ey, !xmul_fin.
    eexists; split; [reflexivity|]. ring [R].
  - apply Ok_inj, Fin_inj in H as <-. exists 0; split; auto; ring.
Qed.

(** * C18 *)
Lemma flag_truthful Integrate s t v1 v2 : Is_Sigma_Total_V_Dependent s = false ->
  Sigma_Total_Nucleus Integrate s t v1 = Sigma_Total_Nucleus Integrate s t v2 /\
  Sigma_Total_Electron s v1 = Sigma_Total_Electron s v2.
Proof.
  unfold Is_Sigma_Total_V_Dependent, Sigma_Total_Nucleus, Sigma_Total_Electron. destruct (kind s); [|auto].
  destruct (low_mass s); cbn [negb orb]; intros H; [|discriminate]. rewrite H. auto.
Qed.

(** * C19 *)
Lemma FF_contact s q : FF_DM s = "Contact"%string -> FormFactor2_DM s q = Ok (Fin 1).
Proof. intros H. unfold FormFactor2_DM. rewrite H. cbn [String.eqb Ascii.eqb Bool.eqb bind]. rewrite xmul_fin. do 2 f_equal; ring. Qed.
Lemma FF_long_range s q : FF_DM s = "Long-Range"%string -> 0 < q ->
  FormFactor2_DM s (Fin q) = Ok (Fin ((qr / q) ^ 4)).
Proof.
  intros H Hq. unfold FormFactor2_DM. rewrite H, qRef_eq. cbn [String.eqb Ascii.eqb Bool.eqb bind].
  rewrite xmul_fin. repeat rewrite xdiv_fin by lra. rewrite xmul_fin. do 2 f_equal. field; lra.
Qed.
Lemma FF_dipole s q : FF_DM s = "Electric-Dipole"%string -> 0 < q ->
  FormFactor2_DM s (Fin q) = Ok (Fin ((qr / q) ^ 2)).
Proof.
  intros H Hq. unfold FormFactor2_DM. rewrite H, qRef_eq. cbn [String.eqb Ascii.eqb Bool.eqb bind].
  rewrite xdiv_fin, xmul_fin by lra. do 2 f_equal. field; lra.
Qed.
Definition FFg (m q : R) : R := ((qr * qr + m * m) / (q * q + m * m)) ^ 2.
Lemma FF_general s m q : FF_DM s = "General"%string -> mMediator s = Fin m -> 0 < q ->
  FormFactor2_DM s (Fin q) = Ok (Fin (FFg m q)).
Proof.
  intros H Hm Hq. unfold FormFactor2_DM. rewrite H, qRef_eq, Hm. cbn [String.eqb Ascii.eqb Bool.eqb bind].
  rewrite !xmul_fin, !xadd_fin. assert (0 < q * q) by (apply Rmult_lt_0_compat; auto). assert (h := Rle_0_sqr m). unfold Rsqr in h.
  rewrite xdiv_fin, xmul_fin by lra. do 2 f_equal. unfold FFg; ring.
Qed.

Lemma FF_normalised s m : mMediator s = Fin m ->
  In (FF_DM s) ["Contact"; "General"; "Long-Range"; "Electric-Dipole"]%string ->
  FormFactor2_DM s (Fin (aEM * mElectron)) = Ok (Fin 1).
Proof.
  intros Hm HF. assert (h := qr_pos). fold qr.
  destruct HF as [E|[E|[E|[E|[]]]]]; symmetry in E.
  - apply FF_contact; auto.
  - rewrite (FF_general s m) by auto. do 2 f_equal. unfold FFg.
    assert (0 < qr * qr) by (apply Rmult_lt_0_compat; auto). assert (h2 := Rle_0_sqr m). unfold Rsqr in h2. field. lra.
  - rewrite FF_long_range by auto. do 2 f_equal. field; lra.
  - rewrite FF_dipole by auto. do 2 f_equal. field; lra.
Qed.

Lemma FF_ratio_between m q : 0 < q -> let x := (qr * qr + m * m) / (q * q + m * m) in
  Rmin 1 ((qr / q) ^ 2) <= x <= Rmax 1 ((qr / q) ^ 2) /\ 0 < x.
Proof.
  intros Hq. assert (h := qr_pos). assert (Q2 : 0 < q * q) by (apply Rmult_lt_0_compat; auto).
  assert (R2 : 0 < qr * qr) by (apply Rmult_lt_0_compat; auto). assert (M2 := Rle_0_sqr m); unfold Rsqr in M2.
  cbv zeta. set (a := qr * qr) in *. set (b := q * q) in *. set (c := m * m) in *.
  replace ((qr / q) ^ 2) with (a / b) by (unfold a, b; field; lra).
  assert (P : 0 < (a + c) / (b + c)) by (apply Rdiv_lt_0_compat; lra).
  assert (D1 : (a + c) / (b + c) - 1 = (a - b) / (b + c)) by (field; lra).
  assert (D2 : a / b - (a + c) / (b + c) = c * (a - b) / (b * (b + c))) by (field; lra).
  assert (D3 : a / b - 1 = (a - b) / b) by (field; lra).
  assert (I1 : 0 < / (b + c)) by (apply Rinv_0_lt_compat; lra). assert (I2 : 0 < / b) by (apply Rinv_0_lt_compat; lra).
  assert (I3 : 0 < / (b * (b + c))) by (apply Rinv_0_lt_compat, Rmult_lt_0_compat; lra).
  split; auto. unfold Rdiv in D1, D2, D3. fold (Rdiv (a + c) (b + c)) in *. fold (Rdiv a b) in *.
  destruct (Rle_lt_dec b a) as [L|L].
  - assert (0 <= (a - b) * / (b + c)) by (apply Rmult_le_pos; lra).
    assert (0 <= c * (a - b) * / (b * (b + c))) by (apply Rmult_le_pos; [apply Rmult_le_pos|]; lra).
    rewrite Rmin_left, Rmax_right by lra. lra.
  - assert (0 <= (b - a) * / (b + c)) by (apply Rmult_le_pos; lra).
    assert (0 <= c * (b - a) * / (b * (b + c))) by (apply Rmult_le_pos; [apply Rmult_le_pos|]; lra).
    replace ((a - b) * / (b + c)) with (- ((b - a) * / (b + c))) in D1 by ring.
    replace (c * (a - b) * / (b * (b + c))) with (- (c * (b - a) * / (b * (b + c)))) in D2 by ring.
    rewrite Rmin_right, Rmax_left by lra. lra.
Qed.

Lemma FF_between s m q : FF_DM s = "General"%string -> mMediator s = Fin m -> 0 < q ->
  exists x, FormFactor2_DM s (Fin q) = Ok (Fin x) /\ Rmin 1 ((aEM * mElectron / q) ^ 4) <= x <= Rmax 1 ((aEM * mElectron / q) ^ 4).
Proof.
  intros HF Hm Hq. rewrite (FF_general s m) by auto. eexists; split; [reflexivity|]. fold qr.
  destruct (FF_ratio_between m q Hq) as [[L U] P]. cbv zeta in *. unfold FFg.
  set (x := (qr * qr + m * m) / (q * q + m * m)) in *. set (y := (qr / q) ^ 2) in *.
  replace ((qr / q) ^ 4) with (y ^ 2) by (unfold y; ring).
  assert (Y : 0 <= y) by (unfold y; apply pow2_ge_0).
  unfold Rmin, Rmax in *. destruct (Rle_dec 1 y); destruct (Rle_dec 1 (y ^ 2)); split; nra.
Qed.

Lemma FF_massless s q : FF_DM s = "General"%string -> mMediator s = Fin 0 -> 0 < q ->
  FormFactor2_DM s (Fin q) = Ok (Fin ((aEM * mElectron / q) ^ 4)).
Proof. intros HF Hm Hq. rewrite (FF_general s 0) by auto. do 2 f_equal. unfold FFg, qr. field. lra. Qed.

Lemma FFg_limit q eps : 0 < q -> 0 < eps -> exists M, 0 < M /\ forall m, M <= m -> Rabs (FFg m q - 1) < eps.
Proof.
  intros Hq He. assert (h := qr_pos). set (D := Rabs (qr * qr - q * q)). assert (HD : 0 <= D) by apply Rabs_pos.
  (* x - 1 = (a - b)/(b + c); |x - 1| <= D / c; take c >= D and c >= 4 D / eps *)
  set (C := D + 4 * D / eps + 1).
  assert (E4 : 0 <= 4 * D / eps) by (apply Rmult_le_pos; [lra|left; apply Rinv_0_lt_compat; auto]).
  exists C. split; [unfold C; lra|]. intros m Hm. unfold FFg.
  assert (Q2 : 0 < q * q) by (apply Rmult_lt_0_compat; auto).
  assert (C1 : 1 <= C) by (unfold C; lra). assert (MC : C <= m * m) by nra.
  set (x := (qr * qr + m * m) / (q * q + m * m)).
  assert (Ex : x - 1 = (qr * qr - q * q) / (q * q + m * m)) by (unfold x; field; lra).
  assert (Bx : Rabs (x - 1) * (q * q + m * m) = D).
  { rewrite Ex. unfold Rdiv. rewrite Rabs_mult. rewrite (Rabs_pos_eq (/ _)) by (left; apply Rinv_0_lt_compat; lra). fold D. field. lra. }
  set (e := Rabs (x - 1)) in *. assert (Hepos : 0 <= e) by apply Rabs_pos.
  assert (e * C <= D) by nra.
  assert (e <= 1). { destruct (Rle_lt_dec e 1); auto. exfalso. unfold C in *. nra. }
  assert (E5 : 4 * D / eps * eps = 4 * D) by (field; lra).
  assert (4 * e < eps).
  { destruct (Rlt_le_dec (4 * e) eps); auto. exfalso.
    assert (e * (4 * D / eps) + e <= D) by (unfold C in *; nra).
    assert (0 < e) by lra. assert (4 * D <= 4 * D / eps * (4 * e)) by nra. nra. }
  replace (x ^ 2 - 1) with ((x - 1) * (x + 1)) by ring. rewrite Rabs_mult. fold e.
  assert (Rabs (x + 1) <= 3). { replace (x + 1) with ((x - 1) + 2) by ring. eapply Rle_trans; [apply Rabs_triang|]. fold e. rewrite (Rabs_pos_eq 2) by lra. lra. }
  assert (0 <= Rabs (x + 1)) by apply Rabs_pos. nra.
Qed.

Lemma FF_heavy_limit s q eps : FF_DM s = "General"%string -> 0 < q -> 0 < eps ->
  exists M, 0 < M /\ forall m, M <= m -> exists x, FormFactor2_DM (Set_Mediator_Mass (Fin m) s) (Fin q) = Ok (Fin x) /\ Rabs (x - 1) < eps.
Proof.
  intros HF Hq He. destruct (FFg_limit q eps Hq He) as (M & HM & H). exists M; split; auto. intros m Hm.
  exists (FFg m q). split; [|apply H; auto]. apply FF_general; auto.
Qed.
