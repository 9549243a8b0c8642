(** Lemmas about scattering angles. *)
From Coq Require Import Reals List ZArith String Lra Lia Bool Psatz.
From Coquelicot Require Import Coquelicot.
From Verif Require Import Base XrFacts Analysis Quadrature Nucleus_Model Particle_Model Particle_Proofs CrossSection_Model CrossSection_Proofs Helm_Proofs.
Import ListNotations.
Local Open Scope R_scope.

(** * Specification vocabulary *)

(** [pdf] is a probability density on [-1,1] with cumulative function [cdf]. *)
Definition angular_distribution (pdf cdf : R -> R) : Prop :=
  (forall c, -1 <= c <= 1 -> 0 <= pdf c) /\
  (forall c, -1 <= c <= 1 -> is_RInt pdf (-1) c (cdf c)) /\
  cdf 1 = 1.

(** [sample] is the exact inverse of [cdf]: in range, increasing, cdf (sample xi) = xi. *)
Definition inverse_sampling (cdf sample : R -> R) : Prop :=
  (forall xi, 0 <= xi <= 1 -> -1 <= sample xi <= 1 /\ cdf (sample xi) = xi) /\
  (forall x y, 0 <= x -> x < y -> y <= 1 -> sample x < sample y).

(** * Closed forms *)
Definition pdf_flat (c : R) : R := 0.5.
Definition cdf_flat (c : R) : R := (1 + c) / 2.
Definition sample_flat (x : R) : R := 2 * x - 1.
Definition pdf_med (m2 Q c : R) : R := 2 * m2 * (m2 + Q) / (2 * m2 + Q * (1 - c)) ^ 2.
Definition cdf_med (m2 Q c : R) : R := (1 + c) * m2 / (2 * m2 + Q * (1 - c)).
Definition sample_med (m2 Q x : R) : R := (m2 * (2 * x - 1) + Q * x) / (m2 + Q * x).

Lemma flat_distribution : angular_distribution pdf_flat cdf_flat.
Proof.
  unfold angular_distribution, pdf_flat, cdf_flat. split; [intros; lra|]. split; [|lra]. intros c Hc.
  replace ((1 + c) / 2) with (0.5 * c - 0.5 * (-1)) by lra.
  apply (RInt_by_derive (fun x => 0.5 * x) (fun _ => 0.5)); [lra| |]; intros x Hx.
  - auto_derive; [auto|lra].
  - apply continuous_const.
Qed.
Lemma flat_sampling : inverse_sampling cdf_flat sample_flat.
Proof. unfold inverse_sampling, cdf_flat, sample_flat. split; intros; lra. Qed.

Lemma med_denominator m2 Q c : 0 < m2 -> 0 <= Q -> c <= 1 -> 0 < 2 * m2 + Q * (1 - c).
Proof. intros. assert (0 <= Q * (1 - c)) by (apply Rmult_le_pos; lra). lra. Qed.

Lemma med_distribution m2 Q : 0 < m2 -> 0 <= Q -> angular_distribution (pdf_med m2 Q) (cdf_med m2 Q).
Proof.
  intros Hm HQ. unfold angular_distribution, pdf_med, cdf_med. split; [|split].
  - intros c Hc. assert (h := med_denominator m2 Q c Hm HQ (proj2 Hc)).
    apply Rmult_le_pos; [apply Rmult_le_pos; lra|]. left; apply Rinv_0_lt_compat, pow_lt; auto.
  - intros c Hc. replace ((1 + c) * m2 / (2 * m2 + Q * (1 - c))) with
      ((1 + c) * m2 / (2 * m2 + Q * (1 - c)) - (1 + -1) * m2 / (2 * m2 + Q * (1 - -1)))
      by (assert (h1 := med_denominator m2 Q c Hm HQ (proj2 Hc)); field; lra).
    apply (RInt_by_derive (fun c => (1 + c) * m2 / (2 * m2 + Q * (1 - c)))
                          (fun c => 2 * m2 * (m2 + Q) / (2 * m2 + Q * (1 - c)) ^ 2)); [lra| |]; intros x Hx;
      assert (h := med_denominator m2 Q x Hm HQ ltac:(lra)).
    + auto_derive; [lra|]. field. lra.
    + apply continuous_of_ex_derive. auto_derive. apply (pow_nonzero (2 * m2 + Q * (1 - x)) 2); lra.
  - field. lra.
Qed.

Lemma med_sampling m2 Q : 0 < m2 -> 0 <= Q -> inverse_sampling (cdf_med m2 Q) (sample_med m2 Q).
Proof.
  intros Hm HQ. unfold inverse_sampling, cdf_med, sample_med.
  assert (D : forall x, 0 <= x -> 0 < m2 + Q * x) by (intros; assert (0 <= Q * x) by (apply Rmult_le_pos; lra); lra).
  split.
  - intros x Hx. assert (h := D x ltac:(lra)).
    set (c := (m2 * (2 * x - 1) + Q * x) / (m2 + Q * x)).
    assert (E1 : c + 1 = 2 * x * (m2 + Q) / (m2 + Q * x)) by (unfold c; field; lra).
    assert (E2 : 1 - c = 2 * m2 * (1 - x) / (m2 + Q * x)) by (unfold c; field; lra).
    assert (I := Rinv_0_lt_compat _ h).
    assert (0 <= c + 1) by (rewrite E1; apply Rmult_le_pos; [apply Rmult_le_pos; nra|lra]).
    assert (0 <= 1 - c) by (rewrite E2; apply Rmult_le_pos; [apply Rmult_le_pos; nra|lra]).
    split; [lra|]. rewrite Rplus_comm, E1, E2. field.
    assert (0 <= Q * (2 * m2 * (1 - x))) by (repeat apply Rmult_le_pos; lra).
    assert (0 < 2 * m2 * (m2 + Q * x)) by (repeat apply Rmult_lt_0_compat; lra). lra.
  - intros x y Hx Hxy Hy. assert (hx := D x Hx). assert (hy := D y ltac:(lra)).
    assert (E : (m2 * (2 * y - 1) + Q * y) / (m2 + Q * y) - (m2 * (2 * x - 1) + Q * x) / (m2 + Q * x) =
      2 * m2 * (m2 + Q) * (y - x) / ((m2 + Q * x) * (m2 + Q * y))) by (field; lra).
    assert (0 < 2 * m2 * (m2 + Q) * (y - x) / ((m2 + Q * x) * (m2 + Q * y))); [|lra].
    apply Rdiv_lt_0_compat; repeat apply Rmult_lt_0_compat; lra.
Qed.

(** Model functions on finite arguments. *)
Lemma pdf_med_eq s mm Q c : mMediator s = Fin mm -> mm <> 0 -> 0 <= Q -> c <= 1 ->
  PDF_Angle_General s (Fin Q) (Fin c) = Fin (pdf_med (mm * mm) Q c).
Proof.
  intros E Hm HQ Hc. assert (P : 0 < mm * mm) by (apply Rlt_0_sqr; auto). assert (h := med_denominator _ Q c P HQ Hc).
  unfold PDF_Angle_General, pdf_med. rewrite E, !xmul_fin, xsub_fin, xmul_fin, !xadd_fin, xpow_fin, xmul_fin.
  apply xdiv_fin, pow_nonzero; lra.
Qed.
Lemma cdf_med_eq s mm Q c : mMediator s = Fin mm -> mm <> 0 -> 0 <= Q -> c <= 1 ->
  CDF_Angle_General s (Fin Q) (Fin c) = Fin (cdf_med (mm * mm) Q c).
Proof.
  intros E Hm HQ Hc. assert (P : 0 < mm * mm) by (apply Rlt_0_sqr; auto). assert (h := med_denominator _ Q c P HQ Hc).
  unfold CDF_Angle_General, cdf_med. rewrite E, !xmul_fin, xsub_fin, !xadd_fin, !xmul_fin, xadd_fin.
  apply xdiv_fin; lra.
Qed.
Lemma sample_med_eq s mm Q x : mMediator s = Fin mm -> mm <> 0 -> 0 <= Q -> 0 <= x ->
  Sample_Angle_General s (Fin Q) (Fin x) = Fin (sample_med (mm * mm) Q x).
Proof.
  intros E Hm HQ Hx. assert (P : 0 < mm * mm) by (apply Rlt_0_sqr; auto).
  assert (0 <= Q * x) by (apply Rmult_le_pos; lra).
  unfold Sample_Angle_General, sample_med. rewrite E, !xmul_fin, xsub_fin, !xmul_fin, !xadd_fin.
  apply xdiv_fin; lra.
Qed.

(** * C14, C15: the closed distributions *)
Lemma closed_nucleus Integrate Find_Root s t m p n se mm M v : regular s m p n se mm -> low_mass s = true ->
  (kind s = SD \/ IR_finite s mm) -> imass t = Fin M -> 0 < M ->
  exists pdf cdf sample, angular_distribution pdf cdf /\ inverse_sampling cdf sample /\
    (forall c, -1 <= c <= 1 -> PDF_Scattering_Angle_Nucleus Integrate s (Fin c) t (Fin v) = Ok (Fin (pdf c)) /\
                               CDF_Scattering_Angle_Nucleus Integrate s (Fin c) t (Fin v) = Ok (Fin (cdf c))) /\
    (forall x, 0 <= x <= 1 -> Sample_Scattering_Angle_Nucleus Integrate Find_Root s (Fin x) t (Fin v) = Ok (Fin (sample x))).
Proof.
  intros (Hm & Hm0 & Hp & Hn & He & Hmm) Hl HI HM HM0.
  assert (HQ : 0 <= q2_max m M v) by (unfold q2_max; assert (h := pow2_ge_0 (red_mass m M)); assert (h' := pow2_ge_0 v); nra).
  unfold PDF_Scattering_Angle_Nucleus, CDF_Scattering_Angle_Nucleus, Sample_Scattering_Angle_Nucleus.
  rewrite Hl, HM, (q2max_of_eq s m M v) by auto. cbn [negb].
  assert (FLAT : (exists pdf cdf sample, angular_distribution pdf cdf /\ inverse_sampling cdf sample /\
    (forall c, -1 <= c <= 1 -> @Ok xr (Fin 0.5) = Ok (Fin (pdf c)) /\ Ok ((Fin 1 + Fin c) / Fin 2)%xr = Ok (Fin (cdf c))) /\
    (forall x, 0 <= x <= 1 -> Ok (Fin 2 * Fin x - Fin 1)%xr = Ok (Fin (sample x))))).
  { exists pdf_flat, cdf_flat, sample_flat. split; [apply flat_distribution|]. split; [apply flat_sampling|]. split.
    - intros c Hc. split; auto. rewrite xadd_fin, xdiv_fin by lra. reflexivity.
    - intros x Hx. reflexivity. }
  destruct (kind s).
  - destruct HI as [HI|HI]; [discriminate|]. unfold IR_divergent.
    destruct HI as [E | [E H0]]; rewrite E; cbn [String.eqb Ascii.eqb Bool.eqb negb andb].
    + exact FLAT.
    + assert (P : 0 < mm * mm) by (apply Rlt_0_sqr; auto).
      exists (pdf_med (mm * mm) (q2_max m M v)), (cdf_med (mm * mm) (q2_max m M v)), (sample_med (mm * mm) (q2_max m M v)).
      split; [apply med_distribution; auto|]. split; [apply med_sampling; auto|]. split.
      * intros c Hc. rewrite (pdf_med_eq s mm), (cdf_med_eq s mm) by (auto; lra). auto.
      * intros x Hx. rewrite (sample_med_eq s mm) by (auto; lra). auto.
  - exact FLAT.
Qed.

Lemma closed_electron s m p n se mm v : regular s m p n se mm -> (kind s = SD \/ IR_finite s mm) ->
  exists pdf cdf sample, angular_distribution pdf cdf /\ inverse_sampling cdf sample /\
    (forall c, -1 <= c <= 1 -> PDF_Scattering_Angle_Electron s (Fin c) (Fin v) = Ok (Fin (pdf c)) /\
                               CDF_Scattering_Angle_Electron s (Fin c) (Fin v) = Ok (Fin (cdf c))) /\
    (forall x, 0 <= x <= 1 -> Sample_Scattering_Angle_Electron s (Fin x) (Fin v) = Ok (Fin (sample x))).
Proof.
  intros (Hm & Hm0 & Hp & Hn & He & Hmm) HI.
  assert (HQ : 0 <= q2_max m mElectron v) by (unfold q2_max; assert (h := pow2_ge_0 (red_mass m mElectron)); assert (h' := pow2_ge_0 v); nra).
  unfold PDF_Scattering_Angle_Electron, CDF_Scattering_Angle_Electron, Sample_Scattering_Angle_Electron.
  rewrite (q2max_of_eq s m mElectron v) by (auto; apply mElectron_pos).
  assert (FLAT : (exists pdf cdf sample, angular_distribution pdf cdf /\ inverse_sampling cdf sample /\
    (forall c, -1 <= c <= 1 -> @Ok xr (Fin 0.5) = Ok (Fin (pdf c)) /\ Ok ((Fin 1 + Fin c) / Fin 2)%xr = Ok (Fin (cdf c))) /\
    (forall x, 0 <= x <= 1 -> Ok (Fin 2 * Fin x - Fin 1)%xr = Ok (Fin (sample x))))).
  { exists pdf_flat, cdf_flat, sample_flat. split; [apply flat_distribution|]. split; [apply flat_sampling|]. split.
    - intros c Hc. split; auto. rewrite xadd_fin, xdiv_fin by lra. reflexivity.
    - intros x Hx. reflexivity. }
  destruct (kind s).
  - destruct HI as [HI|HI]; [discriminate|]. unfold IR_divergent.
    destruct HI as [E | [E H0]]; rewrite E; cbn [String.eqb Ascii.eqb Bool.eqb negb andb].
    + exact FLAT.
    + assert (P : 0 < mm * mm) by (apply Rlt_0_sqr; auto).
      exists (pdf_med (mm * mm) (q2_max m mElectron v)), (cdf_med (mm * mm) (q2_max m mElectron v)), (sample_med (mm * mm) (q2_max m mElectron v)).
      split; [apply med_distribution; auto|]. split; [apply med_sampling; auto|]. split.
      * intros c Hc. rewrite (pdf_med_eq s mm), (cdf_med_eq s mm) by (auto; lra). auto.
      * intros x Hx. rewrite (sample_med_eq s mm) by (auto; lra). auto.
  - exact FLAT.
Qed.

(** * C16, C17: the generic functions *)

(** What the generic functions need: a positive mass, a target mass, a speed, and a differential cross section that is
    finite and integrable over [0, q2max] with non-zero integral T, reported by the particle as total cross section. *)
Definition base_setting (s : particle) (m M v : R) (SigmaTot : res xr) (dSigma : xr -> res xr) (d : R -> R) (T : R) : Prop :=
  mass s = Fin m /\ 0 < m /\ 0 < M /\ 0 < v /\
  (forall x, 0 <= x <= q2_max m M v -> dSigma (xsqrt (Fin x)) = Ok (Fin (d x))) /\
  is_RInt d 0 (q2_max m M v) T /\ SigmaTot = Ok (Fin T) /\ T <> 0.

Definition pdf_base (m M v T : R) (d : R -> R) (c : R) : R := q2_max m M v / 2 / T * d (q2_max m M v * (1 - c) / 2).

Lemma base_pdf_eq s m M v SigmaTot dSigma d T c : base_setting s m M v SigmaTot dSigma d T -> -1 <= c <= 1 ->
  PDF_Angle_Base s (Fin M) (Fin v) SigmaTot dSigma (Fin c) = Ok (Fin (pdf_base m M v T d c)).
Proof.
  intros (Hm & Hm0 & HM & Hv & Hd & HT & HS & HT0) Hc. unfold PDF_Angle_Base.
  rewrite Hm, HS, Reduced_Mass_eq, (red_mass_sym M m) by auto. cbn [bind].
  assert (hr := red_mass_pos m M Hm0 HM). rewrite !xmul_fin, xsub_fin, xmul_fin.
  rewrite xsqrt_fin by lra. rewrite xmul_fin, xne_true by auto.
  assert (Q : 0 <= q2_max m M v * (1 - c) / 2 <= q2_max m M v).
  { assert (h := q2_max_pos m M v Hm0 HM Hv). nra. }
  replace (red_mass m M * v * sqrt (2 * (1 - c))) with (sqrt (q2_max m M v * (1 - c) / 2)).
  2:{ unfold q2_max. replace (4 * red_mass m M ^ 2 * v ^ 2 * (1 - c) / 2) with ((red_mass m M * v) ^ 2 * (2 * (1 - c))) by field.
      rewrite sqrt_mult by (try apply pow2_ge_0; lra). rewrite sqrt_pow2; auto. apply Rmult_le_pos; lra. }
  rewrite <- xsqrt_fin by lra. rewrite Hd by auto. cbn [bind].
  rewrite !xdiv_fin by lra. rewrite xmul_fin. unfold pdf_base. do 3 f_equal. f_equal. f_equal. unfold q2_max; ring.
Qed.

Lemma base_pdf_RInt s m M v SigmaTot dSigma d T : base_setting s m M v SigmaTot dSigma d T ->
  is_RInt (pdf_base m M v T d) (-1) 1 1.
Proof.
  intros (Hm & Hm0 & HM & Hv & Hd & HT & HS & HT0). set (Q := q2_max m M v) in *.
  assert (C := is_RInt_comp_lin d (- Q / 2) (Q / 2) (-1) 1 (- T)).
  assert (P : is_RInt d (- Q / 2 * -1 + Q / 2) (- Q / 2 * 1 + Q / 2) (- T)).
  { replace (- Q / 2 * -1 + Q / 2) with Q by field. replace (- Q / 2 * 1 + Q / 2) with 0 by field.
    apply (is_RInt_swap d Q 0 T). auto. }
  specialize (C P). apply (scal_RInt _ _ _ (- / T)) in C.
  replace (- / T * - T) with 1 in C by (field; auto).
  revert C. apply is_RInt_ext. intros x _. change (- / T * (- Q / 2 * d (- Q / 2 * x + Q / 2)) = pdf_base m M v T d x).
  unfold pdf_base. fold Q. replace (- Q / 2 * x + Q / 2) with (Q * (1 - x) / 2) by field. field. auto.
Qed.

Lemma base_distribution Integrate s m M v SigmaTot dSigma d T : ideal_quadrature Integrate ->
  base_setting s m M v SigmaTot dSigma d T ->
  exists pdf cdf,
    (forall c, -1 <= c <= 1 -> PDF_Angle_Base s (Fin M) (Fin v) SigmaTot dSigma (Fin c) = Ok (Fin (pdf c)) /\
       CDF_Angle_Base Integrate s (Fin M) (Fin v) SigmaTot dSigma (Fin c) = Ok (Fin (cdf c)) /\ is_RInt pdf (-1) c (cdf c)) /\
    cdf 1 = 1 /\ (forall c, continuous cdf c) /\
    ((forall x, 0 <= x <= q2_max m M v -> 0 <= d x) -> angular_distribution pdf cdf /\
       forall x y, -1 <= x -> x <= y -> y <= 1 -> 0 <= cdf x <= cdf y /\ cdf y <= 1).
Proof.
  intros HQ HB. assert (H1 := base_pdf_RInt _ _ _ _ _ _ _ _ HB). set (pdf := pdf_base m M v T d) in *.
  assert (EX : ex_RInt pdf (-1) 1) by (exists 1; auto).
  destruct (RInt_continuous_ext pdf (-1) 1 ltac:(lra) EX) as (G & HG & GC).
  assert (G1 : G 1 = 1). { rewrite <- (is_RInt_unique _ _ _ _ (HG 1 ltac:(lra))). apply is_RInt_unique; auto. }
  exists pdf, G. split; [|split; [auto|split; [auto|]]].
  - intros c Hc. assert (Hpdf := base_pdf_eq _ _ _ _ _ _ _ _ c HB Hc). split; [auto|]. split; [|apply HG; auto].
    unfold CDF_Angle_Base. destruct (Req_dec c (-1)) as [->|N1].
    { rewrite xle_true by lra. do 2 f_equal. rewrite <- (is_RInt_unique _ _ _ _ (HG (-1) ltac:(lra))). symmetry; apply RInt_point_R. }
    rewrite xle_false by lra. destruct (Req_dec c 1) as [->|N2].
    { rewrite xle_true by lra. rewrite G1; auto. }
    rewrite xle_false by lra. rewrite (HQ _ pdf).
    + rewrite (is_RInt_unique _ _ _ _ (HG c Hc)); auto.
    + intros x Hx. rewrite Rmin_left, Rmax_right in Hx by lra. apply (base_pdf_eq _ _ _ _ _ _ _ _ x HB); lra.
    + exists (G c). apply HG; auto.
  - intros Hpos.
    assert (HT : 0 < T).
    { destruct HB as (Hm & Hm0 & HM & Hv & Hd & HT & HS & HT0). assert (h := q2_max_pos m M v Hm0 HM Hv).
      assert (0 <= T); [|lra]. rewrite <- (is_RInt_unique _ _ _ _ HT). apply RInt_ge_0; [lra|exists T; auto|intros; apply Hpos; lra]. }
    assert (NN : forall c, -1 <= c <= 1 -> 0 <= pdf c).
    { intros c Hc. destruct HB as (Hm & Hm0 & HM & Hv & Hd & HT' & HS & HT0). assert (h := q2_max_pos m M v Hm0 HM Hv).
      unfold pdf, pdf_base. apply Rmult_le_pos; [apply Rmult_le_pos; [lra|left; apply Rinv_0_lt_compat; auto]|].
      apply Hpos. nra. }
    split.
    + unfold angular_distribution. split; auto.
    + intros x y Hx Hxy Hy.
      destruct (RInt_monotone pdf (-1) 1 x y (G x) (G y)) as [A B]; auto; [apply HG; lra|apply HG; lra|].
      destruct (RInt_monotone pdf (-1) 1 y 1 (G y) (G 1)) as [A' B']; auto; [lra|lra|apply HG; lra|apply HG; lra|]. lra.
Qed.

(** Outside [-1,1] no evaluation is needed at all. *)
Lemma base_clamped Integrate s mT v SigmaTot dSigma c :
  (xle c (Fin (-1)) = true -> CDF_Angle_Base Integrate s mT v SigmaTot dSigma c = Ok (Fin 0)) /\
  (xle (Fin 1) c = true -> CDF_Angle_Base Integrate s mT v SigmaTot dSigma c = Ok (Fin 1)).
Proof.
  unfold CDF_Angle_Base. split; intros H; rewrite ?H; auto.
  destruct (xle c (Fin (-1))) eqn:E; auto. exfalso. destruct c as [x| | |]; cbn in *; try discriminate.
  unfold xle in *. cbn in *.
  repeat match goal with H : context [Rlt_dec ?u ?v] |- _ => destruct (Rlt_dec u v) end;
  repeat match goal with H : context [Req_EM_T ?u ?v] |- _ => destruct (Req_EM_T u v) end; cbn in *; try discriminate; lra.
Qed.

(** * Sampling through the root finder *)
Lemma base_sampling Integrate Find_Root s m M v SigmaTot dSigma d T : ideal_quadrature Integrate -> ideal_root_finder Find_Root ->
  base_setting s m M v SigmaTot dSigma d T -> (forall x, 0 <= x <= q2_max m M v -> 0 <= d x) ->
  exists cdf sample,
    (forall c, -1 <= c <= 1 -> CDF_Angle_Base Integrate s (Fin M) (Fin v) SigmaTot dSigma (Fin c) = Ok (Fin (cdf c))) /\
    inverse_sampling cdf sample /\
    forall xi, 0 <= xi <= 1 ->
      Find_Root (Sample_Base_target (CDF_Angle_Base Integrate s (Fin M) (Fin v) SigmaTot dSigma) (Fin xi)) (Fin (-1)) (Fin 1) = Ok (Fin (sample xi)).
Proof.
  intros HQ HR HB Hpos. destruct (base_distribution Integrate _ _ _ _ _ _ _ _ HQ HB) as (pdf & cdf & Hf & C1 & CC & HP).
  destruct (HP Hpos) as [HA HM]. clear HP.
  assert (C0 : cdf (-1) = 0).
  { destruct (Hf (-1) ltac:(lra)) as (_ & _ & H). rewrite <- (is_RInt_unique _ _ _ _ H). apply RInt_point_R. }
  set (root := fun xi => Find_Root (Sample_Base_target (CDF_Angle_Base Integrate s (Fin M) (Fin v) SigmaTot dSigma) (Fin xi)) (Fin (-1)) (Fin 1)).
  assert (RT : forall xi, 0 <= xi <= 1 -> exists r, root xi = Ok (Fin r) /\ -1 <= r <= 1 /\ xi - cdf r = 0).
  { intros xi Hxi. apply (HR _ (fun c => xi - cdf c)); [lra| | |].
    - intros x Hx. unfold Sample_Base_target. destruct (Hf x Hx) as (_ & E & _). rewrite E. reflexivity.
    - intros x Hx. apply (continuous_minus (fun _ => xi) cdf); [apply continuous_const|apply CC].
    - rewrite C0, C1. nra. }
  exists cdf, (fun xi => match root xi with Ok (Fin r) => r | _ => 0 end). split; [|split; [split|]].
  - intros c Hc. apply Hf; auto.
  - intros xi Hxi. destruct (RT xi Hxi) as (r & -> & Hr & E). split; [auto|lra].
  - intros x y Hx Hxy Hy. destruct (RT x ltac:(lra)) as (r & -> & Hr & E). destruct (RT y ltac:(lra)) as (r' & -> & Hr' & E').
    destruct (Rlt_le_dec r r'); auto. exfalso. destruct (HM r' r) as [[_ ?] _]; lra.
  - intros xi Hxi. destruct (RT xi Hxi) as (r & E & _). fold (root xi). rewrite E. auto.
Qed.

(** * Heavy nuclei: the generic functions with the Helm form factor *)
Definition d_heavy (s : particle) (t : Isotope) (mm p n v x : R) : R :=
  1 / 4 / PI / v / v * (p * IZR (iZ t) + n * IZR (u32 (iA t - iZ t))) ^ 2 * (FF2 s mm x * (Helm_R (iA t) (sqrt x)) ^ 2).

Lemma dSigma_heavy s t m p n se mm v x : kind s = SI -> low_mass s = false -> regular s m p n se mm -> IR_finite s mm ->
  v <> 0 -> 0 <= x -> dSigma_dq2_Nucleus s (xsqrt (Fin x)) t (Fin v) = Ok (Fin (d_heavy s t mm p n v x)).
Proof.
  intros Hk Hl (Hm & Hm0 & Hp & Hn & He & Hmm) HI Hv Hx. unfold dSigma_dq2_Nucleus. rewrite Hk, Hl.
  rewrite (FF2_eq s mm x) by auto. cbn [bind]. rewrite (SI_coupling_fin s t p n) by auto. rewrite xpow_fin. assert (hp := PI_RGT_0).
  rewrite xsqrt_fin by auto. rewrite Helm_eq.
  repeat (rewrite xdiv_fin by lra). rewrite !xmul_fin. do 2 f_equal. unfold d_heavy. ring.
Qed.

Lemma FF2_continuous s mm x : IR_finite s mm -> 0 <= x -> continuous (FF2 s mm) x.
Proof.
  intros [E|[E H0]] Hx; unfold FF2; rewrite E; cbn [String.eqb Ascii.eqb Bool.eqb].
  - apply continuous_const.
  - assert (P : 0 < mm * mm) by (apply Rlt_0_sqr; auto). apply continuous_of_ex_derive. auto_derive. repeat split; lra.
Qed.

Lemma heavy_integrable s t mm p n v Q : IR_finite s mm -> 0 <= Q -> ex_RInt (d_heavy s t mm p n v) 0 Q.
Proof.
  intros HI HQ. unfold d_heavy. set (K := 1 / 4 / PI / v / v * _).
  apply (ex_RInt_scal (V := R_NormedModule) (fun x => FF2 s mm x * Helm_R (iA t) (sqrt x) ^ 2) 0 Q K).
  assert (q0 := q_min_pos). set (x0 := q_min_Helm ^ 2). assert (X0 : 0 < x0) by (apply pow_lt; auto).
  assert (LOW : forall b, 0 <= b <= x0 -> ex_RInt (fun x => FF2 s mm x * Helm_R (iA t) (sqrt x) ^ 2) 0 b).
  { intros b Hb. apply (ex_RInt_ext (FF2 s mm)).
    - intros x Hx. rewrite Rmin_left, Rmax_right in Hx by lra. unfold Helm_R. destruct (Rlt_dec (sqrt x) q_min_Helm) as [|N]; [simpl; ring|].
      exfalso. apply N. rewrite <- (sqrt_pow2 q_min_Helm) by lra. apply sqrt_lt_1; fold x0; lra.
    - apply (ex_RInt_continuous (V := R_CompleteNormedModule)). intros x Hx. rewrite Rmin_left, Rmax_right in Hx by lra. apply FF2_continuous; auto; lra. }
  destruct (Rle_lt_dec Q x0) as [L|L]; [apply LOW; lra|].
  apply (ex_RInt_Chasles (V := R_NormedModule) _ 0 x0 Q); [apply LOW; lra|].
  apply (ex_RInt_ext (fun x => FF2 s mm x * helm (iA t) (sqrt x) ^ 2)).
  - intros x Hx. rewrite Rmin_left, Rmax_right in Hx by lra. unfold Helm_R. destruct (Rlt_dec (sqrt x) q_min_Helm) as [N|]; auto.
    exfalso. rewrite <- (sqrt_pow2 q_min_Helm) in N by lra. apply sqrt_lt_0_alt in N. fold x0 in N. lra.
  - apply (ex_RInt_continuous (V := R_CompleteNormedModule)). intros x Hx. rewrite Rmin_left, Rmax_right in Hx by lra.
    apply (continuous_mult (FF2 s mm)); [apply FF2_continuous; auto; lra|].
    apply (continuous_comp (fun x => helm (iA t) (sqrt x)) (fun y => y ^ 2)).
    + apply (continuous_comp sqrt (helm (iA t))).
      * apply continuous_of_ex_derive. auto_derive; lra.
      * apply continuous_of_ex_derive, helm_derivable, sqrt_lt_R0; lra.
    + apply continuous_of_ex_derive. auto_derive; auto.
Qed.

Lemma d_heavy_pos s t mm p n v x : 0 < v -> 0 <= d_heavy s t mm p n v x.
Proof.
  intros Hv. unfold d_heavy. assert (hp := PI_RGT_0).
  assert (I : 0 <= 1 / 4 / PI / v / v). { unfold Rdiv. repeat (apply Rmult_le_pos; [|left; apply Rinv_0_lt_compat; lra]). lra. }
  apply Rmult_le_pos; [apply Rmult_le_pos; auto; apply pow2_ge_0|].
  apply Rmult_le_pos; [|apply pow2_ge_0]. unfold FF2. destruct (_ =? _)%string; [lra|]. apply Rle_0_sqr.
Qed.

Lemma heavy_setting Integrate s t m p n se mm M v : ideal_quadrature Integrate ->
  kind s = SI -> low_mass s = false -> regular s m p n se mm -> IR_finite s mm -> imass t = Fin M -> 0 < M -> 0 < v ->
  exists T, is_RInt (d_heavy s t mm p n v) 0 (q2_max m M v) T /\ 0 <= T /\ Sigma_Total_Nucleus Integrate s t (Fin v) = Ok (Fin T) /\
  (T <> 0 -> base_setting s m M v (Sigma_Total_Nucleus Integrate s t (Fin v)) (fun q => dSigma_dq2_Nucleus s q t (Fin v)) (d_heavy s t mm p n v) T).
Proof.
  intros HQ Hk Hl Hr HI HM HM0 Hv. assert (Hr' := Hr). destruct Hr' as (Hm & Hm0 & _).
  assert (hq := q2_max_pos m M v Hm0 HM0 Hv).
  assert (EX := heavy_integrable s t mm p n v (q2_max m M v) HI ltac:(lra)).
  set (T := RInt (d_heavy s t mm p n v) 0 (q2_max m M v)).
  assert (ES : Sigma_Total_Nucleus Integrate s t (Fin v) = Ok (Fin T)).
  { unfold Sigma_Total_Nucleus. rewrite Hk, Hl. unfold IR_divergent.
    assert (D : (negb (FF_DM s =? "Contact")%string && negb (FF_DM s =? "General")%string)%bool = false)
      by (destruct HI as [E | [E _]]; rewrite E; reflexivity).
    rewrite D. cbn [negb]. unfold Sigma_Total_Nucleus_Base. rewrite HM, (q2max_of_eq s m M v) by auto.
    rewrite (HQ _ (d_heavy s t mm p n v)); auto.
    intros x Hx. rewrite Rmin_left, Rmax_right in Hx by lra. eapply dSigma_heavy; eauto; lra. }
  exists T. split; [apply (RInt_correct (d_heavy s t mm p n v)); auto|]. split; [|split; [auto|]].
  - apply RInt_ge_0; auto; [lra|]. intros; apply d_heavy_pos; auto.
  - intros HT0. unfold base_setting. rewrite ES. split; [auto|]. split; [auto|]. split; [auto|]. split; [auto|].
    split; [|split; [apply (RInt_correct (d_heavy s t mm p n v)); auto|auto]].
    intros x Hx. eapply dSigma_heavy; eauto; lra.
Qed.

Lemma FF2_int_pos s mm Q : IR_finite s mm -> 0 < Q -> 0 < FF2_int s mm Q.
Proof.
  intros HI HQ. unfold FF2_int. destruct HI as [->|[-> H0]]; cbn [String.eqb Ascii.eqb Bool.eqb]; auto.
  assert (Pm : 0 < mm * mm) by (apply Rlt_0_sqr; auto). assert (h := qr_pos). assert (0 < qr * qr) by nra.
  replace ((qr * qr + mm * mm) ^ 2 / mm / mm / (mm * mm + Q) * Q) with ((qr * qr + mm * mm) ^ 2 * Q / ((mm * mm) * (mm * mm + Q))) by (field; lra).
  apply Rdiv_lt_0_compat; apply Rmult_lt_0_compat; try lra. apply pow_lt; lra.
Qed.

Lemma heavy_total_positive s t mm p n v Q T : IR_finite s mm -> 0 < v -> 0 < Q ->
  p * IZR (iZ t) + n * IZR (u32 (iA t - iZ t)) <> 0 -> is_RInt (d_heavy s t mm p n v) 0 Q T -> 0 < T.
Proof.
  intros HI Hv HQ HK HT. set (x0 := Rmin Q (q_min_Helm ^ 2)). assert (q0 := q_min_pos).
  assert (X0 : 0 < x0) by (unfold x0; apply Rmin_glb_lt; auto; apply pow_lt; auto).
  assert (XQ : x0 <= Q) by apply Rmin_l.
  set (K := 1 / 4 / PI / v / v * (p * IZR (iZ t) + n * IZR (u32 (iA t - iZ t))) ^ 2).
  assert (HKp : 0 < K). { unfold K. assert (hp := PI_RGT_0). apply Rmult_lt_0_compat.
    - unfold Rdiv. repeat (apply Rmult_lt_0_compat; [|apply Rinv_0_lt_compat; lra]). lra.
    - apply pow2_gt_0; auto. }
  assert (L : is_RInt (d_heavy s t mm p n v) 0 x0 (K * FF2_int s mm x0)).
  { apply (is_RInt_ext (fun x => K * FF2 s mm x)); [|apply scal_RInt, FF2_RInt; auto; lra].
    intros x Hx. rewrite Rmin_left, Rmax_right in Hx by lra. unfold d_heavy. fold K. unfold Helm_R.
    destruct (Rlt_dec (sqrt x) q_min_Helm) as [|N]; [change (K * FF2 s mm x = K * (FF2 s mm x * 1 ^ 2)); ring|].
    exfalso. apply N. rewrite <- (sqrt_pow2 q_min_Helm) by lra. apply sqrt_lt_1; [lra|apply pow2_ge_0|].
    assert (x0 <= q_min_Helm ^ 2) by apply Rmin_r. lra. }
  assert (P : 0 < FF2_int s mm x0) by (apply FF2_int_pos; auto).
  destruct (RInt_monotone (d_heavy s t mm p n v) 0 Q x0 Q (K * FF2_int s mm x0) T) as [_ B]; auto; try lra.
  - exists T; auto.
  - intros; apply d_heavy_pos; auto.
  - assert (0 < K * FF2_int s mm x0) by (apply Rmult_lt_0_compat; auto). lra.
Qed.

(** Spin-dependent scattering without the light-mass simplification. *)
Lemma SD_setting Integrate s t m p n se mm M v j sp sn : kind s = SD -> regular s m p n se mm ->
  imass t = Fin M -> 0 < M -> 0 < v -> ispin t = Fin j -> isp t = Fin sp -> isn t = Fin sn -> 0 < j -> p * sp + n * sn <> 0 ->
  exists d T, (forall x, 0 <= d x) /\
    base_setting s m M v (Sigma_Total_Nucleus Integrate s t (Fin v)) (fun q => dSigma_dq2_Nucleus s q t (Fin v)) d T.
Proof.
  intros Hk Hr HM HM0 Hv Hj Hsp Hsn Hj0 HK.
  assert (Hr' := Hr). destruct Hr' as (Hm & Hm0 & Hp & Hn & He & Hmm).
  assert (hp := PI_RGT_0). assert (hr := red_mass_pos m M Hm0 HM0). assert (hq := q2_max_pos m M v Hm0 HM0 Hv).
  set (D := 1 / PI / v / v * (j + 1) / j * (p * sp + n * sn) ^ 2).
  assert (DP : 0 < D).
  { unfold D, Rdiv. apply Rmult_lt_0_compat; [|apply pow2_gt_0; auto].
    repeat (apply Rmult_lt_0_compat; try apply Rinv_0_lt_compat; try lra). }
  exists (fun _ => D), (D * q2_max m M v). split; [intros; lra|].
  unfold base_setting. split; [auto|]. split; [auto|]. split; [auto|]. split; [auto|].
  split; [|split; [|split]].
  - intros x Hx. unfold dSigma_dq2_Nucleus, SD_coupling, D. rewrite Hk, Hj, Hp, Hn, Hsp, Hsn.
    rewrite xeq_false by lra. rewrite !xmul_fin, !xadd_fin, xpow_fin.
    repeat (rewrite xdiv_fin by lra). rewrite xmul_fin, xdiv_fin, xmul_fin by lra. reflexivity.
  - replace (D * q2_max m M v) with (D * q2_max m M v - D * 0) by ring.
    apply (RInt_by_derive (fun x => D * x) (fun _ => D)); [lra| |]; intros x Hx.
    + auto_derive; auto; ring.
    + apply continuous_const.
  - unfold Sigma_Total_Nucleus, SD_coupling, D. rewrite Hk, Hj, Hp, Hn, Hsp, Hsn, Hm, HM.
    rewrite xne_true by lra. rewrite Reduced_Mass_eq by auto.
    rewrite !xmul_fin, !xadd_fin, !xpow_fin, xmul_fin.
    repeat (rewrite xdiv_fin by lra). rewrite xmul_fin, xdiv_fin, xmul_fin by lra. do 2 f_equal.
    unfold q2_max. field. repeat split; lra.
  - apply Rgt_not_eq. apply Rmult_lt_0_compat; lra.
Qed.

(** Every nuclear target and interaction for which a normalised distribution can exist, through the functions users call. *)
Definition sees (s : particle) (t : Isotope) (p n : R) : Prop :=
  match kind s with
  | SI => p * IZR (iZ t) + n * IZR (u32 (iA t - iZ t)) <> 0
  | SD => exists j sp sn, ispin t = Fin j /\ isp t = Fin sp /\ isn t = Fin sn /\ 0 < j /\ p * sp + n * sn <> 0
  end.

Lemma nucleus_any Integrate Find_Root s t m p n se mm M v : ideal_quadrature Integrate -> ideal_root_finder Find_Root ->
  regular s m p n se mm -> (kind s = SD \/ IR_finite s mm) -> imass t = Fin M -> 0 < M -> 0 < v ->
  (low_mass s = false -> sees s t p n) ->
  exists pdf cdf sample, angular_distribution pdf cdf /\ inverse_sampling cdf sample /\
    (forall c, -1 <= c <= 1 -> PDF_Scattering_Angle_Nucleus Integrate s (Fin c) t (Fin v) = Ok (Fin (pdf c)) /\
                               CDF_Scattering_Angle_Nucleus Integrate s (Fin c) t (Fin v) = Ok (Fin (cdf c))) /\
    (forall x, 0 <= x <= 1 -> Sample_Scattering_Angle_Nucleus Integrate Find_Root s (Fin x) t (Fin v) = Ok (Fin (sample x))).
Proof.
  intros HQ HR Hr HI HM HM0 Hv HS. destruct (low_mass s) eqn:Hl.
  { eapply closed_nucleus; eauto. }
  specialize (HS eq_refl).
  assert (B : exists d T, (forall x, 0 <= d x) /\
    base_setting s m M v (Sigma_Total_Nucleus Integrate s t (Fin v)) (fun q => dSigma_dq2_Nucleus s q t (Fin v)) d T).
  { unfold sees in HS. destruct (kind s) eqn:Hk.
    - destruct HI as [HI|HI]; [discriminate|].
      destruct (heavy_setting Integrate s t m p n se mm M v) as (T & HT & _ & _ & B); auto.
      exists (d_heavy s t mm p n v), T. split; [intros; apply d_heavy_pos; auto|]. apply B. apply Rgt_not_eq.
      apply (heavy_total_positive s t mm p n v (q2_max m M v) T); auto. apply q2_max_pos; auto. apply Hr.
    - destruct HS as (j & sp & sn & Hj & Hsp & Hsn & Hj0 & HK). eapply SD_setting; eauto. }
  destruct B as (d & T & Hd & B).
  destruct (base_distribution Integrate _ _ _ _ _ _ _ _ HQ B) as (pdf & cdf & Hf & C1 & CC & HP).
  destruct (HP (fun x _ => Hd x)) as [HA HMo].
  destruct (base_sampling Integrate Find_Root _ _ _ _ _ _ _ _ HQ HR B (fun x _ => Hd x)) as (cdf' & sample & Hc' & HI' & HSm).
  assert (EC : forall c, -1 <= c <= 1 -> cdf' c = cdf c).
  { intros c Hc. destruct (Hf c Hc) as (_ & E & _). rewrite (Hc' c Hc) in E. apply Ok_inj, Fin_inj in E. auto. }
  exists pdf, cdf, sample. split; [auto|]. split.
  - destruct HI' as [I1 I2]. split; auto. intros xi Hxi. destruct (I1 xi Hxi) as [R E]. split; auto. rewrite <- EC; auto.
  - assert (D : kind s = SD \/ IR_divergent s = false).
    { destruct HI as [HI|HI]; [auto|right]. unfold IR_divergent. destruct HI as [E | [E _]]; rewrite E; reflexivity. }
    assert (CN : forall c, CDF_Scattering_Angle_Nucleus Integrate s c t (Fin v) =
      CDF_Angle_Base Integrate s (Fin M) (Fin v) (Sigma_Total_Nucleus Integrate s t (Fin v)) (fun q => dSigma_dq2_Nucleus s q t (Fin v)) c).
    { intros c. unfold CDF_Scattering_Angle_Nucleus. rewrite Hl, HM. destruct (kind s); auto.
      destruct D as [D|D]; [discriminate|]. rewrite D; auto. }
    split.
    + intros c Hc. destruct (Hf c Hc) as (E1 & E2 & _). rewrite CN, E2. split; auto.
      unfold PDF_Scattering_Angle_Nucleus. rewrite Hl, HM. destruct (kind s); auto.
      destruct D as [D|D]; [discriminate|]. rewrite D; auto.
    + intros x Hx. rewrite <- (HSm x Hx). unfold Sample_Scattering_Angle_Nucleus. rewrite Hl.
      assert (FE : (fun c => CDF_Scattering_Angle_Nucleus Integrate s c t (Fin v)) =
        CDF_Angle_Base Integrate s (Fin M) (Fin v) (Sigma_Total_Nucleus Integrate s t (Fin v)) (fun q => dSigma_dq2_Nucleus s q t (Fin v)))
        by (apply FunctionalExtensionality.functional_extensionality; auto).
      rewrite FE. destruct (kind s); auto. destruct D as [D|D]; [discriminate|]. rewrite D; auto.
Qed.

(** * The closed densities are those of the particle's own differential cross section *)
Lemma closed_is_own Integrate s t m p n se mm M v c : kind s = SI -> low_mass s = true -> regular s m p n se mm -> IR_finite s mm ->
  imass t = Fin M -> 0 < M -> 0 < v -> sees s t p n -> -1 <= c <= 1 ->
  PDF_Scattering_Angle_Nucleus Integrate s (Fin c) t (Fin v) =
  PDF_Angle_Base s (imass t) (Fin v) (Sigma_Total_Nucleus Integrate s t (Fin v)) (fun q => dSigma_dq2_Nucleus s q t (Fin v)) (Fin c).
Proof.
  intros Hk Hl Hr HI HM HM0 Hv HS Hc. unfold sees in HS. rewrite Hk in HS.
  assert (Hr' := Hr). destruct Hr' as (Hm & Hm0 & Hp & Hn & He & Hmm).
  set (K := p * IZR (iZ t) + n * IZR (u32 (iA t - iZ t))) in *.
  assert (HK : SI_coupling s t = Fin K) by (apply SI_coupling_fin; auto).
  assert (hp := PI_RGT_0). assert (hq := q2_max_pos m M v Hm0 HM0 Hv). set (Q := q2_max m M v) in *.
  assert (P : 0 < 1 / 4 / PI / v / v * K ^ 2).
  { apply Rmult_lt_0_compat; [|apply pow2_gt_0; auto]. unfold Rdiv. repeat (apply Rmult_lt_0_compat; [|apply Rinv_0_lt_compat; lra]). lra. }
  assert (FP : 0 < FF2_int s mm Q) by (apply FF2_int_pos; auto).
  assert (B : base_setting s m M v (Sigma_Total_Nucleus Integrate s t (Fin v)) (fun q => dSigma_dq2_Nucleus s q t (Fin v))
     (fun x => 1 / 4 / PI / v / v * K ^ 2 * FF2 s mm x) (1 / 4 / PI / v / v * K ^ 2 * FF2_int s mm Q)).
  { unfold base_setting. fold Q. repeat (split; [auto; fail|]). split; [|split; [|split]].
    - intros x Hx. eapply dSigma_N_SI; eauto; lra.
    - apply scal_RInt, FF2_RInt; auto; lra.
    - eapply total_N_SI; eauto.
    - apply Rgt_not_eq, Rmult_lt_0_compat; auto. }
  rewrite HM, (base_pdf_eq _ _ _ _ _ _ _ _ c B Hc). unfold PDF_Scattering_Angle_Nucleus. rewrite Hk, Hl.
  unfold pdf_base. rewrite HM, (q2max_of_eq s m M v) by auto. fold Q. unfold IR_divergent.
  destruct HI as [E|[E H0]]; unfold FF2, FF2_int in *; rewrite E in *; cbn [String.eqb Ascii.eqb Bool.eqb negb andb] in *.
  - do 2 f_equal. replace (Q / 2 / (1 / 4 / PI / v / v * K ^ 2 * Q) * (1 / 4 / PI / v / v * K ^ 2 * 1)) with (1 / 2); [lra|].
    field. repeat split; lra.
  - rewrite (pdf_med_eq s mm) by (auto; lra). do 2 f_equal. unfold pdf_med.
    assert (Pm : 0 < mm * mm) by (apply Rlt_0_sqr; auto). assert (h := med_denominator (mm * mm) Q c Pm ltac:(lra) ltac:(lra)). assert (hr := qr_pos).
    assert (qr * qr + mm * mm <> 0) by nra.
    assert (K <> 0) by auto. field. repeat split; try lra; nra.
Qed.


(** * Refutations *)
(** The particle obtained from a fresh one by choosing light mass and the general form factor without a mediator mass. *)
Definition massless : particle :=
  mkParticle SI true (Fin 10) (Fin 1) true (Fin c0) (Fin c0) (Fin 1) true (Fin 0.5) (Fin 0.5)
             (Fin (1 / 10 ^ 40 * cm * cm)) "General" (Fin 0).
Lemma massless_reached : prun start [PLow_Mass true; PForm_Factor "General" (Fin 0)] = Ok massless.
Proof.
  rewrite start_eq. cbn [prun fold_left bind pstep kind with_low_mass]. unfold Set_FormFactor_DM.
  cbn [String.eqb Ascii.eqb Bool.eqb orb with_FF FF_DM andb]. rewrite xlt_false by lra. reflexivity.
Qed.
Lemma massless_reachable : reachable massless.
Proof.
  exists SI, 10, 1, [PLow_Mass true; PForm_Factor "General" (Fin 0)]. split; [lra|]. split; [lra|]. split; [|exact massless_reached].
  repeat constructor. 
Qed.

Lemma massless_not_normalised Integrate t M v : imass t = Fin M -> 0 < M -> 0 < v ->
  (forall c, -1 <= c < 1 -> PDF_Scattering_Angle_Nucleus Integrate massless (Fin c) t (Fin v) = Ok (Fin 0)) /\
  CDF_Scattering_Angle_Nucleus Integrate massless (Fin 1) t (Fin v) = Ok NaN.
Proof.
  intros HM HM0 Hv.
  assert (hq := q2_max_pos 10 M v ltac:(lra) HM0 Hv).
  unfold PDF_Scattering_Angle_Nucleus, CDF_Scattering_Angle_Nucleus. rewrite HM, (q2max_of_eq massless 10 M v) by (auto; lra).
  cbn [kind massless IR_divergent FF_DM low_mass String.eqb Ascii.eqb Bool.eqb negb andb]. split.
  - intros c Hc. unfold PDF_Angle_General. cbn [mMediator massless]. rewrite !xmul_fin, xsub_fin, xmul_fin, !xadd_fin, xpow_fin, xmul_fin.
    rewrite xdiv_fin; [do 2 f_equal; unfold Rdiv; ring|]. apply pow_nonzero. assert (0 < q2_max 10 M v * (1 - c)) by (apply Rmult_lt_0_compat; lra). lra.
  - unfold CDF_Angle_General. cbn [mMediator massless]. rewrite !xmul_fin, xsub_fin, !xadd_fin, !xmul_fin, xadd_fin.
    replace (2 * (0 * 0) + q2_max 10 M v * (1 - 1)) with 0 by ring. rewrite xdiv_zero. unfold inf_sign. rewrite rpos_false, rneg_false by lra. reflexivity.
Qed.

Lemma no_distribution (pdf cdf : R -> R) : angular_distribution pdf cdf -> (forall c, -1 <= c < 1 -> pdf c = 0) -> False.
Proof.
  intros (_ & H & E) Z. assert (I := H 1 ltac:(lra)). assert (Z0 : is_RInt pdf (-1) 1 0).
  { apply is_RInt_zero. intros x Hx. rewrite Rmin_left, Rmax_right in Hx by lra. apply Z; lra. }
  rewrite <- (is_RInt_unique _ _ _ _ I), (is_RInt_unique _ _ _ _ Z0) in E. lra.
Qed.

Lemma massless_refutes Integrate t M v : imass t = Fin M -> 0 < M -> 0 < v ->
  ~ exists pdf cdf, angular_distribution pdf cdf /\
    forall c, -1 <= c <= 1 -> PDF_Scattering_Angle_Nucleus Integrate massless (Fin c) t (Fin v) = Ok (Fin (pdf c)).
Proof.
  intros HM HM0 Hv (pdf & cdf & HA & HP). destruct (massless_not_normalised Integrate t M v HM HM0 Hv) as [Z _].
  apply (no_distribution pdf cdf HA). intros c Hc. specialize (HP c ltac:(lra)). rewrite Z in HP by auto.
  apply Ok_inj, Fin_inj in HP. auto.
Qed.

Definition light : particle :=
  mkParticle SI true (Fin 10) (Fin 1) true (Fin c0) (Fin c0) (Fin 1) true (Fin 0.5) (Fin 0.5)
             (Fin (1 / 10 ^ 40 * cm * cm)) "Contact" (Fin 0).
Lemma light_reachable : reachable light.
Proof.
  exists SI, 10, 1, [PLow_Mass true]. split; [lra|]. split; [lra|]. split; [repeat constructor|].
  change (Particle_ctor SI (Fin 10) (Fin 1)) with start. rewrite start_eq. reflexivity.
Qed.
Lemma light_regular : regular light 10 c0 c0 (1 / 10 ^ 40 * cm * cm) 0.
Proof. unfold regular; cbn. repeat split; lra. Qed.

Lemma closed_cdf_not_clamped Integrate t v :
  CDF_Scattering_Angle_Nucleus Integrate light (Fin 2) t v = Ok (Fin 1.5) /\
  CDF_Scattering_Angle_Nucleus Integrate light (Fin (-2)) t v = Ok (Fin (-0.5)) /\
  CDF_Scattering_Angle_Electron light (Fin 2) v = Ok (Fin 1.5).
Proof.
  unfold CDF_Scattering_Angle_Nucleus, CDF_Scattering_Angle_Electron.
  cbn [kind light IR_divergent FF_DM low_mass String.eqb Ascii.eqb Bool.eqb negb andb].
  rewrite !xadd_fin, !xdiv_fin by lra. repeat split; do 2 f_equal; lra.
Qed.

(** Heavy targets go through the generic, clamped function. *)
Lemma heavy_clamped Integrate s t v c : low_mass s = false -> (kind s = SD \/ FF_DM s = "Contact"%string \/ FF_DM s = "General"%string) ->
  (c <= -1 -> CDF_Scattering_Angle_Nucleus Integrate s (Fin c) t v = Ok (Fin 0)) /\
  (1 <= c -> CDF_Scattering_Angle_Nucleus Integrate s (Fin c) t v = Ok (Fin 1)).
Proof.
  intros Hl HF.
  assert (E : CDF_Scattering_Angle_Nucleus Integrate s (Fin c) t v =
    CDF_Angle_Base Integrate s (imass t) v (Sigma_Total_Nucleus Integrate s t v) (fun q => dSigma_dq2_Nucleus s q t v) (Fin c)).
  { unfold CDF_Scattering_Angle_Nucleus, IR_divergent. rewrite Hl. cbn [negb].
    destruct (kind s); auto. destruct HF as [HF|[-> | ->]]; [discriminate| |]; reflexivity. }
  rewrite E. destruct (base_clamped Integrate s (imass t) v (Sigma_Total_Nucleus Integrate s t v) (fun q => dSigma_dq2_Nucleus s q t v) (Fin c)) as [B1 B2].
  split; intros H; [apply B1|apply B2]; apply xle_true; auto.
Qed.

(** A sample target: xenon 131, with its spin data. *)
Definition Xe131 : Isotope := mkIsotope 54 131 (Fin 0.21232) (Fin 1.5) (Fin (-0.009)) (Fin (-0.272)) "Xe-131" (Fin (131 * mNucleon)).
Lemma Xe131_mass_pos : 0 < 131 * mNucleon. Proof. assert (h := mNucleon_pos); lra. Qed.

(** * Statements in the form used by the property file *)
Lemma closed_nucleus_distribution Integrate s t m p n se mm M v : regular s m p n se mm -> low_mass s = true ->
  (kind s = SD \/ IR_finite s mm) -> imass t = Fin M -> 0 < M ->
  exists pdf cdf, angular_distribution pdf cdf /\
    forall c, -1 <= c <= 1 -> PDF_Scattering_Angle_Nucleus Integrate s (Fin c) t (Fin v) = Ok (Fin (pdf c)) /\
                              CDF_Scattering_Angle_Nucleus Integrate s (Fin c) t (Fin v) = Ok (Fin (cdf c)).
Proof.
  intros Hr Hl HI HM HM0. destruct (closed_nucleus Integrate reference_Find_Root s t m p n se mm M v Hr Hl HI HM HM0) as (pdf & cdf & _ & H & _ & E & _).
  exists pdf, cdf; auto.
Qed.
Lemma closed_electron_distribution s m p n se mm v : regular s m p n se mm -> (kind s = SD \/ IR_finite s mm) ->
  exists pdf cdf, angular_distribution pdf cdf /\
    forall c, -1 <= c <= 1 -> PDF_Scattering_Angle_Electron s (Fin c) (Fin v) = Ok (Fin (pdf c)) /\
                              CDF_Scattering_Angle_Electron s (Fin c) (Fin v) = Ok (Fin (cdf c)).
Proof.
  intros Hr HI. destruct (closed_electron s m p n se mm v Hr HI) as (pdf & cdf & _ & H & _ & E & _). exists pdf, cdf; auto.
Qed.
Lemma electron_sampling s m p n se mm v : regular s m p n se mm -> (kind s = SD \/ IR_finite s mm) ->
  exists cdf sample, inverse_sampling cdf sample /\
    (forall c, -1 <= c <= 1 -> CDF_Scattering_Angle_Electron s (Fin c) (Fin v) = Ok (Fin (cdf c))) /\
    (forall x, 0 <= x <= 1 -> Sample_Scattering_Angle_Electron s (Fin x) (Fin v) = Ok (Fin (sample x))).
Proof.
  intros Hr HI. destruct (closed_electron s m p n se mm v Hr HI) as (pdf & cdf & sa & _ & H & E & F). exists cdf, sa. split; [auto|].
  split; auto. intros c Hc; apply E; auto.
Qed.
Lemma nucleus_sampling Integrate Find_Root s t m p n se mm M v : ideal_quadrature Integrate -> ideal_root_finder Find_Root ->
  regular s m p n se mm -> (kind s = SD \/ IR_finite s mm) -> imass t = Fin M -> 0 < M -> 0 < v ->
  (low_mass s = false -> sees s t p n) ->
  exists cdf sample, inverse_sampling cdf sample /\
    (forall c, -1 <= c <= 1 -> CDF_Scattering_Angle_Nucleus Integrate s (Fin c) t (Fin v) = Ok (Fin (cdf c))) /\
    (forall x, 0 <= x <= 1 -> Sample_Scattering_Angle_Nucleus Integrate Find_Root s (Fin x) t (Fin v) = Ok (Fin (sample x))).
Proof.
  intros HQ HR Hr HI HM HM0 Hv HS.
  destruct (nucleus_any Integrate Find_Root s t m p n se mm M v HQ HR Hr HI HM HM0 Hv HS) as (pdf & cdf & sa & _ & H & E & F).
  exists cdf, sa. split; [auto|]. split; auto. intros c Hc; apply E; auto.
Qed.
Lemma massless_mediator : exists s, reachable s /\ low_mass s = true /\ FF_DM s = "General"%string /\
  forall Integrate t M v, imass t = Fin M -> 0 < M -> 0 < v ->
  (~ exists pdf cdf, angular_distribution pdf cdf /\
     forall c, -1 <= c <= 1 -> PDF_Scattering_Angle_Nucleus Integrate s (Fin c) t (Fin v) = Ok (Fin (pdf c))) /\
  CDF_Scattering_Angle_Nucleus Integrate s (Fin 1) t (Fin v) = Ok NaN.
Proof.
  exists massless. split; [exact massless_reachable|]. split; [reflexivity|]. split; [reflexivity|]. intros Integrate t M v HM HM0 Hv. split.
  - eapply massless_refutes; eauto.
  - apply (massless_not_normalised Integrate t M v); auto.
Qed.
Lemma heavy_nuclei Integrate s t m p n se mm M v : ideal_quadrature Integrate ->
  kind s = SI -> low_mass s = false -> regular s m p n se mm -> IR_finite s mm -> imass t = Fin M -> 0 < M -> 0 < v ->
  sees s t p n ->
  exists d T, 0 < T /\ (forall x, 0 <= d x) /\
    base_setting s m M v (Sigma_Total_Nucleus Integrate s t (Fin v)) (fun q => dSigma_dq2_Nucleus s q t (Fin v)) d T.
Proof.
  intros HQ Hk Hl Hr HI HM HM0 Hv HS. unfold sees in HS. rewrite Hk in HS.
  destruct (heavy_setting Integrate s t m p n se mm M v) as (T & HT & _ & _ & B); auto.
  assert (P : 0 < T) by (apply (heavy_total_positive s t mm p n v (q2_max m M v) T); auto; apply q2_max_pos; auto; apply Hr).
  exists (d_heavy s t mm p n v), T. split; [auto|]. split; [intros; apply d_heavy_pos; auto|]. apply B. lra.
Qed.
Lemma cdf_inside Integrate s t m p n se mm M v : ideal_quadrature Integrate ->
  regular s m p n se mm -> (kind s = SD \/ IR_finite s mm) -> imass t = Fin M -> 0 < M -> 0 < v ->
  (low_mass s = false -> sees s t p n) ->
  forall x y, -1 <= x -> x <= y -> y <= 1 ->
  exists a b, CDF_Scattering_Angle_Nucleus Integrate s (Fin x) t (Fin v) = Ok (Fin a) /\
    CDF_Scattering_Angle_Nucleus Integrate s (Fin y) t (Fin v) = Ok (Fin b) /\ 0 <= a <= b /\ b <= 1.
Proof.
  intros HQ Hr HI HM HM0 Hv HS x y Hx Hxy Hy.
  destruct (nucleus_any Integrate reference_Find_Root s t m p n se mm M v HQ ideal_root_finder_exists Hr HI HM HM0 Hv HS)
    as (pdf & cdf & sa & (HP & HG & H1) & _ & E & _).
  exists (cdf x), (cdf y). destruct (E x ltac:(lra)) as [_ ->]. destruct (E y ltac:(lra)) as [_ ->]. split; [auto|]. split; [auto|].
  assert (EX : ex_RInt pdf (-1) 1) by (exists (cdf 1); apply HG; lra).
  destruct (RInt_monotone pdf (-1) 1 x y (cdf x) (cdf y)) as [A B]; auto; [apply HG; lra|apply HG; lra|].
  destruct (RInt_monotone pdf (-1) 1 y 1 (cdf y) (cdf 1)) as [A' B']; auto; [lra|lra|apply HG; lra|apply HG; lra|]. lra.
Qed.
Lemma FF_names s q : (exists x, FormFactor2_DM s q = Ok x) <->
  In (FF_DM s) ["Contact"; "General"; "Long-Range"; "Electric-Dipole"]%string.
Proof.
  unfold FormFactor2_DM. split.
  - intros (x & H). destruct (FF_DM s =? "Contact")%string eqn:E1; [apply String.eqb_eq in E1; rewrite E1; cbn; auto|].
    destruct (FF_DM s =? "General")%string eqn:E2; [apply String.eqb_eq in E2; rewrite E2; cbn; auto|].
    destruct (FF_DM s =? "Long-Range")%string eqn:E3; [apply String.eqb_eq in E3; rewrite E3; cbn; auto|].
    destruct (FF_DM s =? "Electric-Dipole")%string eqn:E4; [apply String.eqb_eq in E4; rewrite E4; cbn; auto 6|].
    discriminate.
  - intros [<-|[<-|[<-|[<-|[]]]]]; cbn; eauto.
Qed.
