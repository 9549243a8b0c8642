(** Lemmas about SHM++ and about velocity densities. *)
From Coq Require Import Reals List ZArith String Lra Lia Bool Psatz.
From Coquelicot Require Import Coquelicot.
From Verif Require Import Base XrFacts Analysis Quadrature Erf Astronomy_Model Astronomy_Proofs Distribution_Model Interpolation
  Halo_Model Halo_Proofs Eta_Proofs HaloState_Proofs.
Import ListNotations.
Local Open Scope R_scope.

(** * C24: the tabulated eta function is not refreshed *)
Lemma ctor_table I I2 rho v0 vo ve e b s : SHMpp_of_speed I I2 rho v0 vo ve e b = Ok s -> 0 < ve + vo ->
  exists p r, p_table s = map node (p :: r) /\ increasing (p :: r) /\ fst p = 0 /\ fst (last r p) = ve + vo.
Proof.
  unfold SHMpp_of_speed, SHMpp_of_base, Interpolate_Eta_Function_S. intros H P.
  destruct (map_res _ _) as [t| | |] eqn:E; cbn [bind] in H; try discriminate. injection H as <-. cbn [p_table].
  cbn [p_base Normalize_PDF_pp Compute_Sigmas h_dmin h_dmax Normalize_PDF renamed SHM_of_speed] in E. rewrite xadd_fin in E.
  apply linear_table in E; auto.
Qed.

Lemma stale_eta : forall Integrate Integrate_2D Interp s0 s1 fresh, ideal_interpolation Interp ->
  SHMpp_of_speed Integrate Integrate_2D 1 1 1 2 (1/5) (9/10) = Ok s0 ->
  ppstep s0 (PBase (Set_Escape_Velocity 4)) = Ok s1 ->
  SHMpp_of_speed Integrate Integrate_2D 1 1 1 4 (1/5) (9/10) = Ok fresh ->
  Eta_Function_pp Interp s1 (Fin 4) = Exit /\ exists y, Eta_Function_pp Interp fresh (Fin 4) = Ok y.
Proof.
  intros I I2 J s0 s1 fresh HJ H0 H1 HF.
  destruct (ctor_table _ _ _ _ _ _ _ _ _ H0 ltac:(lra)) as (p & r & T & S & F & L).
  destruct (ctor_table _ _ _ _ _ _ _ _ _ HF ltac:(lra)) as (p' & r' & T' & S' & F' & L').
  assert (Q := ppstep_table _ _ _ H1). 
  assert (C0 := H0). rewrite SHMpp_of_speed_eq in C0. apply ctor_core in C0. assert (CF := HF). rewrite SHMpp_of_speed_eq in CF. apply ctor_core in CF.
  split.
  - cbn in H1. injection H1 as <-. cbn [p_table Normalize_PDF_pp put_base] in Q.
    unfold Eta_Function_pp. rewrite C0.
    cbn [Normalize_PDF_pp put_base put_vesc with_table pp_core Compute_Sigmas p_base Normalize_PDF renamed SHM_of_speed h_dmin h_dmax h_vobs p_table p_eta].
    rewrite xadd_fin, !xlt_false by lra. rewrite T. destruct (HJ p r S) as [E _]. rewrite E by lra. reflexivity.
  - unfold Eta_Function_pp. rewrite CF.
    cbn [with_table pp_core Normalize_PDF_pp Compute_Sigmas p_base Normalize_PDF renamed SHM_of_speed h_dmin h_dmax p_table p_eta].
    rewrite xadd_fin, !xlt_false by lra. rewrite T'. destruct (HJ p' r' S') as [_ [E _]].
    destruct (E 4 ltac:(lra)) as [y ->]. cbn [bind]. eauto.
Qed.

Definition reference_Integrate_2D (f : xr -> xr -> res xr) (a b c d : xr) : res xr :=
  Ok (Fin (RInt (fun x => RInt (fun y => match f (Fin x) (Fin y) with Ok (Fin z) => z | _ => 0 end) (val c) (val d)) (val a) (val b))).

Lemma reference_ctor rho v0 vo ve e b : exists s, SHMpp_of_speed reference_Integrate reference_Integrate_2D rho v0 vo ve e b = Ok s.
Proof.
  unfold SHMpp_of_speed, SHMpp_of_base, Interpolate_Eta_Function_S.
  match goal with |- context [map_res ?f ?l] => destruct (map_res f l) as [t| | |] eqn:E end; cbn [bind]; eauto; exfalso; revert E;
    match goal with |- map_res ?f ?l = _ -> _ => generalize l; intros l0; induction l0 as [|v l0 IH]; cbn; [discriminate|] end;
    unfold Eta_Function_S at 1; destruct (_ || _)%bool; cbn [bind reference_Integrate];
    match goal with |- context [map_res ?f ?l] => destruct (map_res f l) end; cbn; auto; discriminate.
Qed.

(** The part of the eta function that does follow the parameters. *)
Lemma eta_composition Interp s v : Eta_Function_pp Interp s v =
  if xlt v (h_dmin (p_base s)) then Exit else if xlt (h_dmax (p_base s)) v then Ok (Fin 0)
  else let* y := Interp (p_table s) v in Ok (xadd (xmul (xsub (Fin 1) (p_eta s)) (Eta_Function_SHM (p_base s) v)) (xmul (p_eta s) y)).
Proof. reflexivity. Qed.

(** * The sausage normalisation *)
Definition ns (sr st k v : R) : R := erf (v / sqrt 2 / sr) - 1 / (sqrt 2 * sr * k) * bell (sqrt 2 * st) v * erfi (v * k).

Section Sausage.
Variables v0 b sr st ve : R.
Hypothesis (Hv0 : 0 < v0) (Hb : 0 < b < 1).
Hypothesis (Esr : sigma_r_of (Fin v0) (Fin b) = Fin sr) (Est : sigma_theta_of (Fin v0) (Fin b) = Fin st).
Let k := 1 / sqrt 2 / sr * sqrt (b / (1 - b)).

Lemma sr_st : 0 < sr /\ 0 < st /\ st ^ 2 = (1 - b) * sr ^ 2.
Proof.
  destruct (sigmas v0 b Hv0 (proj2 Hb)) as (sr' & st' & E1 & E2 & P1 & P2 & R1 & R2).
  rewrite Esr in E1. rewrite Est in E2. apply Fin_inj in E1, E2. subst sr' st'. split; auto. split; auto.
  apply Rmult_eq_reg_r with (/ sr ^ 2); [|apply Rinv_neq_0_compat, pow_nonzero; lra].
  replace (st ^ 2 * / sr ^ 2) with (1 - (1 - st ^ 2 / sr ^ 2)) by (unfold Rdiv; ring). rewrite R1.
  field. lra.
Qed.
Lemma sqrt2 : 0 < sqrt 2 /\ sqrt 2 * sqrt 2 = 2.
Proof. split; [apply sqrt_lt_R0; lra|apply sqrt_sqrt; lra]. Qed.
Lemma k_pos : 0 < k.
Proof.
  destruct sr_st as [A _]. destruct sqrt2 as [B _]. unfold k. apply Rmult_lt_0_compat.
  - repeat (apply Rdiv_lt_0_compat; auto); lra.
  - apply sqrt_lt_R0, Rdiv_lt_0_compat; lra.
Qed.
(** k^2 = 1/(2 st^2) - 1/(2 sr^2) *)
Lemma k_sq : k * k = 1 / (2 * st ^ 2) - 1 / (2 * sr ^ 2).
Proof.
  destruct sr_st as (A & B & E). destruct sqrt2 as [C D]. rewrite E. unfold k.
  replace (1 / sqrt 2 / sr * sqrt (b / (1 - b)) * (1 / sqrt 2 / sr * sqrt (b / (1 - b)))) with
    (1 / (sqrt 2 * sqrt 2) / (sr * sr) * (sqrt (b / (1 - b)) * sqrt (b / (1 - b)))) by (field; lra).
  rewrite D, sqrt_sqrt by (left; apply Rdiv_lt_0_compat; lra). field. lra.
Qed.
Lemma ratio_k : sqrt ((1 - b) / b) = 1 / (sqrt 2 * sr * k).
Proof.
  destruct sr_st as (A & B & E). destruct sqrt2 as [C D]. unfold k.
  assert (S : 0 < sqrt (b / (1 - b))) by (apply sqrt_lt_R0, Rdiv_lt_0_compat; lra).
  replace ((1 - b) / b) with (/ (b / (1 - b))) by (field; lra). rewrite sqrt_inv. field. lra.
Qed.

Lemma N_S_fin : N_S_of (Fin ve) (Fin b) (Fin sr) (Fin st) = Fin (ns sr st k ve).
Proof.
  destruct sr_st as (A & B & E). destruct sqrt2 as [C D]. assert (K := k_pos). unfold N_S_of.
  rewrite !xsqrt_fin by lra. rewrite xsub_fin. repeat (rewrite xdiv_fin by lra).
  assert (Q1 : 0 <= (1 - b) / b) by (left; apply Rdiv_lt_0_compat; lra).
  assert (Q2 : 0 <= b / (1 - b)) by (left; apply Rdiv_lt_0_compat; lra).
  rewrite !xsqrt_fin by auto. cbn [xerf]. rewrite !xopp_fin, !xmul_fin. repeat (rewrite xdiv_fin by lra).
  rewrite xexp_fin. cbn [xerfi]. rewrite !xmul_fin, xsub_fin. f_equal. unfold ns. rewrite ratio_k.
  replace (exp (- ve * ve / 2 / st / st)) with (bell (sqrt 2 * st) ve).
  - replace (ve / sqrt 2 / sr * sqrt (b / (1 - b))) with (ve * k) by (unfold k; field; lra). reflexivity.
  - unfold bell. f_equal. replace (ve / (sqrt 2 * st) * (ve / (sqrt 2 * st))) with (ve * ve / (sqrt 2 * sqrt 2) / (st * st)) by (field; lra).
    rewrite D. field. lra.
Qed.

Lemma bell_product v : bell (sqrt 2 * st) v * exp (v * k * (v * k)) = bell (sqrt 2 * sr) v.
Proof.
  destruct sr_st as (A & B & E). destruct sqrt2 as [C D]. unfold bell. rewrite <- exp_plus. f_equal.
  replace (v * k * (v * k)) with (v * v * (k * k)) by ring. rewrite k_sq.
  replace (v / (sqrt 2 * st) * (v / (sqrt 2 * st))) with (v * v / (sqrt 2 * sqrt 2) / (st * st)) by (field; lra).
  replace (v / (sqrt 2 * sr) * (v / (sqrt 2 * sr))) with (v * v / (sqrt 2 * sqrt 2) / (sr * sr)) by (field; lra).
  rewrite D. field. lra.
Qed.

Definition ns' v := 1 / (sqrt 2 * sr * k) * (v / (st * st)) * bell (sqrt 2 * st) v * erfi (v * k).
Lemma ns_derive v : is_derive (ns sr st k) v (ns' v).
Proof.
  destruct sr_st as (A & B & E). destruct sqrt2 as [C D]. assert (K := k_pos). assert (P := sqrt_PI_pos).
  assert (Z : 0 < sqrt 2 * st) by (apply Rmult_lt_0_compat; auto).
  unfold ns, ns'. auto_derive.
  - repeat split; auto; try apply erf_ex_derive; try apply erfi_ex_derive. apply bell_ex_derive; lra.
  - change (fun x => erf x) with erf. change (fun x => erfi x) with erfi. change (fun x => bell (sqrt 2 * st) x) with (bell (sqrt 2 * st)).
    rewrite Derive_erf, Derive_erfi, Derive_bell by lra.
    replace (exp (- (v * / sqrt 2 * / sr * (v * / sqrt 2 * / sr)))) with (bell (sqrt 2 * sr) v) by (unfold bell; f_equal; field; lra).
    rewrite <- bell_product.
    replace (- (2 * v / (sqrt 2 * st) / (sqrt 2 * st))) with (- (v / (st * st)))
      by (replace (2 * v / (sqrt 2 * st) / (sqrt 2 * st)) with (2 * v / (sqrt 2 * sqrt 2) / (st * st)) by (field; lra); rewrite D; field; lra).
    field. lra.
Qed.
Lemma ns_0 : ns sr st k 0 = 0.
Proof. unfold ns. replace (0 / sqrt 2 / sr) with 0 by (unfold Rdiv; ring). rewrite Rmult_0_l, erf_0, erfi_0. ring. Qed.
Lemma erfi_pos x : 0 < x -> 0 < erfi x.
Proof.
  intros H. rewrite <- erfi_0. apply (derive_increasing erfi (fun x => 2 / sqrt PI * exp (x * x))); auto.
  - intros; apply erfi_derive.
  - intros y _. assert (h := sqrt_PI_pos). apply Rmult_lt_0_compat; [|apply exp_pos]. apply Rdiv_lt_0_compat; lra.
Qed.
Lemma ns'_pos v : 0 < v -> 0 < ns' v.
Proof.
  intros Hv. destruct sr_st as (A & B & E). destruct sqrt2 as [C D]. assert (K := k_pos). unfold ns'.
  apply Rmult_lt_0_compat; [apply Rmult_lt_0_compat; [apply Rmult_lt_0_compat|apply bell_pos]|].
  - apply Rdiv_lt_0_compat; [apply Rlt_0_1|]. apply Rmult_lt_0_compat; [apply Rmult_lt_0_compat; auto|exact K].
  - apply Rdiv_lt_0_compat; [auto|]. apply Rmult_lt_0_compat; auto.
  - apply erfi_pos. apply Rmult_lt_0_compat; [auto|exact K].
Qed.
Lemma ns_pos v : 0 < v -> 0 < ns sr st k v.
Proof.
  intros Hv. rewrite <- ns_0. apply (derive_increasing (ns sr st k) ns'); auto.
  - intros; apply ns_derive. - intros; apply ns'_pos; lra.
Qed.
Lemma ns'_continuous v : continuous ns' v.
Proof.
  destruct sr_st as (A & B & E). destruct sqrt2 as [C D].
  apply continuous_of_ex_derive. unfold ns'. auto_derive. repeat split; auto; [apply bell_ex_derive|apply erfi_ex_derive].
  assert (0 < sqrt 2 * st) by (apply Rmult_lt_0_compat; auto). lra.
Qed.

(** Angular integral of the density at speed v, with the polar axis along the radial direction. *)
Definition gauss_c v c := exp (- (v * c) * (v * c) / 2 / sr / sr - (v * v * (1 - c * c)) / 2 / st / st).
Lemma gauss_c_eq v c : gauss_c v c = bell (sqrt 2 * st) v * exp ((v * k * c) * (v * k * c)).
Proof.
  destruct sr_st as (A & B & E). destruct sqrt2 as [C D]. unfold gauss_c, bell. rewrite <- exp_plus. f_equal.
  replace (v * k * c * (v * k * c)) with (v * v * c * c * (k * k)) by ring. rewrite k_sq.
  replace (v / (sqrt 2 * st) * (v / (sqrt 2 * st))) with (v * v / (sqrt 2 * sqrt 2) / (st * st)) by (field; lra).
  rewrite D. field. lra.
Qed.
Lemma erfi_odd x : erfi (- x) = - erfi x.
Proof.
  assert (E := derive_zero_const (fun y => erfi (- y) + erfi y)). cbn beta in E.
  assert (H : forall x, is_derive (fun y => erfi (- y) + erfi y) x 0).
  { intros y. auto_derive; [split; [apply erfi_ex_derive|split; [apply erfi_ex_derive|auto]]|].
    change (fun x => erfi x) with erfi. rewrite !Derive_erfi.
    replace (- y * - y) with (y * y) by ring. ring. }
  specialize (E H x). rewrite Ropp_0, erfi_0 in E. lra.
Qed.
Lemma gauss_c_int v : 0 < v -> is_RInt (gauss_c v) (-1) 1 (bell (sqrt 2 * st) v * sqrt PI / (v * k) * erfi (v * k)).
Proof.
  intros Hv. assert (K := k_pos). assert (P := sqrt_PI_pos). assert (VK : 0 < v * k) by (apply Rmult_lt_0_compat; auto).
  set (F := fun c => bell (sqrt 2 * st) v * sqrt PI / (2 * (v * k)) * erfi (v * k * c)).
  replace (bell (sqrt 2 * st) v * sqrt PI / (v * k) * erfi (v * k)) with (F 1 - F (-1)).
  - apply RInt_by_derive; [lra| |]; intros c _.
    + rewrite gauss_c_eq. unfold F. auto_derive; [apply erfi_ex_derive|]. change (fun x => erfi x) with erfi. rewrite Derive_erfi.
      field. lra.
    + apply continuous_of_ex_derive. unfold gauss_c. auto_derive. auto.
  - unfold F. replace (v * k * -1) with (- (v * k)) by ring. replace (v * k * 1) with (v * k) by ring. rewrite erfi_odd. field. lra.
Qed.
End Sausage.

(** * Velocity densities *)
(** What every history leaves true of the sausage parameters. *)
Definition pp_consistent (s : SHMpp) (v0 vo ve e b : R) : Prop :=
  consistent (p_base s) v0 vo ve /\ p_eta s = Fin e /\ p_beta s = Fin b /\
  p_sr s = sigma_r_of (Fin v0) (Fin b) /\ p_st s = sigma_theta_of (Fin v0) (Fin b) /\ p_sp s = sigma_theta_of (Fin v0) (Fin b) /\
  p_NS s = N_S_of (Fin ve) (Fin b) (p_sr s) (p_st s).

Lemma core_consistent t rho v0 vel ve e b :
  pp_consistent (with_table t (pp_core (SHM_of_velocity rho v0 vel ve) e b)) v0 (vnorm vel) ve e b.
Proof. repeat split. Qed.

(** A velocity of speed v with polar axis along the radial (first) direction. *)
Definition radial_polar (v c phi : R) : vec3 :=
  V3 (v * c) (v * sqrt (1 - c * c) * sin phi) (v * sqrt (1 - c * c) * cos phi).
Lemma radial_perp v c phi : -1 <= c <= 1 ->
  vy (radial_polar v c phi) * vy (radial_polar v c phi) + vz (radial_polar v c phi) * vz (radial_polar v c phi) = v * v * (1 - c * c).
Proof.
  intros Hc. cbn. assert (S : sqrt (1 - c * c) * sqrt (1 - c * c) = 1 - c * c) by (apply sqrt_sqrt; nra).
  assert (T := sin2_cos2 phi). unfold Rsqr in T.
  replace (_ + _) with (v * v * (sqrt (1 - c * c) * sqrt (1 - c * c)) * (sin phi * sin phi + cos phi * cos phi)) by ring.
  rewrite S, T. ring.
Qed.
Lemma radial_norm v c phi : 0 <= v -> -1 <= c <= 1 -> vnorm (radial_polar v c phi) = v.
Proof.
  intros Hv Hc. unfold vnorm, vdot. assert (R := radial_perp v c phi Hc).
  replace (vx (radial_polar v c phi)) with (v * c) by reflexivity.
  replace (_ + _ + _) with (v * v); [apply sqrt_square; auto|]. rewrite Rplus_assoc, R. ring.
Qed.

Lemma sausage_value s v0 vo ve e b : pp_consistent s v0 vo ve e b -> 0 < v0 -> 0 < ve -> 0 < b < 1 ->
  exists C sr st, 0 < C /\ 0 < sr /\ 0 < st /\ p_sr s = Fin sr /\ p_st s = Fin st /\
    C = 1 / ns sr st (1 / sqrt 2 / sr * sqrt (b / (1 - b))) ve / (2 * PI * sqrt (2 * PI)) / sr / st / st /\
    forall w, PDF_Velocity_S s w = if Rlt_dec ve (vnorm w) then Fin 0
      else Fin (C * exp (- vx w * vx w / 2 / sr / sr - vz w * vz w / 2 / st / st - vy w * vy w / 2 / st / st)).
Proof.
  intros ((E0 & Eo & Ee & Ed & EM & EN) & He & Eb & Er & Et & Ep & ENS) H0 Hve Hb.
  destruct (sigmas v0 b H0 (proj2 Hb)) as (sr & st & E1 & E2 & P1 & P2 & _).
  assert (NP := ns_pos v0 b sr st H0 Hb E1 E2 ve Hve).
  assert (NF := N_S_fin v0 b sr st ve H0 Hb E1 E2).
  assert (P := PI_RGT_0). assert (S2 : 0 < sqrt (2 * PI)) by (apply sqrt_lt_R0; lra).
  assert (Z : 0 < 2 * PI * sqrt (2 * PI)) by (apply Rmult_lt_0_compat; lra).
  eexists _, sr, st. split; [|split; [exact P1|split; [exact P2|split; [rewrite Er; exact E1|split; [rewrite Et; exact E2|split; [reflexivity|]]]]]].
  - repeat (apply Rdiv_lt_0_compat; [|assumption]). lra.
  - intros w. unfold PDF_Velocity_S. rewrite Ee, ENS, Er, Et, Ep, E1, E2, NF.
    destruct (Rlt_dec ve (vnorm w)); [rewrite xlt_true by auto; reflexivity|]. rewrite xlt_false by lra.
    rewrite !xmul_fin. rewrite xsqrt_fin by lra. rewrite ?xopp_fin, ?xmul_fin. repeat (rewrite xdiv_fin by lra).
    rewrite !xsub_fin, xexp_fin, xmul_fin. reflexivity.
Qed.

Lemma sausage_normalised s v0 vo ve e b : pp_consistent s v0 vo ve e b -> 0 < v0 -> 0 < ve -> 0 < b < 1 ->
  exists f F, (forall w, PDF_Velocity_S s w = Fin (f w)) /\ (forall w, 0 <= f w) /\
    (forall v phi, 0 < v <= ve -> is_RInt (fun c => 2 * PI * v ^ 2 * f (radial_polar v c phi)) (-1) 1 (F v)) /\
    is_RInt F 0 ve 1.
Proof.
  intros HC H0 Hve Hb.
  destruct (sausage_value s v0 vo ve e b HC H0 Hve Hb) as (C & sr & st & PC & Psr & Pst & Er & Et & EC & V).
  assert (HC' := HC). destruct HC' as (_ & _ & _ & Er' & Et' & _). rewrite Er' in Er. rewrite Et' in Et.
  set (k := 1 / sqrt 2 / sr * sqrt (b / (1 - b))) in *.
  assert (K := k_pos v0 b sr st H0 Hb Er Et). fold k in K.
  assert (NP := ns_pos v0 b sr st H0 Hb Er Et ve Hve). fold k in NP.
  assert (PI0 := PI_RGT_0). assert (SP := sqrt_PI_pos). destruct sqrt2 as [S2 S22].
  assert (SS : sqrt (2 * PI) = sqrt 2 * sqrt PI) by (apply sqrt_mult; lra).
  set (f := fun w => if Rlt_dec ve (vnorm w) then 0 else C * exp (- vx w * vx w / 2 / sr / sr - vz w * vz w / 2 / st / st - vy w * vy w / 2 / st / st)).
  exists f, (fun v => ns' b sr st v / ns sr st k ve). split; [|split; [|split]].
  - intros w. rewrite V. unfold f. destruct (Rlt_dec ve (vnorm w)); reflexivity.
  - intros w. unfold f. destruct (Rlt_dec ve (vnorm w)); [lra|]. apply Rmult_le_pos; [lra|left; apply exp_pos].
  - intros v phi Hv.
    assert (G := gauss_c_int v0 b sr st H0 Hb Er Et v (proj1 Hv)). fold k in G.
    apply (is_RInt_ext (fun c => scal (2 * PI * v ^ 2 * C) (gauss_c sr st v c))).
    + intros c Hc. rewrite Rmin_left, Rmax_right in Hc by lra. unfold f. rewrite radial_norm by lra.
      destruct (Rlt_dec ve v); [lra|]. unfold scal; cbn; unfold mult; cbn. unfold gauss_c.
      rewrite Rmult_assoc. f_equal. f_equal. f_equal.
      assert (Q := radial_perp v c phi ltac:(lra)). cbn in Q.
      set (y := v * sqrt (1 - c * c) * sin phi) in *. set (z := v * sqrt (1 - c * c) * cos phi) in *.
      rewrite <- Q. field. lra.
    + replace (ns' b sr st v / ns sr st k ve) with (scal (2 * PI * v ^ 2 * C) (bell (sqrt 2 * st) v * sqrt PI / (v * k) * erfi (v * k)) : R).
      * apply (is_RInt_scal (V := R_NormedModule)). exact G.
      * unfold scal; cbn; unfold mult; cbn. rewrite EC. unfold ns'. fold k. rewrite SS. field. repeat split; lra.
  - replace 1 with (ns sr st k ve / ns sr st k ve - ns sr st k 0 / ns sr st k ve)
      by (assert (Z := ns_0 b sr st); fold k in Z; rewrite Z; field; lra).
    apply (RInt_by_derive (fun v => ns sr st k v / ns sr st k ve) (fun v => ns' b sr st v / ns sr st k ve)); [lra| |]; intros x Hx.
    + unfold Rdiv. apply (is_derive_ext (fun v => scal (/ ns sr st k ve) (ns sr st k v))); [intros; unfold scal; cbn; unfold mult; cbn; ring|].
      replace (ns' b sr st x * / ns sr st k ve) with (scal (/ ns sr st k ve) (ns' b sr st x) : R) by (unfold scal; cbn; unfold mult; cbn; ring).
      apply (is_derive_scal (fun v => ns sr st k v) x (/ ns sr st k ve)). apply (ns_derive v0 b sr st H0 Hb Er Et).
    + apply (continuous_mult (ns' b sr st) (fun _ => / ns sr st k ve)); [apply (ns'_continuous v0 b sr st H0 Hb Er Et)|apply continuous_const].
Qed.
