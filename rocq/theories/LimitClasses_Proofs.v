(** The upper limits of the detector classes. *)
From Coq Require Import Reals ZArith String Lia Lra Bool.
From Coquelicot Require Import Coquelicot.
From Coq Require Import List.
From Verif Require Import Base XrFacts Analysis Quadrature Nucleus_Model Nuclear_Model Particle_Model CrossSection_Model Distribution_Model Atom_Model
  Crystal_Model Rates_Model Detector_Model DetectorTypes_Model Particle_Proofs Poisson_Proofs Scaling_Proofs Couplings_Proofs DetectorWitness_Proofs Limits_Proofs
  Fiducial_Proofs LimitsWitness_Proofs LimitValue_Proofs Exposure_Proofs.
Import ListNotations.
Local Open Scope R_scope.

Lemma nuclear_limit_value FR S X D label expo nuclei abund ops n p cert x0 l : accurate_search FR -> ideal_statistics S -> homogeneous_externals X ->
  nuclear_history label expo nuclei abund ops = Ok n -> reachable p -> fixed p = true -> respects_ratio p ->
  counted (nuclear_virtuals X D n) (n_base n) p l -> Forall good_bin l ->
  Get_Interaction_Parameter "Nuclei" p = Ok (Fin x0) -> 0 < x0 ->
  exists u d' p', Upper_Limit FR S (nuclear_virtuals X D n) (n_base n) p (Fin cert) = Ok (Fin u, d', p') /\
    (limit_of l x0 cert u \/ (u = -1 /\ forall k, Rpower 10 (-30) <= k * x0 <= Rpower 10 10 -> ~ crossing l k cert)).
Proof.
  intros HF HS HX H R F Rr C G Gt X0. unfold nuclear_history in H. step H. destruct (reachable_good p R) as [Gd Sh]. destruct (nuclear_rested _ _ _ _ _ _ _ E H) as [Rd T].
  apply limit_value; auto; [apply nuclear_blind|apply nuclear_proportional; auto|rewrite T; auto].
Qed.
Lemma ionization_limit_value FR S X D I w ch label expo atoms fr ops s p cert x0 l : accurate_search FR -> ideal_statistics S -> homogeneous_externals X ->
  ionization_history I w ch label expo atoms fr ops = Ok s -> reachable p -> (ch = Migdal -> fixed p = true /\ respects_ratio p) ->
  counted (ionization_virtuals X D s) (i_base s) p l -> Forall good_bin l ->
  Get_Interaction_Parameter (channel_targets ch) p = Ok (Fin x0) -> 0 < x0 ->
  exists u d' p', Upper_Limit FR S (ionization_virtuals X D s) (i_base s) p (Fin cert) = Ok (Fin u, d', p') /\
    (limit_of l x0 cert u \/ (u = -1 /\ forall k, Rpower 10 (-30) <= k * x0 <= Rpower 10 10 -> ~ crossing l k cert)).
Proof.
  intros HF HS HX H R F C G Gt X0. unfold ionization_history in H. step H. destruct a as [i0 w']. destruct (reachable_good p R) as [Gd Sh].
  destruct (ionization_ctor_idle _ _ _ _ _ _ _ _ _ E) as [H0 Hch]. destruct (ionization_run_idle _ ops i0 s H0 H) as [[T Rd] Hc]. rewrite Hch in Hc.
  apply limit_value; auto; [apply ionization_blind| |rewrite T; auto].
  destruct ch; cbn [channel_targets] in *; [apply electron_proportional; auto|destruct F; auto; apply migdal_proportional; auto].
Qed.
Lemma semiconductor_limit_value FR S X D I label expo crys ops s p cert x0 l : accurate_search FR -> ideal_statistics S -> homogeneous_externals X ->
  semiconductor_history I label expo crys ops = Ok s -> reachable p ->
  counted (semiconductor_virtuals X D s) (c_base s) p l -> Forall good_bin l ->
  Get_Interaction_Parameter "Electrons" p = Ok (Fin x0) -> 0 < x0 ->
  exists u d' p', Upper_Limit FR S (semiconductor_virtuals X D s) (c_base s) p (Fin cert) = Ok (Fin u, d', p') /\
    (limit_of l x0 cert u \/ (u = -1 /\ forall k, Rpower 10 (-30) <= k * x0 <= Rpower 10 10 -> ~ crossing l k cert)).
Proof.
  intros HF HS HX H R C G Gt X0. unfold semiconductor_history in H. step H. destruct (reachable_good p R) as [Gd Sh]. destruct (semiconductor_rested _ _ _ _ _ _ _ E H) as [Rd T].
  apply limit_value; auto; [apply semiconductor_blind|apply crystal_proportional; auto|rewrite T; auto].
Qed.

(** * Exposure *)
Lemma counted_scaled c V V' d d' p l e : counts_scale c V V' d d' p -> d' = with_exposure e d -> counted V d p l -> counted V' d' p (map (more_signal c) l).
Proof.
  intros (_ & _ & T & B) -> [(A & x & -> & E1 & E2 & E3)|(N & A & N1 & E1 & E2 & E3)]; [left|right].
  - split; auto. exists (more_signal c x). cbn [signal background count more_signal map]. split; auto. split; auto. rewrite T, E1. cbn [times bind]. rewrite xmul_fin. auto.
  - split; [destruct l; [congruence|discriminate]|]. split; auto. split; [rewrite map_length; exact N1|]. rewrite !map_map. cbn [signal background count more_signal]. split; [|split; auto].
    rewrite B, E1. cbn [times_all bind]. rewrite map_map. f_equal.
Qed.
Lemma good_scaled c l : 0 < c -> Forall good_bin l -> Forall good_bin (map (more_signal c) l).
Proof. intros C G. apply Forall_map. revert G. apply Forall_impl. intros x (A & B & D). split; [cbn; nra|split; auto]. Qed.

Lemma nuclear_longer X D p label expo nuclei abund ops n n' c l : 0 < c -> nuclear_history label expo nuclei abund ops = Ok n ->
  nuclear_history label (xmul (Fin c) expo) nuclei abund ops = Ok n' ->
  counted (nuclear_virtuals X D n) (n_base n) p l -> counted (nuclear_virtuals X D n') (n_base n') p (map (more_signal c) l).
Proof.
  intros C H H' K. destruct (nuclear_counts X D p _ _ _ _ _ _ c C H) as (m & Hm & S). rewrite H' in Hm. apply Ok_inj in Hm. subst m.
  apply (counted_scaled c _ _ _ _ p l (xmul (Fin c) expo) S); auto. clear S K. revert H H'. unfold nuclear_history, Nuclear_ctor.
  destruct (relative_fractions nuclei abund) as [f| | |]; cbn [bind]; try discriminate.
  change (mkNuclear (Detector_ctor label (xmul (Fin c) expo) "Nuclei") nuclei f (Fin 0.0) false []) with (n_exposure (xmul (Fin c) expo) (mkNuclear (Detector_ctor label expo "Nuclei") nuclei f (Fin 0.0) false [])).
  intros H. rewrite nuclear_run_exposure, H. cbn [bind]. intros H'. apply Ok_inj in H'. subst n'. reflexivity.
Qed.
Lemma ionization_longer X D p I w ch label expo atoms fr ops s s' c l : homogeneous (x_Integrate X) -> 0 < c -> ionization_history I w ch label expo atoms fr ops = Ok s ->
  ionization_history I w ch label (xmul (Fin c) expo) atoms fr ops = Ok s' ->
  counted (ionization_virtuals X D s) (i_base s) p l -> counted (ionization_virtuals X D s') (i_base s') p (map (more_signal c) l).
Proof.
  intros HI C H H' K. destruct (ionization_counts X D p _ _ _ _ _ _ _ _ _ c HI C H) as (m & Hm & S). rewrite H' in Hm. apply Ok_inj in Hm. subst m.
  apply (counted_scaled c _ _ _ _ p l (xmul (Fin c) expo) S); auto. clear S K. revert H H'. unfold ionization_history, Ionization_ctor.
  destruct (make_atoms I w atoms) as [[a w']| | |]; cbn [bind]; try discriminate. destruct (ionization_fractions (List.length a) fr) as [f| | |]; cbn [bind]; try discriminate.
  change (Ionization_start ch label (xmul (Fin c) expo) a f) with (i_exposure (xmul (Fin c) expo) (Ionization_start ch label expo a f)).
  intros H. rewrite ionization_run_exposure, H. cbn [bind]. intros H'. apply Ok_inj in H'. subst s'. reflexivity.
Qed.
Lemma semiconductor_longer X D p I label expo crys ops s s' c l : 0 < c -> semiconductor_history I label expo crys ops = Ok s ->
  semiconductor_history I label (xmul (Fin c) expo) crys ops = Ok s' ->
  counted (semiconductor_virtuals X D s) (c_base s) p l -> counted (semiconductor_virtuals X D s') (c_base s') p (map (more_signal c) l).
Proof.
  intros C H H' K. destruct (semiconductor_counts X D p _ _ _ _ _ _ c C H) as (m & Hm & S). rewrite H' in Hm. apply Ok_inj in Hm. subst m.
  apply (counted_scaled c _ _ _ _ p l (xmul (Fin c) expo) S); auto. clear S K. revert H H'. unfold semiconductor_history, Semiconductor_ctor.
  destruct (Crystal_ctor I crys) as [x| | |]; cbn [bind]; try discriminate.
  change (mkSemiconductor (Detector_ctor label (xmul (Fin c) expo) "Electrons") x None None None) with (c_exposure (xmul (Fin c) expo) (mkSemiconductor (Detector_ctor label expo "Electrons") x None None None)).
  intros H. rewrite semiconductor_run_exposure, H. cbn [bind]. intros H'. apply Ok_inj in H'. subst s'. reflexivity.
Qed.

(** Two limits that were found are in the inverse ratio of the exposures. *)
Definition inverse (c u u' : R) : Prop := u <= c * u' * Rpower 10 (2 * 1.0e-4) /\ c * u' <= u * Rpower 10 (2 * 1.0e-4).
Lemma nuclear_limit_exposure FR S X D label expo nuclei abund ops n n' c p cert x0 l u u' d1 d2 p1 p2 : accurate_search FR -> ideal_statistics S -> homogeneous_externals X -> 0 < c ->
  nuclear_history label expo nuclei abund ops = Ok n -> nuclear_history label (xmul (Fin c) expo) nuclei abund ops = Ok n' -> reachable p -> fixed p = true -> respects_ratio p ->
  counted (nuclear_virtuals X D n) (n_base n) p l -> Forall good_bin l -> Forall (fun x => 0 < signal x) l ->
  Get_Interaction_Parameter "Nuclei" p = Ok (Fin x0) -> 0 < x0 ->
  Upper_Limit FR S (nuclear_virtuals X D n) (n_base n) p (Fin cert) = Ok (Fin u, d1, p1) -> u <> -1 ->
  Upper_Limit FR S (nuclear_virtuals X D n') (n_base n') p (Fin cert) = Ok (Fin u', d2, p2) -> u' <> -1 -> inverse c u u'.
Proof.
  intros HF HS HX C H H' R F Rr K G P Gt X0 U N U' N'.
  destruct (nuclear_limit_value FR S X D _ _ _ _ _ n p cert x0 l HF HS HX H R F Rr K G Gt X0) as (v & d & q & V & L). rewrite U in V. injection V as <- _ _.
  assert (K' := nuclear_longer X D p _ _ _ _ _ _ _ c l C H H' K).
  destruct (nuclear_limit_value FR S X D _ _ _ _ _ n' p cert x0 _ HF HS HX H' R F Rr K' (good_scaled c l C G) Gt X0) as (v & d' & q' & V & L'). rewrite U' in V. injection V as <- _ _.
  destruct L as [L|[L _]]; [|congruence]. destruct L' as [L'|[L' _]]; [|congruence]. apply (limit_scaled l x0 c cert); auto.
Qed.
Lemma ionization_limit_exposure FR S X D I w ch label expo atoms fr ops s s' c p cert x0 l u u' d1 d2 p1 p2 : accurate_search FR -> ideal_statistics S -> homogeneous_externals X -> 0 < c ->
  ionization_history I w ch label expo atoms fr ops = Ok s -> ionization_history I w ch label (xmul (Fin c) expo) atoms fr ops = Ok s' ->
  reachable p -> (ch = Migdal -> fixed p = true /\ respects_ratio p) ->
  counted (ionization_virtuals X D s) (i_base s) p l -> Forall good_bin l -> Forall (fun x => 0 < signal x) l ->
  Get_Interaction_Parameter (channel_targets ch) p = Ok (Fin x0) -> 0 < x0 ->
  Upper_Limit FR S (ionization_virtuals X D s) (i_base s) p (Fin cert) = Ok (Fin u, d1, p1) -> u <> -1 ->
  Upper_Limit FR S (ionization_virtuals X D s') (i_base s') p (Fin cert) = Ok (Fin u', d2, p2) -> u' <> -1 -> inverse c u u'.
Proof.
  intros HF HS HX C H H' R F K G P Gt X0 U N U' N'.
  destruct (ionization_limit_value FR S X D I w ch label expo atoms fr ops s p cert x0 l HF HS HX H R F K G Gt X0) as (v & d & q & V & L). rewrite U in V. injection V as <- _ _.
  assert (K' := ionization_longer X D p I w ch label expo atoms fr ops s s' c l (proj1 HX) C H H' K).
  destruct (ionization_limit_value FR S X D I w ch label _ atoms fr ops s' p cert x0 _ HF HS HX H' R F K' (good_scaled c l C G) Gt X0) as (v & d' & q' & V & L'). rewrite U' in V. injection V as <- _ _.
  destruct L as [L|[L _]]; [|congruence]. destruct L' as [L'|[L' _]]; [|congruence]. apply (limit_scaled l x0 c cert); auto.
Qed.
Lemma semiconductor_limit_exposure FR S X D I label expo crys ops s s' c p cert x0 l u u' d1 d2 p1 p2 : accurate_search FR -> ideal_statistics S -> homogeneous_externals X -> 0 < c ->
  semiconductor_history I label expo crys ops = Ok s -> semiconductor_history I label (xmul (Fin c) expo) crys ops = Ok s' -> reachable p ->
  counted (semiconductor_virtuals X D s) (c_base s) p l -> Forall good_bin l -> Forall (fun x => 0 < signal x) l ->
  Get_Interaction_Parameter "Electrons" p = Ok (Fin x0) -> 0 < x0 ->
  Upper_Limit FR S (semiconductor_virtuals X D s) (c_base s) p (Fin cert) = Ok (Fin u, d1, p1) -> u <> -1 ->
  Upper_Limit FR S (semiconductor_virtuals X D s') (c_base s') p (Fin cert) = Ok (Fin u', d2, p2) -> u' <> -1 -> inverse c u u'.
Proof.
  intros HF HS HX C H H' R K G P Gt X0 U N U' N'.
  destruct (semiconductor_limit_value FR S X D I label expo crys ops s p cert x0 l HF HS HX H R K G Gt X0) as (v & d & q & V & L). rewrite U in V. injection V as <- _ _.
  assert (K' := semiconductor_longer X D p I label expo crys ops s s' c l C H H' K).
  destruct (semiconductor_limit_value FR S X D I label _ crys ops s' p cert x0 _ HF HS HX H' R K' (good_scaled c l C G) Gt X0) as (v & d' & q' & V & L'). rewrite U' in V. injection V as <- _ _.
  destruct L as [L|[L _]]; [|congruence]. destruct L' as [L'|[L' _]]; [|congruence]. apply (limit_scaled l x0 c cert); auto.
Qed.

(** * A detector with two bins *)
Definition opsB : list nuclear_op := [NBase (BBins (Fin (1/10)) (Fin (1/2)) 2); NBase (BBin_Observed [3%Z; 1%Z]); NBase (BBin_Background [Fin (1/2); Fin 0])].
Definition nB : nuclear :=
  mkNuclear (with_bin_background [Fin (1/2); Fin 0] (xsum [Fin (1/2); Fin 0]) (with_bin_observed [3%Z; 1%Z] 4 (with_bin_energies (Linear_Space (Fin (1/10)) (Fin (1/2)) 3)
    (with_range (Fin (1/10)) (Fin (1/2)) (with_using false true (with_binned 2 (repeat 0%Z 2) (repeat (Fin 0.0) 2) (repeat (Fin 1.0) 2) (Detector_ctor "test" (Fin 1) "Nuclei")))))))
    [heavy_hydrogen] [Fin 1] (Fin 0.0) false [].
Lemma nB_history : nuclear_history "test" (Fin 1) [heavy_hydrogen] [Fin 1] opsB = Ok nB.
Proof.
  unfold nuclear_history, Nuclear_ctor, relative_fractions. cbn [xsum fold_left]. rewrite xadd_fin, xlt_false by lra. cbn [bind]. unfold opsB.
  cbn [nuclear_run nuclear_step n_base base_step]. unfold Use_Energy_Bins. change (Initialize_Binned_Poisson (u32 2) (Detector_ctor "test" (Fin 1) "Nuclei")) with
    (Ok (with_binned 2 (repeat 0%Z 2) (repeat (Fin 0.0) 2) (repeat (Fin 1.0) 2) (Detector_ctor "test" (Fin 1) "Nuclei"))).
  cbn [bind]. rewrite xlt_false by lra. reflexivity.
Qed.
Lemma dRdE_B p a b E : simple_particle p a b -> 0 <= E <= 1 / 2 -> Nuclear_dRdE XW (interface_of (x_I2 XW) p) D1 nB (Fin E) = Ok (Fin ((a + b) ^ 2 / (4 * PI))).
Proof.
  intros S HE. rewrite <- (dRdE_W p a b E S HE). assert (P := PI_RGT_0). unfold Nuclear_dRdE. cbn [n_resolution nW nB]. rewrite xmul_fin, xlt_true by (assert (h := eV_pos); nra). reflexivity.
Qed.
Lemma Linear_B : Linear_Space (Fin (1/10)) (Fin (1/2)) 3 = [Fin (1/10); Fin (3/10); Fin (1/2)].
Proof.
  unfold Linear_Space. rewrite xsub_fin. cbn [seq map Nat.sub]. cbn [INR]. rewrite xdiv_fin by lra. rewrite !xmul_fin, !xadd_fin.
  apply (f_equal2 cons); [f_equal; field|]. apply (f_equal2 cons); [f_equal; field|]. apply (f_equal2 cons); [f_equal; field|reflexivity].
Qed.
Lemma two_bins (f : xr -> res xr) d K : b_analysis d = Binned_Poisson -> b_using_bins d = true -> b_bin_energies d = [Fin (1/10); Fin (3/10); Fin (1/2)] -> b_bins d = 2%Z ->
  b_exposure d = Fin 1 -> b_efficiencies d = [Fin 1.0; Fin 1.0] -> (forall E, 0 <= E <= 1/2 -> f (Fin E) = Ok (Fin K)) ->
  DM_Signals_Binned_Base reference_Integrate f d = Ok [Fin (K / 5); Fin (K / 5)].
Proof.
  intros H1 H2 H3 H4 H5 H6 F. unfold DM_Signals_Binned_Base, DM_Signals_Energy_Bins. rewrite H1, H2, H3, H4, H5, H6.
  assert (I : forall u v, 0 <= u -> u <= v -> v <= 1/2 -> reference_Integrate f (Fin u) (Fin v) = Ok (Fin ((v - u) * K))).
  { intros u v U UV V. unfold reference_Integrate. cbn [val]. do 2 f_equal. rewrite (RInt_ext _ (fun _ => K)).
    2:{ intros x. rewrite Rmin_left, Rmax_right by auto. intros Hx. rewrite F by lra. reflexivity. }
    rewrite RInt_const. reflexivity. }
  change (seq 0 (Z.to_nat 2)) with [0%nat; 1%nat]. cbn [map_res at_ub nth_error bind Nat.add negb]. rewrite !I by lra. cbn [bind]. rewrite !xmul_fin.
  f_equal. apply (f_equal2 cons); [f_equal; replace 1.0 with 1 by lra; field; lra|]. apply (f_equal2 cons); [f_equal; replace 1.0 with 1 by lra; field; lra|reflexivity].
Qed.
Lemma binned_B p a b : simple_particle p a b -> v_binned (nuclear_virtuals XW D1 nB) (n_base nB) p = Ok [Fin ((a + b) ^ 2 / (4 * PI) / 5); Fin ((a + b) ^ 2 / (4 * PI) / 5)].
Proof.
  intros S. cbn [v_binned nuclear_virtuals]. unfold Nuclear_Binned. cbn [x_Integrate XW]. apply two_bins; try reflexivity; [exact Linear_B|].
  intros E HE. exact (dRdE_B p a b E S HE).
Qed.
Lemma binned_instance : exists n s, nuclear_history "test" (Fin 1) [heavy_hydrogen] [Fin 1] opsB = Ok n /\ 0 < s /\
  counted (nuclear_virtuals XW D1 n) (n_base n) even [mkBin s (1/2) 3; mkBin s 0 1] /\
  homogeneous_externals XW /\ reachable even /\ fixed even = true /\ respects_ratio even /\ Get_Interaction_Parameter "Nuclei" even = Ok (Fin 1).
Proof.
  assert (P := PI_RGT_0). assert (C := cW_pos 1 ltac:(lra)). exists nB, ((cW 1 + cW 1) ^ 2 / (4 * PI) / 5).
  pose proof even_settled as (G & Sh & R & U).
  split; [apply nB_history|]. split; [repeat apply Rdiv_lt_0_compat; nra|]. split.
  { right. split; [discriminate|]. split; [reflexivity|]. split; [reflexivity|]. split; [apply (binned_B even (cW 1) (cW 1)), light_simple|split; reflexivity]. }
  split; [apply XW_homogeneous|]. split; [apply even_reachable|]. split; [reflexivity|]. split; [auto|]. unfold even. rewrite light_get, cW_1 by lra. auto.
Qed.
(** A limit that is found: no event, no background, and a certainty for which the parameter of the particle itself is excluded. *)
Lemma empty_crosses s k cert : k * s = - ln (1 - cert) -> cert < 1 -> crossing [mkBin s 0 0] k cert.
Proof.
  intros H C. assert (E : chance k (mkBin s 0 0) = 1 - cert).
  { unfold chance. cbn [count signal background]. change (Z.to_nat 0) with 0%nat. unfold at_most, poisson_sum. cbn [sum_f_R0 pow fact INR]. rewrite Rplus_0_r, H, Ropp_involutive, exp_ln by lra. field. }
  split; [left; auto|]. intros y [<-|[]]. lra.
Qed.
Lemma exposure_instance : exists n n' s u u' d1 d2 p1 p2, let cert := 1 - exp (- s) in
  nuclear_history "test" (Fin 1) [heavy_hydrogen] [Fin 1] [NBase (BThreshold (Fin (1/10)) (Fin (1/2)))] = Ok n /\
  nuclear_history "test" (xmul (Fin 2) (Fin 1)) [heavy_hydrogen] [Fin 1] [NBase (BThreshold (Fin (1/10)) (Fin (1/2)))] = Ok n' /\ 0 < s /\
  counted (nuclear_virtuals XW D1 n) (n_base n) even [mkBin s 0 0] /\
  Upper_Limit reference_search exact_statistics (nuclear_virtuals XW D1 n) (n_base n) even (Fin cert) = Ok (Fin u, d1, p1) /\ u <> -1 /\
  Upper_Limit reference_search exact_statistics (nuclear_virtuals XW D1 n') (n_base n') even (Fin cert) = Ok (Fin u', d2, p2) /\ u' <> -1.
Proof.
  assert (P := PI_RGT_0). assert (C := cW_pos 1 ltac:(lra)). set (s := (cW 1 + cW 1) ^ 2 / (10 * PI)). assert (S0 : 0 < s) by (apply Rdiv_lt_0_compat; nra).
  pose proof even_settled as (G & Sh & R & U). destruct nW_configured as (n0 & N1 & N2).
  assert (H : nuclear_history "test" (Fin 1) [heavy_hydrogen] [Fin 1] [NBase (BThreshold (Fin (1/10)) (Fin (1/2)))] = Ok nW) by (unfold nuclear_history; rewrite N1; exact N2).
  assert (K : counted (nuclear_virtuals XW D1 nW) (n_base nW) even [mkBin s 0 0]).
  { left. split; [reflexivity|]. exists (mkBin s 0 0). split; [reflexivity|]. split; [apply total_W, light_simple|]. split; [cbn; f_equal; lra|reflexivity]. }
  destruct (nuclear_counts XW D1 even _ _ _ _ _ _ 2 ltac:(lra) H) as (n' & H' & _).
  assert (K' := nuclear_longer XW D1 even _ _ _ _ _ _ _ 2 _ ltac:(lra) H H' K).
  assert (Gb : Forall good_bin [mkBin s 0 0]) by (constructor; [split; [cbn; lra|split; [cbn; lra|cbn; lia]]|constructor]).
  assert (Gt : Get_Interaction_Parameter "Nuclei" even = Ok (Fin 1)) by (unfold even; rewrite light_get, cW_1 by lra; auto).
  assert (W : Rpower 10 (-30) <= 1 / 2 /\ 1 <= Rpower 10 10).
  { split; [|rewrite <- (Rpower_O 10) at 1 by lra; apply Rpower_mono; lra]. replace (Rpower 10 (-30)) with (/ Rpower 10 30) by (rewrite <- Rpower_Ropp; f_equal; lra).
    replace 30 with (INR 30) by (cbn; lra). rewrite Rpower_pow by lra. replace (1 / 2) with (/ 2) by lra. apply Rinv_le_contravar; lra. }
  set (cert := 1 - exp (- s)). assert (E := exp_pos (- s)). assert (Ec : - ln (1 - cert) = s) by (unfold cert; replace (1 - (1 - exp (- s))) with (exp (- s)) by lra; rewrite ln_exp; lra).
  assert (C1 : crossing [mkBin s 0 0] 1 cert) by (apply empty_crosses; [lra|unfold cert; lra]).
  assert (C2 : crossing (map (more_signal 2) [mkBin s 0 0]) (1 / 2) cert) by (apply crossing_scaled; replace (1 / 2 * 2) with 1 by lra; auto).
  destruct (nuclear_limit_value reference_search exact_statistics XW D1 _ _ _ _ _ nW even cert 1 _ (reference_accurate) (exact_statistics_ideal) XW_homogeneous H even_reachable eq_refl R K Gb Gt ltac:(lra)) as (u & d1 & p1 & L1 & [V1|[_ V1]]).
  2:{ exfalso. apply (V1 1); auto. rewrite Rmult_1_l. lra. }
  destruct (nuclear_limit_value reference_search exact_statistics XW D1 _ _ _ _ _ n' even cert 1 _ (reference_accurate) (exact_statistics_ideal) XW_homogeneous H' even_reachable eq_refl R K' (good_scaled 2 _ ltac:(lra) Gb) Gt ltac:(lra)) as (u' & d2 & p2 & L2 & [V2|[_ V2]]).
  2:{ exfalso. apply (V2 (1 / 2)); auto. lra. }
  exists nW, n', s, u, u', d1, d2, p1, p2. cbv zeta. fold cert. 
  assert (Q : forall l x, limit_of l 1 cert x -> x <> -1).
  { intros l x (k & e & k0 & _ & _ & -> & _). assert (h := Rpower_pos 10 e). assert (0 < k * 1 * Rpower 10 e) by (apply Rmult_lt_0_compat; lra). lra. }
  split; [exact H|]. split; [exact H'|]. split; [exact S0|]. split; [exact K|]. split; [exact L1|]. split; [exact (Q _ _ V1)|]. split; [exact L2|exact (Q _ _ V2)].
Qed.
