(** The smallest mass and speed reported by semiconductor detectors (C73). *)
From Coq Require Import Reals ZArith String Lra Lia Bool.
From Coquelicot Require Import Coquelicot.
From Coq Require Import List.
From Verif Require Import Base XrFacts Analysis Quadrature Interpolation Nucleus_Model Nuclear_Model Particle_Model CrossSection_Model
  Distribution_Model Atom_Model Crystal_Model Rates_Model Crystal_Proofs Detector_Model DetectorTypes_Model Detector_Proofs DetectorModes_Proofs DetectorWitness_Proofs DetectorBins_Proofs
  Kinematics_Proofs Electrons_Proofs ElectronBins_Proofs IonizationReach_Proofs.
Import ListNotations.
Local Open Scope R_scope.

(** Specification: a crystal whose numbers make sense. *)
Definition crystal_numbers (c : Crystal) : Prop := (exists q, dq c = Fin q /\ 0 < q) /\ (exists e, dE c = Fin e /\ 0 < e) /\ (exists g e, energy_gap c = Fin g /\ epsilon c = Fin e /\ 0 < g /\ 0 < e) /\ (exists M, M_cell c = Fin M /\ M <> 0) /\ exists x, E_max c = Fin x.

Lemma Crystal_zero Integrate DM D c E m v : crystal_numbers c -> dm_mass DM = Fin m -> d_vmax D = Fin v -> 0 < m -> m * v ^ 2 / 2 < E -> dRdEe_Crystal Integrate (Fin E) DM D c = Ok (Fin 0).
Proof.
  intros ((q & DQ & Q0) & _ & _ & (M & MC & M0) & x & EX) HM HV Hm H. unfold dRdEe_Crystal. rewrite EX. destruct (xlt (Fin x) (Fin E)); [reflexivity|]. rewrite sum_res_zero.
  - cbn [bind]. rewrite MC, xdiv_fin, xmul_fin by auto. do 2 f_equal. apply Rmult_0_r.
  - intros qi I. apply Zrange_In in I. unfold Crystal_term. rewrite DQ, HM, HV, xmul_fin. assert (QI : 0 < IZR (qi + 1) * q) by (apply Rmult_lt_0_compat; auto; apply IZR_lt; lia).
    rewrite vMinimal_Electrons_fin by auto. rewrite xlt_true; [reflexivity|]. apply too_fast; auto.
Qed.
Lemma R_total_zero Integrate DM D c m v l : crystal_numbers c -> dm_mass DM = Fin m -> d_vmax D = Fin v -> 0 < m -> (forall Ei e, In Ei l -> dE c = Fin e -> m * v ^ 2 / 2 < IZR (Ei + 1) * e) ->
  R_total_loop Integrate DM D c (Fin 0) l = Ok (Fin 0).
Proof.
  intros C M V Hm. induction l as [|Ei l IH]; intros H; [reflexivity|]. cbn [R_total_loop]. destruct C as (A & (e & DE & E0) & B). rewrite DE, xmul_fin.
  rewrite (Crystal_zero Integrate DM D c _ m v); auto; [|split; [exact A|split; [exists e; auto|exact B]]|apply H; [left|]; auto]. cbn [bind]. rewrite xmul_fin, xadd_fin, Rmult_0_r, Rplus_0_r. apply IH. intros; eapply H; eauto; right; auto.
Qed.
Lemma R_Q_zero Integrate Emax DM D c m v l : crystal_numbers c -> dm_mass DM = Fin m -> d_vmax D = Fin v -> 0 < m -> (forall Ei e, In Ei l -> dE c = Fin e -> m * v ^ 2 / 2 < IZR (Ei + 1) * e) ->
  R_Q_loop Integrate Emax DM D c (Fin 0) l = Ok (Fin 0).
Proof.
  intros C M V Hm. induction l as [|Ei l IH]; intros H; [reflexivity|]. cbn [R_Q_loop]. destruct (xlt _ _); [reflexivity|]. destruct C as (A & (e & DE & E0) & B). rewrite DE, xmul_fin.
  rewrite (Crystal_zero Integrate DM D c _ m v); auto; [|split; [exact A|split; [exists e; auto|exact B]]|apply H; [left|]; auto]. cbn [bind]. rewrite xmul_fin, xadd_fin, Rmult_0_r, Rplus_0_r. apply IH. intros; eapply H; eauto; right; auto.
Qed.
Lemma semiconductor_mass s v th : b_threshold (c_base s) = Fin th -> 0 < v -> Semiconductor_Minimum_Mass (Fin v) s = Fin (2 * th / v ^ 2).
Proof. intros T V. assert (P : 0 < v ^ 2) by (apply pow_lt; auto). unfold Semiconductor_Minimum_Mass. rewrite T, xpow_fin, xdiv_fin, !xmul_fin by lra. f_equal. replace 2.0 with 2 by lra. field. lra. Qed.
(** Below the reported mass: no recoil above the threshold. *)
Lemma semiconductor_reach X DM D s v m mm th eff E : crystal_numbers (c_crystal s) -> b_threshold (c_base s) = Fin th -> b_flat_efficiency (c_base s) = Fin eff ->
  d_vmax D = Fin v -> 0 < v -> dm_mass DM = Fin m -> 0 < m -> Semiconductor_Minimum_Mass (Fin v) s = Fin mm -> m < mm -> th <= E -> Semiconductor_dRdE X DM D s (Fin E) = Ok (Fin 0).
Proof.
  intros C T F V Hv M Hm MM LT LE. rewrite (semiconductor_mass s v th) in MM by auto. apply Fin_inj in MM. subst mm. apply below_mass in LT; auto. unfold Semiconductor_dRdE. rewrite (Crystal_zero _ _ _ _ _ m v) by (auto; lra).
  cbn [bind]. rewrite F, xmul_fin, Rmult_0_r. reflexivity.
Qed.
(** From it on, the threshold energy can be transferred. *)
Lemma semiconductor_kinematics s v th : b_threshold (c_base s) = Fin th -> 0 < v -> exists mm, Semiconductor_Minimum_Mass (Fin v) s = Fin mm /\ forall m, 0 < m -> (mm <= m <-> exists q, 0 < q /\ th / q + q / (2 * m) <= v).
Proof. intros T V. eexists. split; [apply semiconductor_mass; eauto|]. intros m Hm. apply mass_kinematics; auto. Qed.

(** Electron hole pairs: the energies summed over for Q pairs or more all lie above the threshold for Q. *)
Definition pair_energy (g e : R) (Q : Z) : R := e * IZR (Q - 1) + g.
Lemma start_above c Q g e d : energy_gap c = Fin g -> epsilon c = Fin e -> dE c = Fin d -> 0 < g -> 0 < e -> 0 < d -> (1 <= Q)%Z -> pair_energy g e Q / d < 2 ^ 31 ->
  exists start, to_int (Minimum_Electron_Energy Q c / dE c)%xr = Ok start /\ forall Ei, (start <= Ei)%Z -> pair_energy g e Q < IZR (Ei + 1) * d.
Proof.
  intros G E D G0 E0 D0 Q1 B. unfold Minimum_Electron_Energy. rewrite G, E, D, xmul_fin, xadd_fin, xdiv_fin by lra. fold (pair_energy g e Q).
  assert (P : 0 <= pair_energy g e Q). { unfold pair_energy. assert (0 <= IZR (Q - 1)) by (apply IZR_le; lia). assert (0 <= e * IZR (Q - 1)) by (apply Rmult_le_pos; lra). lra. }
  assert (P2 : 0 <= pair_energy g e Q / d) by (apply Rmult_le_pos; auto; apply Rlt_le, Rinv_0_lt_compat; auto). destruct (Rfloor_bounds (pair_energy g e Q / d)) as [F1 F2]. set (z := Rfloor (pair_energy g e Q / d)) in *.
  exists z. unfold to_int, double_to_int. rewrite Rtrunc_nonneg by auto. fold z. assert (Z0 : (0 <= z)%Z) by (apply (Rfloor_mono 0) in P2; replace 0 with (IZR 0) in P2 by reflexivity; rewrite Rfloor_IZR in P2; exact P2).
  assert (Z1 : (z < 2 ^ 31)%Z) by (apply lt_IZR; rewrite <- two31; lra). replace ((- 2 ^ 31 <=? z) && (z <=? 2 ^ 31 - 1))%Z%bool with true by (symmetry; apply andb_true_intro; split; apply Z.leb_le; lia). split; [reflexivity|].
  intros Ei H. apply IZR_le in H. rewrite plus_IZR. assert (L : pair_energy g e Q / d < IZR Ei + 1) by lra. apply (Rmult_lt_compat_r d) in L; auto. unfold Rdiv in L. rewrite Rmult_assoc, Rinv_l in L by lra. lra.
Qed.
Lemma pairs_reach X DM D s v m mm g e d Qt Q : crystal_numbers (c_crystal s) -> energy_gap (c_crystal s) = Fin g -> epsilon (c_crystal s) = Fin e -> dE (c_crystal s) = Fin d -> b_threshold (c_base s) = Minimum_Electron_Energy Qt (c_crystal s) ->
  d_vmax D = Fin v -> 0 < v -> dm_mass DM = Fin m -> 0 < m -> Semiconductor_Minimum_Mass (Fin v) s = Fin mm -> m < mm -> (1 <= Qt <= Q)%Z -> pair_energy g e Q / d < 2 ^ 31 ->
  R_Q_Crystal (x_Integrate X) Q DM D (c_crystal s) = Ok (Fin 0) /\ R_total_Crystal (x_Integrate X) Q DM D (c_crystal s) = Ok (Fin 0).
Proof.
  intros C G E DD T V Hv M Hm MM LT HQ B. assert (T' : b_threshold (c_base s) = Fin (pair_energy g e Qt)). { rewrite T. unfold Minimum_Electron_Energy. rewrite G, E, xmul_fin, xadd_fin. reflexivity. }
  rewrite (semiconductor_mass s v (pair_energy g e Qt)) in MM by auto. apply Fin_inj in MM. subst mm. apply below_mass in LT; auto.
  assert (POS : 0 < g /\ 0 < e /\ 0 < d). { destruct C as (_ & (d' & D' & D0) & (g' & e' & G' & E' & G0 & E0) & _). rewrite D' in DD. rewrite G' in G. rewrite E' in E. apply Fin_inj in DD, G, E. lra. } destruct POS as (G0 & E0 & D0).
  destruct (start_above (c_crystal s) Q g e d G E DD G0 E0 D0 ltac:(lia) B) as (start & ST & AB).
  assert (MON : pair_energy g e Qt <= pair_energy g e Q). { unfold pair_energy. assert (IZR (Qt - 1) <= IZR (Q - 1)) by (apply IZR_le; lia). assert (e * IZR (Qt - 1) <= e * IZR (Q - 1)) by (apply Rmult_le_compat_l; lra). lra. }
  assert (AB2 : forall Ei e0, In Ei (Zrange start (N_E (c_crystal s))) -> dE (c_crystal s) = Fin e0 -> m * v ^ 2 / 2 < IZR (Ei + 1) * e0). { intros Ei e0 I D1. rewrite DD in D1. apply Fin_inj in D1. subst e0. apply Zrange_In in I. specialize (AB Ei ltac:(lia)). lra. }
  split.
  - unfold R_Q_Crystal. rewrite ST. cbn [bind]. rewrite z00. apply (R_Q_zero _ _ _ _ _ m v); auto.
  - unfold R_total_Crystal. rewrite ST. cbn [bind]. rewrite z00. apply (R_total_zero _ _ _ _ m v); auto.
Qed.
(** After Use_Q_Threshold nothing is expected below the reported mass. *)
Lemma threshold_reach X DM D s0 v m mm g e d Qt eff ex : let s := Use_Q_Threshold Qt s0 in crystal_numbers (c_crystal s0) -> energy_gap (c_crystal s0) = Fin g -> epsilon (c_crystal s0) = Fin e -> dE (c_crystal s0) = Fin d ->
  b_using_threshold (c_base s0) = false -> b_exposure (c_base s0) = Fin ex -> b_flat_efficiency (c_base s0) = Fin eff -> d_vmax D = Fin v -> 0 < v -> dm_mass DM = Fin m -> 0 < m -> Semiconductor_Minimum_Mass (Fin v) s = Fin mm -> m < mm ->
  (1 <= Qt < 2 ^ 31)%Z -> pair_energy g e Qt / d < 2 ^ 31 -> Semiconductor_Total X DM D s = Ok (Fin 0).
Proof.
  intros s C G E DD U EX F V Hv M Hm MM LT HQ B. assert (S32 : s32 Qt = Qt) by (unfold s32; rewrite Z.mod_small by lia; lia).
  assert (P := proj2 (pairs_reach X DM D s v m mm g e d Qt Qt C G E DD ltac:(unfold s, Use_Q_Threshold; rewrite S32; reflexivity) V Hv M Hm MM LT ltac:(lia) B)).
  unfold Semiconductor_Total. cbn [s Use_Q_Threshold c_base with_c_base with_Q b_analysis with_range Initialize_Poisson with_poisson b_using_threshold c_using_Q_threshold c_Q_threshold read_init c_crystal b_exposure b_flat_efficiency].
  rewrite U. cbn [orb bind]. unfold s in P. cbn [Use_Q_Threshold c_crystal with_c_base with_Q] in P. rewrite S32, P. cbn [bind]. rewrite EX, F, !xmul_fin, Rmult_0_r. reflexivity.
Qed.
(** Both calls with electron hole pairs set the threshold to the energy for that many. *)
Lemma pairs_threshold Qt N s s2 : (0 <= Qt < 2 ^ 31)%Z -> Use_Q_Bins Qt N s = Ok s2 -> b_threshold (c_base s2) = Minimum_Electron_Energy Qt (c_crystal s2) /\ c_crystal s2 = c_crystal s.
Proof.
  intros H E. assert (S32 : s32 Qt = Qt) by (unfold s32; rewrite Z.mod_small by lia; lia). unfold Use_Q_Bins in E. rewrite S32 in E. destruct (Initialize_Binned_Poisson _ _) as [d| | |]; try discriminate. cbn [bind] in E. apply Ok_inj in E. subst s2. split; reflexivity.
Qed.
Lemma semiconductor_speed s m th : b_threshold (c_base s) = Fin th -> 0 < th -> 0 < m -> exists u, Semiconductor_Minimum_Speed (Fin m) s = Fin u /\
  (forall q E, 0 < q -> th <= E -> exists x, vMinimal_Electrons (Fin q) (Fin E) (Fin m) = Fin x /\ u <= x) /\ exists q, 0 < q /\ vMinimal_Electrons (Fin q) (Fin th) (Fin m) = Fin u.
Proof.
  intros T T0 M. destruct (speed_root th m M T0) as (S1 & q0 & Q0 & S2). exists (sqrt (2 * th / m)). split.
  { unfold Semiconductor_Minimum_Speed. rewrite T, xmul_fin, xdiv_fin by lra. replace 2.0 with 2 by lra. apply xsqrt_fin. apply Rlt_le, Rdiv_lt_0_compat; lra. }
  split.
  - intros q E Q LE. rewrite vMinimal_Electrons_fin by auto. eexists. split; [reflexivity|]. apply Rle_trans with (1 := S1 q Q). apply Rplus_le_compat_r. apply Rmult_le_compat_r; [apply Rlt_le, Rinv_0_lt_compat; auto|lra].
  - exists q0. split; auto. rewrite vMinimal_Electrons_fin by auto. rewrite S2. reflexivity.
Qed.

(** The crystals that come with the library. *)
Lemma shipped_crystal Import_List target c : Crystal_ctor Import_List target = Ok c -> crystal_numbers c /\ exists g e d, energy_gap c = Fin g /\ epsilon c = Fin e /\ dE c = Fin d /\ forall Q, (1 <= Q <= Q_max c)%Z -> pair_energy g e Q / d < 2 ^ 31.
Proof.
  intros H. destruct (largest_pairs _ _ _ H) as (_ & gap & eps & B).
  destruct (Import_List ("data/Semiconductors/C." ++ target ++ "137.dat")%string) as [aux| | |] eqn:EA.
  2-4: exfalso; unfold Crystal_ctor in H; rewrite EA in H; clear B; destruct (crystal_constants target) as [[[[g e] m] p]| | |]; cbn [bind] in H; try discriminate; destruct (to_unsigned _); cbn [bind] in H; discriminate.
  destruct (crystal_ctor_ok Import_List target gap eps (Q_max c) aux B EA) as [C1 C2].
  destruct (Z_lt_le_dec (Z.of_nat (List.length aux)) (900 * 500)) as [L | L]; [rewrite (C2 L) in H; discriminate|]. destruct (C1 L) as (c' & C' & R & _ & _ & QM & _ & MC & _). rewrite H in C'. apply Ok_inj in C'. subst c'.
  destruct R as (R1 & R2 & R3 & R4 & R5 & R6 & P1 & P2 & P3 & P4 & _). assert (he := eV_pos). split.
  - split; [eexists; split; eauto|]. split; [eexists; split; eauto|]. split; [exists gap, eps; auto|]. split; [|eexists; exact R4]. eexists. split; [exact MC|]. assert (0 < mNucleon) by (unfold mNucleon; lra). destruct (String.eqb target "Si"); lra.
  - exists gap, eps, (0.1 * eV). split; auto. split; auto. split; auto. intros Q HQ. unfold pair_energy. rewrite two31. assert (IZR Q <= 18) by (apply IZR_le; destruct B as [(_ & _ & _ & BQ) | (_ & _ & _ & BQ)]; rewrite BQ in HQ; lia). rewrite minus_IZR.
    assert (T10 : forall x, x * eV / (0.1 * eV) = x * 10) by (intros x; replace 0.1 with (1 / 10) by lra; field; lra). assert (1 <= IZR Q) by (apply (IZR_le 1); lia). destruct B as [(_ & -> & -> & _) | (_ & -> & -> & _)].
    + replace (3.6 * eV * (IZR Q - 1) + 1.11 * eV) with ((3.6 * (IZR Q - 1) + 1.11) * eV) by lra. rewrite T10. cbn [Z.pow Z.pow_pos Pos.iter Z.mul Pos.mul]. lra.
    + replace (2.9 * eV * (IZR Q - 1) + 0.67 * eV) with ((2.9 * (IZR Q - 1) + 0.67) * eV) by lra. rewrite T10. cbn [Z.pow Z.pow_pos Pos.iter Z.mul Pos.mul]. lra.
Qed.
(** A particle of mass 1 eV, speeds up to 1 in silicon, threshold one pair (1.11 eV). *)
Definition featherweight : DM_interface := mkDM (Fin eV) (Fin 1) true (fun _ _ _ => Ok (Fin 1)) (fun _ _ _ _ => Ok (Fin 1)) (fun _ _ _ _ => Ok (Fin 1)).
Lemma threshold_reach_instance : exists c s0 g e d mm, Crystal_ctor IL0 "Si" = Ok c /\ s0 = mkSemiconductor (Detector_ctor "test" (Fin 1) "Electrons") c None None None /\ crystal_numbers (c_crystal s0) /\ energy_gap (c_crystal s0) = Fin g /\ epsilon (c_crystal s0) = Fin e /\
  dE (c_crystal s0) = Fin d /\ pair_energy g e 1 / d < 2 ^ 31 /\ d_vmax D1 = Fin 1 /\ dm_mass featherweight = Fin eV /\ Semiconductor_Minimum_Mass (Fin 1) (Use_Q_Threshold 1 s0) = Fin mm /\ eV < mm.
Proof.
  destruct silicon as (c & H1 & H2 & _ & _ & QM & _). destruct (shipped_crystal _ _ _ H1) as (N & g & e & d & G & E & DD & B). exists c, (mkSemiconductor (Detector_ctor "test" (Fin 1) "Electrons") c None None None), g, e, d, (2 * (1.11 * eV) / 1 ^ 2).
  assert (he := eV_pos). split; [exact H1|]. split; [reflexivity|]. split; [exact N|]. split; [exact G|]. split; [exact E|]. split; [exact DD|]. split; [apply B; rewrite QM; lia|]. split; [reflexivity|]. split; [reflexivity|]. split.
  - apply semiconductor_mass; [|lra]. cbn [Use_Q_Threshold c_base with_c_base with_range b_threshold c_crystal]. change (s32 1) with 1%Z. rewrite (Emin_fin _ _ _ _ _ _ _ 1 H2). unfold Emin_R. f_equal. lra.
  - replace (1 ^ 2) with 1 by ring. lra.
Qed.
