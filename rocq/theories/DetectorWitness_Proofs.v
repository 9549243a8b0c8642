(** Concrete detectors on which the last selecting call does not decide (C42). *)
From Coq Require Import Reals ZArith String Lra Lia Bool.
From Coquelicot Require Import Coquelicot.
From Coq Require Import List.
From Verif Require Import Base XrFacts Analysis Quadrature Interpolation Nucleus_Model Nuclear_Model Particle_Model CrossSection_Model
  Distribution_Model Atom_Model Crystal_Model Rates_Model Crystal_Proofs Detector_Model DetectorTypes_Model Detector_Proofs DetectorModes_Proofs.
Import ListNotations.
Local Open Scope R_scope.

(** Sums of finite non-negative terms. *)
Definition nonneg (r : res xr) : Prop := exists v, 0 <= v /\ r = Ok (Fin v).
Definition positive (r : res xr) : Prop := exists v, 0 < v /\ r = Ok (Fin v).

Lemma sum_res_nonneg {A : Type} (f : A -> res xr) l : (forall a, In a l -> nonneg (f a)) ->
  nonneg (sum_res f l) /\ ((exists a, In a l /\ positive (f a)) -> positive (sum_res f l)).
Proof.
  assert (G : (forall a, In a l -> nonneg (f a)) ->
    exists vs, map_res f l = Ok (map Fin vs) /\ 0 <= Rsum vs /\ ((exists a, In a l /\ positive (f a)) -> 0 < Rsum vs)).
  { induction l as [|a l IH]; intros H.
    - exists []. cbn. split; [reflexivity|split; [lra|]]. intros [a [[] _]].
    - destruct (H a) as [v [Hv E]]; [left; auto|]. destruct IH as (vs & E2 & P & Q); [intros; apply H; right; auto|].
      exists (v :: vs). cbn [map_res map Rsum fold_right]. rewrite E. cbn [bind]. rewrite E2. cbn [bind]. fold (Rsum vs). split; [reflexivity|]. split; [lra|].
      intros [b [[<- | Hb] [w [Hw Ew]]]].
      + rewrite E in Ew. apply Ok_inj, Fin_inj in Ew. subst. lra.
      + assert (0 < Rsum vs) by (apply Q; exists b; split; auto; exists w; auto). lra. }
  intros H. destruct (G H) as (vs & E & P & Q). unfold sum_res. rewrite E. cbn [bind]. rewrite xsum_fin.
  split; [exists (Rsum vs); auto|]. intros K. exists (Rsum vs). auto.
Qed.

(** A particle and a halo for which all rates are simple: mass 2 GeV, constant cross sections, eta = 1, speeds up to 1. *)
Definition DM1 : DM_interface := mkDM (Fin 2) (Fin 1) true (fun _ _ _ => Ok (Fin 1)) (fun _ _ _ _ => Ok (Fin 1)) (fun _ _ _ _ => Ok (Fin 1)).
Definition D1 : Distr_interface := mkDistr (Fin 1) (Fin 0) (Fin 1) true (fun _ => Ok (Fin 1)) (fun _ => Ok (Fin 1)).

(** Binomial probabilities (the exact formula), 0 outside 0..n. *)
Definition exact_binomial (n : Z) (p : xr) (k : Z) : res xr :=
  if ((0 <=? k) && (k <=? n))%Z%bool
  then Ok (Fin (Binomial.C (Z.to_nat n) (Z.to_nat k) * val p ^ Z.to_nat k * (1 - val p) ^ Z.to_nat (n - k))) else Ok (Fin 0).
Definition X1 : externals := mkExternals reference_Integrate (fun _ _ _ => Ok (Fin 0)) (fun _ _ => Ok (Fin 0)) (fun _ _ _ _ => Ok (Fin 0)) exact_binomial.

(** An atom with one shell: binding energy 3/4 GeV, one momentum m_e. *)
Definition shell1 : Atomic_Electron :=
  mkShell (Fin mElectron) (Fin mElectron) (Fin 1) (Fin 2) (Fin 1) (Fin 1) 1 1 [Fin mElectron] [Fin 1] (repeat (mkTable2 [] [] []) 4) 1 0 "1s" (Fin (3 / 4)) 0 false.
Definition atom1 : Atom := mkAtom (mkNucleus (Some 1%Z) [mkIsotope 1 1 (Fin 1) (Fin 0) (Fin 0) (Fin 0) "H1" (Fin 1)] "H") [shell1] (Fin 1).
Definition ion1 : ionization := Ionization_start Electron_Recoil "test" (Fin 1) [atom1] [Fin 1].

Lemma ER_nonneg q E dl : 0 <= dl -> 0 < q -> 0 <= E -> nonneg (ER_term reference_Integrate (Fin E) DM1 D1 shell1 (Fin dl) (Fin q)) /\
  (0 < dl -> (3 / 4 + E) / q + q / 4 < 1 -> positive (ER_term reference_Integrate (Fin E) DM1 D1 shell1 (Fin dl) (Fin q))).
Proof.
  intros Hd Hq HE. unfold ER_term. cbn [d_vmax D1 DM1 dm_mass binding_energy shell1 dm_use_eta d_use_eta andb d_rho dm_d2Sigma_Ionization d_eta bind].
  unfold vMinimal_Electrons. rewrite xadd_fin, !xdiv_fin by lra. rewrite xadd_fin.
  assert (EQ : forall x, (Fin 2.0 * Fin dl * Fin q * Fin q * Fin 1 * Fin 1.0e-3 * Fin 1.0e-3 * Fin 1 / Fin 2 * Fin 1)%xr = x ->
     x = Fin (2 * dl * q * q * 1.0e-3 * 1.0e-3 / 2)).
  { intros x <-. rewrite !xmul_fin, xdiv_fin by lra. rewrite xmul_fin. f_equal. lra. }
  rewrite (EQ _ eq_refl). clear EQ.
  assert (0 <= dl * q * q) by (apply Rmult_le_pos; [apply Rmult_le_pos|]; lra).
  split.
  - destruct (xlt _ _); [|exists 0; split; [lra|reflexivity]].
    eexists; split; [|reflexivity]. nra.
  - intros Hd' H1. rewrite xlt_true by lra. eexists; split; [|reflexivity].
    assert (0 < dl * q * q) by (repeat apply Rmult_lt_0_compat; lra). lra.
Qed.

Lemma window1 : ER_window DM1 D1 shell1 = Some (Fin 1, Fin 2).
Proof.
  unfold ER_window. cbn [d_vmax D1 DM1 dm_mass binding_energy shell1 q_max].
  replace 2.0 with 2 by lra. rewrite xdiv_fin by lra. rewrite !xmul_fin, xsub_fin. rewrite xlt_false by lra.
  rewrite xsqrt_fin by lra. replace (2 * 2 * 1 * 1 - 2 * 2 * (3 / 4)) with 1 by lra. rewrite sqrt_1, xadd_fin, xsub_fin.
  rewrite xlt_false by lra. rewrite xlt_true by lra. do 3 f_equal. lra.
Qed.
Definition q1_ (i : nat) : R := exp (INR i * (ln 2 / 99)).
Lemma grid1 : Log_Space (Fin 1) (Fin 2) 100 = map (fun i => Fin (q1_ i)) (seq 0 100).
Proof.
  unfold Log_Space. apply map_ext. intros i. rewrite !xlog_fin by lra. rewrite ln_1, xsub_fin. cbn [Nat.sub].
  rewrite (INR_IZR_INZ 99). change (IZR (Z.of_nat 99)) with 99. rewrite xdiv_fin by lra. rewrite xmul_fin, xadd_fin, xexp_fin. unfold q1_. do 2 f_equal. lra.
Qed.
Lemma q1_pos i : 0 < q1_ i.
Proof. apply exp_pos. Qed.

Lemma at_map_seq {A : Type} (f : nat -> A) n i : (i < n)%nat -> at_ub (map f (seq 0 n)) i = Ok (f i).
Proof.
  intros H. unfold at_ub. rewrite nth_error_map, (nth_error_nth' _ 0%nat) by (rewrite seq_length; auto). rewrite seq_nth by auto. reflexivity.
Qed.
Lemma grid1_at i : (i < 100)%nat -> at_ub (map (fun i => Fin (q1_ i)) (seq 0 100)) i = Ok (Fin (q1_ i)).
Proof. apply (at_map_seq (fun i => Fin (q1_ i))). Qed.

Lemma shell1_rate E : 0 <= E < 1 / 4 -> positive (dRdEe_ER_shell reference_Integrate (Fin E) DM1 D1 (Fin 1) shell1).
Proof.
  intros HE. unfold dRdEe_ER_shell. rewrite window1, grid1.
  rewrite !grid1_at by lia. cbn [bind].
  assert (P0 := q1_pos 0). assert (P1 := q1_pos 1). assert (HL : 0 < ln 2) by (rewrite <- ln_1; apply ln_increasing; lra).
  rewrite (xdiv_fin 1.0) by lra. rewrite xdiv_fin by lra. rewrite xlog_fin by (apply Rdiv_lt_0_compat; auto).
  set (dl := ln (q1_ 1 / q1_ 0)).
  assert (Hd : 0 < dl).
  { unfold dl. rewrite ln_div by auto. unfold q1_. rewrite !ln_exp. cbn [INR]. lra. }
  destruct (sum_res_nonneg (ER_term reference_Integrate (Fin E) DM1 D1 shell1 (Fin dl)) (map (fun i => Fin (q1_ i)) (seq 0 100))) as [_ S].
  { intros a Ha. apply in_map_iff in Ha. destruct Ha as [i [<- Hi]]. apply ER_nonneg; [lra|apply q1_pos|lra]. }
  destruct S as [v [Hv ->]].
  - exists (Fin (q1_ 99)). split; [apply in_map_iff; exists 99%nat; split; [reflexivity|apply in_seq; lia]|].
    assert (Q : q1_ 99 = 2). { unfold q1_. replace (INR 99 * (ln 2 / 99)) with (ln 2) by (rewrite (INR_IZR_INZ 99); change (IZR (Z.of_nat 99)) with 99; lra). apply exp_ln; lra. }
    rewrite Q. apply ER_nonneg; lra.
  - cbn [bind]. rewrite xmul_fin. eexists; split; [|reflexivity]. lra.
Qed.

Lemma floor_small x : 0 <= x < 1 -> Rfloor x = 0%Z.
Proof. intros H. apply Rfloor_spec. cbn. lra. Qed.

Lemma mass1 : Average_Nuclear_Mass (at_nucleus atom1) = Fin 1.
Proof. cbn [Average_Nuclear_Mass at_nucleus atom1 nisotopes fold_left imass iabundance]. rewrite xmul_fin, xadd_fin. f_equal. lra. Qed.

Lemma trials1 : to_int (Fin (IZR 0) + xfloor (Fin (mElectron / 2) / Fin 1))%xr = Ok 0%Z.
Proof.
  rewrite xdiv_fin by lra. cbn [xfloor]. rewrite floor_small by (unfold mElectron; lra). rewrite xadd_fin, <- plus_IZR. unfold to_int.
  rewrite double_to_int_IZR. reflexivity.
Qed.
Lemma electron_probability ne : (1 <= ne < 2 ^ 31)%Z ->
  PDF_ne exact_binomial ne (Fin (mElectron / 2)) (Fin 1) (s32 0) = Ok (Fin (if (ne =? 1)%Z then 1 else 0)).
Proof.
  intros Hn. unfold PDF_ne. change (s32 0) with 0%Z. cbv zeta. rewrite trials1. cbn [bind].
  assert (K : s32 (u32 (ne - 1)) = (ne - 1)%Z). { unfold s32, u32. rewrite (Z.mod_small (ne - 1)) by lia. rewrite Z.mod_small by lia. lia. }
  rewrite K. unfold exact_binomial. destruct (Z.eqb_spec ne 1) as [-> | N].
  - cbn -[Rdiv Rplus Rminus]. f_equal. f_equal. unfold Binomial.C. cbn. lra.
  - replace (ne - 1 <=? 0)%Z with false by (symmetry; apply Z.leb_gt; lia). rewrite andb_false_r. reflexivity.
Qed.

Lemma R_ne_1 s : i_channel s = Electron_Recoil -> i_atoms s = [atom1] -> i_fractions s = [Fin 1] -> b_flat_efficiency (i_base s) = Fin 1.0 ->
  forall ne, (1 <= ne < 2 ^ 31)%Z -> nonneg (R_ne X1 DM1 D1 s ne) /\ (ne = 1%Z -> positive (R_ne X1 DM1 D1 s ne)).
Proof.
  intros E1 E2 E3 E4 ne Hn. unfold R_ne, weighted. rewrite E2, E3. cbn [List.length seq sum_res map_res]. unfold sum_res at 1 2. cbn [map_res].
  cbn [at_ub nth_error bind]. unfold R_ne_atom, sum_res. cbn [electrons atom1 map_res]. unfold R_ne_shell, sum_res. cbn [k_Grid shell1 map_res].
  rewrite xmul_fin, !xdiv_fin by (unfold mElectron; lra).
  replace (mElectron * mElectron / 2.0 / mElectron) with (mElectron / 2) by (replace 2.0 with 2 by lra; assert (H := mElectron_pos); field; lra).
  cbn [W atom1 number_of_secondary_electrons shell1 x_PMF_Binomial X1]. rewrite electron_probability by auto. cbn [bind].
  unfold Ionization_dRdE_shell. rewrite E1, E4. cbn [x_Integrate X1]. fold atom1. rewrite mass1.
  destruct (shell1_rate (mElectron / 2)) as [v [Hv ->]]; [unfold mElectron; lra|]. cbn [bind]. rewrite !xmul_fin.
  cbn [dlogk shell1]. rewrite xlog_fin by lra. rewrite !xmul_fin. rewrite xdiv_fin by (assert (H := mElectron_pos); lra). rewrite !xmul_fin. cbn [xsum fold_left].
  rewrite xadd_fin. cbn [bind]. rewrite xadd_fin. cbn [bind]. rewrite xmul_fin. cbn [bind xsum fold_left]. rewrite xadd_fin.
  assert (HL : 0 < ln 10.0) by (rewrite <- ln_1; apply ln_increasing; lra). assert (HM := mElectron_pos).
  assert (P : 0 < ln 10.0 * 1 * mElectron * mElectron / mElectron).
  { apply Rdiv_lt_0_compat; auto. rewrite Rmult_1_r. apply Rmult_lt_0_compat; auto. apply Rmult_lt_0_compat; auto. }
  set (A := ln 10.0 * 1 * mElectron * mElectron / mElectron) in *. clearbody A.
  assert (PV : 0 < A * v) by (apply Rmult_lt_0_compat; auto).
  replace 1.0 with 1 by lra. split.
  - eexists; split; [|reflexivity]. destruct (ne =? 1)%Z; rewrite ?Rmult_1_l, ?Rmult_1_r, ?Rmult_0_l, ?Rmult_0_r, ?Rmult_0_l; lra.
  - intros ->. cbn [Z.eqb Pos.eqb]. eexists; split; [|reflexivity]. rewrite !Rmult_1_l, !Rmult_1_r; lra.
Qed.

Lemma not_both (r r' : res xr) : positive r -> r' = Ok (Fin 0) -> r <> r'.
Proof. intros [v [Hv ->]] -> H. apply Ok_inj, Fin_inj in H. lra. Qed.

(** An energy threshold (here 10 GeV, above all electron energies) set after an electron threshold is ignored. *)
Lemma energy_threshold_ignored : exists ops s u, ionization_run ion1 ops = Ok s /\ last_such ionization_use ops = Some u /\ ~ ionization_predicts_as s u.
Proof.
  assert (L : xlt (Fin 20) (Fin 10) = false) by (apply xlt_false; lra).
  set (s1 := with_ne 1 5 (with_i_flags true false false false ion1)).
  exists [IElectron_Threshold 1 5; IBase (BThreshold (Fin 10) (Fin 20))],
    (with_i_base (with_range (Fin 10) (Fin 20) (with_using true false (Initialize_Poisson (with_using false false (Initialize_Poisson (i_base ion1)))))) s1),
    (IBase (BThreshold (Fin 10) (Fin 20))).
  split.
  { cbn [ionization_run ionization_step bind base_step]. unfold Use_Electron_Threshold, Use_Energy_Threshold. cbn [Z.ltb Z.compare Pos.compare Pos.compare_cont andb i_ne_max i_ne_threshold with_ne with_i_base with_i_flags bind].
    rewrite L. cbn [bind]. reflexivity. }
  split; [reflexivity|]. intros (n1 & E & P). cbn [ionization_step base_step] in E. unfold Use_Energy_Threshold in E. rewrite L in E. cbn [bind] in E.
  apply Ok_inj in E. subst n1. destruct (P X1 DM1 D1) as [P' _]. clear P. revert P'. apply not_both.
  - unfold Ionization_Total. cbn [with_i_base i_base b_analysis with_range with_using Initialize_Poisson with_poisson i_using_ne_threshold s1 with_ne with_i_flags i_ne_max i_ne_threshold].
    change (5 =? 2 ^ 32 - 1)%Z with false. cbv iota.
    match goal with |- positive (sum_res ?f ?l) => destruct (sum_res_nonneg f l) as [_ S] end.
    + intros a Ha. apply Zrange_In in Ha. match goal with |- nonneg (bind (R_ne _ _ _ ?s _) _) => destruct (R_ne_1 s eq_refl eq_refl eq_refl eq_refl a) as [[v [Hv ->]] _]; [lia|] end.
      cbn [bind]. change (b_exposure _) with (Fin 1). rewrite xmul_fin. eexists; split; [|reflexivity]. lra.
    + apply S. exists 1%Z. split; [apply Zrange_In; lia|].
      match goal with |- positive (bind (R_ne _ _ _ ?s _) _) => destruct (R_ne_1 s eq_refl eq_refl eq_refl eq_refl 1) as [_ K]; [lia|] end.
      destruct (K eq_refl) as [v [Hv ->]]. cbn [bind]. change (b_exposure _) with (Fin 1). rewrite xmul_fin. eexists; split; [|reflexivity]. lra.
  - unfold Ionization_Total. cbn [with_i_base i_base b_analysis with_range with_using Initialize_Poisson with_poisson i_using_ne_threshold plain_ionization with_efficiencies b_using_threshold i_atoms s1 with_ne with_i_flags ion1 Ionization_start List.length seq map_res at_ub nth_error bind i_fractions electrons atom1].
    unfold threshold_term. cbn [k_max shell1 b_threshold i_base with_i_base with_efficiencies with_range].
    rewrite xmul_fin, !xdiv_fin by (assert (H := mElectron_pos); lra). rewrite xlt_false.
    + cbn [bind List.concat app xsum fold_left]. rewrite xadd_fin. do 2 f_equal. lra.
    + replace (mElectron * mElectron / 2.0 / mElectron) with (mElectron / 2) by (replace 2.0 with 2 by lra; assert (H := mElectron_pos); field; lra).
      unfold mElectron; lra.
Qed.

(** With the flag of energy bins left over, fewer bin edges than bins + 1 make the prediction read past the end of the edges. *)
Lemma stale_edges Integrate f d lo hi e0 : b_using_bins d = true -> b_bin_energies d = [lo; hi] -> (2 <= b_bins d)%Z -> nth_error (b_efficiencies d) 0 = Some e0 ->
  (exists v, Integrate f lo hi = Ok v) -> DM_Signals_Energy_Bins Integrate f d = UB.
Proof.
  intros U E N F [v I]. unfold DM_Signals_Energy_Bins. rewrite U, E. cbn [negb].
  replace (Z.to_nat (b_bins d)) with (S (S (Z.to_nat (b_bins d - 2)))) by lia. cbn [seq map_res at_ub nth_error bind].
  rewrite I. cbn [bind]. unfold at_ub. rewrite F. cbn [bind]. reflexivity.
Qed.

Lemma electron_bins_ok s a b c : i_channel s = Electron_Recoil -> i_atoms s = [atom1] -> i_fractions s = [Fin 1] -> b_flat_efficiency (i_base s) = Fin 1.0 ->
  b_analysis (i_base s) = Binned_Poisson -> b_using_bins (i_base s) = false -> i_using_ne_bins s = true -> i_ne_threshold s = 1%Z -> b_bins (i_base s) = 3%Z ->
  b_efficiencies (i_base s) = [a; b; c] -> exists r, Ionization_Binned X1 DM1 D1 s = Ok r.
Proof.
  intros E1 E2 E3 E4 A U B T N F. unfold Ionization_Binned, DM_Signals_Electron_Bins. rewrite A, U, B, T, N, F. cbn [negb].
  change (seq 0 (Z.to_nat 3)) with [0; 1; 2]%nat. cbn [map_res].
  change (u32 (1 + Z.of_nat 0)) with 1%Z. change (u32 (1 + Z.of_nat 1)) with 2%Z. change (u32 (1 + Z.of_nat 2)) with 3%Z.
  destruct (R_ne_1 s E1 E2 E3 E4 1) as [[v1 [_ ->]] _]; [lia|]. destruct (R_ne_1 s E1 E2 E3 E4 2) as [[v2 [_ ->]] _]; [lia|].
  destruct (R_ne_1 s E1 E2 E3 E4 3) as [[v3 [_ ->]] _]; [lia|]. cbn [bind at_ub nth_error]. eexists; reflexivity.
Qed.

Definition ops_eb : list ionization_op := [IBase (BBins (Fin 0) (Fin 1) 1); IBase (BThreshold (Fin 10) (Fin 20)); IElectron_Bins 1 3].
Lemma ops_eb_state : exists s, ionization_run ion1 ops_eb = Ok s /\ i_channel s = Electron_Recoil /\ i_atoms s = [atom1] /\ i_fractions s = [Fin 1] /\
  b_flat_efficiency (i_base s) = Fin 1.0 /\ b_analysis (i_base s) = Binned_Poisson /\ b_using_bins (i_base s) = true /\ b_bins (i_base s) = 3%Z /\
  b_efficiencies (i_base s) = [Fin 1.0; Fin 1.0; Fin 1.0] /\ b_bin_energies (i_base s) = Linear_Space (Fin 0) (Fin 1) 2.
Proof.
  assert (L : xlt (Fin 20) (Fin 10) = false) by (apply xlt_false; lra).
  assert (L2 : xlt (Fin 1) (Fin 0) = false) by (apply xlt_false; lra).
  eexists. split.
  { unfold ops_eb. cbn [ionization_run ionization_step bind base_step]. unfold Use_Energy_Bins, Use_Energy_Threshold, Use_Electron_Bins.
    cbn [Initialize_Binned_Poisson ion1 Ionization_start i_base Detector_ctor b_analysis bind]. rewrite L2. cbn [bind]. rewrite L. cbn [bind].
    cbn [Initialize_Binned_Poisson Initialize_Poisson with_poisson with_i_base with_range with_using i_base b_analysis bind].
    cbn [with_ne i_ne_max i_ne_threshold with_i_flags]. change (u32 (1 + 3 - 1) <? 1)%Z with false. cbv iota. reflexivity. }
  repeat split.
Qed.
Lemma plain_electron_bins s : exists n, ionization_step (plain_ionization s) (IElectron_Bins 1 3) = Ok n /\ i_channel n = i_channel s /\ i_atoms n = i_atoms s /\
  i_fractions n = i_fractions s /\ b_flat_efficiency (i_base n) = b_flat_efficiency (i_base s) /\ b_analysis (i_base n) = Binned_Poisson /\ b_using_bins (i_base n) = false /\
  i_using_ne_bins n = true /\ i_ne_threshold n = 1%Z /\ b_bins (i_base n) = 3%Z.
Proof.
  eexists. split.
  { cbn [ionization_step]. unfold Use_Electron_Bins.
    cbn [Initialize_Binned_Poisson plain_ionization i_base plain_base with_flat Detector_ctor b_analysis bind with_ne i_ne_max i_ne_threshold with_i_flags with_i_base].
    change (u32 (1 + 3 - 1) <? 1)%Z with false. cbv iota. reflexivity. }
  repeat split.
Qed.
Lemma Linear_2 lo hi : exists a b, Linear_Space lo hi 2 = [a; b].
Proof. unfold Linear_Space. cbn [seq map]. eexists _, _. reflexivity. Qed.

(** Electron bins requested after energy bins (and a threshold) are ignored; the prediction even reads past the end of the bin edges. *)
Lemma electron_bins_ignored : exists ops s u, ionization_run ion1 ops = Ok s /\ last_such ionization_use ops = Some u /\
  Ionization_Binned X1 DM1 D1 s = UB /\ ~ ionization_predicts_as s u.
Proof.
  destruct ops_eb_state as (s & R & E1 & E2 & E3 & E4 & A & U & N & F & G). exists ops_eb, s, (IElectron_Bins 1 3).
  split; [exact R|]. split; [reflexivity|].
  assert (K : Ionization_Binned X1 DM1 D1 s = UB).
  { unfold Ionization_Binned. rewrite A, U. destruct (Linear_2 (Fin 0) (Fin 1)) as (a & b & L).
    apply (stale_edges _ _ _ a b (Fin 1.0)); auto; [congruence|lia|rewrite F; reflexivity|eexists; reflexivity]. }
  split; [exact K|]. intros (n1 & E & P). destruct (plain_electron_bins s) as (n & H & P1 & P2 & P3 & P4 & P5 & P6 & P7 & P8 & P9).
  rewrite H in E. apply Ok_inj in E. subst n1. destruct (P X1 DM1 D1) as [_ P']. rewrite K in P'.
  destruct (electron_bins_ok (with_i_base (with_efficiencies (b_efficiencies (i_base s)) (i_base n)) n) (Fin 1.0) (Fin 1.0) (Fin 1.0)) as [r Q];
    cbn [with_i_base i_channel i_atoms i_fractions i_base b_flat_efficiency with_efficiencies b_analysis b_using_bins i_using_ne_bins i_ne_threshold b_bins b_efficiencies]; try congruence.
Qed.

(** In maximum gap mode the expected number of events of an ionization detector is 0 whatever the spectrum. *)
Lemma gap_total_zero ch label expo atoms fractions l s X DM D :
  ionization_run (Ionization_start ch label expo atoms fractions) [IBase (BMaximum_Gap l)] = Ok s -> Ionization_Total X DM D s = Ok (Fin 0).
Proof.
  intros H. cbn [ionization_run ionization_step base_step bind] in H. unfold Use_Maximum_Gap in H.
  destruct (_ && _)%bool; try discriminate. destruct (sort_doubles l); try discriminate. cbn [bind] in H. apply Ok_inj in H. subst s. reflexivity.
Qed.

(** * Silicon *)
Definition qstep : R := 0.02 * aEM * mElectron.
Lemma Crystal_nonneg c gap eps emax b qi E : real_crystal c gap eps (0.1 * eV) emax qstep b -> (0 <= qi)%Z -> 0 <= E ->
  nonneg (Crystal_term reference_Integrate (Fin E) DM1 D1 c qi) /\
  (E / (IZR (qi + 1) * qstep) + IZR (qi + 1) * qstep / 4 <= 1 -> positive (Crystal_term reference_Integrate (Fin E) DM1 D1 c qi)).
Proof.
  intros (_ & _ & _ & _ & Hq & _ & _ & _ & _ & Hp & _) Hi HE. unfold Crystal_term. rewrite Hq, xmul_fin.
  assert (Hk : 0 < IZR (qi + 1)) by (apply IZR_lt; lia). set (k := IZR (qi + 1)) in *.
  assert (Hkq : 0 < k * qstep) by (apply Rmult_lt_0_compat; auto).
  cbn [d_vmax D1 DM1 dm_mass dm_use_eta d_use_eta andb d_rho dm_d2Sigma_Crystal d_eta bind].
  unfold vMinimal_Electrons. rewrite !xdiv_fin by lra. rewrite xadd_fin.
  assert (EQ : forall x, (Fin 2.0 * Fin (k * qstep) * Fin qstep * Fin 1 / Fin 2 * Fin 1 * Fin 1e-3 * Fin 1e-3 * Fin 1)%xr = x ->
     x = Fin (k * qstep * qstep * 1e-3 * 1e-3)).
  { intros x <-. rewrite !xmul_fin, xdiv_fin by lra. rewrite !xmul_fin. f_equal. lra. }
  rewrite (EQ _ eq_refl). clear EQ.
  assert (0 < k * qstep * qstep) by (apply Rmult_lt_0_compat; auto).
  split.
  - destruct (xlt _ _); [exists 0; split; [lra|reflexivity]|]. eexists; split; [|reflexivity]. lra.
  - intros H1. rewrite xlt_false by lra. eexists; split; [|reflexivity]. lra.
Qed.

Lemma Crystal_rate c gap eps b M E : real_crystal c gap eps (0.1 * eV) (500 * (0.1 * eV)) qstep b -> N_q c = 900%Z -> M_cell c = Fin M -> 0 < M ->
  0 <= E <= 500 * (0.1 * eV) -> positive (dRdEe_Crystal reference_Integrate (Fin E) DM1 D1 c).
Proof.
  intros HC HN HM HMp HE. assert (HC' := HC). destruct HC' as (_ & _ & _ & Hx & _).
  unfold dRdEe_Crystal. rewrite Hx, xlt_false by lra. rewrite HN, HM.
  destruct (sum_res_nonneg (Crystal_term reference_Integrate (Fin E) DM1 D1 c) (Zrange 0 900)) as [_ S].
  - intros qi Hi. apply Zrange_In in Hi. apply (Crystal_nonneg c gap eps (500 * (0.1 * eV)) b); auto; [lia|lra].
  - destruct S as [v [Hv ->]].
    + exists 899%Z. split; [apply Zrange_In; lia|]. apply (Crystal_nonneg c gap eps (500 * (0.1 * eV)) b); auto; [lia|lra|].
      change (899 + 1)%Z with 900%Z. unfold qstep. assert (Ha := aEM_pos). 
      assert (Hb : 0 < 900 * (0.02 * aEM * mElectron)) by (unfold mElectron; unfold aEM; lra).
      assert (E / (900 * (0.02 * aEM * mElectron)) <= 1 / 2).
      { apply (Rmult_le_reg_r (900 * (0.02 * aEM * mElectron))); auto. unfold Rdiv at 1. rewrite Rmult_assoc, Rinv_l, Rmult_1_r by lra.
        unfold aEM, mElectron in *. unfold eV, GeV in *. lra. }
      unfold aEM, mElectron in *. lra.
    + cbn [bind]. rewrite xdiv_fin by lra. rewrite xmul_fin. eexists; split; [|reflexivity]. apply Rmult_lt_0_compat; auto. apply Rdiv_lt_0_compat; lra.
Qed.

Lemma total_loop_positive c gap eps b M : real_crystal c gap eps (0.1 * eV) (500 * (0.1 * eV)) qstep b -> N_q c = 900%Z -> M_cell c = Fin M -> 0 < M ->
  forall l sum, 0 <= sum -> (forall i, In i l -> (0 <= i < 500)%Z) ->
  exists v, R_total_loop reference_Integrate DM1 D1 c (Fin sum) l = Ok (Fin v) /\ sum <= v /\ (l <> [] -> sum < v).
Proof.
  intros HC HN HM HMp. induction l as [|i l IH]; intros sum Hs Hl; cbn [R_total_loop].
  - exists sum. split; [reflexivity|]. split; [lra|congruence].
  - assert (Hi := Hl i (or_introl eq_refl)). assert (HC' := HC). destruct HC' as (_ & _ & Hd & _). rewrite Hd, xmul_fin.
    assert (he := eV_pos). assert (H1 : 1 <= IZR (i + 1) <= 500) by (split; apply IZR_le; lia).
    destruct (Crystal_rate c gap eps b M (IZR (i + 1) * (0.1 * eV)) HC HN HM HMp) as [r [Hr ->]].
    { split; [apply Rmult_le_pos; lra|apply Rmult_le_compat_r; lra]. }
    cbn [bind]. rewrite xmul_fin, xadd_fin. assert (0 < 0.1 * eV * r) by (apply Rmult_lt_0_compat; lra).
    destruct (IH (sum + 0.1 * eV * r)) as (v & E & P & _); [lra|intros; apply Hl; right; auto|].
    exists v. split; [exact E|]. split; [lra|]. intros _; lra.
Qed.

Lemma silicon : exists c, Crystal_ctor IL0 "Si" = Ok c /\ real_crystal c (1.11 * eV) (3.6 * eV) (0.1 * eV) (500 * (0.1 * eV)) qstep (900 * qstep) /\
  N_E c = 500%Z /\ N_q c = 900%Z /\ Q_max c = 14%Z /\ M_cell c = Fin (2 * 28.08 * mNucleon).
Proof.
  destruct (crystal_ctor_ok IL0 "Si" (1.11 * eV) (3.6 * eV) 14 (repeat (Fin 1) (Z.to_nat 450000))) as [H _]; [left; auto|reflexivity|].
  destruct H as (c & H1 & H2 & H3 & H4 & H5 & _ & H6 & _); [rewrite IL0_length; lia|]. exists c. auto 10.
Qed.

Lemma silicon_start c Q k : real_crystal c (1.11 * eV) (3.6 * eV) (0.1 * eV) (500 * (0.1 * eV)) qstep (900 * qstep) -> (1 <= Q)%Z -> (0 <= k < 2 ^ 31)%Z ->
  IZR k <= 11.1 + 36 * (IZR Q - 1) < IZR k + 1 -> to_int (Minimum_Electron_Energy Q c / dE c)%xr = Ok k.
Proof.
  intros HC HQ Hk H. assert (he := eV_pos). rewrite (Emin_fin c _ _ _ _ _ _ Q HC). destruct HC as (_ & _ & Hd & _). rewrite Hd, xdiv_fin by lra.
  unfold Emin_R. replace ((1.11 * eV + 3.6 * eV * (IZR Q - 1)) / (0.1 * eV)) with (11.1 + 36 * (IZR Q - 1)).
  2:{ apply (Rmult_eq_reg_r (0.1 * eV)); [|lra]. unfold Rdiv. rewrite Rmult_assoc, Rinv_l by lra. lra. }
  unfold to_int, double_to_int.
  assert (HQ' : 1 <= IZR Q) by (apply IZR_le; lia).
  assert (F : Rtrunc (11.1 + 36 * (IZR Q - 1)) = k) by (rewrite Rtrunc_nonneg by lra; apply Rfloor_spec; lra). rewrite F.
  destruct ((- 2 ^ 31 <=? k) && (k <=? 2 ^ 31 - 1))%Z%bool eqn:B; [reflexivity|]. apply andb_false_iff in B. destruct B as [B | B]; apply Z.leb_gt in B; lia.
Qed.

Definition semi1 (c : Crystal) : semiconductor := mkSemiconductor (Detector_ctor "test" (Fin 1) "Electrons") c None None None.

(** Requesting 14 or more pairs in silicon after an energy threshold was set: the prediction is 0, although the rate is positive. *)
Lemma Q_threshold_ignored : exists s0 ops s u, Semiconductor_ctor IL0 "test" (Fin 1) "Si" = Ok s0 /\ semiconductor_run s0 ops = Ok s /\
  last_such semiconductor_use ops = Some u /\ Semiconductor_Total X1 DM1 D1 s = Ok (Fin 0) /\ ~ semiconductor_predicts_as s u.
Proof.
  destruct silicon as (c & H1 & H2 & H3 & H4 & H5 & H6). assert (he := eV_pos).
  assert (L : xlt (Fin 2) (Fin 1) = false) by (apply xlt_false; lra).
  set (d1 := with_range (Fin 1) (Fin 2) (with_using true false (Initialize_Poisson (c_base (semi1 c))))).
  exists (semi1 c), [CBase (BThreshold (Fin 1) (Fin 2)); CQ_Threshold 14], (Use_Q_Threshold 14 (with_c_base d1 (semi1 c))), (CQ_Threshold 14).
  split; [unfold Semiconductor_ctor; rewrite H1; reflexivity|]. split.
  { cbn [semiconductor_run semiconductor_step base_step]. unfold Use_Energy_Threshold. rewrite L. reflexivity. }
  split; [reflexivity|].
  match goal with |- ?A /\ _ => assert (K : A) end.
  { unfold Semiconductor_Total. cbn [Use_Q_Threshold with_c_base c_base with_range Initialize_Poisson with_poisson b_analysis b_using_threshold d1 with_using orb b_threshold b_energy_max c_crystal semi1 b_exposure Detector_ctor].
    rewrite H5. rewrite (Emin_fin c _ _ _ _ _ _ _ H2). cbn [x_Integrate X1]. unfold reference_Integrate. cbn [val bind]. rewrite RInt_point.
    change (@zero R_CompleteNormedModule) with 0. rewrite xmul_fin. do 2 f_equal. lra. }
  split; [exact K|]. intros (s1 & E & P). cbn [semiconductor_step] in E. apply Ok_inj in E. destruct (P X1 DM1 D1) as [P' _]. rewrite K in P'. clear P K.
  subst s1. revert P'. intros P'. symmetry in P'. revert P'. apply not_both; [|reflexivity].
  unfold Semiconductor_Total. cbn [Use_Q_Threshold plain_semiconductor with_c_base c_base with_range Initialize_Poisson with_poisson b_analysis b_using_threshold with_efficiencies orb plain_base with_flat Detector_ctor c_using_Q_threshold with_Q read_init bind c_Q_threshold c_crystal semi1 d1 b_exposure b_flat_efficiency with_using].
  change (s32 14) with 14%Z. unfold R_total_Crystal. rewrite (silicon_start c 14 479 H2) by (try lia; lra). cbn [bind x_Integrate X1]. rewrite H3.
  destruct (total_loop_positive c _ _ _ _ H2 H4 H6) with (l := Zrange 479 500) (sum := 0.0) as (v & -> & _ & Hv); [unfold mNucleon; lra|lra| |].
  { intros i Hi. apply Zrange_In in Hi. lia. }
  cbn [bind]. rewrite !xmul_fin. eexists; split; [|reflexivity]. assert (0.0 < v); [|lra]. apply Hv. destruct (Zrange_head 479 500) as [t ->]; [lia|discriminate].
Qed.

Lemma Q_loop_ok c gap eps b M : real_crystal c gap eps (0.1 * eV) (500 * (0.1 * eV)) qstep b -> N_q c = 900%Z -> M_cell c = Fin M -> 0 < M ->
  forall Emax l sum, (forall i, In i l -> (0 <= i < 500)%Z) -> exists v, R_Q_loop reference_Integrate (Fin Emax) DM1 D1 c sum l = Ok v.
Proof.
  intros HC HN HM HMp Emax. induction l as [|i l IH]; intros sum Hl; cbn [R_Q_loop].
  - eauto.
  - assert (Hi := Hl i (or_introl eq_refl)). assert (HC' := HC). destruct HC' as (_ & _ & Hd & _). rewrite Hd, xmul_fin.
    assert (he := eV_pos). assert (H1 : 1 <= IZR (i + 1) <= 500) by (split; apply IZR_le; lia).
    destruct (xlt _ _); [eauto|].
    destruct (Crystal_rate c gap eps b M (IZR (i + 1) * (0.1 * eV)) HC HN HM HMp) as [r [Hr ->]].
    { split; [apply Rmult_le_pos; lra|apply Rmult_le_compat_r; lra]. }
    cbn [bind]. apply IH. intros; apply Hl; right; auto.
Qed.
Lemma silicon_R_Q c Q k : real_crystal c (1.11 * eV) (3.6 * eV) (0.1 * eV) (500 * (0.1 * eV)) qstep (900 * qstep) -> N_E c = 500%Z -> N_q c = 900%Z ->
  M_cell c = Fin (2 * 28.08 * mNucleon) -> (1 <= Q)%Z -> (0 <= k < 2 ^ 31)%Z -> IZR k <= 11.1 + 36 * (IZR Q - 1) < IZR k + 1 ->
  exists v, R_Q_Crystal reference_Integrate Q DM1 D1 c = Ok v.
Proof.
  intros H2 H3 H4 H6 HQ Hk H. unfold R_Q_Crystal. rewrite (silicon_start c Q k H2 HQ Hk H). cbn [bind]. rewrite H3, (Emin_fin c _ _ _ _ _ _ _ H2).
  apply (Q_loop_ok c _ _ _ _ H2 H4 H6); [unfold mNucleon; lra|]. intros i Hi. apply Zrange_In in Hi. lia.
Qed.

Definition ops_qb : list semiconductor_op := [CBase (BBins (Fin 0) (Fin 1) 1); CBase (BThreshold (Fin 1) (Fin 2)); CQ_Bins 1 3].
Lemma ops_qb_state c : exists s, semiconductor_run (semi1 c) ops_qb = Ok s /\ c_crystal s = c /\ b_analysis (c_base s) = Binned_Poisson /\ b_using_bins (c_base s) = true /\
  b_bins (c_base s) = 3%Z /\ b_efficiencies (c_base s) = [Fin 1.0; Fin 1.0; Fin 1.0] /\ b_bin_energies (c_base s) = Linear_Space (Fin 0) (Fin 1) 2.
Proof.
  assert (L : xlt (Fin 2) (Fin 1) = false) by (apply xlt_false; lra).
  assert (L2 : xlt (Fin 1) (Fin 0) = false) by (apply xlt_false; lra).
  eexists. split.
  { unfold ops_qb. cbn [semiconductor_run semiconductor_step bind base_step]. unfold Use_Energy_Bins, Use_Energy_Threshold, Use_Q_Bins.
    cbn [Initialize_Binned_Poisson semi1 c_base Detector_ctor b_analysis bind]. rewrite L2. cbn [bind]. rewrite L. cbn [bind].
    cbn [Initialize_Binned_Poisson Initialize_Poisson with_poisson with_c_base with_range with_using c_base b_analysis bind]. reflexivity. }
  repeat split.
Qed.
Lemma plain_Q_bins s : exists n, semiconductor_step (plain_semiconductor s) (CQ_Bins 1 3) = Ok n /\ c_crystal n = c_crystal s /\ b_analysis (c_base n) = Binned_Poisson /\
  b_using_bins (c_base n) = false /\ b_bins (c_base n) = 3%Z /\ c_using_Q_bins n = Some true /\ c_Q_threshold n = Some 1%Z.
Proof. eexists. split; [reflexivity|]. repeat split. Qed.

(** Pair number bins requested after energy bins (and a threshold) are ignored; the prediction reads past the end of the bin edges. *)
Lemma Q_bins_ignored : exists s0 ops s u, Semiconductor_ctor IL0 "test" (Fin 1) "Si" = Ok s0 /\ semiconductor_run s0 ops = Ok s /\
  last_such semiconductor_use ops = Some u /\ Semiconductor_Binned X1 DM1 D1 s = UB /\ ~ semiconductor_predicts_as s u.
Proof.
  destruct silicon as (c & H1 & H2 & H3 & H4 & H5 & H6). destruct (ops_qb_state c) as (s & R & C & A & U & N & F & G).
  exists (semi1 c), ops_qb, s, (CQ_Bins 1 3). split; [unfold Semiconductor_ctor; rewrite H1; reflexivity|]. split; [exact R|]. split; [reflexivity|].
  assert (K : Semiconductor_Binned X1 DM1 D1 s = UB).
  { unfold Semiconductor_Binned. rewrite A, U. destruct (Linear_2 (Fin 0) (Fin 1)) as (a & b & L).
    apply (stale_edges _ _ _ a b (Fin 1.0)); auto; [congruence|lia|rewrite F; reflexivity|eexists; reflexivity]. }
  split; [exact K|]. intros (n1 & E & P). destruct (plain_Q_bins s) as (n & H & P1 & P2 & P3 & P4 & P5 & P6).
  rewrite H in E. apply Ok_inj in E. subst n1. destruct (P X1 DM1 D1) as [_ P']. rewrite K in P'. clear P K.
  unfold Semiconductor_Binned, DM_Signals_Q_Bins in P'.
  cbn [with_c_base c_base with_efficiencies b_analysis b_using_bins c_using_Q_bins c_Q_threshold b_efficiencies b_bins c_crystal b_exposure b_flat_efficiency] in P'.
  rewrite P2, P3, P4, P5, P6, P1, C, F in P'. cbn [read_init bind negb] in P'.
  change (Zrange 1 (u32 (1 + 3))) with [1; 2; 3]%Z in P'. cbn [map_res x_Integrate X1] in P'.
  change (s32 1) with 1%Z in P'. change (s32 2) with 2%Z in P'. change (s32 3) with 3%Z in P'.
  destruct (silicon_R_Q c 1 11 H2 H3 H4 H6) as [v1 V1]; [lia|lia|lra|]. destruct (silicon_R_Q c 2 47 H2 H3 H4 H6) as [v2 V2]; [lia|lia|lra|].
  destruct (silicon_R_Q c 3 83 H2 H3 H4 H6) as [v3 V3]; [lia|lia|lra|]. rewrite V1, V2, V3 in P'. cbn in P'. discriminate.
Qed.
