(** Electron thresholds and electron bins of ionization detectors (C58). *)
From Coq Require Import Reals ZArith String Lra Lia Bool.
From Coquelicot Require Import Coquelicot.
From Coq Require Import List.
From Verif Require Import Base XrFacts Analysis Quadrature Interpolation Nucleus_Model Nuclear_Model Particle_Model CrossSection_Model
  Distribution_Model Atom_Model Crystal_Model Rates_Model Crystal_Proofs Detector_Model DetectorTypes_Model Detector_Proofs DetectorModes_Proofs DetectorWitness_Proofs DetectorBins_Proofs Electrons_Proofs.
Import ListNotations.
Local Open Scope R_scope.

(** * Specification: a detector [s2], made from [s], predicts the events of [s] with lo..hi electrons *)
Definition counts (s s2 : ionization) (lo hi : Z) : Prop := forall X DM D e r, b_exposure (i_base s) = Fin e ->
  (forall ne, (lo <= ne <= hi)%Z -> R_ne X DM D s ne = Ok (Fin (r ne))) -> Ionization_Total X DM D s2 = Ok (Fin (e * Rsum (map r (numbers lo hi)))).
(** ... and has N bins, bin i with the events of [s] with lo + i electrons. *)
Definition counts_bins (s s2 : ionization) (lo N : Z) : Prop := forall X DM D e r, b_exposure (i_base s) = Fin e ->
  (forall ne, (lo <= ne < lo + N)%Z -> R_ne X DM D s ne = Ok (Fin (r ne))) ->
  exists l, Ionization_Binned X DM D s2 = Ok (map Fin l) /\ Z.of_nat (List.length l) = N /\ forall i, (0 <= i < N)%Z -> nth_error l (Z.to_nat i) = Some (e * r (lo + i)%Z).

Lemma threshold_counts t m s s2 hi : Use_Electron_Threshold t m s = Ok s2 -> i_ne_max s2 = hi -> (hi < 2 ^ 32 - 1)%Z -> counts s s2 t hi.
Proof.
  unfold Use_Electron_Threshold. intros H M B X DM D e r E R. destruct (_ <? _)%Z; [discriminate|]. apply Ok_inj in H. subst s2. subst hi.
  unfold Ionization_Total. cbn [i_base with_ne with_i_base b_analysis with_using Initialize_Poisson with_poisson i_using_ne_threshold with_i_flags i_ne_max i_ne_threshold b_exposure] in *.
  set (h := if ((0 <? m) && (t <? m))%Z%bool then m else 100%Z) in *.
  replace (h =? 2 ^ 32 - 1)%Z with false. 2:{ symmetry. apply Z.eqb_neq. unfold h. destruct ((0 <? m) && (t <? m))%Z%bool; lia. }
  rewrite numbers_range, E. rewrite <- Rsum_scale. apply (sum_res_values _ (fun ne => e * r ne)). intros ne I. apply numbers_In in I.
  (match goal with |- context [R_ne ?a ?b ?c ?z _] => rewrite (R_ne_same s z eq_refl eq_refl eq_refl eq_refl a b c) end). rewrite R by auto. cbn [bind]. rewrite xmul_fin. reflexivity.
Qed.
Lemma threshold_max t m s s2 : Use_Electron_Threshold t m s = Ok s2 -> i_ne_max s2 = (if ((0 <? m) && (t <? m))%Z%bool then m else 100%Z).
Proof. unfold Use_Electron_Threshold. intros H. destruct (_ <? _)%Z; [discriminate|]. apply Ok_inj in H. subst s2. reflexivity. Qed.
Lemma threshold_accepts t m s : (t <= if ((0 <? m) && (t <? m))%Z%bool then m else 100)%Z -> exists s2, Use_Electron_Threshold t m s = Ok s2.
Proof. intros H. unfold Use_Electron_Threshold. cbn [i_ne_max i_ne_threshold with_ne]. replace (_ <? t)%Z with false; [eexists; reflexivity|]. symmetry. apply Z.ltb_ge. exact H. Qed.

(** A range t..m with t below m. *)
Lemma electron_threshold_range t m s : (0 <= t < m)%Z -> (m < 2 ^ 32 - 1)%Z -> exists s2, Use_Electron_Threshold t m s = Ok s2 /\ counts s s2 t m.
Proof.
  intros H B. assert (F : ((0 <? m) && (t <? m))%Z%bool = true) by (apply andb_true_intro; split; apply Z.ltb_lt; lia).
  destruct (threshold_accepts t m s) as [s2 E]; [rewrite F; lia|]. exists s2. split; [exact E|]. apply (threshold_counts t m s s2 m E); [|lia]. rewrite (threshold_max _ _ _ _ E), F. reflexivity.
Qed.
(** Any other upper end, in particular 0 or t itself: up to 100. *)
Lemma electron_threshold_other t m s : (0 <= t <= 100)%Z -> (m <= 0 \/ m <= t)%Z -> exists s2, Use_Electron_Threshold t m s = Ok s2 /\ counts s s2 t 100.
Proof.
  intros H O. assert (F : ((0 <? m) && (t <? m))%Z%bool = false) by (apply andb_false_iff; rewrite !Z.ltb_ge; lia).
  destruct (threshold_accepts t m s) as [s2 E]; [rewrite F; lia|]. exists s2. split; [exact E|]. apply (threshold_counts t m s s2 100 E); [|lia]. rewrite (threshold_max _ _ _ _ E), F. reflexivity.
Qed.
Lemma electron_threshold_default t s : (0 <= t <= 100)%Z -> exists s2, Use_Electron_Threshold t 0 s = Ok s2 /\ counts s s2 t 100.
Proof. intros H. apply electron_threshold_other; lia. Qed.
Lemma electron_threshold_refused t m s : (100 < t)%Z -> (m <= 0 \/ m <= t)%Z -> Use_Electron_Threshold t m s = Exit.
Proof.
  intros H O. assert (F : ((0 <? m) && (t <? m))%Z%bool = false) by (apply andb_false_iff; rewrite !Z.ltb_ge; lia).
  unfold Use_Electron_Threshold. rewrite F. cbn [i_ne_max i_ne_threshold with_ne]. replace (100 <? t)%Z with true by (symmetry; apply Z.ltb_lt; lia). reflexivity.
Qed.
(** The largest upper end of an unsigned int: the loop never ends. *)
Lemma electron_threshold_endless t s : (0 <= t < 2 ^ 32 - 1)%Z -> exists s2, Use_Electron_Threshold t (2 ^ 32 - 1) s = Ok s2 /\ forall X DM D, Ionization_Total X DM D s2 = UB.
Proof.
  intros H. assert (F : ((0 <? 2 ^ 32 - 1) && (t <? 2 ^ 32 - 1))%Z%bool = true) by (apply andb_true_intro; split; apply Z.ltb_lt; lia).
  destruct (threshold_accepts t (2 ^ 32 - 1) s) as [s2 E]; [rewrite F; lia|]. exists s2. split; [exact E|]. intros X DM D. assert (M := threshold_max _ _ _ _ E). rewrite F in M.
  clear F. unfold Use_Electron_Threshold in E. destruct (i_ne_max _ <? i_ne_threshold _)%Z; [discriminate|]. apply Ok_inj in E. subst s2. unfold Ionization_Total. cbn [i_base with_ne with_i_base b_analysis with_using Initialize_Poisson with_poisson i_using_ne_threshold with_i_flags i_ne_max] in *. rewrite M. reflexivity.
Qed.

(** * Bins *)
Lemma nth_repeat_ok {A : Type} (a : A) n i : (i < n)%nat -> nth_error (repeat a n) i = Some a.
Proof. revert i. induction n; intros i H; [lia|]. destruct i; [reflexivity|]. apply IHn. lia. Qed.
Lemma map_res_values {A : Type} (f : A -> res xr) (g : A -> R) l : (forall a, In a l -> f a = Ok (Fin (g a))) -> map_res f l = Ok (map Fin (map g l)).
Proof. induction l as [|a l IH]; intros H; [reflexivity|]. cbn [map_res map]. rewrite (H a (or_introl eq_refl)). cbn [bind]. rewrite IH by (intros; apply H; right; auto). reflexivity. Qed.

Lemma electron_bins t N s : b_analysis (i_base s) <> Binned_Poisson -> b_using_bins (i_base s) = false -> (0 <= t)%Z -> (1 <= N)%Z -> (t + N - 1 < 2 ^ 32)%Z ->
  exists s2, Use_Electron_Bins t N s = Ok s2 /\ counts_bins s s2 t N.
Proof.
  intros A U T N1 B. unfold Use_Electron_Bins, Initialize_Binned_Poisson. assert (M : u32 (t + N - 1) = (t + N - 1)%Z) by (apply Z.mod_small; lia).
  destruct (b_analysis (i_base s)) eqn:AN; [|congruence|]; cbn [bind i_ne_max i_ne_threshold with_ne];
    rewrite M; replace (t + N - 1 <? t)%Z with false by (symmetry; apply Z.ltb_ge; lia); (eexists; split; [reflexivity|]).
  all: intros X DM D e r E R; unfold Ionization_Binned; cbn [i_base with_ne with_i_base with_binned b_analysis b_using_bins]; rewrite U; cbn [i_using_ne_bins with_i_flags with_i_base with_ne];
    unfold DM_Signals_Electron_Bins; cbn [i_using_ne_bins with_i_flags with_i_base with_ne negb i_base b_bins with_binned b_efficiencies b_exposure i_ne_threshold];
    rewrite (map_res_values _ (fun i => e * r (t + Z.of_nat i)%Z)).
  1, 3: eexists; split; [reflexivity|]; split; [rewrite map_length, seq_length; lia|]; intros i Hi; rewrite nth_error_map, (nth_error_nth' _ 0%nat) by (rewrite seq_length; lia);
    rewrite seq_nth by lia; cbn [option_map Nat.add]; rewrite Z2Nat.id by lia; reflexivity.
  all: intros i Hi; apply in_seq in Hi; assert (Q : u32 (t + Z.of_nat i) = (t + Z.of_nat i)%Z) by (apply Z.mod_small; lia); rewrite Q;
    (match goal with |- context [R_ne ?a ?b ?c ?z _] => rewrite (R_ne_same s z eq_refl eq_refl eq_refl eq_refl a b c) end); rewrite R by lia; cbn [bind]; unfold at_ub; rewrite nth_repeat_ok by lia; cbn [bind];
    rewrite E, !xmul_fin; do 2 f_equal; lra.
Qed.
Lemma electron_bins_twice t N s : b_analysis (i_base s) = Binned_Poisson -> Use_Electron_Bins t N s = Exit.
Proof. intros A. unfold Use_Electron_Bins, Initialize_Binned_Poisson. rewrite A. reflexivity. Qed.
Lemma electron_bins_refused t N s : (0 <= t < 2 ^ 32)%Z -> (0 <= N < 2 ^ 32)%Z -> (2 ^ 32 <= t + N - 1 \/ N = 0 /\ 1 <= t)%Z -> Use_Electron_Bins t N s = Exit.
Proof.
  intros T N0 O. unfold Use_Electron_Bins, Initialize_Binned_Poisson. destruct (b_analysis (i_base s)); [|reflexivity|]; cbn [bind i_ne_max i_ne_threshold with_ne].
  all: replace (u32 (t + N - 1) <? t)%Z with true; [reflexivity|]; symmetry; apply Z.ltb_lt; unfold u32.
  all: destruct O as [O | [-> O]]; [replace (t + N - 1)%Z with (t + N - 1 - 2 ^ 32 + 1 * 2 ^ 32)%Z by lia; rewrite Z_mod_plus_full, Z.mod_small by lia; lia|rewrite Z.mod_small by lia; lia].
Qed.
(** No bins from 0 electrons on are accepted, and there is no number to report. *)
Lemma electron_bins_none s : b_analysis (i_base s) <> Binned_Poisson -> b_using_bins (i_base s) = false ->
  exists s2, Use_Electron_Bins 0 0 s = Ok s2 /\ forall X DM D, Ionization_Binned X DM D s2 = Ok [].
Proof.
  intros A U. unfold Use_Electron_Bins, Initialize_Binned_Poisson. destruct (b_analysis (i_base s)); [|congruence|]; cbn [bind i_ne_max i_ne_threshold with_ne];
    (eexists; split; [reflexivity|]); intros X DM D; unfold Ionization_Binned; cbn [i_base with_ne with_i_base with_binned b_analysis b_using_bins]; rewrite U; reflexivity.
Qed.

(** * A detector with a secondary electron *)
(** A shell as [shell1] with one secondary electron, its atom and detector. *)
Definition shell2 : Atomic_Electron :=
  mkShell (Fin mElectron) (Fin mElectron) (Fin 1) (Fin 2) (Fin 1) (Fin 1) 1 1 [Fin mElectron] [Fin 1] (repeat (mkTable2 [] [] []) 4) 1 0 "1s" (Fin (3 / 4)) 1 false.
Definition atom2 : Atom := mkAtom (mkNucleus (Some 1%Z) [mkIsotope 1 1 (Fin 1) (Fin 0) (Fin 0) (Fin 0) "H1" (Fin 1)] "H") [shell2] (Fin 1).
Definition ion2 : ionization := Ionization_start Electron_Recoil "test" (Fin 1) [atom2] [Fin 1].
Lemma shell2_term E dl q : ER_term reference_Integrate E DM1 D1 shell2 dl q = ER_term reference_Integrate E DM1 D1 shell1 dl q.
Proof. reflexivity. Qed.
Lemma shell2_rate : positive (dRdEe_ER_shell reference_Integrate (Fin (mElectron / 2)) DM1 D1 (Fin 1) shell2).
Proof.
  assert (H := shell1_rate (mElectron / 2)). unfold dRdEe_ER_shell in *. change (ER_window DM1 D1 shell2) with (ER_window DM1 D1 shell1).
  apply H. unfold mElectron; lra.
Qed.
Lemma R_ne_2 : exists c, 0 < c /\ forall ne, (1 <= ne < 2 ^ 31)%Z -> R_ne X1 DM1 D1 ion2 ne = Ok (Fin (electron_law 1 ne * c)).
Proof.
  destruct shell2_rate as [v [Hv V]]. assert (HL : 0 < ln 10.0) by (rewrite <- ln_1; apply ln_increasing; lra). assert (HM := mElectron_pos).
  exists (ln 10.0 * 1 * mElectron * mElectron / mElectron * v). split.
  { apply Rmult_lt_0_compat; auto. apply Rdiv_lt_0_compat; auto. rewrite Rmult_1_r. apply Rmult_lt_0_compat; auto. apply Rmult_lt_0_compat; auto. }
  intros ne Hn. unfold R_ne, weighted. change (i_atoms ion2) with [atom2]. change (i_fractions ion2) with [Fin 1]. cbn [List.length seq]. unfold sum_res at 1. cbn [map_res at_ub nth_error bind]. unfold R_ne_atom, sum_res. cbn [electrons atom2 map_res]. unfold R_ne_shell, sum_res. cbn [k_Grid shell2 map_res].
  rewrite xmul_fin, !xdiv_fin by lra.
  replace (mElectron * mElectron / 2.0 / mElectron) with (mElectron / 2) by (replace 2.0 with 2 by lra; field; lra).
  cbn [W atom2 number_of_secondary_electrons shell2 x_PMF_Binomial X1]. change (s32 1) with 1%Z.
  rewrite (PDF_ne_law exact_binomial ne (mElectron / 2) 1 1 exact_binomial_ideal); try lra; try lia. 2:{ unfold mElectron; rewrite two31; cbn; lra. }
  replace (mElectron / 2 / 1) with (mElectron / 2) by lra. rewrite floor_small by (unfold mElectron; lra). change (1 + 0)%Z with 1%Z. cbn [bind].
  unfold Ionization_dRdE_shell. change (i_channel ion2) with Electron_Recoil. cbv iota. change (b_flat_efficiency (i_base ion2)) with (Fin 1.0). cbn [x_Integrate X1]. fold atom2. change (Average_Nuclear_Mass (at_nucleus atom2)) with (Average_Nuclear_Mass (at_nucleus atom1)). rewrite mass1.
  fold shell2. rewrite V. cbn [bind]. rewrite !xmul_fin. cbn [dlogk shell2]. rewrite xlog_fin by lra. rewrite !xmul_fin. rewrite xdiv_fin by lra. rewrite !xmul_fin. cbn [xsum fold_left bind].
  rewrite xadd_fin. cbn [bind]. rewrite xadd_fin. cbn [bind]. rewrite xmul_fin. cbn [bind xsum fold_left]. rewrite xadd_fin. do 2 f_equal. replace 1.0 with 1 by lra. ring.
Qed.
Lemma law_1_2 : electron_law 1 2 = 5 / 6.
Proof. unfold electron_law. cbn -[Rdiv]. unfold Binomial.C. cbn. change (Pos.to_nat 1) with 1%nat. cbn. lra. Qed.

(** One electron only: the detector also counts two. *)
Lemma electron_threshold_single_refuted : exists s t m s2, (1 <= t <= m)%Z /\ Use_Electron_Threshold t m s = Ok s2 /\ ~ counts s s2 t m.
Proof.
  destruct (electron_threshold_other 1 1 ion2) as (s2 & E & C); [lia|lia|]. exists ion2, 1%Z, 1%Z, s2. split; [lia|]. split; [exact E|]. intros C1.
  destruct R_ne_2 as (c & Hc & R).
  assert (A := C X1 DM1 D1 1 (fun ne => electron_law 1 ne * c) eq_refl ltac:(intros; apply R; lia)).
  assert (B := C1 X1 DM1 D1 1 (fun ne => electron_law 1 ne * c) eq_refl ltac:(intros; apply R; lia)).
  rewrite A in B. apply Ok_inj, Fin_inj in B.
  rewrite (numbers_split 1 1 100), map_app, Rsum_app in B by lia. rewrite (numbers_split (1 + 1) 2 100), map_app, Rsum_app in B by lia.
  assert (P : 0 <= Rsum (map (fun ne => electron_law 1 ne * c) (numbers (2 + 1) 100))).
  { generalize (numbers (2 + 1) 100). intros l. induction l as [|a l IH]; [cbn; lra|]. cbn [map Rsum fold_right]. fold (Rsum (map (fun ne => electron_law 1 ne * c) l)). assert (H := electron_law_nonneg 1 a). assert (0 <= electron_law 1 a * c) by (apply Rmult_le_pos; lra). lra. }
  change (numbers (1 + 1) 2) with [2%Z] in B. cbn [map Rsum fold_right] in B. rewrite law_1_2 in B.
  change (fold_right Rplus 0) with Rsum in *. lra.
Qed.
(** An empty range is accepted and read as t..100. *)
Lemma electron_threshold_empty_refuted : exists s t m s2, (1 <= m < t)%Z /\ Use_Electron_Threshold t m s = Ok s2 /\ counts s s2 t 100.
Proof. destruct (electron_threshold_other 2 1 ion2) as (s2 & E & C); [lia|lia|]. exists ion2, 2%Z, 1%Z, s2. split; [lia|]. auto. Qed.
Lemma electron_bins_none_refuted : exists s s2, Use_Electron_Bins 0 0 s = Ok s2 /\ forall X DM D, Ionization_Binned X DM D s2 = Ok [].
Proof. destruct (electron_bins_none ion2) as (s2 & E); [discriminate|reflexivity|]. exists ion2, s2. exact E. Qed.
