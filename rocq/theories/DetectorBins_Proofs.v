(** Energy bins add up to the whole range (C44). *)
From Coq Require Import Reals ZArith String Lra Lia Bool.
From Coquelicot Require Import Coquelicot.
From Coq Require Import List.
From Verif Require Import Base XrFacts Analysis Quadrature Interpolation Nucleus_Model Nuclear_Model Particle_Model CrossSection_Model
  Distribution_Model Atom_Model Crystal_Model Rates_Model Crystal_Proofs Detector_Model DetectorTypes_Model Detector_Proofs DetectorModes_Proofs
  DetectorWitness_Proofs DetectorSafety_Proofs.
Import ListNotations.
Local Open Scope R_scope.

(** The bin edges. *)
Definition edge (lo hi : R) (n : nat) (i : nat) : R := lo + INR i * ((hi - lo) / INR n).
Lemma edge_0 lo hi n : edge lo hi n 0 = lo.
Proof. unfold edge. cbn. lra. Qed.
Lemma edge_n lo hi n : (0 < n)%nat -> edge lo hi n n = hi.
Proof. intros H. unfold edge. assert (0 < INR n) by (apply lt_0_INR; auto). field. lra. Qed.
Lemma edge_le lo hi n i : lo <= hi -> (0 < n)%nat -> edge lo hi n i <= edge lo hi n (S i).
Proof. intros H Hn. unfold edge. rewrite S_INR. assert (0 < INR n) by (apply lt_0_INR; auto). assert (0 <= (hi - lo) / INR n) by (apply Rdiv_le_0_compat; lra). lra. Qed.
Lemma edge_mono lo hi n i j : lo <= hi -> (0 < n)%nat -> (i <= j)%nat -> edge lo hi n i <= edge lo hi n j.
Proof. intros H Hn Hj. induction Hj; [lra|]. assert (E := edge_le lo hi n m H Hn). lra. Qed.
Lemma edge_in lo hi n i : lo <= hi -> (0 < n)%nat -> (i <= n)%nat -> lo <= edge lo hi n i <= hi.
Proof. intros H Hn Hi. split; [rewrite <- (edge_0 lo hi n) at 1; apply edge_mono; auto; lia|rewrite <- (edge_n lo hi n Hn) at 2; apply edge_mono; auto]. Qed.

Lemma integrable_part (f : R -> R) lo hi a b : ex_RInt f lo hi -> lo <= a -> a <= b -> b <= hi -> ex_RInt f a b.
Proof.
  intros H H1 H2 H3. apply (ex_RInt_Chasles_2 (V := R_CompleteNormedModule) f lo); [lra|]. apply (ex_RInt_Chasles_1 (V := R_CompleteNormedModule) f lo b hi); [lra|auto].
Qed.
Lemma bins_sum (f : R -> R) lo hi n : lo <= hi -> (0 < n)%nat -> ex_RInt f lo hi -> forall k, (k <= n)%nat ->
  Rsum (map (fun i => RInt f (edge lo hi n i) (edge lo hi n (S i))) (seq 0 k)) = RInt f lo (edge lo hi n k).
Proof.
  intros H Hn HI. induction k as [|k IH]; intros Hk.
  - cbn [seq map Rsum fold_right]. rewrite edge_0, RInt_point. reflexivity.
  - rewrite seq_S, map_app, Rsum_app, IH by lia. cbn [map Rsum fold_right Nat.add]. rewrite Rplus_0_r.
    assert (B1 := edge_in lo hi n k H Hn). assert (B2 := edge_in lo hi n (S k) H Hn). assert (B3 := edge_le lo hi n k H Hn).
    assert (E := RInt_Chasles (V := R_CompleteNormedModule) f lo (edge lo hi n k) (edge lo hi n (S k))).
    change (RInt f lo (edge lo hi n k) + RInt f (edge lo hi n k) (edge lo hi n (S k))) with (plus (RInt f lo (edge lo hi n k)) (RInt f (edge lo hi n k) (edge lo hi n (S k)))).
    apply E; apply (integrable_part f lo hi); auto; try lra; try (apply B1; lia); apply B2; lia.
Qed.
Lemma Rsum_scale (c : R) (f : nat -> R) l : Rsum (map (fun i => c * f i) l) = c * Rsum (map f l).
Proof. induction l as [|a l IH]; cbn [map Rsum fold_right]; [lra|]. fold (Rsum (map (fun i => c * f i) l)). fold (Rsum (map f l)). rewrite IH. lra. Qed.

(** The state after Use_Energy_Bins. *)
Lemma energy_bins_state lo hi n d d' : (1 <= n < 2 ^ 31)%Z -> Use_Energy_Bins (Fin lo) (Fin hi) n d = Ok d' ->
  lo <= hi /\ b_analysis d' = Binned_Poisson /\ b_using_bins d' = true /\ b_bins d' = n /\ b_exposure d' = b_exposure d /\
  b_bin_energies d' = map (fun i => Fin (edge lo hi (Z.to_nat n) i)) (seq 0 (S (Z.to_nat n))) /\ b_efficiencies d' = repeat (Fin 1.0) (Z.to_nat n) /\
  b_flat_efficiency d' = b_flat_efficiency d.
Proof.
  intros Hn H. unfold Use_Energy_Bins in H.
  assert (E : exists d1, Initialize_Binned_Poisson (u32 n) d = Ok d1 /\ b_analysis d1 = Binned_Poisson /\ b_bins d1 = n /\ b_exposure d1 = b_exposure d /\
    b_efficiencies d1 = repeat (Fin 1.0) (Z.to_nat n) /\ b_flat_efficiency d1 = b_flat_efficiency d).
  { unfold Initialize_Binned_Poisson in *. assert (U : u32 n = n) by (unfold u32; apply Z.mod_small; lia). rewrite U in *.
    destruct (b_analysis d); try discriminate; eexists; (split; [reflexivity|]); repeat split. }
  destruct E as (d1 & E & A & B & C & F & G). rewrite E in H. cbn [bind] in H. destruct (xlt (Fin hi) (Fin lo)) eqn:L; [discriminate|]. apply Ok_inj in H. subst d'.
  assert (lo <= hi). { destruct (Rle_dec lo hi); auto. rewrite xlt_true in L by lra. discriminate. }
  split; [auto|]. cbn [b_analysis b_using_bins b_bins b_exposure b_bin_energies b_efficiencies b_flat_efficiency with_bin_energies with_range with_using]. rewrite B.
  repeat split; auto. unfold u32. rewrite Z.mod_small by lia. replace (Z.to_nat (n + 1)) with (S (Z.to_nat n)) by lia.
  rewrite Linear_Space_fin by lia. rewrite map_map. apply map_ext. intros i. cbn [Nat.sub]. rewrite Nat.sub_0_r. reflexivity.
Qed.

(** What the bins hold: exposure times the integral of the spectrum over each bin; together, over the whole range. *)
Lemma energy_bins_total Integrate f (g : R -> R) lo hi n d d' w : ideal_quadrature Integrate -> (1 <= n < 2 ^ 31)%Z -> Use_Energy_Bins (Fin lo) (Fin hi) n d = Ok d' ->
  b_exposure d = Fin w -> (forall E, lo <= E <= hi -> f (Fin E) = Ok (Fin (g E))) -> ex_RInt g lo hi ->
  exists l, DM_Signals_Binned_Base Integrate f d' = Ok (map Fin l) /\ Z.of_nat (length l) = n /\
    l = map (fun i => w * RInt g (edge lo hi (Z.to_nat n) i) (edge lo hi (Z.to_nat n) (S i))) (seq 0 (Z.to_nat n)) /\
    Rsum l = w * RInt g lo hi.
Proof.
  intros HI Hn H HW Hf Hg. destruct (energy_bins_state _ _ _ _ _ Hn H) as (HL & A & B & C & D & E & F & _). set (k := Z.to_nat n) in *. assert (Hk : (0 < k)%nat) by lia.
  exists (map (fun i => w * RInt g (edge lo hi k i) (edge lo hi k (S i))) (seq 0 k)). split.
  - unfold DM_Signals_Binned_Base, DM_Signals_Energy_Bins. rewrite A, B, C. cbn [negb]. fold k. rewrite map_map.
    apply map_res_ok. intros i Hi. apply in_seq in Hi. rewrite E, F.
    rewrite !at_map_seq by lia. cbn [bind]. assert (I1 := edge_in lo hi k i HL Hk). assert (I2 := edge_in lo hi k (S i) HL Hk). assert (I3 := edge_le lo hi k i HL Hk).
    rewrite (HI f g).
    + cbn [bind]. rewrite D, HW, xmul_fin. unfold at_ub. rewrite (nth_error_nth' _ (Fin 1.0)) by (rewrite repeat_length; lia). rewrite nth_repeat. cbn [bind].
      rewrite xmul_fin. do 2 f_equal. lra.
    + intros x. rewrite Rmin_left, Rmax_right by lra. intros Hx. apply Hf. split; [apply Rle_trans with (edge lo hi k i); [apply I1; lia|lra]|apply Rle_trans with (edge lo hi k (S i)); [lra|apply I2; lia]].
    + apply (integrable_part g lo hi); auto; [apply I1; lia|apply I2; lia].
  - rewrite map_length, seq_length. split; [lia|]. split; [reflexivity|]. rewrite Rsum_scale, bins_sum by auto. rewrite edge_n by auto. reflexivity.
Qed.

(** The same for the three kinds of detectors. *)
Lemma nuclear_bins X DM D n0 (g : R -> R) lo hi n n' w : ideal_quadrature (x_Integrate X) -> (1 <= n < 2 ^ 31)%Z -> nuclear_step n0 (NBase (BBins (Fin lo) (Fin hi) n)) = Ok n' ->
  b_exposure (n_base n0) = Fin w -> (forall E, lo <= E <= hi -> Nuclear_dRdE X DM D n' (Fin E) = Ok (Fin (g E))) -> ex_RInt g lo hi ->
  exists l, Nuclear_Binned X DM D n' = Ok (map Fin l) /\ Z.of_nat (length l) = n /\ Rsum l = w * RInt g lo hi /\ Nuclear_Total X DM D n' = Ok (Fin (w * RInt g lo hi)).
Proof.
  intros HI Hn H HW Hf Hg. cbn [nuclear_step base_step] in H. destruct (Use_Energy_Bins (Fin lo) (Fin hi) n (n_base n0)) as [d| | |] eqn:U; try discriminate. cbn [bind] in H.
  apply Ok_inj in H. destruct (energy_bins_total (x_Integrate X) (Nuclear_dRdE X DM D n') g lo hi n (n_base n0) d w HI Hn U HW Hf Hg) as (l & L1 & L2 & _ & L4).
  destruct (energy_bins_state _ _ _ _ _ Hn U) as (_ & A & _).
  assert (B : n_base n' = d) by (subst n'; reflexivity). exists l. unfold Nuclear_Binned, Nuclear_Total, DM_Signals_Total_Base. rewrite B, L1, A. cbn [bind].
  rewrite xsum_fin, L4. auto.
Qed.
Lemma ionization_bins X DM D s0 (g : R -> R) lo hi n s w : ideal_quadrature (x_Integrate X) -> (1 <= n < 2 ^ 31)%Z -> ionization_step s0 (IBase (BBins (Fin lo) (Fin hi) n)) = Ok s ->
  b_exposure (i_base s0) = Fin w -> (forall E, lo <= E <= hi -> Ionization_dRdE X DM D s (Fin E) = Ok (Fin (g E))) -> ex_RInt g lo hi ->
  exists l, Ionization_Binned X DM D s = Ok (map Fin l) /\ Z.of_nat (length l) = n /\ Rsum l = w * RInt g lo hi /\ Ionization_Total X DM D s = Ok (Fin (w * RInt g lo hi)).
Proof.
  intros HI Hn H HW Hf Hg. cbn [ionization_step base_step] in H. destruct (Use_Energy_Bins (Fin lo) (Fin hi) n (i_base s0)) as [d| | |] eqn:U; try discriminate. cbn [bind] in H.
  apply Ok_inj in H. destruct (energy_bins_total (x_Integrate X) (Ionization_dRdE X DM D s) g lo hi n (i_base s0) d w HI Hn U HW Hf Hg) as (l & L1 & L2 & _ & L4).
  destruct (energy_bins_state _ _ _ _ _ Hn U) as (_ & A & V & _).
  assert (B : i_base s = d) by (subst s; reflexivity). exists l. unfold DM_Signals_Binned_Base in L1. rewrite A, V in L1.
  assert (K : Ionization_Binned X DM D s = Ok (map Fin l)) by (unfold Ionization_Binned; rewrite B, A, V; exact L1).
  unfold Ionization_Total. rewrite K, B, A. cbn [bind]. rewrite xsum_fin, L4. auto.
Qed.
Lemma semiconductor_bins X DM D s0 (g : R -> R) lo hi n s w : ideal_quadrature (x_Integrate X) -> (1 <= n < 2 ^ 31)%Z -> semiconductor_step s0 (CBase (BBins (Fin lo) (Fin hi) n)) = Ok s ->
  b_exposure (c_base s0) = Fin w -> (forall E, lo <= E <= hi -> Semiconductor_dRdE X DM D s0 (Fin E) = Ok (Fin (g E))) -> ex_RInt g lo hi ->
  exists l s1, Semiconductor_Binned X DM D s = Ok (map Fin l) /\ Z.of_nat (length l) = n /\ Rsum l = w * RInt g lo hi /\
    Semiconductor_Total X DM D s = Ok (Fin (w * RInt g lo hi)) /\
    semiconductor_step s0 (CBase (BThreshold (Fin lo) (Fin hi))) = Ok s1 /\ Semiconductor_Total X DM D s1 = Ok (Fin (w * RInt g lo hi)).
Proof.
  intros HI Hn H HW Hf Hg. cbn [semiconductor_step base_step] in H. destruct (Use_Energy_Bins (Fin lo) (Fin hi) n (c_base s0)) as [d| | |] eqn:U; try discriminate. cbn [bind] in H.
  destruct (energy_bins_state _ _ _ _ _ Hn U) as (HL & A & V & _ & _ & _ & _ & FE).
  apply Ok_inj in H. assert (B : c_base s = d) by (subst s; reflexivity).
  assert (R : forall E, Semiconductor_dRdE X DM D s E = Semiconductor_dRdE X DM D s0 E) by (intros E; unfold Semiconductor_dRdE; rewrite B, FE; subst s; reflexivity).
  destruct (energy_bins_total (x_Integrate X) (Semiconductor_dRdE X DM D s) g lo hi n (c_base s0) d w HI Hn U HW) as (l & L1 & L2 & _ & L4); [intros; rewrite R; auto|auto|].
  unfold DM_Signals_Binned_Base in L1. rewrite A, V in L1.
  assert (K : Semiconductor_Binned X DM D s = Ok (map Fin l)) by (unfold Semiconductor_Binned; rewrite B, A, V; exact L1).
  assert (T : Use_Energy_Threshold (Fin lo) (Fin hi) (c_base s0) = Ok (with_range (Fin lo) (Fin hi) (with_using true (b_using_bins (Initialize_Poisson (c_base s0))) (Initialize_Poisson (c_base s0))))).
  { unfold Use_Energy_Threshold. rewrite xlt_false by lra. reflexivity. }
  exists l. eexists. split; [exact K|]. split; [exact L2|]. split; [exact L4|]. split.
  { unfold Semiconductor_Total. rewrite B, A, K. cbn [bind]. rewrite xsum_fin, L4. reflexivity. }
  split; [cbn [semiconductor_step base_step]; rewrite T; reflexivity|].
  unfold Semiconductor_Total. cbn [with_c_base c_base b_analysis with_range with_using Initialize_Poisson with_poisson b_using_threshold orb b_threshold b_energy_max b_exposure].
  rewrite (HI _ g).
  - cbn [bind]. rewrite HW, xmul_fin. reflexivity.
  - rewrite Rmin_left, Rmax_right by lra. intros x Hx. rewrite <- Hf by auto. reflexivity.
  - exact Hg.
Qed.

(** Threshold counting of a nuclear detector integrates an interpolation of the spectrum: the two totals differ by exposure times the
    error of that interpolation, and by nothing else. *)
Lemma nuclear_threshold_total X DM D n0 lo hi n1 w I : nuclear_step n0 (NBase (BThreshold (Fin lo) (Fin hi))) = Ok n1 -> b_exposure (n_base n0) = Fin w ->
  (exists values, map_res (Nuclear_dRdE X DM D n1) (Log_Space (Fin lo) (Fin hi) 200) = Ok values /\ x_Interpolate X (Log_Space (Fin lo) (Fin hi) 200) values (Fin lo) (Fin hi) = Ok (Fin I)) ->
  Nuclear_Total X DM D n1 = Ok (Fin (w * I)).
Proof.
  intros H HW (values & V1 & V2). cbn [nuclear_step base_step] in H. unfold Use_Energy_Threshold in H. destruct (xlt (Fin hi) (Fin lo)); [discriminate|]. cbn [bind] in H.
  apply Ok_inj in H. unfold Nuclear_Total, DM_Signals_Total_Base.
  assert (F : b_analysis (n_base n1) = Poisson /\ b_threshold (n_base n1) = Fin lo /\ b_energy_max (n_base n1) = Fin hi /\ b_exposure (n_base n1) = Fin w) by (subst n1; cbn; auto).
  destruct F as (F1 & F2 & F3 & F4). rewrite F1, F2, F3, F4, V1. cbn [bind]. rewrite V2. cbn [bind]. rewrite xmul_fin. reflexivity.
Qed.

(** Threshold counting of an ionization detector does not look at the upper end of the range. *)
Lemma ionization_upper_end X DM D s0 lo hi hi' s s' : ionization_step s0 (IBase (BThreshold lo hi)) = Ok s -> ionization_step s0 (IBase (BThreshold lo hi')) = Ok s' ->
  Ionization_Total X DM D s = Ionization_Total X DM D s'.
Proof.
  intros H H'. cbn [ionization_step base_step] in H, H'. unfold Use_Energy_Threshold in H, H'. destruct (xlt hi lo), (xlt hi' lo); try discriminate. cbn [bind] in H, H'.
  apply Ok_inj in H, H'. subst s s'. reflexivity.
Qed.

(** A shell whose spectrum is constant below m_e / 2. *)
Definition small : R := mElectron / 2.
Lemma map_res_map {A B C : Type} (f : B -> res C) (g : A -> B) l : map_res f (map g l) = map_res (fun a => f (g a)) l.
Proof. induction l as [|a l IH]; cbn [map map_res]; [reflexivity|]. rewrite IH. reflexivity. Qed.
Lemma map_res_ext {A B : Type} (f g : A -> res B) l : (forall a, In a l -> f a = g a) -> map_res f l = map_res g l.
Proof. induction l as [|a l IH]; intros H; cbn [map_res]; [reflexivity|]. rewrite H by (left; auto). rewrite IH by (intros; apply H; right; auto). reflexivity. Qed.
Lemma q1_range i : (i < 100)%nat -> q1_ i = 1 /\ i = 0%nat \/ 1 + 1 / 198 <= q1_ i <= 2 /\ i <> 0%nat.
Proof.
  intros Hi. assert (L2 : 1 / 2 <= ln 2) by (assert (H := ln_lt_2); lra). assert (L2' : 0 < ln 2) by lra.
  destruct i as [|i]; [left; split; [|reflexivity]; unfold q1_; cbn [INR]; rewrite Rmult_0_l; apply exp_0|right]. split; [|discriminate].
  assert (B : 1 <= INR (S i) <= 99) by (split; [rewrite S_INR; assert (H := pos_INR i); lra|rewrite (INR_IZR_INZ (S i)); apply IZR_le; lia]).
  unfold q1_. assert (E : ln 2 / 99 <= INR (S i) * (ln 2 / 99) <= ln 2).
  { assert (0 < ln 2 / 99) by lra. split; [rewrite <- (Rmult_1_l (ln 2 / 99)) at 1; apply Rmult_le_compat_r; lra|].
    replace (ln 2) with (99 * (ln 2 / 99)) at 2 by lra. apply Rmult_le_compat_r; lra. }
  split.
  - assert (X := exp_ineq1_le (INR (S i) * (ln 2 / 99))). lra.
  - rewrite <- (exp_ln 2) at 2 by lra. destruct (proj2 E) as [K | K]; [left; apply exp_increasing; exact K|rewrite K; right; reflexivity].
Qed.
Lemma term_constant E i : 0 <= E <= small -> (i < 100)%nat -> forall dl,
  ER_term reference_Integrate (Fin E) DM1 D1 shell1 dl (Fin (q1_ i)) = ER_term reference_Integrate (Fin 0) DM1 D1 shell1 dl (Fin (q1_ i)).
Proof.
  intros HE Hi dl. assert (Hs : small <= 1 / 1000) by (unfold small, mElectron; lra). assert (Hq := q1_pos i).
  unfold ER_term. cbn [d_vmax D1 DM1 dm_mass binding_energy shell1 dm_use_eta d_use_eta andb d_rho dm_d2Sigma_Ionization d_eta bind].
  unfold vMinimal_Electrons. rewrite !xadd_fin, !xdiv_fin by lra. rewrite !xadd_fin.
  assert (B : forall e, 0 <= e <= small -> xlt (Fin ((3 / 4 + e) / q1_ i + q1_ i / 2 / 2)) (Fin 1) = negb (Nat.eqb i 0)).
  { intros e He. destruct (q1_range i Hi) as [[Q ->] | [Q N]].
    - rewrite Q, xlt_false by lra. reflexivity.
    - apply Nat.eqb_neq in N. rewrite N. apply xlt_true. apply (Rmult_lt_reg_r (q1_ i)); auto.
      replace (((3 / 4 + e) / q1_ i + q1_ i / 2 / 2) * q1_ i) with (3 / 4 + e + q1_ i * q1_ i / 4) by (field; lra).
      assert (1 / 198 <= (q1_ i - 1) * (3 - q1_ i)); [|lra].
      replace (1 / 198) with (1 / 198 * 1) by lra. apply Rmult_le_compat; lra. }
  rewrite (B E HE), (B 0) by lra. reflexivity.
Qed.
Lemma rate_constant : exists c, 0 < c /\ forall E, 0 <= E <= small -> dRdEe_ER_shell reference_Integrate (Fin E) DM1 D1 (Fin 1) shell1 = Ok (Fin c).
Proof.
  destruct (shell1_rate 0) as [c [Hc E0]]; [lra|]. exists c. split; [auto|]. intros E HE. rewrite <- E0. unfold dRdEe_ER_shell. rewrite window1, grid1.
  rewrite !grid1_at by lia. cbn [bind].
  assert (K : forall dl, sum_res (ER_term reference_Integrate (Fin E) DM1 D1 shell1 dl) (map (fun i => Fin (q1_ i)) (seq 0 100)) =
                         sum_res (ER_term reference_Integrate (Fin 0) DM1 D1 shell1 dl) (map (fun i => Fin (q1_ i)) (seq 0 100))).
  { intros dl. unfold sum_res. rewrite !map_res_map. rewrite (map_res_ext _ (fun i => ER_term reference_Integrate (Fin 0) DM1 D1 shell1 dl (Fin (q1_ i)))); [reflexivity|].
    intros i Hi. apply in_seq in Hi. apply term_constant; [auto|lia]. }
  rewrite K. reflexivity.
Qed.
Lemma ion_rate_constant s : i_channel s = Electron_Recoil -> i_atoms s = [atom1] -> i_fractions s = [Fin 1] -> b_flat_efficiency (i_base s) = Fin 1.0 ->
  exists c, 0 < c /\ forall E, 0 <= E <= small -> Ionization_dRdE_shell X1 DM1 D1 s (Fin E) (at_nucleus atom1) shell1 = Ok (Fin c) /\ Ionization_dRdE X1 DM1 D1 s (Fin E) = Ok (Fin c).
Proof.
  intros E1 E2 E3 E4. destruct rate_constant as [c [Hc H]]. exists c. split; [auto|]. intros E HE.
  assert (K : Ionization_dRdE_shell X1 DM1 D1 s (Fin E) (at_nucleus atom1) shell1 = Ok (Fin c)).
  { unfold Ionization_dRdE_shell. rewrite E1, E4, mass1. cbn [x_Integrate X1]. rewrite H by auto. cbn [bind]. rewrite xmul_fin. do 2 f_equal. lra. }
  split; [exact K|]. unfold Ionization_dRdE, weighted. rewrite E2, E3. cbn [List.length seq]. unfold sum_res. cbn [map_res at_ub nth_error bind].
  unfold Ionization_dRdE_atom. cbn [electrons atom1]. unfold sum_res. cbn [map_res]. fold atom1. rewrite K. cbn [bind xsum fold_left]. rewrite xadd_fin, xmul_fin. cbn [bind xsum fold_left]. rewrite xadd_fin.
  do 2 f_equal. lra.
Qed.

(** Threshold counting between 0 and m_e / 4 counts twice the events of a bin over the same range. *)
Lemma ionization_threshold_differs : exists s1 s2 a b, ionization_step ion1 (IBase (BThreshold (Fin 0) (Fin (small / 2)))) = Ok s1 /\
  ionization_step ion1 (IBase (BBins (Fin 0) (Fin (small / 2)) 1)) = Ok s2 /\
  Ionization_Total X1 DM1 D1 s1 = Ok (Fin a) /\ Ionization_Total X1 DM1 D1 s2 = Ok (Fin b) /\ 0 < b /\ a = 2 * b.
Proof.
  assert (Hs : 0 < small) by (unfold small, mElectron; lra).
  assert (L : xlt (Fin (small / 2)) (Fin 0) = false) by (apply xlt_false; lra).
  assert (S1 : exists s1, ionization_step ion1 (IBase (BThreshold (Fin 0) (Fin (small / 2)))) = Ok s1 /\ i_channel s1 = Electron_Recoil /\ i_atoms s1 = [atom1] /\ i_fractions s1 = [Fin 1] /\
    b_flat_efficiency (i_base s1) = Fin 1.0 /\ b_analysis (i_base s1) = Poisson /\ i_using_ne_threshold s1 = false /\ b_using_threshold (i_base s1) = true /\ b_threshold (i_base s1) = Fin 0 /\ b_exposure (i_base s1) = Fin 1).
  { eexists. split; [cbn [ionization_step base_step]; unfold Use_Energy_Threshold; rewrite L; cbn [bind]; reflexivity|]. repeat split. }
  assert (S2 : exists s2, ionization_step ion1 (IBase (BBins (Fin 0) (Fin (small / 2)) 1)) = Ok s2 /\ i_channel s2 = Electron_Recoil /\ i_atoms s2 = [atom1] /\ i_fractions s2 = [Fin 1] /\
    b_flat_efficiency (i_base s2) = Fin 1.0).
  { eexists. split; [cbn [ionization_step base_step]; unfold Use_Energy_Bins; cbn [Initialize_Binned_Poisson ion1 Ionization_start i_base Detector_ctor b_analysis bind]; rewrite L; cbn [bind]; reflexivity|]. repeat split. }
  destruct S1 as (s1 & R1 & E1 & E2 & E3 & E4 & E5 & E6 & E7 & E8 & E9). destruct S2 as (s2 & R2 & F1 & F2 & F3 & F4).
  destruct (ion_rate_constant s1 E1 E2 E3 E4) as [c [Hc K1]]. destruct (ion_rate_constant s2 F1 F2 F3 F4) as [c' [Hc' K2]].
  assert (c' = c). { destruct (K1 0) as [_ A1]; [lra|]. destruct (K2 0) as [_ A2]; [lra|]. clear K1 K2.
    rewrite <- (dRdE_same s1 s2) in A1; [rewrite A2 in A1; apply Ok_inj, Fin_inj in A1; exact A1|congruence..]. }
  subst c'.
  destruct (ionization_bins X1 DM1 D1 ion1 (fun _ => c) 0 (small / 2) 1 s2 1 ideal_quadrature_exists) as (_ & _ & _ & _ & T2); [lia|exact R2|reflexivity|intros; apply K2; lra|apply ex_RInt_const|].
  rewrite RInt_const in T2. exists s1, s2, (small * c), (1 * scal (small / 2 - 0) c). split; [exact R1|]. split; [exact R2|].
  change (scal (small / 2 - 0) c) with ((small / 2 - 0) * c) in *. split; [|split; [exact T2|]].
  - unfold Ionization_Total. rewrite E5, E6, E7, E2, E3. cbn [List.length seq map_res at_ub nth_error bind electrons atom1]. fold atom1. unfold threshold_term. rewrite E8, E9. cbn [k_max shell1].
    fold shell1. rewrite xmul_fin, !xdiv_fin by (assert (H := mElectron_pos); lra).
    replace (mElectron * mElectron / 2.0 / mElectron) with small by (unfold small; replace 2.0 with 2 by lra; assert (H := mElectron_pos); field; lra).
    rewrite xlt_true by auto. cbn [x_Integrate X1].
    rewrite (ideal_quadrature_exists _ (fun _ => c)).
    + rewrite RInt_const. change (scal (small - 0) c) with ((small - 0) * c). cbn [bind map_res List.concat app xsum fold_left]. rewrite xmul_fin, xadd_fin. do 2 f_equal. lra.
    + intros x. rewrite Rmin_left, Rmax_right by lra. intros Hx. destruct (K1 x Hx) as [K _]. change (at_nucleus atom1) with (at_nucleus atom1) in K.
      change (mkNucleus (Some 1%Z) [mkIsotope 1 1 (Fin 1) (Fin 0) (Fin 0) (Fin 0) "H1" (Fin 1)] "H") with (at_nucleus atom1). rewrite K. cbn [bind]. rewrite xmul_fin. do 2 f_equal. lra.
    + apply ex_RInt_const.
  - assert (0 < small / 2 * c) by (apply Rmult_lt_0_compat; lra). split; lra.
Qed.
