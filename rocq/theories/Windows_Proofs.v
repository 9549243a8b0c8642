(** Nested windows: a wider window never counts fewer events (C114). *)
From Coq Require Import Reals ZArith String Lia Lra Bool.
From Coquelicot Require Import Coquelicot.
From Coq Require Import List Sorted.
From Verif Require Import Base XrFacts Quadrature Nucleus_Model Nuclear_Model Particle_Model CrossSection_Model Distribution_Model Atom_Model Crystal_Model Crystal_Proofs Rates_Model
  Exposure_Proofs Scaling_Proofs Fractions_Proofs Detector_Model DetectorTypes_Model DetectorWitness_Proofs DetectorBins_Proofs Electrons_Proofs ElectronBins_Proofs DetectorSafety_Proofs DetectorModes_Proofs Positivity_Proofs PositivityLibrary_Proofs.
Import ListNotations.
Local Open Scope R_scope.

(** * Specification: of two answers, the second is a number between 0 and the first *)
Definition no_more (r1 r2 : res xr) : Prop := forall x1, r1 = Ok x1 -> exists t1 t2, x1 = Fin t1 /\ r2 = Ok (Fin t2) /\ 0 <= t2 <= t1.

Lemma xsum_from l : forall a, fold_left xadd l a = xadd a (xsum l).
Proof. unfold xsum. induction l as [|x l IH]; intros a; cbn [fold_left]; [destruct a; cbn; try reflexivity; f_equal; lra|]. rewrite IH, (IH (xadd (Fin 0) x)), xadd_0_l, xadd_assoc. reflexivity. Qed.
Lemma xsum_cons x l : xsum (x :: l) = xadd x (xsum l).
Proof. unfold xsum at 1. cbn [fold_left]. rewrite xsum_from, xadd_0_l. reflexivity. Qed.
Lemma sum_res_app {A : Type} (f : A -> res xr) l1 l2 : sum_res f (l1 ++ l2) = let* a := sum_res f l1 in let* b := sum_res f l2 in Ok (xadd a b).
Proof.
  unfold sum_res. induction l1 as [|a l IH]; cbn [app map_res bind].
  - destruct (map_res f l2); cbn [bind]; try reflexivity. change (xsum []) with (Fin 0). rewrite xadd_0_l. reflexivity.
  - destruct (f a) as [v| | |]; cbn [bind]; try reflexivity. destruct (map_res f (l ++ l2)) as [w| | |]; destruct (map_res f l) as [u| | |]; cbn [bind] in *; try discriminate; try reflexivity;
    destruct (map_res f l2) as [z| | |]; cbn [bind] in *; try discriminate; try reflexivity. apply Ok_inj in IH. f_equal. rewrite xsum_cons, (xsum_cons v u), IH, xadd_assoc. reflexivity.
Qed.
Lemma sum_res_sub {A : Type} (f : A -> res xr) l1 l2 l3 : (forall a, fine (f a)) -> no_more (sum_res f (l1 ++ l2 ++ l3)) (sum_res f l2).
Proof.
  intros F x1 H. assert (G : forall l, fine (sum_res f l)) by (intros l; apply fine_sum; intros; apply F).
  rewrite !sum_res_app in H. apply bind_ok in H. destruct H as (a & H1 & H). apply bind_ok in H. destruct H as (b & H2 & H). apply bind_ok in H2. destruct H2 as (c & H2 & H3). apply bind_ok in H3. destruct H3 as (d & H3 & H4). apply Ok_inj in H4. apply Ok_inj in H. subst b x1.
  destruct (G _ _ H1) as (ra & -> & ?). destruct (G _ _ H2) as (rc & -> & ?). destruct (G _ _ H3) as (rd & -> & ?). rewrite !xadd_fin. exists (ra + (rc + rd)), rc. split; [reflexivity|]. split; [exact H2|lra].
Qed.

(** * Electrons *)
Lemma threshold_total t m s s2 X DM D : Use_Electron_Threshold t m s = Ok s2 -> (0 <= t < m)%Z -> (m < 2 ^ 32 - 1)%Z ->
  Ionization_Total X DM D s2 = sum_res (fun ne => let* r := R_ne X DM D s ne in Ok (xmul (b_exposure (i_base s)) r)) (numbers t m).
Proof.
  intros H L B. assert (M := threshold_max _ _ _ _ H). replace ((0 <? m) && (t <? m))%Z%bool with true in M by (symmetry; apply andb_true_intro; split; apply Z.ltb_lt; lia).
  unfold Use_Electron_Threshold in H. destruct (_ <? _)%Z; [discriminate|]. apply Ok_inj in H. subst s2.
  unfold Ionization_Total. cbn [i_base with_ne with_i_base b_analysis with_using Initialize_Poisson with_poisson i_using_ne_threshold with_i_flags i_ne_max i_ne_threshold b_exposure] in *. rewrite M.
  replace (m =? 2 ^ 32 - 1)%Z with false by (symmetry; apply Z.eqb_neq; lia). rewrite numbers_range. reflexivity.
Qed.
Lemma electrons_nested X IT w ch label expo names fr ops s DM D m vmax lo1 hi1 lo2 hi2 s1 s2 : positive_externals X -> good_particle DM m -> good_halo D vmax -> Forall (fun a => 0 <= a) fr -> nn expo ->
  ionization_history IT w ch label expo names (map Fin fr) ops = Ok s -> (forall a, In a (i_atoms s) -> good_atom X DM ch a) -> Forall sensible_ionization ops ->
  (0 <= lo1 <= lo2)%Z -> (lo2 < hi2 <= hi1)%Z -> (hi1 < 2 ^ 32 - 1)%Z -> Use_Electron_Threshold lo1 hi1 s = Ok s1 -> Use_Electron_Threshold lo2 hi2 s = Ok s2 ->
  no_more (Ionization_Total X DM D s1) (Ionization_Total X DM D s2).
Proof.
  intros PX GP GH FR NE H GA S L1 L2 L3 U1 U2. destruct (ionization_positive X IT w ch label expo names fr ops s DM D m vmax PX GP GH FR NE H GA S) as (_ & R & _).
  assert (EE : nn (b_exposure (i_base s))). { unfold ionization_history in H. apply bind_ok in H. destruct H as ((s0 & w') & C & RR). unfold Ionization_ctor in C. apply bind_ok in C. destruct C as ((l & w2) & _ & C). apply bind_ok in C. destruct C as (f & F & C).
    apply Ok_inj in C. injection C as <- _. destruct (ionization_sound_run _ _ _ RR S (ionization_sound_start ch label expo l f NE)) as (((E & _) & _) & _). exact E. }
  rewrite (threshold_total lo1 hi1 s s1 X DM D U1) by lia. rewrite (threshold_total lo2 hi2 s s2 X DM D U2) by lia.
  rewrite (numbers_split lo1 (lo2 - 1) hi1) by lia. replace (lo2 - 1 + 1)%Z with lo2 by lia. rewrite (numbers_split lo2 hi2 hi1) by lia. apply sum_res_sub. intros ne. apply fine_bind; [apply R|]. intros x Hx. apply fine_ok. apply nn_mul; auto.
Qed.

(** * Electron-hole pairs *)
Lemma bins_total_fine I DM D c n : (forall Q, (1 <= Q)%Z -> fine (R_Q_Crystal I Q DM D c)) -> forall Q, (1 <= Q)%Z -> fine (bins_total I Q n DM D c).
Proof.
  intros F. induction n as [|n IH]; intros Q HQ; cbn [bins_total]; [apply fine_ok, nn_fin; lra|]. apply fine_bind; [apply F; auto|]. intros r Hr. apply fine_bind; [apply IH; lia|]. intros t Ht. apply fine_ok, nn_add; auto.
Qed.
Lemma semiconductor_crystal ops : forall s0 s, semiconductor_run s0 ops = Ok s -> c_crystal s = c_crystal s0.
Proof.
  induction ops as [|o ops IH]; intros s0 s R; cbn [semiconductor_run] in R; [apply Ok_inj in R; subst; auto|]. apply bind_ok in R. destruct R as (s1 & S1 & R). rewrite (IH _ _ R). destruct o; cbn [semiconductor_step] in S1.
  - apply bind_ok in S1. destruct S1 as (d & _ & S1). apply Ok_inj in S1. subst. reflexivity.
  - apply Ok_inj in S1. subst. reflexivity.
  - unfold Use_Q_Bins in S1. cbv zeta in S1. apply bind_ok in S1. destruct S1 as (d & _ & S1). apply Ok_inj in S1. subst. reflexivity.
Qed.
Lemma pairs_total s Q X DM D : b_using_threshold (c_base s) = false -> Semiconductor_Total X DM D (Use_Q_Threshold Q s) =
  let* r := R_total_Crystal (x_Integrate X) (s32 Q) DM D (c_crystal s) in Ok (xmul (xmul (b_exposure (c_base s)) (b_flat_efficiency (c_base s))) r).
Proof. intros U. unfold Semiconductor_Total, Use_Q_Threshold. cbn. rewrite U. reflexivity. Qed.
Lemma pairs_nested X IL label expo crys ops s DM D m vmax Q1 Q2 : positive_externals X -> good_particle DM m -> good_halo D vmax -> nn expo ->
  semiconductor_history IL label expo crys ops = Ok s -> good_crystal DM (c_crystal s) -> Forall (sensible_semiconductor (c_crystal s)) ops -> never (on_base_c is_energy_threshold) ops ->
  (1 <= Q1 <= Q2)%Z -> (Q2 <= 100)%Z -> no_more (Semiconductor_Total X DM D (Use_Q_Threshold Q1 s)) (Semiconductor_Total X DM D (Use_Q_Threshold Q2 s)).
Proof.
  intros PX GP GH NE H GC S NV L B x1 T. destruct (semiconductor_positive X IL label expo crys ops s DM D m vmax PX GP GH NE H GC S) as (_ & RQ & _).
  unfold semiconductor_history in H. apply bind_ok in H. destruct H as (s0 & C & R). unfold Semiconductor_ctor in C. apply bind_ok in C. destruct C as (c & CC & C). apply Ok_inj in C. subst s0.
  assert (UT : b_using_threshold (c_base s) = false). { refine (proj1 (semiconductor_flags_run _ ops _ _ s R) NV); reflexivity. }
  assert (OC := library_semiconductor IL crys c CC). destruct (crystal_facts IL crys c CC) as (gap & eps & b & RC & G1 & E1 & _).
  assert (EC := semiconductor_crystal _ _ _ R). cbn [c_crystal] in EC.
  assert (SB : sound_semiconductor s). { rewrite EC in S. refine (proj1 (semiconductor_sound_run (mkSemiconductor (Detector_ctor label expo "Electrons") c None None None) ops OC s R S _)). split; [apply sound_ctor; auto|]. split; [intros ? K; discriminate|right; cbn; lia]. }
  destruct SB as ((N1 & N2 & _) & _). rewrite pairs_total in T by auto. rewrite pairs_total by auto. rewrite s32_small in T by lia. rewrite s32_small by lia. rewrite EC in *.
  assert (EB : Emin_R gap eps (Q1 + Z.of_nat (Z.to_nat (Q2 - Q1))) / (0.1 * eV) < 2 ^ 31).
  { replace (Q1 + Z.of_nat (Z.to_nat (Q2 - Q1)))%Z with Q2 by lia. unfold Emin_R. assert (h := eV_pos). destruct RC as (_ & _ & _ & _ & _ & _ & Pg & Pe & _). assert (1 <= IZR Q2 <= 100) by (split; apply IZR_le; lia).
    apply (Rmult_lt_reg_r (0.1 * eV)); [lra|]. unfold Rdiv. rewrite Rmult_assoc, Rinv_l, Rmult_1_r by lra. assert (eps * (IZR Q2 - 1) <= 3.6 * eV * 99) by (apply Rmult_le_compat; lra). assert (10000 * (0.1 * eV) <= 2 ^ 31 * (0.1 * eV)) by (apply Rmult_le_compat_r; lra). lra. }
  rewrite (partition_bins _ DM D c gap eps _ _ _ b (Z.to_nat (Q2 - Q1)) Q1 RC) in T by (auto; lia). replace (Q1 + Z.of_nat (Z.to_nat (Q2 - Q1)))%Z with Q2 in T by lia.
  apply bind_ok in T. destruct T as (r & T1 & T2). apply bind_ok in T1. destruct T1 as (u & T1 & T3). apply bind_ok in T3. destruct T3 as (t & T3 & T4). apply Ok_inj in T4. apply Ok_inj in T2. subst r x1.
  assert (F1 : nn u) by (refine (bins_total_fine _ DM D c _ _ Q1 _ u T1); [intros; apply RQ; auto|lia]). assert (F2 : nn t) by (apply (proj2 (RQ Q2 ltac:(lia))); exact T3).
  rewrite T3. cbn [bind]. destruct N1 as (e & -> & ?). destruct N2 as (f & -> & ?). destruct F1 as (u' & -> & ?). destruct F2 as (t' & -> & ?). rewrite xadd_fin, !xmul_fin. exists (e * f * (u' + t')), (e * f * t').
  split; [reflexivity|]. split; [reflexivity|]. assert (0 <= e * f) by (apply Rmult_le_pos; auto). split; [apply Rmult_le_pos; auto|]. apply Rmult_le_compat_l; lra.
Qed.

(** * Energies *)
Lemma RInt_sub g a b c d : a <= b -> b <= c -> c <= d -> ex_RInt g a d -> (forall x, a <= x <= d -> 0 <= g x) -> ex_RInt g b c /\ 0 <= RInt g b c <= RInt g a d.
Proof.
  intros L1 L2 L3 H P. assert (H1 : ex_RInt g a b) by (apply (ex_RInt_Chasles_1 g a b d); [lra|auto]). assert (H2 : ex_RInt g b d) by (apply (ex_RInt_Chasles_2 g a b d); [lra|auto]).
  assert (H3 : ex_RInt g b c) by (apply (ex_RInt_Chasles_1 g b c d); [lra|auto]). assert (H4 : ex_RInt g c d) by (apply (ex_RInt_Chasles_2 g b c d); [lra|auto]). split; [auto|].
  assert (0 <= RInt g a b) by (apply RInt_ge_0; auto; intros; apply P; lra). assert (0 <= RInt g b c) by (apply RInt_ge_0; auto; intros; apply P; lra). assert (0 <= RInt g c d) by (apply RInt_ge_0; auto; intros; apply P; lra).
  assert (E1 : RInt g a b + RInt g b d = RInt g a d) by exact (RInt_Chasles g a b d H1 H2). assert (E2 : RInt g b c + RInt g c d = RInt g b d) by exact (RInt_Chasles g b c d H3 H4). lra.
Qed.
Lemma energies_total X DM D s (g : R -> R) lo hi s1 w : ideal_quadrature (x_Integrate X) -> semiconductor_step s (CBase (BThreshold (Fin lo) (Fin hi))) = Ok s1 -> b_exposure (c_base s) = Fin w -> lo <= hi ->
  (forall E, lo <= E <= hi -> Semiconductor_dRdE X DM D s (Fin E) = Ok (Fin (g E))) -> ex_RInt g lo hi -> Semiconductor_Total X DM D s1 = Ok (Fin (w * RInt g lo hi)).
Proof.
  intros Q H W L F G. cbn [semiconductor_step base_step] in H. unfold Use_Energy_Threshold in H. destruct (xlt _ _); [discriminate|]. cbn [bind] in H. apply Ok_inj in H. subst s1. unfold Semiconductor_Total. cbn [c_base with_c_base b_analysis b_using_threshold with_range with_using Initialize_Poisson with_poisson orb b_threshold b_energy_max b_exposure].
  rewrite (Q _ g lo hi); [|intros E HE; rewrite Rmin_left, Rmax_right in HE by lra; apply F; auto|auto]. cbn [bind]. rewrite W, xmul_fin. reflexivity.
Qed.
Lemma semiconductor_energies_nested X IL label expo crys ops s DM D m vmax (g : R -> R) lo1 hi1 lo2 hi2 s1 s2 : positive_externals X -> ideal_quadrature (x_Integrate X) -> good_particle DM m -> good_halo D vmax -> nn expo ->
  semiconductor_history IL label expo crys ops = Ok s -> good_crystal DM (c_crystal s) -> Forall (sensible_semiconductor (c_crystal s)) ops -> 0 < lo1 <= lo2 -> lo2 <= hi2 <= hi1 ->
  (forall E, lo1 <= E <= hi1 -> Semiconductor_dRdE X DM D s (Fin E) = Ok (Fin (g E))) -> ex_RInt g lo1 hi1 ->
  semiconductor_step s (CBase (BThreshold (Fin lo1) (Fin hi1))) = Ok s1 -> semiconductor_step s (CBase (BThreshold (Fin lo2) (Fin hi2))) = Ok s2 ->
  exists t1 t2, Semiconductor_Total X DM D s1 = Ok (Fin t1) /\ Semiconductor_Total X DM D s2 = Ok (Fin t2) /\ 0 <= t2 <= t1.
Proof.
  intros PX IQ GP GH NE H GC S L1 L2 F G U1 U2. destruct (semiconductor_positive X IL label expo crys ops s DM D m vmax PX GP GH NE H GC S) as (DR & _).
  assert (P : forall E, lo1 <= E <= hi1 -> 0 <= g E). { intros E HE. destruct (DR E ltac:(lra) _ (F E HE)) as (y & Y & ?). apply Fin_inj in Y. lra. }
  destruct (RInt_sub g lo1 lo2 hi2 hi1 ltac:(lra) ltac:(lra) ltac:(lra) G P) as (G2 & I1 & I2).
  assert (W : nn (b_exposure (c_base s))).
  { unfold semiconductor_history in H. apply bind_ok in H. destruct H as (s0 & C & R). unfold Semiconductor_ctor in C. apply bind_ok in C. destruct C as (c & CC & C). apply Ok_inj in C. subst s0. assert (OC := library_semiconductor IL crys c CC).
    assert (EC := semiconductor_crystal _ _ _ R). cbn [c_crystal] in EC. rewrite EC in S. destruct (semiconductor_sound_run (mkSemiconductor (Detector_ctor label expo "Electrons") c None None None) ops OC s R S) as (((E & _) & _) & _); [|exact E].
    split; [apply sound_ctor; auto|]. split; [intros ? K; discriminate|right; cbn; lia]. }
  destruct W as (w & EW & HW). exists (w * RInt g lo1 hi1), (w * RInt g lo2 hi2).
  split; [apply (energies_total X DM D s g lo1 hi1 s1 w); auto; lra|]. split; [apply (energies_total X DM D s g lo2 hi2 s2 w); auto; try lra; intros; apply F; lra|].
  split; [apply Rmult_le_pos; auto|apply Rmult_le_compat_l; auto].
Qed.
Lemma nuclear_energies_nested X label expo nuclei masses am ops n DM D m vmax (g : R -> R) lo1 hi1 k1 lo2 hi2 k2 n1 n2 : positive_externals X -> ideal_quadrature (x_Integrate X) -> good_particle DM m -> good_halo D vmax -> good_targets DM nuclei -> nuclei_masses nuclei masses ->
  (am = [] \/ List.length am = List.length nuclei) -> Forall (fun a => 0 <= a) am -> nn expo ->
  nuclear_history label expo nuclei (map Fin am) ops = Ok n -> Forall (sensible_nuclear X) ops -> xlt (n_resolution n) (Fin (1e-6 * eV)) = true -> 0 < lo1 <= lo2 -> lo2 < hi2 <= hi1 ->
  (1 <= k1 < 2 ^ 31)%Z -> (1 <= k2 < 2 ^ 31)%Z -> nuclear_step n (NBase (BBins (Fin lo1) (Fin hi1) k1)) = Ok n1 -> nuclear_step n (NBase (BBins (Fin lo2) (Fin hi2) k2)) = Ok n2 ->
  (forall E, lo1 <= E <= hi1 -> Nuclear_dRdE X DM D n (Fin E) = Ok (Fin (g E))) -> ex_RInt g lo1 hi1 ->
  exists t1 t2, Nuclear_Total X DM D n1 = Ok (Fin t1) /\ Nuclear_Total X DM D n2 = Ok (Fin t2) /\ 0 <= t2 <= t1.
Proof.
  intros PX IQ GP GH GT NM AM AN NE H S RS L1 L2 K1 K2 U1 U2 F G.
  assert (SM : forall lo hi k n', (1 <= k < 2 ^ 31)%Z -> nuclear_step n (NBase (BBins (Fin lo) (Fin hi) k)) = Ok n' -> b_exposure (n_base n') = b_exposure (n_base n) /\ b_threshold (n_base n') = Fin lo /\ forall E, Nuclear_dRdE X DM D n' E = Nuclear_dRdE X DM D n E).
  { clear - RS. intros lo hi k n' K U. cbn [nuclear_step base_step] in U. apply bind_ok in U. destruct U as (d & U & E). apply Ok_inj in E. subst n'. destruct (energy_bins_state _ _ _ _ _ K U) as (_ & _ & _ & _ & _ & _ & _ & FE).
    assert (T : b_exposure d = b_exposure (n_base n) /\ b_threshold d = Fin lo).
    { unfold Use_Energy_Bins in U. apply bind_ok in U. destruct U as (d1 & I & U). apply init_binned_ok in I. destruct I as (? & ? & ? & ->). cbv zeta in U. destruct (xlt (Fin hi) (Fin lo)); [discriminate U|]. apply Ok_inj in U. subst d. split; reflexivity. }
    destruct T as (T1 & T2). cbn [n_base with_n_base]. split; [auto|]. split; [auto|]. intros E. unfold Nuclear_dRdE. cbn [n_resolution with_n_base]. rewrite xmul_fin, RS. unfold Nuclear_sum. cbn [n_base with_n_base]. rewrite FE. reflexivity. }
  assert (H1 : nuclear_history label expo nuclei (map Fin am) (ops ++ [NBase (BBins (Fin lo1) (Fin hi1) k1)]) = Ok n1).
  { unfold nuclear_history in *. apply bind_ok in H. destruct H as (z & Z & R). rewrite Z. cbn [bind]. rewrite nuclear_run_app, R. exact U1. }
  assert (S1 : Forall (sensible_nuclear X) (ops ++ [NBase (BBins (Fin lo1) (Fin hi1) k1)])). { apply Forall_app. split; [auto|]. constructor; [|constructor]. cbn. exists lo1, hi1. repeat split; auto; lra. }
  destruct (nuclear_positive X label expo nuclei masses am _ n1 DM D m vmax PX GP GH GT NM AM AN NE H1 S1) as (DR & _).
  destruct (SM _ _ _ _ K1 U1) as (X1_ & T1 & D1_). destruct (SM _ _ _ _ K2 U2) as (X2 & T2 & D2).
  assert (P : forall E, lo1 <= E <= hi1 -> 0 <= g E). { intros E HE. assert (Y := DR E lo1 ltac:(lra) T1 ltac:(lra)). rewrite D1_, (F E HE) in Y. destruct (Y _ eq_refl) as (y & Y1 & ?). apply Fin_inj in Y1. lra. }
  destruct (RInt_sub g lo1 lo2 hi2 hi1 ltac:(lra) ltac:(lra) ltac:(lra) G P) as (G2 & I1 & I2).
  assert (W : nn (b_exposure (n_base n))). { unfold nuclear_history in H. apply bind_ok in H. destruct H as (n0 & C & R). destruct (nuclear_sound_run X n0 ops n R S (nuclear_sound_ctor X _ _ _ _ n0 C NE)) as (((E & _) & _) & _). exact E. }
  destruct W as (w & EW & HW). exists (w * RInt g lo1 hi1), (w * RInt g lo2 hi2).
  destruct (nuclear_bins X DM D n g lo1 hi1 k1 n1 w IQ K1 U1 EW) as (? & _ & _ & _ & A1); [intros; rewrite D1_; apply F; lra|auto|].
  destruct (nuclear_bins X DM D n g lo2 hi2 k2 n2 w IQ K2 U2 EW) as (? & _ & _ & _ & A2); [intros; rewrite D2; apply F; lra|auto|].
  split; [exact A1|]. split; [exact A2|]. split; [apply Rmult_le_pos; auto|apply Rmult_le_compat_l; auto].
Qed.

(** * A window of one electron number *)
Lemma R_0_2 : R_ne X1 DM1 D1 ion2 0 = Ok (Fin 0).
Proof.
  destruct shell2_rate as [v [Hv V]]. assert (HM := mElectron_pos).
  unfold R_ne, weighted. change (i_atoms ion2) with [atom2]. change (i_fractions ion2) with [Fin 1]. cbn [List.length seq]. unfold sum_res at 1. cbn [map_res at_ub nth_error bind]. unfold R_ne_atom, sum_res. cbn [electrons atom2 map_res]. unfold R_ne_shell, sum_res. cbn [k_Grid shell2 map_res].
  rewrite xmul_fin, !xdiv_fin by lra.
  replace (mElectron * mElectron / 2.0 / mElectron) with (mElectron / 2) by (replace 2.0 with 2 by lra; field; lra).
  cbn [W atom2 number_of_secondary_electrons shell2 x_PMF_Binomial X1]. change (s32 1) with 1%Z.
  assert (P : PDF_ne exact_binomial 0 (Fin (mElectron / 2)) (Fin 1) 1 = Ok (Fin 0)).
  { unfold PDF_ne. rewrite xdiv_fin by lra. cbn [xfloor]. replace (mElectron / 2 / 1) with (mElectron / 2) by lra. rewrite floor_small by (unfold mElectron; lra). rewrite xadd_fin, <- plus_IZR. change (1 + 0)%Z with 1%Z. unfold to_int. rewrite double_to_int_IZR. reflexivity. }
  rewrite P. cbn [bind].
  unfold Ionization_dRdE_shell. change (i_channel ion2) with Electron_Recoil. cbv iota. change (b_flat_efficiency (i_base ion2)) with (Fin 1.0). cbn [x_Integrate X1]. fold atom2. change (Average_Nuclear_Mass (at_nucleus atom2)) with (Average_Nuclear_Mass (at_nucleus atom1)). rewrite mass1.
  fold shell2. rewrite V. cbn [bind]. rewrite !xmul_fin. cbn [dlogk shell2]. rewrite xlog_fin by lra. rewrite !xmul_fin. rewrite xdiv_fin by lra. rewrite !xmul_fin. cbn [xsum fold_left bind].
  rewrite xadd_fin. cbn [bind]. rewrite xadd_fin. cbn [bind]. rewrite xmul_fin. cbn [bind xsum fold_left]. rewrite xadd_fin. do 2 f_equal. ring.
Qed.
Lemma single_nested_refuted : exists s s1 s2 X DM D t1 t2, Use_Electron_Threshold 0 1 s = Ok s1 /\ Use_Electron_Threshold 1 1 s = Ok s2 /\ Ionization_Total X DM D s1 = Ok (Fin t1) /\ Ionization_Total X DM D s2 = Ok (Fin t2) /\ t1 < t2.
Proof.
  destruct (electron_threshold_range 0 1 ion2) as (s1 & E1 & C1); [lia|lia|]. destruct (electron_threshold_other 1 1 ion2) as (s2 & E2 & C2); [lia|lia|]. destruct R_ne_2 as (c & Hc & R).
  assert (A := C1 X1 DM1 D1 1 (fun ne => if (ne =? 0)%Z then 0 else electron_law 1 ne * c) eq_refl). assert (B := C2 X1 DM1 D1 1 (fun ne => electron_law 1 ne * c) eq_refl ltac:(intros; apply R; lia)).
  exists ion2, s1, s2, X1, DM1, D1. do 2 eexists. split; [exact E1|]. split; [exact E2|]. split; [apply A; intros ne Hn; destruct (Z.eqb_spec ne 0) as [-> | NZ]; [exact R_0_2|apply R; lia]|]. split; [exact B|].
  change (numbers 0 1) with [0%Z; 1%Z]. rewrite (numbers_split 1 1 100), map_app, Rsum_app by lia. rewrite (numbers_split (1 + 1) 2 100), map_app, Rsum_app by lia.
  assert (P : 0 <= Rsum (map (fun ne => electron_law 1 ne * c) (numbers (2 + 1) 100))).
  { generalize (numbers (2 + 1) 100). intros l. induction l as [|a l IH]; [cbn; lra|]. cbn [map Rsum fold_right]. fold (Rsum (map (fun ne => electron_law 1 ne * c) l)). assert (H := electron_law_nonneg 1 a). assert (0 <= electron_law 1 a * c) by (apply Rmult_le_pos; lra). lra. }
  change (numbers (1 + 1) 2) with [2%Z]. change (numbers 1 1) with [1%Z]. cbn [map Rsum fold_right Z.eqb]. rewrite law_1_2. change (fold_right Rplus 0) with Rsum in *. lra.
Qed.
