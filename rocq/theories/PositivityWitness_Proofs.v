(** Nuclei and atoms of the shipped data for C110; instances; a reversed energy window in a semiconductor. *)
From Coq Require Import Reals ZArith String Lia Lra Bool.
From Coquelicot Require Import Coquelicot.
From Coq Require Import List Sorted.
From Verif Require Import Base XrFacts Quadrature Nucleus_Model Nuclear_Model Particle_Model CrossSection_Model CrossSection_Proofs Distribution_Model Astronomy_Model Halo_Model Atom_Model Crystal_Model Crystal_Proofs Rates_Model
  Kinematics_Proofs Eta_Proofs HaloState_Proofs HaloFinal_Proofs Detector_Model DetectorTypes_Model Electrons_Proofs Formulas_Proofs FormulasHalo_Proofs DetectorWitness_Proofs DetectorSafety_Proofs Scaling_Proofs LimitsWitness_Proofs Fractions_Proofs
  Nuclear_Proofs Atom_Proofs AtomTables_Proofs Exposure_Proofs DetectorModes_Proofs Positivity_Proofs PositivityLibrary_Proofs.
Import ListNotations.
Local Open Scope R_scope.

(** A test of a row of the nuclear data, for the proof below: no code of the repository. *)
Definition raw_fine (r : raw_row) : bool := match r with Raw _ _ a ab sp _ _ => (1 <=? a)%Z && (0 <=? fst ab)%Z && (0 <=? fst sp)%Z end.
Lemma decimal_nn d : (0 <= fst d)%Z -> exists y, decimal d = Fin y /\ 0 <= y.
Proof. intros H. unfold decimal. eexists. split; [reflexivity|]. apply IZR_le in H. apply Rmult_le_pos; auto. left. apply Rinv_0_lt_compat. apply pow_lt. lra. Qed.
Lemma shipped_element_good z n : element_of_table shipped_rows z n -> forall t, In t (nisotopes n) -> good_isotope t /\ ordinary_spins t.
Proof.
  intros (_ & _ & F). unfold shipped_rows in F. rewrite filter_map_raw in F. assert (OK : forallb raw_fine shipped_raw = true) by (vm_compute; reflexivity). rewrite forallb_forall in OK.
  assert (IN : forall r, In r (filter (fun r => (raw_Z r =? z)%Z) shipped_raw) -> raw_fine r = true) by (intros r Hr; apply filter_In in Hr; apply OK, Hr). clear OK.
  revert F IN. generalize (filter (fun r => (raw_Z r =? z)%Z) shipped_raw) as rs. generalize (nisotopes n) as l. induction l as [|i l IH]; intros rs F IN t Ht; [destruct Ht|]. destruct rs as [|r rs]; [inversion F|]. cbn [map] in F. inversion F as [|? ? ? ? Hi F']; subst.
  destruct Ht as [<- | Ht]; [|apply (IH rs); auto; intros; apply IN; right; auto]. specialize (IN r (or_introl eq_refl)). destruct r as [nm zz a ab sp p q]. cbn [raw_fine] in IN. apply andb_prop in IN as [IN I3]. apply andb_prop in IN as [I1 I2]. apply Z.leb_le in I1, I2, I3.
  cbn [row_of_raw] in Hi. destruct Hi as (_ & _ & H3 & H4 & H5 & H6 & H7 & _). cbn [rw_abundance rw_A rw_spin rw_sp rw_sn] in *. split.
  - eexists. split; [exact H7|]. split; [destruct (a =? 1)%Z; [exact mProton_pos|]; apply Rmult_lt_0_compat; [apply IZR_lt; lia|exact mNucleon_pos]|]. rewrite H3. destruct (decimal_nn ab I2) as (y & -> & Y). apply nn_fin. auto.
  - destruct (decimal_nn sp I3) as (j & EJ & HJ). exists j. unfold decimal in H5, H6. do 2 eexists. rewrite H4, H5, H6. split; [exact EJ|]. split; [auto|]. split; reflexivity.
Qed.
Lemma shipped_nucleus_good w z n w' p m I2 : world_history shipped_rows w -> Get_Nucleus w z = Ok (n, w') -> ordinary_particle p m -> good_nucleus n /\ nuclear_cross (interface_of I2 p) n.
Proof.
  intros H G O. assert (Hz : (1 <= z <= 92)%Z).
  { destruct (Z_le_dec 1 z) as [A|A]; [destruct (Z_le_dec z 92) as [B|B]; [lia|]|]; rewrite (get_nucleus_out shipped_rows) in G; auto; try discriminate; try exact shipped_well_formed; lia. }
  destruct (get_nucleus_in shipped_rows w z shipped_well_formed H Hz (shipped_full z Hz)) as (n' & v & G' & E). rewrite G in G'. apply Ok_inj in G'. injection G' as <- _.
  split; intros t Ht; destruct (shipped_element_good z n E t Ht) as (A & B); [exact A|]. apply (library_nuclear I2 p m); auto.
Qed.
Lemma shipped_atom_good X IT w name a w' p m ch : proper_tables IT -> world_history shipped_rows w -> (name = "Xe" \/ name = "Ar")%string -> Atom_by_name IT w name = Ok (a, w') ->
  (forall sh t, In sh (electrons a) -> In t (atomic_response_interpolations sh) -> good_table (x_I2 X) t) -> ordinary_particle p m -> good_atom X (interface_of (x_I2 X) p) ch a.
Proof.
  intros PT WH N E GT O. assert (LA := library_atoms IT shipped_rows w name a w' (x_I2 X) PT shipped_well_formed shipped_full WH N E GT). split; [intros sh Hs; apply (LA sh Hs)|].
  assert (NU : exists z w2, z <> 43%Z /\ z <> 61%Z /\ Get_Nucleus w z = Ok (at_nucleus a, w2)).
  { destruct N as [-> | ->].
    - destruct (by_name_is_by_charge shipped_rows w 54 "Xe" shipped_well_formed shipped_full WH ltac:(lia) eq_refl) as (n & w1 & w2 & G & G2 & _). exists 54%Z, w2. split; [lia|]. split; [lia|]. rewrite G2. unfold Atom_by_name in E. rewrite G in E. cbn [bind] in E.
      change ((("Xe" =? "Xe") || ("Xe" =? "Xenon"))%string)%bool with true in E. cbv iota in E. apply bind_ok in E. destruct E as (e & _ & E). apply Ok_inj in E. injection E as <- _. reflexivity.
    - destruct (by_name_is_by_charge shipped_rows w 18 "Ar" shipped_well_formed shipped_full WH ltac:(lia) eq_refl) as (n & w1 & w2 & G & G2 & _). exists 18%Z, w2. split; [lia|]. split; [lia|]. rewrite G2. unfold Atom_by_name in E. rewrite G in E. cbn [bind] in E.
      change ((("Ar" =? "Xe") || ("Ar" =? "Xenon"))%string)%bool with false in E. change ((("Ar" =? "Ar") || ("Ar" =? "Argon"))%string)%bool with true in E. cbv iota in E. apply bind_ok in E. destruct E as (e & _ & E). apply Ok_inj in E. injection E as <- _. reflexivity. }
  destruct NU as (z & w2 & Z1 & Z2 & G). destruct ch.
  - split; [apply (shipped_mass_positive w z _ w2 WH G); auto|]. intros sh Hs. apply (library_ionization _ p m); auto. apply (LA sh Hs).
  - destruct (shipped_nucleus_good w z _ w2 p m (x_I2 X) WH G O) as (A & B). split; [exact A|]. split; [exact B|]. intros sh Hs. apply (LA sh Hs).
Qed.

(** * Instances *)
Lemma D1_good : good_halo D1 1.
Proof. split; [apply nn_fin; lra|]. split; [reflexivity|]. split; [lra|]. intros v _. split; apply fine_ok, nn_fin; lra. Qed.
Lemma even_ordinary : ordinary_particle even 2.
Proof.
  assert (h : 0 < cm) by (unfold cm; lra). split; [reflexivity|]. split; [lra|]. split; [apply nn_fin; lra|]. split; [eexists; reflexivity|]. split; [eexists; reflexivity|]. split; [|eexists; reflexivity].
  apply nn_fin. apply Rmult_le_pos; [apply Rmult_le_pos|]; try lra. 
Qed.
Lemma hydrogen_targets : good_targets (interface_of (x_I2 XW) even) [heavy_hydrogen].
Proof. intros n [<- | []]. split; intros t [<- | []]; [exists 1; split; [reflexivity|]; split; [lra|apply nn_fin; lra]|]. apply (library_nuclear _ even 2); [exact even_ordinary|discriminate]. Qed.
Lemma hydrogen_masses : nuclei_masses [heavy_hydrogen] [1].
Proof. constructor; [|constructor]. split; [|lra]. cbn [Average_Nuclear_Mass heavy_hydrogen nisotopes fold_left imass iabundance deuteron]. rewrite xmul_fin, xadd_fin. f_equal. lra. Qed.
Lemma hydrogen_history : nuclear_history "test" (Fin 1) [heavy_hydrogen] (map Fin [1]) [NBase (BThreshold (Fin (1/10)) (Fin (1/2)))] = Ok nW.
Proof. destruct nW_configured as (n & C & R). unfold nuclear_history. cbn [map]. rewrite C. cbn [bind]. exact R. Qed.
Lemma total_is_virtual X D n p : Nuclear_Total X (interface_of (x_I2 X) p) D n = v_total (nuclear_virtuals X D n) (n_base n) p.
Proof. destruct n. reflexivity. Qed.
Lemma hydrogen_total : exists t, Nuclear_Total XW (interface_of (x_I2 XW) even) D1 nW = Ok (Fin t) /\ 0 < t.
Proof.
  exists ((cW 1 + cW 1) ^ 2 / (10 * PI)). split; [rewrite total_is_virtual; apply (total_W even (cW 1) (cW 1)); apply light_simple|].
  assert (P := PI_RGT_0). assert (C := cW_pos 1 ltac:(lra)). apply Rdiv_lt_0_compat; [apply pow_lt|]; lra.
Qed.
Lemma nuclear_positive_instance : positive_externals XW /\ good_particle (interface_of (x_I2 XW) even) 2 /\ good_halo D1 1 /\ good_targets (interface_of (x_I2 XW) even) [heavy_hydrogen] /\ nuclei_masses [heavy_hydrogen] [1] /\
  nuclear_history "test" (Fin 1) [heavy_hydrogen] (map Fin [1]) [NBase (BThreshold (Fin (1/10)) (Fin (1/2)))] = Ok nW /\ Forall (sensible_nuclear XW) [NBase (BThreshold (Fin (1/10)) (Fin (1/2)))] /\
  exists t, Nuclear_Total XW (interface_of (x_I2 XW) even) D1 nW = Ok (Fin t) /\ 0 < t.
Proof.
  split; [exact XW_positive|]. split; [apply library_particle; exact even_ordinary|]. split; [exact D1_good|]. split; [exact hydrogen_targets|]. split; [exact hydrogen_masses|]. split; [exact hydrogen_history|].
  split; [|exact hydrogen_total]. constructor; [|constructor]. exists (1/10), (1/2). repeat split; lra.
Qed.
(** Witness: three electron bins with efficiencies. *)
Definition opsI : list ionization_op := [IElectron_Bins 1 3; IBase (BBin_Efficiencies [Fin 1; Fin (1/2); Fin (1/4)]); IBase (BFlat (Fin (1/2)))].
Lemma ionization_positive_instance ch : exists s, ionization_history IT2 (fresh_world shipped_rows) ch "test" (Fin 1) ["Xe"%string] (map Fin [1]) opsI = Ok s /\
  (forall a, In a (i_atoms s) -> good_atom XW (interface_of (x_I2 XW) even) ch a) /\ Forall sensible_ionization opsI /\ i_atoms s <> [].
Proof.
  destruct listed_instance as (PT & WF & FT & WH). destruct (xenon_listed IT2 shipped_rows (fresh_world shipped_rows) PT WF FT WH) as (a & w & A & _).
  assert (GA : good_atom XW (interface_of (x_I2 XW) even) ch a). { apply (shipped_atom_good XW IT2 (fresh_world shipped_rows) "Xe" a w even 2 ch); auto; [|exact even_ordinary]. intros sh t _ _ k q _ _. apply fine_ok, nn_fin. lra. }
  unfold ionization_history, Ionization_ctor. cbn [make_atoms]. rewrite A. cbn [bind make_atoms List.length map].
  assert (F : exists f, ionization_fractions 1 [Fin 1] = Ok f). { unfold ionization_fractions. cbn [List.length Nat.eqb]. eexists. reflexivity. }
  destruct F as (f & ->). cbn [bind ionization_run ionization_step opsI]. unfold Use_Electron_Bins, Initialize_Binned_Poisson.
  change (b_analysis (i_base (Ionization_start ch "test" (Fin 1) [a] f))) with Poisson. cbn [bind].
  eexists. split; [reflexivity|]. split; [intros b [<- | []]; exact GA|]. split; [|discriminate].
  unfold opsI. repeat constructor; cbn [sensible_ionization sensible]; auto; try (apply nn_fin; lra).
Qed.
Lemma semiconductor_positive_instance : exists s, semiconductor_history IL0 "test" (Fin 1) "Si" [CQ_Bins 1 3; CBase (BBin_Efficiencies [Fin 1; Fin (1/2); Fin (1/4)])] = Ok s /\
  good_crystal (interface_of (x_I2 XW) even) (c_crystal s) /\ Forall (sensible_semiconductor (c_crystal s)) [CQ_Bins 1 3; CBase (BBin_Efficiencies [Fin 1; Fin (1/2); Fin (1/4)])].
Proof.
  destruct silicon as (c & A & RC & H). unfold semiconductor_history, Semiconductor_ctor. rewrite A. cbn [bind semiconductor_run semiconductor_step].
  unfold Use_Q_Bins, Initialize_Binned_Poisson. cbn [Z.eqb c_crystal c_base b_analysis Detector_ctor bind].
  eexists. split; [reflexivity|]. cbn [c_crystal with_c_base with_Q]. split.
  - apply (library_crystal _ even 2); [exact even_ordinary|]. intros q E _ _. unfold crystal_value, Crystal_Form_Factor. destruct (_ || _)%bool; apply fine_zero; reflexivity.
  - constructor; [cbn; lia|]. constructor; [|constructor]. repeat constructor; apply nn_fin; lra.
Qed.
Lemma halo_positive_instance : exists s, halo_history s 2 (V3 0 3 4) 6 /\ vnorm (V3 0 3 4) <= 6 /\ nn (h_rho s).
Proof. exists (SHM_of_velocity 1 2 (V3 0 3 4) 6). split; [apply (hh_velocity 1)|]. rewrite norm345. split; [lra|apply nn_fin; lra]. Qed.

(** * A reversed window *)
(** In silicon at most 14 pairs fit below the largest tabulated energy. Requesting 15 after an energy threshold was set leaves the energy flag on and reverses the energy window. *)
Lemma flat_term c gap eps b E qi : real_crystal c gap eps (0.1 * eV) (500 * (0.1 * eV)) qstep b -> 0 <= E <= 500 * (0.1 * eV) -> (0 <= qi < 900)%Z ->
  Crystal_term reference_Integrate (Fin E) DM1 D1 c qi = Crystal_term reference_Integrate (Fin 0) DM1 D1 c qi.
Proof.
  intros (_ & _ & _ & _ & Hq & _) HE Hi. unfold Crystal_term. rewrite Hq, xmul_fin. assert (QS : 0 < qstep) by (unfold qstep; assert (h := aEM_pos); assert (h' := mElectron_pos); apply Rmult_lt_0_compat; auto; lra).
  assert (Hk : 1 <= IZR (qi + 1) <= 900) by (split; apply IZR_le; lia). set (k := IZR (qi + 1)) in *. assert (Hkq : 0 < k * qstep) by (apply Rmult_lt_0_compat; lra). cbv zeta.
  cbn [d_vmax D1 DM1 dm_mass]. unfold vMinimal_Electrons. rewrite !xdiv_fin by lra. rewrite !xadd_fin.
  assert (S : 100 * eV / 1.5 < qstep /\ 900 * qstep < 1) by (unfold qstep, aEM, mElectron, eV; lra). assert (h := eV_pos).
  assert (B : forall e, 0 <= e <= 500 * (0.1 * eV) -> e / (k * qstep) + k * qstep / (2 * 2) <= 1).
  { intros e He. assert (k * qstep / (2 * 2) <= 1 / 4) by (assert (k * qstep <= 900 * qstep) by (apply Rmult_le_compat_r; lra); lra).
    assert (e / (k * qstep) <= 3 / 4); [|lra]. apply (Rmult_le_reg_r (k * qstep)); auto. unfold Rdiv at 1. rewrite Rmult_assoc, Rinv_l, Rmult_1_r by lra. assert (1 * qstep <= k * qstep) by (apply Rmult_le_compat_r; lra). lra. }
  assert (B1 := B E HE). assert (B2 := B 0 ltac:(lra)). 
  rewrite (xlt_false 1 (E / (k * qstep) + _)) by lra. rewrite (xlt_false 1 (0 / (k * qstep) + _)) by lra. reflexivity.
Qed.
Lemma flat_rate c b M : real_crystal c (1.11 * eV) (3.6 * eV) (0.1 * eV) (500 * (0.1 * eV)) qstep b -> N_q c = 900%Z -> M_cell c = Fin M -> 0 < M ->
  exists r, 0 < r /\ forall E, 0 <= E -> dRdEe_Crystal reference_Integrate (Fin E) DM1 D1 c = Ok (Fin (if Rle_dec E (500 * (0.1 * eV)) then r else 0)).
Proof.
  intros RC HN HM HP. assert (h := eV_pos). destruct (Crystal_rate c _ _ b M 0 RC HN HM HP ltac:(lra)) as (r & Hr & E0). exists r. split; [exact Hr|]. intros E HE. assert (RC' := RC). destruct RC' as (_ & _ & _ & EX & _).
  destruct (Rle_dec E (500 * (0.1 * eV))) as [L|L].
  - rewrite <- E0. unfold dRdEe_Crystal. rewrite EX, !xlt_false by lra. rewrite HN. cbv zeta. rewrite (sum_res_ext (Crystal_term reference_Integrate (Fin E) DM1 D1 c) (Crystal_term reference_Integrate (Fin 0) DM1 D1 c)); [reflexivity|].
    intros i Hi. apply Zrange_In in Hi. apply (flat_term c _ _ b E i RC); [lra|lia].
  - unfold dRdEe_Crystal. rewrite EX, xlt_true by lra. reflexivity.
Qed.
Lemma step_integral r a x b : a <= x < b -> is_RInt (fun E => if Rle_dec E x then r else 0) a b ((x - a) * r).
Proof.
  intros H. replace ((x - a) * r) with (plus (scal (x - a) r) (scal (b - x) 0)).
  2:{ unfold plus, scal. cbn. unfold mult. cbn. lra. }
  apply (is_RInt_Chasles _ a x b).
  - apply (is_RInt_ext (fun _ => r)); [|apply (@is_RInt_const R_NormedModule)]. intros y Hy. rewrite Rmin_left, Rmax_right in Hy by lra. destruct (Rle_dec y x); [reflexivity|lra].
  - apply (is_RInt_ext (fun _ => 0)); [|apply (@is_RInt_const R_NormedModule)]. intros y Hy. rewrite Rmin_left, Rmax_right in Hy by lra. destruct (Rle_dec y x); [lra|reflexivity].
Qed.
(** Witness: an energy threshold, then a number of pairs above the largest one. *)
Definition opsR : list semiconductor_op := [CBase (BThreshold (Fin 1) (Fin 2)); CQ_Threshold 15].
Lemma reversed_state c : exists s, semiconductor_run (semi1 c) opsR = Ok s /\ c_crystal s = c /\ b_analysis (c_base s) = Poisson /\ b_using_threshold (c_base s) = true /\
  b_threshold (c_base s) = Minimum_Electron_Energy 15 c /\ b_energy_max (c_base s) = Minimum_Electron_Energy (s32 (Q_max c)) c /\ b_exposure (c_base s) = Fin 1 /\ b_flat_efficiency (c_base s) = Fin 1.0.
Proof.
  assert (L : xlt (Fin 2) (Fin 1) = false) by (apply xlt_false; lra). eexists. split; [cbn [opsR semiconductor_run semiconductor_step base_step]; unfold Use_Energy_Threshold; rewrite L; cbn [bind]; reflexivity|].
  repeat split; reflexivity.
Qed.
Lemma reversed_negative : exists s t, semiconductor_history IL0 "test" (Fin 1) "Si" opsR = Ok s /\ good_particle DM1 2 /\ good_halo D1 1 /\ good_crystal DM1 (c_crystal s) /\
  Semiconductor_Total XW DM1 D1 s = Ok (Fin t) /\ t < 0.
Proof.
  destruct silicon as (c & H1 & H2 & H3 & H4 & H5 & H6). assert (he := eV_pos). destruct (reversed_state c) as (s & R & C & A & U & T & EM & EX & FE).
  destruct (flat_rate c _ _ H2 H4 H6) as (r & Hr & RT); [unfold mNucleon; lra|].
  exists s, (- ((500 * (0.1 * eV) - Emin_R (1.11 * eV) (3.6 * eV) 14) * r)). split; [unfold semiconductor_history, Semiconductor_ctor; rewrite H1; cbn [bind]; exact R|].
  split; [split; [reflexivity|]; split; [lra|apply nn_fin; lra]|]. split; [exact D1_good|]. split; [intros q E v _ _ _; apply fine_ok, nn_fin; lra|].
  assert (E14 : Emin_R (1.11 * eV) (3.6 * eV) 14 = 47.91 * eV) by (unfold Emin_R; lra). assert (E15 : Emin_R (1.11 * eV) (3.6 * eV) 15 = 51.51 * eV) by (unfold Emin_R; lra).
  split; [|rewrite E14; assert (0 < (500 * (0.1 * eV) - 47.91 * eV) * r) by (apply Rmult_lt_0_compat; lra); lra].
  unfold Semiconductor_Total. rewrite A, U. cbn [orb]. rewrite T, EM, EX, H5. change (s32 14) with 14%Z. rewrite !(Emin_fin c _ _ _ _ _ _ _ H2), E14, E15. cbn [x_Integrate XW]. unfold reference_Integrate at 1. cbn [val bind]. rewrite xmul_fin, Rmult_1_l. do 2 f_equal.
  apply is_RInt_unique. apply (is_RInt_ext (fun E => if Rle_dec E (500 * (0.1 * eV)) then r else 0)).
  { intros E HE. rewrite Rmin_right, Rmax_left in HE by lra. unfold Semiconductor_dRdE. rewrite C. cbn [x_Integrate XW]. rewrite (RT E) by lra. cbn [bind]. rewrite FE, xmul_fin. cbn. destruct (Rle_dec _ _); lra. }
  apply (@is_RInt_swap R_NormedModule). apply step_integral. lra.
Qed.
