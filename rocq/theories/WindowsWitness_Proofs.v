(** Instances of C114. *)
From Coq Require Import Reals ZArith String Lia Lra Bool.
From Coquelicot Require Import Coquelicot.
From Coq Require Import List Sorted.
From Verif Require Import Base XrFacts Quadrature Nucleus_Model Nuclear_Model Particle_Model CrossSection_Model CrossSection_Proofs Distribution_Model Astronomy_Model Halo_Model Atom_Model Crystal_Model Crystal_Proofs Rates_Model
  Kinematics_Proofs Eta_Proofs HaloState_Proofs HaloFinal_Proofs Detector_Model DetectorTypes_Model Electrons_Proofs ElectronBins_Proofs Formulas_Proofs FormulasHalo_Proofs DetectorWitness_Proofs DetectorSafety_Proofs Scaling_Proofs LimitsWitness_Proofs Fractions_Proofs
  Nuclear_Proofs Atom_Proofs AtomTables_Proofs Exposure_Proofs DetectorModes_Proofs Positivity_Proofs PositivityLibrary_Proofs PositivityWitness_Proofs Windows_Proofs.
Import ListNotations.
Local Open Scope R_scope.

Lemma total_returns I DM D c de l : dE c = Fin de -> (forall z, In z l -> exists r, dRdEe_Crystal I (Fin (IZR (z + 1) * de)) DM D c = Ok (Fin r)) -> forall sum, exists v, R_total_loop I DM D c sum l = Ok v.
Proof.
  intros E. induction l as [|z l IH]; intros H sum; cbn [R_total_loop]; [eexists; reflexivity|]. rewrite E, xmul_fin. destruct (H z (or_introl eq_refl)) as (r & ->). cbn [bind]. apply IH. intros; apply H; right; auto.
Qed.
Lemma DM1_good : good_particle DM1 2. Proof. split; [reflexivity|]. split; [lra|apply nn_fin; lra]. Qed.
Lemma pairs_instance : exists s v, semiconductor_history IL0 "test" (Fin 1) "Si" [] = Ok s /\ positive_externals XW /\ good_particle DM1 2 /\ good_halo D1 1 /\ good_crystal DM1 (c_crystal s) /\ Semiconductor_Total XW DM1 D1 (Use_Q_Threshold 1 s) = Ok v.
Proof.
  destruct silicon as (c & H1 & H2 & H3 & H4 & H5 & H6). assert (he := eV_pos). destruct (flat_rate c _ _ H2 H4 H6) as (r & Hr & RT); [unfold mNucleon; lra|].
  assert (V : exists v, R_total_Crystal (x_Integrate XW) 1 DM1 D1 c = Ok v).
  { unfold R_total_Crystal. rewrite (silicon_start c 1 11 H2) by (try lia; lra). cbn [bind]. apply (total_returns _ _ _ _ (0.1 * eV)); [apply H2|]. intros z Hz. apply Zrange_In in Hz. assert (0 < IZR (z + 1)) by (apply IZR_lt; lia).
    cbn [x_Integrate XW]. rewrite RT by (apply Rmult_le_pos; lra). eexists. reflexivity. }
  destruct V as (v & V). exists (mkSemiconductor (Detector_ctor "test" (Fin 1) "Electrons") c None None None), (xmul (xmul (Fin 1) (Fin 1.0)) v).
  split; [unfold semiconductor_history, Semiconductor_ctor; rewrite H1; reflexivity|]. split; [apply nuclear_positive_instance|]. split; [exact DM1_good|]. split; [exact D1_good|]. split; [intros q E w _ _ _; apply fine_ok, nn_fin; lra|].
  rewrite pairs_total by reflexivity. cbn [c_crystal]. change (s32 1) with 1%Z. rewrite V. reflexivity.
Qed.
Lemma semiconductor_energies_instance : exists s g s1 s2, semiconductor_history IL0 "test" (Fin 1) "Si" [] = Ok s /\ ideal_quadrature (x_Integrate XW) /\ good_crystal DM1 (c_crystal s) /\
  (forall E, 10 * eV <= E <= 40 * eV -> Semiconductor_dRdE XW DM1 D1 s (Fin E) = Ok (Fin (g E))) /\ ex_RInt g (10 * eV) (40 * eV) /\ (forall E, 0 < g E) /\
  semiconductor_step s (CBase (BThreshold (Fin (10 * eV)) (Fin (40 * eV)))) = Ok s1 /\ semiconductor_step s (CBase (BThreshold (Fin (20 * eV)) (Fin (30 * eV)))) = Ok s2.
Proof.
  destruct silicon as (c & H1 & H2 & H3 & H4 & H5 & H6). assert (he := eV_pos). destruct (flat_rate c _ _ H2 H4 H6) as (r & Hr & RT); [unfold mNucleon; lra|].
  assert (L1 : xlt (Fin (40 * eV)) (Fin (10 * eV)) = false) by (apply xlt_false; lra). assert (L2 : xlt (Fin (30 * eV)) (Fin (20 * eV)) = false) by (apply xlt_false; lra).
  exists (mkSemiconductor (Detector_ctor "test" (Fin 1) "Electrons") c None None None), (fun _ => r). do 2 eexists. split; [unfold semiconductor_history, Semiconductor_ctor; rewrite H1; reflexivity|]. split; [exact ideal_quadrature_exists|].
  split; [intros q E w _ _ _; apply fine_ok, nn_fin; lra|]. split.
  { intros E HE. unfold Semiconductor_dRdE. cbn [x_Integrate XW c_crystal c_base Detector_ctor b_flat_efficiency]. rewrite RT by lra. cbn [bind]. rewrite xmul_fin. do 2 f_equal. destruct (Rle_dec _ _); lra. }
  split; [apply ex_RInt_const|]. split; [auto|]. cbn [semiconductor_step base_step]. unfold Use_Energy_Threshold. rewrite L1, L2. split; reflexivity.
Qed.
Lemma even_simple : exists a b, simple_particle even a b /\ 0 < (a + b) ^ 2 / (4 * PI).
Proof. exists (cW 1), (cW 1). split; [apply light_simple|]. assert (P := PI_RGT_0). assert (C := cW_pos 1 ltac:(lra)). apply Rdiv_lt_0_compat; [apply pow_lt|]; lra. Qed.
Lemma nuclear_energies_instance : exists n g n1 n2, nuclear_history "test" (Fin 1) [heavy_hydrogen] (map Fin [1]) [] = Ok n /\ xlt (n_resolution n) (Fin (1e-6 * eV)) = true /\
  nuclear_step n (NBase (BBins (Fin (1/10)) (Fin (1/2)) 4)) = Ok n1 /\ nuclear_step n (NBase (BBins (Fin (1/5)) (Fin (2/5)) 2)) = Ok n2 /\
  (forall E, 1/10 <= E <= 1/2 -> Nuclear_dRdE XW (interface_of (x_I2 XW) even) D1 n (Fin E) = Ok (Fin (g E))) /\ ex_RInt g (1/10) (1/2) /\ exists E, 0 < g E.
Proof.
  assert (h := eV_pos). destruct even_simple as (a & b & S & P). 
  assert (L1 : xlt (Fin (1/2)) (Fin (1/10)) = false) by (apply xlt_false; lra). assert (L2 : xlt (Fin (2/5)) (Fin (1/5)) = false) by (apply xlt_false; lra).
  exists (mkNuclear (Detector_ctor "test" (Fin 1) "Nuclei") [heavy_hydrogen] [Fin 1] (Fin 0.0) false []), (fun _ => (a + b) ^ 2 / (4 * PI)). do 2 eexists.
  split; [unfold nuclear_history, Nuclear_ctor, relative_fractions; cbn [map xsum fold_left]; rewrite xadd_fin, xlt_false by lra; cbn [bind]; reflexivity|].
  split; [cbn [n_resolution]; apply xlt_true; lra|]. cbn [nuclear_step base_step n_base]. unfold Use_Energy_Bins, Initialize_Binned_Poisson. cbn [b_analysis Detector_ctor bind]. rewrite L1, L2. split; [reflexivity|]. split; [reflexivity|].
  split; [|split; [apply ex_RInt_const|exists 0; exact P]]. intros E HE. rewrite <- (dRdE_W even a b E S) by lra. unfold Nuclear_dRdE. cbn [n_resolution nW]. rewrite xmul_fin, xlt_true by lra. reflexivity.
Qed.
(** Of all events of the detector of C58 one sixth have one electron. *)
Lemma electrons_strict : exists s1 s2 t1 t2, Use_Electron_Threshold 1 5 ion2 = Ok s1 /\ Use_Electron_Threshold 2 3 ion2 = Ok s2 /\ Ionization_Total X1 DM1 D1 s1 = Ok (Fin t1) /\ Ionization_Total X1 DM1 D1 s2 = Ok (Fin t2) /\ 0 < t2 < t1.
Proof.
  destruct (electron_threshold_range 1 5 ion2) as (s1 & E1 & C1); [lia|lia|]. destruct (electron_threshold_range 2 3 ion2) as (s2 & E2 & C2); [lia|lia|]. destruct R_ne_2 as (c & Hc & R).
  assert (A := C1 X1 DM1 D1 1 (fun ne => electron_law 1 ne * c) eq_refl ltac:(intros; apply R; lia)). assert (B := C2 X1 DM1 D1 1 (fun ne => electron_law 1 ne * c) eq_refl ltac:(intros; apply R; lia)).
  exists s1, s2. do 2 eexists. split; [exact E1|]. split; [exact E2|]. split; [exact A|]. split; [exact B|]. change (numbers 1 5) with [1; 2; 3; 4; 5]%Z. change (numbers 2 3) with [2; 3]%Z. cbn [map Rsum fold_right]. rewrite law_1_2.
  assert (Z0 : forall n, (2 < n)%Z -> electron_law 1 n = 0) by (intros n Hn; unfold electron_law; replace (n - 1 <=? 1)%Z with false by (symmetry; apply Z.leb_gt; lia); reflexivity). rewrite (Z0 3%Z), ?(Z0 4%Z), ?(Z0 5%Z) by lia.
  assert (L := electron_law_sum 1 ltac:(lia)). change (numbers 1 (1 + 1)) with [1; 2]%Z in L. cbn [map Rsum fold_right] in L. rewrite law_1_2 in L. replace (electron_law 1 1) with (1 / 6) by lra. lra.
Qed.
