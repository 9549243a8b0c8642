(** Which memory the signal predictions read (C43). *)
From Coq Require Import Reals ZArith String Lra Lia Bool.
From Coquelicot Require Import Coquelicot.
From Coq Require Import List.
From Verif Require Import Base XrFacts Analysis Quadrature Interpolation Nucleus_Model Nuclear_Model Particle_Model CrossSection_Model
  Distribution_Model Atom_Model Crystal_Model Rates_Model Crystal_Proofs Detector_Model DetectorTypes_Model Detector_Proofs DetectorModes_Proofs
  DetectorWitness_Proofs.
Import ListNotations.
Local Open Scope R_scope.

(** No undefined behaviour. *)
Definition safe {A : Type} (r : res A) : Prop := r <> UB.
Lemma safe_ok {A : Type} (a : A) : safe (Ok a). Proof. discriminate. Qed.
Lemma safe_bind {A B : Type} (m : res A) (k : A -> res B) : safe m -> (forall a, m = Ok a -> safe (k a)) -> safe (bind m k).
Proof. unfold safe. destruct m; cbn; intros H1 H2; auto; discriminate. Qed.
Lemma safe_map {A B : Type} (f : A -> res B) l : (forall a, In a l -> safe (f a)) -> safe (map_res f l).
Proof.
  induction l as [|a l IH]; intros H; cbn [map_res]; [apply safe_ok|].
  apply safe_bind; [apply H; left; auto|]. intros b _. apply safe_bind; [apply IH; intros; apply H; right; auto|]. intros; apply safe_ok.
Qed.
Lemma safe_sum {A : Type} (f : A -> res xr) l : (forall a, In a l -> safe (f a)) -> safe (sum_res f l).
Proof. intros H. unfold sum_res. apply safe_bind; [apply safe_map; auto|]. intros; apply safe_ok. Qed.
Lemma safe_at {A : Type} (l : list A) i : (i < length l)%nat -> safe (at_ub l i).
Proof. intros H. destruct (at_ub_lt l i H) as [a [E _]]. rewrite E. apply safe_ok. Qed.
Lemma at_ub_In {A : Type} (l : list A) i a : at_ub l i = Ok a -> In a l.
Proof. unfold at_ub. destruct (nth_error l i) eqn:E; try discriminate. intros H. apply Ok_inj in H. subst. apply nth_error_In in E; auto. Qed.
Lemma safe_atZ {A : Type} (l : list A) z : (0 <= z < Z.of_nat (length l))%Z -> safe (at_ubZ l z).
Proof.
  intros H. unfold at_ubZ. destruct (z <? 0)%Z eqn:B; [apply Z.ltb_lt in B; lia|].
  destruct (z <? Z.of_nat (length l))%Z eqn:C; [apply safe_at; lia|apply Z.ltb_ge in C; lia].
Qed.

(** What is asked of the library routines, the particle and the halo: they do not misbehave themselves. *)
Definition safe_externals (X : externals) : Prop :=
  (forall f a b, (forall x, safe (f x)) -> safe (x_Integrate X f a b)) /\ (forall t E, safe (x_Interpolation X t E)) /\
  (forall a v x y, safe (x_Interpolate X a v x y)) /\ (forall n p k, safe (x_PMF_Binomial X n p k)).
Definition safe_particle (DM : DM_interface) : Prop :=
  (forall q t v, safe (dm_dSigma_dq2_Nucleus DM q t v)) /\ (forall q E v c, safe (dm_d2Sigma_Crystal DM q E v c)).
Definition safe_halo (D : Distr_interface) : Prop := (forall v, safe (d_pdf_speed D v)) /\ (forall v, safe (d_eta D v)).

Section Safe.
  Variables (X : externals) (DM : DM_interface) (D : Distr_interface).
  Hypothesis SX : safe_externals X.
  Hypothesis SP : safe_particle DM.
  Hypothesis SD : safe_halo D.

  Lemma safe_flux v m : safe (flux D v m).
  Proof. unfold flux, Differential_DM_Flux. apply safe_bind; [apply SD|]. intros; apply safe_ok. Qed.
  Lemma safe_dER ER t v : safe (dm_dSigma_dER DM ER t v).
  Proof. unfold dm_dSigma_dER. apply safe_bind; [apply SP|]. intros; apply safe_ok. Qed.
  Lemma safe_isotope ER t : safe (dRdER_Isotope (x_Integrate X) ER DM D t).
  Proof.
    unfold dRdER_Isotope. cbv zeta. destruct (xlt _ _); [apply safe_ok|]. destruct (_ && _)%bool.
    - apply safe_bind; [apply safe_dER|]. intros. apply safe_bind; [apply SD|]. intros; apply safe_ok.
    - apply safe_bind; [|intros; apply safe_ok]. apply SX. intros v. apply safe_bind; [apply safe_flux|]. intros.
      apply safe_bind; [apply safe_dER|]. intros; apply safe_ok.
  Qed.
  Lemma safe_nucleus ER n : safe (dRdER_Nucleus (x_Integrate X) ER DM D n).
  Proof. unfold dRdER_Nucleus. apply safe_sum. intros t _. apply safe_bind; [apply safe_isotope|]. intros; apply safe_ok. Qed.

  (** ** Nuclear detectors *)
  Lemma safe_table n i E : (i < length (n_targets n))%nat -> safe (table_efficiency X n i E).
  Proof.
    intros Hi. unfold table_efficiency. destruct (n_using_tables n); [|apply safe_ok].
    destruct (Nat.eqb_spec (length (n_efficiencies n)) 1) as [E1 | _].
    - apply safe_bind; [apply safe_at; lia|]. intros; apply SX.
    - destruct (Nat.eqb_spec (length (n_efficiencies n)) (length (n_targets n))) as [E1 | _]; [|apply safe_ok].
      apply safe_bind; [apply safe_at; lia|]. intros; apply SX.
  Qed.
  Lemma safe_nuclear_sum n E ER : (length (n_targets n) <= length (n_fractions n))%nat -> safe (Nuclear_sum X DM D n E ER).
  Proof.
    intros H. unfold Nuclear_sum. apply safe_sum. intros i Hi. apply in_seq in Hi.
    apply safe_bind; [apply safe_at; lia|]. intros t _. apply safe_bind; [apply safe_table; lia|]. intros e _.
    apply safe_bind; [apply safe_at; lia|]. intros f _. apply safe_bind; [apply safe_nucleus|]. intros; apply safe_ok.
  Qed.
  Lemma safe_nuclear_dRdE n E : (length (n_targets n) <= length (n_fractions n))%nat -> safe (Nuclear_dRdE X DM D n E).
  Proof.
    intros H. unfold Nuclear_dRdE. destruct (xlt _ _); [apply safe_nuclear_sum; auto|].
    apply safe_bind; [cbn [max_element]; apply safe_ok|]. intros m _. cbv zeta. apply SX. intros ER.
    apply safe_bind; [apply safe_nuclear_sum; auto|]. intros; apply safe_ok.
  Qed.
  Lemma safe_energy_bins f d : (forall E, safe (f E)) -> (b_bins d < Z.of_nat (length (b_bin_energies d)))%Z -> (b_bins d <= Z.of_nat (length (b_efficiencies d)))%Z ->
    safe (DM_Signals_Energy_Bins (x_Integrate X) f d).
  Proof.
    intros Hf H1 H2. unfold DM_Signals_Energy_Bins. destruct (b_using_bins d); cbn [negb]; [|discriminate].
    apply safe_map. intros i Hi. apply in_seq in Hi. apply safe_bind; [apply safe_at; lia|]. intros lo _.
    apply safe_bind; [apply safe_at; lia|]. intros hi _. apply safe_bind; [apply SX; auto|]. intros v _. cbv zeta.
    apply safe_bind; [apply safe_at; lia|]. intros; apply safe_ok.
  Qed.
  Lemma safe_base f d : (forall E, safe (f E)) ->
    (b_analysis d = Binned_Poisson -> (b_bins d < Z.of_nat (length (b_bin_energies d)))%Z /\ (b_bins d <= Z.of_nat (length (b_efficiencies d)))%Z) ->
    safe (DM_Signals_Total_Base (x_Integrate X) (x_Interpolate X) f d) /\ safe (DM_Signals_Binned_Base (x_Integrate X) f d).
  Proof.
    intros Hf H. assert (B : safe (DM_Signals_Binned_Base (x_Integrate X) f d)).
    { unfold DM_Signals_Binned_Base. destruct (b_analysis d) eqn:A; try discriminate. destruct (H eq_refl). destruct (b_using_bins d); [|discriminate].
      apply safe_energy_bins; auto. }
    split; auto. unfold DM_Signals_Total_Base.
    destruct (b_analysis d); try (apply safe_bind; [exact B|intros; apply safe_ok]);
      (cbv zeta; apply safe_bind; [apply safe_map; auto|]; intros v _; apply safe_bind; [apply SX|]; intros; apply safe_ok).
  Qed.

  (** ** Crystals *)
  Lemma safe_crystal_term Ee c qi : safe (Crystal_term (x_Integrate X) Ee DM D c qi).
  Proof.
    unfold Crystal_term. cbv zeta. destruct (xlt _ _); [apply safe_ok|]. destruct (_ && _)%bool.
    - apply safe_bind; [apply SD|]. intros. apply safe_bind; [apply SP|]. intros; apply safe_ok.
    - apply safe_bind; [|intros; apply safe_ok]. apply SX. intros v. apply safe_bind; [apply safe_flux|]. intros.
      apply safe_bind; [apply SP|]. intros; apply safe_ok.
  Qed.
  Lemma safe_crystal Ee c : safe (dRdEe_Crystal (x_Integrate X) Ee DM D c).
  Proof.
    unfold dRdEe_Crystal. destruct (xlt _ _); [apply safe_ok|]. cbv zeta.
    apply safe_bind; [apply safe_sum; intros; apply safe_crystal_term|]. intros; apply safe_ok.
  Qed.
  Lemma safe_Q_loop Emax c l : forall s, safe (R_Q_loop (x_Integrate X) Emax DM D c s l).
  Proof.
    induction l as [|i l IH]; intros s; cbn [R_Q_loop]; [apply safe_ok|]. cbv zeta. destruct (xlt _ _); [apply safe_ok|].
    apply safe_bind; [apply safe_crystal|]. intros; apply IH.
  Qed.
  Lemma safe_total_loop c l : forall s, safe (R_total_loop (x_Integrate X) DM D c s l).
  Proof.
    induction l as [|i l IH]; intros s; cbn [R_total_loop]; [apply safe_ok|]. cbv zeta.
    apply safe_bind; [apply safe_crystal|]. intros; apply IH.
  Qed.

  (** ** Ionization *)
  (** A shell whose response table may be consulted by the particle, and whose momenta give numbers of quanta that fit an int. *)
  Definition safe_shell (w : xr) (s : Atomic_Electron) : Prop :=
    (forall q E v, safe (dm_d2Sigma_Ionization DM q E v s)) /\
    (forall q E, safe (ionization_value (x_I2 X) s q E)) /\
    (forall k, In k (k_Grid s) -> forall ne, safe (PDF_ne (x_PMF_Binomial X) ne (k * k / Fin 2.0 / Fin mElectron)%xr w (s32 (number_of_secondary_electrons s)))).
  Lemma safe_ER Ee m s : (forall q E v, safe (dm_d2Sigma_Ionization DM q E v s)) -> safe (dRdEe_ER_shell (x_Integrate X) Ee DM D m s).
  Proof.
    intros HS.
    unfold dRdEe_ER_shell. cbv zeta. destruct (ER_window DM D s) as [[qMin qMax]|]; [|apply safe_ok].
    apply safe_bind; [apply safe_at; unfold Log_Space; rewrite map_length, seq_length; lia|]. intros q1 _.
    apply safe_bind; [apply safe_at; unfold Log_Space; rewrite map_length, seq_length; lia|]. intros q0 _.
    apply safe_bind; [|intros; apply safe_ok]. apply safe_sum. intros q _. unfold ER_term. cbv zeta. destruct (xlt _ _); [|apply safe_ok].
    destruct (_ && _)%bool.
    - apply safe_bind; [apply HS|]. intros. apply safe_bind; [apply SD|]. intros; apply safe_ok.
    - apply safe_bind; [|intros; apply safe_ok]. apply SX. intros v. apply safe_bind; [apply safe_flux|]. intros.
      apply safe_bind; [apply HS|]. intros; apply safe_ok.
  Qed.
  Lemma safe_Migdal Ee n s : (forall q E, safe (ionization_value (x_I2 X) s q E)) -> safe (dRdEe_Migdal_nucleus (x_Integrate X) (x_I2 X) Ee DM D n s).
  Proof.
    intros HS. assert (HM : forall ER v t, safe (dm_d2Sigma_Migdal (x_I2 X) DM ER Ee v t s)).
    { intros. unfold dm_d2Sigma_Migdal. cbv zeta. apply safe_bind; [apply safe_dER|]. intros. apply safe_bind; [apply HS|]. intros; apply safe_ok. }
    unfold dRdEe_Migdal_nucleus. apply safe_sum. intros t _. apply safe_bind; [|intros; apply safe_ok].
    unfold dRdEe_Migdal_isotope. cbv zeta. destruct (Migdal_window DM D t s) as [a b]. apply safe_bind; [|intros; apply safe_ok].
    apply SX. intros ER. unfold Migdal_integrand. cbv zeta. destruct (xle _ _); [apply safe_ok|]. destruct (_ && _)%bool.
    - apply safe_bind; [apply SD|]. intros. apply safe_bind; [apply HM|]. intros; apply safe_ok.
    - apply SX. intros v. apply safe_bind; [apply safe_flux|]. intros. apply safe_bind; [apply HM|]. intros; apply safe_ok.
  Qed.
  Lemma safe_ion_shell st E n sh w : safe_shell w sh -> safe (Ionization_dRdE_shell X DM D st E n sh).
  Proof.
    intros (H1 & H & _). unfold Ionization_dRdE_shell. apply safe_bind; [|intros; apply safe_ok].
    destruct (i_channel st); [apply safe_ER; auto|apply safe_Migdal; auto].
  Qed.
  Definition safe_atoms (st : ionization) : Prop :=
    (length (i_atoms st) <= length (i_fractions st))%nat /\ forall a, In a (i_atoms st) -> forall sh, In sh (electrons a) -> safe_shell (W a) sh.
  Lemma safe_weighted st f : safe_atoms st -> (forall a, In a (i_atoms st) -> safe (f a)) -> safe (weighted st f).
  Proof.
    intros [HL _] Hf. unfold weighted. apply safe_sum. intros i Hi. apply in_seq in Hi. apply safe_bind; [apply safe_at; lia|]. intros a Ha.
    apply safe_bind; [apply safe_at; lia|]. intros w _. apply safe_bind; [apply Hf; eapply at_ub_In; eauto|]. intros; apply safe_ok.
  Qed.
  Lemma safe_ion_dRdE st E : safe_atoms st -> safe (Ionization_dRdE X DM D st E).
  Proof.
    intros H. apply safe_weighted; auto. intros a Ha. unfold Ionization_dRdE_atom. apply safe_sum. intros sh Hs.
    apply (safe_ion_shell _ _ _ _ (W a)). apply H; auto.
  Qed.
  Lemma safe_R_ne st ne : safe_atoms st -> safe (R_ne X DM D st ne).
  Proof.
    intros H. apply safe_weighted; auto. intros a Ha. unfold R_ne_atom. apply safe_sum. intros sh Hs.
    unfold R_ne_shell. apply safe_sum. intros k Hk. cbv zeta. apply safe_bind; [apply (proj2 H a Ha sh Hs); auto|]. intros p _.
    apply safe_bind; [apply (safe_ion_shell _ _ _ _ (W a)); apply H; auto|]. intros; apply safe_ok.
  Qed.
End Safe.

(** * All histories of a nuclear detector *)
Lemma last_such_In {A : Type} (p : A -> bool) l u : last_such p l = Some u -> In u l.
Proof. intros H. apply find_some in H. destruct H as [H _]. apply in_rev in H. exact H. Qed.
Lemma nuclear_material n0 ops : forall n, nuclear_run n0 ops = Ok n -> n_targets n = n_targets n0 /\ n_fractions n = n_fractions n0.
Proof.
  induction ops as [|o ops IH] using rev_ind; intros n R; [apply Ok_inj in R; subst; auto|].
  rewrite nuclear_run_app in R. destruct (nuclear_run n0 ops) as [m| | |] eqn:E; try discriminate. cbn [bind] in R. destruct (IH m eq_refl) as [<- <-].
  destruct o as [o|r|rows dim|files dim]; cbn [nuclear_step] in R.
  - destruct (base_step (n_base m) o); try discriminate. apply Ok_inj in R; subst; auto.
  - apply Ok_inj in R; subst; auto.
  - apply Ok_inj in R; subst; auto.
  - apply Ok_inj in R; subst. unfold Import_Efficiency_Files.
    assert (G : forall l n, n_targets (fold_left (fun n rows => Import_Efficiency_File rows dim n) l n) = n_targets n /\
                            n_fractions (fold_left (fun n rows => Import_Efficiency_File rows dim n) l n) = n_fractions n).
    { clear. induction l; intros n; cbn [fold_left]; [auto|]. destruct (IHl (Import_Efficiency_File a dim n)) as [-> ->]. auto. }
    match goal with |- n_targets (fold_left _ _ ?x) = _ /\ _ => destruct (G files x) as [-> ->] end. auto.
Qed.
Lemma nuclear_no_use n0 ops : forall n, nuclear_run n0 ops = Ok n -> last_such nuclear_use ops = None -> b_analysis (n_base n) = b_analysis (n_base n0).
Proof.
  induction ops as [|o ops IH] using rev_ind; intros n R L; [apply Ok_inj in R; subst; auto|].
  rewrite nuclear_run_app in R. destruct (nuclear_run n0 ops) as [m| | |] eqn:E; try discriminate. cbn [bind] in R.
  rewrite last_such_app in L. destruct (nuclear_use o) eqn:U; [discriminate|].
  destruct (nuclear_keep _ _ _ U R) as [K _]. rewrite K. apply IH; auto.
Qed.
Lemma ctor_fractions nuclei abund f : relative_fractions nuclei abund = Ok f -> abund = [] \/ (length nuclei <= length abund)%nat -> (length nuclei <= length f)%nat.
Proof.
  unfold relative_fractions. cbv zeta. intros H HL. destruct abund as [|a l]; [apply Ok_inj in H; subst; rewrite !map_length; auto|].
  destruct HL as [HL | HL]; [discriminate|]. destruct (xlt _ _).
  - destruct (map_res _ _) as [ms| | |] eqn:E; try discriminate. cbn [bind] in H. apply Ok_inj in H. subst.
    rewrite map_length. apply map_res_length in E. rewrite E, seq_length. auto.
  - apply Ok_inj in H. subst. auto.
Qed.
(** The number of bins an int argument asks for is not negative. *)
Definition sensible_bins (o : base_op) : Prop := match o with BBins _ _ n => (0 <= n < 2 ^ 31)%Z | _ => True end.
Lemma edges_length lo hi n : (0 <= n < 2 ^ 31)%Z -> Z.of_nat (length (Linear_Space lo hi (Z.to_nat (u32 (u32 n + 1))))) = (n + 1)%Z.
Proof.
  intros H. unfold Linear_Space. rewrite map_length, seq_length. unfold u32. rewrite (Z.mod_small n) by lia. rewrite Z.mod_small by lia. lia.
Qed.

Lemma nuclear_safe label expo nuclei abund n0 ops n : Nuclear_ctor label expo nuclei abund = Ok n0 -> (abund = [] \/ (length nuclei <= length abund)%nat) ->
  nuclear_run n0 ops = Ok n -> Forall nuclear_args ops -> (forall o, In (NBase o) ops -> sensible_bins o) ->
  forall X DM D, safe_externals X -> safe_particle DM -> safe_halo D ->
  safe (Nuclear_Total X DM D n) /\ safe (Nuclear_Binned X DM D n) /\ forall E, safe (Nuclear_dRdE X DM D n E).
Proof.
  intros C HA R AR HB X DM D SX SP SD.
  unfold Nuclear_ctor in C. destruct (relative_fractions nuclei abund) as [f| | |] eqn:RF; try discriminate. cbn [bind] in C. apply Ok_inj in C. subst n0.
  destruct (nuclear_material _ _ _ R) as [M1 M2]. cbn [n_targets n_fractions] in M1, M2.
  assert (HL : (length (n_targets n) <= length (n_fractions n))%nat) by (rewrite M1, M2; apply (ctor_fractions _ abund); auto).
  assert (Hf : forall E, safe (Nuclear_dRdE X DM D n E)) by (intros; apply safe_nuclear_dRdE; auto).
  assert (G : safe (Nuclear_Total X DM D n) /\ safe (Nuclear_Binned X DM D n)); [|tauto].
  apply safe_base; auto. intros A.
  assert (T : tables_match (n_base n)). { eapply (nuclear_tables label expo nuclei abund); [|exact AR|exact R]. unfold Nuclear_ctor. rewrite RF. reflexivity. }
  destruct (T A) as (_ & _ & _ & T4).
  destruct (last_such nuclear_use ops) as [u|] eqn:L.
  - assert (U : nuclear_use u = true) by (apply find_some in L; tauto). destruct u as [u| | |]; try discriminate.
    assert (S := nuclear_shows _ _ _ _ R L). assert (S' := HB u (last_such_In _ _ _ L)). destruct u; try discriminate; cbn [base_shows sensible_bins] in *.
    + destruct S as [S _]. congruence.
    + destruct S as [S _]. congruence.
    + destruct S as (_ & S2 & _ & _ & _ & S6 & _). rewrite S6, edges_length by auto. rewrite T4, S2. unfold u32. rewrite Z.mod_small by lia. lia.
  - rewrite (nuclear_no_use _ _ _ R L) in A. discriminate.
Qed.

(** * All histories of an ionization detector *)
Definition is_PE_bins (o : ionization_op) : bool := match o with IPE_Bins _ _ _ => true | _ => false end.
(** The largest unsigned number is not requested as the highest electron number. *)
Definition sensible_electrons (o : ionization_op) : Prop :=
  match o with IElectron_Threshold _ hi => hi <> (2 ^ 32 - 1)%Z | IElectron_Bins lo n => u32 (lo + n - 1) <> (2 ^ 32 - 1)%Z | _ => True end.
Lemma ionization_fixed_step s o s' : ionization_step s o = Ok s' -> sensible_electrons o -> is_PE_bins o = false ->
  i_atoms s' = i_atoms s /\ i_fractions s' = i_fractions s /\ (i_ne_max s <> (2 ^ 32 - 1)%Z -> i_ne_max s' <> (2 ^ 32 - 1)%Z) /\
  i_using_S2_bins s' = i_using_S2_bins s.
Proof.
  intros H HS HP. destruct o as [o|lo hi|lo n|mu sigma lo hi|l|l|mu sigma l]; cbn [ionization_step sensible_electrons is_PE_bins] in *; try discriminate.
  - destruct (base_step (i_base s) o); try discriminate. apply Ok_inj in H; subst. auto.
  - unfold Use_Electron_Threshold in H. destruct (_ <? _)%Z eqn:E in H; try discriminate. apply Ok_inj in H. subst. cbn [i_atoms i_fractions i_ne_max i_using_S2_bins with_ne with_i_base with_i_flags].
    repeat split. intros _. destruct (_ && _)%bool; [auto|discriminate].
  - unfold Use_Electron_Bins in H. destruct (Initialize_Binned_Poisson n (i_base s)) as [d| | |] eqn:I; try discriminate. cbn [bind] in H.
    destruct (_ <? _)%Z eqn:E in H; try discriminate. apply Ok_inj in H. subst. cbn [i_atoms i_fractions i_ne_max i_using_S2_bins with_ne with_i_base with_i_flags]. auto.
  - unfold Use_PE_Threshold in H. destruct (_ <? _)%Z eqn:E in H; try discriminate. apply Ok_inj in H. subst. auto.
  - unfold Import_Trigger_Efficiency_PE in H. destruct (_ && _)%bool in H; try discriminate. apply Ok_inj in H; subst. auto.
  - unfold Import_Acceptance_Efficiency_PE in H. destruct (_ && _)%bool in H; try discriminate. apply Ok_inj in H; subst. auto.
Qed.
Lemma ionization_fixed s0 ops : forall s, ionization_run s0 ops = Ok s -> Forall sensible_electrons ops -> never is_PE_bins ops ->
  i_atoms s = i_atoms s0 /\ i_fractions s = i_fractions s0 /\ (i_ne_max s0 <> (2 ^ 32 - 1)%Z -> i_ne_max s <> (2 ^ 32 - 1)%Z) /\
  i_using_S2_bins s = i_using_S2_bins s0.
Proof.
  induction ops as [|o ops IH] using rev_ind; intros s R F N; [apply Ok_inj in R; subst; auto|].
  rewrite ionization_run_app in R. destruct (ionization_run s0 ops) as [m| | |] eqn:E; try discriminate. cbn [bind] in R.
  apply Forall_app in F. destruct F as [F1 F2]. inversion F2 as [|? ? F3 _]; subst. apply never_snoc in N. destruct N as [N1 N2].
  destruct (IH m eq_refl F1 N1) as (I1 & I2 & I3 & I4). destruct (ionization_fixed_step _ _ _ R F3 N2) as (J1 & J2 & J3 & J4).
  repeat split; [congruence|congruence|auto|congruence].
Qed.
Lemma ionization_no_use s0 ops : forall s, ionization_run s0 ops = Ok s -> last_such ionization_use ops = None -> b_analysis (i_base s) = b_analysis (i_base s0).
Proof.
  induction ops as [|o ops IH] using rev_ind; intros s R L; [apply Ok_inj in R; subst; auto|].
  rewrite ionization_run_app in R. destruct (ionization_run s0 ops) as [m| | |] eqn:E; try discriminate. cbn [bind] in R.
  rewrite last_such_app in L. destruct (ionization_use o) eqn:U; [discriminate|]. rewrite <- (IH m eq_refl L).
  destruct o as [o|lo hi|lo n|mu sigma lo hi|l|l|mu sigma l]; try discriminate; cbn [ionization_step] in R.
  - destruct (base_step (i_base m) o) as [d| | |] eqn:B; try discriminate. apply Ok_inj in R; subst. apply (base_other _ _ _ U B).
  - unfold Import_Trigger_Efficiency_PE in R. destruct (_ && _)%bool in R; try discriminate. apply Ok_inj in R; subst. auto.
  - unfold Import_Acceptance_Efficiency_PE in R. destruct (_ && _)%bool in R; try discriminate. apply Ok_inj in R; subst. auto.
Qed.
Lemma never_In {A : Type} (p : A -> bool) l o : never p l -> In o l -> p o = false.
Proof. unfold never. rewrite forallb_forall. intros H HI. apply H in HI. destruct (p o); [discriminate|auto]. Qed.

Definition safe_material (X : externals) (DM : DM_interface) (atoms : list Atom) (fractions : list xr) : Prop :=
  (length atoms <= length fractions)%nat /\ forall a, In a atoms -> forall sh, In sh (electrons a) -> safe_shell X DM (W a) sh.

Lemma safe_threshold_terms X DM D st : safe_externals X -> safe_particle DM -> safe_halo D -> safe_atoms X DM st -> 
  safe (map_res (fun i => let* a := at_ub (i_atoms st) i in let* w := at_ub (i_fractions st) i in
          map_res (threshold_term X DM D st w (at_nucleus a)) (electrons a)) (seq 0 (length (i_atoms st)))).
Proof.
  intros SX SP SD [HL HA]. apply safe_map. intros i Hi. apply in_seq in Hi. apply safe_bind; [apply safe_at; lia|]. intros a Ha.
  apply safe_bind; [apply safe_at; lia|]. intros w _. apply safe_map. intros sh Hs. unfold threshold_term. cbv zeta. destruct (xlt _ _); [|apply safe_ok].
  apply safe_bind; [|intros; apply safe_ok]. apply SX. intros E. apply safe_bind; [|intros; apply safe_ok].
  apply (safe_ion_shell X DM D SX SP SD _ _ _ _ (W a)). apply HA; auto. eapply at_ub_In; eauto.
Qed.

Lemma ionization_safe ch label expo atoms fractions ops s X DM : safe_material X DM atoms fractions ->
  ionization_run (Ionization_start ch label expo atoms fractions) ops = Ok s -> Forall ionization_args ops -> (forall o, In (IBase o) ops -> sensible_bins o) ->
  Forall sensible_electrons ops -> never is_PE_threshold ops -> never is_PE_bins ops -> never (on_base is_energy_bins) ops \/ never is_electron_bins ops ->
  forall D, safe_externals X -> safe_particle DM -> safe_halo D ->
  safe (Ionization_Total X DM D s) /\ safe (Ionization_Binned X DM D s) /\ forall E, safe (Ionization_dRdE X DM D s E).
Proof.
  intros SM R AR HB HE NP NB NE D SX SP SD.
  destruct (ionization_fixed _ _ _ R HE NB) as (M1 & M2 & M3 & M4). cbn in M1, M2, M3, M4.
  assert (SA : safe_atoms X DM s) by (unfold safe_atoms; rewrite M1, M2; exact SM).
  assert (Hf : forall E, safe (Ionization_dRdE X DM D s E)) by (intros; apply safe_ion_dRdE; auto).
  assert (Hn : forall ne, safe (R_ne X DM D s ne)) by (intros; apply safe_R_ne; auto).
  destruct (ionization_flags_run _ _ _ _ _ _ _ R) as (F1 & F2 & F3 & F4 & F5). specialize (F5 NP).
  assert (HBin : safe (Ionization_Binned X DM D s)).
  { unfold Ionization_Binned. destruct (b_analysis (i_base s)) eqn:A; try discriminate.
    assert (T : tables_match (i_base s)) by (eapply ionization_tables; eauto). destruct (T A) as (_ & _ & _ & T4).
    rewrite M4. destruct (b_using_bins (i_base s)) eqn:UB_.
    - assert (NE' : never is_electron_bins ops) by (destruct NE as [NE | NE]; [apply F2 in NE; congruence|auto]).
      apply safe_energy_bins; auto; [|lia].
      destruct (last_such ionization_use ops) as [u|] eqn:L.
      + assert (U : ionization_use u = true) by (apply find_some in L; tauto). assert (IU := last_such_In _ _ _ L).
        assert (S := ionization_shows_run _ _ _ _ R L). destruct u as [u|lo hi|lo n|mu sigma lo hi|l|l|mu sigma l]; try discriminate; cbn [ionization_shows] in S.
        * assert (S' := HB u IU). destruct u; try discriminate; cbn [base_shows sensible_bins] in *.
          -- destruct S as [S _]. congruence.
          -- destruct S as [S _]. congruence.
          -- destruct S as (_ & S2 & _ & _ & _ & S6 & _). rewrite S6, edges_length by auto. rewrite S2. unfold u32. rewrite Z.mod_small by lia. lia.
        * destruct S as [S _]. congruence.
        * apply (never_In _ _ _ NE') in IU. discriminate.
        * destruct S as [S _]. congruence.
        * apply (never_In _ _ _ NB) in IU. discriminate.
      + rewrite (ionization_no_use _ _ _ R L) in A. discriminate.
    - destruct (i_using_ne_bins s) eqn:UN; [|discriminate]. unfold DM_Signals_Electron_Bins. rewrite UN. cbn [negb].
      apply safe_map. intros i Hi. apply in_seq in Hi. cbv zeta. apply safe_bind; [apply Hn|]. intros r _. apply safe_bind; [apply safe_at; lia|]. intros; apply safe_ok. }
  split; [|auto]. unfold Ionization_Total. destruct (b_analysis (i_base s)) eqn:A; [|apply safe_bind; [exact HBin|intros; apply safe_ok]|].
  all: destruct (i_using_ne_threshold s) eqn:UN; [destruct (Z.eqb_spec (i_ne_max s) (2 ^ 32 - 1)); [exfalso; revert M3; lia|];
         apply safe_sum; intros ne _; apply safe_bind; [apply Hn|intros; apply safe_ok]|].
  all: destruct (b_using_threshold (i_base s)); [apply safe_bind; [apply safe_threshold_terms; auto|intros; apply safe_ok]|rewrite F5; apply safe_ok].
Qed.

(** * All histories of a crystal detector *)
Definition moderate_pairs (o : semiconductor_op) : Prop :=
  match o with CQ_Threshold Q => (1 <= Q <= 10 ^ 6)%Z | CQ_Bins Q n => Q = 1%Z /\ (0 <= n <= 10 ^ 6)%Z | CBase o => sensible_bins o end.
Definition is_Q_bins (o : semiconductor_op) : bool := match o with CQ_Bins _ _ => true | _ => false end.

Lemma s32_small z : (0 <= z < 2 ^ 31)%Z -> s32 z = z.
Proof. intros H. unfold s32. rewrite Z.mod_small by lia. lia. Qed.

Lemma crystal_facts Import_List target c : Crystal_ctor Import_List target = Ok c ->
  exists gap eps b, real_crystal c gap eps (0.1 * eV) (500 * (0.1 * eV)) (0.02 * aEM * mElectron) b /\ gap <= 1.11 * eV /\ eps <= 3.6 * eV /\ (0 <= Q_max c <= 100)%Z.
Proof.
  intros H. destruct (largest_pairs _ _ _ H) as [_ (gap & eps & B)].
  destruct (Import_List ("data/Semiconductors/C." ++ target ++ "137.dat")%string) as [aux| | |] eqn:E.
  2,3,4: exfalso; unfold Crystal_ctor in H; destruct (crystal_constants target) as [[[[? ?] ?] ?]| | |]; try discriminate; cbn [bind] in H;
    destruct (to_unsigned _); try discriminate; cbn [bind] in H; rewrite E in H; discriminate.
  destruct (crystal_ctor_ok Import_List target gap eps (Q_max c) aux B E) as [K1 K2].
  destruct (Z_lt_le_dec (Z.of_nat (length aux)) (900 * 500)) as [L | L]; [rewrite (K2 L) in H; discriminate|].
  destruct (K1 L) as (c' & C1 & C2 & _). rewrite C1 in H. apply Ok_inj in H. subst c'.
  exists gap, eps, (900 * (0.02 * aEM * mElectron)). assert (he := eV_pos). split; [exact C2|].
  destruct B as [(_ & -> & -> & ->) | (_ & -> & -> & ->)]; repeat split; try lra; lia.
Qed.
Lemma safe_start c gap eps b Q : real_crystal c gap eps (0.1 * eV) (500 * (0.1 * eV)) (0.02 * aEM * mElectron) b -> gap <= 1.11 * eV -> eps <= 3.6 * eV ->
  (1 <= Q <= 10 ^ 6 + 1)%Z -> safe (to_int (Minimum_Electron_Energy Q c / dE c)%xr).
Proof.
  intros HC Hg He HQ. assert (he := eV_pos). assert (HC' := HC). destruct HC' as (_ & _ & _ & _ & _ & _ & G1 & G2 & _).
  assert (B : 1 <= IZR Q <= 1000001) by (split; apply IZR_le; lia).
  assert (E1 : 0 <= Emin_R gap eps Q). { unfold Emin_R. assert (0 <= eps * (IZR Q - 1)) by (apply Rmult_le_pos; lra). lra. }
  assert (E2 : Emin_R gap eps Q <= (1.11 + 3.6 * 1000000) * eV).
  { unfold Emin_R. assert (eps * (IZR Q - 1) <= 3.6 * eV * 1000000) by (apply Rmult_le_compat; lra). lra. }
  assert (E3 : 0 <= Emin_R gap eps Q / (0.1 * eV) <= 36000012).
  { split; [apply Rdiv_le_0_compat; lra|]. apply (Rmult_le_reg_r (0.1 * eV)); [lra|]. unfold Rdiv. rewrite Rmult_assoc, Rinv_l by lra. lra. }
  rewrite (start_index c gap eps (0.1 * eV) (500 * (0.1 * eV)) (0.02 * aEM * mElectron) b Q HC); [|lia|lra].
  rewrite Rtrunc_nonneg by lra. destruct (Rfloor_bounds (Emin_R gap eps Q / (0.1 * eV))) as [_ F].
  destruct (_ <=? _)%Z eqn:C; [apply safe_ok|]. apply Z.leb_gt in C. assert (Rfloor (Emin_R gap eps Q / (0.1 * eV)) + 1 <= 0)%Z by lia.
  apply IZR_le in H. rewrite plus_IZR in H. lra.
Qed.

Lemma semiconductor_inv s0 ops : forall s, semiconductor_run s0 ops = Ok s -> Forall moderate_pairs ops -> (0 <= Q_max (c_crystal s0) <= 100)%Z ->
  (forall Q, c_Q_threshold s0 = Some Q -> (1 <= Q <= 10 ^ 6)%Z) ->
  (c_using_Q_threshold s0 = Some true -> c_Q_threshold s0 <> None) -> (c_using_Q_bins s0 = Some true -> c_Q_threshold s0 <> None) ->
  c_crystal s = c_crystal s0 /\ (forall Q, c_Q_threshold s = Some Q -> (1 <= Q <= 10 ^ 6)%Z) /\
  (c_using_Q_threshold s = Some true -> c_Q_threshold s <> None) /\ (c_using_Q_bins s = Some true -> c_Q_threshold s <> None).
Proof.
  induction ops as [|o ops IH] using rev_ind; intros s R F HQ H1 H2 H3; [apply Ok_inj in R; subst; auto|].
  rewrite semiconductor_run_app in R. destruct (semiconductor_run s0 ops) as [m| | |] eqn:E; try discriminate. cbn [bind] in R.
  apply Forall_app in F. destruct F as [F1 F2]. inversion F2 as [|? ? F3 _]; subst.
  destruct (IH m eq_refl F1 HQ H1 H2 H3) as (I1 & I2 & I3 & I4). destruct o as [o|Q|Q n]; cbn [semiconductor_step moderate_pairs] in *.
  - destruct (base_step (c_base m) o); try discriminate. apply Ok_inj in R; subst. auto.
  - apply Ok_inj in R. subst. cbn. split; [auto|]. split; [intros ? K; injection K as <-; lia|]. split; intros _; discriminate.
  - unfold Use_Q_Bins in R. destruct (Initialize_Binned_Poisson _ (c_base m)) as [d| | |] eqn:I; try discriminate. cbn [bind] in R.
    apply Ok_inj in R. subst. destruct F3 as [-> F3]. cbn. split; [auto|]. split; [intros ? K; injection K as <-; lia|]. split; intros _; discriminate.
Qed.

Lemma semiconductor_safe Import_List label expo crys s0 ops s u : Semiconductor_ctor Import_List label expo crys = Ok s0 ->
  semiconductor_run s0 ops = Ok s -> Forall semiconductor_args ops -> Forall moderate_pairs ops -> last_such semiconductor_use ops = Some u ->
  never (on_base_c is_energy_bins) ops \/ never is_Q_bins ops ->
  Q_not_overridden u ops ->
  forall X DM D, safe_externals X -> safe_particle DM -> safe_halo D ->
  safe (Semiconductor_Total X DM D s) /\ safe (Semiconductor_Binned X DM D s) /\ forall E, safe (Semiconductor_dRdE X DM D s E).
Proof.
  intros C R AR MP L NE NO X DM D SX SP SD.
  assert (T : tables_match (c_base s)) by (eapply semiconductor_tables; eauto).
  unfold Semiconductor_ctor in C. destruct (Crystal_ctor Import_List crys) as [c| | |] eqn:CC; try discriminate. cbn [bind] in C. apply Ok_inj in C. subst s0.
  destruct (crystal_facts _ _ _ CC) as (gap & eps & b & HC & Hg & He & HQ).
  assert (INV := semiconductor_inv _ _ _ R MP HQ). cbn [c_Q_threshold c_using_Q_threshold c_using_Q_bins c_crystal] in INV.
  destruct INV as (I1 & I2 & I3 & I4); try discriminate.
  destruct (fun A B => semiconductor_flags_run _ _ A B _ R) as (F1 & F2); try reflexivity.
  assert (S := semiconductor_shows_run _ _ _ _ R L). assert (IU := last_such_In _ _ _ L).
  assert (Hf : forall E, safe (Semiconductor_dRdE X DM D s E)).
  { intros E. unfold Semiconductor_dRdE. apply safe_bind; [apply safe_crystal; auto|intros; apply safe_ok]. }
  assert (MU : moderate_pairs u) by (rewrite Forall_forall in MP; auto).
  assert (HB : safe (Semiconductor_Binned X DM D s)).
  { unfold Semiconductor_Binned. destruct (b_analysis (c_base s)) eqn:A; try discriminate. destruct (T A) as (T1 & _ & _ & T4).
    destruct (b_using_bins (c_base s)) eqn:UB_.
    - apply safe_energy_bins; auto; [|lia]. destruct u as [u|Q|Q n]; cbn [semiconductor_shows moderate_pairs] in *.
      + assert (U : base_use u = true) by (apply find_some in L; tauto). destruct u; try discriminate; cbn [base_shows sensible_bins] in *.
        * destruct S as [S _]. congruence.
        * destruct S as [S _]. congruence.
        * destruct S as (_ & S2 & _ & _ & _ & S6 & _). rewrite S6, edges_length by auto. rewrite S2. unfold u32. rewrite Z.mod_small by lia. lia.
      + destruct S as [S _]. congruence.
      + destruct NE as [NE | NE]; [apply F2 in NE; congruence|]. apply (never_In _ _ _ NE) in IU. discriminate.
    - destruct u as [u|Q|Q n]; cbn [semiconductor_shows moderate_pairs] in *.
      + assert (U : base_use u = true) by (apply find_some in L; tauto). destruct u; try discriminate; cbn [base_shows sensible_bins] in *.
        * destruct S as [S _]. congruence.
        * destruct S as [S _]. congruence.
        * destruct S as (_ & _ & S3 & _). congruence.
      + destruct S as [S _]. congruence.
      + destruct S as (_ & S2 & S3 & S4). destruct MU as [-> MU]. rewrite S2. cbn [read_init bind]. unfold DM_Signals_Q_Bins. rewrite S2, S3. cbn [read_init bind negb].
        assert (NB : (0 <= b_bins (c_base s) <= 10 ^ 6)%Z).
        { rewrite S4, I1. destruct (n =? 0)%Z; unfold u32; [rewrite Z.mod_small by lia; lia|]. rewrite (Z.mod_small (n + 1 - 1)) by lia. rewrite Z.mod_small by lia. lia. }
        apply safe_map. intros k Hk. apply Zrange_In in Hk. unfold u32 in Hk. rewrite Z.mod_small in Hk by lia.
        apply safe_bind; [apply safe_atZ; unfold u32; rewrite Z.mod_small by lia; lia|]. intros e _. apply safe_bind; [|intros; apply safe_ok].
        rewrite s32_small by lia. unfold R_Q_Crystal. cbv zeta. rewrite I1. apply safe_bind; [eapply safe_start; eauto; lia|]. intros st _. apply safe_Q_loop; auto. }
  split; [|auto]. unfold Semiconductor_Total. cbv zeta.
  destruct (b_analysis (c_base s)) eqn:A; [|apply safe_bind; [exact HB|intros; apply safe_ok]|].
  2:{ rewrite orb_true_r. apply safe_bind; [apply SX; auto|intros; apply safe_ok]. }
  destruct (b_using_threshold (c_base s)) eqn:UT; cbn [orb]; [apply safe_bind; [apply SX; auto|intros; apply safe_ok]|].
  destruct u as [u|Q|Q n]; cbn [semiconductor_shows moderate_pairs] in *.
  - assert (U : base_use u = true) by (apply find_some in L; tauto). destruct u; try discriminate; cbn [base_shows sensible_bins] in *.
    + destruct S as [S _]. congruence.
    + destruct S as (_ & _ & _ & S & _). congruence.
    + destruct S as [S _]. congruence.
  - destruct S as (_ & S2 & S3). rewrite S2, S3. cbn [read_init bind]. apply safe_bind; [|intros; apply safe_ok].
    rewrite s32_small by lia. unfold R_total_Crystal. cbv zeta. rewrite I1. apply safe_bind; [eapply safe_start; eauto; lia|]. intros st _. apply safe_total_loop; auto.
  - destruct S as [S _]. congruence.
Qed.

(** * Where memory is read out of bounds or before it is written *)

(** Fewer abundances than elements are accepted by the constructor, and then read past the end. *)
Lemma short_abundances : exists nuclei abund n0, Nuclear_ctor "test" (Fin 1) nuclei abund = Ok n0 /\ nuclei = [at_nucleus atom1; at_nucleus atom1] /\
  Nuclear_dRdE X1 DM1 D1 n0 (Fin 1) = UB.
Proof.
  assert (K : Nuclear_ctor "test" (Fin 1) [at_nucleus atom1; at_nucleus atom1] [Fin 1] =
              Ok (mkNuclear (Detector_ctor "test" (Fin 1) "Nuclei") [at_nucleus atom1; at_nucleus atom1] [Fin 1] (Fin 0.0) false [])).
  { unfold Nuclear_ctor, relative_fractions. cbn [xsum fold_left]. rewrite xadd_fin, xlt_false by lra. reflexivity. }
  eexists _, _, _. split; [exact K|]. split; [reflexivity|].
  unfold Nuclear_dRdE. cbn [n_resolution n_base]. rewrite xmul_fin, xlt_true by (unfold eV, GeV; lra).
  unfold Nuclear_sum. cbn [n_targets List.length seq]. unfold sum_res. cbn [map_res at_ub nth_error n_targets bind table_efficiency n_using_tables n_fractions].
  unfold dRdER_Nucleus. unfold sum_res. cbn [nisotopes at_nucleus atom1 map_res]. unfold dRdER_Isotope. cbv zeta.
  destruct (xlt _ _); [reflexivity|]. cbn [dm_use_eta d_use_eta DM1 D1 andb]. unfold dm_dSigma_dER. cbn [dm_dSigma_dq2_Nucleus DM1 bind d_eta D1]. reflexivity.
Qed.

(** Photoelectron analyses: the sum over 1 to 100 electrons reads entry 99 of a spectrum of 99 entries. *)
Lemma S2_sum_UB nPE mu sigma l : length l = 99%nat -> R_S2_aux nPE mu sigma l = UB.
Proof.
  intros HL. unfold R_S2_aux. unfold sum_res. rewrite map_res_UB; [reflexivity| |].
  - intros ne Hn. apply Zrange_In in Hn. unfold at_ubZ. destruct (ne - 1 <? 0)%Z; [left; reflexivity|].
    destruct (ne - 1 <? Z.of_nat (length l))%Z eqn:B; [|left; reflexivity]. apply Z.ltb_lt in B.
    destruct (at_ub_lt l (Z.to_nat (ne - 1))) as [x [-> _]]; [lia|]. right. eexists; reflexivity.
  - exists 100%Z. split; [apply Zrange_In; lia|]. unfold at_ubZ. rewrite HL. reflexivity.
Qed.
Lemma spectrum_length {B : Type} (f : Z -> res B) l : map_res f (Zrange 1 100) = Ok l -> length l = 99%nat.
Proof. intros H. apply map_res_length in H. rewrite H. unfold Zrange. rewrite map_length, seq_length. reflexivity. Qed.
Lemma not_ok_bind {A B : Type} (m : res A) (k : A -> res B) v : (forall a, k a <> Ok v) -> bind m k <> Ok v.
Proof. destruct m; cbn; auto; discriminate. Qed.
Lemma S2_loop_not_ok X DM D s lo hi l v : length l = 99%nat -> (lo <= hi)%Z -> R_S2_Bin X DM D s lo hi l <> Ok v.
Proof.
  intros HL HR. unfold R_S2_Bin. destruct l as [|x l]; [discriminate|]. cbn [bind]. destruct (_ =? _)%Z; [discriminate|].
  destruct (Zrange_head lo (hi + 1)) as [t ->]; [lia|]. unfold sum_res. cbn [map_res]. unfold R_S2. cbn [bind]. rewrite S2_sum_UB by exact HL.
  destruct (PE_efficiency s lo); discriminate.
Qed.
Lemma S2_Bin_empty X DM D s lo hi : R_S2_Bin X DM D s lo hi [] = (let* l := map_res (R_ne X DM D s) (Zrange 1 100) in R_S2_Bin X DM D s lo hi l).
Proof.
  unfold R_S2_Bin at 1. destruct (map_res _ _) as [l| | |] eqn:E; try reflexivity. cbn [bind]. apply spectrum_length in E.
  destruct l; [discriminate|]. reflexivity.
Qed.
Lemma PE_threshold_never s0 ops s mu sigma lo hi : ionization_run s0 ops = Ok s -> last_such ionization_use ops = Some (IPE_Threshold mu sigma lo hi) ->
  forall X DM D v, Ionization_Total X DM D s <> Ok v.
Proof.
  intros R L X DM D v. assert (S := ionization_shows_run _ _ _ _ R L). cbn [ionization_shows] in S. destruct S as (A & U1 & U2 & U3 & P1 & P2 & _ & _ & HR).
  apply Z.ltb_ge in HR. unfold Ionization_Total. rewrite A, U1, U2, U3, P1, P2, S2_Bin_empty.
  destruct (map_res _ _) as [l| | |] eqn:E; try discriminate. cbn [bind]. apply spectrum_length in E.
  destruct (R_S2_Bin X DM D s lo hi l) as [r| | |] eqn:K; try discriminate. exfalso. revert K. apply S2_loop_not_ok; auto.
Qed.
Lemma PE_threshold_UB : exists ops s, ionization_run ion1 ops = Ok s /\ Ionization_Total X1 DM1 D1 s = UB.
Proof.
  assert (R : exists s, ionization_run ion1 [IPE_Threshold (Fin 27) (Fin 6.7) 80 3000] = Ok s /\ i_channel s = Electron_Recoil /\ i_atoms s = [atom1] /\
    i_fractions s = [Fin 1] /\ b_flat_efficiency (i_base s) = Fin 1.0 /\ i_trigger s = [] /\ i_acceptance s = []).
  { eexists. split; [cbn [ionization_run ionization_step]; unfold Use_PE_Threshold; cbn [i_PE_max i_PE_threshold with_PE with_S2];
      change (3000 <? 80)%Z with false; cbv iota; reflexivity|]. repeat split. }
  destruct R as (s & R & E1 & E2 & E3 & E4 & E5 & E6). exists [IPE_Threshold (Fin 27) (Fin 6.7) 80 3000], s. split; [exact R|].
  assert (S := ionization_shows_run _ _ s (IPE_Threshold (Fin 27) (Fin 6.7) 80 3000) R eq_refl). cbn [ionization_shows] in S. destruct S as (A & U1 & U2 & U3 & P1 & P2 & _).
  unfold Ionization_Total. rewrite A, U1, U2, U3, P1, P2, S2_Bin_empty.
  destruct (map_res_bounds (R_ne X1 DM1 D1 s) (Zrange 1 100)) as [l [El _]].
  { intros ne Hn. apply Zrange_In in Hn. destruct (R_ne_1 s E1 E2 E3 E4 ne) as [[v [_ ->]] _]; [lia|]. eauto. }
  rewrite El. cbn [bind]. apply spectrum_length in El. unfold R_S2_Bin. destruct l as [|x l]; [discriminate|]. cbn [bind].
  change (3000 =? 2 ^ 32 - 1)%Z with false. cbv iota. destruct (Zrange_head 80 (3000 + 1)) as [t ->]; [lia|]. unfold sum_res. cbn [map_res].
  unfold PE_efficiency. rewrite E5, E6. cbn [bind]. unfold R_S2. cbn [bind]. rewrite S2_sum_UB by exact El. reflexivity.
Qed.

(** Pair number bins that do not start at one pair read past the end of the bin efficiencies. *)
Lemma Q_bins_UB : exists s0 s, Semiconductor_ctor IL0 "test" (Fin 1) "Si" = Ok s0 /\ semiconductor_run s0 [CQ_Bins 2 3] = Ok s /\ Semiconductor_Binned X1 DM1 D1 s = UB.
Proof.
  destruct silicon as (c & H1 & H2 & H3 & H4 & H5 & H6).
  assert (R : exists s, semiconductor_run (semi1 c) [CQ_Bins 2 3] = Ok s /\ c_crystal s = c /\ b_analysis (c_base s) = Binned_Poisson /\ b_using_bins (c_base s) = false /\
    b_bins (c_base s) = 3%Z /\ b_efficiencies (c_base s) = [Fin 1.0; Fin 1.0; Fin 1.0] /\ c_using_Q_bins s = Some true /\ c_Q_threshold s = Some 2%Z).
  { eexists. split; [reflexivity|]. repeat split. }
  destruct R as (s & R & E1 & E2 & E3 & E4 & E5 & E6 & E7). exists (semi1 c), s. split; [unfold Semiconductor_ctor; rewrite H1; reflexivity|]. split; [exact R|].
  unfold Semiconductor_Binned. rewrite E2, E3, E6. cbn [read_init bind]. unfold DM_Signals_Q_Bins. rewrite E6, E7, E4, E5, E1. cbn [read_init bind negb].
  change (Zrange 2 (u32 (2 + 3))) with [2; 3; 4]%Z. cbn [map_res x_Integrate X1].
  change (s32 2) with 2%Z. change (s32 3) with 3%Z. change (s32 4) with 4%Z.
  destruct (silicon_R_Q c 2 47 H2 H3 H4 H6) as [v2 V2]; [lia|lia|lra|]. destruct (silicon_R_Q c 3 83 H2 H3 H4 H6) as [v3 V3]; [lia|lia|lra|].
  rewrite V2, V3. reflexivity.
Qed.

(** A crystal detector that was never configured reads a member that no constructor sets. *)
Lemma fresh_crystal_UB : exists s0, Semiconductor_ctor IL0 "test" (Fin 1) "Si" = Ok s0 /\ forall X DM D, Semiconductor_Total X DM D s0 = UB.
Proof.
  destruct silicon as (c & H1 & _). exists (semi1 c). split; [unfold Semiconductor_ctor; rewrite H1; reflexivity|]. reflexivity.
Qed.

(** The particles of the library meet the hypotheses, as long as table lookups do not misbehave. *)
Lemma safe_form_factor s q : safe (FormFactor2_DM s q).
Proof. unfold FormFactor2_DM, safe. repeat (match goal with |- context [match ?x with _ => _ end] => destruct x end; try discriminate). Qed.
Lemma library_particle_safe (X : externals) p : (forall t x y, safe (x_I2 X t x y)) -> safe_particle (interface_of (x_I2 X) p) /\
  forall w s, (1 <= length (atomic_response_interpolations s))%nat ->
    (forall k, In k (k_Grid s) -> forall ne, safe (PDF_ne (x_PMF_Binomial X) ne (k * k / Fin 2.0 / Fin mElectron)%xr w (s32 (number_of_secondary_electrons s)))) ->
    safe_shell X (interface_of (x_I2 X) p) w s.
Proof.
  intros HI.
  assert (HE : forall q v, safe (dSigma_dq2_Electron p q v)).
  { intros q v. unfold dSigma_dq2_Electron. destruct (kind p); [|apply safe_ok]. apply safe_bind; [apply safe_form_factor|intros; apply safe_ok]. }
  split; [split|].
  - intros q t v. cbn [interface_of dm_dSigma_dq2_Nucleus]. unfold dSigma_dq2_Nucleus. destruct (kind p); [|apply safe_ok].
    apply safe_bind; [apply safe_form_factor|intros; apply safe_ok].
  - intros q E v c. cbn [interface_of dm_d2Sigma_Crystal]. apply safe_bind.
    + unfold crystal_value, Crystal_Form_Factor. apply safe_bind; [|intros; apply safe_ok]. destruct (_ || _)%bool; [apply safe_ok|]. apply safe_bind; [apply HI|intros; apply safe_ok].
    + intros f _. unfold d2Sigma_dq2_dEe_Crystal. destruct (kind p); [|apply safe_ok]. apply safe_bind; [apply HE|intros; apply safe_ok].
  - intros w s HL HP.
    assert (HV : forall q E, safe (ionization_value (x_I2 X) s q E)).
    { intros q E. unfold ionization_value, Ionization_Form_Factor, Atomic_Response_Function. apply safe_bind; [|intros; apply safe_ok]. cbv zeta.
      destruct (response_out_of_bounds _ _ _); [apply safe_ok|]. cbn [Z.eqb Pos.eqb]. apply safe_bind; [apply safe_at; lia|]. intros t _.
      destruct (xlt _ _); apply safe_bind; try apply HI; intros; apply safe_ok. }
    split; [|split; [exact HV|exact HP]]. intros q E v. cbn [interface_of dm_d2Sigma_Ionization]. apply safe_bind; [apply HV|]. intros f _.
    unfold d2Sigma_dq2_dEe_Ionization. destruct (kind p); [|apply safe_ok]. apply safe_bind; [apply HE|intros; apply safe_ok].
Qed.

(** The routines, particle, halo and atom of the witnesses. *)
Lemma safe_X1 : safe_externals X1.
Proof. repeat split; intros; try discriminate. cbn [x_PMF_Binomial X1]. unfold exact_binomial. destruct (_ && _)%bool; discriminate. Qed.
Lemma safe_DM1 : safe_particle DM1.
Proof. repeat split; intros; discriminate. Qed.
Lemma safe_D1 : safe_halo D1.
Proof. split; intros; discriminate. Qed.
Lemma safe_atom1 : safe_material X1 DM1 [atom1] [Fin 1].
Proof.
  split; [cbn; lia|]. intros a [<- | []] sh [<- | []]. split; [intros; discriminate|]. split.
  - intros q E. unfold ionization_value, Ionization_Form_Factor, Atomic_Response_Function. apply safe_bind; [|intros; apply safe_ok]. cbv zeta.
    destruct (response_out_of_bounds _ _ _); [apply safe_ok|]. cbn [Z.eqb Pos.eqb]. apply safe_bind; [apply safe_at; cbn; lia|]. intros t _.
    destruct (xlt _ _); apply safe_bind; intros; try apply safe_ok; discriminate.
  - intros k [<- | []] ne. unfold PDF_ne. cbv zeta. apply safe_bind.
    + rewrite xmul_fin, !xdiv_fin by (unfold mElectron; lra).
      replace (mElectron * mElectron / 2.0 / mElectron) with (mElectron / 2) by (replace 2.0 with 2 by lra; assert (H := mElectron_pos); field; lra).
      change (s32 (number_of_secondary_electrons shell1)) with 0%Z. cbn [W atom1]. rewrite trials1. discriminate.
    + intros t _. apply safe_X1.
Qed.
