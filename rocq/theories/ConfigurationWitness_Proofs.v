(** Concrete configurations and the claims that fail. *)
From Coq Require Import Reals ZArith String Ascii Lia Lra Bool.
From Coquelicot Require Import Coquelicot.
From Coq Require Import List.
From Verif Require Import Base XrFacts Quadrature Nucleus_Model Nuclear_Model Nuclear_Proofs Particle_Model Particle_Proofs Distribution_Model Distribution_Proofs Astronomy_Model Halo_Model
  Atom_Model Atom_Proofs Crystal_Model Crystal_Proofs Rates_Model Detector_Model DetectorTypes_Model Detector_Proofs DetectorSafety_Proofs Experiments_Model Configuration_Model Experiments_Proofs
  Configuration_Proofs ConfigurationRun_Proofs ConfigurationValues_Proofs ConfigurationFiles_Proofs.
Import ListNotations.
Local Open Scope R_scope.

(** The file bin/config.cfg of the repository. *)
Definition shipped_config : settings :=
  [("ID", SString "test"); ("DM_mass", SFloat 0.1); ("DM_spin", SFloat 0.5); ("DM_fraction", SFloat 1.0); ("DM_light", SBool false); ("DM_interaction", SString "SI");
   ("DM_isospin_conserved", SBool true); ("DM_relative_couplings", SAggregate [SFloat 1.0; SFloat 0.0]); ("DM_cross_section_nucleon", SFloat (1 / 10 ^ 36));
   ("DM_cross_section_electron", SFloat (1 / 10 ^ 36)); ("DM_form_factor", SString "Contact"); ("DM_mediator_mass", SFloat 0.0);
   ("DM_distribution", SString "SHM"); ("DM_local_density", SFloat 0.4); ("SHM_v0", SFloat 220.0); ("SHM_vObserver", SAggregate [SFloat 0.0; SFloat 232.0; SFloat 0.0]);
   ("SHM_vEscape", SFloat 544.0); ("SHMpp_eta", SFloat 0.2); ("SHMpp_beta", SFloat 0.9); ("file_path", SString "DM_Speed_PDF.txt");
   ("DD_experiment", SString "Electron recoil"); ("DD_exposure", SFloat 1.0); ("DD_efficiency", SFloat 1.0); ("DD_observed_events", SInt 0); ("DD_expected_background", SFloat 0.0);
   ("DD_targets_nuclear", SAggregate [SAggregate [SFloat 4.0; SInt 8]; SAggregate [SFloat 1.0; SInt 20]; SAggregate [SFloat 1.0; SInt 74]]);
   ("DD_threshold_nuclear", SFloat 4.0); ("DD_Emax_nuclear", SFloat 40.0); ("DD_energy_resolution", SFloat 0.0); ("DD_target_electron", SString "Xe"); ("DD_threshold_electron", SInt 4);
   ("constraints_certainty", SFloat 0.95); ("constraints_mass_min", SFloat 0.02); ("constraints_mass_max", SFloat 1.0); ("constraints_masses", SInt 10)]%string.
(** The same file with one value replaced. *)
Definition edited (name : string) (v : setting) (cfg : settings) : settings := map (fun p => if (fst p =? name)%string then (name, v) else p) cfg.

Definition F0 : data_files := mkFiles IT0 IL0 (fun _ => Ok []).
Lemma F0_readable : readable F0.
Proof.
  split; [exact IT0_readable|]. split; [intros path; exists (repeat 1 (Z.to_nat 450000)); cbn [f_list F0]; unfold IL0; generalize (Z.to_nat 450000); intros n; apply f_equal; induction n; cbn; congruence|].
  split; [intros; exists []; reflexivity|]. intros path l _ E. apply Ok_inj in E. subst l. rewrite IL0_length. lia.
Qed.
(** A machine on which every file holds the settings [cfg] and directories can be made and files opened. *)
Definition machine (cfg : settings) : environment :=
  mkEnv "/obscura/" "// obscura-v1.0.1" (fun _ => Some cfg) (fun g p => negb (fs_dir g p)) (fun _ _ => true) (fun z => Ok (z + 2 ^ 32)%Z) F0
    (fun _ _ _ => Ok (Fin 1)) (fun _ _ _ _ _ => Ok (Fin 1)) (fun _ _ => Ok (Fin 1)).
Definition disk (path : string) : filesystem := mkFs (fun _ => false) (fun p => if (p =? path)%string then Some "settings"%string else None).
Definition world0 : nuclear_world := fresh_world shipped_rows.

Lemma machine_tame cfg : tame_environment (machine cfg).
Proof. repeat split; try discriminate; try exact (proj1 F0_readable) || apply F0_readable. Qed.
Lemma machine_total cfg : total_library (machine cfg). Proof. split; intros; eexists; reflexivity. Qed.
Lemma world0_shipped : shipped_world world0.
Proof. exists shipped_rows. split; [exact shipped_well_formed|]. split; [exact shipped_full|constructor]. Qed.
Lemma machine_loaded cfg path : loaded (machine cfg) (disk path) path cfg.
Proof. exists "settings"%string. split; [cbn; rewrite String.eqb_refl; reflexivity|reflexivity]. Qed.

Definition all_keys : list (string * (setting -> Prop)) :=
  [("ID", text); ("DM_mass", number); ("DM_spin", number); ("DM_fraction", number); ("DM_light", flag); ("DM_interaction", text); ("DM_isospin_conserved", flag);
     ("DM_cross_section_nucleon", number); ("DM_cross_section_electron", number); ("DM_distribution", text); ("DM_local_density", number); ("DD_experiment", text);
     ("constraints_certainty", number); ("constraints_mass_min", number); ("constraints_mass_max", number); ("constraints_masses", whole)]%string ++
  [("SHM_v0", number); ("SHM_vObserver", triple); ("SHM_vEscape", number)]%string ++ [("SHMpp_eta", number); ("SHMpp_beta", number)]%string ++
  [("DD_exposure", number); ("DD_efficiency", number); ("DD_observed_events", whole); ("DD_expected_background", number)]%string ++
  [("DD_targets_nuclear", target_list); ("DD_threshold_nuclear", number); ("DD_Emax_nuclear", number); ("DD_energy_resolution", number)]%string ++
  [("DD_target_electron", text); ("DD_threshold_electron", whole)]%string ++
  [("DM_form_factor", text); ("DM_mediator_mass", number); ("DM_relative_couplings", pair); ("file_path", text)]%string.
Lemma all_complete cfg : Forall (fun k => exists v, value_of cfg (fst k) = Some v /\ snd k v) all_keys -> complete cfg.
Proof.
  intros H name P M. rewrite Forall_forall in H. apply (H (name, P)). clear H. unfold all_keys. rewrite !in_app_iff.
  destruct M as [name P M | C | C1 C2 | C | d0 name P C1 C2 M | name P C M | C | x1 name P C1 C2 M | name P C M | x1 name P C1 C2 M].
  - left. exact M.
  - do 6 right. left. reflexivity.
  - do 6 right. right. left. reflexivity.
  - do 6 right. do 2 right. left. reflexivity.
  - right. left. exact M.
  - do 2 right. left. exact M.
  - do 6 right. do 3 right. left. reflexivity.
  - do 3 right. left. exact M.
  - do 4 right. left. exact M.
  - do 5 right. left. exact M.
Qed.
Ltac key := eexists; split; [reflexivity|]; unfold number, flag, text, whole, triple, pair, target_list, target; cbn [snd items]; first [solve [repeat eexists] | repeat constructor; repeat eexists].
Lemma shipped_complete : complete shipped_config.
Proof. apply all_complete. unfold all_keys; cbn [app]. repeat (constructor; [cbn [fst]; key|]). constructor. Qed.
Lemma shipped_sensible : sensible (machine shipped_config) shipped_config.
Proof.
  split; [|split; [|split]].
  - split; [eexists; split; [reflexivity|left; reflexivity]|]. intros _. eexists. split; [reflexivity|]. split; [left; reflexivity|]. discriminate.
  - eexists _, _. split; [reflexivity|]. split; [reflexivity|]. left; left; reflexivity.
  - eexists. split; [reflexivity|]. right. split; [right; left; reflexivity|]. split; [eexists; split; [reflexivity|lia]|]. split; [discriminate|]. intros _. eexists _, _. split; [reflexivity|]. split; [reflexivity|].
    split; [lia|]. split; [intros _; left; reflexivity|discriminate].
  - eexists. split; [reflexivity|lia].
Qed.
Lemma shipped_accepted path rank : exists c w', snd (Configuration_ctor (machine shipped_config) (disk path) world0 path rank) = Ok (c, w').
Proof. eapply accepted; [apply machine_tame|apply machine_total|exact world0_shipped|apply machine_loaded|exact shipped_complete|exact shipped_sensible]. Qed.

(** * Opposite couplings *)
Lemma set_mass_nan s x : fixed s = true -> (fp_relative s = PInf /\ fn_relative s = NInf \/ fp_relative s = NInf /\ fn_relative s = PInf) -> fn (Set_Mass x s) = NaN.
Proof.
  intros F [(A & B) | (A & B)]; unfold Set_Mass; rewrite F, A; cbn [xne xeq negb]; cbv zeta; unfold Set_Sigma_Proton; cbn [fixed fp_relative fn_relative with_mass with_fp]; rewrite F, A; cbn [xeq]; cbn [fn with_fn fn_relative fp_relative with_mass with_fp];
    rewrite ?A, ?B; reflexivity.
Qed.
Lemma opposite_couplings cfg q spin p : Construct_DM_Particle cfg = Ok (q, spin) -> ratio_asked cfg p (- p) -> p <> 0 -> fn q = NaN.
Proof.
  intros H RA NZ. apply particle_inv in H. destruct H as (m' & sp & f & b & i & p3 & V1 & V2 & V3 & V4 & V5 & II & ST & -> & ->).
  apply standard_inv in ST; [|exact II]. destruct ST as (k & p0 & x & y & p1 & sn' & p2 & se & -> & K1 & K2 & RC & FX & V6 & S2 & V7 & ->).
  assert (XY : x = Fin p /\ y = Fin (- p)).
  { apply relative_inv in RC. destruct RC as [(B & -> & ->) | (B & p' & n' & t & C & -> & ->)]; destruct RA as [(B' & A1 & A2) | (B' & t' & C')]; try congruence; [lra|].
    rewrite C in C'. injection C' as -> -> ->. auto. }
  destruct XY as (-> & ->). cbn [fn with_low_mass with_density]. destruct (interaction_frame _ _ _ _ S2) as (_ & IR & IF & _).
  assert (IN : fn_relative p2 = fn_relative p1).
  { unfold Set_Interaction_Parameter in S2. cbn [String.eqb Ascii.eqb eqb] in S2. apply Ok_inj in S2. subst p2.
    destruct (xlt _ _); [pose proof (Set_Sigma_Proton_frame (Fin (sn' * (cm * cm))) p1) as F|pose proof (Set_Sigma_Neutron_frame (Fin (sn' * (cm * cm))) p1) as F]; cbv zeta in F; decompose [and] F; auto. }
  apply set_mass_nan; cbn [fixed fp_relative fn_relative Set_Sigma_Electron with_sigma_electron]; rewrite ?IR, ?IF, ?IN.
  - destruct (Fix_frame p0 p1) as (_ & _ & _ & _ & _ & _ & _ & _ & _ & A); eauto.
  - assert (R : fp_relative p1 = (Fin p / Fin 0)%xr /\ fn_relative p1 = (Fin (- p) / Fin 0)%xr).
    { unfold Fix_Coupling_Ratio in FX. cbv zeta in FX. rewrite xadd_fin in FX. replace (p + - p) with 0 in FX by ring.
      destruct (xeq (Fin p) _); [apply Ok_inj in FX; subst p1; split; reflexivity|]. destruct (xeq (Fin (- p)) _); [apply Ok_inj in FX; subst p1; split; reflexivity|].
      destruct (xne _ _); [apply Ok_inj in FX; subst p1; split; reflexivity|]. destruct (xne _ _); [apply Ok_inj in FX; subst p1; split; reflexivity|discriminate]. }
    destruct R as (-> & ->). unfold xdiv. destruct (Req_EM_T 0 0) as [_ | C]; [|destruct (C eq_refl)].
    destruct (Req_EM_T p 0) as [C | _]; [contradiction|]. destruct (Req_EM_T (- p) 0) as [C | _]; [lra|].
    unfold inf_sign, rpos, rneg. repeat destruct (Rlt_dec _ _); try lra; auto.
Qed.

(** * Configurations with other values *)
Ltac run_edited Sens := eapply accepted; [apply machine_tame|apply machine_total|exact world0_shipped|apply machine_loaded|apply all_complete; unfold all_keys; cbn [app]; repeat (constructor; [cbn [fst]; key|]); constructor|exact Sens].

Definition opposite_config : settings := edited "DM_isospin_conserved" (SBool false) (edited "DM_relative_couplings" (SAggregate [SFloat 1; SFloat (- (1))]) shipped_config).
Lemma opposite_sensible : sensible (machine opposite_config) opposite_config.
Proof.
  split; [|split; [|split]].
  - split; [eexists; split; [reflexivity|left; reflexivity]|]. intros _. eexists. split; [reflexivity|]. split; [left; reflexivity|]. discriminate.
  - eexists _, _. split; [reflexivity|]. split; [reflexivity|]. left; left; reflexivity.
  - eexists. split; [reflexivity|]. right. split; [right; left; reflexivity|]. split; [eexists; split; [reflexivity|lia]|]. split; [discriminate|]. intros _. eexists _, _. split; [reflexivity|]. split; [reflexivity|].
    split; [lia|]. split; [intros _; left; reflexivity|discriminate].
  - eexists. split; [reflexivity|lia].
Qed.
Lemma opposite_accepted path rank : exists c w', snd (Configuration_ctor (machine opposite_config) (disk path) world0 path rank) = Ok (c, w').
Proof. run_edited opposite_sensible. Qed.
Lemma opposite_refuted : exists E fs w path rank cfg c w' q spin m s, tame_environment E /\ shipped_world w /\ loaded E fs path cfg /\ snd (Configuration_ctor E fs w path rank) = Ok (c, w') /\
  value_of cfg "DM_mass" = Some (SFloat m) /\ 0 < m /\ value_of cfg "DM_cross_section_nucleon" = Some (SFloat s) /\ 0 < s /\ ratio_asked cfg 1 (- (1)) /\ cf_DM c = Some (q, spin) /\ ~ exists x y, couplings q x y.
Proof.
  destruct (opposite_accepted "a.cfg" 0) as (c & w' & R). assert (L := machine_loaded opposite_config "a.cfg"). assert (R' := R). rewrite (ctor_loaded _ _ _ _ _ _ L) in R'. apply bind_ok in R'. destruct R' as (ID & I & R').
  apply members_inv in R'. destruct R' as ([q spin] & o & d & a & b & c1 & k & M1 & M2 & M3 & M4 & EC).
  assert (RA : ratio_asked opposite_config 1 (- (1))) by (right; split; [reflexivity|]; exists []; reflexivity).
  exists (machine opposite_config), (disk "a.cfg"), world0, "a.cfg"%string, 0%Z, opposite_config, c, w', q, spin, 0.1, (1 / 10 ^ 36).
  split; [apply machine_tame|]. split; [exact world0_shipped|]. split; [exact L|]. split; [exact R|]. split; [reflexivity|]. split; [lra|]. split; [reflexivity|]. split; [apply Rdiv_lt_0_compat; [lra|apply pow_lt; lra]|]. split; [exact RA|]. split; [rewrite EC; reflexivity|].
  intros (x & y & _ & FN). rewrite (opposite_couplings _ _ _ 1 M1 RA) in FN; [discriminate|lra].
Qed.

(** The run stops at an unknown interaction, after the folder was made. *)
Definition wrong_config : settings := edited "DM_interaction" (SString "DP") shipped_config.
Lemma trace_refuted : exists E fs w path p, tame_environment E /\ shipped_world w /\ (forall r, fs_file fs path = Some r -> exists cfg, e_parse E r = Some cfg) /\ fs_file fs path <> None /\
  snd (Configuration_ctor E fs w path 0) = Exit /\ fs_file fs p = None /\ (exists t, fs_file (fst (Configuration_ctor E fs w path 0)) p = Some t) /\ fs_dir (fst (Configuration_ctor E fs w path 0)) (e_top E ++ "results") <> fs_dir fs (e_top E ++ "results").
Proof.
  exists (machine wrong_config), (disk "a.cfg"), world0, "a.cfg"%string, (copy_of (machine wrong_config) "test"). split; [apply machine_tame|]. split; [exact world0_shipped|].
  split; [intros r _; exists wrong_config; reflexivity|]. split; [discriminate|].
  destruct (rank_zero_done (machine wrong_config) (disk "a.cfg") world0 "a.cfg" wrong_config "test" "settings") as (A & _ & B); try reflexivity.
  split; [rewrite (ctor_loaded _ _ _ _ _ _ (machine_loaded wrong_config "a.cfg")); reflexivity|]. split; [reflexivity|]. split; [eexists; apply B; discriminate|]. rewrite A. discriminate.
Qed.

Lemma own_copy_refuted : exists E fs w path c w' t, tame_environment E /\ shipped_world w /\ fs_file fs path = Some t /\ snd (Configuration_ctor E fs w path 0) = Ok (c, w') /\
  fs_file (fst (Configuration_ctor E fs w path 0)) path <> Some t.
Proof.
  set (E := machine shipped_config). set (path := copy_of E "test"). destruct (shipped_accepted path 0) as (c & w' & R).
  exists E, (disk path), world0, path, c, w', "settings"%string. split; [apply machine_tame|]. split; [exact world0_shipped|]. split; [reflexivity|]. split; [exact R|].
  unfold path. rewrite (own_copy E _ _ shipped_config "test" "settings"); try reflexivity. discriminate.
Qed.

Definition outside_config : settings := edited "ID" (SString "../x") shipped_config.
Lemma outside_sensible : sensible (machine outside_config) outside_config.
Proof.
  split; [|split; [|split]].
  - split; [eexists; split; [reflexivity|left; reflexivity]|]. intros _. eexists. split; [reflexivity|]. split; [left; reflexivity|]. discriminate.
  - eexists _, _. split; [reflexivity|]. split; [reflexivity|]. left; left; reflexivity.
  - eexists. split; [reflexivity|]. right. split; [right; left; reflexivity|]. split; [eexists; split; [reflexivity|lia]|]. split; [discriminate|]. intros _. eexists _, _. split; [reflexivity|]. split; [reflexivity|].
    split; [lia|]. split; [intros _; left; reflexivity|discriminate].
  - eexists. split; [reflexivity|lia].
Qed.
Lemma outside_accepted path rank : exists c w', snd (Configuration_ctor (machine outside_config) (disk path) world0 path rank) = Ok (c, w').
Proof. run_edited outside_sensible. Qed.
Lemma outside_refuted : exists E fs w path c w' d p, tame_environment E /\ shipped_world w /\ snd (Configuration_ctor E fs w path 0) = Ok (c, w') /\
  fs_dir fs d = false /\ fs_dir (fst (Configuration_ctor E fs w path 0)) d = true /\ fs_file fs p = None /\ (exists t, fs_file (fst (Configuration_ctor E fs w path 0)) p = Some t) /\
  leads_to (e_top E ++ "results") = ["obscura"; "results"]%string /\ leads_to d = ["obscura"; "x"]%string /\ leads_to p = ["obscura"; "x.cfg"]%string.
Proof.
  set (E := machine outside_config). destruct (outside_accepted "a.cfg" 0) as (c & w' & R). exists E, (disk "a.cfg"), world0, "a.cfg"%string, c, w', (results_of E "../x"), (copy_of E "../x").
  split; [apply machine_tame|]. split; [exact world0_shipped|]. split; [exact R|].
  destruct (rank_zero_done E (disk "a.cfg") world0 "a.cfg" outside_config "../x" "settings") as (_ & A & B); try reflexivity.
  split; [reflexivity|]. split; [exact A|]. split; [reflexivity|]. split; [eexists; apply B; discriminate|]. repeat split; reflexivity.
Qed.

(** * Halo, detector and parameters *)
(** What the halo must hold. *)
Definition standard_holds (cfg : settings) (s : SHM) : Prop :=
  exists rho v0 x y z ve, value_of cfg "DM_local_density" = Some (SFloat rho) /\ value_of cfg "SHM_v0" = Some (SFloat v0) /\
    value_of cfg "SHM_vObserver" = Some (SAggregate [SFloat x; SFloat y; SFloat z]) /\ value_of cfg "SHM_vEscape" = Some (SFloat ve) /\
    h_rho s = Fin (rho * (GeV / cm / cm / cm)) /\ h_v0 s = Fin (v0 * (km / sec)) /\ h_vesc s = Fin (ve * (km / sec)) /\ h_velobs s = V3 (x * km / sec) (y * km / sec) (z * km / sec) /\
    h_dmin s = Fin 0 /\ h_dmax s = Fin (ve * (km / sec) + vnorm (V3 (x * km / sec) (y * km / sec) (z * km / sec))).
Definition halo_holds (cfg : settings) (h : halo) : Prop :=
  match h with
  | HStandard s => value_of cfg "DM_distribution" = Some (SString "SHM") /\ standard_holds cfg s
  | HPlusPlus s => value_of cfg "DM_distribution" = Some (SString "SHM++") /\ standard_holds cfg (p_base s) /\
      exists eta beta, value_of cfg "SHMpp_eta" = Some (SFloat eta) /\ value_of cfg "SHMpp_beta" = Some (SFloat beta) /\ p_eta s = Fin eta /\ p_beta s = Fin beta
  | HImported s => value_of cfg "DM_distribution" = Some (SString "File") /\ exists rho path, value_of cfg "DM_local_density" = Some (SFloat rho) /\ value_of cfg "file_path" = Some (SString path) /\
      im_rho s = Fin (rho * (GeV / cm / cm / cm)) /\ im_file s = path
  end.
Lemma plusplus_fields Int Int2 b e be s : SHMpp_of_base Int Int2 b e be = Ok s -> p_base s = Normalize_PDF (renamed b) /\ p_eta s = Fin e /\ p_beta s = Fin be.
Proof.
  unfold SHMpp_of_base. generalize (eq_refl : p_base (Normalize_PDF_pp (Compute_Sigmas {| p_base := renamed b; p_eta := Fin e; p_beta := Fin be; p_sr := NaN; p_st := NaN; p_sp := NaN; p_NS := NaN; p_table := [] |})) = Normalize_PDF (renamed b)).
  generalize (eq_refl : p_eta (Normalize_PDF_pp (Compute_Sigmas {| p_base := renamed b; p_eta := Fin e; p_beta := Fin be; p_sr := NaN; p_st := NaN; p_sp := NaN; p_NS := NaN; p_table := [] |})) = Fin e).
  generalize (eq_refl : p_beta (Normalize_PDF_pp (Compute_Sigmas {| p_base := renamed b; p_eta := Fin e; p_beta := Fin be; p_sr := NaN; p_st := NaN; p_sp := NaN; p_NS := NaN; p_table := [] |})) = Fin be).
  generalize (Normalize_PDF_pp (Compute_Sigmas {| p_base := renamed b; p_eta := Fin e; p_beta := Fin be; p_sr := NaN; p_st := NaN; p_sp := NaN; p_NS := NaN; p_table := [] |})).
  intros u A B C H. unfold Interpolate_Eta_Function_S in H. apply bind_ok in H. destruct H as (tb & _ & H). apply Ok_inj in H. subst s. cbn [p_base p_eta p_beta]. auto.
Qed.
Lemma standard_fields cfg rho v0 x y z ve : value_of cfg "DM_local_density" = Some (SFloat rho) -> value_of cfg "SHM_v0" = Some (SFloat v0) ->
    value_of cfg "SHM_vObserver" = Some (SAggregate [SFloat x; SFloat y; SFloat z]) -> value_of cfg "SHM_vEscape" = Some (SFloat ve) ->
  standard_holds cfg (SHM_of_velocity (rho * (GeV / cm / cm / cm)) (v0 * (km / sec)) (V3 (x * km / sec) (y * km / sec) (z * km / sec)) (ve * (km / sec))).
Proof. intros A B C D. exists rho, v0, x, y, z, ve. repeat (split; [assumption || reflexivity|]). apply xadd_fin. Qed.
Lemma renamed_holds cfg s : standard_holds cfg s -> standard_holds cfg (Normalize_PDF (renamed s)). Proof. intros (a & b & c & d & e & f & H). exists a, b, c, d, e, f. exact H. Qed.
Lemma import_fields Int Itp nm file rho fl tb s : import_table Int Itp nm file rho fl tb = Ok s -> im_rho s = rho /\ im_file s = file.
Proof. unfold import_table. intros H. apply bind_ok in H. destruct H as (d & _ & H). apply bind_ok in H. destruct H as (e & _ & H). apply Ok_inj in H. subst s. split; reflexivity. Qed.
Lemma asked_standard E cfg s : halo_asked E cfg (HStandard s) -> halo_holds cfg (HStandard s).
Proof. intros (rho & VR & D & v0 & x & y & z & ve & A1 & A2 & A3 & ->). split; [exact D|]. apply standard_fields; assumption. Qed.
Lemma velocity_base Int Int2 rho v0 vel ve e be : SHMpp_of_base Int Int2 (SHM_of_velocity rho v0 vel ve) e be = SHMpp_of_velocity Int Int2 rho v0 vel ve e be.
Proof. exact eq_refl. Qed.
Lemma velocity_fields Int Int2 rho v0 vel ve e be s : SHMpp_of_velocity Int Int2 rho v0 vel ve e be = Ok s -> p_base s = Normalize_PDF (renamed (SHM_of_velocity rho v0 vel ve)) /\ p_eta s = Fin e /\ p_beta s = Fin be.
Proof. pose proof (velocity_base Int Int2 rho v0 vel ve e be) as B. intros H. rewrite <- B in H. apply plusplus_fields in H. exact H. Qed.
Lemma asked_plusplus E cfg s : halo_asked E cfg (HPlusPlus s) -> halo_holds cfg (HPlusPlus s).
Proof.
  intros (rho & VR & D & v0 & x & y & z & ve & eta & beta & A1 & A2 & A3 & A4 & A5 & H). split; [exact D|]. apply velocity_fields in H. destruct H as (E0 & E1 & E2). split.
  - rewrite E0. apply renamed_holds. apply standard_fields; assumption.
  - exists eta, beta. auto.
Qed.
Lemma asked_imported E cfg s : halo_asked E cfg (HImported s) -> halo_holds cfg (HImported s).
Proof. intros (rho & VR & D & path & rows & VP & _ & H). split; [exact D|]. exists rho, path. split; [exact VR|]. split; [exact VP|]. apply import_fields in H. exact H. Qed.
Lemma asked_holds E cfg h : halo_asked E cfg h -> halo_holds cfg h.
Proof. destruct h; [apply asked_standard|apply asked_plusplus|apply asked_imported]. Qed.

Lemma configured_parts E fs w path rank cfg rows c w' : well_formed rows -> full_table rows -> world_history rows w -> readable (e_files E) -> loaded E fs path cfg ->
  snd (Configuration_ctor E fs w path rank) = Ok (c, w') ->
  (exists h, cf_distr c = Some h /\ halo_holds cfg h) /\ (exists d, cf_detector c = Some d /\ detector_asked E cfg rows d) /\
  (exists ID, value_of cfg "ID" = Some (SString ID) /\ cf_ID c = ID /\ cf_results c = results_of E ID) /\
  value_of cfg "constraints_certainty" = Some (SFloat (cf_certainty c)) /\ value_of cfg "constraints_mass_min" = Some (SFloat (cf_mass_min c)) /\
  value_of cfg "constraints_mass_max" = Some (SFloat (cf_mass_max c)) /\ exists z, value_of cfg "constraints_masses" = Some (SInt z) /\ ((0 <= z)%Z -> cf_masses c = z).
Proof.
  intros WF FT WH RF L R. rewrite (ctor_loaded E fs w path rank cfg L) in R. apply bind_ok in R. destruct R as (ID & I & R). apply read_string_ok in I. apply members_inv in R.
  destruct R as (DM & o & d & a & b & c1 & k & M1 & M2 & M3 & M4 & ->). apply distribution_inv in M2. destruct M2 as (h & -> & HA). apply (detector_inv E cfg rows) in M3; auto. apply parameters_inv in M4.
  split; [exists h; split; [reflexivity|eapply asked_holds; eauto]|]. split; [exists d; auto|]. split; [exists ID; auto|]. exact M4.
Qed.

Definition no_targets_config : settings := edited "DD_experiment" (SString "Nuclear recoil") (edited "DD_targets_nuclear" (SFloat 8.0) shipped_config).
Lemma no_targets_sensible : sensible (machine no_targets_config) no_targets_config.
Proof.
  split; [|split; [|split]].
  - split; [eexists; split; [reflexivity|left; reflexivity]|]. intros _. eexists. split; [reflexivity|]. split; [left; reflexivity|]. discriminate.
  - eexists _, _. split; [reflexivity|]. split; [reflexivity|]. left; left; reflexivity.
  - eexists. split; [reflexivity|]. right. split; [left; reflexivity|]. split; [eexists; split; [reflexivity|lia]|]. split; [|intros N; destruct (N eq_refl)]. intros _. eexists _, _, _. split; [reflexivity|]. split; [constructor|].
    split; [reflexivity|]. split; [reflexivity|lra].
  - eexists. split; [reflexivity|lia].
Qed.
Lemma no_targets_refuted : exists E fs w path rank cfg c w' n r, tame_environment E /\ shipped_world w /\ loaded E fs path cfg /\ value_of cfg "DD_targets_nuclear" = Some (SFloat r) /\
  snd (Configuration_ctor E fs w path rank) = Ok (c, w') /\ cf_detector c = Some (DNuclear n) /\ n_targets n = [].
Proof.
  assert (A : exists c w', snd (Configuration_ctor (machine no_targets_config) (disk "a.cfg") world0 "a.cfg" 0) = Ok (c, w')) by run_edited no_targets_sensible.
  destruct A as (c & w' & R). assert (L := machine_loaded no_targets_config "a.cfg").
  destruct (configured_parts (machine no_targets_config) _ _ _ _ _ shipped_rows _ _ shipped_well_formed shipped_full (wh_start _) F0_readable L R) as (_ & (d & D & (x & VX & DA)) & _).
  cbv in VX. injection VX as <-. destruct DA as [(N & _) | (_ & _ & UA)]; [destruct N; left; reflexivity|]. destruct d as [n|s|s]; [|destruct UA as (C & _); destruct (i_channel s); discriminate C|destruct UA as (C & _); discriminate C].
  destruct UA as (_ & v & am & zs & lo & hi & r & V & F2 & LE & EL & _).
  exists (machine no_targets_config), (disk "a.cfg"), world0, "a.cfg"%string, 0%Z, no_targets_config, c, w', n, 8.0. split; [apply machine_tame|]. split; [exact world0_shipped|]. split; [exact L|]. split; [reflexivity|].
  split; [exact R|]. split; [exact D|]. assert (VV : v = SFloat 8.0) by (cbn in V; injection V as <-; reflexivity). subst v. cbn [items] in F2. inversion F2 as [EC|]. destruct am, zs; try discriminate. inversion EL. reflexivity.
Qed.

(** * Experiments *)
Lemma LZ_refuted : exists F w name, readable F /\ shipped_world w /\ In name (map fst supported) /\ supported_experiment F w name = Exit.
Proof.
  exists F0, world0, "LZ_S2"%string. split; [exact F0_readable|]. split; [exact world0_shipped|]. split; [apply (names_in ["LZ_S2"%string]); [reflexivity|left; reflexivity]|].
  apply (LZ_exits shipped_rows); [exact shipped_well_formed|exact shipped_full|constructor|exact F0_readable|left; reflexivity].
Qed.
Lemma label_refuted : exists F w name d w', readable F /\ shipped_world w /\ supported_experiment F w name = Ok (d, w') /\ b_name (instrument_base d) <> name.
Proof.
  destruct (experiments_realised shipped_rows F0 world0 shipped_well_formed shipped_full (wh_start _) F0_readable "PandaX-4T_S2_Migdal" (Publication "PandaX-4T_S2" (550 * 365.25) (Atom_of Migdal 54) (Quanta 4 [34; 14; 13; 7; 11; 12; 14]%Z))) as (d & w' & R & (N & _)).
  { unfold publications. cbn [In]. repeat first [left; reflexivity | right]. }
  exists F0, world0, "PandaX-4T_S2_Migdal"%string, d, w'. split; [exact F0_readable|]. split; [exact world0_shipped|]. split; [exact R|]. rewrite N. discriminate.
Qed.
Lemma prediction_refuted : exists F w name d w', readable F /\ shipped_world w /\ supported_experiment F w name = Ok (d, w') /\ forall X DM D v, expected_events X DM D d <> Ok v.
Proof.
  assert (I : In ("XENON10_S2"%string, Publication "XENON10_S2" 15 (Atom_of Electron_Recoil 54) (Photoelectrons [14; 41; 68; 95; 122; 149; 176; 203]%Z [126; 60; 12; 3; 2; 0; 2]%Z)) publications)
    by (unfold publications; cbn [In]; repeat first [left; reflexivity | right]).
  destruct (experiments_realised shipped_rows F0 world0 shipped_well_formed shipped_full (wh_start _) F0_readable _ _ I) as (d & w' & R & RE).
  exists F0, world0, "XENON10_S2"%string, d, w'. split; [exact F0_readable|]. split; [exact world0_shipped|]. split; [exact R|]. intros X DM D v. eapply photoelectrons_never; [exact RE|apply in_map_iff; eexists; split; [|exact I]; reflexivity|reflexivity].
Qed.
