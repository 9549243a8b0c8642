(** Runs of the program on concrete machines. *)
From Coq Require Import Reals ZArith String Ascii Lia Lra Bool.
From Coquelicot Require Import Coquelicot.
From Coq Require Import List.
From Verif Require Import Base XrFacts Quadrature Nucleus_Model Nuclear_Model Nuclear_Proofs Particle_Model Particle_Proofs Distribution_Model Distribution_Proofs Astronomy_Model Halo_Model
  Atom_Model Atom_Proofs Crystal_Model Crystal_Proofs CrossSection_Model Rates_Model Detector_Model DetectorTypes_Model Detector_Proofs DetectorSafety_Proofs Experiments_Model Configuration_Model Experiments_Proofs
  Configuration_Proofs ConfigurationRun_Proofs ConfigurationValues_Proofs ConfigurationFiles_Proofs ConfigurationWitness_Proofs Limits_Proofs Fiducial_Proofs LimitsWitness_Proofs Average_Model Summary_Model Summary_Proofs
  SummaryValues_Proofs Main_Model Main_Proofs MainEnds_Proofs.
Import ListNotations.
Local Open Scope R_scope.

(** Libraries whose integrals are 1 and whose p-value is always the requested one. *)
Definition constant_externals : externals := mkExternals (fun _ _ _ => Ok (Fin 1)) (fun _ _ _ => Ok (Fin 1)) (fun _ _ => Ok (Fin 1)) (fun _ _ _ _ => Ok (Fin 1)) (fun _ _ _ => Ok (Fin 1)).
Definition constant_statistics : statistics := mkStatistics (fun _ _ => Ok (Fin (1.0 - 0.95))) (fun _ _ _ => Ok (Fin 0)) (fun _ _ _ => Ok (Fin 0)) (fun _ _ _ _ => Ok (Fin 1)).
Definition first_end : root_finder := fun S f a b eps s => Ok (a, s).
Definition constant_integrals : integrals := mkIntegrals (fun _ _ _ => Ok (Fin 1)) (fun _ _ _ _ _ => Ok (Fin 1)) (fun _ _ _ _ _ _ _ => Ok (Fin 1)) (fun _ _ => Ok (Fin 1)).
Definition box (cfg : settings) : libraries := mkLibraries (machine cfg) (fun x => x) constant_integrals constant_externals constant_statistics first_end (fun _ _ _ => []) (fun _ => "table"%string).

Definition recoil_config : settings := edited "DD_experiment" (SString "Nuclear recoil") (edited "DD_energy_resolution" (SFloat 1) shipped_config).
Lemma recoil_sensible : sensible (machine recoil_config) recoil_config.
Proof.
  split; [|split; [|split]].
  - split; [eexists; split; [reflexivity|left; reflexivity]|]. intros _. eexists. split; [reflexivity|]. split; [left; reflexivity|]. discriminate.
  - eexists _, _. split; [reflexivity|]. split; [reflexivity|]. left; left; reflexivity.
  - eexists. split; [reflexivity|]. right. split; [left; reflexivity|]. split; [eexists; split; [reflexivity|lia]|]. split; [|intros N; destruct (N eq_refl)]. intros _. eexists _, _, _. split; [reflexivity|].
    split; [repeat constructor; eexists _, _, _; (split; [reflexivity|lia])|]. split; [reflexivity|]. split; [reflexivity|lra].
  - eexists. split; [reflexivity|lia].
Qed.
Lemma recoil_accepted : exists c w', snd (Configuration_ctor (machine recoil_config) (disk "a.cfg") world0 "a.cfg" 0) = Ok (c, w').
Proof. run_edited recoil_sensible. Qed.

Lemma constant_total D n p d : b_analysis d <> Binned_Poisson -> n_resolution n = Fin (1 * keV) -> exists x, v_total (nuclear_virtuals constant_externals D n) d p = Ok x.
Proof.
  intros A R. cbn [nuclear_virtuals v_total]. unfold Nuclear_Total, DM_Signals_Total_Base. replace (n_base (with_n_base d n)) with d by (destruct n; reflexivity).
  assert (V : forall E, Nuclear_dRdE constant_externals (interface_of (x_I2 constant_externals) p) D (with_n_base d n) E = Ok (Fin 1)).
  { intros E. unfold Nuclear_dRdE. replace (n_resolution (with_n_base d n)) with (Fin (1 * keV)) by (rewrite <- R; destruct n; reflexivity).
    rewrite xmul_fin, xlt_false; [|unfold keV, eV; lra]. reflexivity. }
  assert (M : forall l, exists vs, map_res (Nuclear_dRdE constant_externals (interface_of (x_I2 constant_externals) p) D (with_n_base d n)) l = Ok vs).
  { induction l as [|e l [vs IH]]; [eexists; reflexivity|]. cbn [map_res]. rewrite V. cbn [bind]. rewrite IH. cbn [bind]. eexists. reflexivity. }
  destruct (b_analysis d); [|congruence|]; cbv zeta; destruct (M (Log_Space (b_threshold d) (b_energy_max d) 200)) as [vs ->]; cbn [bind]; eexists; reflexivity.
Qed.
Lemma constant_limit D n p d : b_analysis d = Poisson -> b_targets d = "Nuclei"%string -> n_resolution n = Fin (1 * keV) ->
  exists d' p', Upper_Limit first_end constant_statistics (nuclear_virtuals constant_externals D n) d p (Fin 0.95) = Ok (Fin (Rpower 10 (- 30)), d', p') /\ b_analysis d' = Poisson /\ b_targets d' = "Nuclei"%string.
Proof.
  intros A T R. unfold Upper_Limit. rewrite T. unfold Get_Interaction_Parameter. cbn [String.eqb Ascii.eqb eqb bind]. set (orig := if xlt _ _ then _ else _).
  unfold set_fiducial. rewrite A. cbv zeta. destruct (constant_total D n p (with_fiducial true orig (b_fiducial_signals d) (b_fiducial_spectrum d) d)) as [x X]; [cbn; congruence|exact R|]. rewrite X. cbn [bind].
  set (d1 := with_fiducial _ _ _ _ _). assert (A1 : b_analysis d1 = Poisson) by exact A. assert (T1 : b_targets d1 = "Nuclei"%string) by exact T.
  assert (S : forall x q, exists q', Set_Interaction_Parameter x "Nuclei" q = Ok q') by (intros; eexists; reflexivity).
  assert (F : forall q y, exists q', limit_func constant_statistics (nuclear_virtuals constant_externals D n) d1 (Fin 0.95) q y = Ok (Fin 0, q')).
  { intros q y. unfold limit_func. rewrite T1. destruct (S (xpow10 y) q) as [q' ->]. cbn [bind]. exists q'. unfold P_Value. rewrite A1. replace (b_using_fiducial d1) with true by reflexivity. rewrite T1.
    unfold Get_Interaction_Parameter. cbn [String.eqb Ascii.eqb eqb bind]. cbn [CDF_Poisson constant_statistics bind]. rewrite !xsub_fin. do 2 f_equal. f_equal. lra. }
  destruct (F p (Fin (-30.0))) as [p1 F1]. rewrite F1. cbn [bind]. destruct (F p1 (Fin 10.0)) as [p2 F2]. rewrite F2. cbn [bind]. rewrite xmul_fin, xlt_false by lra. unfold first_end. cbn [bind]. rewrite T1.
  destruct (S orig p2) as [p4 ->]. cbn [bind]. rewrite A1. exists (with_fiducial false (Fin 0.0) (Fin 0.0) [] d1), p4. split; [|split; [exact A|exact T]]. unfold xpow10. replace (-30.0) with (-30) by lra. reflexivity.
Qed.
Lemma constant_loop D n lowest masses : n_resolution n = Fin (1 * keV) -> forall d p, b_analysis d = Poisson -> b_targets d = "Nuclei"%string ->
  exists d' p', limit_curve_loop first_end constant_statistics (nuclear_virtuals constant_externals D n) (Fin 0.95) lowest d p masses =
    Ok (map (fun m => [m; Fin (Rpower 10 (- 30))]) (filter (fun m => negb (xlt m lowest)) masses), d', p').
Proof.
  intros R. induction masses as [|m t IH]; intros d p A T; [do 2 eexists; reflexivity|]. cbn [limit_curve_loop filter]. destruct (xlt m lowest); cbn [negb]; [apply IH; auto|]. cbv zeta.
  destruct (constant_limit D n (Set_Mass m p) d A T R) as (d1 & p1 & -> & A1 & T1). cbn [bind]. destruct (IH d1 p1 A1 T1) as (d2 & p2 & ->). cbn [bind].
  rewrite xlt_true by (replace 0.0 with 0 by lra; apply exp_pos). do 2 eexists. reflexivity.
Qed.

Lemma nuclear_targets E cfg w i w' : value_of cfg "DD_experiment" = Some (SString "Nuclear recoil") -> Construct_DM_Detector E cfg w = Ok (i, w') -> b_targets (instrument_base i) = "Nuclei"%string.
Proof.
  intros V H. unfold Construct_DM_Detector in H. apply bind_ok in H. destruct H as (x & X & H). apply read_string_ok in X. rewrite V in X. injection X as <-. cbn [String.eqb Ascii.eqb eqb] in H.
  unfold Construct_DM_Detector_Nuclear in H. cbv zeta in H. open_res H. apply Ok_inj in H. injection H as <- <-.
  match goal with E2 : (if ?c then _ else _) = Ok ?n2 |- _ => destruct c; [|apply Ok_inj in E2; subst] end; idles; cbn [instrument_base];
  match goal with H : idle _ (n_base ?n) |- b_targets (n_base ?n) = _ => exact (proj1 H) end.
Qed.

Lemma constant_halo h : exists out, print_halo (fun x => x) constant_integrals 0 h = Ok out.
Proof.
  assert (N : (xlt (xopp (Fin 1.0)) (Fin 0)) = true) by (rewrite xopp_fin; apply xlt_true; lra).
  unfold print_halo. change (0 =? 0)%Z with true. cbv iota. destruct h; cbv zeta; unfold Average_Velocity, Average_Component, average_speed, Average_Speed, print_distribution_base; rewrite N;
    cbn [constant_integrals q_Integrate_3D q_Integrate bind]; eexists; reflexivity.
Qed.

Lemma constant_masses p E v l : kind p = SI -> low_mass p = false -> IR_divergent p = false -> mass_loop (Sigma_Total_Nucleus (x_Integrate constant_externals) p) E v l = Ok (map (mass_bound E v) l).
Proof.
  intros K M D. induction l as [|t l IH]; [reflexivity|]. cbn [mass_loop map]. unfold Sigma_Total_Nucleus at 1. rewrite K, M, D. cbn [negb]. unfold Sigma_Total_Nucleus_Base. cbn [x_Integrate constant_externals] in IH |- *. cbn [bind].
  rewrite IH. cbn [bind]. rewrite xlt_true by lra. reflexivity.
Qed.

Lemma recoil_run : exists fs' lines, main (box recoil_config) (disk "a.cfg") world0 ["obscura"; "a.cfg"]%string = (fs', Ok lines).
Proof.
  destruct recoil_accepted as (c & w' & C). assert (LD := machine_loaded recoil_config "a.cfg").
  destruct (configured_parts (machine recoil_config) _ _ _ _ _ shipped_rows _ _ shipped_well_formed shipped_full (wh_start _) F0_readable LD C) as ((h & DH & _) & (i & DD & (x & VX & DA)) & _).
  cbv in VX. injection VX as <-. destruct DA as [(N & _) | (_ & BA & UA)]; [destruct N; left; reflexivity|]. destruct i as [n|s|s]; [|destruct UA as (Q & _); destruct (i_channel s); discriminate Q|destruct UA as (Q & _); discriminate Q].
  destruct UA as (_ & v & am & zs & lo & hi & r & V & F2 & LE & EL & _ & _ & _ & VR & _ & _ & _ & _ & RES & _). destruct BA as (ex & ef & z0 & bg & _ & _ & _ & _ & _ & BP & _).
  assert (CM := C). rewrite (ctor_loaded _ _ _ _ _ _ LD) in CM. apply bind_ok in CM. destruct CM as (ID & _ & CM).  apply members_inv in CM. destruct CM as ([p spin] & o & i & ce & l1 & h1 & k1 & M1 & M2 & M3 & M4 & CE).
  assert (EI : i = DNuclear n) by (rewrite CE in DD; cbn [cf_detector] in DD; congruence). subst i. assert (DP : cf_DM c = Some (p, spin)) by (rewrite CE; reflexivity). clear CE. apply nuclear_targets in M3; [|reflexivity]. cbn [instrument_base] in M3, BP.
  assert (VV := V). change (value_of recoil_config "DD_targets_nuclear") with (Some (SAggregate [SAggregate [SFloat 4.0; SInt 8]; SAggregate [SFloat 1.0; SInt 20]; SAggregate [SFloat 1.0; SInt 74]])) in VV. injection VV as <-. clear V.
  cbn [items] in F2. destruct am as [|a0 am], zs as [|z zs]; try discriminate LE; try (inversion F2; fail). cbn [combine] in F2. inversion F2 as [|? ? ? ? (t0 & Q) _]; subst. cbn [fst snd] in Q. injection Q as <- <- <-.
  change (value_of recoil_config "DD_energy_resolution") with (Some (SFloat 1)) in VR. injection VR as <-.
  assert (RS : n_resolution n = Fin (1 * keV)) by (rewrite RES; f_equal; apply Rmax_right; unfold keV; lra). clear RES.
  assert (MI := M1). apply configured_interaction in MI. destruct MI as [K1 K2]. change (value_of recoil_config "DM_interaction") with (Some (SString "SI")) in K1. assert (K : kind p = SI) by (destruct (kind p); [reflexivity|discriminate K1]).
  specialize (K2 K). change (value_of recoil_config "DM_form_factor") with (Some (SString "Contact")) in K2. injection K2 as K2.
  assert (LM : low_mass p = false). { apply particle_inv in M1. destruct M1 as (m & sp & f & b & i' & p3 & _ & _ & _ & V4 & _ & _ & _ & -> & _). change (value_of recoil_config "DM_light") with (Some (SBool false)) in V4. injection V4 as <-. reflexivity. }
  assert (W : exists lowest, v_minimum_mass (nuclear_virtuals constant_externals (distribution_interface (machine recoil_config) h) n) (n_base n) p = Ok lowest).
  { cbn [nuclear_virtuals v_minimum_mass]. unfold Nuclear_Minimum_Mass. rewrite constant_masses; [|exact K|exact LM|unfold IR_divergent; rewrite <- K2; reflexivity]. cbn [bind].
    assert (NE : all_isotopes (with_n_base (n_base n) n) <> []).
    { unfold all_isotopes. replace (n_targets (with_n_base (n_base n) n)) with (n_targets n) by (destruct n; reflexivity). inversion EL as [|? n0 ? ts E1 E2 EQ1 EQ2]. apply (isotopes_of_table shipped_rows 8%Z zs); [apply shipped_full; lia|]. constructor; assumption. }
    destruct (all_isotopes _); [congruence|]. cbn [map min_element]. eexists. reflexivity. }
  destruct W as [lowest W].
  destruct (program_ends (box recoil_config) (disk "a.cfg") world0 "obscura" "a.cfg" [] recoil_config "Nuclear recoil" c w' p spin h (DNuclear n) 0.95) as [lines HL].
  1: exact LD. 1: reflexivity. 2: reflexivity. 2: lra. 2: exact C. 2: exact DP. 2: exact DH. 2: exact DD. 2: apply constant_halo.
  - unfold crystal_experiments. cbn [In]. intros Q. repeat (destruct Q as [Q | Q]; [discriminate Q|]). destruct Q.
  - unfold Upper_Limit_Curve. cbn [box l_Find_Root l_statistics l_externals l_env instrument_virtuals instrument_base]. rewrite W. cbn [bind].
    destruct (constant_loop (distribution_interface (machine recoil_config) h) n lowest (requested_masses (box recoil_config) c) RS (n_base n) p BP M3) as (d' & p' & ->). cbn [bind]. eexists. reflexivity.
  - destruct (main (box recoil_config) (disk "a.cfg") world0 ["obscura"; "a.cfg"]%string) as [fs' r] eqn:M. cbn [snd] in HL. exists fs', lines. congruence.
Qed.

(** * Valid configurations for which the program does not finish *)
Definition published_config (x : string) (cfg : settings) : settings := edited "DD_experiment" (SString x) cfg.
Definition valid_setup (E : environment) (fs : filesystem) (w : nuclear_world) (path : string) (cfg : settings) : Prop :=
  tame_environment E /\ total_library E /\ shipped_world w /\ loaded E fs path cfg /\ complete cfg /\ sensible E cfg.

Ltac sensible_published := split; [|split; [|split]];
  [split; [eexists; split; [reflexivity|left; reflexivity]|]; intros _; eexists; split; [reflexivity|]; split; [cbn [In form_factors]; tauto|discriminate]
  |eexists _, _; split; [reflexivity|]; split; [reflexivity|]; left; left; reflexivity
  |eexists; split; [reflexivity|]; left; unfold publications; cbn [map fst In]; tauto
  |eexists; split; [reflexivity|lia]].
Ltac complete_published := apply all_complete; unfold all_keys; cbn [app]; repeat (constructor; [cbn [fst]; key|]); constructor.

Definition crystal_config : settings := published_config "SENSEI@MINOS" shipped_config.
Lemma crystal_valid : valid_setup (machine crystal_config) (disk "a.cfg") world0 "a.cfg" crystal_config.
Proof. split; [apply machine_tame|]. split; [apply machine_total|]. split; [exact world0_shipped|]. split; [apply machine_loaded|]. split; [complete_published|sensible_published]. Qed.
Lemma crystal_never : exists E fs w path cfg, valid_setup E fs w path cfg /\ value_of cfg "DD_experiment" = Some (SString "SENSEI@MINOS") /\
  forall L prog rest lines, l_env L = E -> snd (main L fs w (prog :: path :: rest)) <> Ok lines.
Proof.
  exists (machine crystal_config), (disk "a.cfg"), world0, "a.cfg"%string, crystal_config. split; [exact crystal_valid|]. split; [reflexivity|]. intros L prog rest lines E.
  apply (program_crystals L _ _ _ _ _ crystal_config "SENSEI@MINOS"); [rewrite E; apply machine_loaded|reflexivity|unfold crystal_experiments; cbn [In]; tauto].
Qed.

Definition long_range_config : settings := published_config "XENON1T_N_2017" (edited "DM_form_factor" (SString "Long-Range") shipped_config).
Lemma long_range_valid : valid_setup (machine long_range_config) (disk "a.cfg") world0 "a.cfg" long_range_config.
Proof. split; [apply machine_tame|]. split; [apply machine_total|]. split; [exact world0_shipped|]. split; [apply machine_loaded|]. split; [complete_published|sensible_published]. Qed.
Lemma long_range_never : exists E fs w path cfg, valid_setup E fs w path cfg /\ value_of cfg "DD_experiment" = Some (SString "XENON1T_N_2017") /\ value_of cfg "DM_form_factor" = Some (SString "Long-Range") /\
  forall L prog rest lines, l_env L = E -> snd (main L fs w (prog :: path :: rest)) <> Ok lines.
Proof.
  exists (machine long_range_config), (disk "a.cfg"), world0, "a.cfg"%string, long_range_config. split; [exact long_range_valid|]. split; [reflexivity|]. split; [reflexivity|]. intros L prog rest lines E.
  apply (program_divergent L _ _ _ _ _ long_range_config shipped_rows "XENON1T_N_2017" (Publication "XENON1T_N_2017" (34.2 * 1042) (Nuclei_of [54%Z]) (Single 0 5 40)) [54%Z] "Long-Range");
    [exact shipped_well_formed|exact shipped_full|apply wh_start|rewrite E; exact F0_readable|rewrite E; apply machine_loaded|reflexivity|reflexivity|cbn [In]; tauto|reflexivity|unfold publications; cbn [In]; tauto|reflexivity].
Qed.

Definition xenon10 : publication := Publication "XENON10_S2" 15 (Atom_of Electron_Recoil 54) (Photoelectrons [14; 41; 68; 95; 122; 149; 176; 203]%Z [126; 60; 12; 3; 2; 0; 2]%Z).
Definition xenon10_config : settings := published_config "XENON10_S2" (edited "constraints_mass_max" (SFloat (10 ^ 9)) shipped_config).
Lemma xenon10_valid : valid_setup (machine xenon10_config) (disk "a.cfg") world0 "a.cfg" xenon10_config.
Proof. split; [apply machine_tame|]. split; [apply machine_total|]. split; [exact world0_shipped|]. split; [apply machine_loaded|]. split; [complete_published|sensible_published]. Qed.
Lemma xenon10_listed : In ("XENON10_S2"%string, xenon10) publications. Proof. unfold publications, xenon10. cbn [In]. tauto. Qed.

Lemma binding_at_most l : forall a, 0 <= a -> exists g, fold_left (fun m s => if xlt (xabs (binding_energy s)) m then xabs (binding_energy s) else m) l (Fin a) = Fin g /\ 0 <= g <= a.
Proof.
  induction l as [|s l IH]; intros a A; cbn [fold_left]; [exists a; split; [reflexivity|lra]|].
  destruct (xlt (xabs (binding_energy s)) (Fin a)) eqn:X; [|apply IH; exact A].
  destruct (binding_energy s) as [b| | |]; cbn [xabs] in X |- *; try discriminate X. destruct (Rlt_dec (Rabs b) a) as [LT | N]; [|rewrite xlt_false in X by lra; discriminate X].
  destruct (IH (Rabs b) (Rabs_pos b)) as (g & G & B). exists g. split; [exact G|lra].
Qed.
Lemma gap_at_most s a : i_atoms s = [a] -> exists g, Energy_Gap s = Fin g /\ 0 <= g <= 1.
Proof.
  intros I. unfold Energy_Gap. rewrite I. cbn [fold_left]. unfold Lowest_Binding_Energy. destruct (binding_at_most (electrons a) 1.0) as (g & -> & B); [lra|]. rewrite xlt_true by lra. exists g. split; [reflexivity|lra].
Qed.
Definition plain_mode (s : ionization) : Prop := b_using_threshold (i_base s) = false /\ i_using_ne_bins s = false /\ i_using_ne_threshold s = false.
Definition plain_op (o : ionization_op) : bool := match o with IBase (BFlat _) | IBase (BBin_Observed _) | ITrigger _ | IPE_Bins _ _ _ => true | _ => false end.
Lemma plain_step s o s' : plain_op o = true -> plain_mode s -> ionization_step s o = Ok s' -> plain_mode s'.
Proof.
  intros P (A & B & C) H. destruct o as [o|lo hi|lo n|mu sigma lo hi|l|l|mu sigma l]; try discriminate P; cbn [ionization_step] in H.
  - destruct o; try discriminate P; cbn [base_step] in H.
    + cbn [bind] in H. apply Ok_inj in H. subst s'. repeat split; assumption.
    + apply bind_ok in H. destruct H as (d & K & H). apply Ok_inj in H. subst s'. unfold Set_Observed_Events_Binned in K.
      destruct (b_analysis (i_base s)); try discriminate K. destruct (_ =? _)%Z; try discriminate K. apply Ok_inj in K. subst d. repeat split; assumption.
  - unfold Import_Trigger_Efficiency_PE in H. destruct (_ && _)%bool; [discriminate H|]. apply Ok_inj in H. subst s'. repeat split; assumption.
  - unfold Use_PE_Bins in H. apply bind_ok in H. destruct H as (d & K & H). cbv zeta in H. apply Ok_inj in H. subst s'. unfold Initialize_Binned_Poisson in K. destruct (b_analysis (i_base s)); try discriminate K; apply Ok_inj in K; subst d; repeat split; assumption.
Qed.
Lemma plain_run ops : forall s s', forallb plain_op ops = true -> plain_mode s -> ionization_run s ops = Ok s' -> plain_mode s'.
Proof.
  induction ops as [|o ops IH]; intros s s' P M H; cbn [ionization_run] in H; [apply Ok_inj in H; subst; exact M|]. cbn [forallb] in P. apply andb_prop in P. destruct P as [P1 P2].
  apply bind_ok in H. destruct H as (s1 & K & H). apply (IH s1); auto. eapply plain_step; eauto.
Qed.
Lemma xenon10_mode F w s w' : XENON10_S2_ER F w = Ok (s, w') -> plain_mode s.
Proof.
  unfold XENON10_S2_ER. cbv zeta. intros H. apply bind_ok in H. destruct H as ([d w1] & C & H). apply bind_ok in H. destruct H as (d1 & R1 & H). apply bind_ok in H. destruct H as (l1 & _ & H).
  apply bind_ok in H. destruct H as (d2 & R2 & H). apply Ok_inj in H. injection H as <- _. unfold Ionization_ctor1 in C. apply bind_ok in C. destruct C as ([a w2] & _ & C). apply Ok_inj in C. injection C as <- _.
  apply plain_run in R1; [|reflexivity|repeat split]. apply plain_run in R2; [exact R2|reflexivity|exact R1].
Qed.

Lemma xenon10_built E cfg w s w' : value_of cfg "DD_experiment" = Some (SString "XENON10_S2") -> Construct_DM_Detector E cfg w = Ok (DIonization s, w') -> plain_mode s.
Proof.
  intros V M3. unfold Construct_DM_Detector in M3. apply bind_ok in M3. destruct M3 as (x & X & M3). apply read_string_ok in X. rewrite V in X. injection X as <-. cbn [String.eqb Ascii.eqb eqb orb] in M3.
  unfold supported_experiment in M3. cbn [find supported fst String.eqb Ascii.eqb eqb snd] in M3. unfold as_ionization in M3. apply bind_ok in M3. destruct M3 as ([s0 w0] & X & M3). apply Ok_inj in M3. injection M3 as -> _. eapply xenon10_mode; exact X.
Qed.
Lemma xenon10_never : exists E fs w path cfg, valid_setup E fs w path cfg /\ value_of cfg "DD_experiment" = Some (SString "XENON10_S2") /\
  forall L prog rest lines, l_env L = E -> snd (main L fs w (prog :: path :: rest)) <> Ok lines.
Proof.
  exists (machine xenon10_config), (disk "a.cfg"), world0, "a.cfg"%string, xenon10_config. split; [exact xenon10_valid|]. split; [reflexivity|]. intros L prog rest lines EL.
  destruct xenon10_valid as (T1 & T2 & T3 & T4 & T5 & T6). destruct (accepted _ _ _ _ 0%Z _ T1 T2 T3 T4 T5 T6) as (c & w' & C).
  destruct (configured_parts (machine xenon10_config) _ _ _ _ _ shipped_rows _ _ shipped_well_formed shipped_full (wh_start _) F0_readable T4 C) as ((h & DH & HH) & (i & DD & (x & VX & DA)) & _ & _ & VLO & VHI & (k & VK & CK)).
  cbv in VX. injection VX as <-. destruct DA as [(_ & pub & IP & R) | (U & _)]; [|exfalso; exact (not_user _ _ xenon10_listed U)]. rewrite (unique_publication _ _ _ IP xenon10_listed) in R. clear IP pub.
  assert (CM := C). rewrite (ctor_loaded _ _ _ _ _ _ T4) in CM. apply bind_ok in CM. destruct CM as (ID & _ & CM). apply members_inv in CM. destruct CM as ([p spin] & o & i' & ce & l1 & h1 & k1 & M1 & M2 & M3 & M4 & CE).
  assert (EI : i' = i) by (rewrite CE in DD; cbn [cf_detector] in DD; congruence). subst i'. assert (DP : cf_DM c = Some (p, spin)) by (rewrite CE; reflexivity). clear CE.
  change (value_of xenon10_config "constraints_mass_min") with (Some (SFloat 0.02)) in VLO. change (value_of xenon10_config "constraints_mass_max") with (Some (SFloat (10 ^ 9))) in VHI.
  change (value_of xenon10_config "constraints_masses") with (Some (SInt 10)) in VK. injection VK as <-. specialize (CK ltac:(lia)). apply (f_equal (fun v => match v with Some (SFloat r) => r | _ => 0 end)) in VLO, VHI. cbv beta iota in VLO, VHI.
  assert (MASS : In (Fin (10 ^ 9)) (requested_masses L c)).
  { unfold requested_masses. rewrite CK, <- VLO, <- VHI. change (10 <? 2)%Z with false. cbv iota. change (Z.to_nat 10) with 10%nat. assert (P9 : 0 < 10 ^ 9) by (apply pow_lt; lra). rewrite Log_Space_grid by (lra || lia).
    destruct (mass_grid_ends 0.02 (10 ^ 9) 10) as (_ & E2 & _); [lra|exact P9|lia|]. unfold mass_grid. apply in_map_iff. exists 9%nat. split; [f_equal; exact E2|apply in_seq; lia]. }
  destruct (detector_base _ _ _ _ R) as (s & -> & _); [exact (in_map snd _ _ xenon10_listed)|reflexivity|].
  assert (PM : plain_mode s).
  { apply (xenon10_built (machine xenon10_config) xenon10_config world0 s w' eq_refl M3). }
  destruct R as (_ & _ & _ & _ & MO & _). cbn [made_of xenon10 pb_material] in MO. destruct MO as (_ & _ & _ & a & IA & _). destruct (gap_at_most s a IA) as (g & G & GB). destruct PM as (PA & PB & PC).
  assert (VM : exists v, d_vmax (distribution_interface (l_env L) h) = Fin v /\ 1 / 1000 <= v).
  { rewrite EL. destruct h as [s0|s0|s0]; destruct HH as (HN & HH); try discriminate HN. destruct HH as (rho & v0 & x & y & z & ve & _ & _ & _ & VE & _ & _ & _ & _ & _ & DX). change (value_of xenon10_config "SHM_vEscape") with (Some (SFloat 544.0)) in VE. injection VE as <-.
    cbn [distribution_interface d_vmax]. eexists. split; [exact DX|]. assert (0 <= vnorm (V3 (x * km / sec) (y * km / sec) (z * km / sec))) by apply sqrt_pos. assert (K : km / sec = 1000 / 299792458) by (unfold km, sec; field; unfold meter, cm; lra).
    rewrite K at 1. lra. }
  destruct VM as (v & VM & VB). assert (V2 : (1 / 1000) ^ 2 <= v ^ 2) by (apply pow_incr; lra).
  set (lowest := Fin (2 * g / v ^ 2)).
  assert (VW : v_minimum_mass (instrument_virtuals (l_externals L) (distribution_interface (l_env L) h) (DIonization s)) (instrument_base (DIonization s)) p = Ok lowest).
  { cbn [instrument_virtuals ionization_virtuals v_minimum_mass instrument_base]. rewrite VM. unfold Ionization_Minimum_Mass. replace (with_i_base (i_base s) s) with s by (destruct s; reflexivity).
    rewrite PA, PB, PC. cbn [orb]. rewrite G. rewrite xmul_fin, !xdiv_fin by lra. unfold lowest. do 2 f_equal. replace 2.0 with 2 by lra. field. lra. }
  assert (BIG : xlt (Fin (10 ^ 9)) lowest = false).
  { unfold lowest. apply xlt_false. apply Rle_trans with (2 * / (1 / 1000) ^ 2); [|simpl; lra]. unfold Rdiv at 1. apply Rmult_le_compat; [lra|apply Rlt_le, Rinv_0_lt_compat, pow_lt; lra|lra|]. apply Rinv_le_contravar; [|exact V2]. apply pow_lt; lra. }
  clearbody lowest. clear - EL C DP DH DD VW MASS BIG T4.
  refine (photoelectrons_end L (disk "a.cfg") world0 prog "a.cfg" rest xenon10_config shipped_rows "XENON10_S2" xenon10 c w' p spin h (DIonization s) lowest (Fin (10 ^ 9)) lines
    shipped_well_formed shipped_full (wh_start _) _ _ eq_refl xenon10_listed eq_refl _ DP DH DD VW MASS BIG).
  - rewrite EL. exact F0_readable.
  - rewrite EL. exact T4.
  - rewrite EL. exact C.
Qed.
