(** Reading a configuration and the predefined experiments: C59-C62, C74-C77. *)
From Coq Require Import Reals ZArith String Ascii Lia Lra Bool.
From Coquelicot Require Import Coquelicot.
From Coq Require Import List.
From Verif Require Import Base XrFacts Nucleus_Model Nuclear_Model Nuclear_Proofs Particle_Model Particle_Proofs Distribution_Model Astronomy_Model Halo_Model
  Atom_Model Atom_Proofs Crystal_Model Rates_Model Detector_Model DetectorTypes_Model DetectorWitness_Proofs DetectorSafety_Proofs Experiments_Model Configuration_Model Experiments_Proofs
  Configuration_Proofs ConfigurationRun_Proofs ConfigurationValues_Proofs ConfigurationFiles_Proofs ConfigurationWitness_Proofs.
Import ListNotations.
Local Open Scope R_scope.

(** C59: reading a configuration either ends the program or yields a particle, a halo and a detector; undefined behaviour does not occur. *)
Theorem C59_all_or_nothing : forall E fs w path rank, tame_environment E -> shipped_world w ->
  (exists c w' DM h d, snd (Configuration_ctor E fs w path rank) = Ok (c, w') /\ cf_DM c = Some DM /\ cf_distr c = Some h /\ cf_detector c = Some d) \/
  snd (Configuration_ctor E fs w path rank) = Exit \/ snd (Configuration_ctor E fs w path rank) = Throw.
Proof. exact all_or_nothing. Qed.
Print Assumptions C59_all_or_nothing.

(** A mandatory setting that is missing or has the wrong type ends the program. *)
Theorem C59_mandatory_missing : forall E fs w path rank cfg name P, tame_environment E -> shipped_world w -> loaded E fs path cfg -> mandatory cfg name P -> (forall v, value_of cfg name = Some v -> ~ P v) ->
  snd (Configuration_ctor E fs w path rank) = Exit \/ snd (Configuration_ctor E fs w path rank) = Throw.
Proof. exact mandatory_missing. Qed.
Print Assumptions C59_mandatory_missing.

(** Conversely, a configuration with all mandatory settings and sensible values is accepted. *)
Theorem C59_complete_accepted : forall E fs w path rank cfg, tame_environment E -> total_library E -> shipped_world w -> loaded E fs path cfg -> complete cfg -> sensible E cfg ->
  exists c w', snd (Configuration_ctor E fs w path rank) = Ok (c, w').
Proof. exact accepted. Qed.
Print Assumptions C59_complete_accepted.

(** Instance: the configuration file of the repository. *)
Example C59_instance : tame_environment (machine shipped_config) /\ total_library (machine shipped_config) /\ shipped_world world0 /\ loaded (machine shipped_config) (disk "config.cfg") "config.cfg" shipped_config /\
  complete shipped_config /\ sensible (machine shipped_config) shipped_config /\ mandatory shipped_config "DM_mass" number /\ mandatory shipped_config "DD_target_electron" text.
Proof.
  split; [apply machine_tame|]. split; [apply machine_total|]. split; [exact world0_shipped|]. split; [apply machine_loaded|]. split; [exact shipped_complete|]. split; [exact shipped_sensible|].
  split; [apply m_always; right; left; reflexivity|]. eapply m_electrons; [reflexivity|left; reflexivity|left; reflexivity].
Qed.
(** Instance: without the mass the same file is refused. *)
Example C59_instance_missing : let cfg := filter (fun p => negb (fst p =? "DM_mass")%string) shipped_config in mandatory cfg "DM_mass" number /\ value_of cfg "DM_mass" = None /\ loaded (machine cfg) (disk "a.cfg") "a.cfg" cfg.
Proof. split; [apply m_always; right; left; reflexivity|]. split; [reflexivity|apply machine_loaded]. Qed.

(** C60: mass, spin, fraction, interaction, form factor, cross sections and coupling ratio are those of the file. *)
Theorem C60_values : forall E fs w path rank cfg c w' m sn p n, loaded E fs path cfg -> snd (Configuration_ctor E fs w path rank) = Ok (c, w') ->
  value_of cfg "DM_mass" = Some (SFloat m) -> 0 < m -> value_of cfg "DM_cross_section_nucleon" = Some (SFloat sn) -> 0 <= sn -> ratio_asked cfg p n -> p + n <> 0 ->
  exists q spin, cf_DM c = Some (q, spin) /\ reports cfg q spin /\ exists x y, couplings q x y /\ x * n = y * p.
Proof. exact configured_values. Qed.
Print Assumptions C60_values.

(** False for couplings of opposite size, (1.0, -1.0): the configuration is accepted and the particle has no couplings. *)
Theorem C60_opposite_refuted : exists E fs w path rank cfg c w' q spin m s, tame_environment E /\ shipped_world w /\ loaded E fs path cfg /\ snd (Configuration_ctor E fs w path rank) = Ok (c, w') /\
  value_of cfg "DM_mass" = Some (SFloat m) /\ 0 < m /\ value_of cfg "DM_cross_section_nucleon" = Some (SFloat s) /\ 0 < s /\ ratio_asked cfg 1 (- (1)) /\ cf_DM c = Some (q, spin) /\ ~ exists x y, couplings q x y.
Proof. exact opposite_refuted. Qed.
Print Assumptions C60_opposite_refuted.

(** Instance: the configuration file of the repository. *)
Example C60_instance : exists c w', snd (Configuration_ctor (machine shipped_config) (disk "config.cfg") world0 "config.cfg" 0) = Ok (c, w') /\ value_of shipped_config "DM_mass" = Some (SFloat 0.1) /\ 0 < 0.1 /\
  value_of shipped_config "DM_cross_section_nucleon" = Some (SFloat (1 / 10 ^ 36)) /\ 0 <= 1 / 10 ^ 36 /\ ratio_asked shipped_config 1 1 /\ 1 + 1 <> 0.
Proof.
  destruct (shipped_accepted "config.cfg" 0) as (c & w' & R). exists c, w'. split; [exact R|]. split; [reflexivity|]. split; [lra|]. split; [reflexivity|].
  split; [apply Rlt_le, Rdiv_lt_0_compat; [lra|apply pow_lt; lra]|]. split; [left; repeat split; reflexivity|lra].
Qed.

(** C61: a process of rank other than 0 changes no file and no directory, however the reading ends. *)
Theorem C61_other_ranks : forall E fs w path rank, rank <> 0%Z -> same_files (fst (Configuration_ctor E fs w path rank)) fs.
Proof. exact other_ranks. Qed.
Print Assumptions C61_other_ranks.

(** Rank 0 only makes the two directories and writes the copy. *)
Theorem C61_rank_zero : forall E fs w path cfg ID t, fs_file fs path = Some t -> e_parse E t = Some cfg -> value_of cfg "ID" = Some (SString ID) ->
  let fs' := fst (Configuration_ctor E fs w path 0) in
  (forall p, fs_dir fs' p <> fs_dir fs p -> (p = (e_top E ++ "results")%string \/ p = results_of E ID) /\ fs_dir fs' p = true) /\
  (forall p, fs_file fs' p <> fs_file fs p -> p = copy_of E ID) /\
  (path <> copy_of E ID -> fs_file fs' path = Some t /\ (fs_file fs' (copy_of E ID) = Some (e_header E ++ t)%string \/ fs_file fs' (copy_of E ID) = fs_file fs (copy_of E ID))).
Proof. exact rank_zero. Qed.
Print Assumptions C61_rank_zero.

(** When directories can be made and files opened it does so. *)
Theorem C61_rank_zero_done : forall E fs w path cfg ID t, fs_file fs path = Some t -> e_parse E t = Some cfg -> value_of cfg "ID" = Some (SString ID) ->
  (forall g p, e_mkdir E g p = negb (fs_dir g p)) -> (forall g p, e_open E g p = true) ->
  let fs' := fst (Configuration_ctor E fs w path 0) in
  fs_dir fs' (e_top E ++ "results")%string = true /\ fs_dir fs' (results_of E ID) = true /\ (path <> copy_of E ID -> fs_file fs' (copy_of E ID) = Some (e_header E ++ t)%string).
Proof. exact rank_zero_done. Qed.
Print Assumptions C61_rank_zero_done.

(** Instance: the configuration file of the repository. *)
Example C61_instance : fs_file (disk "config.cfg") "config.cfg" = Some "settings"%string /\ e_parse (machine shipped_config) "settings" = Some shipped_config /\ value_of shipped_config "ID" = Some (SString "test") /\
  (forall g p, e_mkdir (machine shipped_config) g p = negb (fs_dir g p)) /\ (forall g p, e_open (machine shipped_config) g p = true) /\ "config.cfg"%string <> copy_of (machine shipped_config) "test".
Proof. repeat split; try reflexivity. discriminate. Qed.

(** C62: every experiment with a publication is built and agrees with it: exposure, target, observed events, bins. *)
Theorem C62_realised : forall rows F w, well_formed rows -> full_table rows -> world_history rows w -> readable F ->
  forall name p, In (name, p) publications -> exists d w', supported_experiment F w name = Ok (d, w') /\ realises rows F p d.
Proof. exact experiments_realised. Qed.
Print Assumptions C62_realised.

(** Other names end the program. *)
Theorem C62_unknown : forall F w name, ~ In name (map fst publications ++ LZ_names) -> supported_experiment F w name = Exit.
Proof. exact experiments_unknown. Qed.
Print Assumptions C62_unknown.

(** The name of the detector is the name in the configuration, *)
Theorem C62_labels : forall name p, In (name, p) publications -> is_Migdal p = false -> pb_label p = name.
Proof. exact labels. Qed.
Print Assumptions C62_labels.

(** but the Migdal experiments carry the name of their electron scattering twin, *)
Theorem C62_Migdal_labels : forall name p, In (name, p) publications -> is_Migdal p = true -> pb_label p <> name /\ In (pb_label p) (map fst publications).
Proof. exact Migdal_labels. Qed.
Print Assumptions C62_Migdal_labels.

(** with which they share exposure, target and data. *)
Theorem C62_twins : forall name p, In (name, p) publications -> is_Migdal p = true -> exists q z, In (pb_label p, q) publications /\
  pb_exposure q = pb_exposure p /\ pb_counting q = pb_counting p /\ pb_material q = Atom_of Electron_Recoil z /\ pb_material p = Atom_of Migdal z.
Proof. exact Migdal_twin. Qed.
Print Assumptions C62_twins.

(** Their predictions have no undefined behaviour, except for the photoelectron experiments. *)
Theorem C62_predictions : forall rows F p d X DM D, realises rows F p d -> In p (map snd publications) -> counts_photoelectrons p = false ->
  safe_externals X -> safe_particle DM -> safe_halo D -> usable X DM d -> safe (expected_events X DM D d).
Proof. exact predictions_safe. Qed.
Print Assumptions C62_predictions.

(** False for LZ: the name is known, but the construction ends the program. *)
Theorem C62_LZ_refuted : exists F w name, readable F /\ shipped_world w /\ In name (map fst supported) /\ supported_experiment F w name = Exit.
Proof. exact LZ_refuted. Qed.
Print Assumptions C62_LZ_refuted.

(** The label is not always the name asked for. *)
Theorem C62_label_refuted : exists F w name d w', readable F /\ shipped_world w /\ supported_experiment F w name = Ok (d, w') /\ b_name (instrument_base d) <> name.
Proof. exact label_refuted. Qed.
Print Assumptions C62_label_refuted.

(** For XENON10 no prediction succeeds. *)
Theorem C62_prediction_refuted : exists F w name d w', readable F /\ shipped_world w /\ supported_experiment F w name = Ok (d, w') /\ forall X DM D v, expected_events X DM D d <> Ok v.
Proof. exact prediction_refuted. Qed.
Print Assumptions C62_prediction_refuted.

(** Instance: data files that can be read. *)
Example C62_instance : well_formed shipped_rows /\ full_table shipped_rows /\ world_history shipped_rows world0 /\ readable F0 /\ In "SENSEI@MINOS"%string (map fst publications) /\
  ~ In "EDELWEISS"%string (map fst publications ++ LZ_names).
Proof.
  split; [exact shipped_well_formed|]. split; [exact shipped_full|]. split; [constructor|]. split; [exact F0_readable|]. split; [apply (names_in ["SENSEI@MINOS"%string]); [reflexivity|left; reflexivity]|].
  intros I. cbn in I. repeat destruct I as [I | I]; try discriminate; exact I.
Qed.
(** Instance: an experiment with a Migdal twin, its prediction. *)
Example C62_instance_Migdal : exists d w', supported_experiment F0 world0 "XENON1T_S2_Migdal" = Ok (d, w') /\ exists p, In ("XENON1T_S2_Migdal"%string, p) publications /\ is_Migdal p = true /\ counts_photoelectrons p = false /\
  realises shipped_rows F0 p d /\ safe_externals X1 /\ safe_particle DM1 /\ safe_halo D1.
Proof.
  assert (I : In ("XENON1T_S2_Migdal"%string, Publication "XENON1T_S2" 15330 (Atom_of Migdal 54) (Quanta 5 [5; 5; 4; 2; 1; 0]%Z)) publications) by (unfold publications; cbn [In]; repeat first [left; reflexivity | right]).
  destruct (experiments_realised shipped_rows F0 world0 shipped_well_formed shipped_full (wh_start _) F0_readable _ _ I) as (d & w' & R & RE). exists d, w'. split; [exact R|].
  eexists. split; [exact I|]. split; [reflexivity|]. split; [reflexivity|]. split; [exact RE|]. split; [exact safe_X1|]. split; [exact safe_DM1|exact safe_D1].
Qed.

(** C74: a file that cannot be read, or has no ID, leaves no trace on the disk. *)
Theorem C74_unread : forall E fs w path rank, (forall cfg ID, loaded E fs path cfg -> value_of cfg "ID" <> Some (SString ID)) -> same_files (fst (Configuration_ctor E fs w path rank)) fs.
Proof. exact no_ID. Qed.
Print Assumptions C74_unread.

(** False otherwise: an unknown interaction ends the program after folder and copy were made. *)
Theorem C74_trace_refuted : exists E fs w path p, tame_environment E /\ shipped_world w /\ (forall r, fs_file fs path = Some r -> exists cfg, e_parse E r = Some cfg) /\ fs_file fs path <> None /\
  snd (Configuration_ctor E fs w path 0) = Exit /\ fs_file fs p = None /\ (exists t, fs_file (fst (Configuration_ctor E fs w path 0)) p = Some t) /\ fs_dir (fst (Configuration_ctor E fs w path 0)) (e_top E ++ "results") <> fs_dir fs (e_top E ++ "results").
Proof. exact trace_refuted. Qed.
Print Assumptions C74_trace_refuted.

(** Instance: a file system without the file. *)
Example C74_instance : forall cfg ID, loaded (machine shipped_config) (disk "a.cfg") "b.cfg" cfg -> value_of cfg "ID" <> Some (SString ID).
Proof. intros cfg ID (t & F & _). discriminate F. Qed.

(** C75: the configuration file is not changed, unless it is itself the copy in the result folder. *)
Theorem C75_kept : forall E fs w path rank, (forall cfg ID, loaded E fs path cfg -> value_of cfg "ID" = Some (SString ID) -> path <> copy_of E ID) ->
  fs_file (fst (Configuration_ctor E fs w path rank)) path = fs_file fs path.
Proof. exact config_kept. Qed.
Print Assumptions C75_kept.

(** False for a run with the copy of an earlier run: the file is accepted and overwritten. *)
Theorem C75_own_copy_refuted : exists E fs w path c w' t, tame_environment E /\ shipped_world w /\ fs_file fs path = Some t /\ snd (Configuration_ctor E fs w path 0) = Ok (c, w') /\
  fs_file (fst (Configuration_ctor E fs w path 0)) path <> Some t.
Proof. exact own_copy_refuted. Qed.
Print Assumptions C75_own_copy_refuted.

(** Instance: the configuration file of the repository. *)
Example C75_instance : forall cfg ID, loaded (machine shipped_config) (disk "config.cfg") "config.cfg" cfg -> value_of cfg "ID" = Some (SString ID) -> "config.cfg"%string <> copy_of (machine shipped_config) ID.
Proof. intros cfg ID _ _. discriminate. Qed.

(** C76: the folder and the copy lie in results/ when the ID is the name of a folder. *)
Theorem C76_inside : forall E ID top, e_top E = (top ++ "/")%string -> slash_free ID -> ~ In ID [""; "."; ".."]%string ->
  leads_to (results_of E ID) = leads_to (e_top E ++ "results") ++ [ID] /\
  leads_to (copy_of E ID) = leads_to (e_top E ++ "results") ++ [ID; (ID ++ ".cfg")%string].
Proof. exact stays_inside. Qed.
Print Assumptions C76_inside.

(** False for other IDs: with "../x" directory and file appear outside of results/. *)
Theorem C76_outside_refuted : exists E fs w path c w' d p, tame_environment E /\ shipped_world w /\ snd (Configuration_ctor E fs w path 0) = Ok (c, w') /\
  fs_dir fs d = false /\ fs_dir (fst (Configuration_ctor E fs w path 0)) d = true /\ fs_file fs p = None /\ (exists t, fs_file (fst (Configuration_ctor E fs w path 0)) p = Some t) /\
  leads_to (e_top E ++ "results") = ["obscura"; "results"]%string /\ leads_to d = ["obscura"; "x"]%string /\ leads_to p = ["obscura"; "x.cfg"]%string.
Proof. exact outside_refuted. Qed.
Print Assumptions C76_outside_refuted.

(** Instance: the ID of the file of the repository. *)
Example C76_instance : e_top (machine shipped_config) = ("/obscura" ++ "/")%string /\ slash_free "test" /\ ~ In "test"%string [""; "."; ".."]%string.
Proof. split; [reflexivity|]. split; [cbn; repeat split; discriminate|]. cbn. intros H. repeat destruct H as [H | H]; try discriminate; exact H. Qed.

(** C77: halo, detector, ID and parameters hold the values of the file. *)
Theorem C77_parts : forall E fs w path rank cfg rows c w', well_formed rows -> full_table rows -> world_history rows w -> readable (e_files E) -> loaded E fs path cfg ->
  snd (Configuration_ctor E fs w path rank) = Ok (c, w') ->
  (exists h, cf_distr c = Some h /\ halo_holds cfg h) /\ (exists d, cf_detector c = Some d /\ detector_asked E cfg rows d) /\
  (exists ID, value_of cfg "ID" = Some (SString ID) /\ cf_ID c = ID /\ cf_results c = results_of E ID) /\
  value_of cfg "constraints_certainty" = Some (SFloat (cf_certainty c)) /\ value_of cfg "constraints_mass_min" = Some (SFloat (cf_mass_min c)) /\
  value_of cfg "constraints_mass_max" = Some (SFloat (cf_mass_max c)) /\ exists z, value_of cfg "constraints_masses" = Some (SInt z) /\ ((0 <= z)%Z -> cf_masses c = z).
Proof. exact configured_parts. Qed.
Print Assumptions C77_parts.

(** A number instead of the list of nuclear targets is not refused; the detector then has no target. *)
Theorem C77_no_targets_refuted : exists E fs w path rank cfg c w' n r, tame_environment E /\ shipped_world w /\ loaded E fs path cfg /\ value_of cfg "DD_targets_nuclear" = Some (SFloat r) /\
  snd (Configuration_ctor E fs w path rank) = Ok (c, w') /\ cf_detector c = Some (DNuclear n) /\ n_targets n = [].
Proof. exact no_targets_refuted. Qed.
Print Assumptions C77_no_targets_refuted.

(** Instance: the configuration file of the repository. *)
Example C77_instance : well_formed shipped_rows /\ full_table shipped_rows /\ world_history shipped_rows world0 /\ readable (e_files (machine shipped_config)) /\
  loaded (machine shipped_config) (disk "config.cfg") "config.cfg" shipped_config /\ exists c w', snd (Configuration_ctor (machine shipped_config) (disk "config.cfg") world0 "config.cfg" 0) = Ok (c, w').
Proof. split; [exact shipped_well_formed|]. split; [exact shipped_full|]. split; [constructor|]. split; [exact F0_readable|]. split; [apply machine_loaded|apply shipped_accepted]. Qed.
