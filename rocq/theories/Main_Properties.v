(** C105 to C107: the program. *)
From Coq Require Import Reals ZArith String Lra Lia Bool.
From Coq Require Import List.
From Verif Require Import Base XrFacts Nucleus_Model Nuclear_Model Nuclear_Proofs Particle_Model Detector_Model DetectorTypes_Model Experiments_Model Experiments_Proofs Configuration_Model
  Configuration_Proofs ConfigurationRun_Proofs ConfigurationValues_Proofs ConfigurationFiles_Proofs ConfigurationWitness_Proofs Limits_Proofs Summary_Model Summary_Proofs SummaryValues_Proofs Main_Model Main_Proofs MainEnds_Proofs MainWitness_Proofs.
Import ListNotations.
Local Open Scope R_scope.

(** C105: when the program ends normally, the file and the lines of progress hold the limits for the particle, halo and detector of the configuration, one row for every mass of the grid that the detector can see and that has a limit: [limit_at] is the result of Upper_Limit at that mass. *)
Theorem C105_table : forall L fs w prog path rest cfg lo hi k ce fs' lines, only_evaluates (l_Find_Root L) -> loaded (l_env L) fs path cfg -> proper_particle cfg -> proper_limits cfg lo hi k ce ->
  main L fs w (prog :: path :: rest) = (fs', Ok lines) ->
  exists ID p h i lowest summary CL, value_of cfg "ID" = Some (SString ID) /\ asked_for (l_env L) w cfg p h i /\
    let V := instrument_virtuals (l_externals L) (distribution_interface (l_env L) h) i in
    let points := limit_points (l_Find_Root L) (l_statistics L) V (instrument_base i) p (Fin ce) lowest (mass_grid lo hi k) in
    v_minimum_mass V (instrument_base i) p = Ok lowest /\
    (forall m, In m (mass_grid lo hi k) -> xlt m lowest = false -> exists u, limit_at (l_Find_Root L) (l_statistics L) V (instrument_base i) p (Fin ce) m = Some u) /\
    Rabs (IZR CL - 100 * ce) <= 1 / 2 /\
    lines = (summary ++ progress_lines (l_Round L) points)%list /\
    ((forall g q, e_open (l_env L) g q = true) ->
       fs_file fs' (e_top (l_env L) ++ "results/" ++ ID ++ "/DD_Constraints_" ++ to_string CL ++ ".txt")%string = Some (l_text L (file_rows points))).
Proof. exact program_table. Qed.
Print Assumptions C105_table.

(** The masses of the grid go from the lowest to the highest requested mass, with a constant ratio. *)
Theorem C105_grid : forall lo hi k, 0 < lo -> 0 < hi -> (2 <= k)%nat -> mass_at lo hi k 0 = lo /\ mass_at lo hi k (k - 1) = hi /\
  (forall i, (S i < k)%nat -> mass_at lo hi k (S i) = mass_at lo hi k i * Rpower (hi / lo) (1 / INR (k - 1))) /\
  (lo <= hi -> forall i, (i < k)%nat -> lo <= mass_at lo hi k i <= hi).
Proof. exact mass_grid_ends. Qed.
Print Assumptions C105_grid.

(** Instance: a run that ends normally. *)
Example C105_instance : only_evaluates (l_Find_Root (box recoil_config)) /\ loaded (l_env (box recoil_config)) (disk "a.cfg") "a.cfg" recoil_config /\ proper_particle recoil_config /\
  proper_limits recoil_config 0.02 1 10 0.95 /\ exists fs' lines, main (box recoil_config) (disk "a.cfg") world0 ["obscura"; "a.cfg"]%string = (fs', Ok lines).
Proof.
  split; [intros S f a b eps s r s' inv I _ H; cbn [box l_Find_Root] in H; unfold first_end in H; apply Ok_inj in H; injection H as _ <-; exact I|]. split; [apply machine_loaded|].
  split; [exists 0.1, (1 / 10 ^ 36), (1 / 10 ^ 36), 1, 1; assert (P : 0 <= 1 / 10 ^ 36) by (apply Rlt_le, Rdiv_lt_0_compat; [lra|apply pow_lt; lra]); split; [reflexivity|]; split; [lra|]; split; [reflexivity|]; split; [exact P|]; split; [reflexivity|]; split; [exact P|]; split; [left; split; [reflexivity|split; reflexivity]|lra]|].
  split; [|exact recoil_run]. split; [reflexivity|]. split; [lra|]. split; [cbn; do 2 f_equal; lra|]. split; [lra|]. split; [reflexivity|]. split; [lia|]. split; [lia|reflexivity].
Qed.

(** C106: a run makes at most the directories of the results, and writes at most the copy of the configuration and, when it ends normally, one table whose name holds the rounded certainty in percent. The table does not replace the copy. *)
Theorem C106_files : forall L fs w prog path rest cfg ID t ce fs' r, fs_file fs path = Some t -> e_parse (l_env L) t = Some cfg -> value_of cfg "ID" = Some (SString ID) ->
  value_of cfg "constraints_certainty" = Some (SFloat ce) -> main L fs w (prog :: path :: rest) = (fs', r) ->
  (forall q, fs_dir fs' q <> fs_dir fs q -> (q = (e_top (l_env L) ++ "results")%string \/ q = results_of (l_env L) ID) /\ fs_dir fs' q = true) /\
  (forall q, fs_file fs' q <> fs_file fs q -> q = copy_of (l_env L) ID \/
     exists CL lines, q = (e_top (l_env L) ++ "results/" ++ ID ++ "/DD_Constraints_" ++ to_string CL ++ ".txt")%string /\ r = Ok lines /\ Rabs (IZR CL - 100 * ce) <= 1 / 2) /\
  fs_file fs' (copy_of (l_env L) ID) = fs_file (fst (Configuration_ctor (l_env L) fs w path 0)) (copy_of (l_env L) ID).
Proof. exact program_files. Qed.
Print Assumptions C106_files.

(** Tables of runs with different identifiers, or with certainties more than one percent apart, have different names. *)
Theorem C106_names : forall E ID ID' c1 c2 CL CL', confidence_level c1 = Ok CL -> confidence_level c2 = Ok CL' -> ID <> ID' \/ Rabs (100 * c1 - 100 * c2) > 1 ->
  constraints_path E ID CL <> constraints_path E ID' CL'.
Proof. exact different_percentages. Qed.
Print Assumptions C106_names.

(** Two different certainties that are rounded to the same percentage: the second run overwrites the table of the first. *)
Theorem C106_same_refuted : exists c1 c2, 0 < c1 < c2 /\ c2 < 1 /\ confidence_level c1 = Ok 90%Z /\ confidence_level c2 = Ok 90%Z.
Proof. exact same_file. Qed.
Print Assumptions C106_same_refuted.

(** Instance: the settings of the run above; certainties 0.9 and 0.95. *)
Example C106_instance : fs_file (disk "a.cfg") "a.cfg" = Some "settings"%string /\ e_parse (machine recoil_config) "settings" = Some recoil_config /\ value_of recoil_config "ID" = Some (SString "test") /\
  value_of recoil_config "constraints_certainty" = Some (SFloat 0.95) /\ confidence_level 0.95 = Ok 95%Z /\ confidence_level 0.9 = Ok 90%Z /\ Rabs (100 * 0.95 - 100 * 0.9) > 1.
Proof.
  split; [reflexivity|]. split; [reflexivity|]. split; [reflexivity|]. split; [reflexivity|]. split; [apply level_of; [lia|apply Rabs_def1; lra]|]. split; [apply level_of; [lia|apply Rabs_def1; lra]|]. rewrite Rabs_pos_eq; lra.
Qed.

(** C107: for an accepted configuration whose experiment is not one of the six predefined semiconductor experiments, the program ends normally if the averages of the halo can be computed and the limits can be computed. *)
Theorem C107_ends : forall L fs w prog path rest cfg x c w' p spin h i ce, loaded (l_env L) fs path cfg -> value_of cfg "DD_experiment" = Some (SString x) -> ~ In x crystal_experiments ->
  value_of cfg "constraints_certainty" = Some (SFloat ce) -> 0 <= ce <= 1 ->
  snd (Configuration_ctor (l_env L) fs w path 0) = Ok (c, w') -> cf_DM c = Some (p, spin) -> cf_distr c = Some h -> cf_detector c = Some i ->
  (exists out, print_halo (l_Round L) (l_integrals L) 0 h = Ok out) ->
  (exists res, Upper_Limit_Curve (l_Find_Root L) (l_statistics L) (instrument_virtuals (l_externals L) (distribution_interface (l_env L) h) i) (instrument_base i) p (requested_masses L c) (Fin ce) = Ok res) ->
  exists lines, snd (main L fs w (prog :: path :: rest)) = Ok lines.
Proof. exact program_ends. Qed.
Print Assumptions C107_ends.

(** Instance: a run that ends normally, and its detector. *)
Example C107_instance : (exists fs' lines, main (box recoil_config) (disk "a.cfg") world0 ["obscura"; "a.cfg"]%string = (fs', Ok lines)) /\
  value_of recoil_config "DD_experiment" = Some (SString "Nuclear recoil") /\ ~ In "Nuclear recoil"%string crystal_experiments.
Proof. split; [exact recoil_run|]. split; [reflexivity|]. unfold crystal_experiments. cbn [In]. intros Q. repeat (destruct Q as [Q | Q]; [discriminate Q|]). destruct Q. Qed.

(** Without a readable configuration the program exits and changes nothing. *)
Theorem C107_not_loaded : forall L fs w prog path rest, (forall cfg, ~ loaded (l_env L) fs path cfg) -> main L fs w (prog :: path :: rest) = (fs, Exit).
Proof. exact program_not_loaded. Qed.
Print Assumptions C107_not_loaded.

(** Without an argument its behaviour is undefined. *)
Theorem C107_no_argument : forall L fs w args, (List.length args <= 1)%nat -> main L fs w args = (fs, UB).
Proof. exact program_no_argument. Qed.
Print Assumptions C107_no_argument.

(** For the six predefined semiconductor experiments it never ends normally ... *)
Theorem C107_crystals : forall L fs w prog path rest cfg x lines, loaded (l_env L) fs path cfg -> value_of cfg "DD_experiment" = Some (SString x) -> In x crystal_experiments ->
  snd (main L fs w (prog :: path :: rest)) <> Ok lines.
Proof. exact program_crystals. Qed.
Print Assumptions C107_crystals.

(** ... so a valid configuration does not suffice. *)
Theorem C107_crystals_refuted : exists E fs w path cfg, valid_setup E fs w path cfg /\ value_of cfg "DD_experiment" = Some (SString "SENSEI@MINOS") /\
  forall L prog rest lines, l_env L = E -> snd (main L fs w (prog :: path :: rest)) <> Ok lines.
Proof. exact crystal_never. Qed.
Print Assumptions C107_crystals_refuted.

(** For long range and electric dipole interactions and a predefined nuclear recoil experiment it never ends normally ... *)
Theorem C107_divergent : forall L fs w prog path rest cfg rows x pub zs ff lines, well_formed rows -> full_table rows -> world_history rows w -> readable (e_files (l_env L)) -> loaded (l_env L) fs path cfg ->
  value_of cfg "DM_interaction" = Some (SString "SI") -> value_of cfg "DM_form_factor" = Some (SString ff) -> In ff ["Electric-Dipole"; "Long-Range"]%string ->
  value_of cfg "DD_experiment" = Some (SString x) -> In (x, pub) publications -> pb_material pub = Nuclei_of zs -> snd (main L fs w (prog :: path :: rest)) <> Ok lines.
Proof. exact program_divergent. Qed.
Print Assumptions C107_divergent.

(** ... although long range interactions are a documented choice. *)
Theorem C107_divergent_refuted : exists E fs w path cfg, valid_setup E fs w path cfg /\ value_of cfg "DD_experiment" = Some (SString "XENON1T_N_2017") /\ value_of cfg "DM_form_factor" = Some (SString "Long-Range") /\
  forall L prog rest lines, l_env L = E -> snd (main L fs w (prog :: path :: rest)) <> Ok lines.
Proof. exact long_range_never. Qed.
Print Assumptions C107_divergent_refuted.

(** For the four experiments counting photoelectrons it never ends normally if at least one mass is within reach. *)
Theorem C107_photoelectrons : forall L fs w prog path rest cfg rows x pub c w' p spin h i lowest m lines, well_formed rows -> full_table rows -> world_history rows w -> readable (e_files (l_env L)) ->
  loaded (l_env L) fs path cfg -> value_of cfg "DD_experiment" = Some (SString x) -> In (x, pub) publications -> counts_photoelectrons pub = true ->
  snd (Configuration_ctor (l_env L) fs w path 0) = Ok (c, w') -> cf_DM c = Some (p, spin) -> cf_distr c = Some h -> cf_detector c = Some i ->
  v_minimum_mass (instrument_virtuals (l_externals L) (distribution_interface (l_env L) h) i) (instrument_base i) p = Ok lowest ->
  In m (requested_masses L c) -> xlt m lowest = false -> snd (main L fs w (prog :: path :: rest)) <> Ok lines.
Proof. exact photoelectrons_end. Qed.
Print Assumptions C107_photoelectrons.

(** Such a configuration. *)
Theorem C107_photoelectrons_refuted : exists E fs w path cfg, valid_setup E fs w path cfg /\ value_of cfg "DD_experiment" = Some (SString "XENON10_S2") /\
  forall L prog rest lines, l_env L = E -> snd (main L fs w (prog :: path :: rest)) <> Ok lines.
Proof. exact xenon10_never. Qed.
Print Assumptions C107_photoelectrons_refuted.
