(** How runs of the program end, and which files they leave. *)
From Coq Require Import Reals ZArith String Ascii Lia Lra Bool.
From Coquelicot Require Import Coquelicot.
From Coq Require Import List.
From Verif Require Import Base XrFacts Quadrature Nucleus_Model Nuclear_Model Nuclear_Proofs Particle_Model Particle_Proofs Distribution_Model Distribution_Proofs Astronomy_Model Halo_Model
  Atom_Model Atom_Proofs Crystal_Model Crystal_Proofs CrossSection_Model Rates_Model Detector_Model DetectorTypes_Model Detector_Proofs DetectorSafety_Proofs Experiments_Model Configuration_Model Experiments_Proofs
  Configuration_Proofs ConfigurationRun_Proofs ConfigurationValues_Proofs ConfigurationFiles_Proofs ConfigurationWitness_Proofs Limits_Proofs Fiducial_Proofs LimitsWitness_Proofs Average_Model Summary_Model Summary_Proofs ReachWitness_Proofs
  SummaryValues_Proofs Main_Model Main_Proofs.
Import ListNotations.
Local Open Scope R_scope.

(** * Files *)
Lemma program_files L fs w prog path rest cfg ID t ce fs' r : fs_file fs path = Some t -> e_parse (l_env L) t = Some cfg -> value_of cfg "ID" = Some (SString ID) ->
  value_of cfg "constraints_certainty" = Some (SFloat ce) -> main L fs w (prog :: path :: rest) = (fs', r) ->
  (forall q, fs_dir fs' q <> fs_dir fs q -> (q = (e_top (l_env L) ++ "results")%string \/ q = results_of (l_env L) ID) /\ fs_dir fs' q = true) /\
  (forall q, fs_file fs' q <> fs_file fs q -> q = copy_of (l_env L) ID \/
     exists CL lines, q = (e_top (l_env L) ++ "results/" ++ ID ++ "/DD_Constraints_" ++ to_string CL ++ ".txt")%string /\ r = Ok lines /\ Rabs (IZR CL - 100 * ce) <= 1 / 2) /\
  fs_file fs' (copy_of (l_env L) ID) = fs_file (fst (Configuration_ctor (l_env L) fs w path 0)) (copy_of (l_env L) ID).
Proof.
  intros F P V VC H. destruct (rank_zero (l_env L) fs w path cfg ID t F P V) as (R1 & R2 & _).
  assert (LD : loaded (l_env L) fs path cfg) by (exists t; auto).
  unfold main in H. destruct (Configuration_ctor (l_env L) fs w path 0) as [fs1 r1] eqn:C. cbn [fst] in *.
  assert (Same : (fs', r) = (fs', r) -> fs' = fs1 -> (forall q, fs_dir fs' q <> fs_dir fs q -> (q = (e_top (l_env L) ++ "results")%string \/ q = results_of (l_env L) ID) /\ fs_dir fs' q = true) /\
    (forall q, fs_file fs' q <> fs_file fs q -> q = copy_of (l_env L) ID \/
       exists CL lines, q = (e_top (l_env L) ++ "results/" ++ ID ++ "/DD_Constraints_" ++ to_string CL ++ ".txt")%string /\ r = Ok lines /\ Rabs (IZR CL - 100 * ce) <= 1 / 2) /\
    fs_file fs' (copy_of (l_env L) ID) = fs_file fs1 (copy_of (l_env L) ID)).
  { intros _ ->. split; [exact R1|]. split; [intros q Q; left; apply R2; exact Q|reflexivity]. }
  destruct r1 as [[c w']| | |]; try (injection H as <- <-; apply Same; reflexivity).
  destruct (main_body L c) as [[[ln target] table]| | |] eqn:B; try (injection H as <- <-; apply Same; reflexivity).
  injection H as H1 H2. destruct (e_open (l_env L) fs1 target); [|apply Same; congruence]. clear Same. subst fs' r.
  assert (C' : snd (Configuration_ctor (l_env L) fs w path 0) = Ok (c, w')) by (rewrite C; reflexivity).
  rewrite (ctor_loaded _ _ _ _ _ _ LD) in C'. apply bind_ok in C'. destruct C' as (ID' & I & M). apply read_string_ok in I. rewrite V in I. injection I as <-. apply members_inv in M.
  destruct M as ([p spin] & o & i & ce' & lo' & hi' & k' & M1 & M2 & M3 & M4 & EC). apply parameters_inv in M4. destruct M4 as (W4 & _). rewrite VC in W4. injection W4 as <-.
  apply body_inv in B. destruct B as (summary & p' & spin' & h & i' & rows & d' & p1 & ln' & CL & _ & _ & _ & _ & _ & _ & B7 & _ & _ & B10). subst c. cbn [cf_certainty cf_ID] in *.
  split; [exact R1|]. split.
  - intros q. cbn [put_file fs_file]. destruct (String.eqb_spec q target) as [-> | N]; [|intros Q; left; apply R2; exact Q]. intros _. right. exists CL, ln. split; [exact B10|]. split; [reflexivity|apply confidence_near; exact B7].
  - cbn [put_file fs_file]. destruct (String.eqb_spec (copy_of (l_env L) ID) target) as [E | _]; [|reflexivity]. exfalso. subst target. apply (constraints_not_copy (l_env L) ID CL ID). symmetry. exact E.
Qed.

(** Percentages that are not closer than one half never share a file; closer ones may. *)
Lemma different_percentages E ID ID' c1 c2 CL CL' : confidence_level c1 = Ok CL -> confidence_level c2 = Ok CL' -> ID <> ID' \/ Rabs (100 * c1 - 100 * c2) > 1 ->
  constraints_path E ID CL <> constraints_path E ID' CL'.
Proof.
  intros A B D H. apply constraints_names in H. destruct H as [H1 H2]. destruct D as [D | D]; [contradiction|]. subst CL'. apply confidence_near in A, B. apply Rabs_le_between in A, B.
  assert (Rabs (100 * c1 - 100 * c2) <= 1) by (apply Rabs_le; lra). lra.
Qed.
Lemma round_unique z x : Rabs (IZR z - x) < 1 / 2 -> round_away x = z.
Proof.
  intros H. apply Rabs_lt_between in H. pose proof (round_away_near x) as A. apply Rabs_le_between in A.
  assert (L1 : (round_away x < z + 1)%Z) by (apply lt_IZR; rewrite plus_IZR; lra). assert (L2 : (z < round_away x + 1)%Z) by (apply lt_IZR; rewrite plus_IZR; lra). lia.
Qed.
Lemma level_of c z : (- 2147483648 <= z <= 2147483647)%Z -> Rabs (IZR z - 100 * c) < 1 / 2 -> confidence_level c = Ok z.
Proof.
  intros B H. unfold confidence_level. cbv zeta. rewrite (round_unique z) by (replace (100.0 * c) with (100 * c) by lra; exact H).
  destruct (Z.leb_spec (- 2147483648) z); [|lia]. destruct (Z.leb_spec z 2147483647); [|lia]. reflexivity.
Qed.
Lemma same_file : exists c1 c2, 0 < c1 < c2 /\ c2 < 1 /\ confidence_level c1 = Ok 90%Z /\ confidence_level c2 = Ok 90%Z.
Proof. exists 0.9, 0.904. split; [lra|]. split; [lra|]. split; apply level_of; try lia; apply Rabs_def1; lra. Qed.

(** * Ends of the program *)
Lemma program_no_argument L fs w args : (List.length args <= 1)%nat -> main L fs w args = (fs, UB).
Proof. destruct args as [|a [|b t]]; cbn; intros; try reflexivity. lia. Qed.
Lemma program_not_loaded L fs w prog path rest : (forall cfg, ~ loaded (l_env L) fs path cfg) -> main L fs w (prog :: path :: rest) = (fs, Exit).
Proof. intros H. unfold main. rewrite (ctor_not_loaded _ _ _ _ _ H). reflexivity. Qed.

Lemma program_crystals L fs w prog path rest cfg x lines : loaded (l_env L) fs path cfg -> value_of cfg "DD_experiment" = Some (SString x) -> In x crystal_experiments ->
  snd (main L fs w (prog :: path :: rest)) <> Ok lines.
Proof.
  intros LD V I H. destruct (main L fs w (prog :: path :: rest)) as [fs' r] eqn:M. cbn [snd] in H. subst r. apply main_inv in M. destruct M as (fs1 & c & w' & target & table & C & B & _).
  apply body_inv in B. destruct B as (summary & _ & _ & _ & _ & _ & _ & _ & _ & _ & B & _).
  destruct (configuration_printing (l_env L) fs w path 0 cfg c w' x LD V) as [K _]; [rewrite C; reflexivity|]. exact (K I _ _ _ B).
Qed.

(** Rows of a curve are pairs. *)
Lemma loop_pairs FR X V cert lowest masses : forall d p l d' p', limit_curve_loop FR X V cert lowest d p masses = Ok (l, d', p') -> exists pts, l = map (fun mu : xr * xr => [fst mu; snd mu]) pts.
Proof.
  induction masses as [|m t IH]; intros d p l d' p' H; cbn [limit_curve_loop] in H.
  - apply Ok_inj in H. injection H as <- _ _. exists []. reflexivity.
  - destruct (xlt m lowest); [eapply IH; eauto|]. cbv zeta in H. apply bind_ok in H. destruct H as ([[u d1] p2] & U & H). apply bind_ok in H. destruct H as ([[re d2] p3] & R & H).
    apply IH in R. destruct R as [pts ->]. apply Ok_inj in H. destruct (xlt _ u); injection H as <- _ _; [exists ((m, u) :: pts)|exists pts]; reflexivity.
Qed.
Lemma progress_ok (Round : rounding) pts : exists ln, progress Round (map (fun mu : xr * xr => [fst mu; snd mu]) pts) = Ok ln.
Proof.
  unfold progress. set (n := List.length _) at 1. clearbody n. rewrite map_length. generalize 0%nat. induction pts as [|[m u] t IH]; intros j; [eexists; reflexivity|].
  cbn [List.length seq map combine map_res]. destruct (IH (Datatypes.S j)) as [ln ->]. unfold progress_line. cbn [at_ub nth_error bind fst snd]. eexists. reflexivity.
Qed.

(** With a detector whose summary can be printed the program ends as the computation of the limits does. *)
Lemma program_ends L fs w prog path rest cfg x c w' p spin h i ce : loaded (l_env L) fs path cfg -> value_of cfg "DD_experiment" = Some (SString x) -> ~ In x crystal_experiments ->
  value_of cfg "constraints_certainty" = Some (SFloat ce) -> 0 <= ce <= 1 ->
  snd (Configuration_ctor (l_env L) fs w path 0) = Ok (c, w') -> cf_DM c = Some (p, spin) -> cf_distr c = Some h -> cf_detector c = Some i ->
  (exists out, print_halo (l_Round L) (l_integrals L) 0 h = Ok out) ->
  (exists res, Upper_Limit_Curve (l_Find_Root L) (l_statistics L) (instrument_virtuals (l_externals L) (distribution_interface (l_env L) h) i) (instrument_base i) p (requested_masses L c) (Fin ce) = Ok res) ->
  exists lines, snd (main L fs w (prog :: path :: rest)) = Ok lines.
Proof.
  intros LD V N VC CE C DM DH DD [out PH] [[[rows d'] p'] U]. destruct (configuration_printing (l_env L) fs w path 0 cfg c w' x LD V C) as [_ K]. destruct (K N (l_Round L) (l_integrals L) h out DH PH) as [summary S].
  assert (CC : cf_certainty c = ce).
  { rewrite (ctor_loaded _ _ _ _ _ _ LD) in C. apply bind_ok in C. destruct C as (ID' & I & M). apply members_inv in M. destruct M as (? & ? & ? & ce' & ? & ? & ? & _ & _ & _ & M4 & ->). apply parameters_inv in M4. destruct M4 as (W4 & _). cbn. congruence. }
  destruct (confidence_ok ce CE) as (CL & CLE & _). unfold main. destruct (Configuration_ctor (l_env L) fs w path 0) as [fs1 r1]. cbn [snd] in C. subst r1. unfold main_body. rewrite S. cbn [bind]. rewrite DM, DH, DD. cbv zeta. rewrite CC, U. cbn [bind].
  assert (PR : exists pts, rows = map (fun mu : xr * xr => [fst mu; snd mu]) pts).
  { unfold Upper_Limit_Curve in U. apply bind_ok in U. destruct U as (lowest & _ & U). apply bind_ok in U. destruct U as ([[l d1] p1] & LP & U). apply Ok_inj in U. injection U as <- _ _. eapply loop_pairs; eauto. }
  destruct PR as [pts ->]. destruct (progress_ok (l_Round L) pts) as [ln ->]. cbn [bind]. rewrite CLE. cbn [bind]. rewrite exported_rows. cbn [bind]. eexists. reflexivity.
Qed.

(** * Photoelectron experiments *)
Lemma photoelectron_bins F p s X DM D v : counts_as F (pb_counting p) (DIonization s) -> In p (map snd publications) -> counts_photoelectrons p = true -> Ionization_Binned X DM D s <> Ok v.
Proof.
  intros CO IP NP. unfold counts_photoelectrons in NP. destruct (pb_counting p) as [e lo hi|first l|ed l|lo hi file] eqn:PC; try discriminate.
  assert (LE : exists lo hi rest, ed = lo :: hi :: rest /\ (lo <= u32 (hi - 1))%Z /\ l <> []).
  { unfold publications in IP. cbn [map snd In] in IP.
    repeat (destruct IP as [<- | IP]; [cbn [pb_counting] in PC; try discriminate|]). all: try (destruct IP; fail).
    all: injection PC as <- <-; do 3 eexists; split; [reflexivity|split; [vm_compute; discriminate|discriminate]]. }
  destruct LE as (lo & hi & rest & -> & LE & NL).
  cbn [counts_as] in CO. destruct CO as ((A & B1 & B2 & _) & U & CO). destruct CO as (C1 & C2 & C3). cbn [instrument_base] in *.
  unfold Ionization_Binned. rewrite A, U, C2, C1. unfold DM_Signals_PE_Bins. rewrite C1, C3, B2. cbn [negb].
  destruct (map_res (R_ne X DM D s) (Zrange 1 100)) as [sp| | |] eqn:SP; try discriminate. cbn [bind]. apply spectrum_length in SP.
  rewrite Nat2Z.id. destruct l as [|e l]; [congruence|]. cbn [length seq map_res at_ub nth_error bind].
  destruct (R_S2_Bin X DM D s lo (u32 (hi - 1)) sp) as [r| | |] eqn:K; try discriminate. exfalso. revert K. apply S2_loop_not_ok; auto.
Qed.
Lemma photoelectron_limit F p s FR S X D q ce v : counts_as F (pb_counting p) (DIonization s) -> In p (map snd publications) -> counts_photoelectrons p = true ->
  Upper_Limit FR S (ionization_virtuals X D s) (i_base s) q ce <> Ok v.
Proof.
  intros CO IP NP H. unfold Upper_Limit in H. apply bind_ok in H. destruct H as (orig & _ & H). apply bind_ok in H. destruct H as (d1 & K & _). unfold set_fiducial in K.
  assert (A : b_analysis (i_base s) = Binned_Poisson).
  { unfold counts_photoelectrons in NP. destruct (pb_counting p); try discriminate. cbn [counts_as instrument_base] in CO. destruct CO as ((A & _) & _). exact A. }
  rewrite A in K. cbv zeta in K. apply bind_ok in K. destruct K as (l & K & _). cbn [ionization_virtuals v_binned] in K. revert K. apply (photoelectron_bins F p); auto.
Qed.
Lemma photoelectron_loop F p s FR S X D ce lowest masses : counts_as F (pb_counting p) (DIonization s) -> In p (map snd publications) -> counts_photoelectrons p = true ->
  forall q l d' q', limit_curve_loop FR S (ionization_virtuals X D s) ce lowest (i_base s) q masses = Ok (l, d', q') -> l = [] /\ Forall (fun m => xlt m lowest = true) masses.
Proof.
  intros CO IP NP. induction masses as [|m t IH]; intros q l d' q' H; cbn [limit_curve_loop] in H.
  - apply Ok_inj in H. injection H as <- _ _. split; [reflexivity|constructor].
  - destruct (xlt m lowest) eqn:LT; [apply IH in H; destruct H; split; [assumption|constructor; assumption]|]. cbv zeta in H. apply bind_ok in H. destruct H as (u & U & _).
    exfalso. revert U. apply (photoelectron_limit F p); auto.
Qed.
Lemma detector_base rows F p d : realises rows F p d -> In p (map snd publications) -> counts_photoelectrons p = true -> exists s, d = DIonization s /\ counts_as F (pb_counting p) (DIonization s).
Proof.
  intros (_ & _ & _ & _ & _ & CO) _ NP. unfold counts_photoelectrons in NP. destruct (pb_counting p); try discriminate. destruct d as [n|s|s]; [cbn [counts_as] in CO; tauto|exists s; auto|cbn [counts_as] in CO; tauto].
Qed.

Lemma program_photoelectrons L fs w prog path rest cfg rows x pub fs' lines : well_formed rows -> full_table rows -> world_history rows w -> readable (e_files (l_env L)) -> loaded (l_env L) fs path cfg ->
  value_of cfg "DD_experiment" = Some (SString x) -> In (x, pub) publications -> counts_photoelectrons pub = true -> main L fs w (prog :: path :: rest) = (fs', Ok lines) ->
  exists c w' p spin h i lowest, snd (Configuration_ctor (l_env L) fs w path 0) = Ok (c, w') /\ cf_DM c = Some (p, spin) /\ cf_distr c = Some h /\ cf_detector c = Some i /\
    v_minimum_mass (instrument_virtuals (l_externals L) (distribution_interface (l_env L) h) i) (instrument_base i) p = Ok lowest /\
    Forall (fun m => xlt m lowest = true) (requested_masses L c).
Proof.
  intros WF FT WH RF LD V IP NP M. apply main_inv in M. destruct M as (fs1 & c & w' & target & table & C & B & _).
  assert (C' : snd (Configuration_ctor (l_env L) fs w path 0) = Ok (c, w')) by (rewrite C; reflexivity).
  destruct (configured_parts (l_env L) _ _ _ _ _ rows _ _ WF FT WH RF LD C') as (_ & (d & DD & (x' & VX & DA)) & _). rewrite V in VX. injection VX as <-.
  assert (R : exists pub', In (x, pub') publications /\ realises rows (e_files (l_env L)) pub' d /\ counts_photoelectrons pub' = true).
  { destruct DA as [(_ & pub' & I' & R') | (U & _)].
    - exists pub'. split; [exact I'|]. split; [exact R'|]. clear - IP NP I'. unfold publications in IP, I'. cbn [In] in IP, I'.
      repeat (destruct IP as [IP | IP]; [injection IP as <- <-; cbn in NP; try discriminate NP; repeat (destruct I' as [I' | I']; [try discriminate I'; injection I' as <-; reflexivity|]); destruct I'|]). destruct IP.
    - exfalso. clear - IP U. unfold publications in IP. cbn [In] in IP. unfold user_defined in U. repeat (destruct IP as [IP | IP]; [injection IP as <- _; cbn [In] in U; repeat (destruct U as [U | U]; [discriminate U|]); destruct U|]). destruct IP. }
  destruct R as (pub' & I' & R & NP'). assert (IN : In pub' (map snd publications)) by (apply (in_map snd) in I'; exact I'). destruct (detector_base _ _ _ _ R IN NP') as (s & -> & CO).
  apply body_inv in B. destruct B as (summary & p & spin & h & i & rws & d' & p1 & ln' & CL & B1 & B2 & B3 & B4 & B5 & _). rewrite DD in B4. injection B4 as <-.
  unfold Upper_Limit_Curve in B5. apply bind_ok in B5. destruct B5 as (lowest & LO & U). apply bind_ok in U. destruct U as ([[l d1] p2] & LP & U). cbn [instrument_virtuals instrument_base] in LP.
  apply (photoelectron_loop (e_files (l_env L)) pub') in LP; auto. exists c, w', p, spin, h, (DIonization s), lowest. repeat (split; [assumption|]). apply LP.
Qed.

(** * Divergent interactions *)
Lemma configured_interaction cfg q spin : Construct_DM_Particle cfg = Ok (q, spin) -> value_of cfg "DM_interaction" = Some (SString (kind_name (kind q))) /\
  (kind q = SI -> value_of cfg "DM_form_factor" = Some (SString (FF_DM q))).
Proof.
  intros H. apply particle_inv in H. destruct H as (m & sp & f & b & i & p3 & V1 & V2 & V3 & V4 & V5 & II & ST & -> & ->).
  apply standard_inv in ST; [|exact II]. destruct ST as (k & p0 & x & y & p1 & sn & p2 & se & -> & K1 & K2 & RC & FX & V6 & S2 & V7 & ->).
  destruct (bare_particle cfg k p0 K1 K2) as (_ & _ & _ & KP & FFV). destruct (interaction_frame _ _ _ _ S2) as (IK & IR & IF & IFF & IM). destruct (ratio_frame _ _ _ _ FX) as (RK & RFF & RM).
  set (p3 := Set_Sigma_Electron (Fin (se * (cm * cm))) p2). pose proof (Set_Mass_frame (Fin (m * GeV)) p3) as MF. cbv zeta in MF. decompose [and] MF. clear MF. set (q := Set_Mass (Fin (m * GeV)) p3) in *.
  assert (K : kind q = k) by (match goal with H : kind q = _ |- _ => rewrite H end; unfold p3; cbn; congruence).
  assert (FF : FF_DM q = FF_DM p0) by (match goal with H : FF_DM q = _ |- _ => rewrite H end; unfold p3; cbn; congruence).
  cbn [kind with_low_mass with_density FF_DM]. rewrite K, FF. split; [exact V5|]. intros KS. apply FFV. exact KS.
Qed.
Lemma isotopes_of_table rows z zs n ts : in_table rows z -> Forall2 (element_of_table rows) (z :: zs) (n :: ts) -> flat_map nisotopes (n :: ts) <> [].
Proof.
  intros (r & I & R) F. inversion F as [|? ? ? ? (_ & _ & E) _]; subst. cbn [flat_map]. intros N. apply app_eq_nil in N. destruct N as [N _]. rewrite N in E. inversion E as [Q|].
  assert (In r (filter (fun r0 => (rw_Z r0 =? rw_Z r)%Z) rows)) by (apply filter_In; split; [exact I|apply Z.eqb_refl]). rewrite <- Q in H. destruct H.
Qed.
Lemma unique_publication x p p' : In (x, p) publications -> In (x, p') publications -> p = p'.
Proof.
  intros A B. unfold publications in A, B. cbn [In] in A, B.
  repeat (destruct A as [A | A]; [injection A as <- <-; repeat (destruct B as [B | B]; [try discriminate B; injection B as <-; reflexivity|]); destruct B|]). destruct A.
Qed.
Lemma not_user x p : In (x, p) publications -> ~ In x user_defined.
Proof.
  intros IP U. unfold publications in IP. cbn [In] in IP. unfold user_defined in U. repeat (destruct IP as [IP | IP]; [injection IP as <- _; cbn [In] in U; repeat (destruct U as [U | U]; [discriminate U|]); destruct U|]). destruct IP.
Qed.

Lemma program_divergent L fs w prog path rest cfg rows x pub zs ff lines : well_formed rows -> full_table rows -> world_history rows w -> readable (e_files (l_env L)) -> loaded (l_env L) fs path cfg ->
  value_of cfg "DM_interaction" = Some (SString "SI") -> value_of cfg "DM_form_factor" = Some (SString ff) -> In ff ["Electric-Dipole"; "Long-Range"]%string ->
  value_of cfg "DD_experiment" = Some (SString x) -> In (x, pub) publications -> pb_material pub = Nuclei_of zs -> snd (main L fs w (prog :: path :: rest)) <> Ok lines.
Proof.
  intros WF FT WH RF LD VI VF IF V IP PM M. destruct (main L fs w (prog :: path :: rest)) as [fs' r] eqn:MM. cbn [snd] in M. subst r. apply main_inv in MM. destruct MM as (fs1 & c & w' & target & table & C & B & _).
  assert (C' : snd (Configuration_ctor (l_env L) fs w path 0) = Ok (c, w')) by (rewrite C; reflexivity).
  destruct (configured_parts (l_env L) _ _ _ _ _ rows _ _ WF FT WH RF LD C') as (_ & (d & DD & (x' & VX & DA)) & _). rewrite V in VX. injection VX as <-.
  destruct DA as [(_ & pub' & I' & R) | (U & _)]; [|exact (not_user x pub IP U)]. rewrite (unique_publication _ _ _ I' IP) in R. clear I' pub'.
  apply body_inv in B. destruct B as (summary & p & spin & h & i & rws & d' & p1 & ln' & CL & B1 & B2 & B3 & B4 & B5 & _). rewrite DD in B4. injection B4 as <-.
  rewrite (ctor_loaded _ _ _ _ _ _ LD) in C'. apply bind_ok in C'. destruct C' as (ID' & _ & C'). apply members_inv in C'. destruct C' as ([q s'] & ? & ? & ? & ? & ? & ? & M1 & _ & _ & _ & EC). subst c. cbn [cf_DM] in B2. injection B2 as -> ->.
  apply configured_interaction in M1. destruct M1 as [K1 K2]. rewrite VI in K1. assert (K : kind p = SI) by (destruct (kind p); [reflexivity|discriminate K1]). specialize (K2 K). rewrite VF in K2. injection K2 as K2.
  destruct R as (_ & _ & _ & _ & MO & _). rewrite PM in MO. destruct d as [n|s|s]; cbn [made_of] in MO; try tauto. destruct MO as (T & _).
  unfold Upper_Limit_Curve in B5. apply bind_ok in B5. destruct B5 as (lowest & LO & _). cbn [instrument_virtuals nuclear_virtuals v_minimum_mass instrument_base] in LO.
  rewrite long_range_exits in LO; [discriminate LO|exact K| |].
  - unfold IR_divergent. rewrite <- K2. destruct IF as [<- | [<- | []]]; reflexivity.
  - unfold all_isotopes. replace (n_targets (with_n_base (n_base n) n)) with (n_targets n) by (destruct n; reflexivity).
    assert (Z : exists z t, zs = z :: t /\ (1 <= z <= 92)%Z).
    { clear - IP PM. unfold publications in IP. cbn [In] in IP. repeat (destruct IP as [IP | IP]; [injection IP as <- <-; cbn [pb_material] in PM; first [discriminate PM | injection PM as <-; eexists _, _; split; [reflexivity|lia]]|]). destruct IP. }
    destruct Z as (z & t & -> & Z). inversion T as [|? n0 ? ts E1 E2 EQ1 EQ2]. apply (isotopes_of_table rows z t). { apply FT; exact Z. } constructor; assumption.
Qed.

Lemma photoelectrons_end L fs w prog path rest cfg rows x pub c w' p spin h i lowest m lines : well_formed rows -> full_table rows -> world_history rows w -> readable (e_files (l_env L)) ->
  loaded (l_env L) fs path cfg -> value_of cfg "DD_experiment" = Some (SString x) -> In (x, pub) publications -> counts_photoelectrons pub = true ->
  snd (Configuration_ctor (l_env L) fs w path 0) = Ok (c, w') -> cf_DM c = Some (p, spin) -> cf_distr c = Some h -> cf_detector c = Some i ->
  v_minimum_mass (instrument_virtuals (l_externals L) (distribution_interface (l_env L) h) i) (instrument_base i) p = Ok lowest ->
  In m (requested_masses L c) -> xlt m lowest = false -> snd (main L fs w (prog :: path :: rest)) <> Ok lines.
Proof.
  intros WF FT WH RF LD V IP NP C D1 D2 D3 LO IM X M. destruct (main L fs w (prog :: path :: rest)) as [fs' r] eqn:MM. cbn [snd] in M. subst r.
  destruct (program_photoelectrons L fs w prog path rest cfg rows x pub fs' lines WF FT WH RF LD V IP NP MM) as (c' & w1 & p' & spin' & h' & i' & lowest' & C' & E1 & E2 & E3 & LO' & F).
  rewrite C in C'. apply Ok_inj in C'. injection C' as <- <-. rewrite D1 in E1. rewrite D2 in E2. rewrite D3 in E3. injection E1 as <- <-. injection E2 as <-. injection E3 as <-. rewrite LO in LO'. apply Ok_inj in LO'. subst lowest'.
  rewrite Forall_forall in F. rewrite (F m IM) in X. discriminate X.
Qed.
