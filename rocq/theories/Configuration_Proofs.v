(** Lemmas about reading a configuration file. *)
From Coq Require Import Reals ZArith String Ascii Lia Lra Bool.
From Coquelicot Require Import Coquelicot.
From Coq Require Import List.
From Verif Require Import Base XrFacts Quadrature Nucleus_Model Nuclear_Model Nuclear_Proofs Particle_Model Particle_Proofs Distribution_Model Distribution_Proofs Astronomy_Model Halo_Model
  Atom_Model Atom_Proofs Crystal_Model Crystal_Proofs Rates_Model Detector_Model DetectorTypes_Model Detector_Proofs DetectorSafety_Proofs Experiments_Model Configuration_Model Experiments_Proofs.
Import ListNotations.
Local Open Scope R_scope.

(** * Specification: which settings a configuration needs *)
(** The value of a setting; the first of that name counts. *)
Fixpoint value_of (cfg : settings) (name : string) : option setting :=
  match cfg with
  | [] => None
  | (k, v) :: t => if (k =? name)%string then Some v else value_of t name
  end.

(** Types of values: floating point number, true or false, text, integer, three numbers, a list starting with two numbers, a list of
    (amount, charge) - where anything that is not a list counts as the empty one. *)
Definition number (s : setting) : Prop := exists r, s = SFloat r.
Definition flag (s : setting) : Prop := exists b, s = SBool b.
Definition text (s : setting) : Prop := exists t, s = SString t.
Definition whole (s : setting) : Prop := exists z, s = SInt z.
Definition triple (s : setting) : Prop := exists x y z, s = SAggregate [SFloat x; SFloat y; SFloat z].
Definition pair (s : setting) : Prop := exists x y t, s = SAggregate (SFloat x :: SFloat y :: t).
Definition items (s : setting) : list setting := match s with SAggregate l => l | _ => [] end.
Definition target (s : setting) : Prop := exists a z t, s = SAggregate (SFloat a :: SInt z :: t).
Definition target_list (s : setting) : Prop := Forall target (items s).

Definition user_defined : list string := ["Nuclear recoil"; "Electron recoil"; "Migdal"; "Semiconductor"]%string.
Inductive mandatory (cfg : settings) : string -> (setting -> Prop) -> Prop :=
| m_always name P : In (name, P)
    [("ID", text); ("DM_mass", number); ("DM_spin", number); ("DM_fraction", number); ("DM_light", flag); ("DM_interaction", text); ("DM_isospin_conserved", flag);
     ("DM_cross_section_nucleon", number); ("DM_cross_section_electron", number); ("DM_distribution", text); ("DM_local_density", number); ("DD_experiment", text);
     ("constraints_certainty", number); ("constraints_mass_min", number); ("constraints_mass_max", number); ("constraints_masses", whole)]%string -> mandatory cfg name P
| m_SI : value_of cfg "DM_interaction" = Some (SString "SI") -> mandatory cfg "DM_form_factor" text
| m_mediator : value_of cfg "DM_interaction" = Some (SString "SI") -> value_of cfg "DM_form_factor" = Some (SString "General") -> mandatory cfg "DM_mediator_mass" number
| m_couplings : value_of cfg "DM_isospin_conserved" = Some (SBool false) -> mandatory cfg "DM_relative_couplings" pair
| m_halo d name P : value_of cfg "DM_distribution" = Some (SString d) -> In d ["SHM"; "SHM++"]%string ->
    In (name, P) [("SHM_v0", number); ("SHM_vObserver", triple); ("SHM_vEscape", number)]%string -> mandatory cfg name P
| m_plusplus name P : value_of cfg "DM_distribution" = Some (SString "SHM++") -> In (name, P) [("SHMpp_eta", number); ("SHMpp_beta", number)]%string -> mandatory cfg name P
| m_file : value_of cfg "DM_distribution" = Some (SString "File") -> mandatory cfg "file_path" text
| m_user x name P : value_of cfg "DD_experiment" = Some (SString x) -> In x user_defined ->
    In (name, P) [("DD_exposure", number); ("DD_efficiency", number); ("DD_observed_events", whole); ("DD_expected_background", number)]%string -> mandatory cfg name P
| m_nuclear name P : value_of cfg "DD_experiment" = Some (SString "Nuclear recoil") ->
    In (name, P) [("DD_targets_nuclear", target_list); ("DD_threshold_nuclear", number); ("DD_Emax_nuclear", number); ("DD_energy_resolution", number)]%string -> mandatory cfg name P
| m_electrons x name P : value_of cfg "DD_experiment" = Some (SString x) -> In x ["Electron recoil"; "Migdal"; "Semiconductor"]%string ->
    In (name, P) [("DD_target_electron", text); ("DD_threshold_electron", whole)]%string -> mandatory cfg name P.

(** The file [path] holds the settings [cfg]. *)
Definition loaded (E : environment) (fs : filesystem) (path : string) (cfg : settings) : Prop :=
  exists t, fs_file fs path = Some t /\ e_parse E t = Some cfg.

(** What is asked of the rest of the world: the routines of the libraries and the files on disk do not misbehave themselves. *)
Definition tame_environment (E : environment) : Prop :=
  (forall z, safe (e_negative E z)) /\ readable (e_files E) /\ (forall path, safe (f_rows (e_files E) path)) /\
  (forall f a b, (forall x, safe (f x)) -> safe (e_Integrate E f a b)) /\ (forall f a b c d, (forall x y, safe (f x y)) -> safe (e_Integrate_2D E f a b c d)) /\
  (forall t x, safe (e_Interpolation E t x)).
Definition shipped_world (w : nuclear_world) : Prop := exists rows, well_formed rows /\ full_table rows /\ world_history rows w.

(** * Reading single settings *)
Lemma find_value cfg name : find_setting cfg name = match value_of cfg name with Some v => Ok v | None => Exit end.
Proof. unfold find_setting. induction cfg as [|[k v] t IH]; [reflexivity|]. cbn [find value_of fst]. destruct (k =? name)%string; [reflexivity|exact IH]. Qed.

Lemma read_double_ok cfg name r : read_double cfg name = Ok r <-> value_of cfg name = Some (SFloat r).
Proof. unfold read_double. rewrite find_value. destruct (value_of cfg name) as [[]|]; cbn; split; intros H; try discriminate; try (apply Ok_inj in H; subst; reflexivity). injection H as ->; reflexivity. Qed.
Lemma read_bool_ok cfg name r : read_bool cfg name = Ok r <-> value_of cfg name = Some (SBool r).
Proof. unfold read_bool. rewrite find_value. destruct (value_of cfg name) as [[]|]; cbn; split; intros H; try discriminate; try (apply Ok_inj in H; subst; reflexivity). injection H as ->; reflexivity. Qed.
Lemma read_string_ok cfg name r : read_string cfg name = Ok r <-> value_of cfg name = Some (SString r).
Proof. unfold read_string. rewrite find_value. destruct (value_of cfg name) as [[]|]; cbn; split; intros H; try discriminate; try (apply Ok_inj in H; subst; reflexivity). injection H as ->; reflexivity. Qed.
Lemma read_unsigned_ok E cfg name r : read_unsigned E cfg name = Ok r -> exists z, value_of cfg name = Some (SInt z) /\ ((0 <= z)%Z -> r = z).
Proof.
  unfold read_unsigned. rewrite find_value. destruct (value_of cfg name) as [[]|]; cbn; intros H; try discriminate.
  exists z. split; [reflexivity|]. destruct (Z.ltb_spec z 0); intros; [lia|]. apply Ok_inj in H. auto.
Qed.
Lemma read_unsigned_eq E cfg name z : value_of cfg name = Some (SInt z) -> (0 <= z)%Z -> read_unsigned E cfg name = Ok z.
Proof. intros H P. unfold read_unsigned. rewrite find_value, H. cbn. destruct (Z.ltb_spec z 0); [lia|reflexivity]. Qed.

Lemma safe_double cfg name : safe (read_double cfg name).
Proof. unfold read_double. rewrite find_value. destruct (value_of cfg name) as [[]|]; cbn; discriminate. Qed.
Lemma safe_bool cfg name : safe (read_bool cfg name).
Proof. unfold read_bool. rewrite find_value. destruct (value_of cfg name) as [[]|]; cbn; discriminate. Qed.
Lemma safe_string cfg name : safe (read_string cfg name).
Proof. unfold read_string. rewrite find_value. destruct (value_of cfg name) as [[]|]; cbn; discriminate. Qed.
Lemma safe_unsigned E cfg name : (forall z, safe (e_negative E z)) -> safe (read_unsigned E cfg name).
Proof. intros H. unfold read_unsigned. rewrite find_value. destruct (value_of cfg name) as [[]|]; cbn; try discriminate. destruct (z <? 0)%Z; [apply H|discriminate]. Qed.
Lemma safe_element s i : safe (element s i).
Proof. destruct s; cbn; try discriminate. destruct (nth_error l i); discriminate. Qed.
Lemma safe_find cfg name : safe (find_setting cfg name).
Proof. rewrite find_value. destruct (value_of cfg name); discriminate. Qed.
Lemma safe_as_double s : safe (as_double s). Proof. destruct s; discriminate. Qed.
Lemma safe_as_int s : safe (as_int s). Proof. destruct s; discriminate. Qed.
Lemma as_double_ok s r : as_double s = Ok r -> s = SFloat r.
Proof. destruct s; try discriminate. intros H; apply Ok_inj in H; subst; reflexivity. Qed.
Lemma as_int_ok s r : as_int s = Ok r -> s = SInt r.
Proof. destruct s; try discriminate. intros H; apply Ok_inj in H; subst; reflexivity. Qed.
Lemma element_ok s i x : element s i = Ok x -> nth_error (items s) i = Some x.
Proof. destruct s; cbn; try discriminate. destruct (nth_error l i); [|discriminate]. intros H; apply Ok_inj in H; subst; reflexivity. Qed.

(** * No undefined behaviour *)
Ltac walk := repeat first [apply safe_bind; [first [apply safe_double | apply safe_bool | apply safe_string | apply safe_find | (apply safe_unsigned; assumption)]|intros ? _] | apply safe_ok].

Lemma default_fp k : exists f, fp (Particle_default k) = Fin f /\ 0 < f.
Proof.
  unfold Particle_default, Particle_ctor.
  assert (P : exists pre, prefactor (Standard_ctor k (Fin (10 * GeV))) = Fin pre /\ 0 < pre) by (destruct k; eexists; split; [reflexivity|lra|reflexivity|lra]).
  destruct P as (pre & P1 & P2).
  assert (C := cm_pos).
  assert (X : 0 < 1 / 10 ^ 40 * cm * cm). { apply Rmult_lt_0_compat; [|exact C]. apply Rmult_lt_0_compat; [|exact C]. apply Rdiv_lt_0_compat; [lra|]. apply pow_lt; lra. }
  assert (G : 0 < 10 * GeV) by (unfold GeV; lra).
  rewrite (Set_Sigma_Proton_eq _ (10 * GeV) pre) by (auto; try lra; destruct k; reflexivity).
  exists (cpl pre (10 * GeV) (1 / 10 ^ 40 * cm * cm)). split; [|apply cpl_pos; auto].
  destruct k; cbn [fixed Standard_ctor fp_relative]; rewrite xeq_false by lra; reflexivity.
Qed.

Lemma fix_ok k p n s : (exists f, fp s = Fin f /\ 0 < f) -> kind s = k -> exists s', Fix_Coupling_Ratio p n s = Ok s'.
Proof.
  intros (f & F & P) _. unfold Fix_Coupling_Ratio. cbv zeta. destruct (xeq p _); [eexists; reflexivity|]. destruct (xeq n _); [eexists; reflexivity|].
  cbn [fp with_relation]. rewrite F, xne_true by lra. eexists; reflexivity.
Qed.

Lemma safe_SI cfg : safe (configure_SI cfg).
Proof.
  unfold configure_SI. walk. apply safe_bind.
  - destruct (_ =? _)%string; [|apply safe_ok]. walk. cbv zeta. destruct (xlt _ _); discriminate.
  - intros m _. unfold Set_FormFactor_DM. destruct (_ || _)%bool; [|discriminate]. cbv zeta. destruct (_ && _)%bool; discriminate.
Qed.
Lemma safe_relative cfg : safe (relative_couplings cfg).
Proof.
  unfold relative_couplings. walk. destruct a; [apply safe_ok|]. walk. do 2 (apply safe_bind; [apply safe_element|]; intros ? _; apply safe_bind; [apply safe_as_double|]; intros ? _). apply safe_ok.
Qed.
Lemma safe_Construct_DM_Particle cfg : safe (Construct_DM_Particle cfg).
Proof.
  unfold Construct_DM_Particle. walk. cbv zeta. walk. destruct (a3 =? "SI")%string eqn:S1, (a3 =? "SD")%string eqn:S2; cbn [orb]; try discriminate.
  all: apply safe_bind; [|intros; apply safe_ok]; unfold Construct_DM_Particle_Standard; rewrite S1, ?S2; apply safe_bind;
    [first [apply safe_ok | apply safe_bind; [apply safe_SI|]; intros; apply safe_ok]|].
  all: intros DM HD; apply safe_bind; [apply safe_relative|]; intros [p n] _; apply safe_bind;
    [destruct DM; [apply safe_ok|]; destruct (configure_SI cfg); discriminate|].
  all: intros p0 _; apply safe_bind; [unfold Fix_Coupling_Ratio; cbv zeta; repeat destruct (xeq _ _); try discriminate; repeat destruct (xne _ _); discriminate|].
  all: intros p1 _; walk; apply safe_bind; [unfold Set_Interaction_Parameter; cbn; discriminate|]; intros; walk.
Qed.

Lemma safe_observer cfg : safe (observer_velocity cfg).
Proof.
  unfold observer_velocity. walk. destruct (_ =? _)%nat; [|discriminate].
  apply safe_bind; [apply safe_map; intros i _; apply safe_bind; [apply safe_element|]; intros; apply safe_as_double|].
  intros l HL. apply map_res_length in HL. destruct l as [|x [|y [|z [|]]]]; try discriminate HL. apply safe_ok.
Qed.
Lemma safe_distribution E cfg : tame_environment E -> safe (Construct_DM_Distribution E cfg).
Proof.
  intros (N & RF & FR & I1 & I2 & IP). unfold Construct_DM_Distribution. walk. destruct (_ || _)%bool; [|destruct (_ =? _)%string; [|discriminate]].
  - unfold Construct_DM_Halo_Model. walk. cbv zeta. walk. apply safe_bind; [apply safe_observer|]. intros vel _. walk. cbv zeta.
    destruct (_ =? _)%string; [apply safe_ok|]. destruct (_ =? _)%string; [|apply safe_ok]. walk.
    apply safe_bind; [|intros; apply safe_ok]. unfold SHMpp_of_velocity, SHMpp_of_base, Interpolate_Eta_Function_S. apply safe_bind; [|intros; apply safe_ok].
    apply safe_map. intros v _. apply safe_bind; [|intros; apply safe_ok]. unfold Eta_Function_S. destruct (_ || _)%bool; [apply safe_ok|].
    apply I1. intros x. apply safe_bind; [|intros; apply safe_ok]. unfold PDF_Speed_S. destruct (_ || _)%bool; [apply safe_ok|]. apply I2. intros x1 y1. unfold angular_integrand. destruct x, (xacos x1), y1; discriminate.
  - unfold Construct_Imported_Distribution. walk. cbv zeta. walk. apply safe_bind; [apply FR|]. intros rows _. apply safe_bind; [|intros; apply safe_ok].
    unfold Imported_of_file, import_table. apply safe_bind; [destruct (Import_Table rows); discriminate|]. intros d _. cbv zeta. apply safe_bind; [|intros; apply safe_ok].
    unfold Interpolate_Eta. apply safe_map. intros v _. apply safe_bind; [|intros; apply safe_ok]. unfold Eta_Function_Base. destruct (xlt _ _); [discriminate|].
    destruct (xle _ _); [apply safe_ok|]. apply I1. intros x. apply safe_bind; [|intros; apply safe_ok]. unfold Imported_PDF_Speed. destruct (_ || _)%bool; [apply safe_ok|]. apply IP.
Qed.

Lemma read_targets_world rows l js : well_formed rows -> full_table rows -> forall w, world_history rows w -> safe (read_targets w l js) /\
  forall t w', read_targets w l js = Ok (t, w') -> world_history rows w'.
Proof.
  intros WF FT. induction js as [|j js IH]; intros w WH; cbn [read_targets]; [split; [apply safe_ok|]; intros t w' H; apply Ok_inj in H; injection H as _ <-; auto|].
  assert (G : forall Z, safe (Get_Nucleus w Z) /\ forall n w1, Get_Nucleus w Z = Ok (n, w1) -> world_history rows w1).
  { intros Z. destruct (Z_le_dec 1 Z) as [A | A]; [destruct (Z_le_dec Z 92) as [B | B]|].
    - destruct (get_nucleus_in rows w Z WF WH (conj A B) (FT Z (conj A B))) as (n & w1 & Gn & _). rewrite Gn. split; [apply safe_ok|].
      intros n' w' H. apply Ok_inj in H. injection H as <- <-. apply (wh_query rows w (ByCharge Z) n w1); auto.
    - rewrite (get_nucleus_out rows) by (auto; lia). split; [discriminate|]. intros; discriminate.
    - rewrite (get_nucleus_out rows) by (auto; lia). split; [discriminate|]. intros; discriminate. }
  split.
  - do 2 (apply safe_bind; [apply safe_element|]; intros ? _). apply safe_bind; [apply safe_as_double|]; intros ? _. apply safe_bind; [apply safe_element|]; intros ? _.
    apply safe_bind; [apply safe_as_int|]; intros Z _. apply safe_bind; [apply G|]. intros [n w1] H1. apply safe_bind; [|intros [? ?] _; apply safe_ok]. apply IH. eapply G; eauto.
  - intros t w' H. do 6 (apply bind_ok in H; destruct H as (? & ? & H)). destruct x4 as [n w1]. apply bind_ok in H. destruct H as ([r w2] & HR & H). apply Ok_inj in H. injection H as _ <-.
    eapply IH; [|exact HR]. eapply G; eauto.
Qed.
Lemma read_targets_typed l : forall js w t w', read_targets w l js = Ok (t, w') -> length t = length js /\ forall j, In j js -> exists x, nth_error (items l) j = Some x /\ target x.
Proof.
  induction js as [|j js IH]; intros w t w' H; cbn [read_targets] in H; [apply Ok_inj in H; injection H as <- _; split; [reflexivity|intros ? []]|].
  apply bind_ok in H. destruct H as (row & E1 & H). apply bind_ok in H. destruct H as (sa & E2 & H). apply bind_ok in H. destruct H as (a & E3 & H).
  apply bind_ok in H. destruct H as (sz & E4 & H). apply bind_ok in H. destruct H as (Z & E5 & H). apply bind_ok in H. destruct H as ([n w1] & E6 & H).
  apply bind_ok in H. destruct H as ([r w2] & E7 & H). apply Ok_inj in H. injection H as <- <-. destruct (IH _ _ _ E7) as [L T]. split; [cbn; congruence|].
  intros i [<- | I]; [|auto]. exists row. split; [apply element_ok; auto|]. apply as_double_ok in E3. apply as_int_ok in E5. subst sa sz.
  apply element_ok in E2. apply element_ok in E4. destruct row as [| | | | |[|x [|y tl]]]; try discriminate. injection E2 as ->. injection E4 as ->. exists a, Z, tl. reflexivity.
Qed.

(** The three runs on a fresh detector. *)
Lemma threshold_fresh lo hi d : Use_Energy_Threshold lo hi d = Exit \/ Use_Energy_Threshold lo hi d = Ok (with_range lo hi (with_using true (b_using_bins d) (Initialize_Poisson d))).
Proof. unfold Use_Energy_Threshold. cbv zeta. destruct (xlt hi lo); auto. Qed.

Lemma safe_detector E cfg w : tame_environment E -> shipped_world w -> safe (Construct_DM_Detector E cfg w).
Proof.
  intros (N & RF & FR & I1 & I2 & IP) (rows & WF & FT & WH). unfold Construct_DM_Detector. walk. destruct (String.eqb_spec a "Nuclear recoil") as [_ | _].
  { unfold Construct_DM_Detector_Nuclear. walk. apply safe_bind; [apply (read_targets_world rows); auto|]. intros [ts w1] HT. walk.
    apply safe_bind; [|intros d Hd].
    { destruct (nuclear_ctor_ok "Nuclear recoil" (Fin a3 * (Fin kg * Fin year))%xr (map snd ts) (map fst ts)) as (f & EF & _); [right; rewrite !map_length; reflexivity|]. rewrite EF. apply safe_ok. }
    destruct (nuclear_ctor_ok "Nuclear recoil" (Fin a3 * (Fin kg * Fin year))%xr (map snd ts) (map fst ts)) as (f & EF & _); [right; rewrite !map_length; reflexivity|].
    rewrite EF in Hd. apply Ok_inj in Hd. subst d. apply safe_bind; [|intros d1 _; cbv zeta; apply safe_bind; [|intros; apply safe_ok]; destruct (xlt _ _); discriminate].
    cbn [nuclear_run nuclear_step base_step bind n_base with_n_base]. unfold Use_Energy_Threshold. cbv zeta. destruct (xlt _ _); [discriminate|]. cbn [bind nuclear_run nuclear_step base_step n_base with_n_base]. discriminate. }
  destruct (_ || _)%bool eqn:EM.
  { unfold Construct_DM_Detector_Ionization. walk. cbv zeta.
    assert (G : forall ch expo, safe (Ionization_ctor1 (f_table (e_files E)) w ch a expo a0)).
    { intros ch expo. destruct (String.eqb_spec a0 "Xe") as [-> | NX]; [destruct (xenon_ok rows (e_files E) w ch a expo WF FT WH RF) as (? & ? & -> & _); apply safe_ok|].
      destruct (String.eqb_spec a0 "Ar") as [-> | NA]; [destruct (argon_ok rows (e_files E) w ch a expo WF FT WH RF) as (? & ? & -> & _); apply safe_ok|].
      unfold Ionization_ctor1. rewrite (atom_other_names _ rows) by auto. discriminate. }
    assert (U : forall ch expo d w1 ops, Ionization_ctor1 (f_table (e_files E)) w ch a expo a0 = Ok (d, w1) ->
      ops = [IBase (BFlat (Fin a3)); IElectron_Threshold a1 0; IBase (BObserved a4); IBase (BBackground (Fin a5))] -> safe (ionization_run d ops)).
    { intros ch expo d w1 ops H ->. unfold Ionization_ctor1 in H. apply bind_ok in H. destruct H as ([at_ w2] & _ & H). apply Ok_inj in H. injection H as <- _.
      cbn [ionization_run ionization_step base_step bind Ionization_start i_base with_i_base]. unfold Use_Electron_Threshold. cbv zeta. destruct (_ <? _)%Z; [discriminate|].
      cbn [bind ionization_run ionization_step base_step i_base with_i_base]. discriminate. }
    destruct (String.eqb_spec a "Electron recoil") as [EA | NE]; [|destruct (String.eqb_spec a "Migdal") as [EA | NM]; [|discriminate EM]].
    - apply safe_bind; [apply safe_bind; [apply G|]; intros [? ?] _; apply safe_ok|]. intros [d w1] H. apply bind_ok in H. destruct H as ([d' w'] & H1 & H). apply Ok_inj in H. injection H as <- <-.
      cbn [deref bind]. apply safe_bind; [|intros; apply safe_ok]. eapply U; [exact H1|reflexivity].
    - apply safe_bind; [apply safe_bind; [apply G|]; intros [? ?] _; apply safe_ok|]. intros [d w1] H. apply bind_ok in H. destruct H as ([d' w'] & H1 & H). apply Ok_inj in H. injection H as <- <-.
      cbn [deref bind]. apply safe_bind; [|intros; apply safe_ok]. eapply U; [exact H1|reflexivity]. }
  destruct (String.eqb_spec a "Semiconductor") as [_ | _].
  { unfold Construct_DM_Detector_Crystal. walk. assert (RF' := RF). destruct RF' as (_ & FL & _ & FS).
    apply safe_bind.
    { unfold Semiconductor_ctor. apply safe_bind; [|intros; apply safe_ok].
      destruct (String.eqb_spec a0 "Si") as [-> | NS]; [|destruct (String.eqb_spec a0 "Ge") as [-> | NG]; [|rewrite crystal_ctor_unknown by auto; discriminate]].
      - destruct (FL "data/Semiconductors/C.Si137.dat"%string) as (l & EL). destruct (crystal_ctor_ok (f_list (e_files E)) "Si" _ _ _ (map Fin l) ltac:(left; repeat split; reflexivity) EL) as [H _].
        destruct (H (FS _ _ (or_introl eq_refl) EL)) as (c & -> & _). apply safe_ok.
      - destruct (FL "data/Semiconductors/C.Ge137.dat"%string) as (l & EL). destruct (crystal_ctor_ok (f_list (e_files E)) "Ge" _ _ _ (map Fin l) ltac:(right; repeat split; reflexivity) EL) as [H _].
        destruct (H (FS _ _ (or_intror (or_introl eq_refl)) EL)) as (c & -> & _). apply safe_ok. }
    intros d Hd. unfold Semiconductor_ctor in Hd. apply bind_ok in Hd. destruct Hd as (c & _ & Hd). apply Ok_inj in Hd. subst d. apply safe_bind; [|intros; apply safe_ok].
    cbn [semiconductor_run semiconductor_step base_step bind c_base with_c_base Use_Q_Threshold]. discriminate. }
  destruct (in_dec string_dec a (map fst publications)) as [I | NI].
  { apply in_map_iff in I. destruct I as ((nm & p) & <- & I). cbn [fst]. destruct (experiments_realised rows (e_files E) w WF FT WH RF nm p I) as (d & w' & -> & _). apply safe_ok. }
  destruct (in_dec string_dec a LZ_names) as [I | NL]; [rewrite (LZ_exits rows) by auto; discriminate|].
  rewrite experiments_unknown; [discriminate|]. intros H. apply in_app_or in H. destruct H; auto.
Qed.

(** * What a successful construction says about the file *)
Lemma relative_inv cfg x y : relative_couplings cfg = Ok (x, y) ->
  (value_of cfg "DM_isospin_conserved" = Some (SBool true) /\ x = Fin 1 /\ y = Fin 1) \/
  (value_of cfg "DM_isospin_conserved" = Some (SBool false) /\ exists p n t, value_of cfg "DM_relative_couplings" = Some (SAggregate (SFloat p :: SFloat n :: t)) /\ x = Fin p /\ y = Fin n).
Proof.
  unfold relative_couplings. intros H. apply bind_ok in H. destruct H as (b & B & H). apply read_bool_ok in B. destruct b; [left|right]; (split; [exact B|]).
  - apply Ok_inj in H. injection H as <- <-. split; f_equal; lra.
  - apply bind_ok in H. destruct H as (s & S & H). rewrite find_value in S. destruct (value_of cfg "DM_relative_couplings") as [v|]; [|discriminate]. apply Ok_inj in S. subst v.
    apply bind_ok in H. destruct H as (sp & S1 & H). apply bind_ok in H. destruct H as (p & S2 & H). apply bind_ok in H. destruct H as (sn & S3 & H). apply bind_ok in H. destruct H as (n & S4 & H).
    apply Ok_inj in H. injection H as <- <-. apply as_double_ok in S2. apply as_double_ok in S4. subst. apply element_ok in S1. apply element_ok in S3.
    destruct s as [| | | | |[|u [|v t]]]; try discriminate. injection S1 as ->. injection S3 as ->. exists p, n, t. auto.
Qed.
Definition form_factors : list string := ["Contact"; "Electric-Dipole"; "Long-Range"; "General"]%string.
Lemma SI_inv cfg p : configure_SI cfg = Ok p -> exists ff, value_of cfg "DM_form_factor" = Some (SString ff) /\ In ff form_factors /\
  ((ff <> "General"%string /\ p = with_FF ff (Particle_default SI)) \/
   (ff = "General"%string /\ exists m, value_of cfg "DM_mediator_mass" = Some (SFloat m) /\ 1e-60 <= m * MeV /\ p = with_mMediator (Fin (m * MeV)) (with_FF ff (Particle_default SI)))).
Proof.
  unfold configure_SI. intros H. apply bind_ok in H. destruct H as (ff & F & H). apply read_string_ok in F. exists ff. split; [exact F|]. apply bind_ok in H. destruct H as (mm & M & H).
  assert (I : In ff form_factors).
  { unfold Set_FormFactor_DM in H. destruct (_ || _)%bool eqn:B in H; [|discriminate]. rewrite !orb_true_iff, !String.eqb_eq in B. cbn. intuition. }
  split; [exact I|]. destruct (String.eqb_spec ff "General") as [-> | NG].
  - right. split; [reflexivity|]. apply bind_ok in M. destruct M as (m & M1 & M). apply read_double_ok in M1. exists m. split; [exact M1|]. cbv zeta in M. rewrite xmul_fin in M.
    destruct (Rlt_dec (m * MeV) 1e-60) as [L | L]; [rewrite xlt_true in M by auto; discriminate|]. rewrite xlt_false in M by lra. apply Ok_inj in M. subst mm. split; [lra|].
    assert (Z : 0 < 1e-60) by (apply Rdiv_lt_0_compat; [lra|apply pow_lt; lra] || lra).
    unfold Set_FormFactor_DM in H. cbn [String.eqb Ascii.eqb eqb orb andb FF_DM with_FF] in H. rewrite xlt_true in H by lra. cbn [andb] in H. apply Ok_inj in H. auto.
  - left. split; [exact NG|]. unfold Set_FormFactor_DM in H. destruct (_ || _)%bool in H; [|discriminate]. cbv zeta in H. cbn [FF_DM with_FF] in H. apply String.eqb_neq in NG. rewrite NG in H. cbn [andb] in H. apply Ok_inj in H. auto.
Qed.

Definition kind_name (k : interaction) : string := match k with SI => "SI" | SD => "SD" end.
Lemma standard_inv cfg i p : Construct_DM_Particle_Standard cfg i = Ok p -> In i ["SI"; "SD"]%string ->
  exists k p0 x y p1 sn p2 se, i = kind_name k /\ (k = SI -> configure_SI cfg = Ok p0) /\ (k = SD -> p0 = Particle_default SD) /\ relative_couplings cfg = Ok (x, y) /\ Fix_Coupling_Ratio x y p0 = Ok p1 /\
    value_of cfg "DM_cross_section_nucleon" = Some (SFloat sn) /\ Set_Interaction_Parameter (Fin (sn * (cm * cm))) "Nuclei" p1 = Ok p2 /\
    value_of cfg "DM_cross_section_electron" = Some (SFloat se) /\ p = Set_Sigma_Electron (Fin (se * (cm * cm))) p2.
Proof.
  intros H I. unfold Construct_DM_Particle_Standard in H. apply bind_ok in H. destruct H as (DM & D & H). apply bind_ok in H. destruct H as ([x y] & C & H).
  apply bind_ok in H. destruct H as (p0 & D0 & H). apply bind_ok in H. destruct H as (p1 & FX & H). apply bind_ok in H. destruct H as (sn & S1 & H). apply bind_ok in H. destruct H as (p2 & S2 & H).
  apply bind_ok in H. destruct H as (se & S3 & H). apply Ok_inj in H. apply read_double_ok in S1, S3. rewrite !xmul_fin in S2. rewrite !xmul_fin in H.
  destruct I as [<- | [<- | []]]; cbn [String.eqb Ascii.eqb eqb] in D; [exists SI|exists SD]; exists p0, x, y, p1, sn, p2, se; (split; [reflexivity|]).
  - apply bind_ok in D. destruct D as (q & Q & D). apply Ok_inj in D. subst DM. cbn [deref] in D0. apply Ok_inj in D0. subst q. split; [auto|]. split; [discriminate|]. repeat (split; [assumption|]). auto.
  - apply Ok_inj in D. subst DM. cbn [deref] in D0. apply Ok_inj in D0. split; [discriminate|]. split; [auto|]. repeat (split; [assumption|]). auto.
Qed.

Lemma particle_inv cfg q spin : Construct_DM_Particle cfg = Ok (q, spin) -> exists m sp f b i p,
  value_of cfg "DM_mass" = Some (SFloat m) /\ value_of cfg "DM_spin" = Some (SFloat sp) /\ value_of cfg "DM_fraction" = Some (SFloat f) /\ value_of cfg "DM_light" = Some (SBool b) /\
  value_of cfg "DM_interaction" = Some (SString i) /\ In i ["SI"; "SD"]%string /\ Construct_DM_Particle_Standard cfg i = Ok p /\
  q = with_low_mass b (with_density (Fin f) (Set_Mass (Fin (m * GeV)) p)) /\ spin = Fin sp.
Proof.
  unfold Construct_DM_Particle. intros H. apply bind_ok in H. destruct H as (m & M & H). cbv zeta in H. apply bind_ok in H. destruct H as (sp & S & H). apply bind_ok in H. destruct H as (f & F & H).
  apply bind_ok in H. destruct H as (b & B & H). apply bind_ok in H. destruct H as (i & I & H). apply read_double_ok in M, S, F. apply read_bool_ok in B. apply read_string_ok in I.
  destruct (_ || _)%bool eqn:K in H; [|discriminate]. apply bind_ok in H. destruct H as (p & P & H). apply Ok_inj in H. injection H as <- <-. rewrite orb_true_iff, !String.eqb_eq in K.
  exists m, sp, f, b, i, p. repeat (split; [assumption || reflexivity|]). split; [cbn; intuition|]. auto.
Qed.

Lemma observer_inv cfg v : observer_velocity cfg = Ok v -> exists x y z, value_of cfg "SHM_vObserver" = Some (SAggregate [SFloat x; SFloat y; SFloat z]) /\ v = V3 (x * km / sec) (y * km / sec) (z * km / sec).
Proof.
  unfold observer_velocity. intros H. apply bind_ok in H. destruct H as (s & S & H). rewrite find_value in S. destruct (value_of cfg "SHM_vObserver") as [u|]; [|discriminate]. apply Ok_inj in S. subst u.
  destruct (Nat.eqb_spec (length_of s) 3) as [L | L]; [|discriminate]. destruct s as [| | | | |[|a [|b [|c [|]]]]]; try discriminate L.
  cbn [map_res element nth_error bind] in H. destruct a, b, c; try discriminate. cbn [as_double bind] in H. apply Ok_inj in H. subst v. eexists _, _, _. split; reflexivity.
Qed.

(** What the halo must be. *)
Definition halo_asked (E : environment) (cfg : settings) (h : halo) : Prop :=
  exists rho, value_of cfg "DM_local_density" = Some (SFloat rho) /\
  match h with
  | HImported s => value_of cfg "DM_distribution" = Some (SString "File") /\ exists path rows, value_of cfg "file_path" = Some (SString path) /\ f_rows (e_files E) path = Ok rows /\
      Imported_of_file (e_Integrate E) (e_Interpolation E) (Fin (rho * (GeV / cm / cm / cm))) path rows = Ok s
  | HStandard s => value_of cfg "DM_distribution" = Some (SString "SHM") /\ exists v0 x y z ve, value_of cfg "SHM_v0" = Some (SFloat v0) /\
      value_of cfg "SHM_vObserver" = Some (SAggregate [SFloat x; SFloat y; SFloat z]) /\ value_of cfg "SHM_vEscape" = Some (SFloat ve) /\
      s = SHM_of_velocity (rho * (GeV / cm / cm / cm)) (v0 * (km / sec)) (V3 (x * km / sec) (y * km / sec) (z * km / sec)) (ve * (km / sec))
  | HPlusPlus s => value_of cfg "DM_distribution" = Some (SString "SHM++") /\ exists v0 x y z ve eta beta, value_of cfg "SHM_v0" = Some (SFloat v0) /\
      value_of cfg "SHM_vObserver" = Some (SAggregate [SFloat x; SFloat y; SFloat z]) /\ value_of cfg "SHM_vEscape" = Some (SFloat ve) /\
      value_of cfg "SHMpp_eta" = Some (SFloat eta) /\ value_of cfg "SHMpp_beta" = Some (SFloat beta) /\
      SHMpp_of_velocity (e_Integrate E) (e_Integrate_2D E) (rho * (GeV / cm / cm / cm)) (v0 * (km / sec)) (V3 (x * km / sec) (y * km / sec) (z * km / sec)) (ve * (km / sec)) eta beta = Ok s
  end.
Lemma distribution_inv E cfg o : Construct_DM_Distribution E cfg = Ok o -> exists h, o = Some h /\ halo_asked E cfg h.
Proof.
  unfold Construct_DM_Distribution. intros H. apply bind_ok in H. destruct H as (d & D & H). apply read_string_ok in D. destruct (_ || _)%bool eqn:K in H.
  - unfold Construct_DM_Halo_Model in H. apply bind_ok in H. destruct H as (rho & R & H). cbv zeta in H. apply bind_ok in H. destruct H as (v0 & V & H). apply bind_ok in H. destruct H as (vel & O & H).
    apply bind_ok in H. destruct H as (ve & VE & H). apply read_double_ok in R, V, VE. apply observer_inv in O. destruct O as (x & y & z & O & ->).
    destruct (String.eqb_spec d "SHM") as [-> | N].
    + apply Ok_inj in H. subst o. eexists. split; [reflexivity|]. exists rho. split; [exact R|]. split; [exact D|]. exists v0, x, y, z, ve. auto.
    + destruct (String.eqb_spec d "SHM++") as [-> | N2]; [|discriminate K]. apply bind_ok in H. destruct H as (eta & ET & H). apply bind_ok in H. destruct H as (beta & BE & H).
      apply bind_ok in H. destruct H as (s & S & H). apply Ok_inj in H. subst o. apply read_double_ok in ET, BE. eexists. split; [reflexivity|]. exists rho. split; [exact R|]. split; [exact D|].
      exists v0, x, y, z, ve, eta, beta. repeat (split; [assumption|]). exact S.
  - destruct (String.eqb_spec d "File") as [-> | N]; [|discriminate]. unfold Construct_Imported_Distribution in H. apply bind_ok in H. destruct H as (rho & R & H). cbv zeta in H.
    apply bind_ok in H. destruct H as (path & P & H). apply bind_ok in H. destruct H as (rows & F & H). apply bind_ok in H. destruct H as (s & S & H). apply Ok_inj in H. subst o.
    apply read_double_ok in R. apply read_string_ok in P. eexists. split; [reflexivity|]. exists rho. split; [exact R|]. split; [exact D|]. exists path, rows. auto.
Qed.

Lemma parameters_inv E cfg a b c n : Initialize_Parameters E cfg = Ok (a, b, c, n) -> value_of cfg "constraints_certainty" = Some (SFloat a) /\ value_of cfg "constraints_mass_min" = Some (SFloat b) /\
  value_of cfg "constraints_mass_max" = Some (SFloat c) /\ exists z, value_of cfg "constraints_masses" = Some (SInt z) /\ ((0 <= z)%Z -> n = z).
Proof.
  unfold Initialize_Parameters. intros H. apply bind_ok in H. destruct H as (x1 & X1 & H). apply bind_ok in H. destruct H as (x2 & X2 & H). apply bind_ok in H. destruct H as (x3 & X3 & H).
  apply bind_ok in H. destruct H as (x4 & X4 & H). apply Ok_inj in H. injection H as <- <- <- <-. apply read_double_ok in X1, X2, X3. apply read_unsigned_ok in X4. auto.
Qed.

(** What the detector must be. *)
Definition base_asked (E : environment) (cfg : settings) (x : string) (b : detector) : Prop :=
  exists expo eff z bg, value_of cfg "DD_exposure" = Some (SFloat expo) /\ value_of cfg "DD_efficiency" = Some (SFloat eff) /\ value_of cfg "DD_observed_events" = Some (SInt z) /\
    value_of cfg "DD_expected_background" = Some (SFloat bg) /\ b_name b = x /\ b_analysis b = Poisson /\ b_exposure b = Fin (expo * (kg * year)) /\ b_flat_efficiency b = Fin eff /\
    ((0 <= z)%Z -> b_observed b = z) /\ b_background b = Fin bg.
Definition channel_name (ch : channel) : string := match ch with Electron_Recoil => "Electron recoil" | Migdal => "Migdal" end.
Definition user_asked (E : environment) (cfg : settings) (rows : list row) (x : string) (d : instrument) : Prop :=
    match d with
    | DNuclear n => x = "Nuclear recoil"%string /\ exists v amounts zs lo hi r, value_of cfg "DD_targets_nuclear" = Some v /\
        Forall2 (fun s az => exists t, s = SAggregate (SFloat (fst az) :: SInt (snd az) :: t)) (items v) (combine amounts zs) /\ length amounts = length zs /\
        Forall2 (element_of_table rows) zs (n_targets n) /\ relative_fractions (n_targets n) (map Fin amounts) = Ok (n_fractions n) /\
        value_of cfg "DD_threshold_nuclear" = Some (SFloat lo) /\ value_of cfg "DD_Emax_nuclear" = Some (SFloat hi) /\ value_of cfg "DD_energy_resolution" = Some (SFloat r) /\
        b_using_threshold (n_base n) = true /\ b_threshold (n_base n) = Fin (lo * keV) /\ b_energy_max (n_base n) = Fin (hi * keV) /\ lo <= hi /\
        n_resolution n = Fin (Rmax 0 (r * keV)) /\ n_using_tables n = false
    | DIonization s => x = channel_name (i_channel s) /\ exists t z a, value_of cfg "DD_threshold_electron" = Some (SInt t) /\
        value_of cfg "DD_target_electron" = Some (SString (if (z =? 54)%Z then "Xe" else "Ar")) /\ (z = 54 \/ z = 18)%Z /\ i_atoms s = [a] /\ element_of_table rows z (at_nucleus a) /\
        i_using_ne_threshold s = true /\ i_using_ne_bins s = false /\ ((0 <= t)%Z -> i_ne_threshold s = t /\ (t <= 100)%Z) /\ i_ne_max s = 100%Z
    | DSemiconductor s => x = "Semiconductor"%string /\ exists t m, value_of cfg "DD_threshold_electron" = Some (SInt t) /\ value_of cfg "DD_target_electron" = Some (SString m) /\
        Crystal_ctor (f_list (e_files E)) m = Ok (c_crystal s) /\ In m ["Si"; "Ge"]%string /\ c_using_Q_threshold s = Some true /\ ((0 <= t)%Z -> c_Q_threshold s = Some t) /\
        c_using_Q_bins s = None
    end.
Definition detector_asked (E : environment) (cfg : settings) (rows : list row) (d : instrument) : Prop :=
  exists x, value_of cfg "DD_experiment" = Some (SString x) /\
  ((~ In x user_defined /\ exists p, In (x, p) publications /\ realises rows (e_files E) p d) \/
   (In x user_defined /\ base_asked E cfg x (instrument_base d) /\ user_asked E cfg rows x d)).

Lemma read_targets_inv rows l : well_formed rows -> full_table rows -> forall js w t w', world_history rows w -> read_targets w l js = Ok (t, w') ->
  exists amounts zs, length amounts = length zs /\ map fst t = map Fin amounts /\ Forall2 (element_of_table rows) zs (map snd t) /\
    Forall2 (fun j az => exists tl, nth_error (items l) j = Some (SAggregate (SFloat (fst az) :: SInt (snd az) :: tl))) js (combine amounts zs).
Proof.
  intros WF FT. induction js as [|j js IH]; intros w t w' WH H; cbn [read_targets] in H; [apply Ok_inj in H; injection H as <- _; exists [], []; repeat split; constructor|].
  apply bind_ok in H. destruct H as (row & E1 & H). apply bind_ok in H. destruct H as (sa & E2 & H). apply bind_ok in H. destruct H as (a & E3 & H).
  apply bind_ok in H. destruct H as (sz & E4 & H). apply bind_ok in H. destruct H as (z & E5 & H). apply bind_ok in H. destruct H as ([n w1] & E6 & H).
  apply bind_ok in H. destruct H as ([r w2] & E7 & H). apply Ok_inj in H. injection H as <- <-.
  assert (W1 : world_history rows w1) by (apply (wh_query rows w (ByCharge z) n w1); auto). destruct (IH _ _ _ W1 E7) as (am & zs & L & F1 & F2 & F3).
  exists (a :: am), (z :: zs). split; [cbn; congruence|]. split; [cbn [map fst]; rewrite F1; reflexivity|]. split.
  - cbn [map snd]. constructor; [|exact F2]. destruct (Z_le_dec 1 z) as [A | A]; [destruct (Z_le_dec z 92) as [B | B]|].
    + destruct (get_nucleus_in rows w z WF WH (conj A B) (FT z (conj A B))) as (n' & w1' & Gn & EL). rewrite Gn in E6. apply Ok_inj in E6. injection E6 as <- <-. exact EL.
    + rewrite (get_nucleus_out rows) in E6 by (auto; lia). discriminate.
    + rewrite (get_nucleus_out rows) in E6 by (auto; lia). discriminate.
  - cbn [combine]. constructor; [|exact F3]. cbn [fst snd]. apply as_double_ok in E3. apply as_int_ok in E5. subst sa sz.
    apply element_ok in E1, E2, E4. destruct row as [| | | | |[|u [|v tl]]]; try discriminate. injection E2 as ->. injection E4 as ->. exists tl. exact E1.
Qed.
Lemma forall2_seq {A B : Type} (P : A -> B -> Prop) l : forall pre t, Forall2 (fun j b => exists a, nth_error (pre ++ l) j = Some a /\ P a b) (seq (length pre) (length l)) t -> Forall2 P l t.
Proof.
  induction l as [|x l IH]; intros pre t H; cbn [length seq] in H; inversion H as [|? b ? t' H1 H2]; subst; [constructor|]. constructor.
  - destruct H1 as (a & N & Q). rewrite nth_error_app2 in N by lia. rewrite Nat.sub_diag in N. injection N as ->. exact Q.
  - apply (IH (pre ++ [x])). rewrite app_length. cbn [length]. rewrite Nat.add_1_r. rewrite <- app_assoc. exact H2.
Qed.

Lemma nuclear_inv E cfg rows w d w' : well_formed rows -> full_table rows -> world_history rows w -> readable (e_files E) -> Construct_DM_Detector_Nuclear E cfg w = Ok (d, w') ->
  base_asked E cfg "Nuclear recoil"%string (instrument_base d) /\ user_asked E cfg rows "Nuclear recoil"%string d.
Proof.
  intros WF FT WH RF H. unfold Construct_DM_Detector_Nuclear in H.
    apply bind_ok in H. destruct H as (l & L & H). apply bind_ok in H. destruct H as ([ts w1] & T & H). apply bind_ok in H. destruct H as (lo & LO & H). apply bind_ok in H. destruct H as (hi & HI & H).
    apply bind_ok in H. destruct H as (expo & EX & H). apply bind_ok in H. destruct H as (eff & EF & H). apply bind_ok in H. destruct H as (obs & OB & H). apply bind_ok in H. destruct H as (bg & BG & H).
    apply bind_ok in H. destruct H as (r & RE & H). apply read_double_ok in LO, HI, EX, EF, BG, RE. apply read_unsigned_ok in OB. destruct OB as (z & OB & OZ).
    rewrite find_value in L. destruct (value_of cfg "DD_targets_nuclear") as [v|] eqn:V; [|discriminate]. apply Ok_inj in L. subst v.
    destruct (read_targets_inv rows l WF FT _ _ _ _ WH T) as (am & zs & LZ & F1 & F2 & F3).
    destruct (nuclear_ctor_ok "Nuclear recoil" (Fin expo * (Fin kg * Fin year))%xr (map snd ts) (map fst ts)) as (f & EC & _); [right; rewrite !map_length; reflexivity|].
    assert (RFR : relative_fractions (map snd ts) (map Fin am) = Ok f).
    { rewrite <- F1. unfold Nuclear_ctor in EC. destruct (relative_fractions (map snd ts) (map fst ts)) as [f'| | |]; try discriminate. cbn [bind] in EC. apply Ok_inj in EC. injection EC as ->. reflexivity. }
    rewrite EC in H. cbn [bind] in H. apply bind_ok in H. destruct H as (d1 & D1 & H). cbn [nuclear_run nuclear_step base_step bind n_base with_n_base] in D1.
    unfold Use_Energy_Threshold in D1. cbv zeta in D1. rewrite !xmul_fin in D1. destruct (Rlt_dec (hi * keV) (lo * keV)) as [LT | LT]; [rewrite xlt_true in D1 by auto; discriminate|].
    rewrite xlt_false in D1 by lra. cbn [bind nuclear_run nuclear_step base_step n_base with_n_base] in D1. apply Ok_inj in D1. cbv zeta in H. apply bind_ok in H. destruct H as (d2 & D2 & H).
    apply Ok_inj in H. injection H as <- _. rewrite xmul_fin in D2.
    assert (KV : 0 < keV) by (unfold keV, eV, GeV; lra).
    assert (LH : lo <= hi). { apply Rnot_lt_le. intros C. apply LT. apply Rmult_lt_compat_r; auto. }
    assert (FI : Forall2 (fun s az => exists t, s = SAggregate (SFloat (fst az) :: SInt (snd az) :: t)) (items l) (combine am zs)).
    { apply (forall2_seq _ (items l) []). cbn [length app]. replace (length (items l)) with (length_of l) by (destruct l; reflexivity).
      revert F3. clear. generalize (combine am zs) as cz. generalize (seq 0 (length_of l)) as js. induction 1 as [|j b js cz (tl & N) _ IH]; constructor; [|exact IH]. eexists. split; [exact N|]. exists tl. reflexivity. }
    assert (DD : d2 = d1 /\ r * keV <= 0 \/ d2 = with_resolution (Fin (r * keV)) d1 /\ 0 < r * keV).
    { destruct (Rlt_dec 0.0 (r * keV)) as [P | P]; [rewrite xlt_true in D2 by auto|rewrite xlt_false in D2 by lra].
      - right. cbn [nuclear_run nuclear_step bind] in D2. apply Ok_inj in D2. split; [auto|lra].
      - left. apply Ok_inj in D2. split; [auto|lra]. }
    assert (BB : base_asked E cfg "Nuclear recoil" (n_base d2)).
    { exists expo, eff, z, bg. repeat (split; [assumption|]). destruct DD as [[-> _] | [-> _]]; rewrite <- D1; (repeat split; try reflexivity; intros; auto). }
    split; [exact BB|]. split; [reflexivity|]. exists l, am, zs, lo, hi, r. split; [exact V|]. split; [exact FI|]. split; [exact LZ|].
    assert (NT : n_targets d2 = map snd ts) by (destruct DD as [[-> _] | [-> _]]; rewrite <- D1; reflexivity).
    assert (NF : n_fractions d2 = f) by (destruct DD as [[-> _] | [-> _]]; rewrite <- D1; reflexivity).
    rewrite NT, NF. split; [exact F2|]. split; [exact RFR|]. repeat (split; [assumption|]).
    split; [destruct DD as [[-> _] | [-> _]]; rewrite <- D1; reflexivity|]. split; [destruct DD as [[-> _] | [-> _]]; rewrite <- D1; reflexivity|].
    split; [destruct DD as [[-> _] | [-> _]]; rewrite <- D1; reflexivity|]. split; [exact LH|]. split.
    - destruct DD as [[-> Q] | [-> Q]]; [rewrite <- D1; cbn [n_resolution with_n_base]; rewrite Rmax_left by lra; f_equal; lra|cbn [n_resolution with_resolution]; rewrite Rmax_right by lra; reflexivity].
    - destruct DD as [[-> _] | [-> _]]; rewrite <- D1; reflexivity.
Qed.
Lemma ionization_inv E cfg rows w d w' x : well_formed rows -> full_table rows -> world_history rows w -> readable (e_files E) -> (x =? "Electron recoil")%string || (x =? "Migdal")%string = true -> Construct_DM_Detector_Ionization E cfg w x = Ok (d, w') ->
  base_asked E cfg x (instrument_base d) /\ user_asked E cfg rows x d.
Proof.
  intros WF FT WH RF K H. unfold Construct_DM_Detector_Ionization in H.
    apply bind_ok in H. destruct H as (tg & TG & H). apply bind_ok in H. destruct H as (thr & TH & H). apply bind_ok in H. destruct H as (expo & EX & H). apply bind_ok in H. destruct H as (eff & EF & H).
    apply bind_ok in H. destruct H as (obs & OB & H). apply bind_ok in H. destruct H as (bg & BG & H). cbv zeta in H. apply bind_ok in H. destruct H as ([d0 w1] & D0 & H).
    apply bind_ok in H. destruct H as (d1 & D1 & H). apply bind_ok in H. destruct H as (d2 & D2 & H). apply Ok_inj in H. injection H as <- _.
    apply read_double_ok in EX, EF, BG. apply read_string_ok in TG. apply read_unsigned_ok in OB, TH. destruct OB as (z & OB & OZ). destruct TH as (t & TH & TZ).
    assert (G : exists ch, x = channel_name ch /\ Ionization_ctor1 (f_table (e_files E)) w ch x (Fin expo * (Fin kg * Fin year))%xr tg = Ok (d1, w1)).
    { destruct (String.eqb_spec x "Electron recoil") as [-> | NE]; [exists Electron_Recoil|destruct (String.eqb_spec x "Migdal") as [-> | NM]; [exists Migdal|discriminate K]]; (split; [reflexivity|]).
      - apply bind_ok in D0. destruct D0 as ([d' w''] & DD & D0). apply Ok_inj in D0. injection D0 as <- <-. cbn [deref] in D1. apply Ok_inj in D1. subst d'. exact DD.
      - apply bind_ok in D0. destruct D0 as ([d' w''] & DD & D0). apply Ok_inj in D0. injection D0 as <- <-. cbn [deref] in D1. apply Ok_inj in D1. subst d'. exact DD. }
    destruct G as (ch & -> & G).
    assert (A : exists zc a, d1 = Ionization_start ch (channel_name ch) (Fin expo * (Fin kg * Fin year))%xr [a] [Fin 1.0] /\ tg = (if (zc =? 54)%Z then "Xe"%string else "Ar"%string) /\ (zc = 54 \/ zc = 18)%Z /\ element_of_table rows zc (at_nucleus a)).
    { destruct (String.eqb_spec tg "Xe") as [-> | NX].
      - destruct (xenon_ok rows (e_files E) w ch (channel_name ch) (Fin expo * (Fin kg * Fin year))%xr WF FT WH RF) as (a & w2 & EA & EL). rewrite EA in G. apply Ok_inj in G. injection G as <- _. exists 54%Z, a. auto.
      - destruct (String.eqb_spec tg "Ar") as [-> | NA].
        + destruct (argon_ok rows (e_files E) w ch (channel_name ch) (Fin expo * (Fin kg * Fin year))%xr WF FT WH RF) as (a & w2 & EA & EL). rewrite EA in G. apply Ok_inj in G. injection G as <- _. exists 18%Z, a. auto.
        + unfold Ionization_ctor1 in G. rewrite (atom_other_names _ rows) in G by auto. discriminate. }
    destruct A as (zc & a & -> & -> & ZC & EL).
    cbn [ionization_run ionization_step base_step bind Ionization_start i_base with_i_base] in D2. unfold Use_Electron_Threshold in D2. cbv zeta in D2.
    cbn [i_ne_max i_ne_threshold with_ne] in D2. cbn [Z.ltb Z.compare andb] in D2. destruct (Z.ltb_spec 100 thr) as [LT | LT]; [discriminate|].
    cbn [bind ionization_run ionization_step base_step i_base with_i_base] in D2. apply Ok_inj in D2. subst d2. rewrite !xmul_fin. split.
    - exists expo, eff, z, bg. repeat (split; [assumption|]). repeat split; try reflexivity. intros; cbn; auto.
    - split; [reflexivity|]. exists t, zc, a. split; [exact TH|]. split; [exact TG|]. split; [exact ZC|]. split; [reflexivity|]. split; [exact EL|]. split; [reflexivity|]. split; [reflexivity|].
      split; [|reflexivity]. intros P. specialize (TZ P). subst thr. split; [reflexivity|lia].
Qed.
Lemma crystal_inv E cfg rows w d w' : well_formed rows -> full_table rows -> world_history rows w -> readable (e_files E) -> Construct_DM_Detector_Crystal E cfg w = Ok (d, w') ->
  base_asked E cfg "Semiconductor"%string (instrument_base d) /\ user_asked E cfg rows "Semiconductor"%string d.
Proof.
  intros WF FT WH RF H. unfold Construct_DM_Detector_Crystal in H.
    apply bind_ok in H. destruct H as (tg & TG & H). apply bind_ok in H. destruct H as (thr & TH & H). apply bind_ok in H. destruct H as (expo & EX & H). apply bind_ok in H. destruct H as (eff & EF & H).
    apply bind_ok in H. destruct H as (obs & OB & H). apply bind_ok in H. destruct H as (bg & BG & H). apply bind_ok in H. destruct H as (d1 & D1 & H). apply bind_ok in H. destruct H as (d2 & D2 & H).
    apply Ok_inj in H. injection H as <- _. apply read_double_ok in EX, EF, BG. apply read_string_ok in TG. apply read_unsigned_ok in OB, TH. destruct OB as (z & OB & OZ). destruct TH as (t & TH & TZ).
    unfold Semiconductor_ctor in D1. apply bind_ok in D1. destruct D1 as (c & C & D1). apply Ok_inj in D1. subst d1.
    cbn [semiconductor_run semiconductor_step base_step bind c_base with_c_base Use_Q_Threshold] in D2. apply Ok_inj in D2. subst d2. rewrite !xmul_fin. split.
    - exists expo, eff, z, bg. repeat (split; [assumption|]). repeat split; try reflexivity. intros; cbn; auto.
    - split; [reflexivity|]. exists t, tg. split; [exact TH|]. split; [exact TG|]. split; [exact C|]. split.
      + destruct (string_dec tg "Si") as [-> | NS]; [left; reflexivity|]. destruct (string_dec tg "Ge") as [-> | NG]; [right; left; reflexivity|]. rewrite crystal_ctor_unknown in C by auto. discriminate.
      + split; [reflexivity|]. split; [|reflexivity]. intros P. rewrite <- (TZ P). reflexivity.
Qed.

Lemma detector_inv E cfg rows w d w' : well_formed rows -> full_table rows -> world_history rows w -> readable (e_files E) -> Construct_DM_Detector E cfg w = Ok (d, w') ->
  detector_asked E cfg rows d.
Proof.
  intros WF FT WH RF H. unfold Construct_DM_Detector in H. apply bind_ok in H. destruct H as (x & X & H). apply read_string_ok in X. exists x. split; [exact X|].
  destruct (String.eqb_spec x "Nuclear recoil") as [-> | N1].
  { right. split; [left; reflexivity|]. eapply nuclear_inv; eauto. }
  destruct (_ || _)%bool eqn:K in H.
  { right. split; [rewrite orb_true_iff, !String.eqb_eq in K; cbn; intuition|]. eapply ionization_inv; eauto. }
  rewrite orb_false_iff, !String.eqb_neq in K. destruct K as [K1 K2]. destruct (String.eqb_spec x "Semiconductor") as [-> | N2].
  { right. split; [cbn; auto|]. eapply crystal_inv; eauto. }
  left. split.
  { cbn. intros [I | [I | [I | [I | []]]]]; congruence. }
  destruct (in_dec string_dec x (map fst publications)) as [I | NI].
  { apply in_map_iff in I. destruct I as ((nm & p) & <- & I). cbn [fst] in H |- *. destruct (experiments_realised rows (e_files E) w WF FT WH RF nm p I) as (d' & w'' & EE & RR). rewrite EE in H. apply Ok_inj in H. injection H as <- _.
    exists p. auto. }
  exfalso. destruct (in_dec string_dec x LZ_names) as [I | NL]; [rewrite (LZ_exits rows) in H by auto; discriminate|].
  rewrite experiments_unknown in H; [discriminate|]. intros Q. apply in_app_or in Q. destruct Q; auto.
Qed.
