(** Lemmas about whole runs of the configuration constructor. *)
From Coq Require Import Reals ZArith String Ascii Lia Lra Bool.
From Coquelicot Require Import Coquelicot.
From Coq Require Import List.
From Verif Require Import Base XrFacts Quadrature Nucleus_Model Nuclear_Model Nuclear_Proofs Particle_Model Particle_Proofs Distribution_Model Distribution_Proofs Astronomy_Model Halo_Model
  Atom_Model Atom_Proofs Crystal_Model Crystal_Proofs Rates_Model Detector_Model DetectorTypes_Model Detector_Proofs DetectorSafety_Proofs Experiments_Model Configuration_Model Experiments_Proofs
  Configuration_Proofs.
Import ListNotations.
Local Open Scope R_scope.

(** * All or nothing *)
Lemma ctor_loaded E fs w path rank cfg : loaded E fs path cfg ->
  snd (Configuration_ctor E fs w path rank) = let* ID := read_string cfg "ID" in construct_members E w cfg path ID.
Proof. intros (t & F & P). unfold Configuration_ctor, Read_Config_File. rewrite F, P. unfold Initialize_Result_Folder. destruct (read_string cfg "ID"); reflexivity. Qed.
Lemma ctor_not_loaded E fs w path rank : (forall cfg, ~ loaded E fs path cfg) -> Configuration_ctor E fs w path rank = (fs, Exit).
Proof.
  intros H. unfold Configuration_ctor, Read_Config_File. destruct (fs_file fs path) as [t|] eqn:F; [|reflexivity]. destruct (e_parse E t) as [cfg|] eqn:P; [|reflexivity]. exfalso. apply (H cfg). exists t. auto.
Qed.

Lemma members_inv E w cfg path ID c w' : construct_members E w cfg path ID = Ok (c, w') ->
  exists DM distr d certainty lo hi n, Construct_DM_Particle cfg = Ok DM /\ Construct_DM_Distribution E cfg = Ok distr /\ Construct_DM_Detector E cfg w = Ok (d, w') /\
    Initialize_Parameters E cfg = Ok (certainty, lo, hi, n) /\ c = mkConfiguration path ID (results_path E ID) (Some DM) distr (Some d) certainty lo hi n.
Proof.
  unfold construct_members. intros H. apply bind_ok in H. destruct H as (DM & D & H). apply bind_ok in H. destruct H as (h & HH & H). apply bind_ok in H. destruct H as ([d w1] & DD & H).
  apply bind_ok in H. destruct H as ([[[a b] c1] n] & P & H). apply Ok_inj in H. injection H as <- <-. exists DM, h, d, a, b, c1, n. auto.
Qed.
Lemma ctor_inv E fs w path rank c w' : snd (Configuration_ctor E fs w path rank) = Ok (c, w') -> exists cfg ID, loaded E fs path cfg /\ value_of cfg "ID" = Some (SString ID) /\ construct_members E w cfg path ID = Ok (c, w').
Proof.
  intros H. destruct (fs_file fs path) as [t|] eqn:F; [destruct (e_parse E t) as [cfg|] eqn:P|].
  - assert (L : loaded E fs path cfg) by (exists t; auto). rewrite (ctor_loaded E fs w path rank cfg L) in H. apply bind_ok in H. destruct H as (ID & I & H). apply read_string_ok in I. exists cfg, ID. auto.
  - unfold Configuration_ctor, Read_Config_File in H. rewrite F, P in H. discriminate.
  - unfold Configuration_ctor, Read_Config_File in H. rewrite F in H. discriminate.
Qed.

Lemma all_or_nothing E fs w path rank : tame_environment E -> shipped_world w ->
  (exists c w' DM h d, snd (Configuration_ctor E fs w path rank) = Ok (c, w') /\ cf_DM c = Some DM /\ cf_distr c = Some h /\ cf_detector c = Some d) \/
  snd (Configuration_ctor E fs w path rank) = Exit \/ snd (Configuration_ctor E fs w path rank) = Throw.
Proof.
  intros TE SW. assert (S : safe (snd (Configuration_ctor E fs w path rank))).
  { destruct (fs_file fs path) as [t|] eqn:F; [destruct (e_parse E t) as [cfg|] eqn:P|].
    - rewrite (ctor_loaded E fs w path rank cfg) by (exists t; auto). apply safe_bind; [apply safe_string|]. intros ID _. unfold construct_members.
      apply safe_bind; [apply safe_Construct_DM_Particle|]. intros ? _. apply safe_bind; [apply safe_distribution; auto|]. intros ? _. apply safe_bind; [apply safe_detector; auto|]. intros [d w1] _.
      apply safe_bind; [|intros [[[? ?] ?] ?] _; apply safe_ok]. unfold Initialize_Parameters. destruct TE as (N & _). walk.
    - unfold Configuration_ctor, Read_Config_File. rewrite F, P. discriminate.
    - unfold Configuration_ctor, Read_Config_File. rewrite F. discriminate. }
  destruct (snd (Configuration_ctor E fs w path rank)) as [[c w']| | |] eqn:R; auto; [|destruct (S eq_refl)]. left.
  apply ctor_inv in R. destruct R as (cfg & ID & L & I & M). apply members_inv in M. destruct M as (DM & o & d & a & b & c1 & n & M1 & M2 & M3 & M4 & ->).
  apply distribution_inv in M2. destruct M2 as (h & -> & _). eexists _, _, DM, h, d. split; [reflexivity|]. auto.
Qed.

Ltac got := match goal with
  | H : value_of ?c ?n = Some ?v |- exists u, value_of ?c ?n = Some u /\ _ => exists v; split; [exact H|]; unfold number, flag, text, whole, triple, pair; repeat eexists
  end.
Ltac pick H := cbn [In] in H; repeat (destruct H as [H | H]; [injection H as <- <-; first [got | idtac]|]); try contradiction.

Lemma mandatory_present E fs w path rank cfg c w' name P : shipped_world w -> readable (e_files E) -> loaded E fs path cfg -> snd (Configuration_ctor E fs w path rank) = Ok (c, w') ->
  mandatory cfg name P -> exists v, value_of cfg name = Some v /\ P v.
Proof.
  intros (rows & WF & FT & WH) RF L R M. rewrite (ctor_loaded E fs w path rank cfg L) in R. apply bind_ok in R. destruct R as (ID & I & R). apply read_string_ok in I.
  apply members_inv in R. destruct R as ([q spin] & o & d & a & b & c1 & n & M1 & M2 & M3 & M4 & _).
  apply particle_inv in M1. destruct M1 as (m & sp & f & lt & i & p & V1 & V2 & V3 & V4 & V5 & II & SV & _). apply standard_inv in SV; [|exact II].
  destruct SV as (k & p0 & x & y & p1 & sn & p2 & se & -> & K1 & K2 & RC & _ & V6 & _ & V7 & _).
  apply distribution_inv in M2. destruct M2 as (h & -> & (rho & V8 & HA)). apply parameters_inv in M4. destruct M4 as (W1 & W2 & W3 & (z & W4 & _)).
  apply (detector_inv E cfg rows) in M3; auto. destruct M3 as (x0 & V9 & DA).
  assert (V10 : exists d, value_of cfg "DM_distribution" = Some (SString d)) by (destruct h; destruct HA as (HA & _); eexists; exact HA). destruct V10 as (dd & V10).
  assert (V11 : exists b, value_of cfg "DM_isospin_conserved" = Some (SBool b)) by (apply relative_inv in RC; destruct RC as [(HA' & _) | (HA' & _)]; eexists; exact HA'). destruct V11 as (iso & V11).
  destruct M as [name P M | C | C1 C2 | C | d0 name P C1 C2 M | name P C M | C | x1 name P C1 C2 M | name P C M | x1 name P C1 C2 M].
  - pick M.
  - rewrite V5 in C. destruct k; [|discriminate]. destruct (SI_inv cfg p0 (K1 eq_refl)) as (ff & F1 & _). got.
  - rewrite V5 in C1. destruct k; [|discriminate]. destruct (SI_inv cfg p0 (K1 eq_refl)) as (ff & F1 & _ & [(NG & _) | (_ & mm & F2 & _)]); [|got]. rewrite F1 in C2. injection C2 as ->. contradiction.
  - apply relative_inv in RC. destruct RC as [(B & _) | (B & pp & nn & t & B1 & _)]; [congruence|]. got.
  - assert (HH : exists v0 x y z ve, value_of cfg "SHM_v0" = Some (SFloat v0) /\ value_of cfg "SHM_vObserver" = Some (SAggregate [SFloat x; SFloat y; SFloat z]) /\ value_of cfg "SHM_vEscape" = Some (SFloat ve)).
    { destruct h.
      - destruct HA as (_ & v0 & x' & y' & z' & ve & A1 & A2 & A3 & _). exists v0, x', y', z', ve. auto.
      - destruct HA as (_ & v0 & x' & y' & z' & ve & eta & beta & A1 & A2 & A3 & _). exists v0, x', y', z', ve. auto.
      - destruct HA as (A & _). rewrite A in C1. injection C1 as <-. destruct C2 as [C2 | [C2 | []]]; discriminate. }
    destruct HH as (v0 & x' & y' & z' & ve & A1 & A2 & A3). pick M.
  - destruct h; destruct HA as (A & HA); rewrite A in C; try discriminate. destruct HA as (v0 & x' & y' & z' & ve & eta & beta & _ & _ & _ & A4 & A5 & _). pick M.
  - destruct h; destruct HA as (A & HA); rewrite A in C; try discriminate. destruct HA as (pth & rw & A1 & _). got.
  - rewrite V9 in C1. injection C1 as ->. destruct DA as [(N & _) | (_ & (expo & eff & zz & bg & A1 & A2 & A3 & A4 & _) & _)]; [contradiction|]. pick M.
  - rewrite V9 in C. injection C as ->. destruct DA as [(N & _) | (_ & _ & U)]; [exfalso; apply N; left; reflexivity|].
    destruct d; cbn [user_asked] in U; destruct U as [U0 U]; [|destruct (i_channel s); discriminate|discriminate]. destruct U as (v & am & zs & lo & hi & r & A1 & A2 & _ & _ & _ & A3 & A4 & A5 & _). pick M.
    unfold target_list. clear - A2. revert A2. generalize (items v) (combine am zs). induction 1 as [|s az ? ? (t & ->) _ IH]; constructor; [|exact IH]. repeat eexists.
  - rewrite V9 in C1. injection C1 as ->. destruct DA as [(N & _) | (_ & _ & U)]; [exfalso; apply N; destruct C2 as [<- | [<- | [<- | []]]]; cbn; auto|].
    assert (HH : exists t s, value_of cfg "DD_threshold_electron" = Some (SInt t) /\ value_of cfg "DD_target_electron" = Some (SString s)).
    { destruct d; cbn [user_asked] in U; destruct U as [U0 U].
      - subst x1. destruct C2 as [C2 | [C2 | [C2 | []]]]; discriminate.
      - destruct U as (t & zc & at_ & A1 & A2 & _). eexists _, _. eauto.
      - destruct U as (t & mm & A1 & A2 & _). eexists _, _. eauto. }
    destruct HH as (t & s & A1 & A2). pick M.
Qed.

Lemma mandatory_missing E fs w path rank cfg name P : tame_environment E -> shipped_world w -> loaded E fs path cfg -> mandatory cfg name P -> (forall v, value_of cfg name = Some v -> ~ P v) ->
  snd (Configuration_ctor E fs w path rank) = Exit \/ snd (Configuration_ctor E fs w path rank) = Throw.
Proof.
  intros TE SW L M N. destruct (all_or_nothing E fs w path rank TE SW) as [(c & w' & _ & _ & _ & R & _) | R]; [|exact R]. exfalso.
  destruct TE as (_ & RF & _). destruct (mandatory_present E fs w path rank cfg c w' name P SW RF L R M) as (v & V & PV). exact (N v V PV).
Qed.

(** * Every complete and sensible configuration is accepted *)
(** The numerical routines return a number for functions that do. *)
Definition total_library (E : environment) : Prop :=
  (forall f a b, (forall x, exists y, f x = Ok y) -> exists y, e_Integrate E f a b = Ok y) /\ (forall f a b c d, (forall x z, exists y, f x z = Ok y) -> exists y, e_Integrate_2D E f a b c d = Ok y).
Definition complete (cfg : settings) : Prop := forall name P, mandatory cfg name P -> exists v, value_of cfg name = Some v /\ P v.
Definition target_in_range (s : setting) : Prop := exists a z t, s = SAggregate (SFloat a :: SInt z :: t) /\ (1 <= z <= 92)%Z.
Definition sensible_particle (cfg : settings) : Prop :=
  (exists i, value_of cfg "DM_interaction" = Some (SString i) /\ In i ["SI"; "SD"]%string) /\
  (value_of cfg "DM_interaction" = Some (SString "SI") -> exists ff, value_of cfg "DM_form_factor" = Some (SString ff) /\ In ff form_factors /\
     (ff = "General"%string -> exists m, value_of cfg "DM_mediator_mass" = Some (SFloat m) /\ 1e-60 <= m * MeV)).
Definition sensible_halo (E : environment) (cfg : settings) : Prop :=
  exists d rho, value_of cfg "DM_distribution" = Some (SString d) /\ value_of cfg "DM_local_density" = Some (SFloat rho) /\
    (In d ["SHM"; "SHM++"]%string \/ d = "File"%string /\ exists path rows s, value_of cfg "file_path" = Some (SString path) /\ f_rows (e_files E) path = Ok rows /\
       Imported_of_file (e_Integrate E) (e_Interpolation E) (Fin (rho * (GeV / cm / cm / cm))) path rows = Ok s).
Definition sensible_detector (cfg : settings) : Prop :=
  exists x, value_of cfg "DD_experiment" = Some (SString x) /\
  (In x (map fst publications) \/
   In x user_defined /\ (exists n, value_of cfg "DD_observed_events" = Some (SInt n) /\ (0 <= n)%Z) /\
   (x = "Nuclear recoil"%string -> exists v lo hi, value_of cfg "DD_targets_nuclear" = Some v /\ Forall target_in_range (items v) /\
      value_of cfg "DD_threshold_nuclear" = Some (SFloat lo) /\ value_of cfg "DD_Emax_nuclear" = Some (SFloat hi) /\ lo <= hi) /\
   (x <> "Nuclear recoil"%string -> exists m t, value_of cfg "DD_target_electron" = Some (SString m) /\ value_of cfg "DD_threshold_electron" = Some (SInt t) /\ (0 <= t <= 100)%Z /\
      (In x ["Electron recoil"; "Migdal"]%string -> In m ["Xe"; "Ar"]%string) /\ (x = "Semiconductor"%string -> In m ["Si"; "Ge"]%string))).
Definition sensible (E : environment) (cfg : settings) : Prop :=
  sensible_particle cfg /\ sensible_halo E cfg /\ sensible_detector cfg /\ exists n, value_of cfg "constraints_masses" = Some (SInt n) /\ (0 <= n)%Z.

Lemma rd_double cfg name r : value_of cfg name = Some (SFloat r) -> read_double cfg name = Ok r. Proof. apply read_double_ok. Qed.
Lemma rd_string cfg name r : value_of cfg name = Some (SString r) -> read_string cfg name = Ok r. Proof. apply read_string_ok. Qed.
Lemma rd_bool cfg name r : value_of cfg name = Some (SBool r) -> read_bool cfg name = Ok r. Proof. apply read_bool_ok. Qed.

Ltac need C name := let V := fresh "V" in destruct (C name%string _ ltac:(apply m_always; cbn [In]; tauto)) as (? & V & (? & ->)).

Lemma particle_complete cfg : complete cfg -> sensible_particle cfg -> exists q, Construct_DM_Particle cfg = Ok q.
Proof.
  intros C ((i & VI & II) & S). need C "DM_mass"%string. need C "DM_spin"%string. need C "DM_fraction"%string. need C "DM_light"%string. need C "DM_isospin_conserved"%string.
  need C "DM_cross_section_nucleon"%string. need C "DM_cross_section_electron"%string.
  assert (RC : exists p n, relative_couplings cfg = Ok (Fin p, Fin n)).
  { unfold relative_couplings. rewrite (rd_bool _ _ _ V3). cbn [bind]. destruct x4; [eexists _, _; reflexivity|].
    destruct (C "DM_relative_couplings"%string pair (m_couplings _ V3)) as (v & VR & (p & n & t & ->)). rewrite find_value, VR. cbn. eexists _, _; reflexivity. }
  destruct RC as (p & n & RC).
  assert (PS : exists q, Construct_DM_Particle_Standard cfg i = Ok q).
  { unfold Construct_DM_Particle_Standard.
    assert (FIN : forall p0, (exists f, fp p0 = Fin f /\ 0 < f) -> exists q, (let* (fp_rel, fn_rel) := relative_couplings cfg in let* p0 := deref (Some p0) in
      let* p1 := Fix_Coupling_Ratio fp_rel fn_rel p0 in let* sigma_n := read_double cfg "DM_cross_section_nucleon" in
      let* p2 := Set_Interaction_Parameter (Fin sigma_n * (Fin cm * Fin cm))%xr "Nuclei" p1 in let* sigma_e := read_double cfg "DM_cross_section_electron" in
      Ok (Set_Sigma_Electron (Fin sigma_e * (Fin cm * Fin cm))%xr p2)) = Ok q).
    { intros p0 F. rewrite RC. cbn [bind deref]. destruct (fix_ok (kind p0) (Fin p) (Fin n) p0 F eq_refl) as (p1 & E1). rewrite E1. cbn [bind]. rewrite (rd_double _ _ _ V4). cbn [bind].
      unfold Set_Interaction_Parameter. cbn [String.eqb Ascii.eqb eqb bind]. rewrite (rd_double _ _ _ V5). cbn [bind]. eexists; reflexivity. }
    destruct II as [<- | [<- | []]]; cbn [String.eqb Ascii.eqb eqb].
    - destruct (S VI) as (ff & VF & IF & G). assert (CS : exists p0, configure_SI cfg = Ok p0 /\ fp p0 = fp (Particle_default SI)).
      { unfold configure_SI. rewrite (rd_string _ _ _ VF). cbn [bind]. destruct (String.eqb_spec ff "General") as [-> | NG].
        - destruct (G eq_refl) as (m & VM & GM). rewrite (rd_double _ _ _ VM). cbn [bind]. cbv zeta. rewrite xmul_fin, xlt_false by lra. cbn [bind].
          unfold Set_FormFactor_DM. cbn [String.eqb Ascii.eqb eqb orb andb FF_DM with_FF]. cbv zeta. rewrite xlt_true by lra. eexists; split; reflexivity.
        - cbn [bind]. unfold Set_FormFactor_DM. replace (_ || _)%bool with true; [|symmetry; rewrite !orb_true_iff, !String.eqb_eq; cbn in IF; intuition]. cbv zeta. cbn [FF_DM with_FF].
          apply String.eqb_neq in NG. rewrite NG. cbn [andb]. eexists; split; reflexivity. }
      destruct CS as (p0 & E0 & F0). rewrite E0. cbn [bind]. apply FIN. rewrite F0. apply default_fp.
    - cbn [bind]. apply FIN. apply default_fp. }
  destruct PS as (q & PS). unfold Construct_DM_Particle. rewrite (rd_double _ _ _ V). cbn [bind]. cbv zeta. rewrite (rd_double _ _ _ V0), (rd_double _ _ _ V1), (rd_bool _ _ _ V2). cbn [bind].
  rewrite (rd_string _ _ _ VI). cbn [bind]. replace (_ || _)%bool with true; [|symmetry; rewrite orb_true_iff, !String.eqb_eq; cbn in II; intuition]. rewrite PS. cbn [bind]. eexists; reflexivity.
Qed.

Lemma halo_complete E cfg : total_library E -> complete cfg -> sensible_halo E cfg -> exists h, Construct_DM_Distribution E cfg = Ok h.
Proof.
  intros (I1 & I2) C (d & rho & VD & VR & S). unfold Construct_DM_Distribution. rewrite (rd_string _ _ _ VD). cbn [bind]. destruct S as [S | (-> & path & rows & s & VP & FR & IM)].
  - replace (_ || _)%bool with true; [|symmetry; rewrite orb_true_iff, !String.eqb_eq; cbn in S; intuition]. unfold Construct_DM_Halo_Model. rewrite (rd_double _ _ _ VR). cbn [bind]. cbv zeta.
    destruct (C "SHM_v0"%string number ltac:(eapply m_halo; [exact VD|exact S|cbn [In]; tauto])) as (? & V0 & (v0 & ->)).
    destruct (C "SHM_vObserver"%string triple ltac:(eapply m_halo; [exact VD|exact S|cbn [In]; tauto])) as (? & V1 & (x & y & z & ->)).
    destruct (C "SHM_vEscape"%string number ltac:(eapply m_halo; [exact VD|exact S|cbn [In]; tauto])) as (? & V2 & (ve & ->)).
    rewrite (rd_double _ _ _ V0). cbn [bind]. unfold observer_velocity. rewrite find_value, V1. cbn [bind length_of List.length Nat.eqb map_res element nth_error as_double].
    rewrite (rd_double _ _ _ V2). cbn [bind]. destruct S as [<- | [<- | []]]; cbn [String.eqb Ascii.eqb eqb]; [eexists; reflexivity|].
    destruct (C "SHMpp_eta"%string number ltac:(eapply m_plusplus; [exact VD|cbn [In]; tauto])) as (? & V3 & (eta & ->)).
    destruct (C "SHMpp_beta"%string number ltac:(eapply m_plusplus; [exact VD|cbn [In]; tauto])) as (? & V4 & (beta & ->)).
    rewrite (rd_double _ _ _ V3). cbn [bind]. rewrite (rd_double _ _ _ V4). cbn [bind]. unfold SHMpp_of_velocity, SHMpp_of_base, Interpolate_Eta_Function_S.
    match goal with |- context [map_res ?g ?l] => destruct (Distribution_Proofs.map_res_ok g l) as (t & ET) end; [|rewrite ET; cbn [bind]; eexists; reflexivity].
    intros v _. unfold Eta_Function_S. destruct (_ || _)%bool; [cbn [bind]; eexists; reflexivity|]. match goal with |- context [e_Integrate E ?g ?a ?b] => destruct (I1 g a b) as (r & ER) end; [|rewrite ER; cbn [bind]; eexists; reflexivity].
    intros u. unfold PDF_Speed_S. destruct (_ || _)%bool; [cbn [bind]; eexists; reflexivity|]. match goal with |- context [e_Integrate_2D E ?g ?a ?b ?c ?d] => destruct (I2 g a b c d) as (r & ER) end; [|rewrite ER; cbn [bind]; eexists; reflexivity].
    intros x1 y1. unfold angular_integrand. destruct u, (xacos x1), y1; eexists; reflexivity.
  - cbn [String.eqb Ascii.eqb eqb orb]. unfold Construct_Imported_Distribution. rewrite (rd_double _ _ _ VR). cbn [bind]. cbv zeta. rewrite (rd_string _ _ _ VP). cbn [bind]. rewrite FR. cbn [bind].
    rewrite IM. cbn [bind]. eexists; reflexivity.
Qed.

Lemma targets_complete rows l : well_formed rows -> full_table rows -> forall js w, world_history rows w -> (forall j, In j js -> exists s, nth_error (items l) j = Some s /\ target_in_range s) ->
  exists t w', read_targets w l js = Ok (t, w').
Proof.
  intros WF FT. induction js as [|j js IH]; intros w WH H; cbn [read_targets]; [eexists _, _; reflexivity|].
  destruct (H j (or_introl eq_refl)) as (s & N & (a & z & t & -> & Z)). destruct l as [| | | | |l]; cbn [items] in N; try (destruct j; discriminate). cbn [element]. rewrite N. cbn [bind element nth_error as_double as_int].
  destruct (get_nucleus_in rows w z WF WH Z (FT z Z)) as (n & w1 & G & _). rewrite G. cbn [bind].
  destruct (IH w1) as (r & w2 & R); [apply (wh_query rows w (ByCharge z) n w1); auto|intros; apply H; right; auto|]. cbn [items] in R. rewrite R. cbn [bind]. eexists _, _; reflexivity.
Qed.

Lemma detector_complete E cfg w : readable (e_files E) -> shipped_world w -> complete cfg -> sensible_detector cfg -> exists d w', Construct_DM_Detector E cfg w = Ok (d, w').
Proof.
  intros RF (rows & WF & FT & WH) C (x & VX & S). unfold Construct_DM_Detector. rewrite (rd_string _ _ _ VX). cbn [bind].
  destruct S as [S | (U & (n & VN & NN) & SN & SE)].
  { assert (NU : forallb (fun k => negb (existsb (String.eqb k) user_defined)) (map fst publications) = true) by reflexivity. rewrite forallb_forall in NU. specialize (NU x S).
    apply negb_true_iff in NU. cbn [existsb user_defined] in NU. rewrite !orb_false_iff in NU. destruct NU as (N1 & N2 & N3 & N4 & _). rewrite N1, N2, N3, N4. cbn [orb].
    apply in_map_iff in S. destruct S as ((nm & p) & <- & I). cbn [fst] in *. destruct (experiments_realised rows (e_files E) w WF FT WH RF nm p I) as (d & w' & EE & _). rewrite EE. eexists _, _; reflexivity. }
  destruct (C "DD_exposure"%string number ltac:(eapply m_user; [exact VX|exact U|cbn [In]; tauto])) as (? & V1 & (expo & ->)).
  destruct (C "DD_efficiency"%string number ltac:(eapply m_user; [exact VX|exact U|cbn [In]; tauto])) as (? & V2 & (eff & ->)).
  destruct (C "DD_expected_background"%string number ltac:(eapply m_user; [exact VX|exact U|cbn [In]; tauto])) as (? & V3 & (bg & ->)).
  destruct (String.eqb_spec x "Nuclear recoil") as [-> | NX].
  { destruct (SN eq_refl) as (v & lo & hi & VT & TR & VL & VH & LH).
    destruct (C "DD_energy_resolution"%string number ltac:(eapply m_nuclear; [exact VX|cbn [In]; tauto])) as (? & V4 & (r & ->)).
    unfold Construct_DM_Detector_Nuclear. rewrite find_value, VT. cbn [bind].
    destruct (targets_complete rows v WF FT (seq 0 (length_of v)) w WH) as (ts & w1 & ET).
    { intros j J. apply in_seq in J. assert (L : (j < length (items v))%nat) by (destruct v; cbn in J |- *; lia). destruct (nth_error (items v) j) as [s|] eqn:N; [|apply nth_error_None in N; lia].
      exists s. split; [reflexivity|]. rewrite Forall_forall in TR. apply TR. eapply nth_error_In; eauto. }
    rewrite ET. cbn [bind]. rewrite (rd_double _ _ _ VL), (rd_double _ _ _ VH), (rd_double _ _ _ V1), (rd_double _ _ _ V2). cbn [bind]. rewrite (read_unsigned_eq E _ _ _ VN NN). cbn [bind].
    rewrite (rd_double _ _ _ V3), (rd_double _ _ _ V4). cbn [bind].
    destruct (nuclear_ctor_ok "Nuclear recoil" (Fin expo * (Fin kg * Fin year))%xr (map snd ts) (map fst ts)) as (f & EF & _); [right; rewrite !map_length; reflexivity|]. rewrite EF. cbn [bind].
    cbn [nuclear_run nuclear_step base_step bind n_base with_n_base]. unfold Use_Energy_Threshold. cbv zeta. rewrite !xmul_fin.
    assert (KV : 0 < keV) by (unfold keV, eV, GeV; lra). rewrite xlt_false by (apply Rle_ge || idtac; apply Rmult_le_compat_r; lra). cbn [bind nuclear_run nuclear_step base_step n_base with_n_base].
    destruct (xlt _ _); cbn [bind]; eexists _, _; reflexivity. }
  destruct (SE NX) as (m & t & VM & VT & TR & SI1 & SI2). assert (UX : In x ["Electron recoil"; "Migdal"; "Semiconductor"]%string) by (destruct U as [U | U]; [congruence|exact U]).
  destruct (String.eqb_spec x "Semiconductor") as [-> | NS].
  { cbn [String.eqb Ascii.eqb eqb orb]. unfold Construct_DM_Detector_Crystal. rewrite (rd_string _ _ _ VM). cbn [bind]. rewrite (read_unsigned_eq E _ _ _ VT) by lia. cbn [bind].
    rewrite (rd_double _ _ _ V1), (rd_double _ _ _ V2). cbn [bind]. rewrite (read_unsigned_eq E _ _ _ VN NN). cbn [bind]. rewrite (rd_double _ _ _ V3). cbn [bind].
    destruct RF as (_ & FL & _ & FS). assert (CC : exists c, Crystal_ctor (f_list (e_files E)) m = Ok c).
    { destruct (SI2 eq_refl) as [<- | [<- | []]].
      - destruct (FL "data/Semiconductors/C.Si137.dat"%string) as (l & EL). destruct (crystal_ctor_ok (f_list (e_files E)) "Si" _ _ _ (map Fin l) ltac:(left; repeat split; reflexivity) EL) as [H _].
        destruct (H (FS _ _ (or_introl eq_refl) EL)) as (c & EC & _). eauto.
      - destruct (FL "data/Semiconductors/C.Ge137.dat"%string) as (l & EL). destruct (crystal_ctor_ok (f_list (e_files E)) "Ge" _ _ _ (map Fin l) ltac:(right; repeat split; reflexivity) EL) as [H _].
        destruct (H (FS _ _ (or_intror (or_introl eq_refl)) EL)) as (c & EC & _). eauto. }
    destruct CC as (c & EC). unfold Semiconductor_ctor. rewrite EC. cbn [bind semiconductor_run semiconductor_step base_step c_base with_c_base Use_Q_Threshold]. eexists _, _; reflexivity. }
  assert (UC : exists ch, x = channel_name ch) by (destruct UX as [<- | [<- | [<- | []]]]; [exists Electron_Recoil|exists Migdal|contradiction]; reflexivity). destruct UC as (ch & ->).
  assert (IX : In m ["Xe"; "Ar"]%string) by (apply SI1; destruct ch; cbn; auto).
  assert (IC : forall expo, exists a w', Ionization_ctor1 (f_table (e_files E)) w ch (channel_name ch) expo m = Ok (Ionization_start ch (channel_name ch) expo [a] [Fin 1.0], w')).
  { intros ex. destruct IX as [<- | [<- | []]]; [destruct (xenon_ok rows (e_files E) w ch (channel_name ch) ex WF FT WH RF) as (a & w' & EE & _)|destruct (argon_ok rows (e_files E) w ch (channel_name ch) ex WF FT WH RF) as (a & w' & EE & _)]; eauto. }
  destruct (IC (Fin expo * (Fin kg * Fin year))%xr) as (a & w' & EI).
  replace (_ || _)%bool with true by (destruct ch; reflexivity). unfold Construct_DM_Detector_Ionization. rewrite (rd_string _ _ _ VM). cbn [bind]. rewrite (read_unsigned_eq E _ _ _ VT) by lia. cbn [bind].
  rewrite (rd_double _ _ _ V1), (rd_double _ _ _ V2). cbn [bind]. rewrite (read_unsigned_eq E _ _ _ VN NN). cbn [bind]. rewrite (rd_double _ _ _ V3). cbn [bind]. cbv zeta.
  match goal with |- exists d w', bind (bind (if ?b then bind ?m1 ?k1 else if ?b2 then bind ?m2 ?k2 else ?e) ?k3) ?k4 = _ => idtac | _ => idtac end.
  assert (RUN : exists s, ionization_run (Ionization_start ch (channel_name ch) (Fin expo * (Fin kg * Fin year))%xr [a] [Fin 1.0])
     [IBase (BFlat (Fin eff)); IElectron_Threshold t 0; IBase (BObserved n); IBase (BBackground (Fin bg))] = Ok s).
  { cbn [ionization_run ionization_step base_step bind Ionization_start i_base with_i_base]. unfold Use_Electron_Threshold. cbv zeta. cbn [i_ne_max i_ne_threshold with_ne Z.ltb Z.compare andb].
    destruct (Z.ltb_spec 100 t); [lia|]. cbn [bind ionization_run ionization_step base_step i_base with_i_base]. eexists; reflexivity. }
  destruct RUN as (s & RUN). destruct ch; cbn [channel_name] in *; cbn [String.eqb Ascii.eqb eqb]; rewrite EI; cbn [bind deref]; rewrite RUN; cbn [bind]; eexists _, _; reflexivity.
Qed.

Lemma accepted E fs w path rank cfg : tame_environment E -> total_library E -> shipped_world w -> loaded E fs path cfg -> complete cfg -> sensible E cfg ->
  exists c w', snd (Configuration_ctor E fs w path rank) = Ok (c, w').
Proof.
  intros (_ & RF & _) TL SW L C (S1 & S2 & S3 & (n & VN & NN)). rewrite (ctor_loaded E fs w path rank cfg L). need C "ID"%string. rewrite (rd_string _ _ _ V). cbn [bind]. unfold construct_members.
  destruct (particle_complete cfg C S1) as (q & ->). cbn [bind]. destruct (halo_complete E cfg TL C S2) as (h & ->). cbn [bind]. destruct (detector_complete E cfg w RF SW C S3) as (d & w' & ->). cbn [bind].
  need C "constraints_certainty"%string. need C "constraints_mass_min"%string. need C "constraints_mass_max"%string. unfold Initialize_Parameters.
  rewrite (rd_double _ _ _ V0), (rd_double _ _ _ V1), (rd_double _ _ _ V2). cbn [bind]. rewrite (read_unsigned_eq E _ _ _ VN NN). cbn [bind]. eexists _, _; reflexivity.
Qed.
