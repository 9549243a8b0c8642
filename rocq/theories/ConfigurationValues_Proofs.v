(** Lemmas about the values held by a configured particle. *)
From Coq Require Import Reals ZArith String Ascii Lia Lra Bool.
From Coquelicot Require Import Coquelicot.
From Coq Require Import List.
From Verif Require Import Base XrFacts Quadrature Nucleus_Model Nuclear_Model Nuclear_Proofs Particle_Model Particle_Proofs Distribution_Model Distribution_Proofs Astronomy_Model Halo_Model
  Atom_Model Atom_Proofs Crystal_Model Crystal_Proofs Rates_Model Detector_Model DetectorTypes_Model Detector_Proofs DetectorSafety_Proofs Experiments_Model Configuration_Model Experiments_Proofs
  Configuration_Proofs ConfigurationRun_Proofs.
Import ListNotations.
Local Open Scope R_scope.

(** The ratio p : n of the couplings to protons and neutrons that a configuration asks for. *)
Definition ratio_asked (cfg : settings) (p n : R) : Prop :=
  (value_of cfg "DM_isospin_conserved" = Some (SBool true) /\ p = 1 /\ n = 1) \/
  (value_of cfg "DM_isospin_conserved" = Some (SBool false) /\ exists t, value_of cfg "DM_relative_couplings" = Some (SAggregate (SFloat p :: SFloat n :: t))).

(** What the particle reports about itself. *)
Definition reports (cfg : settings) (q : particle) (spin : xr) : Prop :=
  (exists m, value_of cfg "DM_mass" = Some (SFloat m) /\ mass q = Fin (m * GeV)) /\
  (exists j, value_of cfg "DM_spin" = Some (SFloat j) /\ spin = Fin j) /\
  (exists f, value_of cfg "DM_fraction" = Some (SFloat f) /\ fractional_density q = Fin f) /\
  (exists b, value_of cfg "DM_light" = Some (SBool b) /\ low_mass q = b) /\
  value_of cfg "DM_interaction" = Some (SString (kind_name (kind q))) /\
  (kind q = SI -> value_of cfg "DM_form_factor" = Some (SString (FF_DM q)) /\
     (FF_DM q = "General"%string -> exists m, value_of cfg "DM_mediator_mass" = Some (SFloat m) /\ mMediator q = Fin (m * MeV))) /\
  (exists s, value_of cfg "DM_cross_section_nucleon" = Some (SFloat s) /\ Get_Interaction_Parameter "Nuclei" q = Ok (Fin (s * (cm * cm)))) /\
  (exists s, value_of cfg "DM_cross_section_electron" = Some (SFloat s) /\ Get_Interaction_Parameter "Electrons" q = Ok (Fin (s * (cm * cm)))).

Lemma default_pos : 0 < 10 * GeV /\ 0 <= 1 / 10 ^ 40 * cm * cm.
Proof.
  split; [unfold GeV; lra|]. assert (C := cm_pos). apply Rlt_le. apply Rmult_lt_0_compat; [|exact C]. apply Rmult_lt_0_compat; [|exact C]. apply Rdiv_lt_0_compat; [lra|]. apply pow_lt; lra.
Qed.
Lemma default_sound k : sound (Particle_default k). Proof. apply sound_ctor; apply default_pos. Qed.
Lemma default_reachable k : reachable (Particle_default k).
Proof. exists k, (10 * GeV), (1 / 10 ^ 40 * cm * cm), []. destruct default_pos. repeat split; auto. Qed.
Lemma default_sigma k : Sigma_Proton (Particle_default k) <> Fin 0.
Proof.
  destruct (default_fp k) as (f & F & P). destruct (good_pre _ (proj1 (default_sound k))) as (m & pre & M & MP & PR & PP).
  rewrite (Sigma_Proton_eq _ m pre f) by auto. intros H. apply Fin_inj in H. apply sig_zero in H; auto. lra.
Qed.

Lemma kind_default k : kind (Particle_default k) = k.
Proof. unfold Particle_default, Particle_ctor. pose proof (Set_Sigma_Proton_frame (Fin (1 / 10 ^ 40 * cm * cm)) (Standard_ctor k (Fin (10 * GeV)))) as F. cbv zeta in F. destruct F as (F & _). rewrite F. reflexivity. Qed.

Lemma bare_particle cfg k p0 : (k = SI -> configure_SI cfg = Ok p0) -> (k = SD -> p0 = Particle_default SD) ->
  sound p0 /\ reachable p0 /\ Sigma_Proton p0 <> Fin 0 /\ kind p0 = k /\
  (k = SI -> value_of cfg "DM_form_factor" = Some (SString (FF_DM p0)) /\ (FF_DM p0 = "General"%string -> exists m, value_of cfg "DM_mediator_mass" = Some (SFloat m) /\ mMediator p0 = Fin (m * MeV))).
Proof.
  intros H1 H2. destruct k.
  - specialize (H1 eq_refl). assert (H := H1). apply SI_inv in H. destruct H as (ff & V & I & H).
    assert (R : reachable p0).
    { unfold configure_SI in H1. apply bind_ok in H1. destruct H1 as (ff' & _ & H1). apply bind_ok in H1. destruct H1 as (mm & _ & H1). eapply (reachable_step (Particle_default SI) (PForm_Factor ff' mm)); [apply default_reachable|exact Logic.I|].
      cbn [pstep]. rewrite kind_default. exact H1. }
    assert (K := kind_default SI). assert (DS := default_sigma SI).
    destruct H as [(NG & ->) | (-> & m & VM & GE & ->)].
    + split; [eapply sound_ext; [..|apply (default_sound SI)]; reflexivity|]. split; [exact R|]. split; [exact DS|]. split; [exact K|]. intros _. split; [exact V|]. intros C. cbn in C. contradiction.
    + split; [eapply sound_ext; [..|apply (default_sound SI)]; reflexivity|]. split; [exact R|]. split; [exact DS|]. split; [exact K|]. intros _. split; [exact V|]. intros _. exists m. auto.
  - rewrite (H2 eq_refl). split; [apply default_sound|]. split; [apply default_reachable|]. split; [apply default_sigma|]. split; [apply kind_default|]. discriminate.
Qed.

Lemma interaction_frame x t s s' : Set_Interaction_Parameter x t s = Ok s' -> kind s' = kind s /\ fp_relative s' = fp_relative s /\ fixed s' = fixed s /\ FF_DM s' = FF_DM s /\ mMediator s' = mMediator s.
Proof.
  unfold Set_Interaction_Parameter. destruct (_ =? _)%string; [|destruct (_ =? _)%string; [|discriminate]]; intros H; apply Ok_inj in H; subst s'.
  - destruct (xlt _ _); [pose proof (Set_Sigma_Proton_frame x s) as F|pose proof (Set_Sigma_Neutron_frame x s) as F]; cbv zeta in F; decompose [and] F; auto.
  - auto.
Qed.
Lemma ratio_frame p n s s' : Fix_Coupling_Ratio p n s = Ok s' -> kind s' = kind s /\ FF_DM s' = FF_DM s /\ mMediator s' = mMediator s.
Proof. intros H. destruct (Fix_frame s s') as (A & _ & _ & _ & _ & _ & _ & B & C & _); eauto. Qed.

Lemma particle_values cfg q spin p n m sn : Construct_DM_Particle cfg = Ok (q, spin) -> value_of cfg "DM_mass" = Some (SFloat m) -> 0 < m ->
  value_of cfg "DM_cross_section_nucleon" = Some (SFloat sn) -> 0 <= sn -> ratio_asked cfg p n -> p + n <> 0 ->
  reports cfg q spin /\ exists x y, couplings q x y /\ x * n = y * p.
Proof.
  intros H VM PM VS PS RA NZ. apply particle_inv in H. destruct H as (m' & sp & f & b & i & p3 & V1 & V2 & V3 & V4 & V5 & II & ST & -> & ->).
  rewrite V1 in VM. injection VM as ->. apply standard_inv in ST; [|exact II]. destruct ST as (k & p0 & x & y & p1 & sn' & p2 & se & -> & K1 & K2 & RC & FX & V6 & S2 & V7 & ->).
  rewrite V6 in VS. injection VS as ->.
  assert (XY : x = Fin p /\ y = Fin n).
  { apply relative_inv in RC. destruct RC as [(B & -> & ->) | (B & p' & n' & t & C & -> & ->)]; destruct RA as [(B' & -> & ->) | (B' & t' & C')]; try congruence; auto.
    rewrite C in C'. injection C' as -> -> ->. auto. }
  destruct XY as (-> & ->). destruct (bare_particle cfg k p0 K1 K2) as (SO & RE & SI0 & KP & FFV).
  assert (C2 : 0 < cm * cm) by (apply Rmult_lt_0_compat; apply cm_pos). assert (SN : 0 <= sn * (cm * cm)) by (apply Rmult_le_pos; lra). assert (MP : 0 < m * GeV) by (unfold GeV; lra).
  destruct (fix_ratio_eq p0 p n SO NZ (fun _ _ => SI0)) as (p1' & x & y & E1 & C1 & R1 & F1 & A1 & B1). rewrite FX in E1. apply Ok_inj in E1. subst p1'.
  assert (T1 : tied (p / (p + n)) (n / (p + n)) p1).
  { split; [|auto]. eapply (sound_step p0 (PFix_Ratio (Fin p) (Fin n))); [exact SO| |exact FX]. split; [split; eexists; reflexivity|]. split; [rewrite xadd_fin; intros Q; apply Fin_inj in Q; auto|auto]. }
  assert (RE1 : reachable p1) by (eapply (reachable_step p0 (PFix_Ratio (Fin p) (Fin n))); [exact RE|split; eexists; reflexivity|exact FX]).
  destruct (round_trip_interaction p1 _ RE1 SN "Nuclei" (or_introl eq_refl)) as (p2' & E2 & G2). rewrite S2 in E2. apply Ok_inj in E2. subst p2'.
  assert (T2 : tied (p / (p + n)) (n / (p + n)) p2) by (eapply (tied_step _ _ p1 (PSet_Interaction (Fin (sn * (cm * cm))) "Nuclei")); [exact T1|eexists; split; [reflexivity|exact SN]|exact Logic.I|exact S2]).
  destruct (interaction_frame _ _ _ _ S2) as (IK & IR & IF & IFF & IM). destruct (ratio_frame _ _ _ _ FX) as (RK & RFF & RM).
  set (p3 := Set_Sigma_Electron (Fin (se * (cm * cm))) p2).
  assert (T3 : tied (p / (p + n)) (n / (p + n)) p3).
  { destruct T2 as (TS & TF & TA & TB). split; [|unfold p3; auto]. unfold p3. eapply sound_ext; [..|exact TS]; reflexivity. }
  destruct T3 as (TS & TF & TA & TB). destruct (set_mass_sigmas p3 (m * GeV) (proj1 TS) MP (proj2 (proj2 TS)) (fun H => ltac:(congruence))) as (_ & _ & SP & SNn & SE).
  pose proof (Set_Mass_frame (Fin (m * GeV)) p3) as MF. cbv zeta in MF. decompose [and] MF. clear MF.
  assert (G3 : Get_Interaction_Parameter "Nuclei" p3 = Ok (Fin (sn * (cm * cm)))) by exact G2.
  set (q := Set_Mass (Fin (m * GeV)) p3) in *.
  assert (G4 : Get_Interaction_Parameter "Nuclei" q = Ok (Fin (sn * (cm * cm)))).
  { unfold Get_Interaction_Parameter in G3 |- *. cbn [String.eqb Ascii.eqb eqb] in G3 |- *. rewrite SP, SNn. match goal with H : fp_relative q = _ |- _ => rewrite H end. exact G3. }
  assert (K : kind q = k) by (match goal with H : kind q = _ |- _ => rewrite H end; unfold p3; cbn; congruence).
  assert (FF : FF_DM q = FF_DM p0) by (match goal with H : FF_DM q = _ |- _ => rewrite H end; unfold p3; cbn; congruence).
  assert (MM : mMediator q = mMediator p0) by (match goal with H : mMediator q = _ |- _ => rewrite H end; unfold p3; cbn; congruence).
  assert (T4 : tied (p / (p + n)) (n / (p + n)) q).
  { split; [apply sound_set_mass; auto|]. repeat split; congruence. }
  split.
  - split; [exists m; split; [exact V1|cbn; assumption]|]. split; [exists sp; auto|]. split; [exists f; auto|]. split; [exists b; auto|]. cbn [kind with_low_mass with_density FF_DM mMediator]. rewrite K. split; [exact V5|].
    split; [intros ->; rewrite FF, MM; apply FFV; reflexivity|]. split; [exists sn; split; [exact V6|exact G4]|]. exists se. split; [exact V7|]. unfold Get_Interaction_Parameter. cbn [String.eqb Ascii.eqb eqb].
    unfold Sigma_Electron. cbn [sigma_electron with_low_mass with_density]. match goal with H : sigma_electron q = _ |- _ => rewrite H end. reflexivity.
  - apply tied_ratio in T4. destruct T4 as (x' & y' & C' & R'). exists x', y'. split; [exact C'|]. eapply share_ratio; eauto.
Qed.

Lemma configured_values E fs w path rank cfg c w' m sn p n : loaded E fs path cfg -> snd (Configuration_ctor E fs w path rank) = Ok (c, w') ->
  value_of cfg "DM_mass" = Some (SFloat m) -> 0 < m -> value_of cfg "DM_cross_section_nucleon" = Some (SFloat sn) -> 0 <= sn -> ratio_asked cfg p n -> p + n <> 0 ->
  exists q spin, cf_DM c = Some (q, spin) /\ reports cfg q spin /\ exists x y, couplings q x y /\ x * n = y * p.
Proof.
  intros L R. rewrite (ctor_loaded E fs w path rank cfg L) in R. apply bind_ok in R. destruct R as (ID & I & R). apply members_inv in R. destruct R as ([q spin] & o & d & a & b & c1 & k & M1 & M2 & M3 & M4 & ->).
  intros. exists q, spin. split; [reflexivity|]. eapply particle_values; eauto.
Qed.
