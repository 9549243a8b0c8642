(** Concrete histories of calls for the theorems about settings (C109, C62). *)
From Coq Require Import Reals ZArith String Lia Lra Bool.
From Coquelicot Require Import Coquelicot.
From Coq Require Import List.
From Verif Require Import Base XrFacts Particle_Model Distribution_Model Rates_Model Nuclear_Model Nucleus_Model Atom_Model Crystal_Model Detector_Model DetectorTypes_Model Nuclear_Proofs Atom_Proofs Crystal_Proofs DetectorWitness_Proofs
  LimitsWitness_Proofs Exposure_Proofs Experiments_Model Configuration_Model Experiments_Proofs ConfigurationWitness_Proofs ExposureWitness_Proofs Settings_Proofs Tuning_Proofs.
Import ListNotations.
Local Open Scope R_scope.

(** Two bins with efficiencies, then one window, then three bins: the efficiencies are gone, the flat efficiency is not. *)
Definition opsR : list nuclear_op :=
  [NBase (BFlat (Fin (1/2))); NBase (BBins (Fin (1/10)) (Fin (1/2)) 2); NBase (BBin_Efficiencies [Fin (1/4); Fin (1/8)]); NBase (BBin_Observed [7%Z; 5%Z]);
   NBase (BThreshold (Fin (1/10)) (Fin (1/2))); NBase (BBins (Fin (1/10)) (Fin (1/2)) 3); NBase (BBin_Background [Fin 1; Fin 2; Fin 3])].
Lemma told_R : fold_left nuclear_told opsR at_first = Settings (Fin (1/2)) None None (Some [Fin 1; Fin 2; Fin 3]).
Proof. reflexivity. Qed.
Lemma do_bins d lo hi k : b_analysis d = Poisson -> lo <= hi -> (0 <= k < 2 ^ 32)%Z -> exists d', base_step d (BBins (Fin lo) (Fin hi) k) = Ok d' /\ b_analysis d' = Binned_Poisson /\ b_bins d' = k.
Proof.
  intros A L K. cbn [base_step]. unfold Use_Energy_Bins, Initialize_Binned_Poisson. rewrite A. cbn [bind]. rewrite xlt_false by lra. eexists. split; [reflexivity|]. split; [reflexivity|]. cbn. unfold u32. apply Z.mod_small. exact K.
Qed.
Lemma do_window d lo hi : lo <= hi -> exists d', base_step d (BThreshold (Fin lo) (Fin hi)) = Ok d' /\ b_analysis d' = Poisson.
Proof. intros L. cbn [base_step]. unfold Use_Energy_Threshold. rewrite xlt_false by lra. eexists. split; reflexivity. Qed.
Lemma do_efficiencies d l k : b_analysis d = Binned_Poisson -> b_bins d = k -> Z.of_nat (List.length l) = k -> exists d', base_step d (BBin_Efficiencies l) = Ok d' /\ b_analysis d' = Binned_Poisson /\ b_bins d' = k.
Proof. intros A B L. cbn [base_step]. unfold Set_Bin_Efficiencies. rewrite A, B, L, Z.eqb_refl. eexists. split; [reflexivity|]. split; [exact A|exact B]. Qed.
Lemma do_backgrounds d l k : b_analysis d = Binned_Poisson -> b_bins d = k -> Z.of_nat (List.length l) = k -> exists d', base_step d (BBin_Background l) = Ok d' /\ b_analysis d' = Binned_Poisson /\ b_bins d' = k.
Proof. intros A B L. cbn [base_step]. unfold Set_Expected_Background_Binned. rewrite A, B, L, Z.eqb_refl. eexists. split; [reflexivity|]. split; [exact A|exact B]. Qed.
Lemma do_counts d l k : b_analysis d = Binned_Poisson -> b_bins d = k -> Z.of_nat (List.length l) = k -> exists d', base_step d (BBin_Observed l) = Ok d' /\ b_analysis d' = Binned_Poisson /\ b_bins d' = k.
Proof. intros A B L. cbn [base_step]. unfold Set_Observed_Events_Binned. rewrite A, B, L, Z.eqb_refl. eexists. split; [reflexivity|]. split; [exact A|exact B]. Qed.
Lemma nuclear_does n o d' ops : base_step (n_base n) o = Ok d' -> nuclear_run n (NBase o :: ops) = nuclear_run (with_n_base d' n) ops.
Proof. intros E. cbn [nuclear_run nuclear_step]. rewrite E. reflexivity. Qed.
Lemma settings_nuclear_instance : exists n, nuclear_history "test" (Fin 1) [heavy_hydrogen] [Fin 1] opsR = Ok n /\ b_bins (n_base n) = 3%Z /\
  fold_left nuclear_told opsR at_first = Settings (Fin (1/2)) None None (Some [Fin 1; Fin 2; Fin 3]).
Proof.
  destruct nW_configured as (n0 & A & B). unfold nuclear_history. rewrite A. cbn [bind]. clear B. unfold Nuclear_ctor in A.
  destruct (relative_fractions [heavy_hydrogen] [Fin 1]) as [f| | |]; cbn [bind] in A; try discriminate. apply Ok_inj in A. assert (P : b_analysis (n_base n0) = Poisson) by (subst n0; reflexivity). clear A.
  unfold opsR.
  assert (E0 : base_step (n_base n0) (BFlat (Fin (1/2))) = Ok (Set_Flat_Efficiency (Fin (1/2)) (n_base n0))) by reflexivity. rewrite (nuclear_does _ _ _ _ E0).
  set (m0 := with_n_base _ n0). assert (P0 : b_analysis (n_base m0) = Poisson) by exact P. clearbody m0. clear E0.
  destruct (do_bins (n_base m0) (1/10) (1/2) 2 P0 ltac:(lra) ltac:(lia)) as (d1 & E1 & A1 & B1). rewrite (nuclear_does _ _ _ _ E1). clear E1.
  destruct (do_efficiencies d1 [Fin (1/4); Fin (1/8)] 2 A1 B1 eq_refl) as (d2 & E2 & A2 & B2). rewrite (nuclear_does (with_n_base d1 m0) _ _ _ E2). clear E2.
  destruct (do_counts d2 [7%Z; 5%Z] 2 A2 B2 eq_refl) as (d3 & E3 & A3 & B3). rewrite (nuclear_does (with_n_base d2 (with_n_base d1 m0)) _ _ _ E3). clear E3.
  set (m3 := with_n_base d3 _). destruct (do_window (n_base m3) (1/10) (1/2) ltac:(lra)) as (d4 & E4 & A4). rewrite (nuclear_does _ _ _ _ E4). clear E4. clearbody m3.
  destruct (do_bins d4 (1/10) (1/2) 3 A4 ltac:(lra) ltac:(lia)) as (d5 & E5 & A5 & B5). rewrite (nuclear_does (with_n_base d4 m3) _ _ _ E5). clear E5.
  destruct (do_backgrounds d5 [Fin 1; Fin 2; Fin 3] 3 A5 B5 eq_refl) as (d6 & E6 & A6 & B6). rewrite (nuclear_does (with_n_base d5 (with_n_base d4 m3)) _ _ _ E6). clear E6.
  cbn [nuclear_run]. eexists. split; [reflexivity|]. split; [exact B6|exact told_R].
Qed.
Definition opsPE : list ionization_op := [IBase (BFlat (Fin (1/2))); IPE_Bins (Fin 27) (Fin 7) [14%Z; 41%Z; 68%Z]; ITrigger [Fin 0; Fin 1]; IBase (BBin_Observed [3%Z; 2%Z])].
Lemma does_PE s : b_analysis (i_base s) = Poisson -> exists s', ionization_run s opsPE = Ok s' /\ b_bins (i_base s') = 2%Z.
Proof.
  intros A. unfold opsPE. cbn [ionization_run ionization_step base_step bind]. unfold Use_PE_Bins, Initialize_Binned_Poisson.
  change (b_analysis (i_base (with_i_base (Set_Flat_Efficiency (Fin (1/2)) (i_base s)) s))) with (b_analysis (i_base s)). rewrite A. cbn [bind].
  unfold Import_Trigger_Efficiency_PE. cbn [i_using_S2_bins i_using_S2_threshold andb orb negb]. eexists. split; [reflexivity|]. reflexivity.
Qed.
Lemma other_history I w ch label expo atoms fr ops s1 : ionization_history I w ch label expo atoms fr ops = Ok s1 ->
  exists s, ionization_history I w ch label expo atoms fr opsPE = Ok s /\ b_bins (i_base s) = 2%Z.
Proof.
  unfold ionization_history, Ionization_ctor. intros C. destruct (make_atoms I w atoms) as [[a w1]| | |]; cbn [bind] in *; try discriminate.
  destruct (ionization_fractions (List.length a) fr) as [f| | |]; cbn [bind] in *; try discriminate. apply does_PE. reflexivity.
Qed.
Lemma settings_ionization_instance ch : exists s, ionization_history IT0 (fresh_world shipped_rows) ch "test" (Fin 1) ["Xe"%string] [Fin 1] opsPE = Ok s /\ b_bins (i_base s) = 2%Z /\
  fold_left ionization_told opsPE at_first = Settings (Fin (1/2)) (Some [3%Z; 2%Z]) None None /\ fold_left light_told opsPE dark = Light (Fin 27) (Fin 7) [Fin 0; Fin 1] [].
Proof.
  destruct (ionization_instance ch) as (s1 & A & _). destruct (other_history _ _ _ _ _ _ _ _ _ A) as (s & R & B). exists s. split; [exact R|]. split; [exact B|]. split; reflexivity.
Qed.
Lemma settings_semiconductor_instance : exists s, semiconductor_history IL0 "test" (Fin 1) "Si" [CQ_Bins 1 3; CBase (BBin_Efficiencies [Fin 1; Fin (1/2); Fin (1/4)])] = Ok s /\
  fold_left semiconductor_told [CQ_Bins 1 3; CBase (BBin_Efficiencies [Fin 1; Fin (1/2); Fin (1/4)])] at_first = Settings (Fin 1) None (Some [Fin 1; Fin (1/2); Fin (1/4)]) None.
Proof.
  destruct semiconductor_instance as (s & A & _ & _ & _ & s1 & B). exists s1. split; [|reflexivity]. unfold semiconductor_history in *.
  destruct (Semiconductor_ctor IL0 "test" (Fin 1) "Si") as [s0| | |]; cbn [bind] in *; try discriminate. cbn [semiconductor_run] in *.
  destruct (semiconductor_step s0 (CQ_Bins 1 3)) as [s2| | |]; cbn [bind] in *; try discriminate. apply Ok_inj in A. subst s2. rewrite B. reflexivity.
Qed.
(** CRESST-II is built, and listed. *)
Lemma tuned_instance : exists t d w', world_history shipped_rows world0 /\ In ("CRESST-II"%string, t) tunings /\ supported_experiment F0 world0 "CRESST-II" = Ok (d, w').
Proof.
  destruct (experiments_realised shipped_rows F0 world0 shipped_well_formed shipped_full (wh_start _) F0_readable "CRESST-II"
    (Publication "CRESST-II" 52.15 (Nuclei_of [8%Z; 20%Z; 74%Z]) (Energies 0.307 40 "data/CRESST-II/Lise_AR.dat"))) as (d & w' & R & _); [unfold publications; cbn [In]; tauto|].
  eexists _, d, w'. split; [apply wh_start|]. split; [unfold tunings; cbn [In]; right; right; left; reflexivity|exact R].
Qed.
