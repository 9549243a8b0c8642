(** Concrete detectors for the theorems about exposure and efficiencies (C95, C96). *)
From Coq Require Import Reals ZArith String Lia Lra Bool.
From Coquelicot Require Import Coquelicot.
From Coq Require Import List.
From Verif Require Import Base XrFacts Quadrature Nuclear_Model Nucleus_Model Particle_Model CrossSection_Model Distribution_Model Atom_Model
  Crystal_Model Rates_Model Detector_Model DetectorTypes_Model Scaling_Proofs DetectorWitness_Proofs LimitsWitness_Proofs Nuclear_Proofs Atom_Proofs Crystal_Proofs Exposure_Proofs Efficiency_Proofs.
Import ListNotations.
Local Open Scope R_scope.

Definition opsW : list nuclear_op := [NBase (BThreshold (Fin (1/10)) (Fin (1/2)))].
Lemma nuclear_instance : homogeneous_externals XW /\ nuclear_history "test" (Fin 1) [heavy_hydrogen] [Fin 1] opsW = Ok nW /\
  exists s, 0 < s /\ v_total (nuclear_virtuals XW D1 nW) (n_base nW) even = Ok (Fin s).
Proof.
  split; [exact XW_homogeneous|]. split.
  - destruct nW_configured as (n & A & B). unfold nuclear_history. rewrite A. exact B.
  - exists ((cW 1 + cW 1) ^ 2 / (10 * PI)). split; [|apply total_W, light_simple].
    assert (P := PI_RGT_0). assert (Q := cW_pos 1 ltac:(lra)). apply Rdiv_lt_0_compat; [apply pow_lt; lra|lra].
Qed.
Lemma ionization_instance ch : exists s, ionization_history IT0 (fresh_world shipped_rows) ch "test" (Fin 1) ["Xe"%string] [Fin 1]
  [IElectron_Bins 1 3; IBase (BBin_Efficiencies [Fin 1; Fin (1/2); Fin (1/4)])] = Ok s /\ List.length (i_atoms s) = 1%nat /\ b_bins (i_base s) = 3%Z.
Proof.
  destruct (atom_Xe IT0 shipped_rows (fresh_world shipped_rows) IT0_readable shipped_well_formed shipped_full ltac:(constructor)) as (a & w & A & _).
  unfold ionization_history, Ionization_ctor. cbn [make_atoms]. rewrite A. cbn [bind make_atoms List.length].
  assert (F : exists f, ionization_fractions 1 [Fin 1] = Ok f). { unfold ionization_fractions. cbn [List.length Nat.eqb]. eexists. reflexivity. }
  destruct F as (f & ->). cbn [bind ionization_run ionization_step]. unfold Use_Electron_Bins, Initialize_Binned_Poisson.
  change (b_analysis (i_base (Ionization_start ch "test" (Fin 1) [a] f))) with Poisson. cbn [bind].
  eexists. split; [reflexivity|]. split; reflexivity.
Qed.
Lemma semiconductor_instance : exists s, semiconductor_history IL0 "test" (Fin 1) "Si" [CQ_Bins 1 3] = Ok s /\ c_Q_threshold s = Some 1%Z /\ b_bins (c_base s) = 3%Z /\
  (b_bins (c_base s) < 2 ^ 32 - 1)%Z /\ (exists s1, semiconductor_step s (CBase (BBin_Efficiencies [Fin 1; Fin (1/2); Fin (1/4)])) = Ok s1).
Proof.
  destruct silicon as (c & A & _). unfold semiconductor_history, Semiconductor_ctor. rewrite A. cbn [bind semiconductor_run semiconductor_step].
  unfold Use_Q_Bins, Initialize_Binned_Poisson. cbn [Z.eqb c_crystal c_base b_analysis Detector_ctor bind].
  eexists. split; [reflexivity|]. split; [reflexivity|]. split; [reflexivity|]. split; [reflexivity|].
  cbn [semiconductor_step base_step]. eexists. reflexivity.
Qed.

(** Two energy bins of 0.2 GeV each with efficiencies 1/2 and 1/4. *)
Definition opsB : list nuclear_op := [NBase (BBins (Fin (1/10)) (Fin (1/2)) 2); NBase (BBin_Efficiencies [Fin 1; Fin 1])].
Definition nB : nuclear := with_n_base (with_efficiencies [Fin 1; Fin 1] (with_bin_energies (Linear_Space (Fin (1/10)) (Fin (1/2)) 3)
   (with_range (Fin (1/10)) (Fin (1/2)) (with_using false true (with_binned 2 [0%Z; 0%Z] [Fin 0.0; Fin 0.0] [Fin 1.0; Fin 1.0] (Detector_ctor "test" (Fin 1) "Nuclei")))))) nW.
Lemma bins_instance : nuclear_history "test" (Fin 1) [heavy_hydrogen] [Fin 1] opsB = Ok nB /\
  nuclear_step nB (NBase (BBin_Efficiencies [Fin 1; Fin 1])) = Ok nB /\
  exists n2, nuclear_step nB (NBase (BBin_Efficiencies (zip_mul [1/2; 1/4] [Fin 1; Fin 1]))) = Ok n2.
Proof.
  split; [|split].
  - unfold nuclear_history, Nuclear_ctor, relative_fractions. cbn [xsum fold_left]. rewrite xadd_fin, xlt_false by lra. cbn [bind].
    cbn [nuclear_run nuclear_step opsB base_step]. unfold Use_Energy_Bins, Initialize_Binned_Poisson. cbn [n_base Detector_ctor b_analysis bind].
    rewrite xlt_false by lra. cbn [bind nuclear_run nuclear_step base_step]. reflexivity.
  - reflexivity.
  - cbn [nuclear_step base_step]. eexists. reflexivity.
Qed.
