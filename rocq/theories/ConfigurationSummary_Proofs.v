(** What the summary of a configuration shows (C115). *)
From Coq Require Import Reals ZArith String Ascii Lia Lra Bool.
From Coquelicot Require Import Coquelicot.
From Coq Require Import List.
From Verif Require Import Base XrFacts Nucleus_Model Nuclear_Model Nuclear_Proofs Particle_Model Particle_Proofs Distribution_Model Astronomy_Model Halo_Model
  Atom_Model Atom_Proofs Crystal_Model Rates_Model Detector_Model DetectorTypes_Model DetectorWitness_Proofs DetectorSafety_Proofs Experiments_Model Configuration_Model Experiments_Proofs
  Configuration_Proofs ConfigurationRun_Proofs ConfigurationValues_Proofs ConfigurationFiles_Proofs ConfigurationWitness_Proofs Average_Model Summary_Model Summary_Proofs SummaryValues_Proofs MainWitness_Proofs.
Import ListNotations.
Local Open Scope R_scope.

(** * Specification: the first two and the last three lines, from the entries of the file *)
Definition opening (path ID : string) : list line := [("Config file", [Txt path]); ("ID", [Txt ID])]%string.
Definition closing (certainty lo hi : R) (n : Z) : list line :=
  [("Certainty level [%]", [Num (Fin (100 * certainty))]); ("Mass range [GeV]", [Num (Fin lo); Num (Fin hi)]); ("Mass steps", [Int n])]%string.

Lemma configuration_shown E fs w path rank cfg c w' Round Q out : loaded E fs path cfg -> snd (Configuration_ctor E fs w path rank) = Ok (c, w') -> print_configuration Round Q 0 c = Ok out ->
  exists ID certainty lo hi z n p spin h i halo_lines detector_lines,
    value_of cfg "ID" = Some (SString ID) /\ value_of cfg "constraints_certainty" = Some (SFloat certainty) /\ value_of cfg "constraints_mass_min" = Some (SFloat lo) /\
    value_of cfg "constraints_mass_max" = Some (SFloat hi) /\ value_of cfg "constraints_masses" = Some (SInt z) /\ ((0 <= z)%Z -> n = z) /\
    cf_DM c = Some (p, spin) /\ cf_distr c = Some h /\ cf_detector c = Some i /\ print_halo Round Q 0 h = Ok halo_lines /\ print_instrument Round 0 i = Ok detector_lines /\
    out = opening path ID ++ print_particle Round 0 spin p ++ halo_lines ++ detector_lines ++ closing certainty lo hi n.
Proof.
  intros L R P. rewrite (ctor_loaded E fs w path rank cfg L) in R. apply bind_ok in R. destruct R as (ID & I & R). apply read_string_ok in I. apply members_inv in R.
  destruct R as ((p & spin) & o & d & a & b & c1 & k & M1 & M2 & M3 & M4 & ->). apply distribution_inv in M2. destruct M2 as (h & -> & HA). apply parameters_inv in M4. destruct M4 as (A1 & A2 & A3 & z & A4 & A5).
  unfold print_configuration in P. change (0 =? 0)%Z with true in P. cbn [cf_DM cf_distr cf_detector deref bind cf_file cf_ID cf_certainty cf_mass_min cf_mass_max cf_masses fst snd] in *.
  apply bind_ok in P. destruct P as (hl & HL & P). apply bind_ok in P. destruct P as (dl & DL & P). apply Ok_inj in P. subst out.
  exists ID, a, b, c1, z, k, p, spin, h, d, hl, dl. repeat (split; [assumption || reflexivity|]). unfold opening, closing. rewrite xmul_fin. replace 100.0 with 100 by lra. reflexivity.
Qed.
Lemma configuration_shown_instance : exists c w' out, loaded (machine shipped_config) (disk "config.cfg") "config.cfg" shipped_config /\ snd (Configuration_ctor (machine shipped_config) (disk "config.cfg") world0 "config.cfg" 0) = Ok (c, w') /\
  print_configuration (fun x => x) constant_integrals 0 c = Ok out /\ value_of shipped_config "constraints_masses" = Some (SInt 10).
Proof.
  destruct (shipped_accepted "config.cfg" 0) as (c & w' & R). assert (L := machine_loaded shipped_config "config.cfg").
  assert (V : exists x, value_of shipped_config "DD_experiment" = Some (SString x) /\ ~ In x crystal_experiments).
  { eexists. split; [reflexivity|]. unfold crystal_experiments. cbn [In]. intros K. repeat (destruct K as [K | K]; [discriminate K|]). destruct K. }
  destruct V as (x & V & N). destruct (configuration_printing _ _ _ _ _ _ _ _ _ L V R) as (_ & P).
  assert (D : exists h, cf_distr c = Some h).
  { rewrite (ctor_loaded _ _ _ _ _ _ L) in R. apply bind_ok in R. destruct R as (ID & I & R). apply members_inv in R. destruct R as (? & o & ? & ? & ? & ? & ? & _ & M2 & _ & _ & ->). apply distribution_inv in M2. destruct M2 as (h & -> & _). exists h. reflexivity. }
  destruct D as (h & D). destruct (constant_halo h) as (lines & HL). destruct (P N _ _ h lines D HL) as (out & O). exists c, w', out. auto.
Qed.
