(** C115: the summary of a configuration. *)
From Coq Require Import Reals ZArith String Ascii Lia Lra Bool.
From Coquelicot Require Import Coquelicot.
From Coq Require Import List.
From Verif Require Import Base XrFacts Nucleus_Model Nuclear_Model Nuclear_Proofs Particle_Model Particle_Proofs Distribution_Model Astronomy_Model Halo_Model
  Atom_Model Atom_Proofs Crystal_Model Rates_Model Detector_Model DetectorTypes_Model DetectorWitness_Proofs DetectorSafety_Proofs Experiments_Model Configuration_Model Experiments_Proofs
  Configuration_Proofs ConfigurationRun_Proofs ConfigurationValues_Proofs ConfigurationFiles_Proofs ConfigurationWitness_Proofs Average_Model Summary_Model Summary_Proofs SummaryValues_Proofs MainWitness_Proofs ConfigurationSummary_Proofs.
Import ListNotations.
Local Open Scope R_scope.

(** C115: the summary of a configuration read from a file starts with the path and the ID of the file, ends with the certainty in percent, the mass range and the number of masses of the file, and contains the summaries of its particle, halo and detector in between, in that order and nothing else. *)
Theorem C115_configuration : forall E fs w path rank cfg c w' Round Q out, loaded E fs path cfg -> snd (Configuration_ctor E fs w path rank) = Ok (c, w') -> print_configuration Round Q 0 c = Ok out ->
  exists ID certainty lo hi z n p spin h i halo_lines detector_lines,
    value_of cfg "ID" = Some (SString ID) /\ value_of cfg "constraints_certainty" = Some (SFloat certainty) /\ value_of cfg "constraints_mass_min" = Some (SFloat lo) /\
    value_of cfg "constraints_mass_max" = Some (SFloat hi) /\ value_of cfg "constraints_masses" = Some (SInt z) /\ ((0 <= z)%Z -> n = z) /\
    cf_DM c = Some (p, spin) /\ cf_distr c = Some h /\ cf_detector c = Some i /\ print_halo Round Q 0 h = Ok halo_lines /\ print_instrument Round 0 i = Ok detector_lines /\
    out = opening path ID ++ print_particle Round 0 spin p ++ halo_lines ++ detector_lines ++ closing certainty lo hi n.
Proof. exact configuration_shown. Qed.
Print Assumptions C115_configuration.

Example C115_instance : exists c w' out, loaded (machine shipped_config) (disk "config.cfg") "config.cfg" shipped_config /\ snd (Configuration_ctor (machine shipped_config) (disk "config.cfg") world0 "config.cfg" 0) = Ok (c, w') /\
  print_configuration (fun x => x) constant_integrals 0 c = Ok out /\ value_of shipped_config "constraints_masses" = Some (SInt 10).
Proof. exact configuration_shown_instance. Qed.
