(** C109: the settings of a detector after any history of calls; C62: the responses of the predefined experiments. *)
From Coq Require Import Reals ZArith String Lra Lia Bool.
From Coq Require Import List.
From Verif Require Import Base XrFacts Nucleus_Model Nuclear_Model Atom_Model Crystal_Model Detector_Model DetectorTypes_Model Nuclear_Proofs Atom_Proofs Crystal_Proofs DetectorWitness_Proofs
  LimitsWitness_Proofs Exposure_Proofs Experiments_Model Configuration_Model Experiments_Proofs ConfigurationWitness_Proofs Settings_Proofs Tuning_Proofs SettingsWitness_Proofs.
Import ListNotations.
Local Open Scope R_scope.

(** C109: after every history of calls that did not end the program, each setting of a nuclear recoil detector is the one given last; setting up bins anew makes all bin efficiencies 1 and all backgrounds and observed numbers 0, and no other call touches them. *)
Theorem C109_nuclear : forall label expo nuclei abund ops n, nuclear_history label expo nuclei abund ops = Ok n -> set_to (fold_left nuclear_told ops at_first) (n_base n).
Proof. exact nuclear_settings. Qed.
Print Assumptions C109_nuclear.

(** The same for ionization detectors, with the gain, width, trigger and acceptance of the photoelectron signal ... *)
Theorem C109_ionization : forall I w ch label expo atoms fr ops s, ionization_history I w ch label expo atoms fr ops = Ok s ->
  set_to (fold_left ionization_told ops at_first) (i_base s) /\ lit (fold_left light_told ops dark) s.
Proof. exact ionization_settings. Qed.
Print Assumptions C109_ionization.

(** ... and for semiconductor detectors. *)
Theorem C109_semiconductor : forall I label expo crys ops s, semiconductor_history I label expo crys ops = Ok s -> set_to (fold_left semiconductor_told ops at_first) (c_base s).
Proof. exact semiconductor_settings. Qed.
Print Assumptions C109_semiconductor.

(** Instance: two bins with efficiencies and events, one window, three bins with backgrounds. The efficiencies and events are forgotten, the flat efficiency is kept. *)
Example C109_instance : exists n, nuclear_history "test" (Fin 1) [heavy_hydrogen] [Fin 1] opsR = Ok n /\ b_bins (n_base n) = 3%Z /\
  fold_left nuclear_told opsR at_first = Settings (Fin (1/2)) None None (Some [Fin 1; Fin 2; Fin 3]).
Proof. exact settings_nuclear_instance. Qed.
Example C109_ionization_instance : forall ch, exists s, ionization_history IT0 (fresh_world shipped_rows) ch "test" (Fin 1) ["Xe"%string] [Fin 1] opsPE = Ok s /\ b_bins (i_base s) = 2%Z /\
  fold_left ionization_told opsPE at_first = Settings (Fin (1/2)) (Some [3%Z; 2%Z]) None None /\ fold_left light_told opsPE dark = Light (Fin 27) (Fin 7) [Fin 0; Fin 1] [].
Proof. exact settings_ionization_instance. Qed.
Example C109_semiconductor_instance : exists s, semiconductor_history IL0 "test" (Fin 1) "Si" [CQ_Bins 1 3; CBase (BBin_Efficiencies [Fin 1; Fin (1/2); Fin (1/4)])] = Ok s /\
  fold_left semiconductor_told [CQ_Bins 1 3; CBase (BBin_Efficiencies [Fin 1; Fin (1/2); Fin (1/4)])] at_first = Settings (Fin 1) None (Some [Fin 1; Fin (1/2); Fin (1/4)]) None.
Proof. exact settings_semiconductor_instance. Qed.

(** C62: whenever a predefined experiment is built, its flat efficiency, the efficiency and background of each bin, the energy resolution, the mass shares of its nuclei, the efficiency files per nucleus, and gain, width, trigger and acceptance of the photoelectron signal are those of the table of responses. *)
Theorem C62_tuned : forall F w, world_history shipped_rows w -> forall name t d w', In (name, t) tunings -> supported_experiment F w name = Ok (d, w') -> tuned F t d.
Proof. exact experiments_tuned. Qed.
Print Assumptions C62_tuned.

(** The table of responses lists the same experiments as the table of publications. *)
Theorem C62_tuned_names : map fst tunings = map fst publications.
Proof. exact tunings_names. Qed.
Print Assumptions C62_tuned_names.

(** Instance: CRESST-II. *)
Example C62_tuned_instance : exists t d w', world_history shipped_rows world0 /\ In ("CRESST-II"%string, t) tunings /\ supported_experiment F0 world0 "CRESST-II" = Ok (d, w').
Proof. exact tuned_instance. Qed.
