(** C111: the summary of a detector shows what was set. *)
From Coq Require Import Reals ZArith String Lia Lra Bool.
From Coq Require Import List.
From Verif Require Import Base XrFacts Distribution_Model Nucleus_Model Nuclear_Model Nuclear_Proofs Atom_Model Atom_Proofs Crystal_Model Crystal_Proofs Detector_Model DetectorTypes_Model Detector_Proofs Limits_Proofs DetectorModes_Proofs DetectorSafety_Proofs Exposure_Proofs Settings_Proofs SettingsWitness_Proofs
  DetectorWitness_Proofs LimitsWitness_Proofs Summary_Model Summary_Proofs SummaryValues_Proofs DetectorSummary_Proofs DetectorSummaryWitness_Proofs.
Import ListNotations.
Local Open Scope R_scope.

(** C111: after every history of calls the summary of a nuclear recoil detector shows its name, exposure and efficiency, the numbers of events and the backgrounds given last in total and per bin, the resolution in keV, and every target with its share in percent. *)
Theorem C111_nuclear : forall Round label expo nuclei abund ops n out, (forall o, In (NBase o) ops -> countable o) -> nuclear_history label expo nuclei abund ops = Ok n -> print_nuclear Round 0 n = Ok out ->
  shows Round label "Nuclei" expo (fold_left nuclear_told ops at_first) (fold_left nuclear_counted ops blank) out /\
  values "ER resolution [keV]" out = [[Num (fold_left resolution_told ops (Fin 0) / Fin keV)%xr]] /\
  exists f, relative_fractions nuclei abund = Ok f /\ List.length (values "Nucl." out) = List.length nuclei /\
    forall i row, nth_error (values "Nucl." out) i = Some row -> exists t x, nth_error nuclei i = Some t /\ nth_error f i = Some x /\ row = [Txt (nname t); Num (Round (Fin 100 * x)%xr)].
Proof. exact nuclear_shown. Qed.
Print Assumptions C111_nuclear.

(** The same for ionization detectors, with the gain and width of photoelectron analyses and the electron numbers of electron analyses ... *)
Theorem C111_ionization : forall Round I w ch label expo names fr ops s out, (forall o, In (IBase o) ops -> countable o) -> ionization_history I w ch label expo names fr ops = Ok s -> print_ionization Round 0 s = Ok out ->
  shows Round label (channel_targets ch) expo (fold_left ionization_told ops at_first) (fold_left ionization_counted ops blank) out /\
  (forall u, last_such ionization_use ops = Some u ->
    (forall mu sigma lo hi l, u = IPE_Threshold mu sigma lo hi \/ u = IPE_Bins mu sigma l -> values "mu_PE" out = [[Num mu]] /\ values "sigma_PE" out = [[Num sigma]]) /\
    (never is_PE_threshold ops -> never is_PE_bins ops -> forall lo hi n, u = IElectron_Threshold lo hi \/ u = IElectron_Bins lo n ->
      values "Ne threshold" out = [[Int (fst (fold_left electrons_told ops (3, 100)%Z))]] /\ values "Ne max" out = [[Int (snd (fold_left electrons_told ops (3, 100)%Z))]])) /\
  List.length (values "Target(s)" out) = List.length (i_atoms s) /\
  forall i row, nth_error (values "Target(s)" out) i = Some row -> exists a x, nth_error (i_atoms s) i = Some a /\ nth_error (i_fractions s) i = Some x /\ row = [Txt (nname (at_nucleus a)); Num (Round (Fin 100 * x)%xr)].
Proof. exact ionization_shown. Qed.
Print Assumptions C111_ionization.

(** ... and for semiconductor detectors, with the number of pairs. *)
Theorem C111_semiconductor : forall Round I label expo crys ops s out, (forall o, In (CBase o) ops -> countable o) -> semiconductor_history I label expo crys ops = Ok s -> print_semiconductor Round 0 s = Ok out ->
  shows Round label "Electrons" expo (fold_left semiconductor_told ops at_first) (fold_left (semiconductor_counted (Q_max (c_crystal s))) ops blank) out /\
  values "Target" out = [[Txt (cr_name (c_crystal s))]] /\
  forall u, last_such semiconductor_use ops = Some u -> forall Q n, u = CQ_Threshold Q \/ u = CQ_Bins Q n -> values "eh pair threshold" out = [[Int Q]].
Proof. exact semiconductor_shown. Qed.
Print Assumptions C111_semiconductor.

(** Instances: two bins with seven events in deuterium, photoelectron bins in xenon, a pair threshold in silicon. *)
Example C111_instance : exists n out, nuclear_history "test" (Fin 1) [heavy_hydrogen] [Fin 1] opsS = Ok n /\ (forall Round, exists out, print_nuclear Round 0 n = Ok out) /\ (forall o, In (NBase o) opsS -> countable o) /\
  print_nuclear (fun x => x) 0 n = Ok out /\ fold_left nuclear_counted opsS blank = Display 7 (Fin 0) (Some 2%Z) /\ values "Observed events" out = [[Int 7]].
Proof. exact shown_instance. Qed.
Example C111_ionization_instance : forall ch, exists s out, ionization_history IT0 (fresh_world shipped_rows) ch "test" (Fin 1) ["Xe"%string] [Fin 1] opsPE = Ok s /\ print_ionization (fun x => x) 0 s = Ok out /\
  (forall o, In (IBase o) opsPE -> countable o) /\ values "mu_PE" out = [[Num (Fin 27)]] /\ values "Observed events" out = [[Int 5]].
Proof. exact shown_ionization_instance. Qed.
Example C111_semiconductor_instance : exists s out, semiconductor_history IL0 "test" (Fin 1) "Si" [CQ_Threshold 3; CBase (BObserved 2)] = Ok s /\ print_semiconductor (fun x => x) 0 s = Ok out /\
  values "eh pair threshold" out = [[Int 3]] /\ values "Observed events" out = [[Int 2]].
Proof. exact shown_semiconductor_instance. Qed.

(** The total shown need not be the sum of the bins: bins selected after five events were entered are shown empty below a total of five. *)
Theorem C111_stale_refuted : exists n out, nuclear_history "test" (Fin 1) [heavy_hydrogen] [Fin 1] ops_stale = Ok n /\ print_nuclear (fun x => x) 0 n = Ok out /\
  values "Observed events" out = [[Int 5]] /\ List.length (values "Bin" out) = 2%nat /\ forall row, In row (values "Bin" out) -> exists i e b, row = [i; e; Int 0; b].
Proof. exact stale_total. Qed.
Print Assumptions C111_stale_refuted.
