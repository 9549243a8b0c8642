(** C98: photoelectron spectra of shells, atoms and detectors. *)
From Coq Require Import Reals ZArith String Lra Lia.
From Coq Require Import List.
From Verif Require Import Base XrFacts Nucleus_Model Nuclear_Model Distribution_Model Atom_Model Crystal_Model Rates_Model Detector_Model DetectorTypes_Model
  Electrons_Proofs ElectronBins_Proofs DetectorWitness_Proofs S2_Proofs S2Witness_Proofs.
Import ListNotations.
Local Open Scope R_scope.

(** C98: the photoelectron spectrum of one shell is the electron spectrum of that shell for 1 to 100 electrons, spread by a Gaussian with mean mu times and variance sigma^2 times the number of electrons. *)
Theorem C98_shell : forall X DM D s S2 w n shell mu sigma r, i_S2_mu s = Fin mu -> i_S2_sigma s = Fin sigma -> 0 < sigma ->
  (forall ne, (1 <= ne <= 100)%Z -> R_ne_shell X DM D s ne w n shell = Ok (Fin (r ne))) ->
  R_S2_shell X DM D s S2 w n shell [] = Ok (Fin (spread mu sigma r S2)).
Proof. exact S2_shell. Qed.
Print Assumptions C98_shell.

(** The photoelectron spectrum of an atom is the sum of those of its shells ... *)
Theorem C98_atom : forall X DM D s S2 a mu sigma (r : Atomic_Electron -> Z -> R), i_S2_mu s = Fin mu -> i_S2_sigma s = Fin sigma -> 0 < sigma ->
  (forall shell ne, In shell (electrons a) -> (1 <= ne <= 100)%Z -> R_ne_shell X DM D s ne (W a) (at_nucleus a) shell = Ok (Fin (r shell ne))) ->
  (forall shell, In shell (electrons a) -> R_S2_shell X DM D s S2 (W a) (at_nucleus a) shell [] = Ok (Fin (spread mu sigma (r shell) S2))) /\
  R_S2_atom X DM D s S2 a [] = Ok (Fin (Rsum (map (fun shell => spread mu sigma (r shell) S2) (electrons a)))).
Proof. exact S2_atom. Qed.
Print Assumptions C98_atom.

(** ... and that of a detector the sum of those of its atoms weighted by the mass fractions. *)
Theorem C98_detector : forall X DM D s S2 mu sigma (f : Atom -> R) (r : Atom -> Z -> R), i_S2_mu s = Fin mu -> i_S2_sigma s = Fin sigma -> 0 < sigma ->
  i_fractions s = map (fun a => Fin (f a)) (i_atoms s) ->
  (forall a ne, In a (i_atoms s) -> (1 <= ne <= 100)%Z -> R_ne_atom X DM D s ne a = Ok (Fin (r a ne))) ->
  (forall a, In a (i_atoms s) -> R_S2_atom X DM D s S2 a [] = Ok (Fin (spread mu sigma (r a) S2))) /\
  R_S2 X DM D s S2 [] = Ok (Fin (Rsum (map (fun a => f a * spread mu sigma (r a) S2) (i_atoms s)))).
Proof. exact S2_detector. Qed.
Print Assumptions C98_detector.

(** A detector with one atom whose shell releases a secondary electron. *)
Example C98_instance : exists s c, Use_PE_Threshold (Fin 27) (Fin 7) 1 100 ion2 = Ok s /\ 0 < c /\ i_S2_mu s = Fin 27 /\ i_S2_sigma s = Fin 7 /\
  i_fractions s = map (fun _ => Fin 1) (i_atoms s) /\
  (forall a ne, In a (i_atoms s) -> (1 <= ne <= 100)%Z -> R_ne_atom X1 DM1 D1 s ne a = Ok (Fin (electron_law 1 ne * c))) /\
  R_S2 X1 DM1 D1 s 50 [] = Ok (Fin (spread 27 7 (fun ne => electron_law 1 ne * c) 50)) /\
  R_S2 X1 DM1 D1 s 50 (map Fin [1; 2; 3]) = UB.
Proof. exact S2_instance. Qed.

(** An electron spectrum of at least 100 entries handed over by the caller is used instead, the same way by all three functions. *)
Theorem C98_given : forall X DM D s S2 w n shell a (spectrum : list R) mu sigma, i_S2_mu s = Fin mu -> i_S2_sigma s = Fin sigma -> 0 < sigma -> (100 <= List.length spectrum)%nat ->
  R_S2 X DM D s S2 (map Fin spectrum) = Ok (Fin (spread mu sigma (fun ne => nth (Z.to_nat (ne - 1)) spectrum 0) S2)) /\
  R_S2_atom X DM D s S2 a (map Fin spectrum) = R_S2 X DM D s S2 (map Fin spectrum) /\
  R_S2_shell X DM D s S2 w n shell (map Fin spectrum) = R_S2 X DM D s S2 (map Fin spectrum).
Proof. exact S2_given. Qed.
Print Assumptions C98_given.

(** A shorter one that is not empty is undefined behaviour in all three. *)
Theorem C98_short_spectrum : forall X DM D s S2 w n shell a (spectrum : list xr), (0 < List.length spectrum < 100)%nat ->
  R_S2 X DM D s S2 spectrum = UB /\ R_S2_atom X DM D s S2 a spectrum = UB /\ R_S2_shell X DM D s S2 w n shell spectrum = UB.
Proof. exact S2_short. Qed.
Print Assumptions C98_short_spectrum.
