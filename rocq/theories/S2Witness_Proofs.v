(** A detector counting photoelectrons. *)
From Coq Require Import Reals ZArith String Lra Lia.
From Coq Require Import List.
From Verif Require Import Base XrFacts Nucleus_Model Nuclear_Model Distribution_Model Atom_Model Crystal_Model Rates_Model Detector_Model DetectorTypes_Model
  Electrons_Proofs ElectronBins_Proofs DetectorBins_Proofs DetectorWitness_Proofs Formulas_Proofs S2_Proofs.
Import ListNotations.
Local Open Scope R_scope.

Lemma single_atom s a ne X DM D r : i_atoms s = [a] -> i_fractions s = [Fin 1] -> R_ne X DM D s ne = Ok (Fin r) -> R_ne_atom X DM D s ne a = Ok (Fin r).
Proof.
  intros A F. unfold R_ne, weighted. rewrite A, F. cbn [List.length seq]. unfold sum_res. cbn [map_res at_ub nth_error bind].
  destruct (R_ne_atom X DM D s ne a) as [x| | |]; cbn [bind]; try discriminate. intros H. apply Ok_inj in H. unfold xsum in H. cbn [fold_left] in H.
  destruct x as [x| | |]; [|cbn in H; unfold inf_sign, rpos, rneg in H; repeat (match type of H with context [if Rlt_dec ?a ?b then _ else _] => destruct (Rlt_dec a b) end; cbn in H); discriminate H..].
  rewrite xmul_fin, xadd_fin in H. apply Fin_inj in H. do 2 f_equal. rewrite <- H. ring.
Qed.
Lemma S2_instance : exists s c, Use_PE_Threshold (Fin 27) (Fin 7) 1 100 ion2 = Ok s /\ 0 < c /\ i_S2_mu s = Fin 27 /\ i_S2_sigma s = Fin 7 /\
  i_fractions s = map (fun _ => Fin 1) (i_atoms s) /\
  (forall a ne, In a (i_atoms s) -> (1 <= ne <= 100)%Z -> R_ne_atom X1 DM1 D1 s ne a = Ok (Fin (electron_law 1 ne * c))) /\
  R_S2 X1 DM1 D1 s 50 [] = Ok (Fin (spread 27 7 (fun ne => electron_law 1 ne * c) 50)) /\
  R_S2 X1 DM1 D1 s 50 (map Fin [1; 2; 3]) = UB.
Proof.
  destruct R_ne_2 as (c & Hc & R).
  assert (U : exists s, Use_PE_Threshold (Fin 27) (Fin 7) 1 100 ion2 = Ok s /\ i_S2_mu s = Fin 27 /\ i_S2_sigma s = Fin 7 /\ i_atoms s = [atom2] /\ i_fractions s = [Fin 1] /\
    R_ne X1 DM1 D1 s = R_ne X1 DM1 D1 ion2) by (eexists; repeat split; reflexivity).
  destruct U as (s & U & M & S & A & F & E). exists s, c. split; [exact U|]. split; [auto|]. split; [auto|]. split; [auto|]. split; [rewrite A, F; reflexivity|].
  assert (V : forall a ne, In a (i_atoms s) -> (1 <= ne <= 100)%Z -> R_ne_atom X1 DM1 D1 s ne a = Ok (Fin (electron_law 1 ne * c))).
  { intros a ne Ia Hn. rewrite A in Ia. destruct Ia as [<- | []]. apply single_atom; auto. rewrite E. apply R. lia. }
  split; [exact V|]. split.
  - destruct (S2_detector X1 DM1 D1 s 50 27 7 (fun _ => 1) (fun _ ne => electron_law 1 ne * c)) as [_ Q]; auto; [lra|rewrite A, F; reflexivity|].
    rewrite Q, A. cbn [map Rsum fold_right]. do 2 f_equal. ring.
  - destruct (S2_short X1 DM1 D1 s 50 (Fin 0) (at_nucleus atom2) shell2 atom2 (map Fin [1; 2; 3])) as [Q _]; [cbn; lia|]. exact Q.
Qed.
