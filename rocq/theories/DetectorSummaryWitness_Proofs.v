(** Instances of C111 for ionization and semiconductor detectors. *)
From Coq Require Import Reals ZArith String Lia Lra Bool.
From Coq Require Import List.
From Verif Require Import Base XrFacts Nucleus_Model Nuclear_Model Nuclear_Proofs Atom_Model Atom_Proofs Crystal_Model Crystal_Proofs Detector_Model DetectorTypes_Model Detector_Proofs Limits_Proofs DetectorModes_Proofs DetectorSafety_Proofs Exposure_Proofs Settings_Proofs SettingsWitness_Proofs
  DetectorWitness_Proofs LimitsWitness_Proofs Summary_Model Summary_Proofs SummaryValues_Proofs DetectorSummary_Proofs.
Import ListNotations.
Local Open Scope R_scope.

Lemma PE_args : Forall ionization_args opsPE.
Proof. unfold opsPE. repeat (apply Forall_cons; [cbn [ionization_args base_args]; auto; repeat (apply Forall_cons; [unfold is_u32, is_u64; lia|]); auto|]); auto. Qed.
Lemma PE_bases (P : base_op -> Prop) : P (BFlat (Fin (1/2))) -> P (BBin_Observed [3%Z; 2%Z]) -> forall b, In (IBase b) opsPE -> P b.
Proof. intros A B b [H|[H|[H|[H|[]]]]]; try discriminate; injection H as <-; assumption. Qed.
Lemma PE_sensible : Forall sensible_PE opsPE.
Proof. unfold opsPE. repeat (apply Forall_cons; [cbn [sensible_PE]; auto; try (split; [discriminate|cbn; lia])|]); auto. Qed.
Lemma fractions_length n fr f : ionization_fractions n fr = Ok f -> (n <= List.length f)%nat.
Proof.
  unfold ionization_fractions. destruct fr as [|x fr]; [intros F; apply Ok_inj in F; subst f; rewrite repeat_length; lia|]. destruct (_ =? _)%nat eqn:E; try discriminate. apply Nat.eqb_eq in E. intros F. apply Ok_inj in F. subst f. destruct (xlt _ _); rewrite ?map_length; lia.
Qed.
Lemma PE_one : one_binning opsPE.
Proof. left. split; reflexivity. Qed.
Lemma PE_plain : forall b, In (IBase b) opsPE -> sensible_bins b.
Proof. apply PE_bases; exact Logic.I. Qed.
Lemma PE_run ch label expo a f s Round : (List.length a <= List.length f)%nat -> ionization_run (Ionization_start ch label expo a f) opsPE = Ok s -> exists out, print_ionization Round 0 s = Ok out.
Proof. intros L H. exact (ionization_printable ch label expo a f opsPE s Round 0 L H PE_args PE_plain PE_sensible PE_one). Qed.
Lemma PE_printed I w ch label expo names fr ops s (P : ionization -> Prop) : ionization_history I w ch label expo names fr ops = Ok s ->
  (forall a f, (List.length a <= List.length f)%nat -> ionization_run (Ionization_start ch label expo a f) ops = Ok s -> P s) -> P s.
Proof.
  unfold ionization_history, Ionization_ctor. intros H K. destruct (make_atoms I w names) as [[a w1]| | |]; cbn [bind] in *; try discriminate. destruct (ionization_fractions (List.length a) fr) as [f| | |] eqn:F; cbn [bind] in *; try discriminate.
  apply (K a f); [eapply fractions_length; eauto|exact H].
Qed.
Lemma PE_countable : forall o, In (IBase o) opsPE -> countable o.
Proof. apply PE_bases; cbn; auto; lia. Qed.
Lemma PE_shown I w ch label expo names fr s : ionization_history I w ch label expo names fr opsPE = Ok s -> exists out, print_ionization (fun x => x) 0 s = Ok out /\ values "mu_PE" out = [[Num (Fin 27)]] /\ values "Observed events" out = [[Int 5]].
Proof.
  intros H. destruct (PE_printed _ _ _ _ _ _ _ _ _ (fun s => exists out, print_ionization (fun x => x) 0 s = Ok out) H (fun a f => PE_run ch _ _ a f s (fun x => x))) as (out & O).
  exists out. split; [exact O|]. destruct (ionization_shown _ _ _ _ _ _ _ _ _ _ _ PE_countable H O) as (S & L & _). destruct (L (IPE_Bins (Fin 27) (Fin 7) [14%Z; 41%Z; 68%Z]) eq_refl) as (L1 & _).
  destruct (L1 (Fin 27) (Fin 7) 0%Z 0%Z [14%Z; 41%Z; 68%Z] (or_intror eq_refl)) as (L2 & _). split; [exact L2|]. destruct S as (_ & _ & _ & _ & S & _). exact S.
Qed.
Lemma shown_ionization_instance ch : exists s out, ionization_history IT0 (fresh_world shipped_rows) ch "test" (Fin 1) ["Xe"%string] [Fin 1] opsPE = Ok s /\ print_ionization (fun x => x) 0 s = Ok out /\
  (forall o, In (IBase o) opsPE -> countable o) /\ values "mu_PE" out = [[Num (Fin 27)]] /\ values "Observed events" out = [[Int 5]].
Proof.
  destruct (settings_ionization_instance ch) as (s & H & _). destruct (PE_shown _ _ _ _ _ _ _ _ H) as (out & O & A & B). exists s, out. exact (conj H (conj O (conj PE_countable (conj A B)))).
Qed.
Lemma shown_semiconductor_instance : exists s out, semiconductor_history IL0 "test" (Fin 1) "Si" [CQ_Threshold 3; CBase (BObserved 2)] = Ok s /\ print_semiconductor (fun x => x) 0 s = Ok out /\
  values "eh pair threshold" out = [[Int 3]] /\ values "Observed events" out = [[Int 2]].
Proof.
  destruct silicon as (c & C & _). assert (C' : Semiconductor_ctor IL0 "test" (Fin 1) "Si" = Ok (semi1 c)) by (unfold Semiconductor_ctor; rewrite C; reflexivity).
  assert (R : exists s, semiconductor_run (semi1 c) [CQ_Threshold 3; CBase (BObserved 2)] = Ok s) by (eexists; reflexivity). destruct R as (s & R).
  assert (H : semiconductor_history IL0 "test" (Fin 1) "Si" [CQ_Threshold 3; CBase (BObserved 2)] = Ok s) by (unfold semiconductor_history; rewrite C'; exact R).
  destruct (semiconductor_printable IL0 "test" (Fin 1) "Si" (semi1 c) _ s (fun x => x) 0 C' R) as (out & O).
  - repeat constructor; unfold is_u32, is_u64; cbn; try lia.
  - intros o I. cbn in I. intuition (try discriminate). match goal with E : CBase _ = CBase _ |- _ => injection E as <-; cbn; auto end.
  - left. reflexivity.
  - exists 3%Z. left. reflexivity.
  - assert (K : forall o, In (CBase o) [CQ_Threshold 3; CBase (BObserved 2)] -> countable o) by (intros o I; cbn in I; intuition (try discriminate); match goal with E : CBase _ = CBase _ |- _ => injection E as <-; cbn; auto end).
    exists s, out. split; [exact H|]. split; [exact O|]. destruct (semiconductor_shown _ _ _ _ _ _ _ _ K H O) as (S & _ & L). split; [exact (L (CQ_Threshold 3) eq_refl 3%Z 0%Z (or_introl eq_refl))|]. destruct S as (_ & _ & _ & _ & S & _). exact S.
Qed.
