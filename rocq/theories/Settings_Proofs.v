(** The settings of a detector after a history of calls, and those of the predefined experiments. *)
From Coq Require Import Reals ZArith String Lia Lra Bool.
From Coquelicot Require Import Coquelicot.
From Coq Require Import List.
From Verif Require Import Base XrFacts Nucleus_Model Nuclear_Model Nuclear_Proofs Atom_Model Crystal_Model Detector_Model DetectorTypes_Model Limits_Proofs Exposure_Proofs Fractions_Proofs
  Spectra_Proofs Experiments_Model Configuration_Model Experiments_Proofs.
Import ListNotations.
Local Open Scope R_scope.

(** * Specification: a setting stays as it is until it is set again; setting up bins anew forgets the lists given for the old bins *)
Record settings : Type := Settings { s_flat : xr; s_counts : option (list Z); s_efficiencies : option (list xr); s_backgrounds : option (list xr) }.
Definition at_first : settings := Settings (Fin 1) None None None.
Definition new_bins (t : settings) : settings := Settings (s_flat t) None None None.
Definition told (t : settings) (o : base_op) : settings :=
  match o with
  | BFlat x => Settings x (s_counts t) (s_efficiencies t) (s_backgrounds t)
  | BBin_Observed l => Settings (s_flat t) (Some l) (s_efficiencies t) (s_backgrounds t)
  | BBin_Efficiencies l => Settings (s_flat t) (s_counts t) (Some l) (s_backgrounds t)
  | BBin_Background l => Settings (s_flat t) (s_counts t) (s_efficiencies t) (Some l)
  | BBins _ _ _ => new_bins t
  | _ => t
  end.
Definition nuclear_told (t : settings) (o : nuclear_op) : settings := match o with NBase o => told t o | _ => t end.
Definition ionization_told (t : settings) (o : ionization_op) : settings :=
  match o with IBase o => told t o | IElectron_Bins _ _ | IPE_Bins _ _ _ => new_bins t | _ => t end.
Definition semiconductor_told (t : settings) (o : semiconductor_op) : settings :=
  match o with CBase o => told t o | CQ_Bins _ _ => new_bins t | _ => t end.
(** A list that was given, or the same number for every bin. *)
Definition given {A : Type} (o : option (list A)) (c : A) (l : list A) : Prop := match o with Some x => l = x | None => Forall (fun y => y = c) l end.
Definition set_to (t : settings) (d : detector) : Prop :=
  b_flat_efficiency d = s_flat t /\ given (s_counts t) 0%Z (b_bin_observed d) /\ given (s_efficiencies t) (Fin 1) (b_efficiencies d) /\ given (s_backgrounds t) (Fin 0) (b_bin_background d).
(** Gain and width of the photoelectron signal, trigger and acceptance curves. *)
Record light : Type := Light { l_gain : xr; l_width : xr; l_trigger : list xr; l_acceptance : list xr }.
Definition dark : light := Light (Fin 0) (Fin 0) [] [].
Definition light_told (t : light) (o : ionization_op) : light :=
  match o with
  | IPE_Threshold mu sigma _ _ | IPE_Bins mu sigma _ => Light mu sigma (l_trigger t) (l_acceptance t)
  | ITrigger l => Light (l_gain t) (l_width t) l (l_acceptance t)
  | IAcceptance l => Light (l_gain t) (l_width t) (l_trigger t) l
  | _ => t
  end.
Definition lit (t : light) (s : ionization) : Prop := i_S2_mu s = l_gain t /\ i_S2_sigma s = l_width t /\ i_trigger s = l_trigger t /\ i_acceptance s = l_acceptance t.

(** * Proofs *)
Lemma repeat_all {A : Type} (c c' : A) n : c = c' -> Forall (fun y => y = c') (repeat c n).
Proof. intros ->. induction n; constructor; auto. Qed.
Lemma fresh_lists t n d : set_to t d -> set_to (new_bins t) (with_binned n (repeat 0%Z (Z.to_nat n)) (repeat (Fin 0.0) (Z.to_nat n)) (repeat (Fin 1.0) (Z.to_nat n)) d).
Proof. intros (F & _). unfold set_to. cbn. split; [exact F|]. split; [apply repeat_all; auto|]. split; apply repeat_all; f_equal; lra. Qed.
Lemma start_bins t n d d' : set_to t d -> Initialize_Binned_Poisson n d = Ok d' -> set_to (new_bins t) d'.
Proof. unfold Initialize_Binned_Poisson. intros H E. destruct (b_analysis d); try discriminate; apply Ok_inj in E; subst d'; apply fresh_lists; auto. Qed.
Lemma base_told t d o d' : set_to t d -> base_step d o = Ok d' -> set_to (told t o) d'.
Proof.
  intros H E. pose proof H as (F & C & Ef & B). destruct o; cbn [base_step told] in *.
  - apply Ok_inj in E. subst d'. unfold set_to, Set_Flat_Efficiency. cbn. auto.
  - unfold Set_Observed_Events in E. destruct (b_analysis d); try discriminate; apply Ok_inj in E; subst d'. exact H.
  - unfold Set_Expected_Background in E. destruct (b_analysis d); try discriminate; apply Ok_inj in E; subst d'. exact H.
  - unfold Set_Observed_Events_Binned in E. destruct (b_analysis d); try discriminate. destruct (_ =? _)%Z; try discriminate. apply Ok_inj in E. subst d'. unfold set_to. cbn. auto.
  - unfold Set_Bin_Efficiencies in E. destruct (b_analysis d); try discriminate. destruct (_ =? _)%Z; try discriminate. apply Ok_inj in E. subst d'. unfold set_to. cbn. auto.
  - unfold Set_Expected_Background_Binned in E. destruct (b_analysis d); try discriminate. destruct (_ =? _)%Z; try discriminate. apply Ok_inj in E. subst d'. unfold set_to. cbn. auto.
  - unfold Use_Maximum_Gap in E. destruct (_ && _)%bool; try discriminate. destruct (sort_doubles l); try discriminate. apply Ok_inj in E. subst d'. exact H.
  - unfold Use_Energy_Threshold in E. destruct (xlt hi lo); try discriminate. apply Ok_inj in E. subst d'. exact H.
  - unfold Use_Energy_Bins in E. step E. destruct (xlt hi lo); try discriminate. apply Ok_inj in E. subst d'. exact (start_bins t _ _ _ H E0).
Qed.
Lemma set_first label expo tg : set_to at_first (Detector_ctor label expo tg).
Proof. unfold set_to. cbn. split; [f_equal; lra|]. repeat split; constructor. Qed.

Lemma nuclear_tell t n o n' : set_to t (n_base n) -> nuclear_step n o = Ok n' -> set_to (nuclear_told t o) (n_base n').
Proof.
  intros H E. destruct o; cbn [nuclear_step nuclear_told] in *.
  - step E. apply Ok_inj in E. subst n'. eapply base_told; eauto.
  - apply Ok_inj in E. subst n'. exact H.
  - apply Ok_inj in E. subst n'. exact H.
  - apply Ok_inj in E. subst n'. unfold Import_Efficiency_Files. set (m := with_tables _ _ n). assert (Hm : set_to t (n_base m)) by exact H. clearbody m. revert m Hm.
    induction files as [|f l IH]; intros m Hm; cbn [fold_left]; auto.
Qed.
Lemma ionization_tell t s o s' : set_to t (i_base s) -> ionization_step s o = Ok s' -> set_to (ionization_told t o) (i_base s').
Proof.
  intros H E. destruct o; cbn [ionization_step ionization_told] in *.
  - step E. apply Ok_inj in E. subst s'. eapply base_told; eauto.
  - unfold Use_Electron_Threshold in E. match type of E with (if ?b then _ else _) = _ => destruct b end; try discriminate. apply Ok_inj in E. subst s'. exact H.
  - unfold Use_Electron_Bins in E. step E. match type of E with (if ?b then _ else _) = _ => destruct b end; try discriminate. apply Ok_inj in E. subst s'. exact (start_bins t _ _ _ H E0).
  - unfold Use_PE_Threshold in E. match type of E with (if ?b then _ else _) = _ => destruct b end; try discriminate. apply Ok_inj in E. subst s'. exact H.
  - unfold Import_Trigger_Efficiency_PE in E. destruct (_ && _)%bool; try discriminate. apply Ok_inj in E. subst s'. exact H.
  - unfold Import_Acceptance_Efficiency_PE in E. destruct (_ && _)%bool; try discriminate. apply Ok_inj in E. subst s'. exact H.
  - unfold Use_PE_Bins in E. step E. apply Ok_inj in E. subst s'. exact (start_bins t _ _ _ H E0).
Qed.
Lemma light_tell t s o s' : lit t s -> ionization_step s o = Ok s' -> lit (light_told t o) s'.
Proof.
  intros H E. pose proof H as (H1 & H2 & H3 & H4). destruct o; cbn [ionization_step light_told] in *.
  - step E. apply Ok_inj in E. subst s'. exact H.
  - unfold Use_Electron_Threshold in E. match type of E with (if ?b then _ else _) = _ => destruct b end; try discriminate. apply Ok_inj in E. subst s'. exact H.
  - unfold Use_Electron_Bins in E. step E. match type of E with (if ?b then _ else _) = _ => destruct b end; try discriminate. apply Ok_inj in E. subst s'. exact H.
  - unfold Use_PE_Threshold in E. match type of E with (if ?b then _ else _) = _ => destruct b end; try discriminate. apply Ok_inj in E. subst s'. unfold lit. cbn. auto.
  - unfold Import_Trigger_Efficiency_PE in E. destruct (_ && _)%bool; try discriminate. apply Ok_inj in E. subst s'. unfold lit. cbn. auto.
  - unfold Import_Acceptance_Efficiency_PE in E. destruct (_ && _)%bool; try discriminate. apply Ok_inj in E. subst s'. unfold lit. cbn. auto.
  - unfold Use_PE_Bins in E. step E. apply Ok_inj in E. subst s'. unfold lit. cbn. auto.
Qed.
Lemma semiconductor_tell t s o s' : set_to t (c_base s) -> semiconductor_step s o = Ok s' -> set_to (semiconductor_told t o) (c_base s').
Proof.
  intros H E. destruct o; cbn [semiconductor_step semiconductor_told] in *.
  - step E. apply Ok_inj in E. subst s'. eapply base_told; eauto.
  - apply Ok_inj in E. subst s'. exact H.
  - unfold Use_Q_Bins in E. step E. apply Ok_inj in E. subst s'. exact (start_bins t _ _ _ H E0).
Qed.
Lemma nuclear_run_told : forall ops t n n', set_to t (n_base n) -> nuclear_run n ops = Ok n' -> set_to (fold_left nuclear_told ops t) (n_base n').
Proof.
  induction ops as [|o l IH]; intros t n n' H E; cbn [nuclear_run fold_left] in *; [apply Ok_inj in E; subst; auto|]. step E. eapply IH; [|eauto]. eapply nuclear_tell; eauto.
Qed.
Lemma ionization_run_told : forall ops t k s s', set_to t (i_base s) -> lit k s -> ionization_run s ops = Ok s' ->
  set_to (fold_left ionization_told ops t) (i_base s') /\ lit (fold_left light_told ops k) s'.
Proof.
  induction ops as [|o l IH]; intros t k s s' H K E; cbn [ionization_run fold_left] in *; [apply Ok_inj in E; subst; auto|]. step E. eapply IH; [| |eauto]; [eapply ionization_tell; eauto|eapply light_tell; eauto].
Qed.
Lemma semiconductor_run_told : forall ops t s s', set_to t (c_base s) -> semiconductor_run s ops = Ok s' -> set_to (fold_left semiconductor_told ops t) (c_base s').
Proof.
  induction ops as [|o l IH]; intros t s s' H E; cbn [semiconductor_run fold_left] in *; [apply Ok_inj in E; subst; auto|]. step E. eapply IH; [|eauto]. eapply semiconductor_tell; eauto.
Qed.
Lemma lit_first ch label expo atoms fr : lit dark (Ionization_start ch label expo atoms fr).
Proof. unfold lit. cbn. repeat split; f_equal; lra. Qed.

Lemma nuclear_settings label expo nuclei abund ops n : nuclear_history label expo nuclei abund ops = Ok n -> set_to (fold_left nuclear_told ops at_first) (n_base n).
Proof.
  unfold nuclear_history, Nuclear_ctor. intros H. step H. destruct (relative_fractions nuclei abund) as [f| | |] eqn:E1; cbn [bind] in E; try discriminate. apply Ok_inj in E. subst a.
  eapply nuclear_run_told; [|eauto]. apply set_first.
Qed.
Lemma ionization_settings I w ch label expo atoms fr ops s : ionization_history I w ch label expo atoms fr ops = Ok s ->
  set_to (fold_left ionization_told ops at_first) (i_base s) /\ lit (fold_left light_told ops dark) s.
Proof.
  unfold ionization_history, Ionization_ctor. intros H. step H. destruct a as [s0 w']. destruct (make_atoms I w atoms) as [[a w1]| | |]; cbn [bind] in E; try discriminate.
  destruct (ionization_fractions _ fr) as [f| | |]; cbn [bind] in E; try discriminate. apply Ok_inj in E. injection E as <- <-.
  eapply ionization_run_told; [| |eauto]; [apply set_first|apply lit_first].
Qed.
Lemma semiconductor_settings I label expo crys ops s : semiconductor_history I label expo crys ops = Ok s -> set_to (fold_left semiconductor_told ops at_first) (c_base s).
Proof.
  unfold semiconductor_history, Semiconductor_ctor. intros H. step H. destruct (Crystal_ctor I crys) as [c| | |]; cbn [bind] in E; try discriminate. apply Ok_inj in E. subst a.
  eapply semiconductor_run_told; [|eauto]. apply set_first.
Qed.
