(** What the printed summary of a detector shows after a history of calls. *)
From Coq Require Import Reals ZArith String Lia Lra Bool.
From Coq Require Import List.
From Verif Require Import Base XrFacts Distribution_Model Nucleus_Model Nuclear_Model Atom_Model Crystal_Model Detector_Model DetectorTypes_Model Detector_Proofs Limits_Proofs DetectorModes_Proofs DetectorSafety_Proofs Exposure_Proofs Settings_Proofs
  DetectorWitness_Proofs LimitsWitness_Proofs Summary_Model Summary_Proofs SummaryValues_Proofs.
Import ListNotations.
Local Open Scope R_scope.

(** * Specification *)
(** The numbers shown in the head of a summary: events and background as told last, returned to 0 when one window is selected anew; the number of bins, if bins were selected last. *)
Record display : Type := Display { p_events : Z; p_background : xr; p_bins : option Z }.
Definition blank : display := Display 0 (Fin 0) None.
Definition rebinned (n : Z) (t : display) : display := Display (p_events t) (p_background t) (Some n).
Definition counted (t : display) (o : base_op) : display :=
  match o with
  | BObserved n => Display n (p_background t) (p_bins t)
  | BBackground x => Display (p_events t) x (p_bins t)
  | BBin_Observed l => Display (Zsum l) (p_background t) (p_bins t)
  | BBin_Background l => Display (p_events t) (xsum l) (p_bins t)
  | BMaximum_Gap _ => Display (p_events t) (p_background t) None
  | BThreshold _ _ => blank
  | BBins _ _ n => rebinned (u32 n) t
  | BFlat _ | BBin_Efficiencies _ => t
  end.
Definition nuclear_counted (t : display) (o : nuclear_op) : display := match o with NBase o => counted t o | _ => t end.
Definition ionization_counted (t : display) (o : ionization_op) : display :=
  match o with
  | IBase o => counted t o
  | IElectron_Threshold _ _ | IPE_Threshold _ _ _ _ => blank
  | IElectron_Bins _ n => rebinned n t
  | IPE_Bins _ _ l => rebinned (u32 (u64 (Z.of_nat (List.length l) - 1))) t
  | ITrigger _ | IAcceptance _ => t
  end.
Definition semiconductor_counted (Qmax : Z) (t : display) (o : semiconductor_op) : display :=
  match o with
  | CBase o => counted t o
  | CQ_Threshold _ => blank
  | CQ_Bins Q n => rebinned (u32 ((if (n =? 0)%Z then Qmax else u32 (n + Q - 1)) - Q + 1)) t
  end.
(** Event numbers whose sum fits in an int. *)
Definition countable (o : base_op) : Prop := match o with BBin_Observed l => (0 <= Zsum l < 2 ^ 31)%Z | _ => True end.
Definition entry {A : Type} (o : option (list A)) (c : A) (i : nat) : option A := match o with Some l => nth_error l i | None => Some c end.
Definition shows (Round : rounding) (label targets : string) (expo : xr) (t : settings) (c : display) (out : list line) : Prop :=
  values "Experiment summary" out = [[Txt label]] /\ values "Target particles" out = [[Txt targets]] /\
  values "Exposure [kg year]" out = [[Num (Round (expo / Fin (kg * year))%xr)]] /\ values "Flat efficiency [%]" out = [[Num (Round (Fin 100 * s_flat t)%xr)]] /\
  values "Observed events" out = [[Int (p_events c)]] /\ values "Expected background" out = [[Num (p_background c)]] /\
  match p_bins c with
  | None => values "Number of bins" out = [] /\ values "Bin" out = []
  | Some n => values "Number of bins" out = [[Int n]] /\ List.length (values "Bin" out) = Z.to_nat n /\
      forall i row, nth_error (values "Bin" out) i = Some row -> exists e k b, entry (s_efficiencies t) (Fin 1) i = Some e /\ entry (s_counts t) 0%Z i = Some k /\
        entry (s_backgrounds t) (Fin 0) i = Some b /\ row = [Int (Z.of_nat i + 1); Num (Fin 100 * e)%xr; Int k; Num b]
  end.
(** The resolution told last, the electron numbers told last, the pair number told last. *)
Definition resolution_told (r : xr) (o : nuclear_op) : xr := match o with NResolution x => x | _ => r end.
Definition pairs_told (q : option Z) (o : semiconductor_op) : option Z := match o with CQ_Threshold Q | CQ_Bins Q _ => Some Q | _ => q end.
Definition electrons_told (q : Z * Z) (o : ionization_op) : Z * Z :=
  match o with
  | IElectron_Threshold lo hi => (lo, if ((0 <? hi) && (lo <? hi))%Z%bool then hi else 100%Z)
  | IElectron_Bins lo n => (lo, u32 (lo + n - 1))
  | _ => q
  end.

(** * Invariants *)
Definition counted_to (t : display) (d : detector) : Prop :=
  b_observed d = p_events t /\ b_background d = p_background t /\
  match p_bins t with
  | None => b_analysis d <> Binned_Poisson
  | Some n => b_analysis d = Binned_Poisson /\ b_bins d = n /\ List.length (b_bin_observed d) = Z.to_nat n /\ List.length (b_efficiencies d) = Z.to_nat n /\ List.length (b_bin_background d) = Z.to_nat n
  end.
Definition kept_base (label targets : string) (expo : xr) (d : detector) : Prop := b_name d = label /\ b_targets d = targets /\ b_exposure d = expo.
Lemma binned_counted t n d d' : counted_to t d -> Initialize_Binned_Poisson n d = Ok d' -> counted_to (rebinned n t) d'.
Proof.
  unfold Initialize_Binned_Poisson. intros (A & B & _) H. destruct (b_analysis d); try discriminate; apply Ok_inj in H; subst d'; unfold counted_to; cbn; rewrite !repeat_length; auto 10.
Qed.
Lemma binned_kept l tg e n d d' : kept_base l tg e d -> Initialize_Binned_Poisson n d = Ok d' -> kept_base l tg e d'.
Proof. unfold Initialize_Binned_Poisson. intros H E. destruct (b_analysis d); try discriminate; apply Ok_inj in E; subst d'; exact H. Qed.
Lemma poisson_counted d : counted_to blank (Initialize_Poisson d).
Proof. unfold counted_to. cbn. repeat split; discriminate. Qed.
Lemma base_counted t d o d' : countable o -> counted_to t d -> base_step d o = Ok d' -> counted_to (counted t o) d'.
Proof.
  intros K H E. pose proof H as (A & B & C). destruct o; cbn [base_step counted] in *.
  - apply Ok_inj in E. subst d'. exact H.
  - unfold Set_Observed_Events in E. destruct (b_analysis d) eqn:AN; try discriminate; apply Ok_inj in E; subst d'. unfold counted_to. cbn. rewrite AN in *. auto.
  - unfold Set_Expected_Background in E. destruct (b_analysis d) eqn:AN; try discriminate; apply Ok_inj in E; subst d'. unfold counted_to. cbn. rewrite AN in *. auto.
  - unfold Set_Observed_Events_Binned in E. destruct (b_analysis d) eqn:AN; try discriminate. destruct (_ =? _)%Z eqn:L; try discriminate. apply Ok_inj in E. subst d'. unfold counted_to. cbn in *. rewrite AN in *. apply Z.eqb_eq in L.
    split. { rewrite accumulate_eq. unfold s32, u64. rewrite (Z.mod_small (Zsum l + _)) by lia. rewrite Z.mod_small; lia. }
    split; [auto|]. destruct (p_bins t); [|congruence]. destruct C as (_ & N & L1 & L2 & L3). repeat split; auto. lia.
  - unfold Set_Bin_Efficiencies in E. destruct (b_analysis d) eqn:AN; try discriminate. destruct (_ =? _)%Z eqn:L; try discriminate. apply Ok_inj in E. subst d'. unfold counted_to. cbn in *. rewrite AN in *. apply Z.eqb_eq in L.
    split; [auto|]. split; [auto|]. destruct (p_bins t); [|congruence]. destruct C as (_ & N & L1 & L2 & L3). repeat split; auto. lia.
  - unfold Set_Expected_Background_Binned in E. destruct (b_analysis d) eqn:AN; try discriminate. destruct (_ =? _)%Z eqn:L; try discriminate. apply Ok_inj in E. subst d'. unfold counted_to. cbn in *. rewrite AN in *. apply Z.eqb_eq in L.
    split; [auto|]. split; [auto|]. destruct (p_bins t); [|congruence]. destruct C as (_ & N & L1 & L2 & L3). repeat split; auto. lia.
  - unfold Use_Maximum_Gap in E. destruct (_ && _)%bool; try discriminate. destruct (sort_doubles l); try discriminate. apply Ok_inj in E. subst d'. unfold counted_to. cbn. repeat split; auto. discriminate.
  - unfold Use_Energy_Threshold in E. destruct (xlt hi lo); try discriminate. apply Ok_inj in E. subst d'. exact (poisson_counted d).
  - unfold Use_Energy_Bins in E. step E. destruct (xlt hi lo); try discriminate. apply Ok_inj in E. subst d'. exact (binned_counted t _ _ _ H E0).
Qed.
Lemma base_kept l tg e d o d' : kept_base l tg e d -> base_step d o = Ok d' -> kept_base l tg e d'.
Proof.
  intros H E. destruct o; cbn [base_step] in *.
  - apply Ok_inj in E. subst d'. exact H.
  - unfold Set_Observed_Events in E. destruct (b_analysis d); try discriminate; apply Ok_inj in E; subst d'. exact H.
  - unfold Set_Expected_Background in E. destruct (b_analysis d); try discriminate; apply Ok_inj in E; subst d'. exact H.
  - unfold Set_Observed_Events_Binned in E. destruct (b_analysis d); try discriminate. destruct (_ =? _)%Z; try discriminate. apply Ok_inj in E. subst d'. exact H.
  - unfold Set_Bin_Efficiencies in E. destruct (b_analysis d); try discriminate. destruct (_ =? _)%Z; try discriminate. apply Ok_inj in E. subst d'. exact H.
  - unfold Set_Expected_Background_Binned in E. destruct (b_analysis d); try discriminate. destruct (_ =? _)%Z; try discriminate. apply Ok_inj in E. subst d'. exact H.
  - unfold Use_Maximum_Gap in E. destruct (_ && _)%bool; try discriminate. destruct (sort_doubles _); try discriminate. apply Ok_inj in E. subst d'. exact H.
  - unfold Use_Energy_Threshold in E. destruct (xlt hi lo); try discriminate. apply Ok_inj in E. subst d'. exact H.
  - unfold Use_Energy_Bins in E. step E. destruct (xlt hi lo); try discriminate. apply Ok_inj in E. subst d'. exact (binned_kept l tg e _ _ _ H E0).
Qed.
Lemma counted_first label expo tg : counted_to blank (Detector_ctor label expo tg).
Proof. unfold counted_to. cbn. split; [reflexivity|]. split; [f_equal; lra|discriminate]. Qed.

Lemma nuclear_run_counted l tg e : forall ops t r n n', (forall o, In (NBase o) ops -> countable o) -> counted_to t (n_base n) -> kept_base l tg e (n_base n) -> n_resolution n = r -> nuclear_run n ops = Ok n' ->
  counted_to (fold_left nuclear_counted ops t) (n_base n') /\ kept_base l tg e (n_base n') /\ n_resolution n' = fold_left resolution_told ops r /\ n_targets n' = n_targets n /\ n_fractions n' = n_fractions n.
Proof.
  induction ops as [|o ops IH]; intros t r n n' K H B R E; cbn [nuclear_run fold_left] in *; [apply Ok_inj in E; subst; auto|]. step E.
  assert (S : counted_to (nuclear_counted t o) (n_base a) /\ kept_base l tg e (n_base a) /\ n_resolution a = resolution_told r o /\ n_targets a = n_targets n /\ n_fractions a = n_fractions n).
  { destruct o; cbn [nuclear_step nuclear_counted resolution_told] in *.
    - step E0. apply Ok_inj in E0. subst a. cbn. split; [eapply base_counted; eauto; apply K; left; auto|]. split; [eapply base_kept; eauto|auto].
    - apply Ok_inj in E0. subst a. cbn. auto.
    - apply Ok_inj in E0. subst a. cbn. auto.
    - apply Ok_inj in E0. subst a. unfold Import_Efficiency_Files. set (m := with_tables _ _ n).
      assert (Hm : counted_to t (n_base m) /\ kept_base l tg e (n_base m) /\ n_resolution m = r /\ n_targets m = n_targets n /\ n_fractions m = n_fractions n) by (unfold m; cbn; auto). clearbody m. clear K IH E. revert m Hm.
      induction files as [|f q IHf]; intros m Hm; cbn [fold_left]; [exact Hm|]. apply IHf. exact Hm. }
  destruct S as (S1 & S2 & S3 & S4 & S5). destruct (IH _ _ _ _ (fun o' I => K o' (or_intror I)) S1 S2 S3 E) as (T1 & T2 & T3 & T4 & T5). split; [exact T1|]. split; [exact T2|]. split; [exact T3|]. split; congruence.
Qed.
Lemma ionization_run_counted l tg e : forall ops t q s s', (forall o, In (IBase o) ops -> countable o) -> counted_to t (i_base s) -> kept_base l tg e (i_base s) -> (i_ne_threshold s, i_ne_max s) = q -> ionization_run s ops = Ok s' ->
  counted_to (fold_left ionization_counted ops t) (i_base s') /\ kept_base l tg e (i_base s') /\ (i_ne_threshold s', i_ne_max s') = fold_left electrons_told ops q /\ i_atoms s' = i_atoms s /\ i_fractions s' = i_fractions s.
Proof.
  induction ops as [|o ops IH]; intros t q s s' K H B R E; cbn [ionization_run fold_left] in *; [apply Ok_inj in E; subst; auto|]. step E.
  assert (S : counted_to (ionization_counted t o) (i_base a) /\ kept_base l tg e (i_base a) /\ (i_ne_threshold a, i_ne_max a) = electrons_told q o /\ i_atoms a = i_atoms s /\ i_fractions a = i_fractions s).
  { destruct o; cbn [ionization_step ionization_counted electrons_told] in *.
    - step E0. apply Ok_inj in E0. subst a. cbn. split; [eapply base_counted; eauto; apply K; left; auto|]. split; [eapply base_kept; eauto|auto].
    - unfold Use_Electron_Threshold in E0. destruct (_ <? _)%Z in E0; try discriminate. apply Ok_inj in E0. subst a. split; [exact (poisson_counted (i_base s))|]. split; [exact B|]. cbn. auto.
    - unfold Use_Electron_Bins in E0. step E0. destruct (_ <? _)%Z in E0; try discriminate. apply Ok_inj in E0. subst a. split; [exact (binned_counted _ _ _ _ H E1)|]. split; [exact (binned_kept _ _ _ _ _ _ B E1)|]. cbn. auto.
    - unfold Use_PE_Threshold in E0. destruct (_ <? _)%Z in E0; try discriminate. apply Ok_inj in E0. subst a. split; [exact (poisson_counted (i_base s))|]. split; [exact B|]. cbn. auto.
    - unfold Import_Trigger_Efficiency_PE in E0. destruct (_ && _)%bool; try discriminate. apply Ok_inj in E0. subst a. cbn. auto.
    - unfold Import_Acceptance_Efficiency_PE in E0. destruct (_ && _)%bool; try discriminate. apply Ok_inj in E0. subst a. cbn. auto.
    - unfold Use_PE_Bins in E0. step E0. apply Ok_inj in E0. subst a. split; [exact (binned_counted _ _ _ _ H E1)|]. split; [exact (binned_kept _ _ _ _ _ _ B E1)|]. cbn. auto. }
  destruct S as (S1 & S2 & S3 & S4 & S5). destruct (IH _ _ _ _ (fun o' I => K o' (or_intror I)) S1 S2 S3 E) as (T1 & T2 & T3 & T4 & T5). split; [exact T1|]. split; [exact T2|]. split; [exact T3|]. split; congruence.
Qed.
Lemma semiconductor_run_counted l tg e : forall ops t q s s', (forall o, In (CBase o) ops -> countable o) -> counted_to t (c_base s) -> kept_base l tg e (c_base s) -> c_Q_threshold s = q -> semiconductor_run s ops = Ok s' ->
  counted_to (fold_left (semiconductor_counted (Q_max (c_crystal s))) ops t) (c_base s') /\ kept_base l tg e (c_base s') /\ c_Q_threshold s' = fold_left pairs_told ops q /\ c_crystal s' = c_crystal s.
Proof.
  induction ops as [|o ops IH]; intros t q s s' K H B R E; cbn [semiconductor_run fold_left] in *; [apply Ok_inj in E; subst; auto|]. step E.
  assert (S : counted_to (semiconductor_counted (Q_max (c_crystal s)) t o) (c_base a) /\ kept_base l tg e (c_base a) /\ c_Q_threshold a = pairs_told q o /\ c_crystal a = c_crystal s).
  { destruct o; cbn [semiconductor_step semiconductor_counted pairs_told] in *.
    - step E0. apply Ok_inj in E0. subst a. cbn. split; [eapply base_counted; eauto; apply K; left; auto|]. split; [eapply base_kept; eauto|auto].
    - apply Ok_inj in E0. subst a. split; [exact (poisson_counted (c_base s))|]. split; [exact B|]. cbn. auto.
    - unfold Use_Q_Bins in E0. step E0. apply Ok_inj in E0. subst a. split; [exact (binned_counted _ _ _ _ H E1)|]. split; [exact (binned_kept _ _ _ _ _ _ B E1)|]. cbn. auto. }
  destruct S as (S1 & S2 & S3 & S4). destruct (IH _ _ _ _ (fun o' I => K o' (or_intror I)) S1 S2 S3 E) as (T1 & T2 & T3 & T4). rewrite S4 in T1. split; [exact T1|]. split; [exact T2|]. split; [exact T3|congruence].
Qed.

(** * The printed lines *)
Definition base_labels : list string := ["Experiment summary"; "Target particles"; "Exposure [kg year]"; "Flat efficiency [%]"; "Observed events"; "Expected background"; "Statistical analysis"; "Number of bins"; "Bin"; "Recoil energies [keV]"; "Bin range [keV]"]%string.
Lemma map_res_nth {A B : Type} (f : A -> res B) l : forall out, map_res f l = Ok out -> List.length out = List.length l /\ forall i a, nth_error l i = Some a -> exists b, nth_error out i = Some b /\ f a = Ok b.
Proof.
  induction l as [|x l IH]; intros out H; cbn [map_res] in H.
  - apply Ok_inj in H. subst. split; [reflexivity|]. intros [|i] a E; discriminate.
  - open_res H. apply Ok_inj in H. subst out. destruct (IH _ eq_refl) as (L & N). split; [cbn; congruence|]. intros [|i] b Hb; cbn in *; [injection Hb as <-; eauto|auto].
Qed.
Lemma nth_seq n i a : nth_error (seq a n) i = if (i <? n)%nat then Some (a + i)%nat else None.
Proof.
  revert i a. induction n as [|n IH]; intros [|i] a; try reflexivity.
  - change (Some a = Some (a + 0)%nat). f_equal. lia.
  - cbn [seq nth_error]. rewrite IH. change (Datatypes.S i <? Datatypes.S n)%nat with (i <? n)%nat. destruct (i <? n)%nat; [f_equal; lia|reflexivity].
Qed.
Lemma at_ub_nth {A : Type} (l : list A) i a : at_ub l i = Ok a -> nth_error l i = Some a.
Proof. unfold at_ub. destruct (nth_error l i); intros H; [apply Ok_inj in H; congruence|discriminate]. Qed.
Lemma given_entry {A : Type} (o : option (list A)) c l i a : given o c l -> nth_error l i = Some a -> entry o c i = Some a.
Proof. unfold given, entry. destruct o; intros H E; [congruence|]. apply nth_error_In in E. rewrite Forall_forall in H. rewrite (H a E). reflexivity. Qed.
Lemma bins_values t d c rows : set_to t d -> counted_to c d -> print_bins d = Ok rows -> 
  match p_bins c with
  | None => rows = []
  | Some n => exists rest, rows = ("Number of bins"%string, [Int n]) :: rest /\ (forall x, In x rest -> fst x = "Bin"%string) /\ List.length rest = Z.to_nat n /\
      forall i x, nth_error rest i = Some x -> exists e k b, entry (s_efficiencies t) (Fin 1) i = Some e /\ entry (s_counts t) 0%Z i = Some k /\
        entry (s_backgrounds t) (Fin 0) i = Some b /\ snd x = [Int (Z.of_nat i + 1); Num (Fin 100 * e)%xr; Int k; Num b]
  end.
Proof.
  intros (_ & G1 & G2 & G3) (_ & _ & C) P. unfold print_bins in P. destruct (p_bins c) as [n|].
  - destruct C as (AN & BN & L1 & _). rewrite AN, BN in P. match type of P with (let* _ := ?m in _) = _ => destruct m as [rest| | |] eqn:E; cbn [bind] in P; try discriminate end. apply Ok_inj in P. subst rows.
    exists rest. split; [reflexivity|]. split. { eapply map_res_labels; [|exact E]. intros a y Hy. cbv beta in Hy. open_res Hy. apply Ok_inj in Hy. subst y. reflexivity. }
    destruct (map_res_nth _ _ _ E) as (L & N). rewrite seq_length, L1 in L. split; [exact L|]. intros i x Hx.
    assert (I : (i < List.length rest)%nat) by (apply nth_error_Some; congruence).
    destruct (N i i) as (y & Y1 & Y2). { rewrite nth_seq, L1. destruct (Nat.ltb_spec i (Z.to_nat n)); [reflexivity|lia]. }
    rewrite Hx in Y1. injection Y1 as <-. open_res Y2. apply Ok_inj in Y2. subst x. apply at_ub_nth in E0, E1, E2. do 3 eexists.
    split; [eapply given_entry; eauto|]. split; [eapply given_entry; eauto|]. split; [eapply given_entry; eauto|]. cbn. replace 100.0 with 100 by lra. reflexivity.
  - destruct (b_analysis d); try (apply Ok_inj in P; auto). congruence.
Qed.
Lemma base_values Round label targets expo t c d out : set_to t d -> counted_to c d -> kept_base label targets expo d -> print_base Round 0 d = Ok out ->
  shows Round label targets expo t c out /\ forall x, In x out -> In (fst x) base_labels.
Proof.
  intros S C (K1 & K2 & K3) P. unfold print_base in P. change (0 =? 0)%Z with true in P. cbv iota zeta in P.
  destruct (print_bins d) as [bins| | |] eqn:PB; cbn [bind] in P; try discriminate. destruct (print_energy_bins Round d) as [energies| | |] eqn:PE; cbn [bind] in P; try discriminate. apply Ok_inj in P.
  assert (LE : forall x, In x energies -> fst x = "Bin range [keV]"%string).
  { unfold print_energy_bins in PE. destruct (b_using_bins d); [|apply Ok_inj in PE; subst; intros x []]. eapply map_res_labels; [|exact PE]. intros a y Hy. cbv beta in Hy. open_res Hy. apply Ok_inj in Hy. subst y. reflexivity. }
  match type of P with _ ++ _ ++ ?r ++ _ = _ => set (range := r) in * end.
  assert (LR : forall x, In x range -> fst x = "Recoil energies [keV]"%string). { unfold range. destruct (_ || _)%bool; intros x [<-|[]] || intros x []. reflexivity. }
  assert (VE : forall l, l <> "Bin range [keV]"%string -> values l energies = []) by (intros l N; apply values_other; intros x I; rewrite (LE x I); auto).
  assert (VR : forall l, l <> "Recoil energies [keV]"%string -> values l range = []) by (intros l N; apply values_other; intros x I; rewrite (LR x I); auto).
  clearbody range. assert (BV := bins_values t d c bins S C PB). destruct S as (F & _). destruct C as (C1 & C2 & _). rewrite K1, K2, K3, F, C1, C2 in P. replace 100.0 with 100 in P by lra.
  assert (VB : forall l, l <> "Number of bins"%string -> l <> "Bin"%string -> values l bins = []).
  { intros l N1 N2. destruct (p_bins c); [|subst; reflexivity]. destruct BV as (rest & -> & LB & _). apply values_other. intros x [<-|I]; [auto|rewrite (LB x I); auto]. }
  split.
  - match type of P with ?h ++ _ = _ => set (head := h) in P end. assert (H1 : values "Number of bins" head = []) by reflexivity. assert (H2 : values "Bin" head = []) by reflexivity.
    subst out. unfold shows. rewrite !values_app, !VE, !VR by discriminate. rewrite !(VB "Experiment summary"%string), !(VB "Target particles"%string), !(VB "Exposure [kg year]"%string), !(VB "Flat efficiency [%]"%string), !(VB "Observed events"%string), !(VB "Expected background"%string) by discriminate.
    rewrite !app_nil_r. split; [reflexivity|]. split; [reflexivity|]. split; [reflexivity|]. split; [reflexivity|]. split; [reflexivity|]. split; [reflexivity|].
    destruct (p_bins c) as [n|]; [|subst bins; split; reflexivity]. rewrite H1, H2. cbn [app]. destruct BV as (rest & -> & LB & L & N).
    assert (VC : forall l a, values l (a :: rest) = values l [a] ++ values l rest) by (intros l a; apply (values_app l [a] rest)). rewrite !VC.
    rewrite (values_other "Number of bins" rest) by (intros x I; rewrite (LB x I); discriminate). rewrite (values_all "Bin" rest LB).
    split; [reflexivity|]. change (values "Bin" [("Number of bins"%string, [Int n])]) with (@nil (list cell)). cbn [app]. rewrite map_length. split; [exact L|].
    intros i row Hr. rewrite nth_error_map in Hr. destruct (nth_error rest i) as [x|] eqn:EX; [|discriminate]. injection Hr as <-. destruct (N i x EX) as (e & k & b & N1 & N2 & N3 & N4). exists e, k, b. auto.
  - subst out. intros x I. apply in_app_or in I. destruct I as [I|I]; [unfold base_labels; cbn in I |- *; repeat (destruct I as [<-|I]; [cbn; tauto|]); destruct I|].
    apply in_app_or in I. destruct I as [I|I]. { destruct (p_bins c); [|subst; destruct I]. destruct BV as (rest & -> & LB & _). destruct I as [<-|I]; [cbn; tauto|rewrite (LB x I); cbn; tauto]. }
    apply in_app_or in I. destruct I as [I|I]; [rewrite (LR x I); cbn; tauto|rewrite (LE x I); cbn; tauto].
Qed.
Lemma shows_more Round label targets expo t c out more : (forall x, In x more -> ~ In (fst x) base_labels) -> shows Round label targets expo t c out -> shows Round label targets expo t c (out ++ more).
Proof.
  intros M. assert (V : forall l, In l base_labels -> values l (out ++ more) = values l out).
  { intros l I. rewrite values_app, (values_other l more), app_nil_r; [reflexivity|]. intros x Hx E. apply (M x Hx). congruence. }
  unfold shows. rewrite !V by (cbn; tauto). auto.
Qed.

(** * Theorems *)
Lemma row_labels {A : Type} (f : A -> res line) l L rows : (forall a x, f a = Ok x -> fst x = L) -> map_res f l = Ok rows -> values L rows = map snd rows /\ forall l', l' <> L -> values l' rows = [].
Proof. intros F E. assert (K := map_res_labels f l L rows F E). split; [apply values_all; auto|]. intros l' N. apply values_other. intros x I. rewrite (K x I). auto. Qed.
Lemma nuclear_shown Round label expo nuclei abund ops n out : (forall o, In (NBase o) ops -> countable o) -> nuclear_history label expo nuclei abund ops = Ok n -> print_nuclear Round 0 n = Ok out ->
  shows Round label "Nuclei" expo (fold_left nuclear_told ops at_first) (fold_left nuclear_counted ops blank) out /\
  values "ER resolution [keV]" out = [[Num (fold_left resolution_told ops (Fin 0) / Fin keV)%xr]] /\
  exists f, relative_fractions nuclei abund = Ok f /\ List.length (values "Nucl." out) = List.length nuclei /\
    forall i row, nth_error (values "Nucl." out) i = Some row -> exists t x, nth_error nuclei i = Some t /\ nth_error f i = Some x /\ row = [Txt (nname t); Num (Round (Fin 100 * x)%xr)].
Proof.
  intros K H P. assert (S := nuclear_settings _ _ _ _ _ _ H). unfold nuclear_history, Nuclear_ctor in H. step H. destruct (relative_fractions nuclei abund) as [f| | |] eqn:RF; cbn [bind] in E; try discriminate. apply Ok_inj in E. subst a.
  destruct (nuclear_run_counted label "Nuclei" expo ops blank (Fin 0) (mkNuclear (Detector_ctor label expo "Nuclei") nuclei f (Fin 0.0) false []) n K (counted_first label expo "Nuclei") ltac:(repeat split) ltac:(cbn; f_equal; lra) H) as (C & B & R & T & F). cbn [n_targets n_fractions] in T, F.
  unfold print_nuclear in P. change (0 =? 0)%Z with true in P. cbv iota in P. destruct (print_base Round 0 (n_base n)) as [base| | |] eqn:PB; cbn [bind] in P; try discriminate.
  match type of P with (let* _ := ?m in _) = _ => destruct m as [rows| | |] eqn:ER; cbn [bind] in P; try discriminate end. apply Ok_inj in P. subst out.
  destruct (base_values _ _ _ _ _ _ _ _ S C B PB) as (SB & LB).
  assert (LRW : forall a x, (fun i => let* t := at_ub (n_targets n) i in let* f := at_ub (n_fractions n) i in Ok ("Nucl."%string, [Txt (nname t); Num (Round (Fin 100.0 * f)%xr)])) a = Ok x -> fst x = "Nucl."%string).
  { intros a x Hx. cbv beta in Hx. open_res Hx. apply Ok_inj in Hx. subst x. reflexivity. }
  destruct (row_labels _ _ _ _ LRW ER) as (V1 & V2). assert (LR := map_res_labels _ _ _ _ LRW ER).
  assert (VB : forall l, ~ In l base_labels -> values l base = []) by (intros l N; apply values_other; intros x I E; apply N; rewrite <- E; auto).
  split; [|split].
  - apply shows_more; auto. intros x I. apply in_app_or in I. destruct I as [[<-|[]]|I]; [cbn; intuition discriminate|]. apply in_app_or in I. destruct I as [I|I]; [rewrite (LR x I); cbn; intuition discriminate|].
    destruct I as [<-|[<-|[<-|[]]]]; cbn; intuition discriminate.
  - rewrite !values_app, (VB "ER resolution [keV]"%string) by (cbn; intuition discriminate). rewrite (V2 "ER resolution [keV]"%string) by discriminate. rewrite R. reflexivity.
  - exists f. split; [reflexivity|]. rewrite !values_app, (VB "Nucl."%string) by (cbn; intuition discriminate). rewrite V1. cbn [app].
    match goal with |- context [values "Nucl." (?a :: ?b)] => change (values "Nucl." (a :: b)) with (@nil (list cell)) end.
    match goal with |- context [values "Nucl." ?b] => change (values "Nucl." b) with (@nil (list cell)) | _ => idtac end. cbn [app]. rewrite ?app_nil_r.
    destruct (map_res_nth _ _ _ ER) as (L & N). rewrite seq_length in L. rewrite T in *. rewrite F in N. rewrite map_length. split; [exact L|]. intros i row Hr. rewrite nth_error_map in Hr. destruct (nth_error rows i) as [x|] eqn:EX; [|discriminate]. injection Hr as <-.
    assert (I : (i < List.length rows)%nat) by (apply nth_error_Some; congruence). destruct (N i i) as (y & Y1 & Y2). { rewrite nth_seq. destruct (Nat.ltb_spec i (List.length nuclei)); [reflexivity|lia]. }
    rewrite EX in Y1. injection Y1 as <-. open_res Y2. apply Ok_inj in Y2. subst x. apply at_ub_nth in E, E0. do 2 eexists. split; [exact E|]. split; [exact E0|]. cbn. replace 100.0 with 100 by lra. reflexivity.
Qed.
Lemma S2_labels s out : print_S2_bins s = Ok out -> forall x, In x out -> fst x = "Bin range [S2]"%string.
Proof.
  unfold print_S2_bins. destruct (i_using_S2_bins s); [|intros E; apply Ok_inj in E; subst; intros x []]. apply map_res_labels. intros a y Hy. cbv beta in Hy. open_res Hy. apply Ok_inj in Hy. subst y. reflexivity.
Qed.
Lemma no_PE : forall ops s s', ionization_run s ops = Ok s' -> never is_PE_threshold ops -> never is_PE_bins ops -> (i_using_S2_bins s || i_using_S2_threshold s)%bool = false -> (i_using_S2_bins s' || i_using_S2_threshold s')%bool = false.
Proof.
  induction ops as [|o ops IH]; intros s s' E N1 N2 F; cbn [ionization_run] in E; [apply Ok_inj in E; subst; auto|]. step E. unfold never in N1, N2. cbn [forallb] in N1, N2. apply andb_prop in N1 as [A1 B1]. apply andb_prop in N2 as [A2 B2].
  apply (IH a s' E B1 B2). apply orb_false_elim in F as [F1 F2]. destruct o; cbn [ionization_step is_PE_threshold is_PE_bins negb] in *; try discriminate.
  - step E0. apply Ok_inj in E0. subst a. cbn. rewrite F1, F2. reflexivity.
  - unfold Use_Electron_Threshold in E0. destruct (_ <? _)%Z in E0; try discriminate. apply Ok_inj in E0. subst a. cbn. rewrite F1. reflexivity.
  - unfold Use_Electron_Bins in E0. step E0. destruct (_ <? _)%Z in E0; try discriminate. apply Ok_inj in E0. subst a. cbn. rewrite F1, F2. reflexivity.
  - unfold Import_Trigger_Efficiency_PE in E0. rewrite F1, F2 in E0. discriminate.
  - unfold Import_Acceptance_Efficiency_PE in E0. rewrite F1, F2 in E0. discriminate.
Qed.
Lemma ionization_shown Round I w ch label expo names fr ops s out : (forall o, In (IBase o) ops -> countable o) -> ionization_history I w ch label expo names fr ops = Ok s -> print_ionization Round 0 s = Ok out ->
  shows Round label (channel_targets ch) expo (fold_left ionization_told ops at_first) (fold_left ionization_counted ops blank) out /\
  (forall u, last_such ionization_use ops = Some u ->
    (forall mu sigma lo hi l, u = IPE_Threshold mu sigma lo hi \/ u = IPE_Bins mu sigma l -> values "mu_PE" out = [[Num mu]] /\ values "sigma_PE" out = [[Num sigma]]) /\
    (never is_PE_threshold ops -> never is_PE_bins ops -> forall lo hi n, u = IElectron_Threshold lo hi \/ u = IElectron_Bins lo n ->
      values "Ne threshold" out = [[Int (fst (fold_left electrons_told ops (3, 100)%Z))]] /\ values "Ne max" out = [[Int (snd (fold_left electrons_told ops (3, 100)%Z))]])) /\
  List.length (values "Target(s)" out) = List.length (i_atoms s) /\
  forall i row, nth_error (values "Target(s)" out) i = Some row -> exists a x, nth_error (i_atoms s) i = Some a /\ nth_error (i_fractions s) i = Some x /\ row = [Txt (nname (at_nucleus a)); Num (Round (Fin 100 * x)%xr)].
Proof.
  intros K H P. destruct (ionization_settings _ _ _ _ _ _ _ _ _ H) as (S & _). unfold ionization_history, Ionization_ctor in H. step H. destruct a as [s0 w']. destruct (make_atoms I w names) as [[at_ w1]| | |]; cbn [bind] in E; try discriminate.
  destruct (ionization_fractions _ fr) as [f| | |]; cbn [bind] in E; try discriminate. apply Ok_inj in E. injection E as <- <-.
  destruct (ionization_run_counted label (channel_targets ch) expo ops blank (3, 100)%Z (Ionization_start ch label expo at_ f) s K (counted_first label expo (channel_targets ch)) ltac:(repeat split) eq_refl H) as (C & B & R & _ & _).
  unfold print_ionization in P. destruct (print_base Round 0 (i_base s)) as [base| | |] eqn:PB; cbn [bind] in P; try discriminate.
  match type of P with (let* _ := ?m in _) = _ => destruct m as [rows| | |] eqn:ER; cbn [bind] in P; try discriminate end.
  match type of P with (let* _ := ?m in _) = _ => destruct m as [mode| | |] eqn:EM; cbn [bind] in P; try discriminate end. apply Ok_inj in P.
  destruct (base_values _ _ _ _ _ _ _ _ S C B PB) as (SB & LB).
  assert (LRW : forall a x, (fun i => let* a := at_ub (i_atoms s) i in let* f := at_ub (i_fractions s) i in Ok ("Target(s)"%string, [Txt (nname (at_nucleus a)); Num (Round (Fin 100.0 * f)%xr)])) a = Ok x -> fst x = "Target(s)"%string).
  { intros a x Hx. cbv beta in Hx. open_res Hx. apply Ok_inj in Hx. subst x. reflexivity. }
  destruct (row_labels _ _ _ _ LRW ER) as (V1 & V2). assert (LR := map_res_labels _ _ _ _ LRW ER).
  assert (VB : forall l, ~ In l base_labels -> values l base = []) by (intros l N; apply values_other; intros x Hx E; apply N; rewrite <- E; auto).
  assert (LM : forall x, In x mode -> In (fst x) ["mu_PE"; "sigma_PE"; "Imported trigger efficiencies"; "Imported acc. efficiencies"; "Bin range [S2]"; "Ne threshold"; "Ne max"]%string).
  { destruct (_ || _)%bool in EM.
    - open_res EM. apply Ok_inj in EM. subst mode. intros x Hx. apply in_app_or in Hx. destruct Hx as [Hx|Hx]; [destruct Hx as [<-|[<-|[<-|[<-|[]]]]]; cbn; tauto|].
      rewrite (S2_labels _ _ E x Hx). cbn. tauto.
    - destruct (_ || _)%bool in EM; apply Ok_inj in EM; subst mode; intros x Hx; [destruct Hx as [<-|[<-|[]]]; cbn; tauto|destruct Hx]. }
  assert (VM : forall l, ~ In l ["Electron recoil experiment (ionization)."; "Target(s)"; "Electron bins"; "PE (S2) bins"]%string -> ~ In l base_labels -> values l out = values l mode).
  { intros l N1 N2. subst out. rewrite !values_app, (VB l N2), (V2 l) by (intros ->; apply N1; cbn; tauto). cbn [app]. 
    rewrite (values_other l [("Electron recoil experiment (ionization)."%string, [])]) by (intros x [<-|[]] E; apply N1; rewrite <- E; cbn; tauto).
    rewrite (values_other l [("Electron bins"%string, _); _]) by (intros x [<-|[<-|[]]] E; apply N1; rewrite <- E; cbn; tauto). reflexivity. }
  split; [|split].
  - subst out. apply shows_more; auto. intros x Hx. apply in_app_or in Hx. destruct Hx as [[<-|[]]|Hx]; [cbn; intuition discriminate|]. apply in_app_or in Hx. destruct Hx as [Hx|Hx]; [rewrite (LR x Hx); cbn; intuition discriminate|].
    apply in_app_or in Hx. destruct Hx as [Hx|Hx]; [destruct Hx as [<-|[<-|[]]]; cbn; intuition discriminate|]. apply LM in Hx. intros N. cbn in Hx, N. intuition congruence.
  - intros u L. assert (SH := ionization_shows_run _ _ _ _ H L). split.
    + intros mu sigma lo hi l U. rewrite !VM by (cbn; intuition discriminate).
      assert (Q : (i_using_S2_bins s || i_using_S2_threshold s)%bool = true /\ i_S2_mu s = mu /\ i_S2_sigma s = sigma).
      { destruct U as [-> | ->]; cbn [ionization_shows] in SH; [destruct SH as (_ & _ & _ & A & _ & _ & A1 & A2 & _)|destruct SH as (_ & A & A1 & A2 & _)]; rewrite A, ?orb_true_r; auto. }
      destruct Q as (Q1 & Q2 & Q3). rewrite Q1, Q2, Q3 in EM. open_res EM. apply Ok_inj in EM. subst mode.
      assert (VS : forall l, l <> "Bin range [S2]"%string -> values l a = []).
      { intros l' N. apply values_other. intros x Hx. rewrite (S2_labels _ _ E x Hx). auto. }
      rewrite !values_app, !VS by discriminate. rewrite !app_nil_r. split; reflexivity.
    + intros N1 N2 lo hi n U. rewrite !VM by (cbn; intuition discriminate). rewrite (no_PE _ _ _ H N1 N2 eq_refl) in EM.
      assert (Q : (i_using_ne_bins s || i_using_ne_threshold s)%bool = true) by (destruct U as [-> | ->]; cbn [ionization_shows] in SH; destruct SH as (_ & A & _); rewrite A, ?orb_true_r; reflexivity).
      rewrite Q in EM. apply Ok_inj in EM. subst mode. rewrite <- R. split; reflexivity.
  - assert (VT : values "Target(s)" out = map snd rows).
    { subst out. rewrite !values_app, (VB "Target(s)"%string) by (cbn; intuition discriminate). rewrite V1, (values_other "Target(s)" mode) by (intros x Hx E; apply LM in Hx; rewrite E in Hx; cbn in Hx; intuition discriminate). cbn [app]. cbn. rewrite !app_nil_r. reflexivity. }
    rewrite VT, map_length. destruct (map_res_nth _ _ _ ER) as (L & N). rewrite seq_length in L. split; [exact L|]. intros i row Hr. rewrite nth_error_map in Hr. destruct (nth_error rows i) as [x|] eqn:EX; [|discriminate]. injection Hr as <-.
    assert (J : (i < List.length rows)%nat) by (apply nth_error_Some; congruence). destruct (N i i) as (y & Y1 & Y2). { rewrite nth_seq. destruct (Nat.ltb_spec i (List.length (i_atoms s))); [reflexivity|lia]. }
    rewrite EX in Y1. injection Y1 as <-. open_res Y2. apply Ok_inj in Y2. subst x. apply at_ub_nth in E, E0. do 2 eexists. split; [exact E|]. split; [exact E0|]. cbn. replace 100.0 with 100 by lra. reflexivity.
Qed.
Lemma semiconductor_shown Round I label expo crys ops s out : (forall o, In (CBase o) ops -> countable o) -> semiconductor_history I label expo crys ops = Ok s -> print_semiconductor Round 0 s = Ok out ->
  shows Round label "Electrons" expo (fold_left semiconductor_told ops at_first) (fold_left (semiconductor_counted (Q_max (c_crystal s))) ops blank) out /\
  values "Target" out = [[Txt (cr_name (c_crystal s))]] /\
  forall u, last_such semiconductor_use ops = Some u -> forall Q n, u = CQ_Threshold Q \/ u = CQ_Bins Q n -> values "eh pair threshold" out = [[Int Q]].
Proof.
  intros K H P. assert (S := semiconductor_settings _ _ _ _ _ _ H). unfold semiconductor_history, Semiconductor_ctor in H. step H. destruct (Crystal_ctor I crys) as [c| | |]; cbn [bind] in E; try discriminate. apply Ok_inj in E. subst a.
  destruct (semiconductor_run_counted label "Electrons" expo ops blank None (mkSemiconductor (Detector_ctor label expo "Electrons") c None None None) s K (counted_first label expo "Electrons") ltac:(repeat split) eq_refl H) as (C & B & R & T). rewrite <- T in C.
  unfold print_semiconductor in P. destruct (print_base Round 0 (c_base s)) as [base| | |] eqn:PB; cbn [bind] in P; try discriminate.
  destruct (read_init (c_using_Q_threshold s)) as [t| | |] eqn:RT; cbn [bind] in P; try discriminate.
  match type of P with (let* _ := ?m in _) = _ => destruct m as [q| | |] eqn:EQ; cbn [bind] in P; try discriminate end.
  match type of P with (let* _ := ?m in _) = _ => destruct m as [pairs| | |] eqn:EP; cbn [bind] in P; try discriminate end. apply Ok_inj in P.
  destruct (base_values _ _ _ _ _ _ _ _ S C B PB) as (SB & LB).
  assert (VB : forall l, ~ In l base_labels -> values l base = []) by (intros l N; apply values_other; intros x Hx E; apply N; rewrite <- E; auto).
  assert (LP : forall x, In x pairs -> fst x = "eh pair threshold"%string). { destruct q; [|apply Ok_inj in EP; subst; intros x []]. open_res EP. apply Ok_inj in EP. subst. intros x [<-|[]]. reflexivity. }
  split; [|split].
  - subst out. apply shows_more; auto. intros x Hx. apply in_app_or in Hx. destruct Hx as [[<-|[<-|[]]]|Hx]; [cbn; intuition discriminate|cbn; intuition discriminate|]. rewrite (LP x Hx). cbn. intuition discriminate.
  - subst out. rewrite !values_app, (VB "Target"%string) by (cbn; intuition discriminate). rewrite (values_other "Target" pairs) by (intros x Hx; rewrite (LP x Hx); discriminate). reflexivity.
  - intros u L Q n U. assert (SH := semiconductor_shows_run _ _ _ _ H L).
    assert (QQ : q = true /\ c_Q_threshold s = Some Q).
    { destruct U as [-> | ->]; cbn [semiconductor_shows] in SH.
      - destruct SH as (_ & A & A1). rewrite A in RT. cbn in RT. apply Ok_inj in RT. subst t. apply Ok_inj in EQ. auto.
      - destruct SH as (_ & A & A1 & _). rewrite A in EQ. split; [|auto]. destruct t; cbn in EQ; apply Ok_inj in EQ; auto. }
    destruct QQ as (-> & Q2). rewrite Q2 in EP. cbn [read_init bind] in EP. apply Ok_inj in EP. subst pairs out. rewrite !values_app, (VB "eh pair threshold"%string) by (cbn; intuition discriminate). reflexivity.
Qed.

(** * Instances; the total may contradict the bins *)
(** Witness: two energy bins with data, a resolution. *)
Definition opsS : list nuclear_op := [NResolution (Fin 2); NBase (BBins (Fin 1) (Fin 3) 2); NBase (BBin_Observed [3; 4]%Z); NBase (BBin_Efficiencies [Fin 1; Fin (1/2)]); NBase (BFlat (Fin (1/4)))].
(** Witness: an event number for one window, then two energy bins. *)
Definition ops_stale : list nuclear_op := [NBase (BObserved 5); NBase (BBins (Fin 1) (Fin 3) 2)].
Lemma hydrogen_printed ops n0 n Round : Nuclear_ctor "test" (Fin 1) [heavy_hydrogen] [Fin 1] = Ok n0 -> nuclear_run n0 ops = Ok n -> Forall nuclear_args ops -> (forall o, In (NBase o) ops -> sensible_bins o) -> exists out, print_nuclear Round 0 n = Ok out.
Proof. intros C R A S. apply (nuclear_printable "test" (Fin 1) [heavy_hydrogen] [Fin 1] n0 ops n Round 0 C); auto. Qed.
Lemma two_bins d : b_analysis d = Poisson -> Use_Energy_Bins (Fin 1) (Fin 3) 2 d = Ok (with_bin_energies (Linear_Space (Fin 1) (Fin 3) 3) (with_range (Fin 1) (Fin 3) (with_using (b_using_threshold d) true (with_binned 2 [0; 0]%Z [Fin 0.0; Fin 0.0] [Fin 1.0; Fin 1.0] d)))).
Proof. intros H. unfold Use_Energy_Bins, Initialize_Binned_Poisson. rewrite H. rewrite xlt_false by lra. reflexivity. Qed.
Lemma hydrogen_built : exists f, relative_fractions [heavy_hydrogen] [Fin 1] = Ok f.
Proof. destruct nW_configured as (n & C & _). unfold Nuclear_ctor in C. destruct (relative_fractions _ _) as [f| | |]; try discriminate. eauto. Qed.
Lemma shown_instance : exists n out, nuclear_history "test" (Fin 1) [heavy_hydrogen] [Fin 1] opsS = Ok n /\ (forall Round, exists out, print_nuclear Round 0 n = Ok out) /\ (forall o, In (NBase o) opsS -> countable o) /\
  print_nuclear (fun x => x) 0 n = Ok out /\ fold_left nuclear_counted opsS blank = Display 7 (Fin 0) (Some 2%Z) /\ values "Observed events" out = [[Int 7]].
Proof.
  destruct hydrogen_built as (f & F). pose (n0 := mkNuclear (Detector_ctor "test" (Fin 1) "Nuclei") [heavy_hydrogen] f (Fin 0.0) false []). assert (C : Nuclear_ctor "test" (Fin 1) [heavy_hydrogen] [Fin 1] = Ok n0) by (unfold Nuclear_ctor; rewrite F; reflexivity).
  assert (R : exists n, nuclear_run n0 opsS = Ok n). { unfold opsS. cbn [nuclear_run nuclear_step base_step bind]. rewrite two_bins by reflexivity. cbn [bind]. eexists. reflexivity. }
  destruct R as (n & R). assert (H : nuclear_history "test" (Fin 1) [heavy_hydrogen] [Fin 1] opsS = Ok n) by (unfold nuclear_history; rewrite C; exact R).
  assert (P : forall Round, exists out, print_nuclear Round 0 n = Ok out).
  { intros Round. apply (hydrogen_printed opsS n0 n Round C R); [repeat constructor; cbn; unfold is_u32; lia|]. intros o I. cbn in I. intuition (try discriminate); match goal with E : NBase _ = NBase _ |- _ => injection E as <-; cbn; auto; lia end. }
  assert (K : forall o, In (NBase o) opsS -> countable o). { intros o I. cbn in I. intuition (try discriminate); match goal with E : NBase _ = NBase _ |- _ => injection E as <-; cbn; auto; lia end. }
  destruct (P (fun x => x)) as (out & O). exists n, out. split; [exact H|]. split; [exact P|]. split; [exact K|]. split; [exact O|]. split; [reflexivity|].
  destruct (nuclear_shown _ _ _ _ _ _ _ _ K H O) as (S & _). destruct S as (_ & _ & _ & _ & S & _). exact S.
Qed.
Lemma stale_total : exists n out, nuclear_history "test" (Fin 1) [heavy_hydrogen] [Fin 1] ops_stale = Ok n /\ print_nuclear (fun x => x) 0 n = Ok out /\
  values "Observed events" out = [[Int 5]] /\ List.length (values "Bin" out) = 2%nat /\ forall row, In row (values "Bin" out) -> exists i e b, row = [i; e; Int 0; b].
Proof.
  destruct hydrogen_built as (f & F). pose (n0 := mkNuclear (Detector_ctor "test" (Fin 1) "Nuclei") [heavy_hydrogen] f (Fin 0.0) false []). assert (C : Nuclear_ctor "test" (Fin 1) [heavy_hydrogen] [Fin 1] = Ok n0) by (unfold Nuclear_ctor; rewrite F; reflexivity).
  assert (R : exists n, nuclear_run n0 ops_stale = Ok n). { unfold ops_stale. cbn [nuclear_run nuclear_step base_step]. unfold Set_Observed_Events. cbn [n0 n_base b_analysis Detector_ctor bind]. rewrite two_bins by reflexivity. cbn [bind]. eexists. reflexivity. }
  destruct R as (n & R). assert (H : nuclear_history "test" (Fin 1) [heavy_hydrogen] [Fin 1] ops_stale = Ok n) by (unfold nuclear_history; rewrite C; exact R).
  destruct (hydrogen_printed ops_stale n0 n (fun x => x) C R) as (out & O). { repeat constructor; cbn; unfold is_u32; lia. } { intros o I. cbn in I. intuition (try discriminate); match goal with E : NBase _ = NBase _ |- _ => injection E as <-; cbn; auto; lia end. }
  assert (K : forall o, In (NBase o) ops_stale -> countable o). { intros o I. cbn in I. intuition (try discriminate); match goal with E : NBase _ = NBase _ |- _ => injection E as <-; cbn; auto; lia end. }
  exists n, out. split; [exact H|]. split; [exact O|]. destruct (nuclear_shown _ _ _ _ _ _ _ _ K H O) as (S & _). destruct S as (_ & _ & _ & _ & S1 & _ & S2). split; [exact S1|].
  change (p_bins (fold_left nuclear_counted ops_stale blank)) with (Some 2%Z) in S2. cbv iota in S2. destruct S2 as (_ & L & N). split; [exact L|].
  intros row I. apply In_nth_error in I. destruct I as (i & I). destruct (N i row I) as (e & k & b & _ & N2 & _ & ->). cbn in N2. injection N2 as <-. eauto.
Qed.
