(** Which spectrum a configured detector uses (C42), and what its signal functions read (C43). *)
From Coq Require Import Reals ZArith String Lra Lia Bool.
From Coquelicot Require Import Coquelicot.
From Coq Require Import List.
From Verif Require Import Base XrFacts Analysis Quadrature Interpolation Nucleus_Model Nuclear_Model Particle_Model CrossSection_Model
  Distribution_Model Atom_Model Crystal_Model Rates_Model Crystal_Proofs Detector_Model DetectorTypes_Model Detector_Proofs.
Import ListNotations.
Local Open Scope R_scope.

(** * Specification vocabulary *)

(** The calls that select a spectrum. *)
Definition base_use (o : base_op) : bool := match o with BMaximum_Gap _ | BThreshold _ _ | BBins _ _ _ => true | _ => false end.
Definition nuclear_use (o : nuclear_op) : bool := match o with NBase o => base_use o | _ => false end.
Definition ionization_use (o : ionization_op) : bool :=
  match o with IBase o => base_use o | ITrigger _ | IAcceptance _ => false | _ => true end.
Definition semiconductor_use (o : semiconductor_op) : bool := match o with CBase o => base_use o | _ => true end.

(** The last element of a list satisfying a test. *)
Definition last_such {A : Type} (p : A -> bool) (l : list A) : option A := find p (rev l).

(** A detector as constructed, with the same material, exposure and settings (efficiencies, resolution, tables), but on which no
    spectrum has been selected yet. *)
Definition plain_base (d : detector) : detector := with_flat (b_flat_efficiency d) (Detector_ctor (b_name d) (b_exposure d) (b_targets d)).
Definition plain_nuclear (n : nuclear) : nuclear := with_n_base (plain_base (n_base n)) n.
Definition plain_ionization (s : ionization) : ionization :=
  mkIonization (plain_base (i_base s)) (i_channel s) (i_atoms s) (i_fractions s) 3 100 false false 0 0 (Fin 0.0) (Fin 0.0)
    (i_trigger s) (i_acceptance s) false false [].
Definition plain_semiconductor (s : semiconductor) : semiconductor := mkSemiconductor (plain_base (c_base s)) (c_crystal s) None None None.

(** The state predicts exactly what a detector would predict on which [u] is the only selecting call ever made (with the same bin
    efficiencies). *)
Definition nuclear_predicts_as (n : nuclear) (u : nuclear_op) : Prop :=
  exists n1, nuclear_step (plain_nuclear n) u = Ok n1 /\
  let n2 := with_n_base (with_efficiencies (b_efficiencies (n_base n)) (n_base n1)) n1 in
  forall X DM D, Nuclear_Total X DM D n = Nuclear_Total X DM D n2 /\ Nuclear_Binned X DM D n = Nuclear_Binned X DM D n2.
Definition ionization_predicts_as (s : ionization) (u : ionization_op) : Prop :=
  exists s1, ionization_step (plain_ionization s) u = Ok s1 /\
  let s2 := with_i_base (with_efficiencies (b_efficiencies (i_base s)) (i_base s1)) s1 in
  forall X DM D, Ionization_Total X DM D s = Ionization_Total X DM D s2 /\ Ionization_Binned X DM D s = Ionization_Binned X DM D s2.
Definition semiconductor_predicts_as (s : semiconductor) (u : semiconductor_op) : Prop :=
  exists s1, semiconductor_step (plain_semiconductor s) u = Ok s1 /\
  let s2 := with_c_base (with_efficiencies (b_efficiencies (c_base s)) (c_base s1)) s1 in
  forall X DM D, Semiconductor_Total X DM D s = Semiconductor_Total X DM D s2 /\
                 Semiconductor_Binned X DM D s = Semiconductor_Binned X DM D s2.

(** * Histories *)
Lemma last_such_app {A : Type} (p : A -> bool) l o : last_such p (l ++ [o]) = if p o then Some o else last_such p l.
Proof. unfold last_such. rewrite rev_app_distr. reflexivity. Qed.

Lemma nuclear_run_app l o : forall n, nuclear_run n (l ++ [o]) = bind (nuclear_run n l) (fun m => nuclear_step m o).
Proof.
  induction l as [|a l IH]; intros n; cbn.
  - destruct (nuclear_step n o); reflexivity.
  - destruct (nuclear_step n a); cbn; auto.
Qed.
Lemma ionization_run_app l o : forall n, ionization_run n (l ++ [o]) = bind (ionization_run n l) (fun m => ionization_step m o).
Proof.
  induction l as [|a l IH]; intros n; cbn.
  - destruct (ionization_step n o); reflexivity.
  - destruct (ionization_step n a); cbn; auto.
Qed.
Lemma semiconductor_run_app l o : forall n, semiconductor_run n (l ++ [o]) = bind (semiconductor_run n l) (fun m => semiconductor_step m o).
Proof.
  induction l as [|a l IH]; intros n; cbn.
  - destruct (semiconductor_step n o); reflexivity.
  - destruct (semiconductor_step n a); cbn; auto.
Qed.

(** * The base part *)

(** What a selecting call of the base class leaves behind. *)
Definition base_shows (u : base_op) (d : detector) : Prop :=
  match u with
  | BThreshold lo hi => b_analysis d = Poisson /\ b_threshold d = lo /\ b_energy_max d = hi /\ b_using_threshold d = true /\ xlt hi lo = false
  | BBins lo hi n => b_analysis d = Binned_Poisson /\ b_bins d = u32 n /\ b_using_bins d = true /\ b_threshold d = lo /\ b_energy_max d = hi /\
      b_bin_energies d = Linear_Space lo hi (Z.to_nat (u32 (u32 n + 1))) /\ xlt hi lo = false
  | BMaximum_Gap l => b_analysis d = Maximum_Gap /\ Use_Maximum_Gap l d = Ok d
  | _ => True
  end.

Lemma base_shows_new u d d' : base_use u = true -> base_step d u = Ok d' -> base_shows u d'.
Proof.
  intros U H. destruct u; try discriminate; cbn [base_step] in H; cbn [base_shows].
  - unfold Use_Maximum_Gap in *. destruct (_ && _)%bool; try discriminate. destruct (sort_doubles l); try discriminate.
    apply Ok_inj in H; subst. cbn. auto.
  - unfold Use_Energy_Threshold in H. destruct (xlt hi lo) eqn:E; try discriminate. apply Ok_inj in H; subst. cbn. auto.
  - unfold Use_Energy_Bins in H. destruct (Initialize_Binned_Poisson (u32 n) d) as [d1| | |] eqn:E; try discriminate. cbn [bind] in H.
    destruct (init_binned_match _ _ _ (u32_range n) E) as [_ E1]. destruct (xlt hi lo) eqn:L; try discriminate. apply Ok_inj in H. subst.
    cbn. auto 10.
Qed.

(** The members the non-selecting calls leave alone. *)
Definition same_selection (d d' : detector) : Prop :=
  b_analysis d' = b_analysis d /\ b_bins d' = b_bins d /\ b_using_bins d' = b_using_bins d /\ b_using_threshold d' = b_using_threshold d /\
  b_threshold d' = b_threshold d /\ b_energy_max d' = b_energy_max d /\ b_bin_energies d' = b_bin_energies d /\ b_gap_data d' = b_gap_data d.
Lemma base_other d o d' : base_use o = false -> base_step d o = Ok d' -> same_selection d d'.
Proof.
  intros U H. destruct o; try discriminate; cbn [base_step] in H.
  - apply Ok_inj in H; subst. repeat split.
  - unfold Set_Observed_Events in H. destruct (b_analysis d) eqn:E; try discriminate. apply Ok_inj in H; subst. repeat split.
  - unfold Set_Expected_Background in H. destruct (b_analysis d) eqn:E; try discriminate. apply Ok_inj in H; subst. repeat split.
  - unfold Set_Observed_Events_Binned in H. destruct (b_analysis d) eqn:E; try discriminate. destruct (_ =? _)%Z; try discriminate.
    apply Ok_inj in H; subst. repeat split.
  - unfold Set_Bin_Efficiencies in H. destruct (b_analysis d) eqn:E; try discriminate. destruct (_ =? _)%Z; try discriminate.
    apply Ok_inj in H; subst. repeat split.
  - unfold Set_Expected_Background_Binned in H. destruct (b_analysis d) eqn:E; try discriminate. destruct (_ =? _)%Z; try discriminate.
    apply Ok_inj in H; subst. repeat split.
Qed.
Lemma gap_shows l d : Use_Maximum_Gap l d = Ok d <->
  exists lo t, (existsb is_nan l && (1 <? Z.of_nat (length l))%Z)%bool = false /\ sort_doubles l = lo :: t /\
    b_analysis d = Maximum_Gap /\ b_gap_data d = lo :: t /\ b_threshold d = lo /\ b_energy_max d = last (lo :: t) lo.
Proof.
  unfold Use_Maximum_Gap. split.
  - destruct (_ && _)%bool eqn:B; try discriminate. destruct (sort_doubles l) as [|lo t]; try discriminate. intros H; apply Ok_inj in H.
    exists lo, t. rewrite <- H at 1 2 3 4. cbn. auto 10.
  - intros (lo & t & B & S & A & G & T & M). rewrite B, S. destruct d; cbn in *. subst. reflexivity.
Qed.
Lemma base_shows_keep u d d' : same_selection d d' -> base_shows u d -> base_shows u d'.
Proof.
  intros (E1 & E2 & E3 & E4 & E5 & E6 & E7 & E8) H. destruct u; cbn [base_shows] in *; auto.
  - destruct H as [H1 H2]. split; [congruence|]. apply gap_shows in H2. destruct H2 as (lo & t & B & S & A & G & T & M).
    apply gap_shows. exists lo, t. rewrite E1, E5, E6, E8. auto 10.
  - rewrite E1, E4, E5, E6; auto.
  - rewrite E1, E2, E3, E5, E6, E7; auto.
Qed.

(** * Nuclear detectors *)
Lemma nuclear_keep n o n' : nuclear_use o = false -> nuclear_step n o = Ok n' -> same_selection (n_base n) (n_base n').
Proof.
  intros U H. destruct o as [o|r|rows dim|files dim]; cbn [nuclear_step] in H.
  - destruct (base_step (n_base n) o) as [d| | |] eqn:E; try discriminate. cbn [bind] in H. apply Ok_inj in H; subst.
    apply (base_other _ o); auto.
  - apply Ok_inj in H; subst. repeat split.
  - apply Ok_inj in H; subst. repeat split.
  - apply Ok_inj in H; subst. unfold Import_Efficiency_Files.
    assert (G : forall l n, n_base (fold_left (fun n rows => Import_Efficiency_File rows dim n) l n) = n_base n).
    { clear. induction l; intros n; cbn; [reflexivity|]. rewrite IHl; reflexivity. }
    rewrite G. repeat split.
Qed.
Lemma nuclear_shows n0 ops : forall n u, nuclear_run n0 ops = Ok n -> last_such nuclear_use ops = Some (NBase u) -> base_shows u (n_base n).
Proof.
  induction ops as [|o ops IH] using rev_ind; intros n u R L; [discriminate|].
  rewrite nuclear_run_app in R. destruct (nuclear_run n0 ops) as [m| | |] eqn:E; try discriminate. cbn [bind] in R.
  rewrite last_such_app in L. destruct (nuclear_use o) eqn:U.
  - injection L as ->. cbn [nuclear_step] in R. destruct (base_step (n_base m) u) as [d| | |] eqn:B; try discriminate. cbn [bind] in R.
    apply Ok_inj in R; subst. cbn. apply (base_shows_new _ (n_base m)); auto.
  - apply (base_shows_keep u (n_base m)); [eapply nuclear_keep; eauto|eauto].
Qed.

Lemma nuclear_same_Total n n2 : n_targets n2 = n_targets n -> n_fractions n2 = n_fractions n -> n_resolution n2 = n_resolution n ->
  n_using_tables n2 = n_using_tables n -> n_efficiencies n2 = n_efficiencies n ->
  b_flat_efficiency (n_base n2) = b_flat_efficiency (n_base n) -> b_threshold (n_base n2) = b_threshold (n_base n) ->
  forall X DM D, Nuclear_dRdE X DM D n2 = Nuclear_dRdE X DM D n.
Proof.
  intros E1 E2 E3 E4 E5 E6 E7 X DM D. unfold Nuclear_dRdE, Nuclear_sum, table_efficiency. rewrite E1, E2, E3, E4, E5, E6, E7. reflexivity.
Qed.

(** What the predictions of the base class read. *)
Lemma base_total_same Integrate Interpolate f d d2 : b_analysis d2 = b_analysis d -> b_analysis d <> Binned_Poisson ->
  b_threshold d2 = b_threshold d -> b_energy_max d2 = b_energy_max d -> b_exposure d2 = b_exposure d ->
  DM_Signals_Total_Base Integrate Interpolate f d = DM_Signals_Total_Base Integrate Interpolate f d2 /\
  DM_Signals_Binned_Base Integrate f d = DM_Signals_Binned_Base Integrate f d2.
Proof.
  intros A NB T M E. unfold DM_Signals_Total_Base, DM_Signals_Binned_Base. rewrite A, T, M, E.
  destruct (b_analysis d); try congruence; split; reflexivity.
Qed.
Lemma base_bins_same Integrate Interpolate f d d2 : b_analysis d2 = Binned_Poisson -> b_analysis d = Binned_Poisson ->
  b_using_bins d2 = b_using_bins d -> b_bins d2 = b_bins d -> b_bin_energies d2 = b_bin_energies d ->
  b_efficiencies d2 = b_efficiencies d -> b_exposure d2 = b_exposure d ->
  DM_Signals_Total_Base Integrate Interpolate f d = DM_Signals_Total_Base Integrate Interpolate f d2 /\
  DM_Signals_Binned_Base Integrate f d = DM_Signals_Binned_Base Integrate f d2.
Proof.
  intros A A' U N E F X. unfold DM_Signals_Total_Base, DM_Signals_Binned_Base, DM_Signals_Energy_Bins.
  rewrite A, A', U, N, E, F, X. split; reflexivity.
Qed.

Lemma nuclear_last_wins n0 ops n u : nuclear_run n0 ops = Ok n -> last_such nuclear_use ops = Some u -> nuclear_predicts_as n u.
Proof.
  intros R L. assert (U : nuclear_use u = true) by (apply find_some in L; tauto).
  destruct u as [u| | |]; try discriminate. assert (S := nuclear_shows _ _ _ _ R L).
  unfold nuclear_predicts_as. cbn [nuclear_step]. destruct u; try discriminate; cbn [base_step base_shows] in *.
  - destruct S as [A G]. apply gap_shows in G. destruct G as (lo & t & B & S & A' & G & T & M).
    unfold Use_Maximum_Gap. rewrite B, S. cbn [bind]. eexists; split; [reflexivity|]. intros X DM D. unfold Nuclear_Total, Nuclear_Binned.
    match goal with |- _ = ?r /\ _ => match r with context [Nuclear_dRdE _ _ _ ?m] =>
      rewrite (nuclear_same_Total n m) by (reflexivity || (symmetry; exact T)) end end.
    apply base_total_same; try reflexivity; try congruence; symmetry; assumption.
  - destruct S as (A & T & M & F & L'). unfold Use_Energy_Threshold. rewrite L'. cbn [bind]. eexists; split; [reflexivity|]. intros X DM D.
    unfold Nuclear_Total, Nuclear_Binned.
    match goal with |- _ = ?r /\ _ => match r with context [Nuclear_dRdE _ _ _ ?m] =>
      rewrite (nuclear_same_Total n m) by (reflexivity || (symmetry; exact T)) end end.
    apply base_total_same; try reflexivity; try congruence; symmetry; assumption.
  - destruct S as (A & N & F & T & M & E & L'). unfold Use_Energy_Bins. cbn [Initialize_Binned_Poisson b_analysis plain_nuclear n_base with_n_base plain_base with_flat Detector_ctor bind].
    rewrite L'. cbn [bind]. eexists; split; [reflexivity|]. intros X DM D. unfold Nuclear_Total, Nuclear_Binned.
    match goal with |- _ = ?r /\ _ => match r with context [Nuclear_dRdE _ _ _ ?m] =>
      rewrite (nuclear_same_Total n m) by (reflexivity || (symmetry; exact T)) end end.
    apply base_bins_same; try reflexivity; try congruence; symmetry; assumption.
Qed.

(** * Ionization detectors *)
Definition ionization_shows (u : ionization_op) (s : ionization) : Prop :=
  match u with
  | IBase u => base_shows u (i_base s)
  | IElectron_Threshold lo hi => b_analysis (i_base s) = Poisson /\ i_using_ne_threshold s = true /\ i_ne_threshold s = lo /\
      i_ne_max s = (if ((0 <? hi) && (lo <? hi))%Z%bool then hi else 100%Z) /\ (i_ne_max s <? lo)%Z = false
  | IElectron_Bins lo n => b_analysis (i_base s) = Binned_Poisson /\ i_using_ne_bins s = true /\ i_ne_threshold s = lo /\
      b_bins (i_base s) = n /\ (u32 (lo + n - 1) <? lo)%Z = false
  | IPE_Threshold mu sigma lo hi => b_analysis (i_base s) = Poisson /\ i_using_ne_threshold s = false /\ b_using_threshold (i_base s) = false /\
      i_using_S2_threshold s = true /\ i_PE_threshold s = lo /\ i_PE_max s = hi /\ i_S2_mu s = mu /\ i_S2_sigma s = sigma /\ (hi <? lo)%Z = false
  | IPE_Bins mu sigma l => b_analysis (i_base s) = Binned_Poisson /\ i_using_S2_bins s = true /\ i_S2_mu s = mu /\ i_S2_sigma s = sigma /\
      i_S2_ranges s = l /\ b_bins (i_base s) = u32 (u64 (Z.of_nat (length l) - 1))
  | _ => True
  end.

Lemma init_binned_ok n d d' : Initialize_Binned_Poisson n d = Ok d' -> exists o g e, d' = with_binned n o g e d.
Proof. unfold Initialize_Binned_Poisson. destruct (b_analysis d); intros H; try discriminate; apply Ok_inj in H; subst; eauto. Qed.

Lemma ionization_shows_new u s s' : ionization_use u = true -> ionization_step s u = Ok s' -> ionization_shows u s'.
Proof.
  intros U H. destruct u as [u|lo hi|lo n|mu sigma lo hi|l|l|mu sigma l]; try discriminate; cbn [ionization_step] in H; cbn [ionization_shows].
  - destruct (base_step (i_base s) u) as [d| | |] eqn:E; try discriminate. cbn [bind] in H. apply Ok_inj in H; subst.
    apply (base_shows_new _ (i_base s)); auto.
  - unfold Use_Electron_Threshold in H. destruct (_ <? _)%Z eqn:E in H; try discriminate. apply Ok_inj in H. subst. cbn in *. auto 10.
  - unfold Use_Electron_Bins in H. destruct (Initialize_Binned_Poisson n (i_base s)) as [d| | |] eqn:I; try discriminate. cbn [bind] in H.
    apply init_binned_ok in I. destruct I as (o1 & g1 & e1 & ->). destruct (_ <? _)%Z eqn:E in H; try discriminate. apply Ok_inj in H. subst. cbn in *. auto 10.
  - unfold Use_PE_Threshold in H. destruct (_ <? _)%Z eqn:E in H; try discriminate. apply Ok_inj in H. subst. cbn in *. auto 15.
  - unfold Use_PE_Bins in H. destruct (Initialize_Binned_Poisson _ (i_base s)) as [d| | |] eqn:I; try discriminate. cbn [bind] in H.
    apply init_binned_ok in I. destruct I as (o1 & g1 & e1 & ->). apply Ok_inj in H. subst. cbn in *. auto 15.
Qed.

Lemma ionization_keep u s o s' : ionization_use o = false -> ionization_step s o = Ok s' -> ionization_shows u s -> ionization_shows u s'.
Proof.
  intros U H S. destruct o as [o|lo hi|lo n|mu sigma lo hi|l|l|mu sigma l]; try discriminate; cbn [ionization_step] in H.
  - destruct (base_step (i_base s) o) as [d| | |] eqn:E; try discriminate. cbn [bind] in H. apply Ok_inj in H; subst.
    assert (K := base_other _ _ _ U E). assert (K' := K). destruct K' as (E1 & E2 & E3 & E4 & E5 & E6 & E7 & E8).
    destruct u as [u|? ?|? ?|? ? ? ?|?|?|? ? ?]; cbn [ionization_shows] in *; cbn; auto.
    + apply (base_shows_keep u (i_base s)); auto.
    + rewrite E1; auto.
    + rewrite E1, E2; auto.
    + rewrite E1, E4; auto.
    + rewrite E1, E2; auto.
  - unfold Import_Trigger_Efficiency_PE in H. destruct (_ && _)%bool in H; try discriminate. apply Ok_inj in H; subst.
    destruct u; cbn in *; auto.
  - unfold Import_Acceptance_Efficiency_PE in H. destruct (_ && _)%bool in H; try discriminate. apply Ok_inj in H; subst.
    destruct u; cbn in *; auto.
Qed.

Lemma ionization_shows_run s0 ops : forall s u, ionization_run s0 ops = Ok s -> last_such ionization_use ops = Some u -> ionization_shows u s.
Proof.
  induction ops as [|o ops IH] using rev_ind; intros s u R L; [discriminate|].
  rewrite ionization_run_app in R. destruct (ionization_run s0 ops) as [m| | |] eqn:E; try discriminate. cbn [bind] in R.
  rewrite last_such_app in L. destruct (ionization_use o) eqn:U.
  - injection L as ->. apply (ionization_shows_new _ m); auto.
  - apply (ionization_keep u m o); eauto.
Qed.

(** Flags that only particular calls set. *)
Definition is_energy_threshold (o : base_op) : bool := match o with BThreshold _ _ => true | _ => false end.
Definition is_energy_bins (o : base_op) : bool := match o with BBins _ _ _ => true | _ => false end.
Definition is_electron_threshold (o : ionization_op) : bool := match o with IElectron_Threshold _ _ => true | _ => false end.
Definition is_PE_threshold (o : ionization_op) : bool := match o with IPE_Threshold _ _ _ _ => true | _ => false end.
Definition is_electron_bins (o : ionization_op) : bool := match o with IElectron_Bins _ _ => true | _ => false end.
Definition on_base (p : base_op -> bool) (o : ionization_op) : bool := match o with IBase o => p o | _ => false end.
Definition never {A : Type} (p : A -> bool) (l : list A) : Prop := forallb (fun o => negb (p o)) l = true.

Lemma never_snoc {A : Type} (p : A -> bool) l o : never p (l ++ [o]) -> never p l /\ p o = false.
Proof.
  unfold never. rewrite forallb_app. cbn. rewrite andb_true_r. intros H. apply andb_prop in H. destruct H as [H1 H2].
  split; auto. now apply negb_true_iff.
Qed.

Lemma base_flags d o d' : base_step d o = Ok d' ->
  (is_energy_threshold o = false -> b_using_threshold d' = b_using_threshold d) /\ (is_energy_bins o = false -> b_using_bins d' = b_using_bins d).
Proof.
  intros H. destruct (base_use o) eqn:U.
  - destruct o; try discriminate; cbn [base_step is_energy_threshold is_energy_bins] in *.
    + unfold Use_Maximum_Gap in H. destruct (_ && _)%bool; try discriminate. destruct (sort_doubles l); try discriminate. apply Ok_inj in H; subst. auto.
    + unfold Use_Energy_Threshold in H. destruct (xlt hi lo) eqn:E; try discriminate. apply Ok_inj in H; subst. cbn. split; [discriminate|auto].
    + unfold Use_Energy_Bins in H. destruct (Initialize_Binned_Poisson (u32 n) d) as [d1| | |] eqn:E; try discriminate. cbn [bind] in H.
      apply init_binned_ok in E. destruct E as (o1 & g1 & e1 & ->). destruct (xlt hi lo) eqn:L; try discriminate. apply Ok_inj in H. subst. cbn. split; [auto|discriminate].
  - destruct (base_other _ _ _ U H) as (E1 & E2 & E3 & E4 & _). auto.
Qed.

Lemma ionization_flags s o s' : ionization_step s o = Ok s' ->
  (on_base is_energy_threshold o = false -> b_using_threshold (i_base s) = false -> b_using_threshold (i_base s') = false) /\
  (on_base is_energy_bins o = false -> b_using_bins (i_base s) = false -> b_using_bins (i_base s') = false) /\
  (is_electron_threshold o = false -> i_using_ne_threshold s = false -> i_using_ne_threshold s' = false) /\
  (is_electron_bins o = false -> i_using_ne_bins s = false -> i_using_ne_bins s' = false) /\
  (is_PE_threshold o = false -> i_using_S2_threshold s = false -> i_using_S2_threshold s' = false).
Proof.
  intros H. destruct o as [o|lo hi|lo n|mu sigma lo hi|l|l|mu sigma l]; cbn [ionization_step] in H;
    cbn [on_base is_electron_threshold is_electron_bins is_PE_threshold].
  - destruct (base_step (i_base s) o) as [d| | |] eqn:E; try discriminate. cbn [bind] in H. apply Ok_inj in H; subst.
    destruct (base_flags _ _ _ E) as [F1 F2]. cbn. repeat split; auto; intros; [rewrite F1|rewrite F2]; auto.
  - unfold Use_Electron_Threshold in H. destruct (_ <? _)%Z eqn:E in H; try discriminate. apply Ok_inj in H. subst. cbn in *. intuition.
  - unfold Use_Electron_Bins in H. destruct (Initialize_Binned_Poisson n (i_base s)) as [d| | |] eqn:I; try discriminate. cbn [bind] in H.
    apply init_binned_ok in I. destruct I as (o1 & g1 & e1 & ->). destruct (_ <? _)%Z eqn:E in H; try discriminate. apply Ok_inj in H. subst. cbn in *. intuition.
  - unfold Use_PE_Threshold in H. destruct (_ <? _)%Z eqn:E in H; try discriminate. apply Ok_inj in H. subst. cbn in *. intuition.
  - unfold Import_Trigger_Efficiency_PE in H. destruct (_ && _)%bool in H; try discriminate. apply Ok_inj in H; subst. cbn. intuition.
  - unfold Import_Acceptance_Efficiency_PE in H. destruct (_ && _)%bool in H; try discriminate. apply Ok_inj in H; subst. cbn. intuition.
  - unfold Use_PE_Bins in H. destruct (Initialize_Binned_Poisson _ (i_base s)) as [d| | |] eqn:I; try discriminate. cbn [bind] in H.
    apply init_binned_ok in I. destruct I as (o1 & g1 & e1 & ->). apply Ok_inj in H. subst. cbn in *. intuition.
Qed.

Lemma ionization_flags_run ch label expo atoms fractions ops : forall s,
  ionization_run (Ionization_start ch label expo atoms fractions) ops = Ok s ->
  (never (on_base is_energy_threshold) ops -> b_using_threshold (i_base s) = false) /\
  (never (on_base is_energy_bins) ops -> b_using_bins (i_base s) = false) /\
  (never is_electron_threshold ops -> i_using_ne_threshold s = false) /\
  (never is_electron_bins ops -> i_using_ne_bins s = false) /\
  (never is_PE_threshold ops -> i_using_S2_threshold s = false).
Proof.
  induction ops as [|o ops IH] using rev_ind; intros s R.
  - apply Ok_inj in R; subst. cbn. auto.
  - rewrite ionization_run_app in R. destruct (ionization_run _ ops) as [m| | |] eqn:E; try discriminate. cbn [bind] in R.
    destruct (IH _ eq_refl) as (I1 & I2 & I3 & I4 & I5). destruct (ionization_flags _ _ _ R) as (F1 & F2 & F3 & F4 & F5).
    repeat split; intros N; apply never_snoc in N; destruct N; auto.
Qed.

(** When the last selecting call is decisive: the calls that take precedence over it must not have been made before. *)
Definition not_overridden (u : ionization_op) (ops : list ionization_op) : Prop :=
  match u with
  | IElectron_Threshold _ _ | IPE_Threshold _ _ _ _ | IBase (BBins _ _ _) => True
  | IBase (BThreshold _ _) => never is_electron_threshold ops
  | IElectron_Bins _ _ => never (on_base is_energy_bins) ops
  | IPE_Bins _ _ _ => never (on_base is_energy_bins) ops /\ never is_electron_bins ops
  | IBase (BMaximum_Gap _) => never is_electron_threshold ops /\ never (on_base is_energy_threshold) ops /\ never is_PE_threshold ops
  | _ => True
  end.

(** What the rates read. *)
Section Dependence.
  Variables (s s2 : ionization).
  Hypothesis E1 : i_channel s2 = i_channel s.
  Hypothesis E2 : i_atoms s2 = i_atoms s.
  Hypothesis E3 : i_fractions s2 = i_fractions s.
  Hypothesis E4 : b_flat_efficiency (i_base s2) = b_flat_efficiency (i_base s).
  Hypothesis E5 : b_exposure (i_base s2) = b_exposure (i_base s).
  Hypothesis E6 : i_trigger s2 = i_trigger s.
  Hypothesis E7 : i_acceptance s2 = i_acceptance s.
  Hypothesis E8 : b_efficiencies (i_base s2) = b_efficiencies (i_base s).
  Variables (X : externals) (DM : DM_interface) (D : Distr_interface).

  Lemma shell_same : Ionization_dRdE_shell X DM D s2 = Ionization_dRdE_shell X DM D s.
  Proof. unfold Ionization_dRdE_shell. rewrite E1, E4. reflexivity. Qed.
  Lemma weighted_same f : weighted s2 f = weighted s f.
  Proof. unfold weighted. rewrite E2, E3. reflexivity. Qed.
  Lemma dRdE_same : Ionization_dRdE X DM D s2 = Ionization_dRdE X DM D s.
  Proof. unfold Ionization_dRdE, weighted, Ionization_dRdE_atom. rewrite shell_same, E2, E3. reflexivity. Qed.
  Lemma R_ne_same : R_ne X DM D s2 = R_ne X DM D s.
  Proof. unfold R_ne, weighted, R_ne_atom, R_ne_shell. rewrite shell_same, E2, E3. reflexivity. Qed.
  Lemma S2_Bin_same : i_S2_mu s2 = i_S2_mu s -> i_S2_sigma s2 = i_S2_sigma s -> R_S2_Bin X DM D s2 = R_S2_Bin X DM D s.
  Proof. intros M S. unfold R_S2_Bin, R_S2, PE_efficiency. rewrite R_ne_same, E6, E7, M, S. reflexivity. Qed.

  Lemma electron_threshold_same : b_analysis (i_base s) = Poisson -> b_analysis (i_base s2) = Poisson ->
    i_using_ne_threshold s = true -> i_using_ne_threshold s2 = true -> i_ne_threshold s2 = i_ne_threshold s -> i_ne_max s2 = i_ne_max s ->
    Ionization_Total X DM D s = Ionization_Total X DM D s2 /\ Ionization_Binned X DM D s = Ionization_Binned X DM D s2.
  Proof.
    intros A1 A2 U1 U2 T M. unfold Ionization_Total, Ionization_Binned. rewrite A1, A2, U1, U2, T, M, R_ne_same, E5. auto.
  Qed.
  Lemma energy_threshold_same : b_analysis (i_base s) <> Binned_Poisson -> b_analysis (i_base s2) = b_analysis (i_base s) ->
    i_using_ne_threshold s = false -> i_using_ne_threshold s2 = false ->
    b_using_threshold (i_base s2) = b_using_threshold (i_base s) -> b_threshold (i_base s2) = b_threshold (i_base s) ->
    (b_using_threshold (i_base s) = true \/ i_using_S2_threshold s = false /\ i_using_S2_threshold s2 = false) ->
    Ionization_Total X DM D s = Ionization_Total X DM D s2 /\ Ionization_Binned X DM D s = Ionization_Binned X DM D s2.
  Proof.
    intros A1 A2 U1 U2 B T S. unfold Ionization_Total, Ionization_Binned, threshold_term. rewrite A2, U1, U2, B, T, shell_same, E5, E2, E3.
    destruct (b_analysis (i_base s)); [|congruence|];
      (destruct (b_using_threshold (i_base s)); [split; reflexivity|]; destruct S as [S | [S1 S2]]; [discriminate|]; rewrite S1, S2; split; reflexivity).
  Qed.
  Lemma PE_threshold_same : b_analysis (i_base s) = Poisson -> b_analysis (i_base s2) = Poisson ->
    i_using_ne_threshold s = false -> i_using_ne_threshold s2 = false -> b_using_threshold (i_base s) = false -> b_using_threshold (i_base s2) = false ->
    i_using_S2_threshold s = true -> i_using_S2_threshold s2 = true -> i_PE_threshold s2 = i_PE_threshold s -> i_PE_max s2 = i_PE_max s ->
    i_S2_mu s2 = i_S2_mu s -> i_S2_sigma s2 = i_S2_sigma s ->
    Ionization_Total X DM D s = Ionization_Total X DM D s2 /\ Ionization_Binned X DM D s = Ionization_Binned X DM D s2.
  Proof.
    intros A1 A2 U1 U2 B1 B2 C1 C2 T M P1 P2. unfold Ionization_Total, Ionization_Binned. rewrite A1, A2, U1, U2, B1, B2, C1, C2, T, M, S2_Bin_same, E5; auto.
  Qed.
  Lemma binned_same : b_analysis (i_base s) = Binned_Poisson -> b_analysis (i_base s2) = Binned_Poisson -> b_bins (i_base s2) = b_bins (i_base s) ->
    b_using_bins (i_base s2) = b_using_bins (i_base s) ->
    (b_using_bins (i_base s) = true /\ b_bin_energies (i_base s2) = b_bin_energies (i_base s) \/
     b_using_bins (i_base s) = false /\ i_using_ne_bins s = true /\ i_using_ne_bins s2 = true /\ i_ne_threshold s2 = i_ne_threshold s \/
     b_using_bins (i_base s) = false /\ i_using_ne_bins s = false /\ i_using_ne_bins s2 = false /\ i_using_S2_bins s = true /\ i_using_S2_bins s2 = true /\
       i_S2_ranges s2 = i_S2_ranges s /\ i_S2_mu s2 = i_S2_mu s /\ i_S2_sigma s2 = i_S2_sigma s) ->
    Ionization_Total X DM D s = Ionization_Total X DM D s2 /\ Ionization_Binned X DM D s = Ionization_Binned X DM D s2.
  Proof.
    intros A1 A2 B U C.
    assert (H : Ionization_Binned X DM D s = Ionization_Binned X DM D s2);
      [|split; auto; unfold Ionization_Total; rewrite A1, A2, H; reflexivity].
    unfold Ionization_Binned. rewrite A1, A2, U. destruct C as [[C1 C2] | [(C1 & C2 & C3 & C4) | (C1 & C2 & C3 & C4 & C5 & C6 & C7 & C8)]]; rewrite C1.
    - unfold DM_Signals_Energy_Bins. rewrite U, C2, E5, E8, B, dRdE_same. reflexivity.
    - rewrite C2, C3. unfold DM_Signals_Electron_Bins. rewrite C2, C3, C4, E5, E8, B, R_ne_same. reflexivity.
    - rewrite C2, C3, C4, C5. unfold DM_Signals_PE_Bins. rewrite C4, C5, C6, E5, E8, B, R_ne_same, S2_Bin_same; auto.
  Qed.
End Dependence.

Lemma ionization_last_wins ch label expo atoms fractions ops s u :
  ionization_run (Ionization_start ch label expo atoms fractions) ops = Ok s -> last_such ionization_use ops = Some u ->
  not_overridden u ops -> ionization_predicts_as s u.
Proof.
  intros R L W. assert (U : ionization_use u = true) by (apply find_some in L; tauto).
  assert (S := ionization_shows_run _ _ _ _ R L). destruct (ionization_flags_run _ _ _ _ _ _ _ R) as (F1 & F2 & F3 & F4 & F5). clear R L.
  unfold ionization_predicts_as.
  destruct u as [u|lo hi|lo n|mu sigma lo hi|l|l|mu sigma l]; try discriminate; cbn [ionization_step not_overridden ionization_shows] in *.
  - destruct u; try discriminate; cbn [base_step base_shows] in *.
    + destruct W as (W1 & W2 & W3). apply F3 in W1. apply F1 in W2. apply F5 in W3. clear F1 F2 F3 F4 F5.
      destruct S as [A G]. apply gap_shows in G. destruct G as (lo & t & B & S & A' & G & T & M).
      unfold Use_Maximum_Gap. rewrite B, S. cbn [bind]. eexists; split; [reflexivity|]. intros X DM D.
      apply energy_threshold_same; try reflexivity; try assumption; try congruence; try (symmetry; assumption). right; split; [assumption|reflexivity].
    + apply F3 in W. clear F1 F2 F3 F4 F5. destruct S as (A & T & M & F & L'). unfold Use_Energy_Threshold. rewrite L'. cbn [bind].
      eexists; split; [reflexivity|]. intros X DM D. apply energy_threshold_same; auto; try reflexivity; cbn; try congruence.
    + clear F1 F2 F3 F4 F5 W. destruct S as (A & N & F & T & M & E & L'). unfold Use_Energy_Bins.
      cbn [Initialize_Binned_Poisson b_analysis plain_ionization i_base plain_base with_flat Detector_ctor bind].
      rewrite L'. cbn [bind]. eexists; split; [reflexivity|]. intros X DM D.
      apply binned_same; try reflexivity; try assumption; try congruence; try (symmetry; assumption). left. split; [assumption|symmetry; exact E].
  - clear F1 F2 F3 F4 F5 W. destruct S as (A & N & T & M & L'). unfold Use_Electron_Threshold.
    cbn [i_ne_max i_ne_threshold with_ne plain_ionization with_i_base with_i_flags]. rewrite <- M, L'.
    eexists; split; [reflexivity|]. intros X DM D. apply electron_threshold_same; try reflexivity; try assumption; try congruence; try (symmetry; assumption).
  - apply F2 in W. clear F1 F2 F3 F4 F5. destruct S as (A & N & T & M & L'). unfold Use_Electron_Bins.
    cbn [Initialize_Binned_Poisson b_analysis plain_ionization i_base plain_base with_flat Detector_ctor bind].
    cbn [i_ne_max i_ne_threshold with_ne plain_ionization with_i_base with_i_flags]. rewrite L'.
    eexists; split; [reflexivity|]. intros X DM D. apply binned_same; try reflexivity; try assumption; try congruence; try (symmetry; assumption). right; left. repeat split; try assumption; try (symmetry; assumption).
  - clear F1 F2 F3 F4 F5 W. destruct S as (A & N & T & M & P1 & P2 & P3 & P4 & L'). unfold Use_PE_Threshold.
    cbn [i_PE_max i_PE_threshold with_PE with_S2 plain_ionization with_i_base with_i_flags]. rewrite L'.
    eexists; split; [reflexivity|]. intros X DM D. apply PE_threshold_same; try reflexivity; try assumption; try congruence; try (symmetry; assumption).
  - destruct W as [W1 W2]. apply F2 in W1. apply F4 in W2. clear F1 F2 F3 F4 F5. destruct S as (A & N & T & M & P1 & P2). unfold Use_PE_Bins.
    cbn [Initialize_Binned_Poisson b_analysis plain_ionization i_base plain_base with_flat Detector_ctor bind].
    eexists; split; [reflexivity|]. intros X DM D. apply binned_same; try reflexivity; try assumption; try congruence; try (symmetry; assumption). right; right.
    repeat split; try assumption; try (symmetry; assumption).
Qed.

(** * Semiconductor detectors *)
Definition semiconductor_shows (u : semiconductor_op) (s : semiconductor) : Prop :=
  match u with
  | CBase u => base_shows u (c_base s)
  | CQ_Threshold Q => b_analysis (c_base s) = Poisson /\ c_using_Q_threshold s = Some true /\ c_Q_threshold s = Some Q
  | CQ_Bins Q n => b_analysis (c_base s) = Binned_Poisson /\ c_using_Q_bins s = Some true /\ c_Q_threshold s = Some Q /\
      b_bins (c_base s) = u32 ((if (n =? 0)%Z then Q_max (c_crystal s) else u32 (n + Q - 1)) - Q + 1)
  end.

Lemma semiconductor_shows_new u s s' : semiconductor_use u = true -> semiconductor_step s u = Ok s' -> semiconductor_shows u s'.
Proof.
  intros U H. destruct u as [u|Q|Q n]; cbn [semiconductor_step] in H; cbn [semiconductor_shows].
  - destruct (base_step (c_base s) u) as [d| | |] eqn:E; try discriminate. cbn [bind] in H. apply Ok_inj in H; subst.
    apply (base_shows_new _ (c_base s)); auto.
  - apply Ok_inj in H. subst. repeat split.
  - unfold Use_Q_Bins in H. destruct (Initialize_Binned_Poisson _ (c_base s)) as [d| | |] eqn:I; try discriminate. cbn [bind] in H.
    apply init_binned_ok in I. destruct I as (o1 & g1 & e1 & ->). apply Ok_inj in H. subst. repeat split.
Qed.
Lemma semiconductor_keep u s o s' : semiconductor_use o = false -> semiconductor_step s o = Ok s' -> semiconductor_shows u s -> semiconductor_shows u s'.
Proof.
  intros U H S. destruct o as [o|Q|Q n]; try discriminate; cbn [semiconductor_step] in H.
  destruct (base_step (c_base s) o) as [d| | |] eqn:E; try discriminate. cbn [bind] in H. apply Ok_inj in H; subst.
  assert (K := base_other _ _ _ U E). assert (K' := K). destruct K' as (E1 & E2 & E3 & E4 & E5 & E6 & E7 & E8).
  destruct u as [u|?|? ?]; cbn [semiconductor_shows] in *; cbn.
  - apply (base_shows_keep u (c_base s)); auto.
  - rewrite E1; auto.
  - rewrite E1, E2; auto.
Qed.
Lemma semiconductor_shows_run s0 ops : forall s u, semiconductor_run s0 ops = Ok s -> last_such semiconductor_use ops = Some u -> semiconductor_shows u s.
Proof.
  induction ops as [|o ops IH] using rev_ind; intros s u R L; [discriminate|].
  rewrite semiconductor_run_app in R. destruct (semiconductor_run s0 ops) as [m| | |] eqn:E; try discriminate. cbn [bind] in R.
  rewrite last_such_app in L. destruct (semiconductor_use o) eqn:U.
  - injection L as ->. apply (semiconductor_shows_new _ m); auto.
  - apply (semiconductor_keep u m o); eauto.
Qed.
Definition on_base_c (p : base_op -> bool) (o : semiconductor_op) : bool := match o with CBase o => p o | _ => false end.
Lemma semiconductor_flags_run s0 ops : b_using_threshold (c_base s0) = false -> b_using_bins (c_base s0) = false -> forall s,
  semiconductor_run s0 ops = Ok s ->
  (never (on_base_c is_energy_threshold) ops -> b_using_threshold (c_base s) = false) /\
  (never (on_base_c is_energy_bins) ops -> b_using_bins (c_base s) = false).
Proof.
  intros Z1 Z2. induction ops as [|o ops IH] using rev_ind; intros s R.
  - apply Ok_inj in R; subst. auto.
  - rewrite semiconductor_run_app in R. destruct (semiconductor_run _ ops) as [m| | |] eqn:E; try discriminate. cbn [bind] in R.
    destruct (IH _ eq_refl) as (I1 & I2).
    assert (F : (on_base_c is_energy_threshold o = false -> b_using_threshold (c_base s) = b_using_threshold (c_base m)) /\
                (on_base_c is_energy_bins o = false -> b_using_bins (c_base s) = b_using_bins (c_base m))).
    { destruct o as [o|Q|Q n]; cbn [semiconductor_step on_base_c] in *.
      - destruct (base_step (c_base m) o) as [d| | |] eqn:B; try discriminate. cbn [bind] in R. apply Ok_inj in R; subst.
        apply (base_flags _ _ _ B).
      - apply Ok_inj in R. subst. auto.
      - unfold Use_Q_Bins in R. destruct (Initialize_Binned_Poisson _ (c_base m)) as [d| | |] eqn:I; try discriminate. cbn [bind] in R.
        apply init_binned_ok in I. destruct I as (o1 & g1 & e1 & ->). apply Ok_inj in R. subst. auto. }
    destruct F as [F1 F2]. split; intros N; apply never_snoc in N; destruct N; [rewrite F1|rewrite F2]; auto.
Qed.

Definition Q_not_overridden (u : semiconductor_op) (ops : list semiconductor_op) : Prop :=
  match u with
  | CBase _ => True
  | CQ_Threshold _ => never (on_base_c is_energy_threshold) ops
  | CQ_Bins _ _ => never (on_base_c is_energy_bins) ops
  end.

Section DependenceC.
  Variables (s s2 : semiconductor).
  Hypothesis E1 : c_crystal s2 = c_crystal s.
  Hypothesis E4 : b_flat_efficiency (c_base s2) = b_flat_efficiency (c_base s).
  Hypothesis E5 : b_exposure (c_base s2) = b_exposure (c_base s).
  Hypothesis E8 : b_efficiencies (c_base s2) = b_efficiencies (c_base s).
  Variables (X : externals) (DM : DM_interface) (D : Distr_interface).
  Let same : Prop := Semiconductor_Total X DM D s = Semiconductor_Total X DM D s2 /\ Semiconductor_Binned X DM D s = Semiconductor_Binned X DM D s2.

  Lemma c_dRdE_same : Semiconductor_dRdE X DM D s2 = Semiconductor_dRdE X DM D s.
  Proof. unfold Semiconductor_dRdE. rewrite E1, E4. reflexivity. Qed.
  Lemma c_energy_same : b_analysis (c_base s2) = b_analysis (c_base s) -> b_analysis (c_base s) <> Binned_Poisson ->
    (b_analysis (c_base s) = Maximum_Gap \/ b_using_threshold (c_base s) = true /\ b_using_threshold (c_base s2) = true) ->
    b_threshold (c_base s2) = b_threshold (c_base s) -> b_energy_max (c_base s2) = b_energy_max (c_base s) -> same.
  Proof.
    intros A NB U T M. unfold same, Semiconductor_Total, Semiconductor_Binned. cbv zeta. rewrite A, T, M, E5, c_dRdE_same.
    destruct U as [U | [U1 U2]]; [rewrite U, !orb_true_r; auto|].
    destruct (b_analysis (c_base s)); try congruence; rewrite U1, U2; auto.
  Qed.
  Lemma c_threshold_same : b_analysis (c_base s) = Poisson -> b_analysis (c_base s2) = Poisson -> b_using_threshold (c_base s) = false ->
    b_using_threshold (c_base s2) = false -> c_using_Q_threshold s2 = c_using_Q_threshold s -> c_Q_threshold s2 = c_Q_threshold s -> same.
  Proof.
    intros A A2 U U2 B Q. unfold same, Semiconductor_Total, Semiconductor_Binned. cbv zeta. rewrite A, A2, U, U2, B, Q, E1, E4, E5. auto.
  Qed.
  Lemma c_binned_same : b_analysis (c_base s) = Binned_Poisson -> b_analysis (c_base s2) = Binned_Poisson ->
    b_using_bins (c_base s2) = b_using_bins (c_base s) -> b_bins (c_base s2) = b_bins (c_base s) ->
    (b_using_bins (c_base s) = true /\ b_bin_energies (c_base s2) = b_bin_energies (c_base s) \/
     b_using_bins (c_base s) = false /\ c_using_Q_bins s2 = c_using_Q_bins s /\ c_Q_threshold s2 = c_Q_threshold s) -> same.
  Proof.
    intros A A2 U B C. assert (H : Semiconductor_Binned X DM D s = Semiconductor_Binned X DM D s2).
    { unfold Semiconductor_Binned. rewrite A, A2, U. destruct C as [[C1 C2] | (C1 & C2 & C3)]; rewrite C1.
      - unfold DM_Signals_Energy_Bins. rewrite U, C1, C2, B, E5, E8, c_dRdE_same. reflexivity.
      - unfold DM_Signals_Q_Bins. rewrite C2, C3, B, E1, E4, E5, E8. reflexivity. }
    split; auto. unfold Semiconductor_Total. cbv zeta. rewrite A, A2, H. reflexivity.
  Qed.
End DependenceC.

Lemma semiconductor_last_wins Import_List label expo crys s0 ops s u : Semiconductor_ctor Import_List label expo crys = Ok s0 ->
  semiconductor_run s0 ops = Ok s -> last_such semiconductor_use ops = Some u -> Q_not_overridden u ops -> semiconductor_predicts_as s u.
Proof.
  intros C R L W. assert (U : semiconductor_use u = true) by (apply find_some in L; tauto).
  assert (S := semiconductor_shows_run _ _ _ _ R L).
  assert (Z : b_using_threshold (c_base s0) = false /\ b_using_bins (c_base s0) = false).
  { unfold Semiconductor_ctor in C. destruct (Crystal_ctor Import_List crys); try discriminate. cbn [bind] in C. apply Ok_inj in C; subst. auto. }
  destruct Z as [Z1 Z2]. destruct (semiconductor_flags_run _ _ Z1 Z2 _ R) as (F1 & F2). clear R L C Z1 Z2.
  unfold semiconductor_predicts_as. destruct u as [u|Q|Q n]; cbn [semiconductor_step Q_not_overridden semiconductor_shows] in *.
  - destruct u; try discriminate; cbn [base_step base_shows] in *.
    + destruct S as [A G]. apply gap_shows in G. destruct G as (lo & t & B & S & A' & G & T & M).
      unfold Use_Maximum_Gap. rewrite B, S. cbn [bind]. eexists; split; [reflexivity|]. intros X DM D.
      apply c_energy_same; try reflexivity; try congruence; try (symmetry; assumption). left; assumption.
    + destruct S as (A & T & M & F & L'). unfold Use_Energy_Threshold. rewrite L'. cbn [bind]. eexists; split; [reflexivity|]. intros X DM D.
      apply c_energy_same; try reflexivity; try congruence; try (symmetry; assumption). right; auto.
    + destruct S as (A & N & F & T & M & E & L'). unfold Use_Energy_Bins.
      cbn [Initialize_Binned_Poisson b_analysis plain_semiconductor c_base plain_base with_flat Detector_ctor bind].
      rewrite L'. cbn [bind]. eexists; split; [reflexivity|]. intros X DM D.
      apply c_binned_same; try reflexivity; try congruence; try (symmetry; assumption). left. split; [assumption|symmetry; exact E].
  - apply F1 in W. destruct S as (A & B & T). eexists; split; [reflexivity|]. intros X DM D.
    apply c_threshold_same; try reflexivity; try congruence; try (symmetry; assumption).
  - apply F2 in W. destruct S as (A & B & T & N). unfold Use_Q_Bins.
    cbn [Initialize_Binned_Poisson b_analysis plain_semiconductor c_base plain_base with_flat Detector_ctor bind].
    eexists; split; [reflexivity|]. intros X DM D.
    apply c_binned_same; try reflexivity; try congruence; try (symmetry; assumption). right. split; [assumption|split; symmetry; assumption].
Qed.
