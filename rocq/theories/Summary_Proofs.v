(** Lemmas about the printed summaries (Summary_Model). *)
From Coq Require Import Reals ZArith String Lra Lia Bool.
From Coquelicot Require Import Coquelicot.
From Coq Require Import List.
From Verif Require Import Base XrFacts Analysis Quadrature Interpolation Nucleus_Model Nuclear_Model Particle_Model Particle_Proofs CrossSection_Model
  Astronomy_Model Distribution_Model Halo_Model Atom_Model Crystal_Model Rates_Model Crystal_Proofs Detector_Model DetectorTypes_Model
  Experiments_Model Configuration_Model Average_Model Detector_Proofs DetectorModes_Proofs DetectorWitness_Proofs DetectorSafety_Proofs Summary_Model.
Import ListNotations.
Local Open Scope R_scope.

(** * Who prints *)

(** Every class but the two electron recoil detectors: another process than number 0 prints nothing. *)
Lemma silent (Round : rounding) (Q : integrals) rank : rank <> 0%Z ->
  (forall d, print_base Round rank d = Ok []) /\ (forall n, print_nuclear Round rank n = Ok []) /\
  (forall spin p, print_particle Round rank spin p = []) /\ (forall h, print_halo Round Q rank h = Ok []) /\
  (forall i, print_isotope Round rank i = []) /\ (forall n, print_nucleus Round rank n = []) /\
  (forall s, print_shell rank s = []) /\ (forall a, print_atom rank a = Ok []) /\
  (forall c, print_configuration Round Q rank c = Ok []).
Proof.
  intros H. apply Z.eqb_neq in H.
  repeat split; intros; unfold print_base, print_nuclear, print_particle, print_halo, print_isotope, print_nucleus, print_shell, print_atom, print_configuration; rewrite H; reflexivity.
Qed.

(** The electron recoil detectors print the same on every process, and it is never nothing. *)
Lemma ionization_loud (Round : rounding) rank s : print_ionization Round rank s = print_ionization Round 0 s /\
  forall out, print_ionization Round rank s = Ok out -> out <> [].
Proof.
  split; [reflexivity|]. intros out H. unfold print_ionization in H.
  destruct (print_base Round 0 (i_base s)) as [b| | |]; cbn [bind] in H; try discriminate.
  destruct (map_res _ (seq 0 (List.length (i_atoms s)))) as [t| | |]; cbn [bind] in H; try discriminate.
  match type of H with (let* _ := ?m in _) = _ => destruct m as [k| | |]; cbn [bind] in H; try discriminate end.
  apply Ok_inj in H. subst out. intros E. apply app_eq_nil in E. destruct E as [_ E]. discriminate E.
Qed.
Lemma semiconductor_loud (Round : rounding) rank s : print_semiconductor Round rank s = print_semiconductor Round 0 s /\
  forall out, print_semiconductor Round rank s = Ok out -> out <> [].
Proof.
  split; [reflexivity|]. intros out H. unfold print_semiconductor in H.
  destruct (print_base Round 0 (c_base s)) as [b| | |]; cbn [bind] in H; try discriminate.
  destruct (read_init (c_using_Q_threshold s)) as [t| | |]; cbn [bind] in H; try discriminate.
  match type of H with (let* _ := ?m in _) = _ => destruct m as [q| | |]; cbn [bind] in H; try discriminate end.
  match type of H with (let* _ := ?m in _) = _ => destruct m as [k| | |]; cbn [bind] in H; try discriminate end.
  apply Ok_inj in H. subst out. intros E. apply app_eq_nil in E. destruct E as [_ E]. discriminate E.
Qed.

(** * What is read *)

Lemma map_res_exists {A B : Type} (f : A -> res B) l : (forall a, In a l -> exists b, f a = Ok b) -> exists bs, map_res f l = Ok bs.
Proof.
  induction l as [|a l IH]; intros H; [exists []; reflexivity|]. destruct (H a (or_introl eq_refl)) as [b Hb].
  destruct IH as [bs Hbs]; [intros; apply H; right; auto|]. exists (b :: bs). cbn [map_res]. rewrite Hb. cbn [bind]. rewrite Hbs. reflexivity.
Qed.
Lemma at_exists {A : Type} (l : list A) i : (i < List.length l)%nat -> exists a, at_ub l i = Ok a.
Proof. intros H. unfold at_ub. destruct (nth_error l i) eqn:E; [eauto|]. apply nth_error_None in E. lia. Qed.
Lemma atZ_exists {A : Type} (l : list A) z : (0 <= z < Z.of_nat (List.length l))%Z -> exists a, at_ubZ l z = Ok a.
Proof.
  intros H. unfold at_ubZ. destruct (z <? 0)%Z eqn:E; [apply Z.ltb_lt in E; lia|].
  destruct (z <? Z.of_nat (List.length l))%Z eqn:E2; [|apply Z.ltb_ge in E2; lia]. apply at_exists. lia.
Qed.

(** One more edge than energy bins, if energy bins are used. *)
Definition edges_match (d : detector) : Prop :=
  b_using_bins d = true -> (0 <= b_bins d < 2 ^ 31)%Z /\ Z.of_nat (List.length (b_bin_energies d)) = (b_bins d + 1)%Z.

Lemma base_step_edges d o d' : edges_match d -> sensible_bins o -> base_step d o = Ok d' -> edges_match d'.
Proof.
  intros H S E. destruct o; cbn [base_step] in E.
  - apply Ok_inj in E. subst d'. exact H.
  - unfold Set_Observed_Events in E. destruct (b_analysis d); try discriminate. apply Ok_inj in E. subst d'. exact H.
  - unfold Set_Expected_Background in E. destruct (b_analysis d); try discriminate. apply Ok_inj in E. subst d'. exact H.
  - unfold Set_Observed_Events_Binned in E. destruct (b_analysis d); try discriminate. destruct (_ =? _)%Z; try discriminate. apply Ok_inj in E. subst d'. exact H.
  - unfold Set_Bin_Efficiencies in E. destruct (b_analysis d); try discriminate. destruct (_ =? _)%Z; try discriminate. apply Ok_inj in E. subst d'. exact H.
  - unfold Set_Expected_Background_Binned in E. destruct (b_analysis d); try discriminate. destruct (_ =? _)%Z; try discriminate. apply Ok_inj in E. subst d'. exact H.
  - unfold Use_Maximum_Gap in E. destruct (_ && _)%bool; try discriminate. destruct (sort_doubles l); try discriminate. apply Ok_inj in E. subst d'. exact H.
  - unfold Use_Energy_Threshold in E. destruct (xlt hi lo); try discriminate. apply Ok_inj in E. subst d'. exact H.
  - unfold Use_Energy_Bins in E. unfold Initialize_Binned_Poisson in E. cbn in S. destruct (b_analysis d); cbn [bind] in E; try discriminate;
      destruct (xlt hi lo); try discriminate; apply Ok_inj in E; subst d'; intros _;
      cbn [b_bins b_bin_energies with_bin_energies with_range with_using with_binned];
      rewrite edges_length by auto; unfold u32; rewrite Z.mod_small by lia; lia.
Qed.

Lemma print_base_defined (Round : rounding) d : tables_match d -> edges_match d -> exists out, print_base Round 0 d = Ok out.
Proof.
  intros T G. unfold print_base. rewrite Z.eqb_refl.
  assert (B : exists bins, print_bins d = Ok bins).
  { unfold print_bins. destruct (b_analysis d) eqn:A; try (eexists; reflexivity). destruct (T A) as (_ & L1 & L2 & L3).
    match goal with |- context [map_res ?f ?l] => destruct (map_res_exists f l) as [rows Hr] end.
    - intros i Hi. apply in_seq in Hi. destruct (at_exists (b_efficiencies d) i ltac:(lia)) as [e He].
      destruct (at_exists (b_bin_observed d) i ltac:(lia)) as [n Hn]. destruct (at_exists (b_bin_background d) i ltac:(lia)) as [b Hb].
      rewrite He, Hn, Hb. eexists; reflexivity.
    - rewrite Hr. eexists; reflexivity. }
  assert (C : exists energies, print_energy_bins Round d = Ok energies).
  { unfold print_energy_bins. destruct (b_using_bins d) eqn:U; [|eexists; reflexivity]. destruct (G U) as [R L].
    apply map_res_exists. intros bin Hb. apply Zrange_In in Hb. unfold u32. rewrite Z.mod_small by lia.
    destruct (atZ_exists (b_bin_energies d) bin ltac:(lia)) as [lo Hlo]. destruct (atZ_exists (b_bin_energies d) (bin + 1) ltac:(lia)) as [hi Hhi].
    rewrite Hlo, Hhi. eexists; reflexivity. }
  destruct B as [bins HB]. destruct C as [en HC]. cbv zeta. rewrite HB. cbn [bind]. rewrite HC. cbn [bind]. eexists; reflexivity.
Qed.

(** ** Nuclear recoil detectors *)
Lemma nuclear_edges ops : forall n n', edges_match (n_base n) -> (forall o, In (NBase o) ops -> sensible_bins o) -> nuclear_run n ops = Ok n' -> edges_match (n_base n').
Proof.
  induction ops as [|o t IH]; intros n n' H S R; cbn [nuclear_run] in R.
  - apply Ok_inj in R. subst n'. exact H.
  - destruct (nuclear_step n o) as [m| | |] eqn:E; cbn [bind] in R; try discriminate.
    apply (IH m n'); auto; [|intros; apply S; right; auto].
    destruct o; cbn [nuclear_step] in E.
    + destruct (base_step (n_base n) o) as [d| | |] eqn:B; cbn [bind] in E; try discriminate. apply Ok_inj in E. subst m. cbn.
      eapply base_step_edges; eauto. apply S. left. reflexivity.
    + apply Ok_inj in E. subst m. exact H.
    + apply Ok_inj in E. subst m. exact H.
    + apply Ok_inj in E. subst m. unfold Import_Efficiency_Files.
      assert (G : forall l n, n_base (fold_left (fun n rows => Import_Efficiency_File rows dim n) l n) = n_base n).
      { clear. induction l; intros n; cbn; [reflexivity|]. rewrite IHl; reflexivity. }
      rewrite G; exact H.
Qed.

Lemma nuclear_printable label expo nuclei abund n0 ops n Round rank : Nuclear_ctor label expo nuclei abund = Ok n0 ->
  (abund = [] \/ (List.length nuclei <= List.length abund)%nat) ->
  nuclear_run n0 ops = Ok n -> Forall nuclear_args ops -> (forall o, In (NBase o) ops -> sensible_bins o) ->
  exists out, print_nuclear Round rank n = Ok out.
Proof.
  intros C L R A S. unfold print_nuclear. destruct (rank =? 0)%Z eqn:Z; [|eexists; reflexivity]. apply Z.eqb_eq in Z. subst rank.
  assert (C' := C). apply nuclear_ctor_base in C'. destruct C' as [B0 T0].
  destruct (print_base_defined Round (n_base n)) as [base HB].
  { eapply nuclear_tables; eauto. }
  { eapply nuclear_edges; [|exact S|exact R]. rewrite B0. intros U. discriminate U. }
  rewrite HB. cbn [bind]. destruct (nuclear_material n0 ops n R) as [TM FM].
  assert (F : (List.length (n_targets n) <= List.length (n_fractions n))%nat).
  { rewrite TM, FM, T0. unfold Nuclear_ctor in C. destruct (relative_fractions nuclei abund) as [f| | |] eqn:RF; cbn [bind] in C; try discriminate.
    apply Ok_inj in C. subst n0. cbn [n_fractions]. eapply ctor_fractions; eauto. }
  match goal with |- context [map_res ?f ?l] => destruct (map_res_exists f l) as [rows Hr] end.
  - intros i Hi. apply in_seq in Hi. destruct (at_exists (n_targets n) i ltac:(lia)) as [t Ht]. destruct (at_exists (n_fractions n) i ltac:(lia)) as [f Hf].
    rewrite Ht, Hf. eexists; reflexivity.
  - rewrite Hr. eexists; reflexivity.
Qed.

(** ** Ionization detectors *)

(** A list of bin edges in photoelectrons is not empty (and shorter than 2^32). *)
Definition sensible_PE (o : ionization_op) : Prop :=
  match o with IPE_Bins _ _ l => l <> [] /\ (Z.of_nat (List.length l) < 2 ^ 32)%Z | _ => True end.
(** At most one kind of bins is ever used on the object. *)
Definition one_binning (ops : list ionization_op) : Prop :=
  (never (on_base is_energy_bins) ops /\ never is_electron_bins ops) \/ (never (on_base is_energy_bins) ops /\ never is_PE_bins ops) \/
  (never is_electron_bins ops /\ never is_PE_bins ops).
Definition S2_match (s : ionization) : Prop :=
  i_using_S2_bins s = true -> (0 <= b_bins (i_base s) < 2 ^ 32 - 1)%Z /\ Z.of_nat (List.length (i_S2_ranges s)) = (b_bins (i_base s) + 1)%Z.

(** Which of the three flags may be set. *)
Lemma step_material s o s' : ionization_step s o = Ok s' -> i_atoms s' = i_atoms s /\ i_fractions s' = i_fractions s.
Proof.
  intros E. destruct o; cbn [ionization_step] in E.
  - destruct (base_step (i_base s) o); cbn [bind] in E; try discriminate. apply Ok_inj in E. subst s'. split; reflexivity.
  - unfold Use_Electron_Threshold in E. cbv zeta in E. destruct (_ <? _)%Z; try discriminate. apply Ok_inj in E. subst s'. split; reflexivity.
  - unfold Use_Electron_Bins in E. destruct (Initialize_Binned_Poisson n (i_base s)); cbn [bind] in E; try discriminate. cbv zeta in E.
    destruct (_ <? _)%Z; try discriminate. apply Ok_inj in E. subst s'. split; reflexivity.
  - unfold Use_PE_Threshold in E. cbv zeta in E. destruct (_ <? _)%Z; try discriminate. apply Ok_inj in E. subst s'. split; reflexivity.
  - unfold Import_Trigger_Efficiency_PE in E. destruct (_ && _)%bool; try discriminate. apply Ok_inj in E. subst s'. split; reflexivity.
  - unfold Import_Acceptance_Efficiency_PE in E. destruct (_ && _)%bool; try discriminate. apply Ok_inj in E. subst s'. split; reflexivity.
  - unfold Use_PE_Bins in E. match type of E with (let* _ := ?m in _) = _ => destruct m; cbn [bind] in E; try discriminate end.
    apply Ok_inj in E. subst s'. split; reflexivity.
Qed.

(** Calls of the base class other than energy bins leave the number of bins, the edges and the flag alone. *)
Lemma base_other_bins d o d' : is_energy_bins o = false -> base_step d o = Ok d' -> b_bins d' = b_bins d /\ b_using_bins d' = b_using_bins d.
Proof.
  intros S E. destruct o; try discriminate S; cbn [base_step] in E.
  - apply Ok_inj in E. subst d'. split; reflexivity.
  - unfold Set_Observed_Events in E. destruct (b_analysis d); try discriminate. apply Ok_inj in E. subst d'. split; reflexivity.
  - unfold Set_Expected_Background in E. destruct (b_analysis d); try discriminate. apply Ok_inj in E. subst d'. split; reflexivity.
  - unfold Set_Observed_Events_Binned in E. destruct (b_analysis d); try discriminate. destruct (_ =? _)%Z; try discriminate. apply Ok_inj in E. subst d'. split; reflexivity.
  - unfold Set_Bin_Efficiencies in E. destruct (b_analysis d); try discriminate. destruct (_ =? _)%Z; try discriminate. apply Ok_inj in E. subst d'. split; reflexivity.
  - unfold Set_Expected_Background_Binned in E. destruct (b_analysis d); try discriminate. destruct (_ =? _)%Z; try discriminate. apply Ok_inj in E. subst d'. split; reflexivity.
  - unfold Use_Maximum_Gap in E. destruct (_ && _)%bool; try discriminate. destruct (sort_doubles l); try discriminate. apply Ok_inj in E. subst d'. split; reflexivity.
  - unfold Use_Energy_Threshold in E. destruct (xlt hi lo); try discriminate. apply Ok_inj in E. subst d'. split; reflexivity.
Qed.

(** The flags: [eb], [nb] and [pb] say whether energy bins, electron bins, photoelectron bins may have been used; at most one of them. *)
Definition bins_inv (eb nb pb : bool) (s : ionization) : Prop :=
  edges_match (i_base s) /\ S2_match s /\ (b_using_bins (i_base s) = true -> eb = true) /\ (i_using_S2_bins s = true -> pb = true).
Definition bins_allowed (eb nb pb : bool) (o : ionization_op) : Prop :=
  (on_base is_energy_bins o = true -> eb = true) /\ (is_electron_bins o = true -> nb = true) /\ (is_PE_bins o = true -> pb = true).

Lemma ionization_step_bins eb nb pb s o s' : (eb && nb || eb && pb || nb && pb)%bool = false -> bins_inv eb nb pb s -> bins_allowed eb nb pb o ->
  (forall b, o = IBase b -> sensible_bins b) -> sensible_PE o -> ionization_step s o = Ok s' -> bins_inv eb nb pb s'.
Proof.
  intros X (E & P & FE & FP) (AE & AN & AP) S SP R. destruct o; cbn [ionization_step] in R.
  - destruct (base_step (i_base s) o) as [d| | |] eqn:B; cbn [bind] in R; try discriminate. apply Ok_inj in R. subst s'.
    destruct (is_energy_bins o) eqn:EB.
    + assert (eb = true) by (apply AE; exact EB). subst eb. destruct pb; [destruct nb; discriminate X|].
      assert (N : i_using_S2_bins s = false) by (destruct (i_using_S2_bins s) eqn:Q; auto; discriminate (FP eq_refl)).
      split; [|split; [|split]].
      * cbn. eapply base_step_edges; eauto.
      * intros U. cbn in U. congruence.
      * auto.
      * intros U. cbn in U. congruence.
    + destruct (base_other_bins _ _ _ EB B) as [BB BU]. split; [|split; [|split]].
      * cbn. eapply base_step_edges; eauto.
      * intros U. cbn in U |- *. rewrite BB. apply P. exact U.
      * cbn. rewrite BU. exact FE.
      * cbn. exact FP.
  - unfold Use_Electron_Threshold in R. cbv zeta in R. destruct (_ <? _)%Z; try discriminate. apply Ok_inj in R. subst s'. (split; [exact E|split; [exact P|split; [exact FE|exact FP]]]).
  - unfold Use_Electron_Bins in R. unfold Initialize_Binned_Poisson in R.
    assert (nb = true) by (apply AN; reflexivity). subst nb. destruct eb; [destruct pb; discriminate X|]. destruct pb; [discriminate X|].
    assert (U1 : b_using_bins (i_base s) = false) by (destruct (b_using_bins (i_base s)) eqn:Q; auto; discriminate (FE eq_refl)).
    assert (U2 : i_using_S2_bins s = false) by (destruct (i_using_S2_bins s) eqn:Q; auto; discriminate (FP eq_refl)).
    destruct (b_analysis (i_base s)); cbn [bind] in R; try discriminate; cbv zeta in R; destruct (_ <? _)%Z; try discriminate; apply Ok_inj in R; subst s';
      (split; [intros U; cbn in U; congruence|]); (split; [intros U; cbn in U; congruence|]); split; intros U; cbn in U; congruence.
  - unfold Use_PE_Threshold in R. cbv zeta in R. destruct (_ <? _)%Z; try discriminate. apply Ok_inj in R. subst s'. (split; [exact E|split; [exact P|split; [exact FE|exact FP]]]).
  - unfold Import_Trigger_Efficiency_PE in R. match type of R with (if ?c then _ else _) = _ => destruct c; try discriminate end. apply Ok_inj in R. subst s'. (split; [exact E|split; [exact P|split; [exact FE|exact FP]]]).
  - unfold Import_Acceptance_Efficiency_PE in R. match type of R with (if ?c then _ else _) = _ => destruct c; try discriminate end. apply Ok_inj in R. subst s'. (split; [exact E|split; [exact P|split; [exact FE|exact FP]]]).
  - unfold Use_PE_Bins in R. unfold Initialize_Binned_Poisson in R. cbn in SP. destruct SP as [NE LL].
    assert (pb = true) by (apply AP; reflexivity). subst pb. destruct eb; [destruct nb; discriminate X|]. destruct nb; [discriminate X|].
    assert (U1 : b_using_bins (i_base s) = false) by (destruct (b_using_bins (i_base s)) eqn:Q; auto; discriminate (FE eq_refl)).
    assert (L0 : (1 <= Z.of_nat (List.length l))%Z) by (destruct l; [congruence|cbn [List.length]; lia]).
    assert (W : u32 (u64 (Z.of_nat (List.length l) - 1)) = (Z.of_nat (List.length l) - 1)%Z).
    { unfold u32, u64. rewrite (Z.mod_small (_ - 1) (2 ^ 64)) by lia. rewrite Z.mod_small by lia. reflexivity. }
    rewrite W in R.
    destruct (b_analysis (i_base s)); cbn [bind] in R; try discriminate; apply Ok_inj in R; subst s';
      (split; [intros U; cbn in U; congruence|]); (split; [|split; [intros U; cbn in U; congruence|auto]]); intros _;
      cbn [i_base i_S2_ranges with_S2_ranges with_S2 with_i_base with_i_flags b_bins with_binned]; lia.
Qed.

Lemma ionization_run_bins eb nb pb ops : (eb && nb || eb && pb || nb && pb)%bool = false -> forall s s', bins_inv eb nb pb s -> Forall (bins_allowed eb nb pb) ops ->
  (forall b, In (IBase b) ops -> sensible_bins b) -> Forall sensible_PE ops -> ionization_run s ops = Ok s' ->
  bins_inv eb nb pb s' /\ i_atoms s' = i_atoms s /\ i_fractions s' = i_fractions s.
Proof.
  intros X. induction ops as [|o t IH]; intros s s' H A S SP R; cbn [ionization_run] in R.
  - apply Ok_inj in R. subst s'. auto.
  - destruct (ionization_step s o) as [m| | |] eqn:E; cbn [bind] in R; try discriminate. inversion A; subst. inversion SP; subst.
    destruct (step_material _ _ _ E) as [M1 M2]. rewrite <- M1, <- M2. apply IH; auto.
    + eapply ionization_step_bins; eauto. intros b Hb. apply S. left. auto.
    + intros b Hb. apply S. right. auto.
Qed.

Lemma never_Forall {A : Type} (p : A -> bool) l : never p l <-> Forall (fun o => p o = false) l.
Proof.
  unfold never. rewrite forallb_forall, Forall_forall. split; intros H o Ho; specialize (H o Ho); [apply negb_true_iff in H|rewrite H]; auto.
Qed.

Lemma print_ionization_defined (Round : rounding) rank s : tables_match (i_base s) -> edges_match (i_base s) -> S2_match s ->
  (List.length (i_atoms s) <= List.length (i_fractions s))%nat -> exists out, print_ionization Round rank s = Ok out.
Proof.
  intros T E P F. unfold print_ionization. destruct (print_base_defined Round (i_base s) T E) as [base HB]. rewrite HB. cbn [bind].
  match goal with |- context [map_res ?f ?l] => destruct (map_res_exists f l) as [rows Hr] end.
  { intros i Hi. apply in_seq in Hi. destruct (at_exists (i_atoms s) i ltac:(lia)) as [t Ht]. destruct (at_exists (i_fractions s) i ltac:(lia)) as [f Hf].
    rewrite Ht, Hf. eexists; reflexivity. }
  rewrite Hr. cbn [bind].
  assert (B : exists b, print_S2_bins s = Ok b).
  { unfold print_S2_bins. destruct (i_using_S2_bins s) eqn:U; [|eexists; reflexivity]. destruct (P U) as [R L].
    apply map_res_exists. intros bin Hb. apply Zrange_In in Hb. unfold u32. rewrite Z.mod_small by lia.
    destruct (atZ_exists (i_S2_ranges s) bin ltac:(lia)) as [lo Hlo]. destruct (atZ_exists (i_S2_ranges s) (bin + 1) ltac:(lia)) as [hi Hhi].
    rewrite Hlo, Hhi. eexists; reflexivity. }
  destruct B as [b HS]. rewrite HS. cbn [bind]. destruct (_ || _)%bool; cbn [bind]; [eexists; reflexivity|].
  destruct (_ || _)%bool; cbn [bind]; eexists; reflexivity.
Qed.

Lemma ionization_printable ch label expo atoms fractions ops s Round rank : (List.length atoms <= List.length fractions)%nat ->
  ionization_run (Ionization_start ch label expo atoms fractions) ops = Ok s -> Forall ionization_args ops ->
  (forall b, In (IBase b) ops -> sensible_bins b) -> Forall sensible_PE ops -> one_binning ops ->
  exists out, print_ionization Round rank s = Ok out.
Proof.
  intros L R A S SP O.
  assert (K : exists eb nb pb, (eb && nb || eb && pb || nb && pb)%bool = false /\ Forall (bins_allowed eb nb pb) ops).
  { destruct O as [[H1 H2]|[[H1 H2]|[H1 H2]]]; apply never_Forall in H1; apply never_Forall in H2; rewrite Forall_forall in H1, H2.
    - exists false, false, true. split; auto. apply Forall_forall. intros o Ho. specialize (H1 o Ho); specialize (H2 o Ho); split; [|split]; intros; congruence.
    - exists false, true, false. split; auto. apply Forall_forall. intros o Ho. specialize (H1 o Ho); specialize (H2 o Ho); split; [|split]; intros; congruence.
    - exists true, false, false. split; auto. apply Forall_forall. intros o Ho. specialize (H1 o Ho); specialize (H2 o Ho); split; [|split]; intros; congruence. }
  destruct K as (eb & nb & pb & X & AL).
  destruct (ionization_run_bins eb nb pb ops X (Ionization_start ch label expo atoms fractions) s) as ((E & P & _ & _) & MA & MF); auto.
  { split; [intros U; discriminate U|]. split; [intros U; discriminate U|]. split; intros U; discriminate U. }
  apply print_ionization_defined; auto.
  - eapply ionization_tables; eauto.
  - rewrite MA, MF. exact L.
Qed.

(** ** Semiconductor detectors *)
Definition is_Q_threshold (o : semiconductor_op) : bool := match o with CQ_Threshold _ => true | _ => false end.

Lemma run_Q_flag ops : forall s0 s, semiconductor_run s0 ops = Ok s ->
  (existsb is_Q_threshold ops = false -> c_using_Q_threshold s = c_using_Q_threshold s0) /\
  (existsb is_Q_threshold ops = true \/ (c_using_Q_threshold s0 = Some true /\ c_Q_threshold s0 <> None) ->
   c_using_Q_threshold s = Some true /\ c_Q_threshold s <> None).
Proof.
  induction ops as [|o t IH]; intros s0 s R; cbn [semiconductor_run] in R.
  - apply Ok_inj in R. subst s. split; [reflexivity|]. intros [H|H]; [discriminate H|exact H].
  - destruct (semiconductor_step s0 o) as [m| | |] eqn:E; cbn [bind] in R; try discriminate. destruct (IH m s R) as [I1 I2]. cbn [existsb].
    destruct o; cbn [semiconductor_step is_Q_threshold orb] in *.
    + destruct (base_step (c_base s0) o) as [d| | |]; cbn [bind] in E; try discriminate. apply Ok_inj in E. subst m. split; [exact I1|]. exact I2.
    + apply Ok_inj in E. subst m. split; [discriminate|]. intros _. apply I2. right. split; [reflexivity|discriminate].
    + unfold Use_Q_Bins in E. cbv zeta in E. match type of E with (let* _ := ?m in _) = _ => destruct m as [d| | |]; cbn [bind] in E; try discriminate end.
      apply Ok_inj in E. subst m. split; [exact I1|]. intros [H|[H1 H2]]; apply I2; [left; exact H|right; split; [exact H1|discriminate]].
Qed.

Definition ok_or_ub {A : Type} (r : res A) : Prop := match r with Ok _ | UB => True | _ => False end.
Lemma ok_or_ub_bind {A B : Type} (m : res A) (k : A -> res B) : ok_or_ub m -> (forall a, ok_or_ub (k a)) -> ok_or_ub (let* x := m in k x).
Proof. destruct m; cbn; auto. Qed.
Lemma ok_or_ub_map {A B : Type} (f : A -> res B) l : (forall a, ok_or_ub (f a)) -> ok_or_ub (map_res f l).
Proof. intros H. induction l; cbn [map_res]; [exact Logic.I|]. apply ok_or_ub_bind; [apply H|]. intros. apply ok_or_ub_bind; [exact IHl|]. intros; exact Logic.I. Qed.
Lemma ok_or_ub_at {A : Type} (l : list A) i : ok_or_ub (at_ub l i).
Proof. unfold at_ub. destruct (nth_error l i); exact Logic.I. Qed.
Lemma ok_or_ub_atZ {A : Type} (l : list A) z : ok_or_ub (at_ubZ l z).
Proof. unfold at_ubZ. destruct (z <? 0)%Z; [exact Logic.I|]. destruct (z <? _)%Z; [apply ok_or_ub_at|exact Logic.I]. Qed.
Lemma print_base_outcome Round rank d : ok_or_ub (print_base Round rank d).
Proof.
  unfold print_base. destruct (rank =? 0)%Z; [|exact Logic.I]. cbv zeta. apply ok_or_ub_bind.
  - unfold print_bins. destruct (b_analysis d); try exact Logic.I. apply ok_or_ub_bind; [|intros; exact Logic.I]. apply ok_or_ub_map. intros i.
    repeat (apply ok_or_ub_bind; [apply ok_or_ub_at|intros]). exact Logic.I.
  - intros. apply ok_or_ub_bind; [|intros; exact Logic.I]. unfold print_energy_bins. destruct (b_using_bins d); [|exact Logic.I]. apply ok_or_ub_map. intros i.
    repeat (apply ok_or_ub_bind; [apply ok_or_ub_atZ|intros]). exact Logic.I.
Qed.

(** Without a call of Use_Q_Threshold the summary of a crystal detector is undefined behaviour, whatever else was called. *)
Lemma semiconductor_unprintable Import_List label expo crys s0 ops s Round rank : Semiconductor_ctor Import_List label expo crys = Ok s0 ->
  semiconductor_run s0 ops = Ok s -> never is_Q_threshold ops -> print_semiconductor Round rank s = UB.
Proof.
  intros C R N. assert (E : existsb is_Q_threshold ops = false).
  { apply never_Forall in N. rewrite Forall_forall in N. clear R. induction ops as [|o t IH]; [reflexivity|]. cbn [existsb].
    rewrite (N o) by (left; reflexivity). apply IH. intros o' Ho. apply N. right. exact Ho. }
  destruct (run_Q_flag ops s0 s R) as [F _]. specialize (F E). unfold Semiconductor_ctor in C. destruct (Crystal_ctor Import_List crys); cbn [bind] in C; try discriminate.
  apply Ok_inj in C. subst s0. cbn [c_using_Q_threshold] in F. unfold print_semiconductor. rewrite F. assert (P := print_base_outcome Round 0 (c_base s)).
  destruct (print_base Round 0 (c_base s)); cbn in P; try contradiction; reflexivity.
Qed.

Lemma semiconductor_edges ops : (never (on_base_c is_energy_bins) ops \/ never is_Q_bins ops) -> (forall o, In (CBase o) ops -> sensible_bins o) ->
  forall s0 s, edges_match (c_base s0) -> (never (on_base_c is_energy_bins) ops -> b_using_bins (c_base s0) = false) ->
  semiconductor_run s0 ops = Ok s -> edges_match (c_base s).
Proof.
  intros O. assert (D : (exists e q, (e && q)%bool = false /\ Forall (fun o => (on_base_c is_energy_bins o = true -> e = true) /\ (is_Q_bins o = true -> q = true)) ops /\
     (e = false -> never (on_base_c is_energy_bins) ops))).
  { destruct O as [O|O].
    - exists false, true. split; [reflexivity|]. split; [|auto]. apply never_Forall in O. eapply Forall_impl; [|exact O]. cbn. intros o Ho. rewrite Ho. auto.
    - exists true, false. split; [reflexivity|]. split; [|discriminate]. apply never_Forall in O. eapply Forall_impl; [|exact O]. cbn. intros o Ho. rewrite Ho. auto. }
  destruct D as (e & q & X & AL & NE). intros SB s0 s M U R.
  assert (U' : b_using_bins (c_base s0) = true -> e = true). { intros H. destruct e; [reflexivity|]. rewrite U in H; [discriminate|]. apply NE. reflexivity. }
  clear U NE O. revert s0 M U' R. induction ops as [|o t IH]; intros s0 M U' R; cbn [semiconductor_run] in R.
  - apply Ok_inj in R. subst s. exact M.
  - destruct (semiconductor_step s0 o) as [m| | |] eqn:E; cbn [bind] in R; try discriminate. inversion AL as [|? ? [A1 A2] AL']; subst.
    assert (G : edges_match (c_base m) /\ (b_using_bins (c_base m) = true -> e = true)).
    { destruct o; cbn [semiconductor_step] in E.
      - destruct (base_step (c_base s0) o) as [d| | |] eqn:B; cbn [bind] in E; try discriminate. apply Ok_inj in E. subst m. cbn [c_base with_c_base]. split.
        + eapply base_step_edges; eauto. apply SB. left. reflexivity.
        + destruct (is_energy_bins o) eqn:EB; [intros _; apply A1; exact EB|]. destruct (base_other_bins _ _ _ EB B) as [_ H]. rewrite H. exact U'.
      - apply Ok_inj in E. subst m. split; [exact M|exact U'].
      - specialize (A2 eq_refl). subst q. rewrite andb_true_r in X. subst e. destruct (b_using_bins (c_base s0)) eqn:UB; [specialize (U' eq_refl); discriminate U'|].
        unfold Use_Q_Bins in E. cbv zeta in E. unfold Initialize_Binned_Poisson in E. destruct (b_analysis (c_base s0)); cbn [bind] in E; try discriminate;
          apply Ok_inj in E; subst m; (split; [intros H|intros H]; cbn in H; congruence). }
    destruct G as [G1 G2]. apply (IH AL' ltac:(intros; apply SB; right; auto) m G1 G2 R).
Qed.

(** With one, it is defined, unless energy bins and pair number bins are mixed. *)
Lemma semiconductor_printable Import_List label expo crys s0 ops s Round rank : Semiconductor_ctor Import_List label expo crys = Ok s0 ->
  semiconductor_run s0 ops = Ok s -> Forall semiconductor_args ops -> (forall o, In (CBase o) ops -> sensible_bins o) ->
  (never (on_base_c is_energy_bins) ops \/ never is_Q_bins ops) -> (exists Q, In (CQ_Threshold Q) ops) ->
  exists out, print_semiconductor Round rank s = Ok out.
Proof.
  intros C R A SB O [Q HQ]. assert (T := semiconductor_tables _ _ _ _ _ _ _ C A R).
  assert (G : edges_match (c_base s)).
  { assert (B0 : b_using_bins (c_base s0) = false). { unfold Semiconductor_ctor in C. destruct (Crystal_ctor Import_List crys); cbn [bind] in C; try discriminate.
      apply Ok_inj in C. subst s0. reflexivity. }
    eapply semiconductor_edges; eauto. intros H. congruence. }
  destruct (print_base_defined Round (c_base s) T G) as [b Hb]. unfold print_semiconductor. rewrite Hb. cbn [bind].
  destruct (run_Q_flag ops s0 s R) as [_ F]. destruct F as [F1 F2]. { left. apply existsb_exists. exists (CQ_Threshold Q). split; [exact HQ|reflexivity]. }
  rewrite F1. cbn [read_init bind]. destruct (c_Q_threshold s); [|congruence]. cbn [read_init bind]. eexists; reflexivity.
Qed.

(** ** The supported experiments and the detectors described in a configuration file *)
Lemma nuclear_run_join l1 : forall l2 n m k, nuclear_run n l1 = Ok m -> nuclear_run m l2 = Ok k -> nuclear_run n (l1 ++ l2) = Ok k.
Proof.
  induction l1 as [|o t IH]; intros l2 n m k A B; cbn [nuclear_run app] in *; [apply Ok_inj in A; subst; exact B|].
  destruct (nuclear_step n o); cbn [bind] in *; try discriminate. eapply IH; eauto.
Qed.
Lemma ionization_run_join l1 : forall l2 n m k, ionization_run n l1 = Ok m -> ionization_run m l2 = Ok k -> ionization_run n (l1 ++ l2) = Ok k.
Proof.
  induction l1 as [|o t IH]; intros l2 n m k A B; cbn [ionization_run app] in *; [apply Ok_inj in A; subst; exact B|].
  destruct (ionization_step n o); cbn [bind] in *; try discriminate. eapply IH; eauto.
Qed.
Lemma nuclei_length zs : forall w l w', Get_Nuclei w zs = Ok (l, w') -> List.length l = List.length zs.
Proof.
  induction zs as [|z t IH]; intros w l w' H; cbn [Get_Nuclei] in H; [apply Ok_inj in H; injection H as <- _; reflexivity|].
  destruct (Get_Nucleus w z) as [[n w1]| | |]; cbn [bind] in H; try discriminate. destruct (Get_Nuclei w1 t) as [[l2 w2]| | |] eqn:E; cbn [bind] in H; try discriminate.
  apply Ok_inj in H. injection H as <- _. cbn. f_equal. eapply IH; eauto.
Qed.

(** What a summary of such a detector is: defined, or, for a crystal, undefined. *)
Definition summary_defined (i : instrument) : Prop := forall Round rank, exists out, print_instrument Round rank i = Ok out.
Definition summary_undefined (i : instrument) : Prop := forall Round rank, print_instrument Round rank i = UB.
Definition crystal_experiments : list string :=
  ["protoSENSEI@surface"; "protoSENSEI@MINOS"; "SENSEI@MINOS"; "CDMS-HVeV_2018"; "CDMS-HVeV_2020"; "DAMIC-M_2023"]%string.

Ltac open_res H := repeat match type of H with
  | (let* _ := ?m in _) = _ => let E := fresh "E" in destruct m as [?| | |] eqn:E; cbn [bind] in H; try discriminate H
  | (match ?p with (_, _) => _ end) = _ => destruct p
  end.
Lemma nuclear_supported (r : res (nuclear * nuclear_world)) i w' : as_nuclear r = Ok (i, w') ->
  (forall n, r = Ok (n, w') -> exists label expo nuclei abund n0 ops, Nuclear_ctor label expo nuclei abund = Ok n0 /\
     (abund = [] \/ (List.length nuclei <= List.length abund)%nat) /\ nuclear_run n0 ops = Ok n /\ Forall nuclear_args ops /\ (forall o, In (NBase o) ops -> sensible_bins o)) ->
  summary_defined i.
Proof.
  intros H K. unfold as_nuclear in H. destruct r as [[n w1]| | |]; cbn [bind] in H; try discriminate. apply Ok_inj in H. injection H as <- <-.
  destruct (K n eq_refl) as (label & expo & nuclei & abund & n0 & ops & C & L & R & A & S). intros Round rank. cbn [print_instrument]. eapply nuclear_printable; eauto.
Qed.
Lemma ionization_supported (r : res (ionization * nuclear_world)) i w' : as_ionization r = Ok (i, w') ->
  (forall s, r = Ok (s, w') -> exists IT w ch label expo atom s0 w1 ops, Ionization_ctor1 IT w ch label expo atom = Ok (s0, w1) /\
     ionization_run s0 ops = Ok s /\ Forall ionization_args ops /\ (forall o, In (IBase o) ops -> sensible_bins o) /\ Forall sensible_PE ops /\ one_binning ops) ->
  summary_defined i.
Proof.
  intros H K. unfold as_ionization in H. destruct r as [[n w1]| | |]; cbn [bind] in H; try discriminate. apply Ok_inj in H. injection H as <- <-.
  destruct (K n eq_refl) as (IT & w & ch & label & expo & atom & s0 & w2 & ops & C & R & A & S & P & O). intros Round rank. cbn [print_instrument].
  unfold Ionization_ctor1 in C. destruct (Atom_by_name IT w atom) as [[a w3]| | |]; cbn [bind] in C; try discriminate. apply Ok_inj in C. injection C as <- <-.
  apply (ionization_printable ch label expo [a] [Fin 1.0] ops n Round rank); auto.
Qed.
Lemma semiconductor_supported (r : res semiconductor) w i w' : as_semiconductor r w = Ok (i, w') ->
  (forall s, r = Ok s -> exists IL label expo crys s0 ops, Semiconductor_ctor IL label expo crys = Ok s0 /\ semiconductor_run s0 ops = Ok s /\ never is_Q_threshold ops) ->
  summary_undefined i.
Proof.
  intros H K. unfold as_semiconductor in H. destruct r as [s| | |]; cbn [bind] in H; try discriminate. apply Ok_inj in H. injection H as <- <-.
  destruct (K s eq_refl) as (IL & label & expo & crys & s0 & ops & C & R & N). intros Round rank. cbn [print_instrument]. eapply semiconductor_unprintable; eauto.
Qed.

Ltac sens := let o := fresh "o" in let H := fresh "H" in intros o H; cbn [In app] in H;
  repeat (destruct H as [H|H]; [try discriminate H; try (injection H as <-; exact Logic.I)|]); contradiction.
Ltac args := repeat (apply Forall_cons || apply Forall_nil); cbn [nuclear_args ionization_args base_args]; try exact Logic.I;
  repeat (apply Forall_cons || apply Forall_nil || split); unfold is_u64, is_u32; lia.
Ltac sPE := repeat (apply Forall_cons || apply Forall_nil); cbn [sensible_PE]; try exact Logic.I; try (split; [discriminate|cbn; lia]).
Ltac nuc H := eapply nuclear_supported; [exact H|]; let n := fresh in let R := fresh "R" in intros n R; cbv zeta in R; open_res R; apply Ok_inj in R; injection R as <- _.
Ltac ioni H := eapply ionization_supported; [exact H|]; let n := fresh in let R := fresh "R" in intros n R; cbv zeta in R; open_res R; apply Ok_inj in R; injection R as <- _.
Ltac semi H := eapply semiconductor_supported; [exact H|]; let n := fresh in let R := fresh "R" in intros n R; cbv zeta in R; open_res R;
  do 6 eexists; split; [eassumption|]; split; [exact R|reflexivity].

Lemma supported_summary F w name i w' : supported_experiment F w name = Ok (i, w') ->
  (In name crystal_experiments -> summary_undefined i) /\ (~ In name crystal_experiments -> summary_defined i).
Proof.
  unfold supported_experiment, supported. intros H. cbn [find fst] in H.
  repeat match type of H with (match (if (?a =? name)%string then _ else _) with _ => _ end) = _ =>
    let E := fresh "E" in destruct (a =? name)%string eqn:E; [apply String.eqb_eq in E; subst name; cbn [snd] in H|clear E] end; [..|discriminate H];
  (split; intros Hin;
   [try (exfalso; cbn [In crystal_experiments] in Hin; repeat destruct Hin as [Hin|Hin]; try discriminate Hin; contradiction)
   |try (exfalso; apply Hin; cbn [In crystal_experiments]; tauto)]).
  - unfold DAMIC_N_2011 in H. nuc H. do 6 eexists. split; [eassumption|]. split; [left; reflexivity|]. split; [eassumption|]. split; [args|sens].
  - unfold XENON1T_N_2017 in H. nuc H. do 6 eexists. split; [eassumption|]. split; [left; reflexivity|]. split; [eassumption|]. split; [args|sens].
  - unfold CRESST_II in H. nuc H. do 6 eexists. split; [eassumption|]. split; [right; erewrite nuclei_length by eassumption; cbn; lia|].
    split; [eapply nuclear_run_join; eassumption|]. split; [args|sens].
  - unfold CRESST_surface in H. nuc H. do 6 eexists. split; [eassumption|]. split; [right; erewrite nuclei_length by eassumption; cbn; lia|].
    split; [eassumption|]. split; [args|sens].
  - unfold CRESST_III in H. nuc H. do 6 eexists. split; [eassumption|]. split; [right; erewrite nuclei_length by eassumption; cbn; lia|].
    split; [eapply nuclear_run_join; [eapply nuclear_run_join; eassumption|eassumption]|]. split; [args|sens].
  - unfold XENON10_S2_ER in H. ioni H. do 9 eexists. split; [eassumption|]. split; [eapply ionization_run_join; eassumption|]. split; [args|]. split; [sens|]. split; [sPE|left; split; reflexivity].
  - unfold XENON100_S2_ER in H. ioni H. do 9 eexists. split; [eassumption|]. split; [eapply ionization_run_join; [eapply ionization_run_join; eassumption|eassumption]|].
    split; [args|]. split; [sens|]. split; [sPE|left; split; reflexivity].
  - unfold XENON1T_S2_ER in H. ioni H. do 9 eexists. split; [eassumption|]. split; [eassumption|]. split; [args|]. split; [sens|]. split; [sPE|right; left; split; reflexivity].
  - unfold DarkSide50_S2_ER in H. ioni H. do 9 eexists. split; [eassumption|]. split; [eassumption|]. split; [args|]. split; [sens|]. split; [sPE|right; left; split; reflexivity].
  - unfold DarkSide50_S2_ER_2023 in H. ioni H. do 9 eexists. split; [eassumption|]. split; [eassumption|]. split; [args|]. split; [sens|]. split; [sPE|right; left; split; reflexivity].
  - unfold PandaX_4T_S2_ER in H. ioni H. do 9 eexists. split; [eassumption|]. split; [eassumption|]. split; [args|]. split; [sens|]. split; [sPE|right; left; split; reflexivity].
  - unfold LZ_S2_ER in H. cbv zeta in H. unfold as_ionization in H. destruct (Ionization_ctor1 _ _ _ _ _ _) as [[? ?]| | |]; discriminate H.
  - unfold XENON10_S2_Migdal in H. ioni H. do 9 eexists. split; [eassumption|]. split; [eapply ionization_run_join; eassumption|]. split; [args|]. split; [sens|]. split; [sPE|left; split; reflexivity].
  - unfold XENON100_S2_Migdal in H. ioni H. do 9 eexists. split; [eassumption|]. split; [eapply ionization_run_join; [eapply ionization_run_join; eassumption|eassumption]|].
    split; [args|]. split; [sens|]. split; [sPE|left; split; reflexivity].
  - unfold XENON1T_S2_Migdal in H. ioni H. do 9 eexists. split; [eassumption|]. split; [eassumption|]. split; [args|]. split; [sens|]. split; [sPE|right; left; split; reflexivity].
  - unfold DarkSide50_S2_Migdal in H. ioni H. do 9 eexists. split; [eassumption|]. split; [eassumption|]. split; [args|]. split; [sens|]. split; [sPE|right; left; split; reflexivity].
  - unfold DarkSide50_S2_Migdal_2023 in H. ioni H. do 9 eexists. split; [eassumption|]. split; [eassumption|]. split; [args|]. split; [sens|]. split; [sPE|right; left; split; reflexivity].
  - unfold PandaX_4T_S2_Migdal in H. ioni H. do 9 eexists. split; [eassumption|]. split; [eassumption|]. split; [args|]. split; [sens|]. split; [sPE|right; left; split; reflexivity].
  - unfold LZ_S2_Migdal in H. cbv zeta in H. unfold as_ionization in H. destruct (Ionization_ctor1 _ _ _ _ _ _) as [[? ?]| | |]; discriminate H.
  - unfold protoSENSEI_at_Surface in H. semi H.
  - unfold protoSENSEI_at_MINOS in H. semi H.
  - unfold SENSEI_at_MINOS in H. semi H.
  - unfold CDMS_HVeV_2018 in H. semi H.
  - unfold CDMS_HVeV_2020 in H. semi H.
  - unfold DAMIC_M_2023 in H. semi H.
Qed.

Lemma print_base_poisson (Round : rounding) d : b_analysis d = Poisson -> b_using_bins d = false -> exists out, print_base Round 0 d = Ok out.
Proof. intros A U. apply print_base_defined; [intros B; congruence|intros B; congruence]. Qed.

Lemma targets_length js : forall w l t w', read_targets w l js = Ok (t, w') -> (List.length (map snd t) <= List.length (map fst t))%nat.
Proof. intros. rewrite !map_length. auto. Qed.

Lemma own_nuclear E cfg w i w' : Construct_DM_Detector_Nuclear E cfg w = Ok (i, w') -> summary_defined i.
Proof.
  intros H. unfold Construct_DM_Detector_Nuclear in H. cbv zeta in H. open_res H. apply Ok_inj in H. injection H as <- <-. intros Round rank. cbn [print_instrument].
  unfold print_nuclear. destruct (rank =? 0)%Z eqn:ZR; [|eexists; reflexivity]. apply Z.eqb_eq in ZR. subst rank.
  match goal with E1 : nuclear_run ?n0 _ = Ok ?n1, E2 : (if _ then _ else _) = Ok ?n2, C : Nuclear_ctor _ _ _ _ = Ok ?n0 |- _ => rename E1 into R1; rename E2 into R2; rename C into C0 end.
  match type of R1 with nuclear_run ?a ?l = Ok ?b => destruct (nuclear_material a l b R1) as [M1 M2]; rename a into n0, b into n1 end.
  match type of R2 with _ = Ok ?b => rename b into n2 end.
  assert (K : n_base n2 = n_base n1 /\ n_targets n2 = n_targets n1 /\ n_fractions n2 = n_fractions n1).
  { destruct (xlt _ _); [|apply Ok_inj in R2; subst; auto]. cbn [nuclear_run nuclear_step bind] in R2. apply Ok_inj in R2. subst n2. auto. }
  destruct K as (K1 & K2 & K3).
  assert (P : b_analysis (n_base n1) = Poisson /\ b_using_bins (n_base n1) = false).
  { assert (B0 : b_using_bins (n_base n0) = false). { apply nuclear_ctor_base in C0. destruct C0 as [B _]. rewrite B. reflexivity. }
    cbn [nuclear_run nuclear_step base_step bind] in R1. unfold Use_Energy_Threshold in R1. destruct (xlt _ _) in R1; cbn [bind] in R1; try discriminate.
    cbn in R1. apply Ok_inj in R1. subst n1. cbn. auto. }
  destruct P as [P1 P2]. destruct (print_base_poisson Round (n_base n2)) as [b Hb]; [congruence|congruence|]. rewrite Hb. cbn [bind].
  assert (F : (List.length (n_targets n2) <= List.length (n_fractions n2))%nat).
  { rewrite K2, K3, M1, M2. assert (C1 := C0). apply nuclear_ctor_base in C1. destruct C1 as [_ T]. rewrite T. unfold Nuclear_ctor in C0.
    match type of C0 with (let* _ := ?m in _) = _ => destruct m as [f| | |] eqn:RF; cbn [bind] in C0; try discriminate end. apply Ok_inj in C0. subst n0. cbn [n_fractions].
    eapply ctor_fractions; [exact RF|]. right. rewrite !map_length. auto. }
  match goal with |- context [map_res ?f ?l] => destruct (map_res_exists f l) as [rows Hr] end.
  - intros j Hj. apply in_seq in Hj. destruct (at_exists (n_targets n2) j ltac:(lia)) as [t Ht]. destruct (at_exists (n_fractions n2) j ltac:(lia)) as [f Hf].
    rewrite Ht, Hf. eexists; reflexivity.
  - rewrite Hr. eexists; reflexivity.
Qed.

Lemma own_ionization E cfg w label i w' : Construct_DM_Detector_Ionization E cfg w label = Ok (i, w') -> summary_defined i.
Proof.
  intros H. unfold Construct_DM_Detector_Ionization in H. cbv zeta in H.
  open_res H. apply Ok_inj in H. injection H as <- <-. intros Round rank. cbn [print_instrument].
  match goal with R : ionization_run ?s0 _ = Ok ?s1, D : deref ?o = Ok ?s0 |- _ => rename R into R1; rename D into D1; rename s1 into s end.
  destruct o as [d|]; [|discriminate D1]. cbn [deref] in D1. apply Ok_inj in D1. subst a5.
  assert (S0 : exists ch lab expo at1, d = Ionization_start ch lab expo [at1] [Fin 1.0]).
  { destruct (_ =? _)%string in E6; [|destruct (_ =? _)%string in E6; [|discriminate E6]]; unfold Ionization_ctor1 in E6;
      destruct (Atom_by_name _ _ _) as [[at1 w1]| | |]; cbn [bind] in E6; try discriminate E6; apply Ok_inj in E6; injection E6 as <- _; do 4 eexists; reflexivity. }
  destruct S0 as (ch & lab & expo & at1 & ->).
  cbn [ionization_run ionization_step base_step bind] in R1. unfold Use_Electron_Threshold in R1. cbv zeta in R1. destruct (_ <? _)%Z in R1; cbn [bind] in R1; try discriminate R1.
  cbn in R1. apply Ok_inj in R1. subst s.
  apply print_ionization_defined; [intros B; discriminate B|intros B; discriminate B|intros B; discriminate B|cbn; lia].
Qed.

Lemma own_crystal E cfg w i w' : Construct_DM_Detector_Crystal E cfg w = Ok (i, w') -> summary_defined i.
Proof.
  intros H. unfold Construct_DM_Detector_Crystal in H. cbv zeta in H. open_res H. apply Ok_inj in H. injection H as <- <-. intros Round rank. cbn [print_instrument].
  match goal with C : Semiconductor_ctor _ _ _ _ = Ok ?a, R : semiconductor_run ?a _ = Ok ?b |- _ => rename C into C0; rename R into R1; rename b into s end.
  unfold Semiconductor_ctor in C0. destruct (Crystal_ctor _ _) as [c| | |]; cbn [bind] in C0; try discriminate C0. apply Ok_inj in C0. subst.
  cbn in R1. apply Ok_inj in R1. subst s.
  unfold print_semiconductor. match goal with |- context [print_base Round 0 ?d] => destruct (print_base_poisson Round d) as [b Hb]; [reflexivity|reflexivity|]; rewrite Hb end.
  cbn. eexists; reflexivity.
Qed.

(** The detector of a configuration file: its summary is undefined behaviour exactly for the six predefined crystal experiments. *)
Lemma configured_summary E cfg w i w' x : Construct_DM_Detector E cfg w = Ok (i, w') -> read_string cfg "DD_experiment" = Ok x ->
  (In x crystal_experiments -> summary_undefined i) /\ (~ In x crystal_experiments -> summary_defined i).
Proof.
  intros H RX. unfold Construct_DM_Detector in H. rewrite RX in H. cbn [bind] in H.
  assert (D : forall y, (x =? y)%string = true -> ~ In y crystal_experiments -> summary_defined i -> (In x crystal_experiments -> summary_undefined i) /\ (~ In x crystal_experiments -> summary_defined i)).
  { intros y Y N S. apply String.eqb_eq in Y. subst y. split; [intros; contradiction|auto]. }
  assert (N : forall y, In y ["Nuclear recoil"; "Electron recoil"; "Migdal"; "Semiconductor"]%string -> ~ In y crystal_experiments).
  { intros y Y. cbn in Y. intros C. cbn in C. repeat destruct Y as [<-|Y]; try contradiction; repeat destruct C as [C|C]; try discriminate C; contradiction. }
  destruct (x =? "Nuclear recoil")%string eqn:E1; [apply (D _ E1); [apply N; cbn; tauto|eapply own_nuclear; eauto]|].
  destruct ((x =? "Electron recoil") || (x =? "Migdal"))%string%bool eqn:E2.
  { apply orb_true_iff in E2. destruct E2 as [E2|E2]; apply (D _ E2); try (apply N; cbn; tauto); eapply own_ionization; eauto. }
  destruct (x =? "Semiconductor")%string eqn:E3; [apply (D _ E3); [apply N; cbn; tauto|eapply own_crystal; eauto]|].
  eapply supported_summary; eauto.
Qed.
