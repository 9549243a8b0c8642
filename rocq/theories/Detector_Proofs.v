(** Lemmas about the configuration of detectors (Detector_Model, DetectorTypes_Model). *)
From Coq Require Import Reals ZArith String Lra Lia Bool.
From Coquelicot Require Import Coquelicot.
From Coq Require Import List.
From Verif Require Import Base XrFacts Analysis Quadrature Interpolation Nucleus_Model Nuclear_Model Particle_Model CrossSection_Model
  Distribution_Model Atom_Model Crystal_Model Rates_Model Crystal_Proofs Detector_Model DetectorTypes_Model.
Import ListNotations.
Local Open Scope R_scope.

(** * Specification vocabulary *)

(** Values of the C++ types unsigned int, int and unsigned long. *)
Definition is_u32 (z : Z) : Prop := (0 <= z < 2 ^ 32)%Z.
Definition is_i32 (z : Z) : Prop := (- 2 ^ 31 <= z < 2 ^ 31)%Z.
Definition is_u64 (z : Z) : Prop := (0 <= z < 2 ^ 64)%Z.

(** Arguments of the right C++ types. *)
Definition base_args (o : base_op) : Prop :=
  match o with
  | BObserved n => is_u64 n
  | BBin_Observed l => Forall is_u64 l
  | BBins _ _ n => is_i32 n
  | _ => True
  end.
Definition nuclear_args (o : nuclear_op) : Prop := match o with NBase o => base_args o | _ => True end.
Definition ionization_args (o : ionization_op) : Prop :=
  match o with
  | IBase o => base_args o
  | IElectron_Threshold lo hi => is_u32 lo /\ is_u32 hi
  | IElectron_Bins lo n => is_u32 lo /\ is_u32 n
  | IPE_Threshold _ _ lo hi => is_u32 lo /\ is_u32 hi
  | IPE_Bins _ _ l => Forall is_u32 l
  | _ => True
  end.
Definition semiconductor_args (o : semiconductor_op) : Prop :=
  match o with
  | CBase o => base_args o
  | CQ_Threshold Q => is_u32 Q
  | CQ_Bins Q n => is_u32 Q /\ is_u32 n
  end.

(** One table entry per bin. *)
Definition tables_match (d : detector) : Prop :=
  b_analysis d = Binned_Poisson ->
  is_u32 (b_bins d) /\ Z.of_nat (length (b_bin_observed d)) = b_bins d /\ Z.of_nat (length (b_bin_background d)) = b_bins d /\
  Z.of_nat (length (b_efficiencies d)) = b_bins d.

(** * C40 *)
Lemma u32_range z : is_u32 (u32 z).
Proof. unfold is_u32, u32. apply Z.mod_pos_bound. lia. Qed.
Lemma u32_id z : is_u32 z -> u32 z = z.
Proof. intros H; unfold u32. apply Z.mod_small; exact H. Qed.

Lemma init_binned_match n d d' : is_u32 n -> Initialize_Binned_Poisson n d = Ok d' ->
  b_analysis d <> Binned_Poisson /\
  d' = with_binned n (repeat 0%Z (Z.to_nat n)) (repeat (Fin 0.0) (Z.to_nat n)) (repeat (Fin 1.0) (Z.to_nat n)) d.
Proof.
  intros Hn. unfold Initialize_Binned_Poisson. destruct (b_analysis d); intros H; try discriminate;
    apply Ok_inj in H; subst; split; auto; discriminate.
Qed.
Lemma with_binned_match n d : is_u32 n ->
  tables_match (with_binned n (repeat 0%Z (Z.to_nat n)) (repeat (Fin 0.0) (Z.to_nat n)) (repeat (Fin 1.0) (Z.to_nat n)) d).
Proof.
  intros Hn _. cbn. rewrite !repeat_length. unfold is_u32 in *. repeat split; lia.
Qed.

(** tables_match depends on five members only. *)
Lemma tables_match_eq d d' : b_analysis d' = b_analysis d -> b_bins d' = b_bins d -> b_bin_observed d' = b_bin_observed d ->
  b_bin_background d' = b_bin_background d -> b_efficiencies d' = b_efficiencies d -> tables_match d -> tables_match d'.
Proof. intros E1 E2 E3 E4 E5 H. unfold tables_match in *. rewrite E1, E2, E3, E4, E5; exact H. Qed.

Lemma base_step_match d o d' : tables_match d -> base_args o -> base_step d o = Ok d' -> tables_match d'.
Proof.
  intros M A H. destruct o; cbn [base_step] in H.
  - apply Ok_inj in H; subst. eapply tables_match_eq; [..|exact M]; reflexivity.
  - unfold Set_Observed_Events in H. destruct (b_analysis d) eqn:E; try discriminate. apply Ok_inj in H; subst.
    intros K. cbn in K. congruence.
  - unfold Set_Expected_Background in H. destruct (b_analysis d) eqn:E; try discriminate. apply Ok_inj in H; subst.
    intros K. cbn in K. congruence.
  - unfold Set_Observed_Events_Binned in H. destruct (b_analysis d) eqn:E; try discriminate.
    destruct (Z.eqb_spec (Z.of_nat (length l)) (b_bins d)); try discriminate. apply Ok_inj in H; subst.
    intros _. destruct (M E) as (H1 & H2 & H3 & H4). cbn. auto.
  - unfold Set_Bin_Efficiencies in H. destruct (b_analysis d) eqn:E; try discriminate.
    destruct (Z.eqb_spec (Z.of_nat (length l)) (b_bins d)); try discriminate. apply Ok_inj in H; subst.
    intros _. destruct (M E) as (H1 & H2 & H3 & H4). cbn. auto.
  - unfold Set_Expected_Background_Binned in H. destruct (b_analysis d) eqn:E; try discriminate.
    destruct (Z.eqb_spec (Z.of_nat (length l)) (b_bins d)); try discriminate. apply Ok_inj in H; subst.
    intros _. destruct (M E) as (H1 & H2 & H3 & H4). cbn. auto.
  - unfold Use_Maximum_Gap in H. destruct (_ && _)%bool; try discriminate. destruct (sort_doubles l); try discriminate.
    apply Ok_inj in H; subst. intros K; discriminate.
  - unfold Use_Energy_Threshold in H. destruct (xlt hi lo); try discriminate. apply Ok_inj in H; subst. intros K; discriminate.
  - unfold Use_Energy_Bins in H. destruct (Initialize_Binned_Poisson (u32 n) d) as [d1| | |] eqn:E; try discriminate. cbn [bind] in H.
    destruct (init_binned_match _ _ _ (u32_range n) E) as [_ E1]. destruct (xlt hi lo); try discriminate. apply Ok_inj in H.
    subst d'. eapply tables_match_eq; [..|rewrite E1; apply with_binned_match, u32_range]; rewrite E1; reflexivity.
Qed.

Lemma start_match label expo t : tables_match (Detector_ctor label expo t).
Proof. intros K; discriminate. Qed.

Lemma nuclear_step_match n o n' : tables_match (n_base n) -> nuclear_args o -> nuclear_step n o = Ok n' -> tables_match (n_base n').
Proof.
  intros M A H. destruct o as [o|r|rows dim|files dim]; cbn [nuclear_step] in H.
  - destruct (base_step (n_base n) o) as [d| | |] eqn:E; try discriminate. cbn [bind] in H. apply Ok_inj in H; subst.
    cbn. eapply base_step_match; eauto.
  - apply Ok_inj in H; subst; exact M.
  - apply Ok_inj in H; subst; exact M.
  - apply Ok_inj in H; subst. unfold Import_Efficiency_Files.
    assert (G : forall l n, n_base (fold_left (fun n rows => Import_Efficiency_File rows dim n) l n) = n_base n).
    { clear. induction l; intros n; cbn; [reflexivity|]. rewrite IHl; reflexivity. }
    rewrite G; exact M.
Qed.
Lemma nuclear_run_match ops : forall n n', tables_match (n_base n) -> Forall nuclear_args ops -> nuclear_run n ops = Ok n' ->
  tables_match (n_base n').
Proof.
  induction ops as [|o ops IH]; intros n n' M A H; cbn in H.
  - apply Ok_inj in H; subst; exact M.
  - inversion A; subst. destruct (nuclear_step n o) as [n1| | |] eqn:E; try discriminate. cbn [bind] in H.
    apply (IH n1); auto. eapply nuclear_step_match; eauto.
Qed.

Lemma ionization_step_match s o s' : tables_match (i_base s) -> ionization_args o -> ionization_step s o = Ok s' -> tables_match (i_base s').
Proof.
  intros M A H. destruct o as [o|lo hi|lo n|mu sigma lo hi|l|l|mu sigma l]; cbn [ionization_step] in H.
  - destruct (base_step (i_base s) o) as [d| | |] eqn:E; try discriminate. cbn [bind] in H. apply Ok_inj in H; subst.
    cbn. eapply base_step_match; eauto.
  - unfold Use_Electron_Threshold in H. destruct (_ <? _)%Z; try discriminate. apply Ok_inj in H; subst. intros K; discriminate.
  - unfold Use_Electron_Bins in H. destruct A as [A1 A2].
    destruct (Initialize_Binned_Poisson n (i_base s)) as [d| | |] eqn:E; try discriminate. cbn [bind] in H.
    destruct (init_binned_match _ _ _ A2 E) as [_ E1]. destruct (_ <? _)%Z; try discriminate. apply Ok_inj in H. subst s'.
    cbn. rewrite E1. apply with_binned_match; auto.
  - unfold Use_PE_Threshold in H. destruct (_ <? _)%Z; try discriminate. apply Ok_inj in H; subst. intros K; discriminate.
  - unfold Import_Trigger_Efficiency_PE in H. destruct (_ && _)%bool; try discriminate. apply Ok_inj in H; subst. exact M.
  - unfold Import_Acceptance_Efficiency_PE in H. destruct (_ && _)%bool; try discriminate. apply Ok_inj in H; subst. exact M.
  - unfold Use_PE_Bins in H.
    destruct (Initialize_Binned_Poisson _ (i_base s)) as [d| | |] eqn:E; try discriminate. cbn [bind] in H.
    destruct (init_binned_match _ _ _ (u32_range _) E) as [_ E1]. apply Ok_inj in H. subst s'. cbn. rewrite E1. apply with_binned_match, u32_range.
Qed.
Lemma ionization_run_match ops : forall n n', tables_match (i_base n) -> Forall ionization_args ops -> ionization_run n ops = Ok n' ->
  tables_match (i_base n').
Proof.
  induction ops as [|o ops IH]; intros n n' M A H; cbn in H.
  - apply Ok_inj in H; subst; exact M.
  - inversion A; subst. destruct (ionization_step n o) as [n1| | |] eqn:E; try discriminate. cbn [bind] in H.
    apply (IH n1); auto. eapply ionization_step_match; eauto.
Qed.

Lemma semiconductor_step_match s o s' : tables_match (c_base s) -> semiconductor_args o -> semiconductor_step s o = Ok s' -> tables_match (c_base s').
Proof.
  intros M A H. destruct o as [o|Q|Q n]; cbn [semiconductor_step] in H.
  - destruct (base_step (c_base s) o) as [d| | |] eqn:E; try discriminate. cbn [bind] in H. apply Ok_inj in H; subst.
    cbn. eapply base_step_match; eauto.
  - apply Ok_inj in H; subst. intros K; discriminate.
  - unfold Use_Q_Bins in H.
    destruct (Initialize_Binned_Poisson _ (c_base s)) as [d| | |] eqn:E; try discriminate. cbn [bind] in H.
    destruct (init_binned_match _ _ _ (u32_range _) E) as [_ E1]. apply Ok_inj in H. subst s'.
    cbn [c_base with_c_base]. eapply tables_match_eq; [..|rewrite E1; apply with_binned_match, u32_range]; rewrite E1; reflexivity.
Qed.
Lemma semiconductor_run_match ops : forall n n', tables_match (c_base n) -> Forall semiconductor_args ops -> semiconductor_run n ops = Ok n' ->
  tables_match (c_base n').
Proof.
  induction ops as [|o ops IH]; intros n n' M A H; cbn in H.
  - apply Ok_inj in H; subst; exact M.
  - inversion A; subst. destruct (semiconductor_step n o) as [n1| | |] eqn:E; try discriminate. cbn [bind] in H.
    apply (IH n1); auto. eapply semiconductor_step_match; eauto.
Qed.

(** Constructed detectors. *)
Lemma nuclear_ctor_base label expo nuclei abund n : Nuclear_ctor label expo nuclei abund = Ok n ->
  n_base n = Detector_ctor label expo "Nuclei" /\ n_targets n = nuclei.
Proof.
  unfold Nuclear_ctor. destruct (relative_fractions nuclei abund); try discriminate. cbn [bind]. intros H; apply Ok_inj in H; subst. auto.
Qed.
Lemma nuclear_tables label expo nuclei abund n0 ops n : Nuclear_ctor label expo nuclei abund = Ok n0 ->
  Forall nuclear_args ops -> nuclear_run n0 ops = Ok n -> tables_match (n_base n).
Proof.
  intros H A R. apply (nuclear_run_match ops n0); auto. destruct (nuclear_ctor_base _ _ _ _ _ H) as [-> _]. apply start_match.
Qed.
Lemma ionization_tables ch label expo atoms fractions ops s : Forall ionization_args ops ->
  ionization_run (Ionization_start ch label expo atoms fractions) ops = Ok s -> tables_match (i_base s).
Proof. intros A R. apply (ionization_run_match ops (Ionization_start ch label expo atoms fractions)); auto. apply start_match. Qed.
Lemma semiconductor_tables Import_List label expo crys s0 ops s : Semiconductor_ctor Import_List label expo crys = Ok s0 ->
  Forall semiconductor_args ops -> semiconductor_run s0 ops = Ok s -> tables_match (c_base s).
Proof.
  intros H A R. apply (semiconductor_run_match ops s0); auto.
  unfold Semiconductor_ctor in H. destruct (Crystal_ctor Import_List crys); try discriminate. cbn [bind] in H. apply Ok_inj in H; subst.
  apply start_match.
Qed.

(** The three per-bin setters: accepted with the right length in binned mode (and then stored), refused otherwise. *)
Definition accepts {A : Type} (d : detector) (l : list A) : Prop := b_analysis d = Binned_Poisson /\ Z.of_nat (length l) = b_bins d.
Lemma setter_spec : forall d,
  (forall l, accepts d l -> exists d', base_step d (BBin_Observed l) = Ok d' /\ b_bin_observed d' = l) /\
  (forall l, accepts d l -> exists d', base_step d (BBin_Background l) = Ok d' /\ b_bin_background d' = l /\ b_background d' = xsum l) /\
  (forall l, accepts d l -> exists d', base_step d (BBin_Efficiencies l) = Ok d' /\ b_efficiencies d' = l) /\
  (forall l, ~ accepts d l -> base_step d (BBin_Observed l) = Exit) /\
  (forall l, ~ accepts d l -> base_step d (BBin_Background l) = Exit) /\
  (forall l, ~ accepts d l -> base_step d (BBin_Efficiencies l) = Exit).
Proof.
  intros d. unfold accepts; cbn [base_step]; unfold Set_Observed_Events_Binned, Set_Expected_Background_Binned, Set_Bin_Efficiencies.
  split; [|split; [|split; [|split; [|split]]]].
  - intros l [-> E]. apply Z.eqb_eq in E. rewrite E. eexists; split; reflexivity.
  - intros l [-> E]. apply Z.eqb_eq in E. rewrite E. eexists; split; [|split]; reflexivity.
  - intros l [-> E]. apply Z.eqb_eq in E. rewrite E. eexists; split; reflexivity.
  - intros l N. destruct (b_analysis d); auto. destruct (Z.eqb_spec (Z.of_nat (length l)) (b_bins d)); auto. exfalso; auto.
  - intros l N. destruct (b_analysis d); auto. destruct (Z.eqb_spec (Z.of_nat (length l)) (b_bins d)); auto. exfalso; auto.
  - intros l N. destruct (b_analysis d); auto. destruct (Z.eqb_spec (Z.of_nat (length l)) (b_bins d)); auto. exfalso; auto.
Qed.

(** * C41 *)
Definition Zsum (l : list Z) : Z := fold_right Z.add 0%Z l.

Lemma s32_mod z : (s32 z mod 2 ^ 32 = z mod 2 ^ 32)%Z.
Proof.
  unfold s32. rewrite Zminus_mod, Zmod_mod, <- Zminus_mod. f_equal. lia.
Qed.
Lemma s32_ext a b : (a mod 2 ^ 32 = b mod 2 ^ 32)%Z -> s32 a = s32 b.
Proof. intros H. unfold s32. rewrite Zplus_mod, H, <- Zplus_mod. reflexivity. Qed.
Lemma s32_small z : is_i32 z -> s32 z = z.
Proof. unfold is_i32, s32. intros H. rewrite Z.mod_small; lia. Qed.
Lemma mod_mod_64_32 z : ((z mod 2 ^ 64) mod 2 ^ 32 = z mod 2 ^ 32)%Z.
Proof.
  rewrite (Z.div_mod z (2 ^ 64)) at 2 by lia. replace (2 ^ 64)%Z with (2 ^ 32 * 2 ^ 32)%Z at 2 by reflexivity.
  rewrite <- Z.mul_assoc, (Z.mul_comm (2 ^ 32) (2 ^ 32 * _)), Z.add_comm, Z.mod_add by lia. reflexivity.
Qed.

Lemma accumulate_acc l : forall acc, fold_left (fun acc n => s32 (u64 (u64 acc + n))) l (s32 acc) = s32 (acc + Zsum l).
Proof.
  induction l as [|n l IH]; intros acc; cbn [fold_left Zsum fold_right].
  - rewrite Z.add_0_r; reflexivity.
  - replace (s32 (u64 (u64 (s32 acc) + n))) with (s32 (acc + n)).
    + rewrite IH. f_equal. unfold Zsum. lia.
    + apply s32_ext. unfold u64. rewrite mod_mod_64_32, (Zplus_mod (_ mod _)), mod_mod_64_32, s32_mod, <- Zplus_mod; reflexivity.
Qed.
Lemma accumulate_eq l : accumulate_int l = s32 (Zsum l).
Proof. unfold accumulate_int. change 0%Z with (s32 0). rewrite accumulate_acc, Z.add_0_l. reflexivity. Qed.

Lemma Zsum_nonneg l : Forall is_u64 l -> (0 <= Zsum l)%Z.
Proof. induction 1; cbn; [lia|]. unfold is_u64 in *. unfold Zsum in IHForall. lia. Qed.

Lemma observed_total l d d' : Forall is_u64 l -> (Zsum l < 2 ^ 31)%Z -> base_step d (BBin_Observed l) = Ok d' -> b_observed d' = Zsum l.
Proof.
  intros A B H. cbn [base_step] in H. unfold Set_Observed_Events_Binned in H. destruct (b_analysis d); try discriminate.
  destruct (_ =? _)%Z; try discriminate. apply Ok_inj in H; subst. cbn [b_observed with_bin_observed].
  assert (h := Zsum_nonneg l A). rewrite accumulate_eq, s32_small by (unfold is_i32; lia).
  unfold u64. apply Z.mod_small. lia.
Qed.
Lemma observed_total_any l d d' : base_step d (BBin_Observed l) = Ok d' -> b_observed d' = u64 (s32 (Zsum l)).
Proof.
  intros H. cbn [base_step] in H. unfold Set_Observed_Events_Binned in H. destruct (b_analysis d); try discriminate.
  destruct (_ =? _)%Z; try discriminate. apply Ok_inj in H; subst. cbn [b_observed with_bin_observed]. rewrite accumulate_eq. reflexivity.
Qed.

(** A binned detector made by public calls. *)
Definition binned_example (n : Z) : res detector := base_step (Detector_ctor "x" (Fin 1) "Nuclei") (BBins (Fin 1) (Fin 2) n).
Lemma binned_example_ok n : exists d, binned_example n = Ok d /\ b_analysis d = Binned_Poisson /\ b_bins d = u32 n.
Proof.
  unfold binned_example; cbn [base_step]. unfold Use_Energy_Bins, Initialize_Binned_Poisson; cbn [b_analysis Detector_ctor bind].
  rewrite xlt_false by lra. eexists; split; [reflexivity|]. split; reflexivity.
Qed.
Lemma observed_total_wrong : exists d d' l, binned_example 2 = Ok d /\ Forall is_u64 l /\ base_step d (BBin_Observed l) = Ok d' /\
  Zsum l = (2 ^ 31)%Z /\ b_observed d' = (2 ^ 64 - 2 ^ 31)%Z.
Proof.
  destruct (binned_example_ok 2) as (d & E & A & B).
  destruct (proj1 (setter_spec d) [(2 ^ 31 - 1)%Z; 1%Z]) as (d' & E' & _).
  { split; [exact A|rewrite B; reflexivity]. }
  exists d, d', [(2 ^ 31 - 1)%Z; 1%Z]. split; [exact E|]. split; [repeat constructor; unfold is_u64; cbn; try lia|].
  split; [exact E'|]. split; [reflexivity|]. rewrite (observed_total_any _ _ _ E'). reflexivity.
Qed.
