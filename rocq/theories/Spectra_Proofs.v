(** Recoil spectra of composite targets, efficiency curves and energy resolution (C89-C91). *)
From Coq Require Import Reals ZArith String Lia Lra Bool Permutation.
From Coquelicot Require Import Coquelicot.
From Coq Require Import List.
From Verif Require Import Base XrFacts Quadrature Nucleus_Model Nuclear_Model Particle_Model CrossSection_Model Distribution_Model Atom_Model Crystal_Model Rates_Model
  Kinematics_Proofs Detector_Model DetectorTypes_Model DetectorBins_Proofs Electrons_Proofs DetectorWitness_Proofs Fractions_Proofs.
Import ListNotations.
Local Open Scope R_scope.

(** * Isotopes *)
Lemma nucleus_rate Integrate E DM D n (ab rate : Isotope -> R) :
  (forall t, In t (nisotopes n) -> iabundance t = Fin (ab t) /\ dRdER_Isotope Integrate E DM D t = Ok (Fin (rate t))) ->
  dRdER_Nucleus Integrate E DM D n = Ok (Fin (Rsum (map (fun t => ab t * rate t) (nisotopes n)))).
Proof.
  intros H. unfold dRdER_Nucleus. apply sum_res_values. intros t It. destruct (H t It) as [A B]. rewrite B. cbn [bind]. rewrite A, xmul_fin. reflexivity.
Qed.
Lemma Rsum_permutation l l' : Permutation l l' -> Rsum l = Rsum l'.
Proof. unfold Rsum. induction 1; cbn [fold_right]; lra. Qed.
Lemma nucleus_order Integrate E DM D n n' (ab rate : Isotope -> R) : Permutation (nisotopes n) (nisotopes n') ->
  (forall t, In t (nisotopes n) -> iabundance t = Fin (ab t) /\ dRdER_Isotope Integrate E DM D t = Ok (Fin (rate t))) ->
  dRdER_Nucleus Integrate E DM D n' = dRdER_Nucleus Integrate E DM D n.
Proof.
  intros P H. rewrite (nucleus_rate _ _ _ _ n ab rate H). rewrite (nucleus_rate _ _ _ _ n' ab rate).
  - do 2 f_equal. apply Rsum_permutation. apply Permutation_map. apply Permutation_sym. exact P.
  - intros t It. apply H. apply (Permutation_in t (Permutation_sym P) It).
Qed.

(** * Imported efficiency curves *)
(** The curves a detector holds after a history of calls: a single file is added, a list of files replaces what was there; energies are
    in the unit given with the file. *)
Definition in_unit (dim : xr) (rows : list (xr * xr)) : list (xr * xr) := map (fun p => (xmul (fst p) dim, snd p)) rows.
Definition curves_step (l : list (list (xr * xr))) (o : nuclear_op) : list (list (xr * xr)) :=
  match o with
  | NEfficiency rows dim => l ++ [in_unit dim rows]
  | NEfficiencies files dim => map (in_unit dim) files
  | _ => l
  end.
Definition curves (ops : list nuclear_op) : list (list (xr * xr)) := fold_left curves_step ops [].
(** The resolution and the flat efficiency after a history of calls: the last one set. *)
Definition resolution_after (ops : list nuclear_op) : xr := fold_left (fun r o => match o with NResolution s => s | _ => r end) ops (Fin 0).
Definition flat_after (ops : list nuclear_op) : xr := fold_left (fun r o => match o with NBase (BFlat x) => x | _ => r end) ops (Fin 1).

Lemma import_files files dim : forall n, n_targets (fold_left (fun n rows => Import_Efficiency_File rows dim n) files n) = n_targets n /\
  n_fractions (fold_left (fun n rows => Import_Efficiency_File rows dim n) files n) = n_fractions n /\
  n_base (fold_left (fun n rows => Import_Efficiency_File rows dim n) files n) = n_base n /\
  n_resolution (fold_left (fun n rows => Import_Efficiency_File rows dim n) files n) = n_resolution n /\
  n_efficiencies (fold_left (fun n rows => Import_Efficiency_File rows dim n) files n) = n_efficiencies n ++ map (in_unit dim) files /\
  n_using_tables (fold_left (fun n rows => Import_Efficiency_File rows dim n) files n) = (n_using_tables n || negb (List.length files =? 0)%nat)%bool.
Proof.
  induction files as [|r fs IH]; intros n; cbn [fold_left map List.length]; [rewrite app_nil_r, orb_false_r; auto 7|].
  destruct (IH (Import_Efficiency_File r dim n)) as (A & B & C & D & E & F). rewrite A, B, C, D, E, F. cbn. repeat (split; [reflexivity|]). split; [rewrite <- app_assoc; reflexivity|]. rewrite orb_true_r. reflexivity.
Qed.
(** What the base class calls leave alone. *)
Lemma base_flat d o d' : base_step d o = Ok d' -> b_flat_efficiency d' = match o with BFlat x => x | _ => b_flat_efficiency d end.
Proof.
  destruct o; cbn [base_step]; intros H.
  - injection H as <-. reflexivity.
  - unfold Set_Observed_Events in H. destruct (b_analysis d); try discriminate. injection H as <-. reflexivity.
  - unfold Set_Expected_Background in H. destruct (b_analysis d); try discriminate. injection H as <-. reflexivity.
  - unfold Set_Observed_Events_Binned in H. destruct (b_analysis d); try discriminate. destruct (_ =? _)%Z; try discriminate. injection H as <-. reflexivity.
  - unfold Set_Bin_Efficiencies in H. destruct (b_analysis d); try discriminate. destruct (_ =? _)%Z; try discriminate. injection H as <-. reflexivity.
  - unfold Set_Expected_Background_Binned in H. destruct (b_analysis d); try discriminate. destruct (_ =? _)%Z; try discriminate. injection H as <-. reflexivity.
  - unfold Use_Maximum_Gap in H. destruct (_ && _)%bool; try discriminate. destruct (sort_doubles l); try discriminate. injection H as <-. reflexivity.
  - unfold Use_Energy_Threshold in H. destruct (xlt _ _); try discriminate. injection H as <-. reflexivity.
  - unfold Use_Energy_Bins, Initialize_Binned_Poisson in H. destruct (b_analysis d); cbn [bind] in H; try discriminate; (destruct (xlt _ _); [discriminate|]; apply Ok_inj in H; subst d'; reflexivity).
Qed.
Lemma run_keeps ops : forall n0 n, nuclear_run n0 ops = Ok n -> n_targets n = n_targets n0 /\ n_fractions n = n_fractions n0 /\
  n_efficiencies n = fold_left curves_step ops (n_efficiencies n0) /\
  n_resolution n = fold_left (fun r o => match o with NResolution s => s | _ => r end) ops (n_resolution n0) /\
  b_flat_efficiency (n_base n) = fold_left (fun r o => match o with NBase (BFlat x) => x | _ => r end) ops (b_flat_efficiency (n_base n0)) /\
  ((n_efficiencies n0 <> [] -> n_using_tables n0 = true) -> n_efficiencies n <> [] -> n_using_tables n = true).
Proof.
  induction ops as [|o ops IH]; intros n0 n H.
  - cbn [nuclear_run] in H. apply Ok_inj in H. subst. cbn. auto 7.
  - cbn [nuclear_run] in H. destruct (nuclear_step n0 o) as [n1| | |] eqn:E; cbn [bind] in H; try discriminate.
    destruct (IH n1 n H) as (A & B & C & D & F & G). cbn [fold_left]. destruct o as [o|r|rows dim|files dim]; cbn [nuclear_step] in E.
    + destruct (base_step (n_base n0) o) as [d| | |] eqn:Eb; cbn [bind] in E; try discriminate. apply Ok_inj in E. subst n1.
      split; [exact A|]. split; [exact B|]. split; [exact C|]. split; [exact D|]. split; [rewrite F; cbn; rewrite (base_flat _ _ _ Eb); reflexivity|]. exact G.
    + apply Ok_inj in E. subst n1. split; [exact A|]. split; [exact B|]. split; [exact C|]. split; [exact D|]. split; [exact F|]. exact G.
    + apply Ok_inj in E. subst n1. split; [exact A|]. split; [exact B|]. split; [exact C|]. split; [exact D|]. split; [exact F|]. intros _. apply G. reflexivity.
    + apply Ok_inj in E. subst n1. unfold Import_Efficiency_Files in *. destruct (import_files files dim (with_tables (n_using_tables n0) [] n0)) as (a & b & c & d & e & f).
      rewrite a in A. rewrite b in B. rewrite e in C. rewrite d in D. rewrite c in F. rewrite e, f in G.
      split; [exact A|]. split; [exact B|]. split; [exact C|]. split; [exact D|]. split; [exact F|].
      intros K. apply G. cbn. intros N. destruct files; [cbn in N; congruence|]. cbn. apply orb_true_r.
Qed.

(** The efficiency of target i out of k at the energy E: with one curve, that curve for all targets; with as many curves as targets, the
    curve of the target; otherwise 1. *)
Definition efficiency_of (X : externals) (l : list (list (xr * xr))) (k i : nat) (E e : R) : Prop :=
  match l with
  | [t] => x_Interpolation X t (Fin E) = Ok (Fin e)
  | _ => if (List.length l =? k)%nat then exists t, nth_error l i = Some t /\ x_Interpolation X t (Fin E) = Ok (Fin e) else e = 1
  end.
Lemma table_efficiency_value X n i E e : (n_efficiencies n <> [] -> n_using_tables n = true) -> (i < List.length (n_targets n))%nat ->
  efficiency_of X (n_efficiencies n) (List.length (n_targets n)) i E e -> table_efficiency X n i (Fin E) = Ok (Fin e).
Proof.
  intros U L H. unfold table_efficiency. destruct (n_using_tables n) eqn:UT.
  - unfold efficiency_of in H. destruct (n_efficiencies n) as [|t [|t' l]] eqn:N.
    + cbn [List.length Nat.eqb] in H |- *. destruct (List.length (n_targets n)); [lia|]. cbn [Nat.eqb] in H |- *. subst. do 2 f_equal. lra.
    + cbn [List.length Nat.eqb at_ub nth_error bind]. exact H.
    + change (List.length (t :: t' :: l) =? 1)%nat with false. cbv iota. destruct (List.length (t :: t' :: l) =? List.length (n_targets n))%nat.
      * destruct H as (u & Hu & He). unfold at_ub. rewrite Hu. cbn [bind]. exact He.
      * subst. do 2 f_equal. lra.
  - assert (N : n_efficiencies n = []) by (destruct (n_efficiencies n); auto; assert (false = true) by (apply U; discriminate); discriminate).
    unfold efficiency_of in H. rewrite N in H. cbn [List.length] in H. destruct (List.length (n_targets n)); [lia|]. cbn [Nat.eqb] in H. subst. do 2 f_equal. lra.
Qed.

(** * The spectrum of a detector *)
(** The weighted sum over targets: efficiency times flat efficiency times mass fraction times spectrum of the target. *)
Definition target_sum (fl : R) (eff w rate : nat -> R) (k : nat) : R := Rsum (map (fun i => eff i * fl * w i * rate i) (seq 0 k)).
Lemma nuclear_sum_value X DM D n E ER fl (eff w rate : nat -> R) : (n_efficiencies n <> [] -> n_using_tables n = true) ->
  b_flat_efficiency (n_base n) = Fin fl ->
  (forall i t, nth_error (n_targets n) i = Some t -> efficiency_of X (n_efficiencies n) (List.length (n_targets n)) i E (eff i) /\
     nth_error (n_fractions n) i = Some (Fin (w i)) /\ dRdER_Nucleus (x_Integrate X) (Fin ER) DM D t = Ok (Fin (rate i))) ->
  Nuclear_sum X DM D n (Fin E) (Fin ER) = Ok (Fin (target_sum fl eff w rate (List.length (n_targets n)))).
Proof.
  intros U F H. unfold Nuclear_sum. apply sum_res_values. intros i Hi. apply in_seq in Hi.
  destruct (nth_error (n_targets n) i) as [t|] eqn:N; [|apply nth_error_None in N; lia].
  destruct (H i t N) as (A & B & C). unfold at_ub at 1. rewrite N. cbn [bind]. rewrite (table_efficiency_value X n i E (eff i)) by (auto; lia). cbn [bind].
  unfold at_ub. rewrite B. cbn [bind]. rewrite C. cbn [bind]. rewrite F, !xmul_fin. reflexivity.
Qed.

Definition history (label : string) (expo : xr) (nuclei : list Nucleus) (abund : list xr) (ops : list nuclear_op) (n : nuclear) : Prop :=
  exists n0, Nuclear_ctor label expo nuclei abund = Ok n0 /\ nuclear_run n0 ops = Ok n.
Lemma history_facts label expo nuclei abund ops n : history label expo nuclei abund ops n ->
  n_targets n = nuclei /\ relative_fractions nuclei abund = Ok (n_fractions n) /\ n_efficiencies n = curves ops /\ n_resolution n = resolution_after ops /\
  b_flat_efficiency (n_base n) = flat_after ops /\ (n_efficiencies n <> [] -> n_using_tables n = true).
Proof.
  intros (n0 & C & H). unfold Nuclear_ctor in C. destruct (relative_fractions nuclei abund) as [f| | |] eqn:RF; cbn [bind] in C; try discriminate. apply Ok_inj in C. subst n0.
  destruct (run_keeps ops _ _ H) as (A & B & C & D & F & G). rewrite A, B, C, D, F. cbn [n_targets n_fractions n_efficiencies n_resolution n_base b_flat_efficiency Detector_ctor n_using_tables] in *.
  split; [reflexivity|]. split; [reflexivity|]. split; [reflexivity|]. split; [unfold resolution_after; f_equal; f_equal; lra|]. split; [unfold flat_after; f_equal; f_equal; lra|].
  rewrite <- C. apply G. intros N. congruence.
Qed.

Lemma sharp_spectrum X DM D label expo nuclei abund ops n E s fl (eff w rate : nat -> R) : history label expo nuclei abund ops n ->
  resolution_after ops = Fin s -> s < 1 / 1000000 * eV -> flat_after ops = Fin fl ->
  (forall i t, nth_error nuclei i = Some t -> efficiency_of X (curves ops) (List.length nuclei) i E (eff i) /\
     nth_error (n_fractions n) i = Some (Fin (w i)) /\ dRdER_Nucleus (x_Integrate X) (Fin E) DM D t = Ok (Fin (rate i))) ->
  Nuclear_dRdE X DM D n (Fin E) = Ok (Fin (target_sum fl eff w rate (List.length nuclei))).
Proof.
  intros H S LS F T. destruct (history_facts _ _ _ _ _ _ H) as (A & _ & C & R & FL & U). unfold Nuclear_dRdE. rewrite R, S, xmul_fin. rewrite xlt_true by lra.
  rewrite <- A. apply nuclear_sum_value; auto; [congruence|]. rewrite A, C. exact T.
Qed.

(** ** Finite resolution *)
Definition gauss (s x : R) : R := 1 / (sqrt (2 * PI) * s) * exp (- (x * x) / (2 * (s * s))).
Lemma PDF_Gauss_fin x m s : 0 < s -> PDF_Gauss (Fin x) (Fin m) (Fin s) = Fin (gauss s (x - m)).
Proof.
  intros Hs. assert (P : 0 < 2 * PI) by (assert (h := PI_RGT_0); lra). assert (Q : 0 < sqrt (2 * PI)) by (apply sqrt_lt_R0; auto).
  unfold PDF_Gauss. replace 2.0 with 2 by lra. replace 1.0 with 1 by lra. rewrite xmul_fin, xsqrt_fin by lra. rewrite xdiv_fin by lra. rewrite xdiv_fin by lra.
  rewrite xsub_fin, xdiv_fin, xpow_fin, xopp_fin by lra. rewrite xdiv_fin by lra. rewrite xexp_fin, xmul_fin. unfold gauss.
  replace (- ((x - m) / s) ^ 2 / 2) with (- ((x - m) * (x - m)) / (2 * (s * s))) by (field; lra). f_equal. field. split; lra.
Qed.
Definition lower_end (E thr s : R) : R := Rmax (E - 6 * s) (Rmax (thr - 3 * s) (2 * s)).
Lemma max3 a b c : max_element [Fin a; Fin b; Fin c] = Ok (Fin (Rmax a (Rmax b c))).
Proof.
  unfold max_element. cbn [fold_left]. f_equal. destruct (Rlt_le_dec a b) as [L | L].
  - rewrite (xlt_true a b) by auto. destruct (Rlt_le_dec b c) as [L2 | L2]; [rewrite xlt_true by auto|rewrite xlt_false by auto]; f_equal; unfold Rmax; repeat destruct Rle_dec; lra.
  - rewrite (xlt_false a b) by auto. destruct (Rlt_le_dec a c) as [L2 | L2]; [rewrite xlt_true by auto|rewrite xlt_false by auto]; f_equal; unfold Rmax; repeat destruct Rle_dec; lra.
Qed.
Lemma smeared_spectrum X DM D label expo nuclei abund ops n E thr s fl (eff w : nat -> R) (rate : nat -> R -> R) : ideal_quadrature (x_Integrate X) -> history label expo nuclei abund ops n ->
  resolution_after ops = Fin s -> 1 / 1000000 * eV <= s -> b_threshold (n_base n) = Fin thr -> flat_after ops = Fin fl ->
  (forall i t, nth_error nuclei i = Some t -> efficiency_of X (curves ops) (List.length nuclei) i E (eff i) /\
     nth_error (n_fractions n) i = Some (Fin (w i)) /\
     forall ER, Rmin (lower_end E thr s) (E + 6 * s) <= ER <= Rmax (lower_end E thr s) (E + 6 * s) -> dRdER_Nucleus (x_Integrate X) (Fin ER) DM D t = Ok (Fin (rate i ER))) ->
  ex_RInt (fun ER => gauss s (E - ER) * target_sum fl eff w (fun i => rate i ER) (List.length nuclei)) (lower_end E thr s) (E + 6 * s) ->
  Nuclear_dRdE X DM D n (Fin E) = Ok (Fin (RInt (fun ER => gauss s (E - ER) * target_sum fl eff w (fun i => rate i ER) (List.length nuclei)) (lower_end E thr s) (E + 6 * s))).
Proof.
  intros Q H S LS TH F T I. destruct (history_facts _ _ _ _ _ _ H) as (A & _ & C & R & FL & U). assert (EV : 0 < eV) by (unfold eV; lra).
  unfold Nuclear_dRdE. rewrite R, S, TH, !xmul_fin. rewrite xlt_false by lra. rewrite !xsub_fin, max3. cbn [bind]. rewrite xadd_fin.
  replace 6.0 with 6 by lra. replace 3.0 with 3 by lra. replace 2.0 with 2 by lra. fold (lower_end E thr s).
  apply Q; auto. intros ER HER. rewrite (nuclear_sum_value X DM D n E ER fl eff w (fun i => rate i ER)).
  - cbn [bind]. rewrite PDF_Gauss_fin by lra. rewrite xmul_fin, A. reflexivity.
  - exact U.
  - congruence.
  - rewrite A, C. intros i t N. destruct (T i t N) as (T1 & T2 & T3). auto.
Qed.

(** The Gaussian is a positive weight, and the spectrum at a detected energy well below the threshold integrates it backwards. *)
Lemma gauss_pos s x : 0 < s -> 0 < gauss s x.
Proof.
  intros H. unfold gauss. assert (P : 0 < 2 * PI) by (assert (h := PI_RGT_0); lra). assert (Q : 0 < sqrt (2 * PI)) by (apply sqrt_lt_R0; auto).
  apply Rmult_lt_0_compat; [|apply exp_pos]. apply Rdiv_lt_0_compat; [lra|]. apply Rmult_lt_0_compat; auto.
Qed.
Lemma target_sum_nonneg fl eff w rate k : 0 <= fl -> (forall i, (i < k)%nat -> 0 <= eff i /\ 0 <= w i /\ 0 <= rate i) -> 0 <= target_sum fl eff w rate k.
Proof.
  intros F H. unfold target_sum. assert (G : forall l, (forall i, In i l -> 0 <= eff i * fl * w i * rate i) -> 0 <= Rsum (map (fun i => eff i * fl * w i * rate i) l)).
  { induction l as [|a l IH]; intros K; cbn; [lra|]. assert (0 <= eff a * fl * w a * rate a) by (apply K; left; auto). assert (0 <= Rsum (map (fun i => eff i * fl * w i * rate i) l)) by (apply IH; intros; apply K; right; auto). unfold Rsum in *. lra. }
  apply G. intros i Hi. apply in_seq in Hi. destruct (H i ltac:(lia)) as (A & B & C). repeat apply Rmult_le_pos; auto.
Qed.
Lemma lower_end_ordered E thr s : 0 < s -> thr - 9 * s <= E -> - 4 * s <= E -> lower_end E thr s <= E + 6 * s.
Proof. intros. unfold lower_end. repeat apply Rmax_lub; lra. Qed.
Lemma lower_end_reversed E thr s : 0 < s -> E < thr - 9 * s -> E + 6 * s < lower_end E thr s.
Proof. intros. unfold lower_end. apply Rlt_le_trans with (thr - 3 * s); [lra|]. apply Rle_trans with (Rmax (thr - 3 * s) (2 * s)); [apply Rmax_l|apply Rmax_r]. Qed.

Lemma smeared_nonneg X DM D label expo nuclei abund ops n E thr s fl (eff w : nat -> R) (rate : nat -> R -> R) r : ideal_quadrature (x_Integrate X) -> history label expo nuclei abund ops n ->
  resolution_after ops = Fin s -> 1 / 1000000 * eV <= s -> b_threshold (n_base n) = Fin thr -> flat_after ops = Fin fl -> 0 <= fl ->
  thr - 9 * s <= E -> - 4 * s <= E ->
  (forall i t, nth_error nuclei i = Some t -> efficiency_of X (curves ops) (List.length nuclei) i E (eff i) /\ 0 <= eff i /\
     nth_error (n_fractions n) i = Some (Fin (w i)) /\ 0 <= w i /\
     forall ER, lower_end E thr s <= ER <= E + 6 * s -> dRdER_Nucleus (x_Integrate X) (Fin ER) DM D t = Ok (Fin (rate i ER)) /\ 0 <= rate i ER) ->
  ex_RInt (fun ER => gauss s (E - ER) * target_sum fl eff w (fun i => rate i ER) (List.length nuclei)) (lower_end E thr s) (E + 6 * s) ->
  Nuclear_dRdE X DM D n (Fin E) = Ok (Fin r) -> 0 <= r.
Proof.
  intros Q H S LS TH F Fp O1 O2 T I Hr. assert (EV : 0 < eV) by (unfold eV; lra). assert (Hs : 0 < s) by lra.
  assert (L := lower_end_ordered E thr s Hs O1 O2).
  rewrite (smeared_spectrum X DM D label expo nuclei abund ops n E thr s fl eff w rate) in Hr; auto.
  - apply Ok_inj in Hr. injection Hr as <-. apply RInt_ge_0; auto. intros x Hx. apply Rmult_le_pos; [apply Rlt_le, gauss_pos; auto|].
    apply target_sum_nonneg; auto. intros i Hi. destruct (nth_error nuclei i) as [t|] eqn:N; [|apply nth_error_None in N; lia].
    destruct (T i t N) as (_ & e & _ & ww & K). destruct (K x ltac:(lra)). tauto.
  - intros i t N. destruct (T i t N) as (A & _ & B & _ & K). split; auto. split; auto. intros ER. rewrite Rmin_left, Rmax_right by auto. intros h. apply K. exact h.
Qed.

(** * Concrete cases *)
(** Isotopes of masses 2 and 6 GeV; the particle of 2 GeV and the halo of [DetectorWitness_Proofs] give each the spectrum 10^-6 up to the
    recoil energy at which the minimum speed is 1. *)
Definition iso (M ab : R) : Isotope := mkIsotope 1 2 (Fin ab) (Fin 0) (Fin 0) (Fin 0) "H2" (Fin M).
Definition two_isotopes : Nucleus := mkNucleus (Some 1%Z) [iso 2 (1/4); iso 6 (3/4)] "H".
Definition two_isotopes' : Nucleus := mkNucleus (Some 1%Z) [iso 6 (3/4); iso 2 (1/4)] "H".
Definition one_isotope : Nucleus := mkNucleus (Some 1%Z) [iso 2 1] "H".
Lemma iso_rate I E M ab : 0 < M -> 0 <= E -> M * E <= 2 * mu 2 M ^ 2 -> dRdER_Isotope I (Fin E) DM1 D1 (iso M ab) = Ok (Fin (1 / 1000000)).
Proof.
  intros HM HE L. unfold dRdER_Isotope. cbn [dm_mass DM1 imass iso d_vmax D1 dm_use_eta d_use_eta andb d_rho dm_fraction d_eta].
  rewrite vMinimal_fin by lra. assert (P := mu_pos 2 M ltac:(lra) HM).
  rewrite xlt_false.
  - unfold dm_dSigma_dER. cbn [dm_dSigma_dq2_Nucleus DM1 bind imass iso]. rewrite !xmul_fin, !xdiv_fin, !xmul_fin by lra. rewrite !xdiv_fin by lra. rewrite !xmul_fin. do 2 f_equal.
    replace 1.0 with 1 by lra. replace 1.0e-3 with (1 / 1000) by lra. field. lra.
  - unfold vmin_R. rewrite <- sqrt_1. apply sqrt_le_1_alt. assert (0 < 2 * mu 2 M ^ 2) by (assert (0 < mu 2 M ^ 2) by (apply pow_lt; auto); lra).
    apply (Rmult_le_reg_r (2 * mu 2 M ^ 2)); auto. unfold Rdiv. rewrite Rmult_assoc, Rinv_l by lra. lra.
Qed.
Lemma iso2_rate I E ab : 0 <= E <= 1 -> dRdER_Isotope I (Fin E) DM1 D1 (iso 2 ab) = Ok (Fin (1 / 1000000)).
Proof. intros. apply iso_rate; try lra. unfold mu. field_simplify. lra. Qed.
Lemma iso6_rate I E ab : 0 <= E <= 1 / 2 -> dRdER_Isotope I (Fin E) DM1 D1 (iso 6 ab) = Ok (Fin (1 / 1000000)).
Proof. intros. apply iso_rate; try lra. unfold mu. field_simplify. lra. Qed.
Lemma one_rate I E : 0 <= E <= 1 -> dRdER_Nucleus I (Fin E) DM1 D1 one_isotope = Ok (Fin (1 / 1000000)).
Proof.
  intros H. rewrite (nucleus_rate _ _ _ _ _ (fun _ => 1) (fun _ => 1 / 1000000)).
  - cbn. do 2 f_equal. lra.
  - intros t [<- | []]. split; [reflexivity|apply iso2_rate; auto].
Qed.
Lemma composite_instance I : (forall t, In t (nisotopes two_isotopes) -> iabundance t = Fin (if Req_EM_T (val (imass t)) 2 then 1/4 else 3/4) /\
    dRdER_Isotope I (Fin (1/3)) DM1 D1 t = Ok (Fin (1/1000000))) /\ Permutation (nisotopes two_isotopes) (nisotopes two_isotopes').
Proof.
  split; [|apply perm_swap]. intros t [<- | [<- | []]]; cbn [imass iso iabundance val].
  - split; [destruct Req_EM_T; [reflexivity|lra]|apply iso2_rate; lra].
  - split; [destruct Req_EM_T; [lra|reflexivity]|apply iso6_rate; lra].
Qed.

Definition X2 : externals := mkExternals reference_Integrate (fun _ _ _ => Ok (Fin 0)) (fun t E => match t with p :: _ => Ok (snd p) | [] => Exit end) (fun _ _ _ _ => Ok (Fin 0)) exact_binomial.
(** One curve, everywhere 1/2. *)
Definition half_curve : list (xr * xr) := [(Fin 0, Fin (1/2)); (Fin 1, Fin (1/2))].
Lemma one_fraction : relative_fractions [one_isotope] [Fin 1] = Ok [Fin 1].
Proof. apply (nuclear_fractions_small [one_isotope] [1]); [discriminate|cbn; lra]. Qed.
Lemma history_one ops : (forall o, In o ops -> match o with NBase (BFlat _) | NBase (BThreshold _ _) => False | NBase _ => False | _ => True end) ->
  exists n, history "test" (Fin 1) [one_isotope] [Fin 1] ops n /\ n_fractions n = [Fin 1].
Proof.
  intros H. unfold history. assert (C : exists n0, Nuclear_ctor "test" (Fin 1) [one_isotope] [Fin 1] = Ok n0 /\ n_fractions n0 = [Fin 1]).
  { unfold Nuclear_ctor. rewrite one_fraction. cbn [bind]. eexists. split; reflexivity. }
  destruct C as (n0 & C & F). assert (R : forall ops, (forall o, In o ops -> match o with NBase (BFlat _) | NBase (BThreshold _ _) => False | NBase _ => False | _ => True end) -> forall m, exists n, nuclear_run m ops = Ok n).
  { clear. induction ops as [|o ops IH]; intros H m; cbn [nuclear_run]; [eauto|]. destruct o as [[]|r|rows dim|files dim]; try (exfalso; apply (H _ (or_introl eq_refl))); cbn [nuclear_step bind]; apply IH; intros; apply H; right; auto. }
  destruct (R ops H n0) as (n & Hn). exists n. split; [exists n0; auto|]. destruct (run_keeps ops _ _ Hn) as (_ & B & _). rewrite B. exact F.
Qed.
(** C90: with the same curve imported twice the spectrum is what it is without any curve, although the curve is 1/2 everywhere. *)
Lemma curve_spectrum ops n E e : history "test" (Fin 1) [one_isotope] [Fin 1] ops n -> n_fractions n = [Fin 1] -> resolution_after ops = Fin 0 -> flat_after ops = Fin 1 -> 0 <= E <= 1 ->
  efficiency_of X2 (curves ops) 1 0 E e -> Nuclear_dRdE X2 DM1 D1 n (Fin E) = Ok (Fin (e * (1 / 1000000))).
Proof.
  intros H NF R F HE K. rewrite (sharp_spectrum X2 DM1 D1 _ _ _ _ _ _ E 0 1 (fun _ => e) (fun _ => 1) (fun _ => 1 / 1000000) H R); auto.
  - unfold target_sum. cbn. do 2 f_equal. lra.
  - unfold eV. lra.
  - intros i t N. rewrite NF. destruct i; [|destruct i; discriminate]. cbn in N. injection N as <-. split; [exact K|]. split; [reflexivity|apply one_rate; auto].
Qed.
Lemma import_twice : exists X DM D label expo nuclei abund c n0 n1 n2 E r, (forall x, 0 <= x <= 1 -> x_Interpolation X (in_unit (Fin 1) c) (Fin x) = Ok (Fin (1/2))) /\ 0 <= E <= 1 /\ 0 < r /\
  history label expo nuclei abund [] n0 /\ history label expo nuclei abund [NEfficiency c (Fin 1)] n1 /\ history label expo nuclei abund [NEfficiency c (Fin 1); NEfficiency c (Fin 1)] n2 /\
  Nuclear_dRdE X DM D n0 (Fin E) = Ok (Fin r) /\ Nuclear_dRdE X DM D n1 (Fin E) = Ok (Fin (r / 2)) /\ Nuclear_dRdE X DM D n2 (Fin E) = Ok (Fin r).
Proof.
  destruct (history_one []) as (n0 & H0 & F0). { intros o []. }
  destruct (history_one [NEfficiency half_curve (Fin 1)]) as (n1 & H1 & F1). { intros o [<- | []]; exact Logic.I. }
  destruct (history_one [NEfficiency half_curve (Fin 1); NEfficiency half_curve (Fin 1)]) as (n2 & H2 & F2). { intros o [<- | [<- | []]]; exact Logic.I. }
  exists X2, DM1, D1, "test"%string, (Fin 1), [one_isotope], [Fin 1], half_curve, n0, n1, n2, (1/2), (1/1000000).
  split; [reflexivity|]. split; [lra|]. split; [lra|]. split; [exact H0|]. split; [exact H1|]. split; [exact H2|].
  split; [rewrite (curve_spectrum _ _ _ 1 H0); auto; try reflexivity; [do 2 f_equal; lra|lra]|].
  split; [rewrite (curve_spectrum _ _ _ (1/2) H1); auto; try reflexivity; [do 2 f_equal; lra|lra]|].
  rewrite (curve_spectrum _ _ _ 1 H2); auto; try reflexivity; [do 2 f_equal; lra|lra].
Qed.
(** C91: far below its threshold a detector with finite resolution reports a negative spectrum. *)
Definition ops_blur : list nuclear_op := [NResolution (Fin (1/100)); NBase (BThreshold (Fin (1/2)) (Fin 1))].
Lemma blur_history : exists n, history "test" (Fin 1) [one_isotope] [Fin 1] ops_blur n /\ n_fractions n = [Fin 1] /\ b_threshold (n_base n) = Fin (1/2).
Proof.
  unfold history, Nuclear_ctor. rewrite one_fraction. cbn [bind].
  eexists. split; [eexists; split; [reflexivity|]|split; [|]]; unfold ops_blur; cbn [nuclear_run nuclear_step bind base_step]; unfold Use_Energy_Threshold; rewrite ?xlt_false by lra; cbn [bind nuclear_run]; reflexivity.
Qed.
Lemma gauss_continuous s E x : continuous (fun ER => gauss s (E - ER)) x.
Proof.
  unfold gauss. apply (ex_derive_continuous (fun ER => 1 / (sqrt (2 * PI) * s) * exp (- ((E - ER) * (E - ER)) / (2 * (s * s))))). 
  auto_derive. exact Logic.I.
Qed.
Lemma blur_spectrum n E : history "test" (Fin 1) [one_isotope] [Fin 1] ops_blur n -> n_fractions n = [Fin 1] -> b_threshold (n_base n) = Fin (1/2) -> 1/5 <= E <= 9/10 ->
  Nuclear_dRdE X2 DM1 D1 n (Fin E) = Ok (Fin (RInt (fun ER => gauss (1/100) (E - ER) * (1 / 1000000)) (lower_end E (1/2) (1/100)) (E + 6 * (1/100)))).
Proof.
  intros H NF TH HE. assert (eq : target_sum 1 (fun _ => 1) (fun _ => 1) (fun _ : nat => 1 / 1000000) (List.length [one_isotope]) = 1 / 1000000) by (unfold target_sum; cbn; lra).
  rewrite (smeared_spectrum X2 DM1 D1 _ _ _ _ _ _ E (1/2) (1/100) 1 (fun _ => 1) (fun _ => 1) (fun _ _ => 1 / 1000000) ideal_quadrature_exists H); auto.
  - do 2 f_equal. apply RInt_ext. intros x _. rewrite eq. reflexivity.
  - unfold eV. lra.
  - intros i t N. rewrite NF. destruct i; [|destruct i; discriminate]. cbn in N. injection N as <-. split; [cbn; reflexivity|]. split; [reflexivity|].
    intros ER HER. apply one_rate. unfold lower_end in HER. revert HER. unfold Rmin, Rmax. repeat destruct Rle_dec; lra.
  - apply (ex_RInt_continuous (V := R_CompleteNormedModule)). intros z _. apply (continuous_mult (K := R_AbsRing)); [apply gauss_continuous|apply continuous_const].
Qed.
Lemma blur_negative : exists X DM D label expo nuclei abund n E r, ideal_quadrature (x_Integrate X) /\ 
  history label expo nuclei abund [NResolution (Fin (1/100)); NBase (BThreshold (Fin (1/2)) (Fin 1))] n /\ curves [NResolution (Fin (1/100)); NBase (BThreshold (Fin (1/2)) (Fin 1))] = [] /\
  (forall t ER, In t nuclei -> 0 <= ER <= 1 -> dRdER_Nucleus (x_Integrate X) (Fin ER) DM D t = Ok (Fin (1 / 1000000))) /\
  0 < E < 1 /\ Nuclear_dRdE X DM D n (Fin E) = Ok (Fin r) /\ r < 0.
Proof.
  destruct blur_history as (n & H & NF & TH).
  exists X2, DM1, D1, "test"%string, (Fin 1), [one_isotope], [Fin 1], n, (3/10). eexists.
  split; [apply ideal_quadrature_exists|]. split; [exact H|]. split; [reflexivity|]. split; [intros t ER [<- | []]; apply one_rate|]. split; [lra|].
  split; [apply (blur_spectrum n (3/10) H NF TH); lra|].
  assert (LE : lower_end (3/10) (1/2) (1/100) = 47/100) by (unfold lower_end, Rmax; repeat destruct Rle_dec; lra). rewrite LE.
  rewrite <- (opp_RInt_swap (V := R_CompleteNormedModule)).
  - assert (P : 0 < RInt (fun ER => gauss (1/100) (3/10 - ER) * (1/1000000)) (3/10 + 6 * (1/100)) (47/100)).
    2:{ match goal with |- opp ?a < 0 => change (- a < 0) end. lra. }
    apply RInt_gt_0; [lra| |].
    + intros. apply Rmult_lt_0_compat; [apply gauss_pos; lra|lra].
    + intros. apply (continuous_mult (K := R_AbsRing)); [apply gauss_continuous|apply continuous_const].
  - apply (ex_RInt_continuous (V := R_CompleteNormedModule)). intros z _. apply (continuous_mult (K := R_AbsRing)); [apply gauss_continuous|apply continuous_const].
Qed.
