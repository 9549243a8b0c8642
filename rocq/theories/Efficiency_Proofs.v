(** Expected counts are proportional to the flat efficiency and, bin by bin, to the bin efficiencies. *)
From Coq Require Import Reals ZArith String Lia Lra Bool.
From Coquelicot Require Import Coquelicot.
From Coq Require Import List.
From Verif Require Import Base XrFacts Quadrature Nuclear_Model Nucleus_Model Particle_Model CrossSection_Model Distribution_Model Atom_Model
  Crystal_Model Rates_Model Detector_Model DetectorTypes_Model Scaling_Proofs Exposure_Proofs DetectorBins_Proofs.
Import ListNotations.
Local Open Scope R_scope.

(** * The flat efficiency *)
Definition all_scale (c : R) (V V' : virtuals) (d d' : detector) (p : particle) : Prop :=
  (forall E, v_dRdE V' d' p E = times c (v_dRdE V d p E)) /\ v_total V' d' p = times c (v_total V d p) /\
  v_binned V' d' p = times_all c (v_binned V d p).

Lemma nuclear_dRdE_flat X DM D n f c E : homogeneous (x_Integrate X) -> 0 < c ->
  Nuclear_dRdE X DM D (with_n_base (with_flat (xmul (Fin c) f) (n_base n)) n) E = times c (Nuclear_dRdE X DM D (with_n_base (with_flat f (n_base n)) n) E).
Proof.
  intros HI C. set (n1 := with_n_base (with_flat f (n_base n)) n). set (n2 := with_n_base _ n).
  assert (K : forall E ER, Nuclear_sum X DM D n2 E ER = times c (Nuclear_sum X DM D n1 E ER)).
  { intros. unfold Nuclear_sum. apply sum_res_times; auto. intros i _. do 4 (apply times_keep; intros).
    change (b_flat_efficiency (n_base n2)) with (xmul (Fin c) f). change (b_flat_efficiency (n_base n1)) with f. leaf C. }
  unfold Nuclear_dRdE. change (n_resolution n2) with (n_resolution n1). destruct (xlt _ _); auto.
  change (b_threshold (n_base n2)) with (b_threshold (n_base n1)). apply times_keep. intros lo. apply Integrate_times; auto. intros ER.
  apply times_scaled; [apply K|]. intros; leaf C.
Qed.
Lemma base_same_total I T f d x : DM_Signals_Total_Base I T f (with_flat x d) = DM_Signals_Total_Base I T f d. Proof. reflexivity. Qed.
Lemma base_same_binned I f d x : DM_Signals_Binned_Base I f (with_flat x d) = DM_Signals_Binned_Base I f d. Proof. reflexivity. Qed.
Lemma nuclear_flat X D p n f c n1 n2 : homogeneous_externals X -> 0 < c ->
  nuclear_step n (NBase (BFlat f)) = Ok n1 -> nuclear_step n (NBase (BFlat (xmul (Fin c) f))) = Ok n2 ->
  all_scale c (nuclear_virtuals X D n1) (nuclear_virtuals X D n2) (n_base n1) (n_base n2) p.
Proof.
  intros [HI HT] C H1 H2. cbn [nuclear_step base_step bind] in H1, H2. apply Ok_inj in H1, H2. unfold Set_Flat_Efficiency in *. subst n1 n2.
  pose proof (fun E => nuclear_dRdE_flat X (interface_of (x_I2 X) p) D n f c E HI C) as K.
  split; [exact K|]. split.
  - exact (total_base_times (x_Integrate X) (x_Interpolate X) c _ _ (n_base n) HI HT C K).
  - exact (binned_base_times (x_Integrate X) c _ _ (n_base n) HI C K).
Qed.

Section Ionization.
Variables (X : externals) (DM : DM_interface) (D : Distr_interface) (s1 s2 : ionization) (f : xr) (c : R).
Hypothesis HI : homogeneous (x_Integrate X).
Hypothesis C : 0 < c.
Hypothesis F1 : b_flat_efficiency (i_base s1) = f.
Hypothesis E2 : s2 = with_i_base (with_flat (xmul (Fin c) f) (i_base s1)) s1.
Lemma ionization_shell_flat E n sh : Ionization_dRdE_shell X DM D s2 E n sh = times c (Ionization_dRdE_shell X DM D s1 E n sh).
Proof.
  unfold Ionization_dRdE_shell. rewrite E2. cbn [i_channel with_i_base]. apply times_keep. intros r. cbn [with_i_base i_base with_flat b_flat_efficiency].
  rewrite F1. leaf C.
Qed.
Lemma ionization_dRdE_flat E : Ionization_dRdE X DM D s2 E = times c (Ionization_dRdE X DM D s1 E).
Proof.
  unfold Ionization_dRdE. rewrite <- (weighted_times c s1 _ (Ionization_dRdE_atom X DM D s2 E)); auto.
  - rewrite E2 at 1. reflexivity.
  - intros a. unfold Ionization_dRdE_atom. apply sum_res_times; auto. intros. apply ionization_shell_flat.
Qed.
Lemma R_ne_flat ne : R_ne X DM D s2 ne = times c (R_ne X DM D s1 ne).
Proof.
  unfold R_ne. rewrite <- (weighted_times c s1 _ (R_ne_atom X DM D s2 ne)); auto.
  - rewrite E2 at 1. reflexivity.
  - intros a. unfold R_ne_atom. apply sum_res_times; auto. intros sh _. unfold R_ne_shell. apply sum_res_times; auto. intros k _. cbv zeta.
    apply times_keep. intros p. apply times_scaled; [apply ionization_shell_flat|]. intros; leaf C.
Qed.
Lemma R_S2_Bin_flat_some a b l : l <> [] -> R_S2_Bin X DM D s2 a b (map (xmul (Fin c)) l) = times c (R_S2_Bin X DM D s1 a b l).
Proof.
  intros L. rewrite <- (S2_bin_some X c DM DM D s1 a b l L C). destruct l as [|x l]; [contradiction|]. unfold R_S2_Bin. cbn [map bind].
  destruct (_ =? _)%Z; auto. rewrite E2. reflexivity.
Qed.
Lemma R_S2_Bin_flat_none a b : R_S2_Bin X DM D s2 a b [] = times c (R_S2_Bin X DM D s1 a b []).
Proof.
  unfold R_S2_Bin at 1 2. rewrite (map_res_times c (R_ne X DM D s1) (R_ne X DM D s2)) by (intros; apply R_ne_flat).
  destruct (map_res (R_ne X DM D s1) (Zrange 1 100)) as [l| | |] eqn:E; cbn [times_all bind]; auto.
  apply nonempty_Zrange in E; [|lia]. destruct (_ =? _)%Z; auto.
  apply sum_res_times; auto. intros PE _. replace (PE_efficiency s2 PE) with (PE_efficiency s1 PE) by (rewrite E2; reflexivity).
  apply times_keep. intros e. apply times_scaled; [|intros; leaf C].
  rewrite <- (R_S2_times X c DM DM D s1 PE l E C). destruct l as [|x l]; [contradiction|]. rewrite E2. reflexivity.
Qed.
Lemma ionization_binned_flat : Ionization_Binned X DM D s2 = times_all c (Ionization_Binned X DM D s1).
Proof.
  unfold Ionization_Binned. replace (b_analysis (i_base s2)) with (b_analysis (i_base s1)) by (rewrite E2; reflexivity).
  replace (b_using_bins (i_base s2)) with (b_using_bins (i_base s1)) by (rewrite E2; reflexivity).
  replace (i_using_ne_bins s2) with (i_using_ne_bins s1) by (rewrite E2; reflexivity).
  replace (i_using_S2_bins s2) with (i_using_S2_bins s1) by (rewrite E2; reflexivity).
  destruct (b_analysis (i_base s1)); auto. destruct (b_using_bins (i_base s1)).
  { rewrite <- (energy_bins_times (x_Integrate X) c _ (Ionization_dRdE X DM D s2) (i_base s1)); auto.
    - rewrite E2 at 2. reflexivity.
    - apply ionization_dRdE_flat. }
  destruct (i_using_ne_bins s1) eqn:U1.
  { unfold DM_Signals_Electron_Bins. replace (i_using_ne_bins s2) with (i_using_ne_bins s1) by (rewrite E2; reflexivity). rewrite U1. cbn [negb].
    replace (b_bins (i_base s2)) with (b_bins (i_base s1)) by (rewrite E2; reflexivity). apply map_res_times. intros i _. cbv zeta.
    replace (i_ne_threshold s2) with (i_ne_threshold s1) by (rewrite E2; reflexivity).
    apply times_scaled; [apply R_ne_flat|]. intros a.
    replace (b_efficiencies (i_base s2)) with (b_efficiencies (i_base s1)) by (rewrite E2; reflexivity).
    replace (b_exposure (i_base s2)) with (b_exposure (i_base s1)) by (rewrite E2; reflexivity). apply times_keep. intros e. leaf C. }
  destruct (i_using_S2_bins s1) eqn:U; auto. unfold DM_Signals_PE_Bins.
  replace (i_using_S2_bins s2) with (i_using_S2_bins s1) by (rewrite E2; reflexivity). rewrite U. cbn [negb].
  rewrite (map_res_times c (R_ne X DM D s1) (R_ne X DM D s2)) by (intros; apply R_ne_flat).
  destruct (map_res (R_ne X DM D s1) (Zrange 1 100)) as [l| | |] eqn:E; cbn [times_all bind]; auto.
  apply nonempty_Zrange in E; [|lia].
  replace (b_bins (i_base s2)) with (b_bins (i_base s1)) by (rewrite E2; reflexivity). apply map_res_times. intros i _.
  replace (i_S2_ranges s2) with (i_S2_ranges s1) by (rewrite E2; reflexivity). do 2 (apply times_keep; intros).
  apply times_scaled; [apply R_S2_Bin_flat_some; auto|]. intros r.
  replace (b_efficiencies (i_base s2)) with (b_efficiencies (i_base s1)) by (rewrite E2; reflexivity).
  replace (b_exposure (i_base s2)) with (b_exposure (i_base s1)) by (rewrite E2; reflexivity). apply times_keep. intros e. leaf C.
Qed.
Lemma ionization_total_flat : Ionization_Total X DM D s2 = times c (Ionization_Total X DM D s1).
Proof.
  unfold Ionization_Total. replace (b_analysis (i_base s2)) with (b_analysis (i_base s1)) by (rewrite E2; reflexivity).
  assert (K : forall k k' : res xr, k' = times c k -> match b_analysis (i_base s1) with Binned_Poisson => let* l := Ionization_Binned X DM D s2 in Ok (xsum l) | _ => k' end =
     times c match b_analysis (i_base s1) with Binned_Poisson => let* l := Ionization_Binned X DM D s1 in Ok (xsum l) | _ => k end).
  { intros k k' E. destruct (b_analysis (i_base s1)); auto. apply sum_all_times; auto. apply ionization_binned_flat. }
  apply K. replace (i_using_ne_threshold s2) with (i_using_ne_threshold s1) by (rewrite E2; reflexivity).
  replace (b_using_threshold (i_base s2)) with (b_using_threshold (i_base s1)) by (rewrite E2; reflexivity).
  replace (i_using_S2_threshold s2) with (i_using_S2_threshold s1) by (rewrite E2; reflexivity).
  replace (b_exposure (i_base s2)) with (b_exposure (i_base s1)) by (rewrite E2; reflexivity).
  destruct (i_using_ne_threshold s1).
  { replace (i_ne_max s2) with (i_ne_max s1) by (rewrite E2; reflexivity). replace (i_ne_threshold s2) with (i_ne_threshold s1) by (rewrite E2; reflexivity).
    destruct (_ =? _)%Z; auto. apply sum_res_times; auto. intros ne _. apply times_scaled; [apply R_ne_flat|]. intros r. leaf C. }
  destruct (b_using_threshold (i_base s1)).
  { replace (i_atoms s2) with (i_atoms s1) by (rewrite E2; reflexivity). apply sum_lists; auto. intros i.
    replace (i_fractions s2) with (i_fractions s1) by (rewrite E2; reflexivity).
    do 2 (apply times_all_keep; intros). apply map_res_times. intros sh _. unfold threshold_term. cbv zeta.
    replace (b_threshold (i_base s2)) with (b_threshold (i_base s1)) by (rewrite E2; reflexivity).
    replace (b_exposure (i_base s2)) with (b_exposure (i_base s1)) by (rewrite E2; reflexivity).
    destruct (xlt _ _); [|apply times_zero]. apply times_scaled; [|intros; leaf C]. apply Integrate_times; auto. intros E.
    apply times_scaled; [apply ionization_shell_flat|]. intros r. leaf C. }
  destruct (i_using_S2_threshold s1); [|apply times_zero].
  replace (i_PE_threshold s2) with (i_PE_threshold s1) by (rewrite E2; reflexivity). replace (i_PE_max s2) with (i_PE_max s1) by (rewrite E2; reflexivity).
  apply times_scaled; [apply R_S2_Bin_flat_none|]. intros r. leaf C.
Qed.
End Ionization.
Lemma i_base_eta s : with_i_base (i_base s) s = s. Proof. destruct s; reflexivity. Qed.
Lemma ionization_flat X D p s f c s1 s2 : homogeneous (x_Integrate X) -> 0 < c ->
  ionization_step s (IBase (BFlat f)) = Ok s1 -> ionization_step s (IBase (BFlat (xmul (Fin c) f))) = Ok s2 ->
  all_scale c (ionization_virtuals X D s1) (ionization_virtuals X D s2) (i_base s1) (i_base s2) p.
Proof.
  intros HI C H1 H2. cbn [ionization_step base_step bind] in H1, H2. apply Ok_inj in H1, H2. unfold Set_Flat_Efficiency in *.
  assert (F1 : b_flat_efficiency (i_base s1) = f) by (rewrite <- H1; reflexivity).
  assert (E2 : s2 = with_i_base (with_flat (xmul (Fin c) f) (i_base s1)) s1) by (rewrite <- H1, <- H2; reflexivity).
  unfold all_scale, ionization_virtuals. cbn [v_dRdE v_total v_binned]. rewrite !i_base_eta.
  split; [|split].
  - intros E. apply (ionization_dRdE_flat X _ D s1 s2 f c); auto.
  - apply (ionization_total_flat X _ D s1 s2 f c); auto.
  - apply (ionization_binned_flat X _ D s1 s2 f c); auto.
Qed.

Lemma semiconductor_flat X D p s f c s1 s2 : homogeneous (x_Integrate X) -> 0 < c ->
  semiconductor_step s (CBase (BFlat f)) = Ok s1 -> semiconductor_step s (CBase (BFlat (xmul (Fin c) f))) = Ok s2 ->
  all_scale c (semiconductor_virtuals X D s1) (semiconductor_virtuals X D s2) (c_base s1) (c_base s2) p.
Proof.
  intros HI C H1 H2. cbn [semiconductor_step base_step bind] in H1, H2. apply Ok_inj in H1, H2. unfold Set_Flat_Efficiency in *.
  unfold all_scale, semiconductor_virtuals. cbn [v_dRdE v_total v_binned].
  replace (with_c_base (c_base s1) s1) with s1 by (destruct s1; reflexivity). replace (with_c_base (c_base s2) s2) with s2 by (destruct s2; reflexivity).
  set (DM := interface_of (x_I2 X) p).
  assert (K : forall E, Semiconductor_dRdE X DM D s2 E = times c (Semiconductor_dRdE X DM D s1 E)).
  { intros E. rewrite <- H1, <- H2. unfold Semiconductor_dRdE. cbn [with_c_base c_crystal c_base with_flat b_flat_efficiency]. apply times_keep. intros r. leaf C. }
  assert (B : Semiconductor_Binned X DM D s2 = times_all c (Semiconductor_Binned X DM D s1)).
  { unfold Semiconductor_Binned. pose proof (energy_bins_times (x_Integrate X) c _ _ (c_base s1) HI C K) as EB.
    replace (DM_Signals_Energy_Bins (x_Integrate X) (Semiconductor_dRdE X DM D s2) (c_base s1)) with
      (DM_Signals_Energy_Bins (x_Integrate X) (Semiconductor_dRdE X DM D s2) (c_base s2)) in EB by (rewrite <- H1, <- H2; reflexivity).
    rewrite EB. clear EB. rewrite <- H1, <- H2. cbn [with_c_base c_base with_flat b_analysis b_using_bins c_using_Q_bins].
    destruct (b_analysis (c_base s)); auto. destruct (b_using_bins (c_base s)); auto.
    apply times_all_keep. intros u. destruct u; auto. unfold DM_Signals_Q_Bins. cbn [with_c_base c_base with_flat c_using_Q_bins c_Q_threshold b_bins b_efficiencies c_crystal b_exposure b_flat_efficiency].
    apply times_all_keep. intros u. destruct (negb u); auto. apply times_all_keep. intros Qt. apply map_res_times. intros Q _.
    do 2 (apply times_keep; intros). leaf C. }
  split; [exact K|]. split; [|exact B].
  unfold Semiconductor_Total. cbv zeta. rewrite B.
  pose proof (Integrate_times (x_Integrate X) c _ _ (b_threshold (c_base s)) (b_energy_max (c_base s)) HI C K) as IT.
  assert (T1 : b_analysis (c_base s2) = b_analysis (c_base s1)) by (rewrite <- H1, <- H2; reflexivity).
  assert (T2 : b_analysis (c_base s1) = b_analysis (c_base s)) by (rewrite <- H1; reflexivity).
  rewrite T1. rewrite T2.
  assert (G : forall flag : bool, (if flag then let* integral := x_Integrate X (Semiconductor_dRdE X DM D s2) (b_threshold (c_base s2)) (b_energy_max (c_base s2)) in
        Ok (xmul (b_exposure (c_base s2)) integral)
      else let* u := read_init (c_using_Q_threshold s2) in if u then
          let* Qt := read_init (c_Q_threshold s2) in let* r := R_total_Crystal (x_Integrate X) (s32 Qt) DM D (c_crystal s2) in
          Ok (xmul (xmul (b_exposure (c_base s2)) (b_flat_efficiency (c_base s2))) r) else Ok (Fin 0)) =
     times c (if flag then let* integral := x_Integrate X (Semiconductor_dRdE X DM D s1) (b_threshold (c_base s1)) (b_energy_max (c_base s1)) in
        Ok (xmul (b_exposure (c_base s1)) integral)
      else let* u := read_init (c_using_Q_threshold s1) in if u then
          let* Qt := read_init (c_Q_threshold s1) in let* r := R_total_Crystal (x_Integrate X) (s32 Qt) DM D (c_crystal s1) in
          Ok (xmul (xmul (b_exposure (c_base s1)) (b_flat_efficiency (c_base s1))) r) else Ok (Fin 0))).
  { intros flag. destruct flag.
    { replace (b_threshold (c_base s2)) with (b_threshold (c_base s)) by (rewrite <- H2; reflexivity).
      replace (b_energy_max (c_base s2)) with (b_energy_max (c_base s)) by (rewrite <- H2; reflexivity).
      replace (b_threshold (c_base s1)) with (b_threshold (c_base s)) by (rewrite <- H1; reflexivity).
      replace (b_energy_max (c_base s1)) with (b_energy_max (c_base s)) by (rewrite <- H1; reflexivity).
      replace (b_exposure (c_base s2)) with (b_exposure (c_base s1)) by (rewrite <- H1, <- H2; reflexivity).
      apply times_scaled; [exact IT|]. intros. leaf C. }
    replace (c_using_Q_threshold s2) with (c_using_Q_threshold s1) by (rewrite <- H1, <- H2; reflexivity).
    replace (c_Q_threshold s2) with (c_Q_threshold s1) by (rewrite <- H1, <- H2; reflexivity).
    replace (c_crystal s2) with (c_crystal s1) by (rewrite <- H1, <- H2; reflexivity).
    replace (b_exposure (c_base s2)) with (b_exposure (c_base s1)) by (rewrite <- H1, <- H2; reflexivity).
    replace (b_flat_efficiency (c_base s2)) with (xmul (Fin c) f) by (rewrite <- H2; reflexivity).
    replace (b_flat_efficiency (c_base s1)) with f by (rewrite <- H1; reflexivity).
    apply times_keep. intros u. destruct u; [|apply times_zero]. do 2 (apply times_keep; intros). leaf C. }
  replace (b_using_threshold (c_base s2)) with (b_using_threshold (c_base s1)) by (rewrite <- H1, <- H2; reflexivity).
  destruct (b_analysis (c_base s)); try apply G. apply sum_all_times; auto.
Qed.

(** * The efficiencies of the bins *)
Definition zip_mul (cs : list R) (l : list xr) : list xr := map (fun p => xmul (Fin (fst p)) (snd p)) (combine cs l).
Lemma map_res_zip cs (f f' : nat -> res xr) n : forall k, (k + n <= List.length cs)%nat ->
  (forall i c, (k <= i < k + n)%nat -> nth_error cs i = Some c -> f' i = times c (f i)) ->
  map_res f' (seq k n) = (let* l := map_res f (seq k n) in Ok (zip_mul (skipn k cs) l)).
Proof.
  induction n as [|n IH]; intros k L H; cbn [seq map_res bind].
  - unfold zip_mul. rewrite combine_nil. reflexivity.
  - destruct (nth_error cs k) as [c|] eqn:E; [|apply nth_error_None in E; lia]. rewrite (H k c) by (auto; lia).
    destruct (f k) as [x| | |]; cbn [times bind]; auto. rewrite IH by (try lia; intros i c' B; apply H; lia).
    destruct (map_res f (seq (S k) n)) as [l| | |]; cbn [bind]; auto. f_equal. unfold zip_mul.
    assert (S : skipn k cs = c :: skipn (S k) cs).
    { clear - E. revert k E. induction cs as [|a cs IH]; intros k E; destruct k; cbn in *; try discriminate.
      - injection E as ->. reflexivity.
      - apply IH, E. }
    rewrite S. reflexivity.
Qed.
Lemma zip_nth cs e i c : List.length cs = List.length e -> nth_error cs i = Some c -> at_ub (zip_mul cs e) i = times c (at_ub e i).
Proof.
  intros L H. unfold at_ub, zip_mul. rewrite nth_error_map. revert e i L H. induction cs as [|a cs IH]; intros e i L H; destruct e as [|x e]; try discriminate; destruct i; cbn in *; try discriminate.
  - injection H as ->. reflexivity.
  - apply IH; auto.
Qed.
Lemma zip_length cs e : List.length cs = List.length e -> List.length (zip_mul cs e) = List.length e.
Proof. intros L. unfold zip_mul. rewrite map_length, combine_length. lia. Qed.

(** Setting the efficiencies of a detector in binned mode. *)
Lemma set_efficiencies e d d' : base_step d (BBin_Efficiencies e) = Ok d' -> d' = with_efficiencies e d /\ Z.of_nat (List.length e) = b_bins d.
Proof.
  cbn [base_step]. unfold Set_Bin_Efficiencies. destruct (b_analysis d); try discriminate. destruct (_ =? _)%Z eqn:E; try discriminate.
  intros H. apply Ok_inj in H. apply Z.eqb_eq in E. auto.
Qed.
Definition positives (cs : list R) : Prop := forall c, In c cs -> 0 < c.
Lemma energy_bins_efficiency I f d cs e : positives cs -> List.length cs = List.length e -> Z.of_nat (List.length e) = b_bins d ->
  DM_Signals_Energy_Bins I f (with_efficiencies (zip_mul cs e) d) = (let* l := DM_Signals_Energy_Bins I f (with_efficiencies e d) in Ok (zip_mul cs l)).
Proof.
  intros P L B. unfold DM_Signals_Energy_Bins. cbn [with_efficiencies b_using_bins b_bins b_bin_energies b_exposure b_efficiencies].
  destruct (negb _); auto. rewrite <- B, Nat2Z.id. apply (map_res_zip cs _ _ (List.length e) 0); [lia|]. intros i c _ N.
  do 3 (apply times_keep; intros). apply times_scaled; [apply zip_nth; auto|]. intros x. assert (C : 0 < c) by (apply P; eapply nth_error_In; eauto). leaf C.
Qed.
Lemma nuclear_efficiency X DM D n cs e n1 n2 : positives cs -> List.length cs = List.length e ->
  nuclear_step n (NBase (BBin_Efficiencies e)) = Ok n1 -> nuclear_step n (NBase (BBin_Efficiencies (zip_mul cs e))) = Ok n2 ->
  Nuclear_Binned X DM D n2 = (let* l := Nuclear_Binned X DM D n1 in Ok (zip_mul cs l)).
Proof.
  intros P L H1 H2. cbn [nuclear_step] in H1, H2.
  destruct (base_step (n_base n) (BBin_Efficiencies e)) as [d1| | |] eqn:S1; cbn [bind] in H1; try discriminate.
  destruct (base_step (n_base n) (BBin_Efficiencies (zip_mul cs e))) as [d2| | |] eqn:S2; cbn [bind] in H2; try discriminate.
  apply set_efficiencies in S1, S2. destruct S1 as [-> B], S2 as [-> _]. apply Ok_inj in H1, H2. subst n1 n2.
  unfold Nuclear_Binned, DM_Signals_Binned_Base. cbn [with_n_base n_base with_efficiencies b_analysis b_using_bins].
  destruct (b_analysis (n_base n)); auto. destruct (b_using_bins (n_base n)); auto.
  exact (energy_bins_efficiency (x_Integrate X) (Nuclear_dRdE X DM D n) (n_base n) cs e P L B).
Qed.
Lemma ionization_efficiency X DM D s cs e s1 s2 : positives cs -> List.length cs = List.length e ->
  ionization_step s (IBase (BBin_Efficiencies e)) = Ok s1 -> ionization_step s (IBase (BBin_Efficiencies (zip_mul cs e))) = Ok s2 ->
  Ionization_Binned X DM D s2 = (let* l := Ionization_Binned X DM D s1 in Ok (zip_mul cs l)).
Proof.
  intros P L H1 H2. cbn [ionization_step] in H1, H2.
  destruct (base_step (i_base s) (BBin_Efficiencies e)) as [d1| | |] eqn:S1; cbn [bind] in H1; try discriminate.
  destruct (base_step (i_base s) (BBin_Efficiencies (zip_mul cs e))) as [d2| | |] eqn:S2; cbn [bind] in H2; try discriminate.
  apply set_efficiencies in S1, S2. destruct S1 as [-> B], S2 as [-> _]. apply Ok_inj in H1, H2. subst s1 s2.
  unfold Ionization_Binned. cbn [with_i_base i_base with_efficiencies b_analysis b_using_bins i_using_ne_bins i_using_S2_bins].
  destruct (b_analysis (i_base s)); auto. destruct (b_using_bins (i_base s)).
  { exact (energy_bins_efficiency (x_Integrate X) (Ionization_dRdE X DM D s) (i_base s) cs e P L B). }
  destruct (i_using_ne_bins s).
  { unfold DM_Signals_Electron_Bins. cbn [with_i_base i_base with_efficiencies b_bins i_using_ne_bins i_ne_threshold b_efficiencies b_exposure].
    destruct (negb _); auto. rewrite <- B, Nat2Z.id. apply (map_res_zip cs _ _ (List.length e) 0); [lia|]. intros i c _ N. cbv zeta.
    apply times_keep. intros r. apply times_scaled; [apply zip_nth; auto|]. intros x. assert (C : 0 < c) by (apply P; eapply nth_error_In; eauto). leaf C. }
  destruct (i_using_S2_bins s) eqn:U; auto. unfold DM_Signals_PE_Bins. cbn [with_i_base i_base with_efficiencies b_bins i_using_S2_bins i_S2_ranges b_efficiencies b_exposure].
  rewrite U. cbn [negb]. change (R_ne X DM D (with_i_base (with_efficiencies (zip_mul cs e) (i_base s)) s)) with (R_ne X DM D s).
  change (R_ne X DM D (with_i_base (with_efficiencies e (i_base s)) s)) with (R_ne X DM D s). destruct (map_res (R_ne X DM D s) (Zrange 1 100)) as [l| | |]; cbn [bind]; auto.
  rewrite <- B, Nat2Z.id. apply (map_res_zip cs _ _ (List.length e) 0); [lia|]. intros i c _ N.
  do 3 (apply times_keep; intros). apply times_scaled; [apply zip_nth; auto|]. intros x. assert (C : 0 < c) by (apply P; eapply nth_error_In; eauto). leaf C.
Qed.
(** With a charge threshold of 1 (or energy bins) the same holds of semiconductor detectors. *)
Lemma semiconductor_efficiency X DM D s cs e s1 s2 : positives cs -> List.length cs = List.length e ->
  b_using_bins (c_base s) = true \/ c_Q_threshold s = Some 1%Z -> (b_bins (c_base s) < 2 ^ 32 - 1)%Z ->
  semiconductor_step s (CBase (BBin_Efficiencies e)) = Ok s1 -> semiconductor_step s (CBase (BBin_Efficiencies (zip_mul cs e))) = Ok s2 ->
  Semiconductor_Binned X DM D s2 = (let* l := Semiconductor_Binned X DM D s1 in Ok (zip_mul cs l)).
Proof.
  intros P L Q W H1 H2. cbn [semiconductor_step] in H1, H2.
  destruct (base_step (c_base s) (BBin_Efficiencies e)) as [d1| | |] eqn:S1; cbn [bind] in H1; try discriminate.
  destruct (base_step (c_base s) (BBin_Efficiencies (zip_mul cs e))) as [d2| | |] eqn:S2; cbn [bind] in H2; try discriminate.
  apply set_efficiencies in S1, S2. destruct S1 as [-> B], S2 as [-> _]. apply Ok_inj in H1, H2. subst s1 s2.
  unfold Semiconductor_Binned. cbn [with_c_base c_base with_efficiencies b_analysis b_using_bins c_using_Q_bins].
  destruct (b_analysis (c_base s)); auto. destruct (b_using_bins (c_base s)).
  { exact (energy_bins_efficiency (x_Integrate X) (Semiconductor_dRdE X DM D s) (c_base s) cs e P L B). }
  destruct Q as [Q|Q]; [discriminate|]. destruct (read_init (c_using_Q_bins s)) as [u| | |] eqn:RU; cbn [bind]; auto. destruct u; auto.
  unfold DM_Signals_Q_Bins. cbn [with_c_base c_base with_efficiencies c_using_Q_bins c_Q_threshold b_bins b_efficiencies c_crystal b_exposure b_flat_efficiency].
  rewrite RU. cbn [bind negb]. rewrite Q. cbn [read_init bind].
  assert (U : u32 (1 + b_bins (c_base s)) = (1 + Z.of_nat (List.length e))%Z) by (unfold u32; rewrite <- B; apply Z.mod_small; lia).
  rewrite U. unfold Zrange. replace (Z.to_nat (1 + Z.of_nat (List.length e) - 1)) with (List.length e) by lia.
  rewrite !DetectorBins_Proofs.map_res_map. apply (map_res_zip cs _ _ (List.length e) 0); [lia|]. intros i c I N.
  assert (J : u32 (1 + Z.of_nat i - 1) = Z.of_nat i) by (unfold u32; rewrite Z.mod_small; lia). rewrite J.
  assert (A : forall l : list xr, (i < List.length l)%nat -> at_ubZ l (Z.of_nat i) = at_ub l i).
  { intros l K. unfold at_ubZ. rewrite (proj2 (Z.ltb_ge _ _)) by lia. rewrite (proj2 (Z.ltb_lt _ _)) by lia. rewrite Nat2Z.id. reflexivity. }
  rewrite !A by (rewrite ?zip_length by auto; lia).
  apply times_scaled; [apply zip_nth; auto|]. intros x. apply times_keep. intros r. assert (C : 0 < c) by (apply P; eapply nth_error_In; eauto). leaf C.
Qed.
