(** Expected counts are proportional to the exposure and to the efficiencies. *)
From Coq Require Import Reals ZArith String Lia Lra Bool.
From Coquelicot Require Import Coquelicot.
From Coq Require Import List.
From Verif Require Import Base XrFacts Quadrature Nuclear_Model Nucleus_Model Particle_Model CrossSection_Model Distribution_Model Atom_Model
  Crystal_Model Rates_Model Detector_Model DetectorTypes_Model Scaling_Proofs.
Import ListNotations.
Local Open Scope R_scope.

(** * The same detector with another exposure *)
Definition with_exposure (x : xr) (d : detector) : detector :=
  mkDetector (b_targets d) x (b_flat_efficiency d) (b_analysis d) (b_observed d) (b_background d) (b_bins d) (b_efficiencies d) (b_bin_observed d) (b_bin_background d) (b_using_fiducial d) (b_fiducial_coupling d) (b_fiducial_signals d) (b_fiducial_spectrum d) (b_gap_data d) (b_threshold d) (b_energy_max d) (b_using_threshold d) (b_using_bins d) (b_bin_energies d) (b_name d).
Definition n_exposure (x : xr) (n : nuclear) : nuclear := with_n_base (with_exposure x (n_base n)) n.
Definition i_exposure (x : xr) (s : ionization) : ionization := with_i_base (with_exposure x (i_base s)) s.
Definition c_exposure (x : xr) (s : semiconductor) : semiconductor := with_c_base (with_exposure x (c_base s)) s.

Ltac cases :=
  repeat match goal with
  | |- context [match ?a with Poisson => _ | Binned_Poisson => _ | Maximum_Gap => _ end] => destruct a; cbn [bind]
  | |- context [if ?b then _ else _] => destruct b; cbn [bind]
  | |- context [match ?l with [] => _ | _ :: _ => _ end] => destruct l; cbn [bind]
  end; try reflexivity.
Lemma base_step_exposure x d o : base_step (with_exposure x d) o = (let* d' := base_step d o in Ok (with_exposure x d')).
Proof.
  destruct o; unfold base_step, Set_Observed_Events, Set_Expected_Background, Set_Observed_Events_Binned, Set_Bin_Efficiencies,
    Set_Expected_Background_Binned, Use_Maximum_Gap, Use_Energy_Threshold, Use_Energy_Bins, Initialize_Binned_Poisson;
    change (b_analysis (with_exposure x d)) with (b_analysis d); change (b_bins (with_exposure x d)) with (b_bins d); cbn [bind]; cbv zeta; cases.
Qed.
Lemma import_files_exposure x dim files : forall n, fold_left (fun n rows => Import_Efficiency_File rows dim n) files (n_exposure x n) =
  n_exposure x (fold_left (fun n rows => Import_Efficiency_File rows dim n) files n).
Proof. induction files as [|f files IH]; intros n; cbn [fold_left]; auto. rewrite <- IH. reflexivity. Qed.
Lemma nuclear_step_exposure x n o : nuclear_step (n_exposure x n) o = (let* n' := nuclear_step n o in Ok (n_exposure x n')).
Proof.
  destruct o; cbn [nuclear_step bind]; auto.
  - change (n_base (n_exposure x n)) with (with_exposure x (n_base n)). rewrite base_step_exposure. destruct (base_step (n_base n) o); reflexivity.
  - unfold Import_Efficiency_Files. rewrite <- import_files_exposure. reflexivity.
Qed.
Lemma nuclear_run_exposure x l : forall n, nuclear_run (n_exposure x n) l = (let* n' := nuclear_run n l in Ok (n_exposure x n')).
Proof.
  induction l as [|o l IH]; intros n; cbn [nuclear_run]; auto. rewrite nuclear_step_exposure. destruct (nuclear_step n o); cbn [bind]; auto.
Qed.
Lemma ionization_step_exposure x s o : ionization_step (i_exposure x s) o = (let* s' := ionization_step s o in Ok (i_exposure x s')).
Proof.
  destruct o; cbn [ionization_step].
  - change (i_base (i_exposure x s)) with (with_exposure x (i_base s)). rewrite base_step_exposure. destruct (base_step (i_base s) o); reflexivity.
  - unfold Use_Electron_Threshold. cbv zeta. destruct (_ && _)%bool; cbn [i_ne_max i_ne_threshold with_ne]; cases.
  - unfold Use_Electron_Bins, Initialize_Binned_Poisson. change (b_analysis (i_base (i_exposure x s))) with (b_analysis (i_base s)). cbv zeta. cbn [i_ne_max i_ne_threshold with_ne]. cases.
  - unfold Use_PE_Threshold. cbv zeta. cbn [i_PE_max i_PE_threshold with_PE]. cases.
  - unfold Import_Trigger_Efficiency_PE. cbn [i_exposure with_i_base i_using_S2_bins i_using_S2_threshold]. cases.
  - unfold Import_Acceptance_Efficiency_PE. cbn [i_exposure with_i_base i_using_S2_bins i_using_S2_threshold]. cases.
  - unfold Use_PE_Bins, Initialize_Binned_Poisson. change (b_analysis (i_base (i_exposure x s))) with (b_analysis (i_base s)). cbv zeta. cases.
Qed.
Lemma ionization_run_exposure x l : forall s, ionization_run (i_exposure x s) l = (let* s' := ionization_run s l in Ok (i_exposure x s')).
Proof.
  induction l as [|o l IH]; intros s; cbn [ionization_run]; auto. rewrite ionization_step_exposure. destruct (ionization_step s o); cbn [bind]; auto.
Qed.
Lemma semiconductor_step_exposure x s o : semiconductor_step (c_exposure x s) o = (let* s' := semiconductor_step s o in Ok (c_exposure x s')).
Proof.
  destruct o; cbn [semiconductor_step bind]; auto.
  - change (c_base (c_exposure x s)) with (with_exposure x (c_base s)). rewrite base_step_exposure. destruct (base_step (c_base s) o); reflexivity.
  - unfold Use_Q_Bins, Initialize_Binned_Poisson. cbv zeta. change (c_crystal (c_exposure x s)) with (c_crystal s).
    change (b_analysis (c_base (c_exposure x s))) with (b_analysis (c_base s)). cases.
Qed.
Lemma semiconductor_run_exposure x l : forall s, semiconductor_run (c_exposure x s) l = (let* s' := semiconductor_run s l in Ok (c_exposure x s')).
Proof.
  induction l as [|o l IH]; intros s; cbn [semiconductor_run]; auto. rewrite semiconductor_step_exposure. destruct (semiconductor_step s o); cbn [bind]; auto.
Qed.

(** * Counts and exposure *)
Lemma energy_bins_exposure I f c d : 0 < c ->
  DM_Signals_Energy_Bins I f (with_exposure (xmul (Fin c) (b_exposure d)) d) = times_all c (DM_Signals_Energy_Bins I f d).
Proof.
  intros C. unfold DM_Signals_Energy_Bins. cbn [with_exposure b_using_bins b_bins b_bin_energies b_exposure b_efficiencies].
  destruct (negb _); auto. apply map_res_times. intros i _. do 3 (apply times_keep; intros). apply times_keep. intros e. leaf C.
Qed.
Lemma binned_base_exposure I f c d : 0 < c ->
  DM_Signals_Binned_Base I f (with_exposure (xmul (Fin c) (b_exposure d)) d) = times_all c (DM_Signals_Binned_Base I f d).
Proof.
  intros C. unfold DM_Signals_Binned_Base. cbn [with_exposure b_analysis b_using_bins]. destruct (b_analysis d); auto. destruct (b_using_bins d); auto.
  apply energy_bins_exposure; auto.
Qed.
Lemma total_base_exposure I T f c d : 0 < c ->
  DM_Signals_Total_Base I T f (with_exposure (xmul (Fin c) (b_exposure d)) d) = times c (DM_Signals_Total_Base I T f d).
Proof.
  intros C. unfold DM_Signals_Total_Base. cbn [with_exposure b_analysis b_threshold b_energy_max b_exposure].
  assert (K : forall args, (let* values := map_res f args in let* integral := T args values (b_threshold d) (b_energy_max d) in Ok (xmul (xmul (Fin c) (b_exposure d)) integral)) =
     times c (let* values := map_res f args in let* integral := T args values (b_threshold d) (b_energy_max d) in Ok (xmul (b_exposure d) integral))).
  { intros args. do 2 (apply times_keep; intros). leaf C. }
  destruct (b_analysis d); try apply K. apply sum_all_times; auto. apply (binned_base_exposure I f c d C).
Qed.

(** What is claimed of every detector: multiplying the exposure by c leaves the spectrum and the rate per exposure alone and multiplies
    every expected count by c. *)
Definition exposure_scales (c : R) (spectrum spectrum' : xr -> res xr) (total total' : res xr) (bins bins' : res (list xr)) : Prop :=
  (forall E, spectrum' E = spectrum E) /\ total' = times c total /\ bins' = times_all c bins.

Lemma nuclear_exposure X DM D n c : 0 < c ->
  let n' := n_exposure (xmul (Fin c) (b_exposure (n_base n))) n in
  exposure_scales c (Nuclear_dRdE X DM D n) (Nuclear_dRdE X DM D n') (Nuclear_Total X DM D n) (Nuclear_Total X DM D n') (Nuclear_Binned X DM D n) (Nuclear_Binned X DM D n').
Proof.
  intros C n'. split; [reflexivity|]. split.
  - exact (total_base_exposure (x_Integrate X) (x_Interpolate X) (Nuclear_dRdE X DM D n) c (n_base n) C).
  - exact (binned_base_exposure (x_Integrate X) (Nuclear_dRdE X DM D n) c (n_base n) C).
Qed.

Lemma ionization_binned_exposure X DM D s c : 0 < c ->
  Ionization_Binned X DM D (i_exposure (xmul (Fin c) (b_exposure (i_base s))) s) = times_all c (Ionization_Binned X DM D s).
Proof.
  intros C. set (s' := i_exposure _ s). unfold Ionization_Binned. change (b_analysis (i_base s')) with (b_analysis (i_base s)).
  change (b_using_bins (i_base s')) with (b_using_bins (i_base s)). change (i_using_ne_bins s') with (i_using_ne_bins s).
  change (i_using_S2_bins s') with (i_using_S2_bins s).
  destruct (b_analysis (i_base s)); auto. destruct (b_using_bins (i_base s)).
  { exact (energy_bins_exposure (x_Integrate X) (Ionization_dRdE X DM D s) c (i_base s) C). }
  destruct (i_using_ne_bins s).
  { unfold DM_Signals_Electron_Bins. change (i_using_ne_bins s') with (i_using_ne_bins s). destruct (negb _); auto.
    apply map_res_times. intros i _. cbv zeta. change (R_ne X DM D s') with (R_ne X DM D s).
    apply times_keep. intros a. apply times_keep. intros e. change (b_exposure (i_base s')) with (xmul (Fin c) (b_exposure (i_base s))). leaf C. }
  destruct (i_using_S2_bins s) eqn:U; auto. unfold DM_Signals_PE_Bins. change (i_using_S2_bins s') with (i_using_S2_bins s). rewrite U. cbn [negb].
  change (R_ne X DM D s') with (R_ne X DM D s). apply times_all_keep. intros l. apply map_res_times. intros i _.
  change (i_S2_ranges s') with (i_S2_ranges s). change (R_S2_Bin X DM D s') with (R_S2_Bin X DM D s).
  change (b_efficiencies (i_base s')) with (b_efficiencies (i_base s)). do 4 (apply times_keep; intros).
  change (b_exposure (i_base s')) with (xmul (Fin c) (b_exposure (i_base s))). leaf C.
Qed.
Lemma concat_times c (terms : list (list xr)) : concat (map (map (xmul (Fin c))) terms) = map (xmul (Fin c)) (concat terms).
Proof. induction terms as [|a t IH]; cbn [map concat]; auto. rewrite map_app, IH; auto. Qed.
Lemma map_res_lists {A : Type} c (f f' : A -> res (list xr)) l : (forall a, f' a = times_all c (f a)) ->
  map_res f' l = (let* t := map_res f l in Ok (map (map (xmul (Fin c))) t)).
Proof.
  intros H. induction l as [|a l IH]; cbn [map_res]; auto. rewrite H, IH. destruct (f a); cbn [times_all bind]; auto.
  destruct (map_res f l); cbn [bind]; auto.
Qed.
Lemma sum_lists {A : Type} c (f f' : A -> res (list xr)) l : 0 < c -> (forall a, f' a = times_all c (f a)) ->
  (let* t := map_res f' l in Ok (xsum (concat t))) = times c (let* t := map_res f l in Ok (xsum (concat t))).
Proof.
  intros C H. rewrite (map_res_lists c f f' l H). destruct (map_res f l); cbn [times bind]; auto. rewrite concat_times, xsum_c; auto.
Qed.
Lemma ionization_total_exposure X DM D s c : homogeneous (x_Integrate X) -> 0 < c ->
  Ionization_Total X DM D (i_exposure (xmul (Fin c) (b_exposure (i_base s))) s) = times c (Ionization_Total X DM D s).
Proof.
  intros HI C. pose proof (ionization_binned_exposure X DM D s c C) as B. set (s' := i_exposure _ s) in *.
  unfold Ionization_Total. change (b_analysis (i_base s')) with (b_analysis (i_base s)).
  assert (K : forall k k' : res xr, k' = times c k -> match b_analysis (i_base s) with Binned_Poisson => let* l := Ionization_Binned X DM D s' in Ok (xsum l) | _ => k' end =
     times c match b_analysis (i_base s) with Binned_Poisson => let* l := Ionization_Binned X DM D s in Ok (xsum l) | _ => k end).
  { intros k k' E. destruct (b_analysis (i_base s)); auto. apply sum_all_times; auto. }
  apply K. change (i_using_ne_threshold s') with (i_using_ne_threshold s). change (b_using_threshold (i_base s')) with (b_using_threshold (i_base s)).
  change (i_using_S2_threshold s') with (i_using_S2_threshold s). change (b_exposure (i_base s')) with (xmul (Fin c) (b_exposure (i_base s))).
  destruct (i_using_ne_threshold s).
  { change (i_ne_max s') with (i_ne_max s). change (i_ne_threshold s') with (i_ne_threshold s). change (R_ne X DM D s') with (R_ne X DM D s).
    destruct (_ =? _)%Z; auto. apply sum_res_times; auto. intros ne _. apply times_keep. intros r. leaf C. }
  destruct (b_using_threshold (i_base s)).
  { apply sum_lists; auto. intros i. change (i_atoms s') with (i_atoms s). change (i_fractions s') with (i_fractions s).
    do 2 (apply times_all_keep; intros). apply map_res_times. intros sh _. unfold threshold_term. cbv zeta.
    change (b_threshold (i_base s')) with (b_threshold (i_base s)). change (Ionization_dRdE_shell X DM D s') with (Ionization_dRdE_shell X DM D s).
    change (b_exposure (i_base s')) with (xmul (Fin c) (b_exposure (i_base s))).
    destruct (xlt _ _); [|apply times_zero]. apply times_scaled; [|intros; leaf C]. apply Integrate_times; auto. intros E.
    apply times_keep. intros r. leaf C. }
  destruct (i_using_S2_threshold s); [|apply times_zero].
  change (R_S2_Bin X DM D s') with (R_S2_Bin X DM D s). change (i_PE_threshold s') with (i_PE_threshold s). change (i_PE_max s') with (i_PE_max s).
  apply times_keep. intros r. leaf C.
Qed.
Lemma ionization_exposure X DM D s c : homogeneous (x_Integrate X) -> 0 < c ->
  let s' := i_exposure (xmul (Fin c) (b_exposure (i_base s))) s in
  exposure_scales c (Ionization_dRdE X DM D s) (Ionization_dRdE X DM D s') (Ionization_Total X DM D s) (Ionization_Total X DM D s') (Ionization_Binned X DM D s) (Ionization_Binned X DM D s').
Proof.
  intros HI C s'. split; [reflexivity|]. split; [apply ionization_total_exposure | apply ionization_binned_exposure]; auto.
Qed.

Lemma semiconductor_binned_exposure X DM D s c : 0 < c ->
  Semiconductor_Binned X DM D (c_exposure (xmul (Fin c) (b_exposure (c_base s))) s) = times_all c (Semiconductor_Binned X DM D s).
Proof.
  intros C. set (s' := c_exposure _ s). unfold Semiconductor_Binned. change (b_analysis (c_base s')) with (b_analysis (c_base s)).
  change (b_using_bins (c_base s')) with (b_using_bins (c_base s)). change (c_using_Q_bins s') with (c_using_Q_bins s).
  destruct (b_analysis (c_base s)); auto. destruct (b_using_bins (c_base s)).
  { exact (energy_bins_exposure (x_Integrate X) (Semiconductor_dRdE X DM D s) c (c_base s) C). }
  apply times_all_keep. intros u. destruct u; auto. unfold DM_Signals_Q_Bins. change (c_using_Q_bins s') with (c_using_Q_bins s).
  apply times_all_keep. intros u. destruct (negb u); auto. change (c_Q_threshold s') with (c_Q_threshold s). apply times_all_keep. intros Qt.
  change (b_bins (c_base s')) with (b_bins (c_base s)). apply map_res_times. intros Q _.
  change (b_efficiencies (c_base s')) with (b_efficiencies (c_base s)). change (c_crystal s') with (c_crystal s).
  do 2 (apply times_keep; intros). change (b_exposure (c_base s')) with (xmul (Fin c) (b_exposure (c_base s))).
  change (b_flat_efficiency (c_base s')) with (b_flat_efficiency (c_base s)). leaf C.
Qed.
Lemma semiconductor_total_exposure X DM D s c : 0 < c ->
  Semiconductor_Total X DM D (c_exposure (xmul (Fin c) (b_exposure (c_base s))) s) = times c (Semiconductor_Total X DM D s).
Proof.
  intros C. pose proof (semiconductor_binned_exposure X DM D s c C) as B. set (s' := c_exposure _ s) in *.
  unfold Semiconductor_Total. cbv zeta. change (b_analysis (c_base s')) with (b_analysis (c_base s)).
  change (Semiconductor_dRdE X DM D s') with (Semiconductor_dRdE X DM D s).
  change (b_using_threshold (c_base s')) with (b_using_threshold (c_base s)). change (c_using_Q_threshold s') with (c_using_Q_threshold s).
  change (b_threshold (c_base s')) with (b_threshold (c_base s)). change (b_energy_max (c_base s')) with (b_energy_max (c_base s)).
  change (c_Q_threshold s') with (c_Q_threshold s). change (c_crystal s') with (c_crystal s).
  change (b_exposure (c_base s')) with (xmul (Fin c) (b_exposure (c_base s))).
  change (b_flat_efficiency (c_base s')) with (b_flat_efficiency (c_base s)).
  assert (K : forall flag : bool, (if flag then let* integral := x_Integrate X (Semiconductor_dRdE X DM D s) (b_threshold (c_base s)) (b_energy_max (c_base s)) in
        Ok (xmul (xmul (Fin c) (b_exposure (c_base s))) integral)
      else let* u := read_init (c_using_Q_threshold s) in if u then
          let* Qt := read_init (c_Q_threshold s) in let* r := R_total_Crystal (x_Integrate X) (s32 Qt) DM D (c_crystal s) in
          Ok (xmul (xmul (xmul (Fin c) (b_exposure (c_base s))) (b_flat_efficiency (c_base s))) r) else Ok (Fin 0)) =
     times c (if flag then let* integral := x_Integrate X (Semiconductor_dRdE X DM D s) (b_threshold (c_base s)) (b_energy_max (c_base s)) in
        Ok (xmul (b_exposure (c_base s)) integral)
      else let* u := read_init (c_using_Q_threshold s) in if u then
          let* Qt := read_init (c_Q_threshold s) in let* r := R_total_Crystal (x_Integrate X) (s32 Qt) DM D (c_crystal s) in
          Ok (xmul (xmul (b_exposure (c_base s)) (b_flat_efficiency (c_base s))) r) else Ok (Fin 0))).
  { intros flag. destruct flag. { apply times_keep. intros. leaf C. } apply times_keep. intros u. destruct u; [|apply times_zero].
    do 2 (apply times_keep; intros). leaf C. }
  destruct (b_analysis (c_base s)); try apply K. apply sum_all_times; auto.
Qed.
Lemma semiconductor_exposure X DM D s c : 0 < c ->
  let s' := c_exposure (xmul (Fin c) (b_exposure (c_base s))) s in
  exposure_scales c (Semiconductor_dRdE X DM D s) (Semiconductor_dRdE X DM D s') (Semiconductor_Total X DM D s) (Semiconductor_Total X DM D s') (Semiconductor_Binned X DM D s) (Semiconductor_Binned X DM D s').
Proof.
  intros C s'. split; [reflexivity|]. split; [apply semiconductor_total_exposure | apply semiconductor_binned_exposure]; auto.
Qed.

(** * Every detector, whatever calls were made after its construction *)

(** The second detector (built with c times the exposure) has the same spectrum and rate; all expected counts are multiplied by c. *)
Definition counts_scale (c : R) (V V' : virtuals) (d d' : detector) (p : particle) : Prop :=
  (forall E, v_dRdE V' d' p E = v_dRdE V d p E) /\ DM_Signal_Rate_Total V' d' p = DM_Signal_Rate_Total V d p /\
  v_total V' d' p = times c (v_total V d p) /\ v_binned V' d' p = times_all c (v_binned V d p).
Lemma div_c_c c a b : 0 < c -> xdiv (xmul (Fin c) a) (xmul (Fin c) b) = xdiv a b.
Proof.
  intros C. destruct a as [a| | |], b as [b| | |]; crush C.
Qed.
Lemma counts_scale_intro c V V' d d' p : 0 < c -> b_exposure d' = xmul (Fin c) (b_exposure d) ->
  exposure_scales c (v_dRdE V d p) (v_dRdE V' d' p) (v_total V d p) (v_total V' d' p) (v_binned V d p) (v_binned V' d' p) -> counts_scale c V V' d d' p.
Proof.
  intros C E (S & T & B). split; [exact S|]. split; [|split; auto]. unfold DM_Signal_Rate_Total. rewrite T, E.
  destruct (v_total V d p); cbn [times bind]; auto. rewrite div_c_c; auto.
Qed.

(** A detector is constructed and then configured by a list of calls. *)
Definition nuclear_history (label : string) (expo : xr) (nuclei : list Nucleus) (abund : list xr) (ops : list nuclear_op) : res nuclear :=
  let* n := Nuclear_ctor label expo nuclei abund in nuclear_run n ops.
Definition ionization_history (Import_Table : string -> res (list (list xr))) (w : nuclear_world) (ch : channel) (label : string) (expo : xr)
    (atoms : list string) (mass_fractions : list xr) (ops : list ionization_op) : res ionization :=
  let* (s, w') := Ionization_ctor Import_Table w ch label expo atoms mass_fractions in ionization_run s ops.
Definition semiconductor_history (Import_List : string -> res (list xr)) (label : string) (expo : xr) (crys : string) (ops : list semiconductor_op) : res semiconductor :=
  let* s := Semiconductor_ctor Import_List label expo crys in semiconductor_run s ops.

Lemma base_step_keeps d o d' : base_step d o = Ok d' -> b_exposure d' = b_exposure d.
Proof.
  intros H. pose proof (base_step_exposure (b_exposure d) d o) as K. rewrite H in K. cbn [bind] in K.
  replace (with_exposure (b_exposure d) d) with d in K by (destruct d; reflexivity). rewrite H in K. apply Ok_inj in K. rewrite K. reflexivity.
Qed.
Lemma n_eta n : n_exposure (b_exposure (n_base n)) n = n. Proof. destruct n as [d]; destruct d; reflexivity. Qed.
Lemma i_eta s : i_exposure (b_exposure (i_base s)) s = s. Proof. destruct s as [d]; destruct d; reflexivity. Qed.
Lemma c_eta s : c_exposure (b_exposure (c_base s)) s = s. Proof. destruct s as [d]; destruct d; reflexivity. Qed.

Lemma nuclear_counts X D p label expo nuclei abund ops n c : 0 < c -> nuclear_history label expo nuclei abund ops = Ok n ->
  exists n', nuclear_history label (xmul (Fin c) expo) nuclei abund ops = Ok n' /\
    counts_scale c (nuclear_virtuals X D n) (nuclear_virtuals X D n') (n_base n) (n_base n') p.
Proof.
  intros C. unfold nuclear_history, Nuclear_ctor. destruct (relative_fractions nuclei abund) as [f| | |]; cbn [bind]; try discriminate.
  set (n0 := fun e => mkNuclear (Detector_ctor label e "Nuclei") nuclei f (Fin 0.0) false []).
  change (nuclear_run (n0 expo) ops = Ok n -> exists n', nuclear_run (n0 (xmul (Fin c) expo)) ops = Ok n' /\
    counts_scale c (nuclear_virtuals X D n) (nuclear_virtuals X D n') (n_base n) (n_base n') p).
  change (n0 (xmul (Fin c) expo)) with (n_exposure (xmul (Fin c) expo) (n0 expo)). intros H. rewrite nuclear_run_exposure, H. cbn [bind].
  assert (E : b_exposure (n_base n) = expo).
  { pose proof (nuclear_run_exposure expo ops (n0 expo)) as K. change (n_exposure expo (n0 expo)) with (n0 expo) in K. rewrite H in K.
    cbn [bind] in K. apply Ok_inj in K. rewrite K. reflexivity. }
  eexists. split; [reflexivity|]. apply counts_scale_intro; auto. { cbn [n_base n_exposure with_n_base with_exposure b_exposure]. rewrite E. reflexivity. }
  rewrite <- E. pose proof (nuclear_exposure X (interface_of (x_I2 X) p) D n c C) as K. destruct n. exact K.
Qed.
Lemma ionization_counts X D p Import_Table w ch label expo atoms fractions ops s c : homogeneous (x_Integrate X) -> 0 < c ->
  ionization_history Import_Table w ch label expo atoms fractions ops = Ok s ->
  exists s', ionization_history Import_Table w ch label (xmul (Fin c) expo) atoms fractions ops = Ok s' /\
    counts_scale c (ionization_virtuals X D s) (ionization_virtuals X D s') (i_base s) (i_base s') p.
Proof.
  intros HI C. unfold ionization_history, Ionization_ctor. destruct (make_atoms Import_Table w atoms) as [[l w']| | |]; cbn [bind]; try discriminate.
  destruct (ionization_fractions (List.length l) fractions) as [f| | |]; cbn [bind]; try discriminate.
  set (s0 := Ionization_start ch label expo l f).
  change (Ionization_start ch label (xmul (Fin c) expo) l f) with (i_exposure (xmul (Fin c) expo) s0). intros H. rewrite ionization_run_exposure, H. cbn [bind].
  assert (E : b_exposure (i_base s) = expo).
  { pose proof (ionization_run_exposure expo ops s0) as K. change (i_exposure expo s0) with s0 in K. rewrite H in K.
    cbn [bind] in K. apply Ok_inj in K. rewrite K. reflexivity. }
  eexists. split; [reflexivity|]. apply counts_scale_intro; auto. { cbn [i_base i_exposure with_i_base with_exposure b_exposure]. rewrite E. reflexivity. }
  rewrite <- E. pose proof (ionization_exposure X (interface_of (x_I2 X) p) D s c HI C) as K. destruct s. exact K.
Qed.
Lemma semiconductor_counts X D p Import_List label expo crys ops s c : 0 < c ->
  semiconductor_history Import_List label expo crys ops = Ok s ->
  exists s', semiconductor_history Import_List label (xmul (Fin c) expo) crys ops = Ok s' /\
    counts_scale c (semiconductor_virtuals X D s) (semiconductor_virtuals X D s') (c_base s) (c_base s') p.
Proof.
  intros C. unfold semiconductor_history, Semiconductor_ctor. destruct (Crystal_ctor Import_List crys) as [x| | |]; cbn [bind]; try discriminate.
  set (s0 := mkSemiconductor (Detector_ctor label expo "Electrons") x None None None).
  change (mkSemiconductor (Detector_ctor label (xmul (Fin c) expo) "Electrons") x None None None) with (c_exposure (xmul (Fin c) expo) s0).
  intros H. rewrite semiconductor_run_exposure, H. cbn [bind].
  assert (E : b_exposure (c_base s) = expo).
  { pose proof (semiconductor_run_exposure expo ops s0) as K. change (c_exposure expo s0) with s0 in K. rewrite H in K.
    cbn [bind] in K. apply Ok_inj in K. rewrite K. reflexivity. }
  eexists. split; [reflexivity|]. apply counts_scale_intro; auto. { cbn [c_base c_exposure with_c_base with_exposure b_exposure]. rewrite E. reflexivity. }
  rewrite <- E. pose proof (semiconductor_exposure X (interface_of (x_I2 X) p) D s c C) as K. destruct s. exact K.
Qed.
