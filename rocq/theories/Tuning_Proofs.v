(** The responses of the predefined experiments. *)
From Coq Require Import Reals ZArith String Lia Lra Bool.
From Coquelicot Require Import Coquelicot.
From Coq Require Import List.
From Verif Require Import Base XrFacts Nucleus_Model Nuclear_Model Nuclear_Proofs Atom_Model Crystal_Model Detector_Model DetectorTypes_Model Limits_Proofs Exposure_Proofs Fractions_Proofs
  Spectra_Proofs Experiments_Model Configuration_Model Experiments_Proofs Settings_Proofs.
Import ListNotations.
Local Open Scope R_scope.

(** * Specification: how the experiments respond *)
(** Recoils: energy resolution in keV, number of nuclei of each kind, efficiency files (energies in keV) one per nucleus or none. Light: gain and width
    of the photoelectron signal, files of the trigger and of the acceptance. *)
Inductive response : Type :=
| Recoils (resolution : R) (amounts : list R) (files : list string)
| Light_signal (gain width : R) (trigger acceptance : list string)
| Electrons_signal
| Pairs_signal.
(** Flat efficiency; efficiency and expected background of each bin, where the publication gives them. *)
Record tuning : Type := Tuning { t_flat : R; t_efficiencies : option (list R); t_backgrounds : option (list R); t_response : response }.

Definition tunings : list (string * tuning) :=
  [("DAMIC_N_2011", Tuning 1 None None (Recoils 0 [1] []));
   ("XENON1T_N_2017", Tuning 0.82 None None (Recoils 0 [1] []));
   ("CRESST-II", Tuning 1 None None (Recoils 0.0614 [4; 1; 1] ["data/CRESST-II/Lise_eff_AR_O.dat"; "data/CRESST-II/Lise_eff_AR_Ca.dat"; "data/CRESST-II/Lise_eff_AR_W.dat"]));
   ("CRESST-surface", Tuning 1 None None (Recoils 0.00374 [3; 2] []));
   ("CRESST-III", Tuning 0.5 None None (Recoils 0.0046 [4; 1; 1] ["data/CRESST-III/C3P1_DetA_eff_AR_O.dat"; "data/CRESST-III/C3P1_DetA_eff_AR_Ca.dat"; "data/CRESST-III/C3P1_DetA_eff_AR_W.dat"]));
   ("XENON10_S2", Tuning 0.92 None None (Light_signal 27 6.7 ["data/XENON10e/PE_Trigger_Efficiency.txt"] []));
   ("XENON100_S2", Tuning 1 None None (Light_signal 19.7 6.2 ["data/XENON100e/PE_Trigger_Efficiency.txt"] ["data/XENON100e/PE_Acceptance_Efficiency.txt"]));
   ("XENON1T_S2", Tuning 1 (Some [0; 2.59712 / 21.9; 9.76999 / 21.9; 13.5103 / 21.9; 15.5974 / 21.9; 16.9158 / 21.9]) None Electrons_signal);
   ("DarkSide-50_S2", Tuning 1 None None Electrons_signal);
   ("DarkSide-50_S2_2023", Tuning 1 None (Some [271.314; 284.115; 301.652; 318.913; 342.763; 369.199]) Electrons_signal);
   ("PandaX-4T_S2", Tuning 0.14 None None Electrons_signal);
   ("XENON10_S2_Migdal", Tuning 0.92 None None (Light_signal 27 6.7 ["data/XENON10e/PE_Trigger_Efficiency.txt"] []));
   ("XENON100_S2_Migdal", Tuning 1 None None (Light_signal 19.7 6.2 ["data/XENON100e/PE_Trigger_Efficiency.txt"] ["data/XENON100e/PE_Acceptance_Efficiency.txt"]));
   ("XENON1T_S2_Migdal", Tuning 1 (Some [0; 2.59712 / 21.9; 9.76999 / 21.9; 13.5103 / 21.9; 15.5974 / 21.9; 16.9158 / 21.9]) None Electrons_signal);
   ("DarkSide-50_S2_Migdal", Tuning 1 None None Electrons_signal);
   ("DarkSide-50_S2_Migdal_2023", Tuning 1 None (Some [271.314; 284.115; 301.652; 318.913; 342.763; 369.199]) Electrons_signal);
   ("PandaX-4T_S2_Migdal", Tuning 0.14 None None Electrons_signal);
   ("protoSENSEI@surface", Tuning 1 (Some [0.668; 0.41; 0.32; 0.27; 0.24]) None Pairs_signal);
   ("protoSENSEI@MINOS", Tuning 1 (Some [1; 0.62; 0.48]) None Pairs_signal);
   ("SENSEI@MINOS", Tuning 1 (Some [1.38 / 9.1; 2.09 / 9.1; 9.03 / 9.1; 1]) None Pairs_signal);
   ("CDMS-HVeV_2018", Tuning 0.9545 (Some [0.88; 0.91; 0.91; 0.91; 0.91; 0.91]) None Pairs_signal);
   ("CDMS-HVeV_2020", Tuning 1 None None Pairs_signal);
   ("DAMIC-M_2023", Tuning 1 None None Pairs_signal)]%string.

(** A curve over photoelectrons: from the file, if there is one. *)
Definition curve_from (F : data_files) (files : list string) (l : list xr) : Prop := match files with [] => l = [] | f :: _ => f_list F f = Ok l end.
Definition responds (F : data_files) (r : response) (d : instrument) : Prop :=
  match r, d with
  | Recoils res amounts files, DNuclear n => n_resolution n = Fin (res * keV) /\
      (exists masses fs, nuclei_masses (n_targets n) masses /\ List.length amounts = List.length masses /\ n_fractions n = map Fin fs /\ shares (weights amounts masses) fs) /\
      Forall2 (fun f c => exists rows, f_rows F f = Ok rows /\ c = in_unit (Fin keV) rows) files (n_efficiencies n) /\ (files <> [] -> n_using_tables n = true)
  | Light_signal gain width tr ac, DIonization s => i_S2_mu s = Fin gain /\ i_S2_sigma s = Fin width /\ curve_from F tr (i_trigger s) /\ curve_from F ac (i_acceptance s)
  | Electrons_signal, DIonization _ => True
  | Pairs_signal, DSemiconductor _ => True
  | _, _ => False
  end.
Definition tuned (F : data_files) (t : tuning) (d : instrument) : Prop :=
  b_flat_efficiency (instrument_base d) = Fin (t_flat t) /\
  given (option_map (map Fin) (t_efficiencies t)) (Fin 1) (b_efficiencies (instrument_base d)) /\
  given (option_map (map Fin) (t_backgrounds t)) (Fin 0) (b_bin_background (instrument_base d)) /\
  responds F (t_response t) d.

(** * Nuclei *)
Lemma nuclei_positive : forall zs w l w', world_history shipped_rows w -> Forall (fun z => z <> 43%Z /\ z <> 61%Z) zs -> Get_Nuclei w zs = Ok (l, w') ->
  exists masses, nuclei_masses l masses /\ List.length masses = List.length zs.
Proof.
  induction zs as [|z zs IH]; intros w l w' WH FZ G; cbn [Get_Nuclei] in G.
  - apply Ok_inj in G. injection G as <- <-. exists []. split; [constructor|reflexivity].
  - destruct (Get_Nucleus w z) as [[n w1]| | |] eqn:E; cbn [bind] in G; try discriminate. destruct (Get_Nuclei w1 zs) as [[t w2]| | |] eqn:E2; cbn [bind] in G; try discriminate.
    apply Ok_inj in G. injection G as <- <-. inversion FZ as [|? ? [N1 N2] FT]; subst. destruct (shipped_mass_positive w z n w1 WH E) as [P _]. destruct (P N1 N2) as (x & X1 & X2).
    destruct (IH w1 t w2 (get_nucleus_world _ _ _ _ _ WH E) FT E2) as (ms & M1 & M2). exists (x :: ms). split; [constructor; auto|cbn; congruence].
Qed.
(** Amounts that are missing count once each. *)
Lemma fractions_given nuclei masses am amounts f : nuclei_masses nuclei masses -> nuclei <> [] -> List.length amounts = List.length masses ->
  (am = [] /\ amounts = repeat 1 (List.length nuclei)) \/ (am = map Fin amounts /\ Forall (fun a => 0 <= a) amounts /\ 1 < Rsum amounts) ->
  relative_fractions nuclei am = Ok f -> exists fs, f = map Fin fs /\ shares (weights amounts masses) fs.
Proof.
  intros N NE L C E. destruct C as [(-> & ->) | (-> & P & S)].
  - destruct (nuclear_fractions_default nuclei masses N NE) as (fs & E1 & S1). rewrite E in E1. apply Ok_inj in E1. exists fs. auto.
  - destruct (masses_positive _ _ N) as (LM & _). destruct (nuclear_fractions nuclei masses amounts N ltac:(congruence) P S) as (fs & E1 & S1). rewrite E in E1. apply Ok_inj in E1. exists fs. auto.
Qed.
Lemma nuclear_runs a b n m k : nuclear_run n a = Ok m -> nuclear_run m b = Ok k -> nuclear_run n (a ++ b) = Ok k.
Proof.
  revert n. induction a as [|o a IH]; intros n A B; cbn [nuclear_run app] in *; [apply Ok_inj in A; subst; auto|]. destruct (nuclear_step n o); cbn [bind] in *; try discriminate. eauto.
Qed.
Lemma ionization_runs a b n m k : ionization_run n a = Ok m -> ionization_run m b = Ok k -> ionization_run n (a ++ b) = Ok k.
Proof.
  revert n. induction a as [|o a IH]; intros n A B; cbn [ionization_run app] in *; [apply Ok_inj in A; subst; auto|]. destruct (ionization_step n o); cbn [bind] in *; try discriminate. eauto.
Qed.
(** A nuclear experiment: constructed and told. *)
Lemma nuclear_tuned F zs w targets w1 label expo am amounts ops n res fl files : world_history shipped_rows w -> Forall (fun z => z <> 43%Z /\ z <> 61%Z) zs -> zs <> [] ->
  Get_Nuclei w zs = Ok (targets, w1) -> List.length amounts = List.length zs ->
  (am = [] /\ amounts = repeat 1 (List.length zs)) \/ (am = map Fin amounts /\ Forall (fun a => 0 <= a) amounts /\ 1 < Rsum amounts) ->
  history label expo targets am ops n ->
  resolution_after ops = Fin (res * keV) -> fold_left nuclear_told ops at_first = Settings (Fin fl) None None None ->
  Forall2 (fun f c => exists rows, f_rows F f = Ok rows /\ c = in_unit (Fin keV) rows) files (curves ops) ->
  tuned F (Tuning fl None None (Recoils res amounts files)) (DNuclear n).
Proof.
  intros WH FZ NZ G L A H R T FF. destruct (history_facts _ _ _ _ _ _ H) as (H1 & H2 & H3 & H4 & H5 & H6).
  destruct (nuclei_positive _ _ _ _ WH FZ G) as (ms & M1 & M2). destruct (masses_positive _ _ M1) as (LM & _).
  destruct H as (n0 & C & Rn). assert (HH : nuclear_history label expo targets am ops = Ok n) by (unfold nuclear_history; rewrite C; exact Rn).
  apply nuclear_settings in HH. rewrite T in HH. destruct HH as (K1 & K2 & K3 & K4).
  unfold tuned. cbn [instrument_base t_flat t_efficiencies t_backgrounds t_response option_map s_flat s_efficiencies s_backgrounds] in *.
  split; [exact K1|]. split; [exact K3|]. split; [exact K4|]. cbn [responds]. split; [congruence|]. split.
  - destruct (fractions_given targets ms am amounts (n_fractions n)) as (fs & F1 & F2); auto; try congruence.
    + intros ->. destruct ms; [|discriminate]. destruct zs; [congruence|discriminate].
    + exists ms, fs. rewrite H1. split; [exact M1|]. split; [congruence|]. auto.
  - rewrite H3. split; [exact FF|]. intros NF. apply H6. rewrite H3. inversion FF; subst; congruence.
Qed.
Lemma ionization_tuned F Import w ch label expo atom s0 w1 ops s fl ef bg r t : Ionization_ctor1 Import w ch label expo atom = Ok (s0, w1) -> ionization_run s0 ops = Ok s ->
  fold_left ionization_told ops at_first = t -> s_flat t = Fin fl -> s_efficiencies t = option_map (map Fin) ef -> s_backgrounds t = option_map (map Fin) bg ->
  (lit (fold_left light_told ops dark) s -> responds F r (DIonization s)) ->
  tuned F (Tuning fl ef bg r) (DIonization s).
Proof.
  unfold Ionization_ctor1. intros C H T F1 F2 F3 R. destruct (Atom_by_name Import w atom) as [[a w']| | |]; cbn [bind] in C; try discriminate. apply Ok_inj in C. injection C as <- <-.
  destruct (ionization_run_told ops at_first dark (Ionization_start ch label expo [a] [Fin 1.0]) s (set_first _ _ _) (lit_first ch label expo [a] [Fin 1.0]) H) as ((K1 & K2 & K3 & K4) & LL). rewrite T in *.
  unfold tuned. cbn [instrument_base t_flat t_efficiencies t_backgrounds t_response]. rewrite F1 in K1. rewrite F2 in K3. rewrite F3 in K4. auto.
Qed.
Lemma semiconductor_tuned F Import label expo crys s0 ops s fl ef bg t : Semiconductor_ctor Import label expo crys = Ok s0 -> semiconductor_run s0 ops = Ok s ->
  fold_left semiconductor_told ops at_first = t -> s_flat t = Fin fl -> s_efficiencies t = option_map (map Fin) ef -> s_backgrounds t = option_map (map Fin) bg ->
  tuned F (Tuning fl ef bg Pairs_signal) (DSemiconductor s).
Proof.
  intros C H T F1 F2 F3. assert (HH : semiconductor_history Import label expo crys ops = Ok s) by (unfold semiconductor_history; rewrite C; exact H).
  apply semiconductor_settings in HH. rewrite T in HH. destruct HH as (K1 & K2 & K3 & K4).
  unfold tuned. cbn [instrument_base t_flat t_efficiencies t_backgrounds t_response]. rewrite F1 in K1. rewrite F2 in K3. rewrite F3 in K4. cbn. auto.
Qed.

Ltac open_n H := unfold as_nuclear in H;
  match type of H with bind (?f) _ = _ => destruct f as [[? ?]| | |] eqn:?E; cbn [bind] in H; try discriminate; apply Ok_inj in H; injection H as <- <- end.
Ltac keVs := unfold keV, eV; lra.
Ltac no4361 := repeat constructor; lia.

Section Tuned.
  Variable F : data_files.
  Variable w : nuclear_world.
  Hypothesis WH : world_history shipped_rows w.
  Lemma tune_DAMIC_N d w' : as_nuclear (DAMIC_N_2011 w) = Ok (d, w') -> tuned F (Tuning 1 None None (Recoils 0 [1] [])) d.
  Proof.
    intros H. unfold as_nuclear in H. step H. destruct a as [n w2]. apply Ok_inj in H. injection H as <- <-. unfold DAMIC_N_2011 in E.
    step E. destruct a as [tg w1]. step E. step E. apply Ok_inj in E. injection E as <- <-.
    eapply nuclear_tuned with (zs := [14%Z]) (am := []); [exact WH|no4361|discriminate|exact E0|reflexivity|left; split; reflexivity|eexists; split; [exact E1|exact E2]| | |].
    - cbn. f_equal. lra.
    - reflexivity.
    - cbn. constructor.
  Qed.
  Lemma tune_XENON1T_N d w' : as_nuclear (XENON1T_N_2017 w) = Ok (d, w') -> tuned F (Tuning 0.82 None None (Recoils 0 [1] [])) d.
  Proof.
    intros H. unfold as_nuclear in H. step H. destruct a as [n w2]. apply Ok_inj in H. injection H as <- <-. unfold XENON1T_N_2017 in E.
    step E. destruct a as [tg w1]. step E. step E. apply Ok_inj in E. injection E as <- <-.
    eapply nuclear_tuned with (zs := [54%Z]) (am := []); [exact WH|no4361|discriminate|exact E0|reflexivity|left; split; reflexivity|eexists; split; [exact E1|exact E2]| | |].
    - cbn. f_equal. lra.
    - reflexivity.
    - cbn. constructor.
  Qed.
  Lemma read_three f1 f2 f3 rows : read_rows F [f1; f2; f3] = Ok rows -> Forall2 (fun f c => exists r, f_rows F f = Ok r /\ c = in_unit (Fin keV) r) [f1; f2; f3] (map (in_unit (Fin keV)) rows).
  Proof.
    unfold read_rows. cbn [map_res]. intros H. step H. step H. destruct (f_rows F f2) as [r2| | |] eqn:E2; cbn [bind] in E0; try discriminate.
    destruct (f_rows F f3) as [r3| | |] eqn:E3; cbn [bind] in E0; try discriminate. apply Ok_inj in E0. subst a0. apply Ok_inj in H. subst rows. cbn [map].
    repeat constructor; eauto.
  Qed.
  Lemma tune_CRESST_II d w' : as_nuclear (CRESST_II F w) = Ok (d, w') ->
    tuned F (Tuning 1 None None (Recoils 0.0614 [4; 1; 1] ["data/CRESST-II/Lise_eff_AR_O.dat"; "data/CRESST-II/Lise_eff_AR_Ca.dat"; "data/CRESST-II/Lise_eff_AR_W.dat"]%string)) d.
  Proof.
    intros H. unfold as_nuclear in H. step H. destruct a as [n w2]. apply Ok_inj in H. injection H as <- <-. unfold CRESST_II in E.
    step E. destruct a as [tg w1]. step E. step E. step E. step E. step E. apply Ok_inj in E. injection E as <- <-.
    eapply nuclear_tuned with (zs := [8%Z; 20%Z; 74%Z]) (am := map Fin [4; 1; 1]); [exact WH|no4361|discriminate|exact E0|reflexivity| |eexists; split; [exact E1|exact (nuclear_runs _ _ _ _ _ E3 E5)]| | |].
    - right. split; [reflexivity|]. split; [repeat constructor; lra|unfold Rsum; cbn; lra].
    - cbn [app resolution_after fold_left]. unfold resolution_after. cbn [fold_left app]. rewrite xmul_fin, xdiv_fin by lra. f_equal. keVs.
    - cbn [app fold_left nuclear_told told]. reflexivity.
    - cbn [app curves fold_left curves_step]. exact (read_three _ _ _ _ E4).
  Qed.
  Lemma tune_CRESST_III d w' : as_nuclear (CRESST_III F w) = Ok (d, w') ->
    tuned F (Tuning 0.5 None None (Recoils 0.0046 [4; 1; 1] ["data/CRESST-III/C3P1_DetA_eff_AR_O.dat"; "data/CRESST-III/C3P1_DetA_eff_AR_Ca.dat"; "data/CRESST-III/C3P1_DetA_eff_AR_W.dat"]%string)) d.
  Proof.
    intros H. unfold as_nuclear in H. step H. destruct a as [n w2]. apply Ok_inj in H. injection H as <- <-. unfold CRESST_III in E.
    step E. destruct a as [tg w1]. step E. step E. step E. step E. step E. step E. apply Ok_inj in E. injection E as <- <-.
    eapply nuclear_tuned with (zs := [8%Z; 20%Z; 74%Z]) (am := map Fin [4; 1; 1]);
      [exact WH|no4361|discriminate|exact E0|reflexivity| |eexists; split; [exact E1|exact (nuclear_runs _ _ _ _ _ E2 (nuclear_runs _ _ _ _ _ E4 E6))]| | |].
    - right. split; [reflexivity|]. split; [repeat constructor; lra|unfold Rsum; cbn; lra].
    - unfold resolution_after. cbn [fold_left app]. rewrite xmul_fin. f_equal. keVs.
    - cbn [app fold_left nuclear_told told]. reflexivity.
    - cbn [app curves fold_left curves_step]. exact (read_three _ _ _ _ E5).
  Qed.
  Lemma tune_CRESST_surface d w' : as_nuclear (CRESST_surface F w) = Ok (d, w') -> tuned F (Tuning 1 None None (Recoils 0.00374 [3; 2] [])) d.
  Proof.
    intros H. unfold as_nuclear in H. step H. destruct a as [n w2]. apply Ok_inj in H. injection H as <- <-. unfold CRESST_surface in E.
    step E. destruct a as [tg w1]. step E. step E. step E. apply Ok_inj in E. injection E as <- <-.
    eapply nuclear_tuned with (zs := [8%Z; 13%Z]) (am := map Fin [3; 2]); [exact WH|no4361|discriminate|exact E0|reflexivity| |eexists; split; [exact E1|exact E3]| | |].
    - right. split; [reflexivity|]. split; [repeat constructor; lra|unfold Rsum; cbn; lra].
    - unfold resolution_after. cbn [fold_left app]. rewrite xmul_fin. f_equal. keVs.
    - cbn [app fold_left nuclear_told told]. reflexivity.
    - cbn. constructor.
  Qed.

  Ltac lists := repeat (rewrite xdiv_fin by lra); repeat (apply (f_equal2 cons); [f_equal; lra|]); reflexivity.
  Ltac told_ := cbn [app fold_left ionization_told semiconductor_told told new_bins at_first s_flat s_efficiencies s_backgrounds s_counts].
  Lemma tune_XENON10 r d w' : r = XENON10_S2_ER F w \/ r = XENON10_S2_Migdal F w -> as_ionization r = Ok (d, w') ->
    tuned F (Tuning 0.92 None None (Light_signal 27 6.7 ["data/XENON10e/PE_Trigger_Efficiency.txt"%string] [])) d.
  Proof.
    intros [-> | ->] H.
    - unfold as_ionization in H. step H. destruct a as [s w2]. apply Ok_inj in H. injection H as <- <-. unfold XENON10_S2_ER in E. step E. destruct a as [s0 w1]. step E. step E. step E. apply Ok_inj in E. injection E as <- <-.
      eapply ionization_tuned; [exact E0|exact (ionization_runs _ _ _ _ _ E1 E3)|reflexivity| | | |]; [told_; f_equal; lra|reflexivity|reflexivity|].
      unfold lit. cbn [app fold_left light_told l_gain l_width l_trigger l_acceptance dark responds curve_from]. intros (-> & -> & -> & ->). split; [f_equal; lra|]. split; [f_equal; lra|]. auto.
    - unfold as_ionization in H. step H. destruct a as [s w2]. apply Ok_inj in H. injection H as <- <-. unfold XENON10_S2_Migdal in E. step E. destruct a as [s0 w1]. step E. step E. step E. apply Ok_inj in E. injection E as <- <-.
      eapply ionization_tuned; [exact E0|exact (ionization_runs _ _ _ _ _ E1 E3)|reflexivity| | | |]; [told_; f_equal; lra|reflexivity|reflexivity|].
      unfold lit. cbn [app fold_left light_told l_gain l_width l_trigger l_acceptance dark responds curve_from]. intros (-> & -> & -> & ->). split; [f_equal; lra|]. split; [f_equal; lra|]. auto.
  Qed.
  Lemma tune_XENON100 r d w' : r = XENON100_S2_ER F w \/ r = XENON100_S2_Migdal F w -> as_ionization r = Ok (d, w') ->
    tuned F (Tuning 1 None None (Light_signal 19.7 6.2 ["data/XENON100e/PE_Trigger_Efficiency.txt"%string] ["data/XENON100e/PE_Acceptance_Efficiency.txt"%string])) d.
  Proof.
    intros [-> | ->] H.
    - unfold as_ionization in H. step H. destruct a as [s w2]. apply Ok_inj in H. injection H as <- <-. unfold XENON100_S2_ER in E. step E. destruct a as [s0 w1]. step E. step E. step E. step E. step E. apply Ok_inj in E. injection E as <- <-.
      eapply ionization_tuned; [exact E0|exact (ionization_runs _ _ _ _ _ E1 (ionization_runs _ _ _ _ _ E3 E5))|reflexivity| | | |]; [told_; f_equal; lra|reflexivity|reflexivity|].
      unfold lit. cbn [app fold_left light_told l_gain l_width l_trigger l_acceptance dark responds curve_from]. intros (-> & -> & -> & ->). split; [f_equal; lra|]. split; [f_equal; lra|]. auto.
    - unfold as_ionization in H. step H. destruct a as [s w2]. apply Ok_inj in H. injection H as <- <-. unfold XENON100_S2_Migdal in E. step E. destruct a as [s0 w1]. step E. step E. step E. step E. step E. apply Ok_inj in E. injection E as <- <-.
      eapply ionization_tuned; [exact E0|exact (ionization_runs _ _ _ _ _ E1 (ionization_runs _ _ _ _ _ E3 E5))|reflexivity| | | |]; [told_; f_equal; lra|reflexivity|reflexivity|].
      unfold lit. cbn [app fold_left light_told l_gain l_width l_trigger l_acceptance dark responds curve_from]. intros (-> & -> & -> & ->). split; [f_equal; lra|]. split; [f_equal; lra|]. auto.
  Qed.
  Ltac simple_ion C H :=
    destruct C as [-> | ->]; unfold as_ionization in H; step H; match goal with p : (ionization * nuclear_world)%type |- _ => destruct p as [s w2] end; apply Ok_inj in H; injection H as <- <-;
    match goal with E : ?f F w = Ok _ |- _ => unfold f in E; step E; match goal with p : (ionization * nuclear_world)%type |- _ => destruct p as [s0 w1] end; step E; apply Ok_inj in E; injection E as <- <- end;
    (eapply ionization_tuned; [eassumption|eassumption|reflexivity| | | |exact (fun _ => I)]; told_; [f_equal; lra| |]; cbn [option_map map]; try reflexivity; f_equal; lists).
  Lemma tune_XENON1T r d w' : r = XENON1T_S2_ER F w \/ r = XENON1T_S2_Migdal F w -> as_ionization r = Ok (d, w') ->
    tuned F (Tuning 1 (Some [0; 2.59712 / 21.9; 9.76999 / 21.9; 13.5103 / 21.9; 15.5974 / 21.9; 16.9158 / 21.9]) None Electrons_signal) d.
  Proof. intros C H. simple_ion C H. Qed.
  Lemma tune_DarkSide50 r d w' : r = DarkSide50_S2_ER F w \/ r = DarkSide50_S2_Migdal F w -> as_ionization r = Ok (d, w') -> tuned F (Tuning 1 None None Electrons_signal) d.
  Proof. intros C H. simple_ion C H. Qed.
  Lemma tune_DarkSide50_2023 r d w' : r = DarkSide50_S2_ER_2023 F w \/ r = DarkSide50_S2_Migdal_2023 F w -> as_ionization r = Ok (d, w') ->
    tuned F (Tuning 1 None (Some [271.314; 284.115; 301.652; 318.913; 342.763; 369.199]) Electrons_signal) d.
  Proof. intros C H. simple_ion C H. Qed.
  Lemma tune_PandaX r d w' : r = PandaX_4T_S2_ER F w \/ r = PandaX_4T_S2_Migdal F w -> as_ionization r = Ok (d, w') -> tuned F (Tuning 0.14 None None Electrons_signal) d.
  Proof. intros C H. simple_ion C H. Qed.

  Ltac simple_semi H := unfold as_semiconductor in H; step H; apply Ok_inj in H; injection H as <- <-;
    match goal with E : ?f F = Ok _ |- _ => unfold f in E; step E end;
    eapply semiconductor_tuned; [eassumption|eassumption|reflexivity| | |]; told_; [f_equal; lra| |]; cbn [option_map map]; try reflexivity; f_equal; lists.
  Lemma tune_protoSENSEI_surface d w' : as_semiconductor (protoSENSEI_at_Surface F) w = Ok (d, w') -> tuned F (Tuning 1 (Some [0.668; 0.41; 0.32; 0.27; 0.24]) None Pairs_signal) d.
  Proof. intros H. simple_semi H. Qed.
  Lemma tune_protoSENSEI_MINOS d w' : as_semiconductor (protoSENSEI_at_MINOS F) w = Ok (d, w') -> tuned F (Tuning 1 (Some [1; 0.62; 0.48]) None Pairs_signal) d.
  Proof. intros H. simple_semi H. Qed.
  Lemma tune_SENSEI_MINOS d w' : as_semiconductor (SENSEI_at_MINOS F) w = Ok (d, w') -> tuned F (Tuning 1 (Some [1.38 / 9.1; 2.09 / 9.1; 9.03 / 9.1; 1]) None Pairs_signal) d.
  Proof. intros H. simple_semi H. Qed.
  Lemma tune_HVeV_2018 d w' : as_semiconductor (CDMS_HVeV_2018 F) w = Ok (d, w') -> tuned F (Tuning 0.9545 (Some [0.88; 0.91; 0.91; 0.91; 0.91; 0.91]) None Pairs_signal) d.
  Proof. intros H. simple_semi H. Qed.
  Lemma tune_HVeV_2020 d w' : as_semiconductor (CDMS_HVeV_2020 F) w = Ok (d, w') -> tuned F (Tuning 1 None None Pairs_signal) d.
  Proof. intros H. simple_semi H. Qed.
  Lemma tune_DAMIC_M d w' : as_semiconductor (DAMIC_M_2023 F) w = Ok (d, w') -> tuned F (Tuning 1 None None Pairs_signal) d.
  Proof. intros H. simple_semi H. Qed.
End Tuned.

Lemma experiments_tuned F w : world_history shipped_rows w -> forall name t d w', In (name, t) tunings -> supported_experiment F w name = Ok (d, w') -> tuned F t d.
Proof.
  intros WH name t d w' I. unfold tunings in I. cbn [In] in I.
  repeat (destruct I as [I | I]; [injection I as <- <-; unfold supported_experiment; cbn [find supported fst String.eqb Ascii.eqb Bool.eqb snd]|]);
    [ apply tune_DAMIC_N | apply tune_XENON1T_N | apply tune_CRESST_II | apply tune_CRESST_surface | apply tune_CRESST_III
    | apply (tune_XENON10 F w) | apply (tune_XENON100 F w) | apply (tune_XENON1T F w) | apply (tune_DarkSide50 F w) | apply (tune_DarkSide50_2023 F w) | apply (tune_PandaX F w)
    | apply (tune_XENON10 F w) | apply (tune_XENON100 F w) | apply (tune_XENON1T F w) | apply (tune_DarkSide50 F w) | apply (tune_DarkSide50_2023 F w) | apply (tune_PandaX F w)
    | apply tune_protoSENSEI_surface | apply tune_protoSENSEI_MINOS | apply tune_SENSEI_MINOS | apply tune_HVeV_2018 | apply tune_HVeV_2020 | apply tune_DAMIC_M
    | destruct I ]; auto.
Qed.
(** Every experiment with a publication has its tuning, and one only. *)
Lemma tunings_names : map fst tunings = map fst publications.
Proof. reflexivity. Qed.
