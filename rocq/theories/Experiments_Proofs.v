(** Lemmas about the predefined experiments. *)
From Coq Require Import Reals ZArith String Lia Lra Bool.
From Coquelicot Require Import Coquelicot.
From Coq Require Import List Permutation.
From Verif Require Import Base XrFacts Quadrature Nucleus_Model Nuclear_Model Nuclear_Proofs Particle_Model Distribution_Model Distribution_Proofs Atom_Model Atom_Proofs Crystal_Model
  Crystal_Proofs Rates_Model Detector_Model DetectorTypes_Model Detector_Proofs DetectorSafety_Proofs DetectorModes_Proofs MaxGap_Proofs Experiments_Model Configuration_Model.
Import ListNotations.
Local Open Scope R_scope.

(** * Specification: what the publications report *)
(** How events are counted: one number, bins of electrons or electron-hole pairs starting with a number, bins of photoelectrons with edges,
    or event energies in keV from a file for the maximum gap, with the energy window in keV. *)
Inductive counting : Type :=
| Single (events : Z) (lo hi : R)
| Quanta (first : Z) (events : list Z)
| Photoelectrons (edges events : list Z)
| Energies (lo hi : R) (file : string).
(** What the target is: nuclei by charge, an atom with the kind of scattering, silicon. *)
Inductive material : Type := Nuclei_of (zs : list Z) | Atom_of (ch : channel) (z : Z) | Silicon.
(** Label, exposure in kg days, target, events. *)
Record publication : Type := Publication { pb_label : string; pb_exposure : R; pb_material : material; pb_counting : counting }.

Definition publications : list (string * publication) :=
  [("DAMIC_N_2011", Publication "DAMIC_N_2011" 0.107 (Nuclei_of [14%Z]) (Single 106 0.55 7));
   ("XENON1T_N_2017", Publication "XENON1T_N_2017" (34.2 * 1042) (Nuclei_of [54%Z]) (Single 0 5 40));
   ("CRESST-II", Publication "CRESST-II" 52.15 (Nuclei_of [8%Z; 20%Z; 74%Z]) (Energies 0.307 40 "data/CRESST-II/Lise_AR.dat"));
   ("CRESST-surface", Publication "CRESST-surface" 0.000046 (Nuclei_of [8%Z; 13%Z]) (Energies 0.0197 0.6 "data/CRESST-surface/data.txt"));
   ("CRESST-III", Publication "CRESST-III" 5.594 (Nuclei_of [8%Z; 20%Z; 74%Z]) (Energies 0.0301 16 "data/CRESST-III/C3P1_DetA_AR.dat"));
   ("XENON10_S2", Publication "XENON10_S2" 15 (Atom_of Electron_Recoil 54) (Photoelectrons [14; 41; 68; 95; 122; 149; 176; 203]%Z [126; 60; 12; 3; 2; 0; 2]%Z));
   ("XENON100_S2", Publication "XENON100_S2" (30 * 365.25) (Atom_of Electron_Recoil 54)
      (Photoelectrons [80; 90; 110; 130; 150; 170; 190; 210; 230; 250; 270]%Z [794; 1218; 924; 776; 669; 630; 528; 488; 433; 387]%Z));
   ("XENON1T_S2", Publication "XENON1T_S2" 15330 (Atom_of Electron_Recoil 54) (Quanta 5 [5; 5; 4; 2; 1; 0]%Z));
   ("DarkSide-50_S2", Publication "DarkSide-50_S2" 6786 (Atom_of Electron_Recoil 18)
      (Quanta 3 [6131; 673; 252; 227; 198; 199; 189; 247; 230; 261; 249; 329; 336]%Z));
   ("DarkSide-50_S2_2023", Publication "DarkSide-50_S2_2023" 12306 (Atom_of Electron_Recoil 18) (Quanta 4 [284; 324; 292; 285; 287; 360]%Z));
   ("PandaX-4T_S2", Publication "PandaX-4T_S2" (550 * 365.25) (Atom_of Electron_Recoil 54) (Quanta 4 [34; 14; 13; 7; 11; 12; 14]%Z));
   ("XENON10_S2_Migdal", Publication "XENON10_S2" 15 (Atom_of Migdal 54) (Photoelectrons [14; 41; 68; 95; 122; 149; 176; 203]%Z [126; 60; 12; 3; 2; 0; 2]%Z));
   ("XENON100_S2_Migdal", Publication "XENON100_S2" (30 * 365.25) (Atom_of Migdal 54)
      (Photoelectrons [80; 90; 110; 130; 150; 170; 190; 210; 230; 250; 270]%Z [794; 1218; 924; 776; 669; 630; 528; 488; 433; 387]%Z));
   ("XENON1T_S2_Migdal", Publication "XENON1T_S2" 15330 (Atom_of Migdal 54) (Quanta 5 [5; 5; 4; 2; 1; 0]%Z));
   ("DarkSide-50_S2_Migdal", Publication "DarkSide-50_S2" 6786 (Atom_of Migdal 18)
      (Quanta 3 [6131; 673; 252; 227; 198; 199; 189; 247; 230; 261; 249; 329; 336]%Z));
   ("DarkSide-50_S2_Migdal_2023", Publication "DarkSide-50_S2_2023" 12306 (Atom_of Migdal 18) (Quanta 4 [284; 324; 292; 285; 287; 360]%Z));
   ("PandaX-4T_S2_Migdal", Publication "PandaX-4T_S2" (550 * 365.25) (Atom_of Migdal 54) (Quanta 4 [34; 14; 13; 7; 11; 12; 14]%Z));
   ("protoSENSEI@surface", Publication "protoSENSEI@surface" (0.00007 * (456 / 1440)) Silicon (Quanta 1 [140302; 4676; 131; 1; 0]%Z));
   ("protoSENSEI@MINOS", Publication "protoSENSEI@MINOS" 0.000246 Silicon (Quanta 1 [8516; 87; 0]%Z));
   ("SENSEI@MINOS", Publication "SENSEI@MINOS" 0.0091 Silicon (Quanta 1 [578; 5; 0; 0]%Z));
   ("CDMS-HVeV_2018", Publication "CDMS-HVeV_2018" 0.000487 Silicon (Quanta 1 [53000; 400; 74; 18; 7; 14]%Z));
   ("CDMS-HVeV_2020", Publication "CDMS-HVeV_2020" 0.0012 Silicon (Quanta 1 [178800; 1320; 248; 64; 19; 6]%Z));
   ("DAMIC-M_2023", Publication "DAMIC-M_2023" 0.034092 Silicon (Quanta 1 [4216354; 11345; 19]%Z))]%string.

(** A number that is an efficiency, a number of expected events. *)
Definition is_efficiency (x : xr) : Prop := exists r, x = Fin r /\ 0 <= r <= 1.
Definition is_expectation (x : xr) : Prop := exists r, x = Fin r /\ 0 <= r.

(** The tables of a binned analysis fit the list of observed numbers. *)
Definition binned_as (l : list Z) (d : detector) : Prop :=
  b_analysis d = Binned_Poisson /\ b_bin_observed d = l /\ b_bins d = Z.of_nat (length l) /\ b_observed d = Zsum l /\
  length (b_efficiencies d) = length l /\ Forall is_efficiency (b_efficiencies d) /\ length (b_bin_background d) = length l /\ Forall is_expectation (b_bin_background d).

Definition counts_as (F : data_files) (c : counting) (d : instrument) : Prop :=
  match c with
  | Single n lo hi => let b := instrument_base d in b_analysis b = Poisson /\ b_using_threshold b = true /\ b_observed b = n /\ b_background b = Fin 0 /\
      b_threshold b = Fin (lo * keV) /\ b_energy_max b = Fin (hi * keV)
  | Quanta first l => binned_as l (instrument_base d) /\ b_using_bins (instrument_base d) = false /\
      match d with
      | DIonization s => i_using_ne_bins s = true /\ i_ne_threshold s = first /\ i_ne_max s = (first + Z.of_nat (length l) - 1)%Z
      | DSemiconductor s => c_using_Q_bins s = Some true /\ c_Q_threshold s = Some first
      | DNuclear _ => False
      end
  | Photoelectrons edges l => binned_as l (instrument_base d) /\ b_using_bins (instrument_base d) = false /\
      match d with DIonization s => i_using_S2_bins s = true /\ i_using_ne_bins s = false /\ i_S2_ranges s = edges | _ => False end
  | Energies lo hi file => let b := instrument_base d in b_analysis b = Maximum_Gap /\
      exists l t, f_list F file = Ok (map Fin l) /\ b_gap_data b = map Fin t /\ Permutation (map (fun x => x * keV) (l ++ [lo; hi])) t /\ ascending t /\
        (Forall (fun x => lo <= x <= hi) l -> b_threshold b = Fin (lo * keV) /\ b_energy_max b = Fin (hi * keV))
  end.
Definition made_of (rows : list row) (F : data_files) (m : material) (d : instrument) : Prop :=
  match m, d with
  | Nuclei_of zs, DNuclear n => Forall2 (element_of_table rows) zs (n_targets n) /\ length (n_fractions n) = length zs /\ b_targets (n_base n) = "Nuclei"%string
  | Atom_of ch z, DIonization s => i_channel s = ch /\ b_targets (i_base s) = channel_targets ch /\ i_fractions s = [Fin 1.0] /\
      exists a, i_atoms s = [a] /\ element_of_table rows z (at_nucleus a)
  | Silicon, DSemiconductor s => Crystal_ctor (f_list F) "Si" = Ok (c_crystal s) /\ b_targets (c_base s) = "Electrons"%string
  | _, _ => False
  end.
Definition realises (rows : list row) (F : data_files) (p : publication) (d : instrument) : Prop :=
  b_name (instrument_base d) = pb_label p /\ b_exposure (instrument_base d) = Fin (pb_exposure p * kg * day) /\
  (exists f, b_flat_efficiency (instrument_base d) = Fin f /\ 0 < f <= 1) /\ b_using_fiducial (instrument_base d) = false /\
  made_of rows F (pb_material p) d /\ counts_as F (pb_counting p) d.

(** Data files that can be read: the lists are numbers, the efficiency files exist and the crystal tables are complete. *)
Definition efficiency_files : list string :=
  ["data/CRESST-II/Lise_eff_AR_O.dat"; "data/CRESST-II/Lise_eff_AR_Ca.dat"; "data/CRESST-II/Lise_eff_AR_W.dat";
   "data/CRESST-III/C3P1_DetA_eff_AR_O.dat"; "data/CRESST-III/C3P1_DetA_eff_AR_Ca.dat"; "data/CRESST-III/C3P1_DetA_eff_AR_W.dat"]%string.
Definition readable (F : data_files) : Prop :=
  tables_readable (f_table F) /\
  (forall path, exists l, f_list F path = Ok (map Fin l)) /\
  (forall path, In path efficiency_files -> exists r, f_rows F path = Ok r) /\
  (forall path l, In path ["data/Semiconductors/C.Si137.dat"; "data/Semiconductors/C.Ge137.dat"]%string -> f_list F path = Ok l -> (900 * 500 <= Z.of_nat (length l))%Z).

(** * Nuclei *)
Lemma get_nuclei_ok rows zs : well_formed rows -> full_table rows -> Forall (fun z => (1 <= z <= 92)%Z) zs -> forall w, world_history rows w ->
  exists l w', Get_Nuclei w zs = Ok (l, w') /\ world_history rows w' /\ Forall2 (element_of_table rows) zs l.
Proof.
  intros WF FT. induction 1 as [|z zs Hz _ IH]; intros w H; cbn [Get_Nuclei]; [exists [], w; split; [reflexivity|]; split; [auto|constructor]|].
  destruct (get_nucleus_in rows w z WF H Hz (FT z Hz)) as (n & w1 & G & EL). rewrite G. cbn [bind].
  assert (H1 : world_history rows w1) by (apply (wh_query rows w (ByCharge z) n w1); auto).
  destruct (IH w1 H1) as (l & w2 & G2 & H2 & F2). rewrite G2. cbn [bind]. exists (n :: l), w2. split; [reflexivity|]. split; auto.
Qed.

Lemma fractions_ok nuclei abund : abund = [] \/ length abund = length nuclei -> exists f, relative_fractions nuclei abund = Ok f /\ length f = length nuclei.
Proof.
  intros H. unfold relative_fractions. destruct abund as [|x t]; [eexists; split; [reflexivity|]; rewrite !map_length; reflexivity|].
  destruct H as [H | H]; [discriminate|]. destruct (xlt _ _); [|eexists; split; [reflexivity|auto]].
  destruct (Distribution_Proofs.map_res_ok (fun i => let* n := at_ub nuclei i in let* proportion := at_ub (x :: t) i in Ok (proportion * Average_Nuclear_Mass n)%xr) (seq 0 (length nuclei))) as [ms E].
  { intros i I. apply in_seq in I. destruct (at_ub_lt nuclei i) as [n [-> _]]; [lia|]. destruct (at_ub_lt (x :: t) i) as [y [-> _]]; [lia|]. cbn [bind]. eexists; reflexivity. }
  rewrite E. cbn [bind]. eexists; split; [reflexivity|]. rewrite map_length. apply map_res_length in E. rewrite E, seq_length. reflexivity.
Qed.
Lemma nuclear_ctor_ok label expo nuclei abund : abund = [] \/ length abund = length nuclei ->
  exists f, Nuclear_ctor label expo nuclei abund = Ok (mkNuclear (Detector_ctor label expo "Nuclei") nuclei f (Fin 0.0) false []) /\ length f = length nuclei.
Proof. intros H. destruct (fractions_ok nuclei abund H) as (f & E & L). unfold Nuclear_ctor. rewrite E. cbn [bind]. exists f. auto. Qed.

Lemma gap_ok l d : (1 <= length l)%nat -> exists t lo hi, Use_Maximum_Gap (map Fin l) d = Ok (with_gap (map Fin t) (Fin lo) (Fin hi) d) /\
  In lo l /\ In hi l /\ (forall x, In x l -> lo <= x <= hi) /\ Permutation l t /\ ascending t.
Proof.
  intros L. unfold Use_Maximum_Gap. replace (existsb is_nan (map Fin l)) with false.
  2:{ symmetry. apply not_true_is_false. intros H. apply existsb_exists in H. destruct H as (x & I & E). apply in_map_iff in I. destruct I as (r & <- & _). discriminate. }
  cbn [andb]. destruct (sort_perm l) as (t & E & P & A). rewrite E. destruct t as [|h t]; [apply Permutation_sym, Permutation_nil in P; subst; cbn in L; lia|].
  cbn [map]. assert (LM : forall (l : list R) h, last (map Fin l) (Fin h) = Fin (last l h)).
  { clear. induction l as [|a l IH]; intros h; [reflexivity|]. cbn [map last]. destruct l; [reflexivity|]. apply IH. }
  change (Fin h :: map Fin t) with (map Fin (h :: t)). rewrite LM. exists (h :: t), h, (last (h :: t) h). split; [reflexivity|].
  assert (B : forall t h d, ascending (h :: t) -> In (last (h :: t) d) (h :: t) /\ forall x, In x (h :: t) -> h <= x <= last (h :: t) d).
  { clear. induction t as [|a t IH]; intros h d A; [cbn; split; [auto|]; intros x [<- | []]; lra|].
    destruct A as [A1 A2]. specialize (IH a d A2). destruct IH as [I1 I2]. change (last (h :: a :: t) d) with (last (a :: t) d).
    split; [right; auto|]. intros x [<- | I]; [|specialize (I2 x I); lra]. specialize (I2 a (or_introl eq_refl)). lra. }
  destruct (B t h h A) as [B1 B2]. split; [apply Permutation_sym in P; apply (Permutation_in _ P); left; auto|]. split; [apply Permutation_sym in P; apply (Permutation_in _ P); auto|].
  split; [|auto]. intros x I. apply B2. apply (Permutation_in _ P). auto.
Qed.


Lemma gap_window l lo hi d : lo <= hi -> exists t a b, Use_Maximum_Gap (map Fin (map (fun x => x * keV) l) ++ [Fin (lo * keV); Fin (hi * keV)]) d = Ok (with_gap (map Fin t) (Fin a) (Fin b) d) /\
  Permutation (map (fun x => x * keV) (l ++ [lo; hi])) t /\ ascending t /\ (Forall (fun x => lo <= x <= hi) l -> a = lo * keV /\ b = hi * keV).
Proof.
  intros LH. assert (K : 0 < keV) by (unfold keV, eV, GeV; lra).
  replace (map Fin (map (fun x => x * keV) l) ++ [Fin (lo * keV); Fin (hi * keV)]) with (map Fin (map (fun x => x * keV) (l ++ [lo; hi]))) by (rewrite !map_app; reflexivity).
  destruct (gap_ok (map (fun x => x * keV) (l ++ [lo; hi])) d) as (t & a & b & G & Ia & Ib & B & P & A); [rewrite map_length, app_length; cbn; lia|].
  exists t, a, b. split; [exact G|]. split; [exact P|]. split; [exact A|]. intros W.
  assert (W' : forall x, In x (l ++ [lo; hi]) -> lo <= x <= hi).
  { intros x I. apply in_app_or in I. destruct I as [I | [<- | [<- | []]]]; [|lra|lra]. rewrite Forall_forall in W. auto. }
  assert (L : In (lo * keV) (map (fun x => x * keV) (l ++ [lo; hi]))) by (apply (in_map (fun x => x * keV)); apply in_or_app; right; left; reflexivity).
  assert (H : In (hi * keV) (map (fun x => x * keV) (l ++ [lo; hi]))) by (apply (in_map (fun x => x * keV)); apply in_or_app; right; right; left; reflexivity).
  apply in_map_iff in Ia. destruct Ia as (a' & <- & Ia). apply in_map_iff in Ib. destruct Ib as (b' & <- & Ib). specialize (W' _ Ia) as Wa. specialize (W' _ Ib) as Wb.
  specialize (B _ L) as BL. specialize (B _ H) as BH. split; apply Rle_antisym; try lra; apply Rmult_le_compat_r; lra.
Qed.

Lemma files_list F path : readable F -> exists l, f_list F path = Ok (map Fin l).
Proof. intros (_ & H & _). apply H. Qed.
Lemma files_rows F path : readable F -> In path efficiency_files -> exists r, f_rows F path = Ok r.
Proof. intros (_ & _ & H & _). apply H. Qed.
Lemma files_unit F path u l : f_list F path = Ok (map Fin l) -> Import_List_Unit F path u = Ok (map Fin (map (fun x => x * u) l)).
Proof. intros E. unfold Import_List_Unit. rewrite E. cbn [bind]. rewrite !map_map. do 2 f_equal. Qed.

Lemma xenon_ok rows F w ch label expo : well_formed rows -> full_table rows -> world_history rows w -> readable F ->
  exists a w', Ionization_ctor1 (f_table F) w ch label expo "Xe" = Ok (Ionization_start ch label expo [a] [Fin 1.0], w') /\ element_of_table rows 54 (at_nucleus a).
Proof.
  intros WF FT WH (T & _). destruct (atom_Xe (f_table F) rows w T WF FT WH) as (a & w' & E & EL & _). unfold Ionization_ctor1. rewrite E. cbn [bind]. exists a, w'. auto.
Qed.
Lemma argon_ok rows F w ch label expo : well_formed rows -> full_table rows -> world_history rows w -> readable F ->
  exists a w', Ionization_ctor1 (f_table F) w ch label expo "Ar" = Ok (Ionization_start ch label expo [a] [Fin 1.0], w') /\ element_of_table rows 18 (at_nucleus a).
Proof.
  intros WF FT WH (T & _). destruct (atom_Ar (f_table F) rows w T WF FT WH) as (a & w' & E & EL & _). unfold Ionization_ctor1. rewrite E. cbn [bind]. exists a, w'. auto.
Qed.
Lemma silicon_ok F label expo : readable F ->
  exists c, Semiconductor_ctor (f_list F) label expo "Si" = Ok (mkSemiconductor (Detector_ctor label expo "Electrons") c None None None) /\ Crystal_ctor (f_list F) "Si" = Ok c.
Proof.
  intros (_ & L & _ & S). destruct (L "data/Semiconductors/C.Si137.dat"%string) as (l & E).
  destruct (crystal_ctor_ok (f_list F) "Si" _ _ _ (map Fin l) ltac:(left; repeat split; reflexivity) E) as [H _].
  destruct (H (S _ _ (or_introl eq_refl) E)) as (c & EC & _). exists c. unfold Semiconductor_ctor. rewrite EC. cbn [bind]. split; reflexivity.
Qed.

Lemma forall2_length {A B : Type} (P : A -> B -> Prop) l t : Forall2 P l t -> length l = length t.
Proof. induction 1; cbn; congruence. Qed.

Ltac units := unfold tonne, minute, year, day, kg, gram, keV, eV, MeV, GeV, sec, meter, cm.

(** * The binned analyses: one lemma for each kind of detector *)
Lemma fin_all l : (forall x : xr, In x l -> is_efficiency x) -> Forall is_efficiency l.
Proof. intros H. apply Forall_forall. auto. Qed.
Lemma ones_eff n : Forall is_efficiency (repeat (Fin 1.0) n).
Proof. apply Forall_forall. intros x I. apply repeat_spec in I. subst. exists 1.0. split; [reflexivity|lra]. Qed.
Lemma zeros_exp n : Forall is_expectation (repeat (Fin 0.0) n).
Proof. apply Forall_forall. intros x I. apply repeat_spec in I. subst. exists 0.0. split; [reflexivity|lra]. Qed.
Lemma eff_div a b : 0 <= a <= b -> 0 < b -> is_efficiency (Fin a / Fin b)%xr.
Proof.
  intros H K. rewrite xdiv_fin by lra. exists (a / b). split; [reflexivity|]. split; [apply Rcomplements.Rdiv_le_0_compat; lra|].
  apply (Rmult_le_reg_r b); [lra|]. unfold Rdiv. rewrite Rmult_assoc, Rinv_l by lra. lra.
Qed.
Lemma eff_fin a : 0 <= a <= 1 -> is_efficiency (Fin a).
Proof. exists a. auto. Qed.

(** The base part after the calls of a binned experiment. *)
Definition det_of (label tg : string) (e fl : xr) (an : analysis) (tot : Z) (bt : xr) (n : Z) (ef : list xr) (ob : list Z) (bg : list xr) (lo hi : xr) : detector :=
  mkDetector tg e fl an tot bt n ef ob bg false (Fin 0.0) (Fin 0.0) [] [] lo hi false false [] label.
Definition ion_of (d : detector) (ch : channel) (a : Atom) (nlo nhi : Z) (nb sb : bool) (mu sg : xr) (tr ac : list xr) (rg : list Z) : ionization :=
  mkIonization d ch [a] [Fin 1.0] nlo nhi false nb 0 0 mu sg tr ac false sb rg.

Lemma ion_start_eq ch label e a : Ionization_start ch label e [a] [Fin 1.0] =
  ion_of (det_of label (channel_targets ch) e (Fin 1.0) Poisson 0 (Fin 0.0) 0 [] [] [] (Fin 0) (Fin 0)) ch a 3 100 false false (Fin 0.0) (Fin 0.0) [] [] [].
Proof. reflexivity. Qed.
Lemma step_flat label tg e fl f an tot bt n ef ob bg lo hi :
  base_step (det_of label tg e fl an tot bt n ef ob bg lo hi) (BFlat f) = Ok (det_of label tg e f an tot bt n ef ob bg lo hi).
Proof. reflexivity. Qed.
Lemma step_init label tg e fl tot bt n0 ef ob bg lo hi n :
  Initialize_Binned_Poisson n (det_of label tg e fl Poisson tot bt n0 ef ob bg lo hi) =
  Ok (det_of label tg e fl Binned_Poisson tot bt n (repeat (Fin 1.0) (Z.to_nat n)) (repeat 0%Z (Z.to_nat n)) (repeat (Fin 0.0) (Z.to_nat n)) lo hi).
Proof. reflexivity. Qed.
Lemma step_observed label tg e fl tot bt n ef ob bg lo hi l : Z.of_nat (length l) = n ->
  base_step (det_of label tg e fl Binned_Poisson tot bt n ef ob bg lo hi) (BBin_Observed l) =
  Ok (det_of label tg e fl Binned_Poisson (u64 (accumulate_int l)) bt n ef l bg lo hi).
Proof. intros H. unfold det_of. cbn [base_step Set_Observed_Events_Binned b_analysis b_bins]. unfold Set_Observed_Events_Binned. cbn [b_analysis b_bins]. apply Z.eqb_eq in H. rewrite H. reflexivity. Qed.
Lemma step_efficiencies label tg e fl tot bt n ef ob bg lo hi l : Z.of_nat (length l) = n ->
  base_step (det_of label tg e fl Binned_Poisson tot bt n ef ob bg lo hi) (BBin_Efficiencies l) =
  Ok (det_of label tg e fl Binned_Poisson tot bt n l ob bg lo hi).
Proof. intros H. unfold det_of. cbn [base_step]. unfold Set_Bin_Efficiencies. cbn [b_analysis b_bins]. apply Z.eqb_eq in H. rewrite H. reflexivity. Qed.
Lemma step_backgrounds label tg e fl tot bt n ef ob bg lo hi l : Z.of_nat (length l) = n ->
  exists bt', base_step (det_of label tg e fl Binned_Poisson tot bt n ef ob bg lo hi) (BBin_Background l) =
  Ok (det_of label tg e fl Binned_Poisson tot bt' n ef ob l lo hi).
Proof. intros H. unfold det_of. cbn [base_step]. unfold Set_Expected_Background_Binned. cbn [b_analysis b_bins]. apply Z.eqb_eq in H. rewrite H. eexists. reflexivity. Qed.

Lemma step_base d d' ch a nlo nhi nb sb mu sg tr ac rg o : base_step d o = Ok d' ->
  ionization_step (ion_of d ch a nlo nhi nb sb mu sg tr ac rg) (IBase o) = Ok (ion_of d' ch a nlo nhi nb sb mu sg tr ac rg).
Proof. intros H. cbn [ionization_step ion_of i_base]. rewrite H. reflexivity. Qed.
Lemma step_PE d d' ch a nlo nhi nb sb mu sg tr ac rg mu' sg' l : Initialize_Binned_Poisson (u32 (u64 (Z.of_nat (length l) - 1))) d = Ok d' ->
  ionization_step (ion_of d ch a nlo nhi nb sb mu sg tr ac rg) (IPE_Bins mu' sg' l) = Ok (ion_of d' ch a nlo nhi nb true mu' sg' tr ac l).
Proof. intros H. cbn [ionization_step]. unfold Use_PE_Bins. cbn [ion_of i_base]. rewrite H. reflexivity. Qed.
Lemma step_trigger d ch a nlo nhi nb mu sg tr ac rg l :
  ionization_step (ion_of d ch a nlo nhi nb true mu sg tr ac rg) (ITrigger l) = Ok (ion_of d ch a nlo nhi nb true mu sg l ac rg).
Proof. reflexivity. Qed.
Lemma step_acceptance d ch a nlo nhi nb mu sg tr ac rg l :
  ionization_step (ion_of d ch a nlo nhi nb true mu sg tr ac rg) (IAcceptance l) = Ok (ion_of d ch a nlo nhi nb true mu sg tr l rg).
Proof. reflexivity. Qed.
Lemma step_ne d d' ch a nlo nhi nb sb mu sg tr ac rg lo n : Initialize_Binned_Poisson n d = Ok d' -> (0 <= lo)%Z -> (1 <= n)%Z -> (lo + n - 1 < 2 ^ 32)%Z ->
  ionization_step (ion_of d ch a nlo nhi nb sb mu sg tr ac rg) (IElectron_Bins lo n) = Ok (ion_of d' ch a lo (lo + n - 1) true sb mu sg tr ac rg).
Proof.
  intros H A B C. cbn [ionization_step]. unfold Use_Electron_Bins. cbn [ion_of i_base]. rewrite H. cbn [bind].
  replace (u32 (lo + n - 1)) with (lo + n - 1)%Z by (symmetry; apply u32_id; unfold is_u32; lia). cbn [with_ne with_i_base with_i_flags i_ne_max i_ne_threshold].
  destruct (lo + n - 1 <? lo)%Z eqn:X; [apply Z.ltb_lt in X; lia|]. reflexivity.
Qed.

(** What these states report. *)
Lemma binned_det label tg e fl bt ef ob bg lo hi : length ef = length ob -> Forall is_efficiency ef -> length bg = length ob -> Forall is_expectation bg ->
  u64 (accumulate_int ob) = Zsum ob ->
  binned_as ob (det_of label tg e fl Binned_Poisson (u64 (accumulate_int ob)) bt (Z.of_nat (length ob)) ef ob bg lo hi).
Proof. intros A B C D E. unfold binned_as, det_of. cbn [b_analysis b_bin_observed b_bins b_observed b_efficiencies b_bin_background]. repeat (split; auto). Qed.
Lemma realises_PE rows F label x ch z a f bt ef ob bg lo hi nlo nhi mu sg tr ac rg : 0 < f <= 1 -> element_of_table rows z (at_nucleus a) ->
  length ef = length ob -> Forall is_efficiency ef -> length bg = length ob -> Forall is_expectation bg -> u64 (accumulate_int ob) = Zsum ob ->
  realises rows F (Publication label x (Atom_of ch z) (Photoelectrons rg ob))
    (DIonization (ion_of (det_of label (channel_targets ch) (Fin (x * kg * day)) (Fin f) Binned_Poisson (u64 (accumulate_int ob)) bt (Z.of_nat (length ob)) ef ob bg lo hi)
       ch a nlo nhi false true mu sg tr ac rg)).
Proof.
  intros Hf EL A B C D E. unfold realises. cbn [instrument_base ion_of i_base pb_label pb_exposure pb_material pb_counting].
  split; [reflexivity|]. split; [reflexivity|]. split; [exists f; auto|]. split; [reflexivity|]. split.
  { cbn [made_of i_channel ion_of i_base i_fractions i_atoms]. split; [reflexivity|]. split; [reflexivity|]. split; [reflexivity|]. exists a. auto. }
  cbn [counts_as instrument_base ion_of i_base]. split; [apply binned_det; auto|]. auto.
Qed.
Lemma realises_ne rows F label x ch z a f bt ef ob bg lo hi first mu sg tr ac rg sb : 0 < f <= 1 -> element_of_table rows z (at_nucleus a) ->
  length ef = length ob -> Forall is_efficiency ef -> length bg = length ob -> Forall is_expectation bg -> u64 (accumulate_int ob) = Zsum ob ->
  realises rows F (Publication label x (Atom_of ch z) (Quanta first ob))
    (DIonization (ion_of (det_of label (channel_targets ch) (Fin (x * kg * day)) (Fin f) Binned_Poisson (u64 (accumulate_int ob)) bt (Z.of_nat (length ob)) ef ob bg lo hi)
       ch a first (first + Z.of_nat (length ob) - 1) true sb mu sg tr ac rg)).
Proof.
  intros Hf EL A B C D E. unfold realises. cbn [instrument_base ion_of i_base pb_label pb_exposure pb_material pb_counting].
  split; [reflexivity|]. split; [reflexivity|]. split; [exists f; auto|]. split; [reflexivity|]. split.
  { cbn [made_of i_channel ion_of i_base i_fractions i_atoms]. split; [reflexivity|]. split; [reflexivity|]. split; [reflexivity|]. exists a. auto. }
  cbn [counts_as instrument_base ion_of i_base]. split; [apply binned_det; auto|]. auto.
Qed.

(** The complete calls. *)
Lemma run_ne ch label x a f lo ob N : N = Z.of_nat (length ob) -> (0 <= lo)%Z -> (1 <= Z.of_nat (length ob))%Z -> (lo + Z.of_nat (length ob) - 1 < 2 ^ 32)%Z ->
  let n := length ob in
  let st f := ion_of (det_of label (channel_targets ch) x (Fin f) Binned_Poisson (u64 (accumulate_int ob)) (Fin 0.0) (Z.of_nat n)
    (repeat (Fin 1.0) n) ob (repeat (Fin 0.0) n) (Fin 0) (Fin 0)) ch a lo (lo + Z.of_nat n - 1) true false (Fin 0.0) (Fin 0.0) [] [] [] in
  ionization_run (Ionization_start ch label x [a] [Fin 1.0]) [IElectron_Bins lo N; IBase (BBin_Observed ob)] = Ok (st 1.0) /\
  ionization_run (Ionization_start ch label x [a] [Fin 1.0]) [IElectron_Bins lo N; IBase (BFlat (Fin f)); IBase (BBin_Observed ob)] = Ok (st f).
Proof.
  intros -> A B C n st. rewrite ion_start_eq. cbn [ionization_run].
  rewrite (step_ne _ _ _ _ _ _ _ _ _ _ _ _ _ lo (Z.of_nat n) (step_init _ _ _ _ _ _ _ _ _ _ _ _ _) A B C). cbn [bind]. rewrite Nat2Z.id.
  split.
  - rewrite (step_base _ _ _ _ _ _ _ _ _ _ _ _ _ _ (step_observed _ _ _ _ _ _ _ _ _ _ _ _ ob eq_refl)). reflexivity.
  - rewrite (step_base _ _ _ _ _ _ _ _ _ _ _ _ _ _ (step_flat _ _ _ _ _ _ _ _ _ _ _ _ _ _)). cbn [bind].
    rewrite (step_base _ _ _ _ _ _ _ _ _ _ _ _ _ _ (step_observed _ _ _ _ _ _ _ _ _ _ _ _ ob eq_refl)). reflexivity.
Qed.
Lemma run_ne_eff ch label x a lo ob N ef : N = Z.of_nat (length ob) -> (0 <= lo)%Z -> (1 <= Z.of_nat (length ob))%Z -> (lo + Z.of_nat (length ob) - 1 < 2 ^ 32)%Z -> length ef = length ob ->
  let n := length ob in
  ionization_run (Ionization_start ch label x [a] [Fin 1.0]) [IElectron_Bins lo N; IBase (BBin_Observed ob); IBase (BBin_Efficiencies ef)] =
  Ok (ion_of (det_of label (channel_targets ch) x (Fin 1.0) Binned_Poisson (u64 (accumulate_int ob)) (Fin 0.0) (Z.of_nat n) ef ob (repeat (Fin 0.0) n) (Fin 0) (Fin 0))
    ch a lo (lo + Z.of_nat n - 1) true false (Fin 0.0) (Fin 0.0) [] [] []).
Proof.
  intros -> A B C D n. rewrite ion_start_eq. cbn [ionization_run].
  rewrite (step_ne _ _ _ _ _ _ _ _ _ _ _ _ _ lo (Z.of_nat n) (step_init _ _ _ _ _ _ _ _ _ _ _ _ _) A B C). cbn [bind]. rewrite Nat2Z.id.
  rewrite (step_base _ _ _ _ _ _ _ _ _ _ _ _ _ _ (step_observed _ _ _ _ _ _ _ _ _ _ _ _ ob eq_refl)). cbn [bind].
  rewrite (step_base _ _ _ _ _ _ _ _ _ _ _ _ _ _ (step_efficiencies _ _ _ _ _ _ _ _ _ _ _ _ ef (f_equal Z.of_nat D))). reflexivity.
Qed.
Lemma run_ne_bg ch label x a lo ob N bg : N = Z.of_nat (length ob) -> (0 <= lo)%Z -> (1 <= Z.of_nat (length ob))%Z -> (lo + Z.of_nat (length ob) - 1 < 2 ^ 32)%Z -> length bg = length ob ->
  let n := length ob in
  exists bt, ionization_run (Ionization_start ch label x [a] [Fin 1.0]) [IElectron_Bins lo N; IBase (BBin_Observed ob); IBase (BBin_Background bg)] =
  Ok (ion_of (det_of label (channel_targets ch) x (Fin 1.0) Binned_Poisson (u64 (accumulate_int ob)) bt (Z.of_nat n) (repeat (Fin 1.0) n) ob bg (Fin 0) (Fin 0))
    ch a lo (lo + Z.of_nat n - 1) true false (Fin 0.0) (Fin 0.0) [] [] []).
Proof.
  intros -> A B C D n. rewrite ion_start_eq. cbn [ionization_run].
  rewrite (step_ne _ _ _ _ _ _ _ _ _ _ _ _ _ lo (Z.of_nat n) (step_init _ _ _ _ _ _ _ _ _ _ _ _ _) A B C). cbn [bind]. rewrite Nat2Z.id.
  rewrite (step_base _ _ _ _ _ _ _ _ _ _ _ _ _ _ (step_observed _ _ _ _ _ _ _ _ _ _ _ _ ob eq_refl)). cbn [bind].
  match goal with |- context[ion_of (det_of ?p1 ?p2 ?p3 ?p4 _ ?p5 ?p6 ?p7 ?p8 ?p9 ?q1 ?q2 ?q3)] =>
    destruct (step_backgrounds p1 p2 p3 p4 p5 p6 p7 p8 p9 q1 q2 q3 bg (f_equal Z.of_nat D)) as (bt & S) end.
  rewrite (step_base _ _ _ _ _ _ _ _ _ _ _ _ _ _ S). exists bt. reflexivity.
Qed.
Lemma run_PE ch label x a f mu sg rg ob : u32 (u64 (Z.of_nat (length rg) - 1)) = Z.of_nat (length ob) ->
  let n := length ob in
  let st f := ion_of (det_of label (channel_targets ch) x (Fin f) Binned_Poisson (u64 (accumulate_int ob)) (Fin 0.0) (Z.of_nat n)
    (repeat (Fin 1.0) n) ob (repeat (Fin 0.0) n) (Fin 0) (Fin 0)) ch a 3 100 false true mu sg [] [] rg in
  ionization_run (Ionization_start ch label x [a] [Fin 1.0]) [IPE_Bins mu sg rg; IBase (BBin_Observed ob)] = Ok (st 1.0) /\
  ionization_run (Ionization_start ch label x [a] [Fin 1.0]) [IBase (BFlat (Fin f)); IPE_Bins mu sg rg; IBase (BBin_Observed ob)] = Ok (st f).
Proof.
  intros A n st. rewrite ion_start_eq. cbn [ionization_run]. split.
  - rewrite (step_PE _ _ _ _ _ _ _ _ _ _ _ _ _ mu sg rg (step_init _ _ _ _ _ _ _ _ _ _ _ _ _)). cbn [bind]. rewrite A. rewrite Nat2Z.id.
    rewrite (step_base _ _ _ _ _ _ _ _ _ _ _ _ _ _ (step_observed _ _ _ _ _ _ _ _ _ _ _ _ ob eq_refl)). reflexivity.
  - rewrite (step_base _ _ _ _ _ _ _ _ _ _ _ _ _ _ (step_flat _ _ _ _ _ _ _ _ _ _ _ _ _ _)). cbn [bind].
    rewrite (step_PE _ _ _ _ _ _ _ _ _ _ _ _ _ mu sg rg (step_init _ _ _ _ _ _ _ _ _ _ _ _ _)). cbn [bind]. rewrite A. rewrite Nat2Z.id.
    rewrite (step_base _ _ _ _ _ _ _ _ _ _ _ _ _ _ (step_observed _ _ _ _ _ _ _ _ _ _ _ _ ob eq_refl)). reflexivity.
Qed.

(** Semiconductors. *)
Definition semi_of (d : detector) (c : Crystal) (q : option Z) (b : option bool) : semiconductor := mkSemiconductor d c q None b.
Lemma semi_start_eq label e c : mkSemiconductor (Detector_ctor label e "Electrons") c None None None =
  semi_of (det_of label "Electrons" e (Fin 1.0) Poisson 0 (Fin 0.0) 0 [] [] [] (Fin 0) (Fin 0)) c None None.
Proof. reflexivity. Qed.
Lemma step_cbase d d' c q b o : base_step d o = Ok d' -> semiconductor_step (semi_of d c q b) (CBase o) = Ok (semi_of d' c q b).
Proof. intros H. cbn [semiconductor_step semi_of c_base]. rewrite H. reflexivity. Qed.
Lemma step_Q label e fl c n : (1 <= n < 2 ^ 31)%Z ->
  exists lo hi, semiconductor_step (semi_of (det_of label "Electrons" e fl Poisson 0 (Fin 0.0) 0 [] [] [] (Fin 0) (Fin 0)) c None None) (CQ_Bins 1 n) =
    Ok (semi_of (det_of label "Electrons" e fl Binned_Poisson 0 (Fin 0.0) n (repeat (Fin 1.0) (Z.to_nat n)) (repeat 0%Z (Z.to_nat n)) (repeat (Fin 0.0) (Z.to_nat n)) lo hi)
      c (Some 1%Z) (Some true)).
Proof.
  intros H. cbn [semiconductor_step]. unfold Use_Q_Bins. destruct (n =? 0)%Z eqn:X; [apply Z.eqb_eq in X; lia|].
  replace (u32 (n + 1 - 1)) with n by (symmetry; replace (n + 1 - 1)%Z with n by lia; apply u32_id; unfold is_u32; lia).
  replace (u32 (n - 1 + 1)) with n by (symmetry; replace (n - 1 + 1)%Z with n by lia; apply u32_id; unfold is_u32; lia).
  cbn [semi_of c_base c_crystal]. rewrite step_init. cbn [bind]. do 2 eexists. reflexivity.
Qed.
Lemma realises_Q rows F label x c f bt ef ob bg lo hi : 0 < f <= 1 -> Crystal_ctor (f_list F) "Si" = Ok c ->
  length ef = length ob -> Forall is_efficiency ef -> length bg = length ob -> Forall is_expectation bg -> u64 (accumulate_int ob) = Zsum ob ->
  realises rows F (Publication label x Silicon (Quanta 1 ob))
    (DSemiconductor (semi_of (det_of label "Electrons" (Fin (x * kg * day)) (Fin f) Binned_Poisson (u64 (accumulate_int ob)) bt (Z.of_nat (length ob)) ef ob bg lo hi)
       c (Some 1%Z) (Some true))).
Proof.
  intros Hf EL A B C D E. unfold realises. cbn [instrument_base semi_of c_base pb_label pb_exposure pb_material pb_counting].
  split; [reflexivity|]. split; [reflexivity|]. split; [exists f; auto|]. split; [reflexivity|]. split.
  { cbn [made_of semi_of c_base c_crystal]. split; [exact EL|reflexivity]. }
  cbn [counts_as instrument_base semi_of c_base]. split; [apply binned_det; auto|]. auto.
Qed.
Lemma run_Q label e c f ob N ef : N = Z.of_nat (length ob) -> (1 <= Z.of_nat (length ob) < 2 ^ 31)%Z -> length ef = length ob ->
  let n := length ob in
  let st f l lo hi := semi_of (det_of label "Electrons" e (Fin f) Binned_Poisson (u64 (accumulate_int ob)) (Fin 0.0) (Z.of_nat n) l ob (repeat (Fin 0.0) n) lo hi)
    c (Some 1%Z) (Some true) in
  let s := mkSemiconductor (Detector_ctor label e "Electrons") c None None None in
  exists lo hi,
    semiconductor_run s [CQ_Bins 1 N; CBase (BBin_Observed ob)] = Ok (st 1.0 (repeat (Fin 1.0) n) lo hi) /\
    semiconductor_run s [CQ_Bins 1 N; CBase (BBin_Observed ob); CBase (BBin_Efficiencies ef)] = Ok (st 1.0 ef lo hi) /\
    exists lo' hi', semiconductor_run s [CBase (BFlat (Fin f)); CQ_Bins 1 N; CBase (BBin_Observed ob); CBase (BBin_Efficiencies ef)] = Ok (st f ef lo' hi').
Proof.
  intros -> A D n st s. unfold s. rewrite semi_start_eq. cbn [semiconductor_run]. fold n.
  destruct (step_Q label e (Fin 1.0) c (Z.of_nat n) A) as (lo & hi & S). destruct (step_Q label e (Fin f) c (Z.of_nat n) A) as (lo' & hi' & S').
  exists lo, hi. rewrite S. cbn [bind]. rewrite Nat2Z.id in *.
  rewrite (step_cbase _ _ _ _ _ _ (step_observed _ _ _ _ _ _ _ _ _ _ _ _ ob eq_refl)). cbn [bind]. split; [reflexivity|].
  rewrite (step_cbase _ _ _ _ _ _ (step_efficiencies _ _ _ _ _ _ _ _ _ _ _ _ ef (f_equal Z.of_nat D))). cbn [bind]. split; [reflexivity|]. exists lo', hi'.
  rewrite (step_cbase _ _ _ _ _ _ (step_flat _ _ _ _ _ _ _ _ _ _ _ _ _ _)). cbn [bind]. rewrite S'. cbn [bind].
  rewrite (step_cbase _ _ _ _ _ _ (step_observed _ _ _ _ _ _ _ _ _ _ _ _ ob eq_refl)). cbn [bind].
  rewrite (step_cbase _ _ _ _ _ _ (step_efficiencies _ _ _ _ _ _ _ _ _ _ _ _ ef (f_equal Z.of_nat D))). reflexivity.
Qed.
Ltac effs := repeat (apply Forall_cons || apply Forall_nil); first [apply eff_fin; lra | apply eff_div; lra | (eexists; split; [reflexivity|lra])].
Ltac flat := eexists; split; [reflexivity|lra].
Ltac expo := rewrite ?xmul_fin; apply (f_equal Fin); units; lra.

Section Built.
  Variables (rows : list row) (F : data_files) (w : nuclear_world).
  Hypothesis WF : well_formed rows.
  Hypothesis FT : full_table rows.
  Hypothesis WH : world_history rows w.
  Hypothesis RF : readable F.

  Lemma nuclear_start label expo zs abund : Forall (fun z => (1 <= z <= 92)%Z) zs -> abund = [] \/ length abund = length zs ->
    exists l w1 f, Get_Nuclei w zs = Ok (l, w1) /\ Nuclear_ctor label expo l abund = Ok (mkNuclear (Detector_ctor label expo "Nuclei") l f (Fin 0.0) false []) /\
      Forall2 (element_of_table rows) zs l /\ length f = length zs.
  Proof.
    intros Z A. destruct (get_nuclei_ok rows zs WF FT Z w WH) as (l & w1 & E & _ & F2). assert (L := forall2_length _ _ _ F2).
    destruct (nuclear_ctor_ok label expo l abund) as (f & E2 & L2); [destruct A; [left; auto|right; lia]|]. exists l, w1, f. rewrite L2. auto.
  Qed.

  Ltac start_nuclear zs :=
    match goal with |- context[Nuclear_ctor ?n ?e _ ?a] => destruct (nuclear_start n e zs a) as (l & w1 & f & E & E2 & F2 & L2);
      [repeat (apply Forall_cons || apply Forall_nil); lia | cbn; auto |] end; match goal with E : Get_Nuclei _ _ = _ |- _ => rewrite E end; cbn [bind]; match goal with E : Nuclear_ctor _ _ _ _ = _ |- _ => rewrite E end; cbn [bind].
  Ltac made := split; [assumption|]; split; [assumption|reflexivity].

  (** Nuclear recoil experiments with counted events. *)
  Lemma build_DAMIC_N : exists d w', as_nuclear (DAMIC_N_2011 w) = Ok (d, w') /\ realises rows F (Publication "DAMIC_N_2011" 0.107 (Nuclei_of [14%Z]) (Single 106 0.55 7)) d.
  Proof.
    unfold DAMIC_N_2011. start_nuclear [14%Z].
    assert (K : 0 < keV) by (units; lra). rewrite !xmul_fin. cbn [nuclear_run nuclear_step base_step n_base bind]. unfold Use_Energy_Threshold. cbn [n_base with_n_base].
    destruct (xlt _ _) eqn:X; [exfalso; revert X; rewrite xlt_false by lra; discriminate|].
    do 2 eexists. split; [reflexivity|]. unfold realises. cbn.
    split; [reflexivity|]. split; [reflexivity|]. split; [flat|]. split; [reflexivity|]. split; [made|].
    repeat split; try reflexivity. f_equal; lra.
  Qed.
  Lemma build_XENON1T_N : exists d w', as_nuclear (XENON1T_N_2017 w) = Ok (d, w') /\
    realises rows F (Publication "XENON1T_N_2017" (34.2 * 1042) (Nuclei_of [54%Z]) (Single 0 5 40)) d.
  Proof.
    unfold XENON1T_N_2017. start_nuclear [54%Z].
    assert (K : 0 < keV) by (units; lra). rewrite !xmul_fin. cbn [nuclear_run nuclear_step base_step n_base bind]. unfold Use_Energy_Threshold. cbn [n_base with_n_base].
    destruct (xlt _ _) eqn:X; [exfalso; revert X; rewrite xlt_false by lra; discriminate|].
    do 2 eexists. split; [reflexivity|]. unfold realises. cbn.
    split; [reflexivity|]. split; [f_equal; units; lra|]. split; [flat|]. split; [reflexivity|]. split; [made|].
    repeat split; try reflexivity; f_equal; lra.
  Qed.

  (** The experiments with the maximum gap. The list always contains the threshold and the end of the window. *)
  Lemma build_CRESST_II : exists d w', as_nuclear (CRESST_II F w) = Ok (d, w') /\
    realises rows F (Publication "CRESST-II" 52.15 (Nuclei_of [8%Z; 20%Z; 74%Z]) (Energies 0.307 40 "data/CRESST-II/Lise_AR.dat")) d.
  Proof.
    unfold CRESST_II. start_nuclear [8%Z; 20%Z; 74%Z].
    destruct (files_list F "data/CRESST-II/Lise_AR.dat" RF) as (ev & EV). rewrite (files_unit F _ keV ev EV). cbn [bind]. rewrite !xmul_fin.
    cbn [nuclear_run nuclear_step base_step n_base bind].
    match goal with |- context[Use_Maximum_Gap (_ ++ [Fin ?a; Fin ?b]) ?d] =>
      replace a with (0.307 * keV) by (units; lra); replace b with (40 * keV) by (units; lra);
      destruct (gap_window ev 0.307 40 d) as (t & lo & hi & G & P & AS & WN); [lra|]; rewrite G; cbn [bind] end.
    unfold read_rows. cbn [map_res].
    destruct (files_rows F "data/CRESST-II/Lise_eff_AR_O.dat" RF ltac:(cbn; tauto)) as (r1 & ->). destruct (files_rows F "data/CRESST-II/Lise_eff_AR_Ca.dat" RF ltac:(cbn; tauto)) as (r2 & ->).
    destruct (files_rows F "data/CRESST-II/Lise_eff_AR_W.dat" RF ltac:(cbn; tauto)) as (r3 & ->). cbn [bind].
    do 2 eexists. split; [reflexivity|]. unfold realises. cbn.
    split; [reflexivity|]. split; [f_equal; units; lra|]. split; [flat|]. split; [reflexivity|]. split; [made|].
    split; [reflexivity|]. exists ev, t. split; [exact EV|]. split; [reflexivity|]. split; [exact P|]. split; [exact AS|]. intros W. destruct (WN W) as [-> ->]. auto.
  Qed.
  Lemma build_CRESST_III : exists d w', as_nuclear (CRESST_III F w) = Ok (d, w') /\
    realises rows F (Publication "CRESST-III" 5.594 (Nuclei_of [8%Z; 20%Z; 74%Z]) (Energies 0.0301 16 "data/CRESST-III/C3P1_DetA_AR.dat")) d.
  Proof.
    unfold CRESST_III. start_nuclear [8%Z; 20%Z; 74%Z]. cbn [nuclear_run nuclear_step base_step n_base bind].
    destruct (files_list F "data/CRESST-III/C3P1_DetA_AR.dat" RF) as (ev & EV). rewrite (files_unit F _ keV ev EV). cbn [bind]. rewrite !xmul_fin.
    match goal with |- context[Use_Maximum_Gap (_ ++ [Fin ?a; Fin ?b]) ?d] =>
      replace a with (0.0301 * keV) by (units; lra); replace b with (16 * keV) by (units; lra);
      destruct (gap_window ev 0.0301 16 d) as (t & lo & hi & G & P & AS & WN); [lra|]; rewrite G; cbn [bind] end.
    unfold read_rows. cbn [map_res].
    destruct (files_rows F "data/CRESST-III/C3P1_DetA_eff_AR_O.dat" RF ltac:(cbn; tauto)) as (r1 & ->). destruct (files_rows F "data/CRESST-III/C3P1_DetA_eff_AR_Ca.dat" RF ltac:(cbn; tauto)) as (r2 & ->).
    destruct (files_rows F "data/CRESST-III/C3P1_DetA_eff_AR_W.dat" RF ltac:(cbn; tauto)) as (r3 & ->). cbn [bind].
    do 2 eexists. split; [reflexivity|]. unfold realises. cbn.
    split; [reflexivity|]. split; [f_equal; units; lra|]. split; [flat|]. split; [reflexivity|]. split; [made|].
    split; [reflexivity|]. exists ev, t. split; [exact EV|]. split; [reflexivity|]. split; [exact P|]. split; [exact AS|]. intros W. destruct (WN W) as [-> ->]. auto.
  Qed.
  Lemma build_CRESST_surface : exists d w', as_nuclear (CRESST_surface F w) = Ok (d, w') /\
    realises rows F (Publication "CRESST-surface" 0.000046 (Nuclei_of [8%Z; 13%Z]) (Energies 0.0197 0.6 "data/CRESST-surface/data.txt")) d.
  Proof.
    unfold CRESST_surface. start_nuclear [8%Z; 13%Z].
    destruct (files_list F "data/CRESST-surface/data.txt" RF) as (ev & EV). rewrite (files_unit F _ keV ev EV). cbn [bind]. rewrite !xmul_fin.
    cbn [nuclear_run nuclear_step base_step n_base bind].
    match goal with |- context[Use_Maximum_Gap (_ ++ [Fin ?a; Fin ?b]) ?d] =>
      replace a with (0.0197 * keV) by (units; lra); replace b with (0.6 * keV) by (units; lra);
      destruct (gap_window ev 0.0197 0.6 d) as (t & lo & hi & G & P & AS & WN); [lra|]; rewrite G; cbn [bind] end.
    do 2 eexists. split; [reflexivity|]. unfold realises. cbn.
    split; [reflexivity|]. split; [f_equal; units; lra|]. split; [flat|]. split; [reflexivity|]. split; [made|].
    split; [reflexivity|]. exists ev, t. split; [exact EV|]. split; [reflexivity|]. split; [exact P|]. split; [exact AS|]. intros W. destruct (WN W) as [-> ->]. auto.
  Qed.

  (** Ionization. *)
  Lemma xenon_start ch label expo : exists a w', Ionization_ctor1 (f_table F) w ch label expo "Xe" = Ok (Ionization_start ch label expo [a] [Fin 1.0], w') /\
    element_of_table rows 54 (at_nucleus a).
  Proof. exact (xenon_ok rows F w ch label expo WF FT WH RF). Qed.
  Lemma argon_start ch label expo : exists a w', Ionization_ctor1 (f_table F) w ch label expo "Ar" = Ok (Ionization_start ch label expo [a] [Fin 1.0], w') /\
    element_of_table rows 18 (at_nucleus a).
  Proof. exact (argon_ok rows F w ch label expo WF FT WH RF). Qed.
  Lemma XENON10_state ch : exists a w' ev, Ionization_ctor1 (f_table F) w ch "XENON10_S2" (Fin 15 * Fin kg * Fin day)%xr "Xe" = Ok (Ionization_start ch "XENON10_S2" (Fin (15 * kg * day)) [a] [Fin 1.0], w') /\
    element_of_table rows 54 (at_nucleus a) /\ f_list F "data/XENON10e/PE_Trigger_Efficiency.txt" = Ok (map Fin ev).
  Proof.
    destruct (xenon_start ch "XENON10_S2" (Fin 15 * Fin kg * Fin day)%xr) as (a & w1 & E & EL). destruct (files_list F "data/XENON10e/PE_Trigger_Efficiency.txt" RF) as (ev & EV).
    exists a, w1, ev. rewrite E. rewrite !xmul_fin. auto.
  Qed.
  Ltac counts := (apply ones_eff || apply zeros_exp || reflexivity || idtac).
  Lemma build_XENON10 : exists d w', as_ionization (XENON10_S2_ER F w) = Ok (d, w') /\
    realises rows F (Publication "XENON10_S2" 15 (Atom_of Electron_Recoil 54) (Photoelectrons [14; 41; 68; 95; 122; 149; 176; 203]%Z [126; 60; 12; 3; 2; 0; 2]%Z)) d.
  Proof.
    unfold XENON10_S2_ER. destruct (xenon_start Electron_Recoil "XENON10_S2" (Fin 15 * Fin kg * Fin day)%xr) as (a & w1 & E & EL). rewrite E. cbn [bind].
    replace (Fin 15 * Fin kg * Fin day)%xr with (Fin (15 * kg * day)) by expo.
    rewrite (proj2 (run_PE Electron_Recoil "XENON10_S2" (Fin (15 * kg * day)) a 0.92 _ _ [14; 41; 68; 95; 122; 149; 176; 203]%Z [126; 60; 12; 3; 2; 0; 2]%Z eq_refl)). cbn [bind].
    destruct (files_list F "data/XENON10e/PE_Trigger_Efficiency.txt" RF) as (v0 & EV0). rewrite EV0. cbn [bind ionization_run]. rewrite step_trigger. cbn [bind].
    do 2 eexists. split; [reflexivity|]. apply realises_PE; counts; try lra; exact EL.
  Qed.
  Lemma build_XENON100 : exists d w', as_ionization (XENON100_S2_ER F w) = Ok (d, w') /\
    realises rows F (Publication "XENON100_S2" (30 * 365.25) (Atom_of Electron_Recoil 54) (Photoelectrons [80; 90; 110; 130; 150; 170; 190; 210; 230; 250; 270]%Z [794; 1218; 924; 776; 669; 630; 528; 488; 433; 387]%Z)) d.
  Proof.
    unfold XENON100_S2_ER. destruct (xenon_start Electron_Recoil "XENON100_S2" (Fin 30 * Fin kg * Fin year)%xr) as (a & w1 & E & EL). rewrite E. cbn [bind].
    replace (Fin 30 * Fin kg * Fin year)%xr with (Fin ((30 * 365.25) * kg * day)) by expo.
    rewrite (proj1 (run_PE Electron_Recoil "XENON100_S2" (Fin ((30 * 365.25) * kg * day)) a 1 _ _ [80; 90; 110; 130; 150; 170; 190; 210; 230; 250; 270]%Z [794; 1218; 924; 776; 669; 630; 528; 488; 433; 387]%Z eq_refl)). cbn [bind].
    destruct (files_list F "data/XENON100e/PE_Trigger_Efficiency.txt" RF) as (v0 & EV0). rewrite EV0. cbn [bind ionization_run]. rewrite step_trigger. cbn [bind].
    destruct (files_list F "data/XENON100e/PE_Acceptance_Efficiency.txt" RF) as (v1 & EV1). rewrite EV1. cbn [bind ionization_run]. rewrite step_acceptance. cbn [bind].
    do 2 eexists. split; [reflexivity|]. apply realises_PE; counts; try lra; exact EL.
  Qed.
  Lemma build_XENON1T : exists d w', as_ionization (XENON1T_S2_ER F w) = Ok (d, w') /\
    realises rows F (Publication "XENON1T_S2" 15330 (Atom_of Electron_Recoil 54) (Quanta 5 [5; 5; 4; 2; 1; 0]%Z)) d.
  Proof.
    unfold XENON1T_S2_ER. destruct (xenon_start Electron_Recoil "XENON1T_S2" (Fin 0.7 * Fin 21900 * Fin kg * Fin day)%xr) as (a & w1 & E & EL). rewrite E. cbn [bind].
    replace (Fin 0.7 * Fin 21900 * Fin kg * Fin day)%xr with (Fin (15330 * kg * day)) by expo.
    match goal with |- context[BBin_Efficiencies ?l] => assert (R := run_ne_eff Electron_Recoil "XENON1T_S2" (Fin (15330 * kg * day)) a 5 [5; 5; 4; 2; 1; 0]%Z 6 l eq_refl ltac:(cbn; lia) ltac:(cbn; lia) ltac:(cbn; lia) eq_refl) end. rewrite R. cbn [bind].
    do 2 eexists. split; [reflexivity|]. apply realises_ne; counts; try lra; try exact EL; effs.
  Qed.
  Lemma build_DarkSide50 : exists d w', as_ionization (DarkSide50_S2_ER F w) = Ok (d, w') /\
    realises rows F (Publication "DarkSide-50_S2" 6786 (Atom_of Electron_Recoil 18) (Quanta 3 [6131; 673; 252; 227; 198; 199; 189; 247; 230; 261; 249; 329; 336]%Z)) d.
  Proof.
    unfold DarkSide50_S2_ER. destruct (argon_start Electron_Recoil "DarkSide-50_S2" (Fin 6786.0 * Fin kg * Fin day)%xr) as (a & w1 & E & EL). rewrite E. cbn [bind].
    replace (Fin 6786.0 * Fin kg * Fin day)%xr with (Fin (6786 * kg * day)) by expo.
    rewrite (proj1 (run_ne Electron_Recoil "DarkSide-50_S2" (Fin (6786 * kg * day)) a 1 3 [6131; 673; 252; 227; 198; 199; 189; 247; 230; 261; 249; 329; 336]%Z 13 eq_refl ltac:(cbn; lia) ltac:(cbn; lia) ltac:(cbn; lia))). cbn [bind].
    do 2 eexists. split; [reflexivity|]. apply realises_ne; counts; try lra; try exact EL; effs.
  Qed.
  Lemma build_DarkSide50_2023 : exists d w', as_ionization (DarkSide50_S2_ER_2023 F w) = Ok (d, w') /\
    realises rows F (Publication "DarkSide-50_S2_2023" 12306 (Atom_of Electron_Recoil 18) (Quanta 4 [284; 324; 292; 285; 287; 360]%Z)) d.
  Proof.
    unfold DarkSide50_S2_ER_2023. destruct (argon_start Electron_Recoil "DarkSide-50_S2_2023" (Fin 12306 * Fin kg * Fin day)%xr) as (a & w1 & E & EL). rewrite E. cbn [bind].
    replace (Fin 12306 * Fin kg * Fin day)%xr with (Fin (12306 * kg * day)) by expo.
    match goal with |- context[BBin_Background ?l] => destruct (run_ne_bg Electron_Recoil "DarkSide-50_S2_2023" (Fin (12306 * kg * day)) a 4 [284; 324; 292; 285; 287; 360]%Z 6 l eq_refl ltac:(cbn; lia) ltac:(cbn; lia) ltac:(cbn; lia) eq_refl) as (bt & R) end.
    rewrite R. cbn [bind].
    do 2 eexists. split; [reflexivity|]. apply realises_ne; counts; try lra; try exact EL; effs.
  Qed.
  Lemma build_PandaX : exists d w', as_ionization (PandaX_4T_S2_ER F w) = Ok (d, w') /\
    realises rows F (Publication "PandaX-4T_S2" (550 * 365.25) (Atom_of Electron_Recoil 54) (Quanta 4 [34; 14; 13; 7; 11; 12; 14]%Z)) d.
  Proof.
    unfold PandaX_4T_S2_ER. destruct (xenon_start Electron_Recoil "PandaX-4T_S2" (Fin 0.55 * Fin tonne * Fin year)%xr) as (a & w1 & E & EL). rewrite E. cbn [bind].
    replace (Fin 0.55 * Fin tonne * Fin year)%xr with (Fin ((550 * 365.25) * kg * day)) by expo.
    rewrite (proj2 (run_ne Electron_Recoil "PandaX-4T_S2" (Fin ((550 * 365.25) * kg * day)) a 0.14 4 [34; 14; 13; 7; 11; 12; 14]%Z 7 eq_refl ltac:(cbn; lia) ltac:(cbn; lia) ltac:(cbn; lia))). cbn [bind].
    do 2 eexists. split; [reflexivity|]. apply realises_ne; counts; try lra; try exact EL; effs.
  Qed.
  Lemma build_XENON10_Migdal : exists d w', as_ionization (XENON10_S2_Migdal F w) = Ok (d, w') /\
    realises rows F (Publication "XENON10_S2" 15 (Atom_of Migdal 54) (Photoelectrons [14; 41; 68; 95; 122; 149; 176; 203]%Z [126; 60; 12; 3; 2; 0; 2]%Z)) d.
  Proof.
    unfold XENON10_S2_Migdal. destruct (xenon_start Migdal "XENON10_S2" (Fin 15 * Fin kg * Fin day)%xr) as (a & w1 & E & EL). rewrite E. cbn [bind].
    replace (Fin 15 * Fin kg * Fin day)%xr with (Fin (15 * kg * day)) by expo.
    rewrite (proj2 (run_PE Migdal "XENON10_S2" (Fin (15 * kg * day)) a 0.92 _ _ [14; 41; 68; 95; 122; 149; 176; 203]%Z [126; 60; 12; 3; 2; 0; 2]%Z eq_refl)). cbn [bind].
    destruct (files_list F "data/XENON10e/PE_Trigger_Efficiency.txt" RF) as (v0 & EV0). rewrite EV0. cbn [bind ionization_run]. rewrite step_trigger. cbn [bind].
    do 2 eexists. split; [reflexivity|]. apply realises_PE; counts; try lra; exact EL.
  Qed.
  Lemma build_XENON100_Migdal : exists d w', as_ionization (XENON100_S2_Migdal F w) = Ok (d, w') /\
    realises rows F (Publication "XENON100_S2" (30 * 365.25) (Atom_of Migdal 54) (Photoelectrons [80; 90; 110; 130; 150; 170; 190; 210; 230; 250; 270]%Z [794; 1218; 924; 776; 669; 630; 528; 488; 433; 387]%Z)) d.
  Proof.
    unfold XENON100_S2_Migdal. destruct (xenon_start Migdal "XENON100_S2" (Fin 30 * Fin kg * Fin year)%xr) as (a & w1 & E & EL). rewrite E. cbn [bind].
    replace (Fin 30 * Fin kg * Fin year)%xr with (Fin ((30 * 365.25) * kg * day)) by expo.
    rewrite (proj1 (run_PE Migdal "XENON100_S2" (Fin ((30 * 365.25) * kg * day)) a 1 _ _ [80; 90; 110; 130; 150; 170; 190; 210; 230; 250; 270]%Z [794; 1218; 924; 776; 669; 630; 528; 488; 433; 387]%Z eq_refl)). cbn [bind].
    destruct (files_list F "data/XENON100e/PE_Trigger_Efficiency.txt" RF) as (v0 & EV0). rewrite EV0. cbn [bind ionization_run]. rewrite step_trigger. cbn [bind].
    destruct (files_list F "data/XENON100e/PE_Acceptance_Efficiency.txt" RF) as (v1 & EV1). rewrite EV1. cbn [bind ionization_run]. rewrite step_acceptance. cbn [bind].
    do 2 eexists. split; [reflexivity|]. apply realises_PE; counts; try lra; exact EL.
  Qed.
  Lemma build_XENON1T_Migdal : exists d w', as_ionization (XENON1T_S2_Migdal F w) = Ok (d, w') /\
    realises rows F (Publication "XENON1T_S2" 15330 (Atom_of Migdal 54) (Quanta 5 [5; 5; 4; 2; 1; 0]%Z)) d.
  Proof.
    unfold XENON1T_S2_Migdal. destruct (xenon_start Migdal "XENON1T_S2" (Fin 0.7 * Fin 21900 * Fin kg * Fin day)%xr) as (a & w1 & E & EL). rewrite E. cbn [bind].
    replace (Fin 0.7 * Fin 21900 * Fin kg * Fin day)%xr with (Fin (15330 * kg * day)) by expo.
    match goal with |- context[BBin_Efficiencies ?l] => assert (R := run_ne_eff Migdal "XENON1T_S2" (Fin (15330 * kg * day)) a 5 [5; 5; 4; 2; 1; 0]%Z 6 l eq_refl ltac:(cbn; lia) ltac:(cbn; lia) ltac:(cbn; lia) eq_refl) end. rewrite R. cbn [bind].
    do 2 eexists. split; [reflexivity|]. apply realises_ne; counts; try lra; try exact EL; effs.
  Qed.
  Lemma build_DarkSide50_Migdal : exists d w', as_ionization (DarkSide50_S2_Migdal F w) = Ok (d, w') /\
    realises rows F (Publication "DarkSide-50_S2" 6786 (Atom_of Migdal 18) (Quanta 3 [6131; 673; 252; 227; 198; 199; 189; 247; 230; 261; 249; 329; 336]%Z)) d.
  Proof.
    unfold DarkSide50_S2_Migdal. destruct (argon_start Migdal "DarkSide-50_S2" (Fin 6786.0 * Fin kg * Fin day)%xr) as (a & w1 & E & EL). rewrite E. cbn [bind].
    replace (Fin 6786.0 * Fin kg * Fin day)%xr with (Fin (6786 * kg * day)) by expo.
    rewrite (proj1 (run_ne Migdal "DarkSide-50_S2" (Fin (6786 * kg * day)) a 1 3 [6131; 673; 252; 227; 198; 199; 189; 247; 230; 261; 249; 329; 336]%Z 13 eq_refl ltac:(cbn; lia) ltac:(cbn; lia) ltac:(cbn; lia))). cbn [bind].
    do 2 eexists. split; [reflexivity|]. apply realises_ne; counts; try lra; try exact EL; effs.
  Qed.
  Lemma build_DarkSide50_2023_Migdal : exists d w', as_ionization (DarkSide50_S2_Migdal_2023 F w) = Ok (d, w') /\
    realises rows F (Publication "DarkSide-50_S2_2023" 12306 (Atom_of Migdal 18) (Quanta 4 [284; 324; 292; 285; 287; 360]%Z)) d.
  Proof.
    unfold DarkSide50_S2_Migdal_2023. destruct (argon_start Migdal "DarkSide-50_S2_2023" (Fin 12306 * Fin kg * Fin day)%xr) as (a & w1 & E & EL). rewrite E. cbn [bind].
    replace (Fin 12306 * Fin kg * Fin day)%xr with (Fin (12306 * kg * day)) by expo.
    match goal with |- context[BBin_Background ?l] => destruct (run_ne_bg Migdal "DarkSide-50_S2_2023" (Fin (12306 * kg * day)) a 4 [284; 324; 292; 285; 287; 360]%Z 6 l eq_refl ltac:(cbn; lia) ltac:(cbn; lia) ltac:(cbn; lia) eq_refl) as (bt & R) end.
    rewrite R. cbn [bind].
    do 2 eexists. split; [reflexivity|]. apply realises_ne; counts; try lra; try exact EL; effs.
  Qed.
  Lemma build_PandaX_Migdal : exists d w', as_ionization (PandaX_4T_S2_Migdal F w) = Ok (d, w') /\
    realises rows F (Publication "PandaX-4T_S2" (550 * 365.25) (Atom_of Migdal 54) (Quanta 4 [34; 14; 13; 7; 11; 12; 14]%Z)) d.
  Proof.
    unfold PandaX_4T_S2_Migdal. destruct (xenon_start Migdal "PandaX-4T_S2" (Fin 0.55 * Fin tonne * Fin year)%xr) as (a & w1 & E & EL). rewrite E. cbn [bind].
    replace (Fin 0.55 * Fin tonne * Fin year)%xr with (Fin ((550 * 365.25) * kg * day)) by expo.
    rewrite (proj2 (run_ne Migdal "PandaX-4T_S2" (Fin ((550 * 365.25) * kg * day)) a 0.14 4 [34; 14; 13; 7; 11; 12; 14]%Z 7 eq_refl ltac:(cbn; lia) ltac:(cbn; lia) ltac:(cbn; lia))). cbn [bind].
    do 2 eexists. split; [reflexivity|]. apply realises_ne; counts; try lra; try exact EL; effs.
  Qed.
  Lemma build_protoSENSEI_surface : exists d w', as_semiconductor (protoSENSEI_at_Surface F) w = Ok (d, w') /\
    realises rows F (Publication "protoSENSEI@surface" (0.00007 * (456 / 1440)) Silicon (Quanta 1 [140302; 4676; 131; 1; 0]%Z)) d.
  Proof.
    unfold protoSENSEI_at_Surface. destruct (silicon_ok F "protoSENSEI@surface" (Fin 0.07 * Fin gram * Fin 456 * Fin minute)%xr RF) as (c & E & EC). rewrite E. cbn [bind].
    replace (Fin 0.07 * Fin gram * Fin 456 * Fin minute)%xr with (Fin ((0.00007 * (456 / 1440)) * kg * day)) by expo.
    match goal with |- context[BBin_Efficiencies ?l] => destruct (run_Q "protoSENSEI@surface" (Fin ((0.00007 * (456 / 1440)) * kg * day)) c 1 [140302; 4676; 131; 1; 0]%Z 5 l eq_refl ltac:(cbn; lia) eq_refl) as (lo & hi & R1 & R2 & lo' & hi' & R3) end. rewrite R2.
    do 2 eexists. split; [reflexivity|]. apply realises_Q; counts; try lra; try exact EC; effs.
  Qed.
  Lemma build_protoSENSEI_MINOS : exists d w', as_semiconductor (protoSENSEI_at_MINOS F) w = Ok (d, w') /\
    realises rows F (Publication "protoSENSEI@MINOS" 0.000246 Silicon (Quanta 1 [8516; 87; 0]%Z)) d.
  Proof.
    unfold protoSENSEI_at_MINOS. destruct (silicon_ok F "protoSENSEI@MINOS" (Fin 0.246 * Fin gram * Fin day)%xr RF) as (c & E & EC). rewrite E. cbn [bind].
    replace (Fin 0.246 * Fin gram * Fin day)%xr with (Fin (0.000246 * kg * day)) by expo.
    match goal with |- context[BBin_Efficiencies ?l] => destruct (run_Q "protoSENSEI@MINOS" (Fin (0.000246 * kg * day)) c 1 [8516; 87; 0]%Z 3 l eq_refl ltac:(cbn; lia) eq_refl) as (lo & hi & R1 & R2 & lo' & hi' & R3) end. rewrite R2.
    do 2 eexists. split; [reflexivity|]. apply realises_Q; counts; try lra; try exact EC; effs.
  Qed.
  Lemma build_SENSEI_MINOS : exists d w', as_semiconductor (SENSEI_at_MINOS F) w = Ok (d, w') /\
    realises rows F (Publication "SENSEI@MINOS" 0.0091 Silicon (Quanta 1 [578; 5; 0; 0]%Z)) d.
  Proof.
    unfold SENSEI_at_MINOS. destruct (silicon_ok F "SENSEI@MINOS" (Fin 9.1 * Fin gram * Fin day)%xr RF) as (c & E & EC). rewrite E. cbn [bind].
    replace (Fin 9.1 * Fin gram * Fin day)%xr with (Fin (0.0091 * kg * day)) by expo.
    match goal with |- context[BBin_Efficiencies ?l] => destruct (run_Q "SENSEI@MINOS" (Fin (0.0091 * kg * day)) c 1 [578; 5; 0; 0]%Z 4 l eq_refl ltac:(cbn; lia) eq_refl) as (lo & hi & R1 & R2 & lo' & hi' & R3) end. rewrite R2.
    do 2 eexists. split; [reflexivity|]. apply realises_Q; counts; try lra; try exact EC; effs.
  Qed.
  Lemma build_HVeV_2018 : exists d w', as_semiconductor (CDMS_HVeV_2018 F) w = Ok (d, w') /\
    realises rows F (Publication "CDMS-HVeV_2018" 0.000487 Silicon (Quanta 1 [53000; 400; 74; 18; 7; 14]%Z)) d.
  Proof.
    unfold CDMS_HVeV_2018. destruct (silicon_ok F "CDMS-HVeV_2018" (Fin 0.487 * Fin gram * Fin day)%xr RF) as (c & E & EC). rewrite E. cbn [bind].
    replace (Fin 0.487 * Fin gram * Fin day)%xr with (Fin (0.000487 * kg * day)) by expo.
    match goal with |- context[BBin_Efficiencies ?l] => destruct (run_Q "CDMS-HVeV_2018" (Fin (0.000487 * kg * day)) c 0.9545 [53000; 400; 74; 18; 7; 14]%Z 6 l eq_refl ltac:(cbn; lia) eq_refl) as (lo & hi & R1 & R2 & lo' & hi' & R3) end. rewrite R3.
    do 2 eexists. split; [reflexivity|]. apply realises_Q; counts; try lra; try exact EC; effs.
  Qed.
  Lemma build_HVeV_2020 : exists d w', as_semiconductor (CDMS_HVeV_2020 F) w = Ok (d, w') /\
    realises rows F (Publication "CDMS-HVeV_2020" 0.0012 Silicon (Quanta 1 [178800; 1320; 248; 64; 19; 6]%Z)) d.
  Proof.
    unfold CDMS_HVeV_2020. destruct (silicon_ok F "CDMS-HVeV_2020" (Fin 1.2 * Fin gram * Fin day)%xr RF) as (c & E & EC). rewrite E. cbn [bind].
    replace (Fin 1.2 * Fin gram * Fin day)%xr with (Fin (0.0012 * kg * day)) by expo.
    destruct (run_Q "CDMS-HVeV_2020" (Fin (0.0012 * kg * day)) c 1 [178800; 1320; 248; 64; 19; 6]%Z 6 (repeat (Fin 1.0) (length [178800; 1320; 248; 64; 19; 6]%Z)) eq_refl ltac:(cbn; lia) eq_refl) as (lo & hi & R & _). rewrite R.
    do 2 eexists. split; [reflexivity|]. apply realises_Q; counts; try lra; try exact EC; effs.
  Qed.
  Lemma build_DAMIC_M : exists d w', as_semiconductor (DAMIC_M_2023 F) w = Ok (d, w') /\
    realises rows F (Publication "DAMIC-M_2023" 0.034092 Silicon (Quanta 1 [4216354; 11345; 19]%Z)) d.
  Proof.
    unfold DAMIC_M_2023. destruct (silicon_ok F "DAMIC-M_2023" (Fin 0.4 * Fin 85.23 * Fin gram * Fin day)%xr RF) as (c & E & EC). rewrite E. cbn [bind].
    replace (Fin 0.4 * Fin 85.23 * Fin gram * Fin day)%xr with (Fin (0.034092 * kg * day)) by expo.
    destruct (run_Q "DAMIC-M_2023" (Fin (0.034092 * kg * day)) c 1 [4216354; 11345; 19]%Z 3 (repeat (Fin 1.0) (length [4216354; 11345; 19]%Z)) eq_refl ltac:(cbn; lia) eq_refl) as (lo & hi & R & _). rewrite R.
    do 2 eexists. split; [reflexivity|]. apply realises_Q; counts; try lra; try exact EC; effs.
  Qed.
End Built.

(** * All supported names *)
Lemma experiments_realised rows F w : well_formed rows -> full_table rows -> world_history rows w -> readable F ->
  forall name p, In (name, p) publications -> exists d w', supported_experiment F w name = Ok (d, w') /\ realises rows F p d.
Proof.
  intros WF FT WH RF name p I. unfold publications in I. cbn [In] in I.
  repeat (destruct I as [I | I]; [injection I as <- <-; unfold supported_experiment; cbn [find supported fst String.eqb Ascii.eqb Bool.eqb snd]|]);
    [ apply build_DAMIC_N | apply build_XENON1T_N | apply build_CRESST_II | apply build_CRESST_surface | apply build_CRESST_III
    | apply build_XENON10 | apply build_XENON100 | apply build_XENON1T | apply build_DarkSide50 | apply build_DarkSide50_2023 | apply build_PandaX
    | apply build_XENON10_Migdal | apply build_XENON100_Migdal | apply build_XENON1T_Migdal | apply build_DarkSide50_Migdal | apply build_DarkSide50_2023_Migdal | apply build_PandaX_Migdal
    | apply build_protoSENSEI_surface | apply build_protoSENSEI_MINOS | apply build_SENSEI_MINOS | apply build_HVeV_2018 | apply build_HVeV_2020 | apply build_DAMIC_M
    | destruct I ]; auto.
Qed.

(** The names with a publication are all names except those of LZ. *)
Definition LZ_names : list string := ["LZ_S2"; "LZ_S2_Migdal"]%string.
Lemma find_none_in {A : Type} (l : list (string * A)) name : ~ In name (map fst l) -> find (fun p => (fst p =? name)%string) l = None.
Proof.
  induction l as [|[k a] l IH]; intros H; [reflexivity|]. cbn [find fst map] in *. destruct (String.eqb_spec k name) as [E | E]; [exfalso; apply H; left; auto|].
  apply IH. intros I. apply H. right. auto.
Qed.
Lemma names_in l t : forallb (fun k => existsb (String.eqb k) t) l = true -> forall name : string, In name l -> In name t.
Proof.
  intros H name I. rewrite forallb_forall in H. apply H in I. apply existsb_exists in I. destruct I as (k & I & E). apply String.eqb_eq in E. subst. auto.
Qed.
Lemma experiments_unknown F w name : ~ In name (map fst publications ++ LZ_names) -> supported_experiment F w name = Exit.
Proof.
  intros H. unfold supported_experiment. rewrite find_none_in; [reflexivity|]. intros I. apply H. revert I. apply names_in. reflexivity.
Qed.
Lemma LZ_never F w name : In name LZ_names -> forall d, supported_experiment F w name <> Ok d.
Proof.
  intros [<- | [<- | []]] d; unfold supported_experiment; cbn [find supported fst String.eqb Ascii.eqb Bool.eqb snd]; unfold LZ_S2_ER, LZ_S2_Migdal, as_ionization;
    destruct (Ionization_ctor1 _ _ _ _ _ _) as [[a b]| | |]; discriminate.
Qed.
Lemma LZ_exits rows F w name : well_formed rows -> full_table rows -> world_history rows w -> readable F -> In name LZ_names -> supported_experiment F w name = Exit.
Proof.
  intros WF FT WH RF [<- | [<- | []]]; unfold supported_experiment; cbn [find supported fst String.eqb Ascii.eqb Bool.eqb snd]; unfold LZ_S2_ER, LZ_S2_Migdal, as_ionization.
  - destruct (argon_ok rows F w Electron_Recoil "LZ_S2" (Fin 550 * Fin kg * Fin day)%xr WF FT WH RF) as (a & w' & E & _). rewrite E. reflexivity.
  - destruct (argon_ok rows F w Migdal "LZ_S2" (Fin 550 * Fin kg * Fin day)%xr WF FT WH RF) as (a & w' & E & _). rewrite E. reflexivity.
Qed.

(** The name of the detector is the name in the configuration, except for the Migdal experiments. *)
Definition is_Migdal (p : publication) : bool := match pb_material p with Atom_of Migdal _ => true | _ => false end.
Lemma labels name p : In (name, p) publications -> is_Migdal p = false -> pb_label p = name.
Proof.
  intros I. unfold publications in I. cbn [In] in I. repeat (destruct I as [I | I]; [injection I as <- <-; cbn; try discriminate; reflexivity|]). destruct I.
Qed.
Lemma Migdal_labels name p : In (name, p) publications -> is_Migdal p = true -> pb_label p <> name /\ In (pb_label p) (map fst publications).
Proof.
  intros I M.
  assert (A : forallb (fun x => (negb (is_Migdal (snd x)) || (negb (pb_label (snd x) =? fst x) && existsb (String.eqb (pb_label (snd x))) (map fst publications))))%string%bool publications = true) by reflexivity.
  rewrite forallb_forall in A. apply A in I. cbn [fst snd] in I. rewrite M in I. cbn [negb orb] in I. apply andb_prop in I. destruct I as [I1 I2].
  split; [intros E; apply String.eqb_eq in E; rewrite E in I1; discriminate|]. apply existsb_exists in I2. destruct I2 as (k & I & E). apply String.eqb_eq in E. subst. auto.
Qed.

(** Electron scattering and Migdal variants of one experiment have the same data. *)
Lemma Migdal_twin name p : In (name, p) publications -> is_Migdal p = true -> exists q z, In (pb_label p, q) publications /\
  pb_exposure q = pb_exposure p /\ pb_counting q = pb_counting p /\ pb_material q = Atom_of Electron_Recoil z /\ pb_material p = Atom_of Migdal z.
Proof.
  intros I. unfold publications in I. cbn [In] in I.
  repeat (destruct I as [I | I]; [injection I as <- <-; cbn [is_Migdal pb_material]; try discriminate; intros _; cbn [pb_label pb_exposure pb_counting]|]).
  all: try (destruct I; fail).
  1: exists (Publication "XENON10_S2" 15 (Atom_of Electron_Recoil 54) (Photoelectrons [14; 41; 68; 95; 122; 149; 176; 203]%Z [126; 60; 12; 3; 2; 0; 2]%Z)), 54%Z.
  2: exists (Publication "XENON100_S2" (30 * 365.25) (Atom_of Electron_Recoil 54)
      (Photoelectrons [80; 90; 110; 130; 150; 170; 190; 210; 230; 250; 270]%Z [794; 1218; 924; 776; 669; 630; 528; 488; 433; 387]%Z)), 54%Z.
  3: exists (Publication "XENON1T_S2" 15330 (Atom_of Electron_Recoil 54) (Quanta 5 [5; 5; 4; 2; 1; 0]%Z)), 54%Z.
  4: exists (Publication "DarkSide-50_S2" 6786 (Atom_of Electron_Recoil 18) (Quanta 3 [6131; 673; 252; 227; 198; 199; 189; 247; 230; 261; 249; 329; 336]%Z)), 18%Z.
  5: exists (Publication "DarkSide-50_S2_2023" 12306 (Atom_of Electron_Recoil 18) (Quanta 4 [284; 324; 292; 285; 287; 360]%Z)), 18%Z.
  6: exists (Publication "PandaX-4T_S2" (550 * 365.25) (Atom_of Electron_Recoil 54) (Quanta 4 [34; 14; 13; 7; 11; 12; 14]%Z)), 54%Z.
  all: split; [unfold publications; cbn [In]|repeat split].
  all: repeat first [left; reflexivity | right].
Qed.

(** * Predictions *)
Definition expected_events (X : externals) (DM : DM_interface) (D : Distr_interface) (d : instrument) : res xr :=
  match d with DNuclear n => Nuclear_Total X DM D n | DIonization s => Ionization_Total X DM D s | DSemiconductor s => Semiconductor_Total X DM D s end.
Definition counts_photoelectrons (p : publication) : bool := match pb_counting p with Photoelectrons _ _ => true | _ => false end.
(** The atoms of an ionization detector can be evaluated. *)
Definition usable (X : externals) (DM : DM_interface) (d : instrument) : Prop :=
  match d with DIonization s => safe_material X DM (i_atoms s) (i_fractions s) | _ => True end.

Lemma predictions_safe rows F p d X DM D : realises rows F p d -> In p (map snd publications) -> counts_photoelectrons p = false ->
  safe_externals X -> safe_particle DM -> safe_halo D -> usable X DM d -> safe (expected_events X DM D d).
Proof.
  intros (_ & _ & _ & _ & MO & CO) IP NP SX SP SD US.
  assert (SMALL : match pb_counting p with Quanta first l => first = 1%Z /\ (Z.of_nat (length l) <= 10 ^ 6)%Z \/ pb_material p <> Silicon | _ => True end).
  { unfold publications in IP. cbn [map snd In] in IP. repeat (destruct IP as [<- | IP]; [cbn; try exact Logic.I; first [right; discriminate | left; split; [reflexivity|lia]]|]). destruct IP. }
  destruct d as [n|s|s]; cbn [expected_events].
  - destruct (pb_material p) as [zs| |]; cbn [made_of] in MO; try tauto. destruct MO as (T & L & _). apply forall2_length in T.
    assert (Hf : forall E, safe (Nuclear_dRdE X DM D n E)) by (intros; apply safe_nuclear_dRdE; auto; lia).
    assert (A : b_analysis (n_base n) <> Binned_Poisson).
    { destruct (pb_counting p); cbn [counts_as instrument_base] in CO; [destruct CO as [-> _]; discriminate| | |destruct CO as [-> _]; discriminate]; tauto. }
    unfold Nuclear_Total, DM_Signals_Total_Base. cbv zeta.
    destruct (b_analysis (n_base n)); [|congruence|]; apply safe_bind; try (apply safe_map; auto); intros v _; apply safe_bind; try apply SX; intros; apply safe_ok.
  - assert (SA : safe_atoms X DM s) by exact US.
    destruct (pb_counting p) as [e lo hi|first l|ed l|lo hi file] eqn:PC; cbn [counts_as instrument_base] in CO.
    + destruct (pb_material p) as [zs|ch z|] eqn:PM; cbn [made_of] in MO; try tauto.
      exfalso. unfold publications in IP. cbn [map snd In] in IP. repeat (destruct IP as [<- | IP]; [cbn [pb_material pb_counting] in *; discriminate|]). destruct IP.
    + destruct CO as ((A & B1 & B2 & _ & B3 & _) & U & N & _). unfold Ionization_Total. rewrite A. apply safe_bind; [|intros; apply safe_ok].
      unfold Ionization_Binned. rewrite A, U, N. unfold DM_Signals_Electron_Bins. rewrite N. cbn [negb]. apply safe_map. intros i Hi. apply in_seq in Hi. cbv zeta.
      apply safe_bind; [apply safe_R_ne; auto|]. intros r _. apply safe_bind; [apply safe_at; lia|]. intros; apply safe_ok.
    + unfold counts_photoelectrons in NP. rewrite PC in NP. discriminate.
    + destruct (pb_material p) as [zs|ch z|] eqn:PM; cbn [made_of] in MO; try tauto.
      exfalso. unfold publications in IP. cbn [map snd In] in IP. repeat (destruct IP as [<- | IP]; [cbn [pb_material pb_counting] in *; discriminate|]). destruct IP.
  - destruct (pb_material p) as [zs| |] eqn:PM; cbn [made_of] in MO; try tauto. destruct MO as (EC & _).
    destruct (pb_counting p) as [e lo hi|first l|ed l|lo hi file] eqn:PC; cbn [counts_as instrument_base] in CO; [| |tauto|].
    1,3: exfalso; unfold publications in IP; cbn [map snd In] in IP; repeat (destruct IP as [<- | IP]; [cbn [pb_material pb_counting] in *; discriminate|]); destruct IP.
    destruct CO as ((A & B1 & B2 & _ & B3 & _) & U & N & Q). destruct SMALL as [[-> SM] | NS]; [|congruence].
    unfold Semiconductor_Total. cbv zeta. rewrite A. apply safe_bind; [|intros; apply safe_ok].
    unfold Semiconductor_Binned. rewrite A, U, N. cbn [read_init bind]. unfold DM_Signals_Q_Bins. rewrite N, Q. cbn [read_init bind negb].
    destruct (crystal_facts _ _ _ EC) as (gap & eps & b & HC & Hg & He & HQ).
    apply safe_map. intros k Hk. apply Zrange_In in Hk. rewrite B2 in Hk. unfold u32 in Hk. rewrite Z.mod_small in Hk by lia.
    apply safe_bind; [apply safe_atZ; unfold u32; rewrite Z.mod_small by lia; lia|]. intros e _. apply safe_bind; [|intros; apply safe_ok].
    rewrite DetectorSafety_Proofs.s32_small by lia. unfold R_Q_Crystal. cbv zeta. apply safe_bind; [eapply safe_start; eauto; lia|]. intros st _. apply safe_Q_loop; auto.
Qed.

(** The predictions for XENON10 and XENON100 never succeed. *)
Lemma photoelectrons_never rows F p d X DM D v : realises rows F p d -> In p (map snd publications) -> counts_photoelectrons p = true -> expected_events X DM D d <> Ok v.
Proof.
  intros (_ & _ & _ & _ & MO & CO) IP NP. unfold counts_photoelectrons in NP. destruct (pb_counting p) as [e lo hi|first l|ed l|lo hi file] eqn:PC; try discriminate.
  assert (LE : exists lo hi rest, ed = lo :: hi :: rest /\ (lo <= u32 (hi - 1))%Z /\ l <> []).
  { unfold publications in IP. cbn [map snd In] in IP.
    repeat (destruct IP as [<- | IP]; [cbn [pb_counting] in PC; try discriminate|]). all: try (destruct IP; fail).
    all: injection PC as <- <-; do 3 eexists; split; [reflexivity|split; [vm_compute; discriminate|discriminate]]. }
  destruct LE as (lo & hi & rest & -> & LE & NL).
  cbn [counts_as] in CO. destruct CO as ((A & B1 & B2 & _) & U & CO). destruct d as [n|s|s]; try tauto. destruct CO as (C1 & C2 & C3). cbn [instrument_base] in *.
  cbn [expected_events]. unfold Ionization_Total. rewrite A. unfold Ionization_Binned. rewrite A, U, C2, C1. unfold DM_Signals_PE_Bins. rewrite C1, C3, B2. cbn [negb].
  destruct (map_res (R_ne X DM D s) (Zrange 1 100)) as [sp| | |] eqn:SP; try discriminate. cbn [bind]. apply spectrum_length in SP.
  rewrite Nat2Z.id. destruct l as [|e l]; [congruence|]. cbn [length seq map_res at_ub nth_error bind].
  destruct (R_S2_Bin X DM D s lo (u32 (hi - 1)) sp) as [r| | |] eqn:K; try discriminate. exfalso. revert K. apply S2_loop_not_ok; auto.
Qed.
