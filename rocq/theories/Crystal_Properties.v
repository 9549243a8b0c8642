(** Properties of crystals (C37, C38, C39). *)
From Coq Require Import Reals ZArith String Lia Lra Psatz Bool.
From Coquelicot Require Import Coquelicot.
From Coq Require Import List.
From Verif Require Import Base XrFacts Nucleus_Model Distribution_Model Atom_Model Crystal_Model Rates_Model Kinematics_Proofs Crystal_Proofs.
Import ListNotations.
Local Open Scope R_scope.

(** C37: outside the tabulated rectangle the form factor is 0 and the table is not consulted; inside it is the interpolated value. *)
Theorem C37_zero_outside : forall I2 c gap eps de emax a b w q E, real_crystal c gap eps de emax a b ->
  (outside de emax a b q E -> exists w' p, Crystal_Form_Factor I2 c w (Fin q) (Fin E) = Ok (Fin 0, w', p)) /\
  (~ outside de emax a b q E -> Crystal_Form_Factor I2 c w (Fin q) (Fin E) = let* f := I2 (form_factor_table c) (Fin q) (Fin E) in Ok (f, w, false)).
Proof. exact lookup_spec. Qed.
Print Assumptions C37_zero_outside.

(** Two interpolation routines which agree on the rectangle cannot be told apart: nothing outside is ever asked. *)
Theorem C37_stays_inside : forall I2 J2 c gap eps de emax a b w q E, real_crystal c gap eps de emax a b ->
  (forall t x y, a <= x <= b -> de <= y <= emax -> I2 t (Fin x) (Fin y) = J2 t (Fin x) (Fin y)) ->
  Crystal_Form_Factor I2 c w (Fin q) (Fin E) = Crystal_Form_Factor J2 c w (Fin q) (Fin E).
Proof. exact lookup_domain. Qed.
Print Assumptions C37_stays_inside.

(** The built-in crystals: the table has the nodes dq..900 dq and dE..500 dE; the constructor reads number 900 Ei + qi of the data
    file for row qi, column Ei, reading past the end exactly when the file has fewer than 450000 numbers. *)
Theorem C37_construction : forall Import_List target gap eps Q aux,
  built_in target gap eps Q -> Import_List ("data/Semiconductors/C." ++ target ++ "137.dat")%string = Ok aux ->
  ((900 * 500 <= Z.of_nat (List.length aux))%Z ->
    exists c, Crystal_ctor Import_List target = Ok c /\ real_crystal c gap eps (0.1 * eV) (500 * (0.1 * eV)) (0.02 * aEM * mElectron) (900 * (0.02 * aEM * mElectron)) /\
      N_E c = 500%Z /\ N_q c = 900%Z /\ Q_max c = Q /\ Electron_Hole_Pairs (E_max c) c = Ok Q /\
      M_cell c = Fin (2 * (if String.eqb target "Si" then 28.08 else 72.6) * mNucleon) /\
      t2_x (form_factor_table c) = grid (0.02 * aEM * mElectron) 900 /\ t2_y (form_factor_table c) = grid (0.1 * eV) 500 /\
      table_spec aux (Fin ((if String.eqb target "Si" then 2 else 1.8) * eV)) (dE c) (t2_f (form_factor_table c))) /\
  ((Z.of_nat (List.length aux) < 900 * 500)%Z -> Crystal_ctor Import_List target = UB).
Proof. exact crystal_ctor_ok. Qed.
Print Assumptions C37_construction.

Theorem C37_unknown_crystal : forall Import_List target, target <> "Si"%string -> target <> "Ge"%string -> Crystal_ctor Import_List target = Exit.
Proof. exact crystal_ctor_unknown. Qed.
Print Assumptions C37_unknown_crystal.

(** Over any sequence of lookups on any crystals at most one warning is printed, and none once the flag is set. *)
Theorem C37_warns_once : forall I2 cs w out, lookups I2 w cs = Ok out -> (count_occ bool_dec (map snd out) true <= if w then 0 else 1)%nat.
Proof. exact lookups_warn_once. Qed.
Print Assumptions C37_warns_once.

(** Instance: silicon built from a file of 450000 ones; an energy of 60 eV is outside. *)
Example C37_instance : exists c, Crystal_ctor IL0 "Si" = Ok c /\ forall I2 w, exists w' p, Crystal_Form_Factor I2 c w (Fin (aEM * mElectron)) (Fin (60 * eV)) = Ok (Fin 0, w', p).
Proof.
  destruct (crystal_ctor_ok IL0 "Si" (1.11 * eV) (3.6 * eV) 14 (repeat (Fin 1) (Z.to_nat 450000))) as [H _]; [left; auto|reflexivity|].
  destruct H as [c [H1 [H2 _]]]; [rewrite IL0_length; lia|]. exists c. split; [exact H1|]. intros I2 w.
  apply (proj1 (lookup_spec I2 c _ _ _ _ _ _ w (aEM * mElectron) (60 * eV) H2)). unfold outside. assert (h := eV_pos). lra.
Qed.

(** C38: the number of pairs is the unique Q with Emin(Q) <= E < Emin(Q+1); it exists for every energy from gap - epsilon up. *)
Theorem C38_unique_pairs : forall c gap eps de emax a b E Q, real_crystal c gap eps de emax a b -> gap - eps <= E -> (Q <= 2 ^ 32 - 1)%Z ->
  (Electron_Hole_Pairs (Fin E) c = Ok Q <-> xle (Minimum_Electron_Energy Q c) (Fin E) = true /\ xlt (Fin E) (Minimum_Electron_Energy (Q + 1) c) = true).
Proof. exact pairs_unique. Qed.
Print Assumptions C38_unique_pairs.

Theorem C38_pairs_exist : forall c gap eps de emax a b E, real_crystal c gap eps de emax a b -> gap - eps <= E -> E < gap + eps * (2 ^ 32 - 1) ->
  exists Q, (0 <= Q)%Z /\ Electron_Hole_Pairs (Fin E) c = Ok Q.
Proof. exact pairs_total. Qed.
Print Assumptions C38_pairs_exist.

(** Below that energy the conversion of a negative double to unsigned int is undefined behaviour. *)
Theorem C38_below_gap : forall c gap eps de emax a b E, real_crystal c gap eps de emax a b -> E < gap - eps -> Electron_Hole_Pairs (Fin E) c = UB.
Proof. exact pairs_below. Qed.
Print Assumptions C38_below_gap.

(** The largest supported number of pairs is the number of pairs at E_max (14 for silicon, 18 for germanium). *)
Theorem C38_largest_pairs : forall Import_List target c, Crystal_ctor Import_List target = Ok c ->
  Electron_Hole_Pairs (E_max c) c = Ok (Q_max c) /\ exists gap eps, built_in target gap eps (Q_max c).
Proof. exact largest_pairs. Qed.
Print Assumptions C38_largest_pairs.

Theorem C38_threshold_energy : forall c gap eps de emax a b Q, real_crystal c gap eps de emax a b -> Minimum_Electron_Energy Q c = Fin (gap + eps * (IZR Q - 1)).
Proof. exact Emin_fin. Qed.
Print Assumptions C38_threshold_energy.

(** Instance: 10 eV in silicon gives 3 pairs. *)
Example C38_instance : forall c a b, real_crystal c (1.11 * eV) (3.6 * eV) (0.1 * eV) (50 * eV) a b -> Electron_Hole_Pairs (Fin (10 * eV)) c = Ok 3%Z.
Proof.
  intros c a b H. assert (h := eV_pos). apply (pairs_unique c _ _ _ _ _ _ _ _ H); [lra|lia|]. rewrite !(Emin_fin c _ _ _ _ _ _ _ H). unfold Emin_R. rewrite plus_IZR.
  split; [apply xle_spec|apply xlt_spec]; lra.
Qed.

(** C39: the rate above Q splits into bin Q and the rate above Q + 1, also when the rates are infinite, NaN or make the program stop. *)
Theorem C39_step : forall Integrate DM D c gap eps de emax a b Q, real_crystal c gap eps de emax a b -> (0 <= Q)%Z -> Emin_R gap eps (Q + 1) / de < 2 ^ 31 ->
  R_total_Crystal Integrate Q DM D c = let* r := R_Q_Crystal Integrate Q DM D c in let* t := R_total_Crystal Integrate (Q + 1) DM D c in Ok (xadd r t).
Proof. exact partition_step. Qed.
Print Assumptions C39_step.

Theorem C39_bins : forall Integrate DM D c gap eps de emax a b n Q, real_crystal c gap eps de emax a b -> (0 <= Q)%Z -> Emin_R gap eps (Q + Z.of_nat n) / de < 2 ^ 31 ->
  R_total_Crystal Integrate Q DM D c = let* r := bins_total Integrate Q n DM D c in let* t := R_total_Crystal Integrate (Q + Z.of_nat n) DM D c in Ok (xadd r t).
Proof. exact partition_bins. Qed.
Print Assumptions C39_bins.

(** In the built-in crystals nothing is left above Q_max. *)
Theorem C39_nothing_above : forall Integrate DM D c target gap eps a b, built_in target gap eps (Q_max c) ->
  real_crystal c gap eps (0.1 * eV) (500 * (0.1 * eV)) a b -> N_E c = 500%Z -> R_total_Crystal Integrate (Q_max c + 1) DM D c = Ok (Fin 0).
Proof. exact nothing_above. Qed.
Print Assumptions C39_nothing_above.

(** What a bin contains: the grid energies with Emin(Q) < E <= Emin(Q+1) ... *)
Theorem C39_bin_content : forall Integrate DM D c gap eps de emax a b Q, real_crystal c gap eps de emax a b -> (1 <= Q)%Z -> Emin_R gap eps Q / de < 2 ^ 31 ->
  R_Q_Crystal Integrate Q DM D c = rate_sum Integrate DM D c (grid_energies de (N_E c) (between (Emin_R gap eps Q) (Emin_R gap eps (Q + 1)))).
Proof. exact bin_content. Qed.
Print Assumptions C39_bin_content.

(** ... which for silicon and germanium are exactly the grid energies that produce Q pairs. *)
Theorem C39_bin_is_pair_number : forall Integrate DM D c target gap eps a b Qm Q, built_in target gap eps Qm ->
  real_crystal c gap eps (0.1 * eV) (500 * (0.1 * eV)) a b -> N_E c = 500%Z -> (1 <= Q <= 50000000)%Z ->
  R_Q_Crystal Integrate Q DM D c = rate_sum Integrate DM D c (grid_energies (0.1 * eV) 500 (has_pairs c Q)).
Proof. exact bin_is_pair_number. Qed.
Print Assumptions C39_bin_is_pair_number.

(** Instance: the hypotheses hold for the silicon crystal built from a readable file; the 14 bins from Q = 1 make up the total. *)
Example C39_instance : exists c, Crystal_ctor IL0 "Si" = Ok c /\ forall Integrate DM D,
  R_total_Crystal Integrate 1 DM D c = let* r := bins_total Integrate 1 14 DM D c in Ok (xadd r (Fin 0)).
Proof.
  destruct (crystal_ctor_ok IL0 "Si" (1.11 * eV) (3.6 * eV) 14 (repeat (Fin 1) (Z.to_nat 450000))) as [H _]; [left; auto|reflexivity|].
  destruct H as [c [H1 [H2 [H3 [_ [H5 _]]]]]]; [rewrite IL0_length; lia|]. exists c. split; [exact H1|]. intros Integrate DM D.
  rewrite (partition_bins Integrate DM D c _ _ _ _ _ _ 14 1 H2) by (try lia; unfold Emin_R; assert (h := eV_pos); cbn [Z.of_nat];
    replace (1.11 * eV + 3.6 * eV * (IZR (1 + Z.pos (Pos.of_succ_nat 13)) - 1)) with ((1.11 + 3.6 * 14) * eV) by (cbn; lra);
    replace ((1.11 + 3.6 * 14) * eV / (0.1 * eV)) with ((1.11 + 3.6 * 14) / 0.1) by (field; lra); lra).
  destruct (bins_total Integrate 1 14 DM D c); cbn [bind]; try reflexivity.
  change (1 + Z.of_nat 14)%Z with (14 + 1)%Z. rewrite <- H5. rewrite (nothing_above Integrate DM D c "Si" (1.11 * eV) (3.6 * eV) _ _ (or_introl (conj eq_refl (conj eq_refl (conj eq_refl H5)))) H2 H3).
  reflexivity.
Qed.
