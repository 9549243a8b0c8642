(** Property theorems about nuclear data lookups (C33, C34, C67). *)
From Coq Require Import Reals List ZArith String Lia Lra.
From Verif Require Import Base XrFacts Nucleus_Model Nuclear_Model Nuclear_Proofs.
Import ListNotations.
Local Open Scope Z_scope.

(** C33: after any sequence of lookups, asking for a charge of the table gives the element made of exactly the rows of that
    charge, in order. *)
Theorem C33_lookup_by_charge : forall rows w z, well_formed rows -> world_history rows w -> 1 <= z <= 92 -> in_table rows z ->
  exists n w', Get_Nucleus w z = Ok (n, w') /\ element_of_table rows z n.
Proof. exact get_nucleus_in. Qed.
Print Assumptions C33_lookup_by_charge.

(** The answer does not depend on earlier lookups. *)
Theorem C33_history_independent : forall rows w1 w2 z, well_formed rows -> world_history rows w1 -> world_history rows w2 ->
  1 <= z <= 92 -> in_table rows z ->
  exists n v1 v2, Get_Nucleus w1 z = Ok (n, v1) /\ Get_Nucleus w2 z = Ok (n, v2).
Proof. exact get_nucleus_stable. Qed.
Print Assumptions C33_history_independent.

Theorem C33_other_charges_rejected : forall rows w z, well_formed rows -> world_history rows w -> ~ 1 <= z <= 92 -> Get_Nucleus w z = Exit.
Proof. exact get_nucleus_out. Qed.
Print Assumptions C33_other_charges_rejected.

(** The shipped table contains every charge that passes the range check. *)
Theorem C33_shipped_table : well_formed shipped_rows /\ full_table shipped_rows.
Proof. exact (conj shipped_well_formed shipped_full). Qed.
Print Assumptions C33_shipped_table.

(** Rejection relies on the file having 92 elements: with a shorter one a charge that is not in the table is not rejected but
    read past the end of the vector. *)
Theorem C33_short_table_refuted : exists rows w z, well_formed rows /\ world_history rows w /\ 1 <= z <= 92 /\
  ~ in_table rows z /\ Get_Nucleus w z = UB.
Proof. exact short_table. Qed.
Print Assumptions C33_short_table_refuted.

(** Instance: the shipped table after a lookup by charge and one by name; charge 54. *)
Example C33_instance : exists w n, world_history shipped_rows w /\ nw_all w <> [] /\ element_of_table shipped_rows 54 n /\
  exists w', Get_Nucleus w 54 = Ok (n, w').
Proof.
  destruct (get_nucleus_in shipped_rows (fresh_world shipped_rows) 8 shipped_well_formed (wh_start _) ltac:(lia) (shipped_full 8 ltac:(lia))) as [n [w [G _]]].
  pose proof (wh_query shipped_rows _ (ByCharge 8) n w (wh_start _) G) as H.
  destruct (by_name_is_by_charge shipped_rows w 54 "Xe" shipped_well_formed shipped_full H ltac:(lia) eq_refl) as [m [w1 [w2 [N [_ E]]]]].
  pose proof (wh_query shipped_rows w (ByName "Xe") m w1 H N) as H1.
  destruct (get_nucleus_in shipped_rows w1 54 shipped_well_formed H1 ltac:(lia) (shipped_full 54 ltac:(lia))) as [m' [w3 [G3 E3]]].
  exists w1, m'. split; [exact H1|]. split; [|split; [exact E3|exists w3; exact G3]].
  apply history_inv in H1. destruct (import_ok shipped_rows shipped_well_formed) as [l [L [Hl _]]].
  destruct H1 as [_ [A | A]]; [|rewrite L in A; apply Ok_inj in A; congruence].
  exfalso. apply history_inv in H. destruct H as [F [B | B]].
  - unfold Get_Nucleus in G. cbn [fresh_world nw_all] in G. change ((8 <? 1) || (92 <? 8))%bool with false in G. cbn [Datatypes.length Nat.eqb] in G.
    unfold Import_Nuclear_Data in G. cbn [nw_file fresh_world] in G. rewrite L in G. cbn [bind nw_all] in G.
    destruct (at_ubZ l (8 - 1)); try discriminate. cbn [bind] in G. apply Ok_inj in G. injection G as _ <-. cbn in B. congruence.
  - rewrite L in B. apply Ok_inj in B.
    unfold Get_Nucleus_by_name in N. assert (K : forall k z v s n' v', nw_all v <> [] -> name_loop k z v s = Ok (n', v') -> nw_all v' <> []).
    { assert (KG : forall v z n' v', nw_all v <> [] -> Get_Nucleus v z = Ok (n', v') -> nw_all v' <> []).
      { intros v z n' v' Hv HG. unfold Get_Nucleus in HG. destruct ((z <? 1) || (92 <? z))%bool; [discriminate|].
        destruct (Datatypes.length (nw_all v) =? 0)%nat eqn:E0; [apply Nat.eqb_eq, length_zero_iff_nil in E0; congruence|].
        cbn [bind] in HG. destruct (at_ubZ (nw_all v) (z - 1)); try discriminate. cbn [bind] in HG. apply Ok_inj in HG. injection HG as _ <-. exact Hv. }
      induction k; intros z v s n' v' Hv HK; cbn [name_loop] in HK; [discriminate|].
      destruct (Get_Nucleus v z) as [[n1 v1]| | |] eqn:G1; try discriminate. cbn [bind fst snd] in HK. specialize (KG _ _ _ _ Hv G1) as Hv1.
      destruct (nname n1 =? s)%string; [exact (KG _ _ _ _ Hv1 HK)|exact (IHk _ _ _ _ _ Hv1 HK)]. }
    apply (K _ _ _ _ _ _ ltac:(rewrite <- B; exact Hl) N). exact A.
Qed.

(** C34: looking up by symbol and by charge agree; unknown names are rejected. *)
Theorem C34_by_name : forall rows w z s, well_formed rows -> full_table rows -> world_history rows w -> 1 <= z <= 92 ->
  nth_error Nucleus_Names (Z.to_nat (z - 1)) = Some s ->
  exists n w1 w2, Get_Nucleus_by_name w s = Ok (n, w1) /\ Get_Nucleus w z = Ok (n, w2) /\ element_of_table rows z n.
Proof. exact by_name_is_by_charge. Qed.
Print Assumptions C34_by_name.

Theorem C34_unknown_name_rejected : forall rows w s, well_formed rows -> full_table rows -> world_history rows w ->
  (forall k, (k < 92)%nat -> nth_error Nucleus_Names k <> Some s) -> Get_Nucleus_by_name w s = Exit.
Proof. exact by_name_unknown. Qed.
Print Assumptions C34_unknown_name_rejected.

(** An isotope request gives the first row with that charge and mass number and terminates if there is none. *)
Theorem C34_isotope : forall rows w z a, well_formed rows -> world_history rows w -> 1 <= z <= 92 -> in_table rows z ->
  match find (fun r => (rw_Z r =? z) && (rw_A r =? a))%bool rows with
  | Some r => exists i w', Get_Isotope w z a = Ok (i, w') /\ isotope_of_row r i
  | None => Get_Isotope w z a = Exit
  end.
Proof. exact isotope_lookup. Qed.
Print Assumptions C34_isotope.

(** Instances: xenon by name, the missing name "Xenon", and Np which is in the list of names but beyond charge 92. *)
Example C34_instance : nth_error Nucleus_Names (Z.to_nat (54 - 1)) = Some "Xe"%string /\
  (forall k, (k < 92)%nat -> nth_error Nucleus_Names k <> Some "Xenon"%string) /\
  (forall k, (k < 92)%nat -> nth_error Nucleus_Names k <> Some "Np"%string) /\ In "Np"%string Nucleus_Names /\
  option_map rw_A (find (fun r => (rw_Z r =? 54) && (rw_A r =? 131))%bool shipped_rows) = Some 131 /\
  find (fun r => (rw_Z r =? 54) && (rw_A r =? 127))%bool shipped_rows = None.
Proof.
  assert (K : forall s, existsb (String.eqb s) (firstn 92 Nucleus_Names) = false -> forall k, (k < 92)%nat -> nth_error Nucleus_Names k <> Some s).
  { intros s H k Hk E. assert (existsb (String.eqb s) (firstn 92 Nucleus_Names) = true); [|congruence]. apply existsb_exists. exists s.
    split; [|apply String.eqb_refl]. apply (nth_error_In _ k). rewrite <- E. symmetry.
    rewrite <- (firstn_skipn 92 Nucleus_Names) at 1. apply nth_error_app1. cbn. exact Hk. }
  split; [reflexivity|]. split; [apply K; reflexivity|]. split; [apply K; reflexivity|]. split; [|split].
  - apply (nth_error_In _ 92). reflexivity.
  - reflexivity.
  - reflexivity.
Qed.

(** C67: two elements of the shipped table have average mass zero ... *)
Theorem C67_positive_mass_refuted : exists w z n w', world_history shipped_rows w /\ Get_Nucleus w z = Ok (n, w') /\ Average_Nuclear_Mass n = Fin 0.
Proof. exact zero_mass. Qed.
Print Assumptions C67_positive_mass_refuted.

(** ... and all others a positive one. *)
Theorem C67_positive_mass : forall w z n w', world_history shipped_rows w -> Get_Nucleus w z = Ok (n, w') ->
  (z <> 43 -> z <> 61 -> exists x, Average_Nuclear_Mass n = Fin x /\ (0 < x)%R) /\ (z = 43 \/ z = 61 -> Average_Nuclear_Mass n = Fin 0).
Proof. exact shipped_mass_positive. Qed.
Print Assumptions C67_positive_mass.

Example C67_instance : exists n w', Get_Nucleus (fresh_world shipped_rows) 54 = Ok (n, w') /\ element_of_table shipped_rows 54 n.
Proof. exact (get_nucleus_in shipped_rows (fresh_world shipped_rows) 54 shipped_well_formed (wh_start _) ltac:(lia) (shipped_full 54 ltac:(lia))). Qed.
