(** Properties of atoms and atomic response functions (C35, C36, C68). *)
From Coq Require Import Reals ZArith String Lia Lra Bool.
From Coquelicot Require Import Coquelicot.
From Coq Require Import List.
From Verif Require Import Base XrFacts Nucleus_Model Nuclear_Model Nuclear_Proofs Atom_Model Atom_Proofs.
Import ListNotations.
Local Open Scope R_scope.

(** C35: not every name tested for in the constructor yields an atom ... *)
Theorem C35_advertised_names_refuted : exists Import_Table rows w s, tables_readable Import_Table /\ well_formed rows /\ full_table rows /\
  world_history rows w /\ In s ["Xe"; "Xenon"; "Ar"; "Argon"]%string /\ Atom_by_name Import_Table w s = Exit.
Proof. exact atom_full_name_witness. Qed.
Print Assumptions C35_advertised_names_refuted.

(** ... namely "Xenon" and "Argon" terminate the program before the test is reached. *)
Theorem C35_full_names_terminate : forall Import_Table rows w s, well_formed rows -> full_table rows -> world_history rows w ->
  s = "Xenon"%string \/ s = "Argon"%string -> Atom_by_name Import_Table w s = Exit.
Proof. exact atom_full_names. Qed.
Print Assumptions C35_full_names_terminate.

(** The symbols give the atom with its nucleus and all its shells, outermost first; every other string is rejected. *)
Theorem C35_xenon : forall Import_Table rows w, tables_readable Import_Table -> well_formed rows -> full_table rows -> world_history rows w ->
  exists a w', Atom_by_name Import_Table w "Xe" = Ok (a, w') /\ element_of_table rows 54 (at_nucleus a) /\
    Forall2 shell_is (rev xenon_shells) (electrons a) /\ W a = Fin (13.8 * eV).
Proof. exact atom_Xe. Qed.
Print Assumptions C35_xenon.

Theorem C35_argon : forall Import_Table rows w, tables_readable Import_Table -> well_formed rows -> full_table rows -> world_history rows w ->
  exists a w', Atom_by_name Import_Table w "Ar" = Ok (a, w') /\ element_of_table rows 18 (at_nucleus a) /\
    Forall2 shell_is (rev argon_shells) (electrons a) /\ W a = Fin (19.6 * eV).
Proof. exact atom_Ar. Qed.
Print Assumptions C35_argon.

Theorem C35_others_rejected : forall Import_Table rows w s, well_formed rows -> full_table rows -> world_history rows w ->
  s <> "Xe"%string -> s <> "Ar"%string -> Atom_by_name Import_Table w s = Exit.
Proof. exact atom_other_names. Qed.
Print Assumptions C35_others_rejected.

Example C35_instance : tables_readable IT0 /\ well_formed shipped_rows /\ full_table shipped_rows /\ world_history shipped_rows (fresh_world shipped_rows) /\
  List.length xenon_shells = 11%nat /\ List.length argon_shells = 5%nat.
Proof.
  split; [exact IT0_readable|]. split; [exact shipped_well_formed|]. split; [exact shipped_full|]. split; [constructor|]. split; reflexivity.
Qed.

(** C36: outside the tables (with a tolerance of one part in a million) the answer is 0. *)
Theorem C36_zero_outside : forall I2 s k1 k2 q1 q2 r q E, real_shell s k1 k2 q1 q2 -> 0 <= E ->
  (1.000001 * q2 < q \/ 1.000001 * k2 < k_of E \/ k_of E < 0.999999 * k1) ->
  exists s' p, Atomic_Response_Function I2 s r (Fin q) (Fin E) = Ok (Fin 0, s', p).
Proof. exact response_zero. Qed.
Print Assumptions C36_zero_outside.

(** The tables are consulted only within the tolerance: two interpolations which agree there cannot be told apart. *)
Theorem C36_reads_within_tolerance : forall I2 J2 s k1 k2 q1 q2 r q E, real_shell s k1 k2 q1 q2 -> 0 <= E ->
  (forall t x y, 0.999999 * k1 <= x <= 1.000001 * k2 -> q1 <= y <= 1.000001 * q2 -> I2 t (Fin x) (Fin y) = J2 t (Fin x) (Fin y)) ->
  Atomic_Response_Function I2 s r (Fin q) (Fin E) = Atomic_Response_Function J2 s r (Fin q) (Fin E).
Proof. exact response_domain. Qed.
Print Assumptions C36_reads_within_tolerance.

(** Without the tolerance this is false: an interpolation which is 1 everywhere inside the domain gives NaN. *)
Theorem C36_strict_domain_refuted : exists I2 s k1 k2 q1 q2 q E, real_shell s k1 k2 q1 q2 /\ 0 <= E /\ q1 <= q <= q2 /\ k2 < k_of E /\
  (forall t x y, k1 <= x <= k2 -> q1 <= y <= q2 -> I2 t (Fin x) (Fin y) = Ok (Fin 1)) /\
  exists s' p, Atomic_Response_Function I2 s 1 (Fin q) (Fin E) = Ok (NaN, s', p).
Proof. exact reads_beyond_kmax. Qed.
Print Assumptions C36_strict_domain_refuted.

(** For a negative energy no test catches the NaN momentum and it is handed to the interpolation. *)
Theorem C36_negative_energy : forall I2 s k1 k2 q1 q2 q E t, real_shell s k1 k2 q1 q2 -> E < 0 -> q1 < q <= q2 ->
  nth_error (atomic_response_interpolations s) 0 = Some t ->
  Atomic_Response_Function I2 s 1 (Fin q) (Fin E) = let* f := I2 t NaN (Fin q) in Ok (f, s, false).
Proof. exact reads_negative_energy. Qed.
Print Assumptions C36_negative_energy.

(** Inside, response 1 is the interpolated table, continued below q_min by (q/q_min)^2 times its value there ... *)
Theorem C36_low_momentum : forall I2 s k1 k2 q1 q2 q E t f, real_shell s k1 k2 q1 q2 -> 0 <= E -> 0.999999 * k1 <= k_of E <= 1.000001 * k2 ->
  q <= 1.000001 * q2 -> nth_error (atomic_response_interpolations s) 0 = Some t ->
  (forall y, q1 <= y <= 1.000001 * q2 -> I2 t (Fin (k_of E)) (Fin y) = Ok (Fin (f y))) ->
  Atomic_Response_Function I2 s 1 (Fin q) (Fin E) = Ok (Fin (if Rle_dec q1 q then f q else (q / q1) ^ 2 * f q1), s, false).
Proof. exact response_one. Qed.
Print Assumptions C36_low_momentum.

(** ... which is continuous at q_min if the interpolation is. *)
Theorem C36_continuous : forall q1 f, 0 < q1 -> filterlim f (at_right q1) (locally (f q1)) ->
  filterlim (fun q => if Rle_dec q1 q then f q else (q / q1) ^ 2 * f q1) (locally q1) (locally (f q1)).
Proof. exact response_one_continuous. Qed.
Print Assumptions C36_continuous.

(** Over any history of calls at most one warning is printed and no answer depends on the history. *)
Theorem C36_warns_once : forall I2 cs s out, responses I2 s cs = Ok out -> (count_occ bool_dec (map snd out) true <= 1)%nat.
Proof. exact warn_once. Qed.
Print Assumptions C36_warns_once.

Theorem C36_history_independent : forall I2 cs s out, responses I2 s cs = Ok out ->
  Forall2 (fun c o => let '(r, q, E) := c in exists s' p, Atomic_Response_Function I2 s r q E = Ok (fst o, s', p)) cs out.
Proof. exact history_values. Qed.
Print Assumptions C36_history_independent.

(** Instances: the 5p shell of xenon with constant tables; two calls outside, the first of which warns, and one inside. *)
Example C36_instance : exists s, real_shell s (0.1 * keV) (500 * keV) (1 * keV) (1000 * keV) /\
  responses (fun _ _ _ => Ok (Fin 1)) s [(1%Z, Fin (2000 * keV), Fin 0); (2%Z, Fin (2000 * keV), Fin 0); (1%Z, Fin (2 * keV), Fin ((1 * keV) ^ 2 / (2 * mElectron)))]
    = Ok [(Fin 0, true); (Fin 0, false); (Fin 1, false)].
Proof.
  destruct (shell_ctor_ok IT0 "Xe" 5 1 (Fin (12.4433 * eV)) (Fin (0.1 * keV)) (Fin (500 * keV)) (Fin (1 * keV)) (Fin (1000 * keV)) 0 IT0_readable ltac:(lia))
    as [s [S1 [S2 [S3 [S4 [S5 [_ [_ [_ [_ [S10 S11]]]]]]]]]]].
  assert (HS : real_shell s (0.1 * keV) (500 * keV) (1 * keV) (1000 * keV)).
  { unfold real_shell. rewrite S2, S3, S4, S5, S11. unfold keV. repeat split; lra. }
  exists s. split; [exact HS|].
  assert (O : forall b r, Atomic_Response_Function (fun _ _ _ => Ok (Fin 1)) (with_warned b s) r (Fin (2000 * keV)) (Fin 0) = Ok (Fin 0, with_warned true s, negb b)).
  { intros b r. destruct (oob_spec (with_warned b s) _ _ _ _ (2000 * keV) 0 HS ltac:(lra)) as [K1 K2]. unfold Atomic_Response_Function. rewrite K1.
    rewrite (proj2 K2) by (left; unfold keV; lra). reflexivity. }
  cbn [responses]. rewrite <- (with_warned_same s) at 1. rewrite S10, O. cbn [bind fst snd negb]. rewrite O. cbn [bind fst snd negb].
  assert (h := mElectron_pos). assert (HE : 0 <= (1 * keV) ^ 2 / (2 * mElectron)).
  { apply Rmult_le_pos; [apply pow2_ge_0|]. left. apply Rinv_0_lt_compat. lra. }
  assert (KE : k_of ((1 * keV) ^ 2 / (2 * mElectron)) = 1 * keV).
  { unfold k_of. replace (2 * mElectron * ((1 * keV) ^ 2 / (2 * mElectron))) with ((1 * keV) ^ 2) by (field; lra). apply sqrt_pow2. unfold keV; lra. }
  destruct (atomic_response_interpolations s) as [|t0 tl] eqn:T; [cbn in S11; discriminate|].
  rewrite (response_one (fun _ _ _ => Ok (Fin 1)) (with_warned true s) (0.1 * keV) (500 * keV) (1 * keV) (1000 * keV) (2 * keV) _ t0 (fun _ => 1)); auto.
  - cbn [bind fst snd]. destruct (Rle_dec (1 * keV) (2 * keV)); [reflexivity|exfalso; unfold keV in *; lra].
  - rewrite KE. unfold keV. lra.
  - unfold keV. lra.
  - cbn [with_warned atomic_response_interpolations]. rewrite T. reflexivity.
Qed.

(** C68: the lowest binding energy is the smallest modulus among the shells, capped at 1 GeV. *)
Theorem C68_lowest_binding_energy : forall a, Forall (fun s => is_fin (binding_energy s)) (electrons a) ->
  exists m, Lowest_Binding_Energy a = Fin m /\ m <= 1 /\
    (forall s e, In s (electrons a) -> binding_energy s = Fin e -> m <= Rabs e) /\
    (m = 1 \/ exists s e, In s (electrons a) /\ binding_energy s = Fin e /\ m = Rabs e).
Proof. exact lowest_binding_spec. Qed.
Print Assumptions C68_lowest_binding_energy.

Theorem C68_xenon : forall a, Forall2 shell_is (rev xenon_shells) (electrons a) -> Lowest_Binding_Energy a = Fin (12.4433 * eV).
Proof. exact xenon_lowest. Qed.
Print Assumptions C68_xenon.

(** A shell request gives the first shell with these quantum numbers and terminates if there is none. *)
Theorem C68_electron : forall a n l,
  match find (fun s => (sh_n s =? n) && (sh_l s =? l))%Z (electrons a) with
  | Some s => Atom_Electron a n l = Ok s /\ sh_n s = n /\ sh_l s = l
  | None => Atom_Electron a n l = Exit
  end.
Proof. exact electron_spec. Qed.
Print Assumptions C68_electron.

Example C68_instance : exists a w', Atom_by_name IT0 (fresh_world shipped_rows) "Xe" = Ok (a, w') /\ Forall2 shell_is (rev xenon_shells) (electrons a) /\
  Lowest_Binding_Energy a = Fin (12.4433 * eV).
Proof.
  destruct (atom_Xe IT0 shipped_rows (fresh_world shipped_rows) IT0_readable shipped_well_formed shipped_full (wh_start _)) as [a [w' [A1 [A2 [A3 A4]]]]].
  exists a, w'. split; [exact A1|]. split; [exact A3|]. apply xenon_lowest. exact A3.
Qed.
