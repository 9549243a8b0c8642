(** C112: summaries of halos, nuclei and atoms. *)
From Coq Require Import Reals ZArith String Lia Lra Bool.
From Coquelicot Require Import Coquelicot.
From Coq Require Import List.
From Verif Require Import Base XrFacts Quadrature Astronomy_Model Nucleus_Model Nuclear_Model Nuclear_Proofs Atom_Model Atom_Proofs AtomTables_Proofs Distribution_Model Halo_Model Halo_Proofs HaloState_Proofs HaloFinal_Proofs Average_Model Average_Proofs AverageHalo_Proofs
  Configuration_Model Distribution_Proofs DetectorTypes_Model Summary_Model Summary_Proofs SummaryValues_Proofs Abundances_Proofs HaloSummary_Proofs.
Import ListNotations.
Local Open Scope R_scope.

(** C112: after every history of setters the standard halo prints its density, speed domain and parameters as given last, in the units named, the average velocity, which is opposite to that of the observer, and the average speed. *)
Theorem C112_halo : forall Round Q rho v0 vel ve ops s u, ideal_quadrature (q_Integrate Q) -> ideal_quadrature_3D (q_Integrate_3D Q) -> hrun (SHM_of_velocity rho v0 vel ve) ops = Ok s -> last_vel vel ops u ->
  0 < last_v0 v0 ops -> 0 < last_vesc ve ops -> vnorm u <= last_vesc ve ops ->
  exists out f m, print_halo Round Q 0 (HStandard s) = Ok out /\ shows_halo Round rho (last_v0 v0 ops) u (last_vesc ve ops) out /\
    values "Average DM velocity [km/sec]" out = [map (in_km_per_sec Round) [- vx u; - vy u; - vz u]] /\
    (forall v, PDF_Speed_SHM s (Fin v) = Fin (f v)) /\ is_RInt (fun v => v * f v) 0 (last_vesc ve ops + vnorm u) m /\ values "Average DM speed [km/sec]" out = [[in_km_per_sec Round m]].
Proof. exact halo_shown. Qed.
Print Assumptions C112_halo.

(** The refined halo shows the same parameters and its eta and beta. *)
Theorem C112_plus_plus : forall Round Q I I2 rho v0 vel ve e b ops s0 s out, SHMpp_of_velocity I I2 rho v0 vel ve e b = Ok s0 -> pprun s0 ops = Ok s -> print_halo Round Q 0 (HPlusPlus s) = Ok out ->
  exists u, last_vel vel (base_ops ops) u /\ shows_halo Round rho (last_v0 v0 (base_ops ops)) u (last_vesc ve (base_ops ops)) out /\
    values "Eta parameter" out = [[Num (Fin (last_eta e ops))]] /\ values "Beta parameter" out = [[Num (Fin (last_beta b ops))]].
Proof. exact pp_shown. Qed.
Print Assumptions C112_plus_plus.

(** An element shows its name, one line for each of its rows in the table with the abundance in percent, and the sum of the abundances. *)
Theorem C112_nucleus : forall Round rows w z n w', well_formed rows -> world_history rows w -> (1 <= z <= 92)%Z -> in_table rows z -> Get_Nucleus w z = Ok (n, w') ->
  exists lines total, print_nucleus Round 0 n = [(nname n, [])] ++ lines ++ [("Total"%string, total)] /\ nth_error Nucleus_Names (Z.to_nat (z - 1)) = Some (nname n) /\
    Forall2 (isotope_shown Round) (filter (fun r => (rw_Z r =? z)%Z) rows) lines /\ (forall l, abundances n l -> exists a, total = [a; Num (Fin (100 * total_of l))]).
Proof. exact nucleus_shown. Qed.
Print Assumptions C112_nucleus.

(** With the shipped table the sum shown is 100 for all but six elements. *)
Theorem C112_percent : forall w z n w' Round, world_history shipped_rows w -> Get_Nucleus w z = Ok (n, w') -> ~ In z irregular -> exists lines a, print_nucleus Round 0 n = lines ++ [("Total"%string, [a; Num (Fin 100)])].
Proof. exact nucleus_percent. Qed.
Print Assumptions C112_percent.

(** Xenon and argon show their charge, the mean energy per pair and the binding energies of all shells in eV. *)
Theorem C112_atom : forall IT rows w name z ls wf, proper_tables IT -> well_formed rows -> full_table rows -> world_history rows w ->
  In (name, z, ls, wf) [("Xe"%string, 54%Z, listed_xenon, 13.8); ("Ar"%string, 18%Z, listed_argon, 19.6)] ->
  exists a w' m, Atom_by_name IT w name = Ok (a, w') /\ print_atom 0 a = Ok ([("Atom", [Txt name]); ("Z", [Int z]); ("Mass [GeV]", [Num m]); ("W [eV]", [Num (Fin wf)])]%string ++ map shell_shown ls).
Proof. exact atom_shown. Qed.
Print Assumptions C112_atom.

(** Instances: an observer moving at 3 and a new escape velocity; three setters of the refined halo; germanium. *)
Example C112_instance : ideal_quadrature (q_Integrate exact_integrals) /\ ideal_quadrature_3D (q_Integrate_3D exact_integrals) /\ exists s, hrun (SHM_of_velocity 1 2 (V3 0 0 1) 5) [Set_Observer_Velocity (V3 1 2 (-2)); Set_Escape_Velocity 6] = Ok s /\
  last_vel (V3 0 0 1) [Set_Observer_Velocity (V3 1 2 (-2)); Set_Escape_Velocity 6] (V3 1 2 (-2)) /\ vnorm (V3 1 2 (-2)) = 3.
Proof. exact halo_shown_instance. Qed.
Example C112_plus_plus_instance : exists I I2 s0 s out, SHMpp_of_velocity I I2 1 1 (V3 0 1 0) 2 (1/5) (9/10) = Ok s0 /\ pprun s0 [Set_Beta (1/2); PBase (Set_Speed_Dispersion 3); Set_Eta (1/3)] = Ok s /\
  print_halo (fun x => x) even_integrals 0 (HPlusPlus s) = Ok out /\ values "Eta parameter" out = [[Num (Fin (1/3))]].
Proof. exact pp_shown_instance. Qed.
Example C112_nucleus_instance : exists n w', well_formed shipped_rows /\ in_table shipped_rows 32 /\ Get_Nucleus (fresh_world shipped_rows) 32 = Ok (n, w') /\ ~ In 32%Z irregular.
Proof. exact nucleus_shown_instance. Qed.
Example C112_atom_instance : proper_tables IT2 /\ well_formed shipped_rows /\ full_table shipped_rows /\ world_history shipped_rows (fresh_world shipped_rows).
Proof. exact listed_instance. Qed.
