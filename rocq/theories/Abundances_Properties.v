(** C113: natural abundances. *)
From Coq Require Import Reals ZArith String Lia Lra Bool.
From Coq Require Import List.
From Verif Require Import Base XrFacts Nucleus_Model Nuclear_Model Nuclear_Proofs Abundances_Proofs.
Import ListNotations.
Local Open Scope R_scope.

(** C113: the abundances of the isotopes of an element add up to exactly 1 for all but six elements, within 0.00012 for all elements that have stable isotopes, and to 0 for technetium and promethium. *)
Theorem C113_totals : forall w z n w', world_history shipped_rows w -> Get_Nucleus w z = Ok (n, w') ->
  exists l, abundances n l /\ (~ In z irregular -> total_of l = 1) /\ (In z irregular -> total_of l <> 1) /\ (z <> 43%Z -> z <> 61%Z -> Rabs (total_of l - 1) <= 0.00012) /\ (z = 43%Z \/ z = 61%Z -> total_of l = 0).
Proof. exact shipped_abundances. Qed.
Print Assumptions C113_totals.

Example C113_instance : exists n w', Get_Nucleus (fresh_world shipped_rows) 32 = Ok (n, w') /\ world_history shipped_rows (fresh_world shipped_rows) /\ ~ In 32%Z irregular.
Proof. exact abundances_instance. Qed.

(** They do not for every element: those of xenon add up to 0.99999. *)
Theorem C113_refuted : exists w n w' l, world_history shipped_rows w /\ Get_Nucleus w 54 = Ok (n, w') /\ abundances n l /\ total_of l = 0.99999.
Proof. exact abundances_refuted. Qed.
Print Assumptions C113_refuted.
