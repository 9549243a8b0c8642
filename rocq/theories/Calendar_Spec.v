(** Independent specification of the civil calendar: one-day steps.
    Nothing here mentions the code in /repo. *)
From Coq Require Import ZArith Bool.
Local Open Scope Z_scope.

Record date := Date { yr : Z; mo : Z; dy : Z }.

Definition gregorian_leap (y : Z) : bool :=
  (y mod 4 =? 0) && (negb (y mod 100 =? 0) || (y mod 400 =? 0)).
Definition julian_leap (y : Z) : bool := y mod 4 =? 0.

Definition month_length (leap : Z -> bool) (y m : Z) : Z :=
  if m =? 2 then (if leap y then 29 else 28)
  else if (m =? 4) || (m =? 6) || (m =? 9) || (m =? 11) then 30 else 31.

Definition valid_date (leap : Z -> bool) (d : date) : Prop :=
  1 <= mo d <= 12 /\ 1 <= dy d <= month_length leap (yr d) (mo d).

Definition next_day (leap : Z -> bool) (d : date) : date :=
  if dy d <? month_length leap (yr d) (mo d) then Date (yr d) (mo d) (dy d + 1)
  else if mo d <? 12 then Date (yr d) (mo d + 1) 1
  else Date (yr d + 1) 1 1.

(** Chronological order of dates. *)
Definition date_le (a b : date) : Prop :=
  yr a < yr b \/ (yr a = yr b /\ (mo a < mo b \/ (mo a = mo b /\ dy a <= dy b))).

Definition first_day : date := Date 1900 3 1.
Definition last_day : date := Date 2100 2 28.
Definition J2000_day : date := Date 2000 1 1.

(** Number of days from [a] to [b] by one-day steps in either direction. *)
Definition days_between (a b : date) (n : Z) : Prop :=
  (0 <= n /\ Nat.iter (Z.to_nat n) (next_day gregorian_leap) a = b)%Z \/
  (n <= 0 /\ Nat.iter (Z.to_nat (- n)) (next_day gregorian_leap) b = a)%Z.

