(** The Gregorian calendar and decimal numbers. *)
From Coq Require Import List Ascii ZArith QArith.
Import ListNotations.
Open Scope Z_scope.

Definition leap_year (y : Z) : Prop := (4 | y) /\ (~ (100 | y) \/ (400 | y)).
Inductive month_length (y : Z) : Z -> Z -> Prop :=
| ml_31 m : In m [1; 3; 5; 7; 8; 10; 12] -> month_length y m 31
| ml_30 m : In m [4; 6; 9; 11] -> month_length y m 30
| ml_29 : leap_year y -> month_length y 2 29
| ml_28 : ~ leap_year y -> month_length y 2 28.
Inductive next_day : Z * Z * Z -> Z * Z * Z -> Prop :=
| nd_day y m d n : month_length y m n -> 1 <= d -> d < n -> next_day (y, m, d) (y, m, d + 1)
| nd_month y m n : month_length y m n -> m < 12 -> next_day (y, m, n) (y, m + 1, 1)
| nd_year y : next_day (y, 12, 31) (y + 1, 1, 1).
(** A date and a time of the day *)
Definition date_ok (y m d : Z) : Prop := 1 <= y <= 9999 /\ exists n, month_length y m n /\ 1 <= d <= n.
Definition time_ok (h i s u : Z) : Prop := 0 <= h < 24 /\ 0 <= i < 60 /\ 0 <= s < 60 /\ 0 <= u < 1000000.

(** [s] is the number [n], written with [k] digits. *)
Fixpoint Decimal (k : nat) (n : Z) (s : list ascii) : Prop :=
  match k, s with
  | O, [] => n = 0
  | S k, c :: s => exists d r, 0 <= d <= 9 /\ nat_of_ascii c = Z.to_nat (48 + d) /\ n = d * 10 ^ Z.of_nat k + r /\ Decimal k r s
  | _, _ => False
  end.
