(** Vocabulary of the properties on dates: the Gregorian calendar, by its rules. *)
From Coq Require Import ZArith Bool Lia.
Open Scope Z_scope.

Definition leap_year (y : Z) : Prop := (4 | y) /\ (~ (100 | y) \/ (400 | y)).
(** Number of days of a month. *)
Definition month_length (y m n : Z) : Prop :=
  (m = 2 /\ leap_year y /\ n = 29) \/ (m = 2 /\ ~ leap_year y /\ n = 28) \/
  ((m = 4 \/ m = 6 \/ m = 9 \/ m = 11) /\ n = 30) \/ ((m = 1 \/ m = 3 \/ m = 5 \/ m = 7 \/ m = 8 \/ m = 10 \/ m = 12) /\ n = 31).
Definition valid_date (y m d : Z) : Prop := exists n, month_length y m n /\ 1 <= d <= n.
(** The day after. *)
Inductive day_after : Z * Z * Z -> Z * Z * Z -> Prop :=
| same_month y m d : valid_date y m (d + 1) -> day_after (y, m, d) (y, m, d + 1)
| next_month y m d : month_length y m d -> m < 12 -> day_after (y, m, d) (y, m + 1, 1)
| next_year y : day_after (y, 12, 31) (y + 1, 1, 1).
(** A time of day, without leap second. *)
Definition valid_time (h mi s : Z) : Prop := 0 <= h <= 23 /\ 0 <= mi <= 59 /\ 0 <= s <= 59.
(** Years of the C++ calendar. *)
Definition known_year (y : Z) : Prop := -32767 <= y <= 32767.
