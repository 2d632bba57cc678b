(** Vocabulary of the theorems about the reference of a metric (C94).  Definitions only. *)
From Coq Require Export String.
From Verif Require Export ReferenceMetric CalendarSpec.
Open Scope R_scope.

(** The 365 days of a year without the 29th of February. *)
Definition months : list (Z * nat) := [(1, 31%nat); (2, 28%nat); (3, 31%nat); (4, 30%nat); (5, 31%nat); (6, 30%nat); (7, 31%nat); (8, 31%nat); (9, 30%nat); (10, 31%nat); (11, 30%nat); (12, 31%nat)]%Z.
Definition calendar : list (Z * Z) := flat_map (fun p => map (fun d => (fst p, Z.of_nat d)) (seq 1 (snd p))) months.
Definition days_of_year (y : Z) : list Z := map (fun p => days_from_civil y (fst p) (snd p)) calendar.
(** Whole numbers (years, days) from one to another. *)
Definition between (a b : Z) : list Z := map (fun k => (a + Z.of_nat k)%Z) (seq 0 (Z.to_nat (b - a + 1))).
(** Daily observations of the whole years from [a] to [b]. *)
Definition observed (obs : Z -> value) (a b : Z) : list obs_row := map (fun z => mkRow z (obs z)) (between (days_from_civil a 1 1) (days_from_civil b 12 31)).
(** The observations of years put one after another. *)
Definition of_years (obs : Z -> value) (ys : list Z) : list value := map obs (flat_map days_of_year ys).
Definition same_date (p q : Z) : Prop := exists y z m d, p = days_from_civil y m d /\ q = days_from_civil z m d /\ valid_date y m d /\ valid_date z m d.
(** The period of comparison: all observations, or whole years. *)
Definition compared (a b : Z) (start stop : option Z) (c d : Z) : Prop :=
  (start = None /\ stop = None /\ c = a /\ d = b) \/
  (start = Some (days_from_civil c 1 1) /\ stop = Some (days_from_civil d 12 31) /\ (a <= c)%Z /\ (c <= d)%Z /\ (d <= b)%Z).
(** A sample: an observed year for each year of the period; with exclusion another one. *)
Definition sample_for (a b : Z) (exclusion : bool) (zs ys : list Z) : Prop := Forall2 (fun y z => (a <= y <= b)%Z /\ (exclusion = true -> y <> z)) ys zs.
Definition mean_value (l : list value) (v : value) : Prop :=
  (exists xs, l = map (fun x => Some x) xs /\ xs <> [] /\ v = Some (Rsum (fun x => x) xs / INR (length xs))) \/ ((In None l \/ l = []) /\ v = None).
(** The first [n] of the draws that are good. *)
Inductive first_good {A} (good : A -> Prop) : nat -> list A -> list A -> Prop :=
| fg_done draws : first_good good 0 draws []
| fg_take n x draws l : good x -> first_good good n draws l -> first_good good (S n) (x :: draws) (x :: l)
| fg_skip n x draws l : ~ good x -> first_good good (S n) draws l -> first_good good (S n) (x :: draws) l.
(** The mean of the numbers of a list. *)
Definition mean_of_present (l : list value) (v : value) : Prop :=
  let xs := flat_map (fun v => match v with Some x => [x] | None => [] end) l in (xs = [] /\ v = None) \/ (xs <> [] /\ v = Some (Rsum (fun x => x) xs / INR (length xs))).
Definition reflects {A} (P : A -> bool) (Q : A -> Prop) : Prop := forall x, P x = true <-> Q x.

(** The root mean square error, and the mean error. *)
Definition mean_of (l : list R) : R := Rsum (fun x => x) l / INR (length l).
Definition square_error (sim obs : list R) : R := mean_of (map (fun p => (fst p - snd p) * (fst p - snd p)) (combine sim obs)).
Definition rmse (sim obs : list R) : R := sqrt (square_error sim obs).
Definition mean_error (sim obs : list R) : R := mean_of (map (fun p => fst p - snd p) (combine sim obs)).
Definition variance (obs : list R) : R := mean_of (map (fun x => (x - mean_of obs) * (x - mean_of obs)) obs).
