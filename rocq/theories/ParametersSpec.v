(** Vocabulary of the property on time-varying parameters. *)
From Coq Require Import Sorted.
From Verif Require Import Base Calendar Parameters.
Open Scope R_scope.

(** What the user specifies: a value per year from a first one, a value per month, or values for given dates. *)
Inductive schedule :=
| EachYear (first : Z) (values : list (option R))
| EachMonth (values : list (option R))
| OnDates (values : list (R * option R)).
(** The value specified for a date: of its year, of its month, or of this date itself. *)
Definition specified (s : schedule) (date : R) (v : R) : Prop :=
  let t := from_mjd date in
  match s with
  | EachYear first values => (first <= ct_year t)%Z /\ nth_error values (Z.to_nat (ct_year t - first)) = Some (Some v)
  | EachMonth values => (1 <= ct_month t)%Z /\ nth_error values (Z.to_nat (ct_month t - 1)) = Some (Some v)
  | OnDates values => In (date, Some v) values
  end.
(** The value of the last of the dates that has a specified one, or the initial value. *)
Inductive in_use (s : schedule) (initial : R) : list R -> R -> Prop :=
| use_initial : in_use s initial [] initial
| use_specified dates d v : specified s d v -> in_use s initial (dates ++ [d]) v
| use_previous dates d v : (forall w, ~ specified s d w) -> in_use s initial dates v -> in_use s initial (dates ++ [d]) v.
(** The modifier that the program accepts for a schedule. *)
Definition accepted (s : schedule) (m : modifier) : Prop :=
  match s with
  | EachYear first values => values <> [] /\ set_yearly first (first + Z.of_nat (length values) - 1) values = (true, m)
  | EachMonth values => set_monthly values = (true, m)
  | OnDates values => values <> [] /\ StronglySorted Rlt (map fst values) /\ set_dated (map fst values) (map snd values) = (true, m)
  end.
