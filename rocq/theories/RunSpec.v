(** Vocabulary of the properties on the clock, the forcing and the run: no cursor, no row index. *)
From Coq Require Import Sorted.
From Verif Require Import Base Clock TimeSeries Actions ModelRun.
Open Scope R_scope.

(** Length of a time step in days, for the units that have one. *)
Definition unit_days (u : time_unit) : R :=
  match u with Week => 7 | Day => 1 | Hour => / 24 | Minute => / 1440 | VariableStep => 0 end.

(** The dates of the period, at regular spacing, that do not exceed the end. *)
Definition period_dates (start dt : R) (n : nat) : list R := map (fun i => start + INR i * dt) (seq 0 n).
Definition fills_period (start stop dt : R) (n : nat) : Prop :=
  (forall i, (i < n)%nat -> start + INR i * dt <= stop) /\ stop < start + INR n * dt.

(** The date for which the i-th value of a series is recorded; a value recorded for a date; the value in force at a date. *)
Definition date_of {V} (s : series V) (i : nat) : R := s_start s + INR i * (IZR (s_step s) * unit_days (s_unit s)).
Definition recorded_at {V} (s : series V) (date : R) (v : V) : Prop := exists i, nth_error (s_values s) i = Some v /\ date = date_of s i.
Definition in_force {V} (s : series V) (date : R) (v : V) : Prop :=
  exists i, nth_error (s_values s) i = Some v /\ date_of s i <= date < date_of s (S i).
(** The series is what its declared dates say: its last value is recorded for its end. *)
Definition well_dated {V} (s : series V) : Prop := s_values s <> [] /\ s_end s = date_of s (length (s_values s) - 1).

(** A run, date by date: forcing of the date, computation, row, then the changes due at the next date. *)
Section Spec.
Context {P U V A Row : Type}.
Variable E : engine P U V A Row.
Variable dt : R.
Variable forcing : R -> list V.

Fixpoint spec_run (dates : list R) (p : P) (u : U) (g : manager A) : outcome (list (R * Row) * P * U * manager A) :=
  match dates with
  | [] => Ok ([], p, u, g)
  | d :: l =>
    bind (e_process E dt d u (forcing d) p) (fun p1 =>
    bind (e_recurring E (d + dt) p1) (fun p2 =>
    bind (date_update (d + dt) g) (fun '(due, g') =>
    bind (apply_all E due p2) (fun p3 =>
    bind (spec_run l (e_forget_updates E p3) (e_update E (d + dt) u) g') (fun '(rows, p', u', g'') =>
    Ok ((d, e_row E p1) :: rows, p', u', g''))))))
  end.

(** The spin-up: the computations alone, with fixed parameters and no action. *)
Fixpoint warm_up (dates : list R) (u : U) (p : P) : outcome P :=
  match dates with
  | [] => Ok p
  | d :: l => bind (e_process E dt d u (forcing d) p) (fun p1 => warm_up l u (e_forget_updates E p1))
  end.
End Spec.

(** Series that the program positions correctly for a period of the clock: same time step of one unit, and, for hours and minutes, a
    start that is a whole number of days after that of the series. *)
Definition usable {V} (T : timer) (dt : R) (s : series V) : Prop :=
  well_dated s /\ s_step s = 1%Z /\ dt = unit_days (s_unit s) /\ s_start s <= t_start T /\ t_end T <= s_end s /\
  (s_unit s = Day \/ ((s_unit s = Hour \/ s_unit s = Minute) /\ exists k : Z, t_start T - s_start s = IZR k)).
