(** Model of the time-varying parameters.  Sources: core/src/base/ParameterModifier.cpp, Parameter.cpp:11-23, ParametersUpdater.cpp.
    NaN is [None] among the values of a modifier. *)
From Verif Require Export Base Search Calendar.
Open Scope R_scope.

(** ParameterModifier.h: type, values and dates (years for the yearly type). *)
Inductive modifier :=
| Yearly (years : list R) (values : list (option R))
| Monthly (values : list (option R))
| Dated (dates : list R) (values : list (option R)).

(** ParameterModifier.cpp:3-21 [SetYearlyValues], 23-37 [SetMonthlyValues], 39-53 [SetDatesAndValues]: the values are kept even when refused. *)
Definition years_from (first last : Z) : list R := map (fun k => IZR (first + Z.of_nat k)) (seq 0 (Z.to_nat (last - first + 1))).
Definition set_yearly (first last : Z) (values : list (option R)) : bool * modifier :=
  let years := years_from first last in (Nat.eqb (length values) (length years), Yearly years values).
Definition set_monthly (values : list (option R)) : bool * modifier := (Nat.eqb (length values) 12, Monthly values).
Definition set_dated (dates : list R) (values : list (option R)) : bool * modifier := (Nat.eqb (length values) (length dates), Dated dates values).

Definition read {X} (l : list X) (i : nat) : outcome X := match nth_error l i with Some x => Ok x | None => UB end.
(** ParameterModifier.cpp:55-98 [UpdateValue]; reading outside the values is undefined. *)
Definition update_value (m : modifier) (date : R) : outcome (option R) :=
  match m with
  | Yearly years values =>
    bind (find_value years (IZR (ct_year (from_mjd date))) 0) (fun f => match f with Found i => read values i | _ => Ok None end)
  | Monthly values => read values (Z.to_nat (ct_month (from_mjd date) - 1))
  | Dated dates values => bind (find_value dates date 0) (fun f => match f with Found i => read values i | _ => Ok None end)
  end.

(** Parameter.h; Parameter.cpp:11-23 [UpdateFromModifier]. *)
Record parameter := mkPar { par_value : R; par_modifier : modifier }.
Definition update_parameter (date : R) (p : parameter) : outcome parameter :=
  bind (update_value (par_modifier p) date) (fun v => Ok (match v with Some x => mkPar x (par_modifier p) | None => p end)).

(** ParametersUpdater.h: whether a parameter was added, the previous date and the parameters.  Simplification: the three lists (by type of
    modifier) are one list; parameters without modifier are not added (ParametersUpdater.cpp:10-30). *)
Record updater := mkUp { up_active : bool; up_previous : R; up_parameters : list parameter }.
Definition new_updater : updater := mkUp false 0 [].
Definition add_parameter (p : parameter) (u : updater) : updater := mkUp true (up_previous u) (up_parameters u ++ [p]).

Fixpoint map_ok {X Y} (f : X -> outcome Y) (l : list X) : outcome (list Y) :=
  match l with [] => Ok [] | x :: r => bind (f x) (fun y => bind (map_ok f r) (fun s => Ok (y :: s))) end.
(** ParametersUpdater.cpp:32-71 [DateUpdate]. *)
Definition concerned (previous date : R) (p : parameter) : bool :=
  let a := from_mjd previous in let b := from_mjd date in
  match par_modifier p with
  | Yearly _ _ => negb (ct_year a =? ct_year b)%Z
  | Monthly _ => negb (ct_year a =? ct_year b)%Z || negb (ct_month a =? ct_month b)%Z
  | Dated _ _ => true
  end.
Definition updater_date (date : R) (u : updater) : outcome updater :=
  if up_active u then
    bind (map_ok (fun p => if concerned (up_previous u) date p then update_parameter date p else Ok p) (up_parameters u)) (fun l => Ok (mkUp true date l))
  else Ok u.
Fixpoint updater_dates (dates : list R) (u : updater) : outcome updater :=
  match dates with [] => Ok u | d :: l => bind (updater_date d u) (updater_dates l) end.
