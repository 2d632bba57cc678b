(** Model of the clock.  Sources: core/src/base/TimeMachine.cpp, core/src/base/Utils.cpp:211-226. *)
From Verif Require Export Base.
Open Scope R_scope.

(** core/src/base/Enums.h:20-26. *)
Inductive time_unit := Week | Day | Hour | Minute | VariableStep.

(** Conversion of a non negative double to int (and of a negative one, towards zero).  Simplification: values beyond the range of
    int, where C++ is undefined, are converted exactly. *)
Definition c_int (x : R) : Z := if Rleb 0 x then (up x - 1)%Z else (1 - up (- x))%Z.

(** TimeMachine.cpp:66-85 [UpdateTimeStepInDays]. *)
Definition step_in_days (step : Z) (u : time_unit) : outcome R :=
  match u with
  | VariableStep => Throw
  | Week => Ok (IZR (step * 7))
  | Day => Ok (IZR step)
  | Hour => Ok (IZR step / 24)
  | Minute => Ok (IZR step / 1440)
  end.

(** TimeMachine.h:134-139 (the current date is kept apart). *)
Record timer := mkT { t_start : R; t_end : R; t_step : Z; t_unit : time_unit }.

(** TimeMachine.cpp:100-126 [IsValid], with the length of the step in days. *)
Definition timer_valid (t : timer) (dt : R) : bool :=
  Rltb 0 (t_start t) && Rltb 0 (t_end t) && Rleb (t_start t) (t_end t) && (0 <? t_step t)%Z && Rltb 0 dt.

(** TimeMachine.cpp:61-64 [GetTimeStepCount]. *)
Definition step_count (t : timer) (dt : R) : Z := c_int (1 + (t_end t - t_start t) / dt).

(** The time loop (ModelHydro.cpp:117-128): the dates at which a step is performed, starting at a date, until the clock is over
    (TimeMachine.cpp:45-47 [IsOver], 49-59 [IncrementTime]).  [D] is the type of dates: reals, or binary64 numbers. *)
Inductive loop_dates {D} (next : D -> D) (over : D -> bool) : D -> list D -> Prop :=
| loop_over d : over d = true -> loop_dates next over d []
| loop_step d l : over d = false -> loop_dates next over (next d) l -> loop_dates next over d (d :: l).

Definition next_date (dt : R) (d : R) : R := d + dt.
Definition is_over (t : timer) (d : R) : bool := Rltb (t_end t) d.

(** core/src/base/Utils.cpp:211-226 [IncrementDateBy]; the last unit gives 0. *)
Definition increment_date (date : R) (amount : Z) (u : time_unit) : R :=
  match u with
  | Week => date + IZR (amount * 7)
  | Day => date + IZR amount
  | Hour => date + IZR amount / 24
  | Minute => date + IZR amount / 1440
  | VariableStep => 0
  end.
