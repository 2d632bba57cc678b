(** Model of the forcing time series.  Sources: core/src/base/TimeSeriesData.cpp, TimeSeriesDistributed.cpp, TimeSeries.cpp,
    ModelHydro.cpp:265-292 [AddTimeSeries]. *)
From Verif Require Export Base Clock.
Open Scope R_scope.

(** TimeSeriesData.h:88-89, 149-152 (TimeSeriesDataRegular). [V]: the type of values. *)
Record series (V : Type) := mkS { s_start : R; s_end : R; s_step : Z; s_unit : time_unit; s_values : list V; s_cursor : Z }.
Arguments mkS {V}.
Arguments s_start {V}.
Arguments s_end {V}.
Arguments s_step {V}.
Arguments s_unit {V}.
Arguments s_values {V}.
Arguments s_cursor {V}.

Section Series.
Context {V : Type}.

Definition with_cursor (s : series V) (c : Z) : series V := mkS (s_start s) (s_end s) (s_step s) (s_unit s) (s_values s) c.

(** TimeSeriesData.cpp:40-50 [SetValues]: accepted when the last value falls on the declared end.  (With no value the product uses
    size_t(0) - 1 converted to int, which is -1.) *)
Definition set_values (s : series V) (values : list V) : bool * series V :=
  if Reqb (increment_date (s_start s) (s_step s * (Z.of_nat (length values) - 1)) (s_unit s)) (s_end s)
  then (true, mkS (s_start s) (s_end s) (s_step s) (s_unit s) values (s_cursor s))
  else (false, s).

(** TimeSeriesData.cpp:69-97 [SetCursorToDate]. *)
Definition set_cursor (date : R) (s : series V) : outcome (bool * series V) :=
  if Rltb date (s_start s) then Ok (false, s) else
  if Rltb (s_end s) date then Ok (false, s) else
  let dt := date - s_start s in
  match s_unit s with
  | Day => Ok (true, with_cursor s (c_int dt))
  | Hour => Ok (true, with_cursor s (c_int dt * 24)%Z)
  | Minute => Ok (true, with_cursor s (c_int dt * 1440)%Z)
  | _ => Throw
  end.

(** TimeSeriesData.cpp:57-60 [GetCurrentValue]: reading outside the vector is undefined. *)
Definition current_value (s : series V) : outcome V :=
  if (s_cursor s <? 0)%Z then UB else
  match nth_error (s_values s) (Z.to_nat (s_cursor s)) with Some v => Ok v | None => UB end.
(** TimeSeriesData.cpp:52-55 [GetValueFor]: the result of the positioning is ignored. *)
Definition value_for (date : R) (s : series V) : outcome V := bind (set_cursor date s) (fun '(_, s') => current_value s').

(** TimeSeriesData.cpp:99-107 [AdvanceOneTimeStep]. *)
Definition advance (s : series V) : bool * series V :=
  if (Z.of_nat (length (s_values s)) <=? s_cursor s)%Z then (false, s) else (true, with_cursor s (s_cursor s + 1)%Z).

(** TimeSeriesData.cpp:117-136 [IsValid]. *)
Definition series_valid (s : series V) : bool :=
  negb (Nat.eqb (length (s_values s)) 0) && Rleb (s_start s) (s_end s) && (0 <? s_step s)%Z.

(** TimeSeriesDistributed.h: one series per hydro unit.  [fs_type]: the variable type (VariableType). *)
Record forcing_series := mkF { fs_type : nat; fs_data : list (Z * series V) }.

Fixpoint no_duplicate (l : list Z) : bool :=
  match l with [] => true | x :: r => negb (existsb (Z.eqb x) r) && no_duplicate r end.
(** TimeSeriesDistributed.cpp:69-112 [IsValid]. *)
Definition forcing_valid (f : forcing_series) : bool :=
  negb (Nat.eqb (length (fs_data f)) 0) && forallb (fun e => series_valid (snd e)) (fs_data f) && no_duplicate (map fst (fs_data f)).
(** TimeSeriesDistributed.cpp:34-42 [GetStart], [GetEnd]: of the first unit. *)
Definition forcing_start (f : forcing_series) : option R := match fs_data f with e :: _ => Some (s_start (snd e)) | [] => None end.
Definition forcing_end (f : forcing_series) : option R := match fs_data f with e :: _ => Some (s_end (snd e)) | [] => None end.

(** ModelHydro.cpp:265-292 [AddTimeSeries]. *)
Definition add_series (t : timer) (l : list forcing_series) (f : forcing_series) : bool * list forcing_series :=
  if negb (forcing_valid f) then (false, l) else
  if existsb (fun g => Nat.eqb (fs_type g) (fs_type f)) l then (false, l) else
  match forcing_start f, forcing_end f with
  | Some a, Some b => if Rltb (t_start t) a then (false, l) else if Rltb b (t_end t) then (false, l) else (true, l ++ [f])
  | _, _ => (false, l)
  end.
End Series.
Arguments forcing_series : clear implicits.

(** TimeSeries.cpp:159-172 [ExtractTimeStep]; [round] of C rounds halves away from zero. *)
Definition c_round (x : R) : Z := if Rleb 0 x then (up (x + 1 / 2) - 1)%Z else (1 - up (1 / 2 - x))%Z.
Definition extract_time_step (spacing : R) : Z * time_unit :=
  if Reqb spacing 1 then (1%Z, Day) else if Rltb 1 spacing then (c_round spacing, Day) else (c_round (spacing * 24), Hour).

(** TimeSeries.cpp:92-130 [Create], for one unit: [times] is the time axis (at least two dates, else the read of time[1] is undefined).
    Simplification: dates are whole minutes, so the conversions of lines 95-98 leave the first and last dates unchanged (property C39). *)
Definition create_series {V} (times : list R) (values : list V) : outcome (series V) :=
  match times with
  | t0 :: t1 :: _ =>
    let '(step, u) := extract_time_step (t1 - t0) in
    if negb (Nat.eqb (length values) (length times)) then Throw else
    let '(ok, s) := set_values (mkS t0 (last times 0) step u [] 0) values in
    if ok then Ok s else Throw
  | _ => UB
  end.
