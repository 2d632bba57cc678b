(** Model of the calendar.  Sources: core/src/base/UtilsDateTime.cpp:46-109, core/src/base/TimeConstants.h, core/src/base/TimeMachine.cpp:87-98,
    core/src/base/Utils.cpp:228-240.  The conversions between civil dates and day counts are those of std::chrono (not in /repo), written here
    with the algorithms published for it (days_from_civil, civil_from_days). *)
From Verif Require Export Base Clock TimeSeries.
Open Scope Z_scope.

Definition is_leap (y : Z) : bool := (y mod 4 =? 0) && (negb (y mod 100 =? 0) || (y mod 400 =? 0)).
(** std::chrono::year_month_day_last. *)
Definition last_day (y m : Z) : Z :=
  if m =? 2 then (if is_leap y then 29 else 28) else if (m =? 4) || (m =? 6) || (m =? 9) || (m =? 11) then 30 else 31.

(** Day count since 1970-01-01, with years starting in March. *)
Definition march_month (m : Z) : Z := if 2 <? m then m - 3 else m + 9.
Definition days_from_civil (y m d : Z) : Z :=
  let y := if m <=? 2 then y - 1 else y in
  let era := y / 400 in
  let yoe := y mod 400 in
  let doy := (153 * march_month m + 2) / 5 + d - 1 in
  era * 146097 + (yoe * 365 + yoe / 4 - yoe / 100 + doy) - 719468.
Definition civil_from_days (z : Z) : Z * Z * Z :=
  let z := z + 719468 in
  let era := z / 146097 in
  let doe := z mod 146097 in
  let yoe := (doe - doe / 1460 + doe / 36524 - doe / 146096) / 365 in
  let doy := doe - (365 * yoe + yoe / 4 - yoe / 100) in
  let mp := (5 * doy + 2) / 153 in
  let d := doy - (153 * mp + 2) / 5 + 1 in
  let m := if mp <? 10 then mp + 3 else mp - 9 in
  let y := yoe + era * 400 in
  (if m <=? 2 then y + 1 else y, m, d).

(** Enums.h/Includes.h: struct Time. *)
Record civil_time := mkTime { ct_year : Z; ct_month : Z; ct_day : Z; ct_hour : Z; ct_min : Z; ct_sec : Z }.

(** UtilsDateTime.cpp:46-62 [ToSysDays]: std::chrono::year is valid from -32767 to 32767. *)
Definition to_sys_days (y m d : Z) : outcome Z :=
  if (y <? -32767) || (32767 <? y) || (m <? 1) || (12 <? m) || (d <? 1) || (31 <? d) then Throw
  else if last_day y m <? d then Throw else Ok (days_from_civil y m d).
(** UtilsDateTime.cpp:64-69 [ValidateHMS]. *)
Definition hms_refused (h mi s : Z) : bool := (h <? 0) || (23 <? h) || (mi <? 0) || (59 <? mi) || (s <? 0) || (60 <? s).
(** UtilsDateTime.cpp:84-89 [ToMJD], in seconds since 1970. *)
Definition to_seconds (t : civil_time) : outcome Z :=
  if hms_refused (ct_hour t) (ct_min t) (ct_sec t) then Throw
  else bind (to_sys_days (ct_year t) (ct_month t) (ct_day t)) (fun sd => Ok (sd * 86400 + ct_hour t * 3600 + ct_min t * 60 + ct_sec t)).
(** UtilsDateTime.cpp:71-75 [SysTimeToMjd].  Real arithmetic here; binary64 in CalendarFloat.v. *)
Definition seconds_to_mjd (secs : Z) : R := (40587 + IZR secs / 86400)%R.
Definition to_mjd (t : civil_time) : outcome R := bind (to_seconds t) (fun s => Ok (seconds_to_mjd s)).
(** UtilsDateTime.cpp:77-82 [MjdToSysTime]. *)
Definition mjd_to_seconds (mjd : R) : Z := c_round ((mjd - 40587) * 86400).
(** UtilsDateTime.cpp:91-109 [FromMJD]. *)
Definition of_seconds (s : Z) : civil_time :=
  let sd := s / 86400 in
  let tod := s mod 86400 in
  let '(y, m, d) := civil_from_days sd in
  mkTime y m d (tod / 3600) ((tod - tod / 3600 * 3600) / 60) (tod - tod / 3600 * 3600 - (tod - tod / 3600 * 3600) / 60 * 60).
Definition from_mjd (mjd : R) : civil_time := of_seconds (mjd_to_seconds mjd).

(** TimeMachine.cpp:87-98 [GetCurrentDayOfYear]; C++'s % 4 and % 100 are compared with 0 only. *)
Definition cum_month_days : list Z := [0; 31; 59; 90; 120; 151; 181; 212; 243; 273; 304; 334].
Definition day_of_year (date : R) : Z :=
  if Rleb date 0 then 1
  else let t := from_mjd date in
       let i := ct_month t - 1 in
       if (i <? 0) || (11 <? i) then 1
       else nth (Z.to_nat i) cum_month_days 0 + ct_day t + (if is_leap (ct_year t) && (1 <? i) then 1 else 0).
