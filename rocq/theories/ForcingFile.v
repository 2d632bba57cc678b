(** Forcing data: from a netCDF file or arrays to the hydro units.  No proofs here.
    Sources: core/src/base/TimeSeries.cpp (Parse, Create, MatchVariableType), FileNetcdf.cpp:164-169 (GetVarDouble2D), TimeSeriesDistributed.cpp,
    ModelHydro.cpp:306-346 (CreateTimeSeries, AttachTimeSeriesToHydroUnits), Forcing.cpp, Utils.cpp:119-128 (StringsMatch). *)
From Coq Require Export String Ascii.
From Flocq Require Import Core.
From Verif Require Export Base Clock TimeSeries Calendar.
Open Scope R_scope.

(** Eigen arrays are column-major: element (r, c) of an array with [rows] rows is at c * rows + r. *)
Record array := mkA { a_rows : nat; a_cols : nat; a_data : list R }.
Definition a_at (a : array) (r c : nat) : R := nth (c * a_rows a + r) (a_data a) 0.

(** A netCDF variable over two dimensions: [nv_cell i j] for the indices in the order of the declaration of the dimensions.
    nc_get_var_double fills a buffer with the last dimension varying fastest. *)
Definition nc_get_var (n0 n1 : nat) (cell : nat -> nat -> R) : list R := flat_map (fun i => map (cell i) (seq 0 n1)) (seq 0 n0).
(** FileNetcdf.cpp:164-169 [GetVarDouble2D]. *)
Definition get_var_2d (rows cols : nat) (buffer : list R) : array := mkA rows cols buffer.

(** Utils.cpp:119-128 [StringsMatch]. *)
Definition upper (c : ascii) : ascii :=
  let n := nat_of_ascii c in if (Nat.leb 97 n && Nat.leb n 122)%bool then ascii_of_nat (n - 32) else c.
Fixpoint strings_match (a b : string) : bool :=
  match a, b with
  | EmptyString, EmptyString => true
  | String x r, String y s => Ascii.eqb (upper x) (upper y) && strings_match r s
  | _, _ => false
  end.
(** TimeSeries.cpp:132-157 [MatchVariableType]; the types are numbered in this order. *)
Definition type_names : list (list string) :=
  [["precipitation"; "p"]; ["temperature"; "t"]; ["temperature_min"; "t_min"]; ["temperature_max"; "t_max"];
   ["solar_radiation"; "r_solar"; "r"]; ["pet"; "etp"]; ["custom_1"]; ["custom_2"]; ["custom_3"]]%string.
Fixpoint match_from (k : nat) (l : list (list string)) (name : string) : outcome nat :=
  match l with [] => Throw | ns :: r => if existsb (strings_match name) ns then Ok k else match_from (S k) r name end.
Definition match_type (name : string) : outcome nat := match_from 0 type_names name.

(** A forcing file: the number of units, their ids, the time axis and the variables other than id and time, each with the order of its dimensions
    ([true]: time first). *)
Record variable := mkV { v_name : string; v_time_first : bool; v_cell : nat -> nat -> R }.
Record forcing_file := mkFF { ff_units : nat; ff_ids : list Z; ff_times : list R; ff_variables : list variable }.

(** Conversion to a 32-bit float (FileNetcdf.cpp:144-152 reads the time axis as floats). *)
Definition to_float (x : R) : R := round radix2 (FLT_exp (-149) 24) ZnearestE x.
(** TimeSeries.cpp:26-29, 95-98: a date without its seconds. *)
Definition minute_date (x : R) : outcome R :=
  let t := from_mjd x in to_mjd (mkTime (ct_year t) (ct_month t) (ct_day t) (ct_hour t) (ct_min t) 0).

(** TimeSeries.cpp:62-79: the values of each unit. *)
Definition unit_values (units times : nat) (v : variable) : list (list R) :=
  if v_time_first v
  then let a := get_var_2d units times (nc_get_var times units (v_cell v)) in
       map (fun i => map (fun c => a_at a i c) (seq 0 times)) (seq 0 units)
  else let a := get_var_2d times units (nc_get_var units times (v_cell v)) in
       map (fun i => map (fun k => nth (i * a_rows a + k) (a_data a) 0) (seq 0 times)) (seq 0 units).
Fixpoint map_all {X Y} (f : X -> outcome Y) (l : list X) : outcome (list Y) :=
  match l with [] => Ok [] | x :: r => bind (f x) (fun y => bind (map_all f r) (fun q => Ok (y :: q))) end.
(** TimeSeries.cpp:10-90 [Parse]; [Throw]: false is returned.  The answer of SetValues is not looked at. *)
Definition parse_forcing (f : forcing_file) : outcome (list (forcing_series R)) :=
  match map to_float (ff_times f) with
  | t0 :: t1 :: r =>
    bind (minute_date t0) (fun start =>
    bind (minute_date (last (t1 :: r) 0)) (fun stop =>
    let '(step, u) := extract_time_step (to_float (t1 - t0)) in
    map_all (fun v => bind (match_type (v_name v)) (fun ty =>
      Ok (mkF ty (combine (ff_ids f) (map (fun vs => snd (set_values (mkS start stop step u [] 0) vs)) (unit_values (ff_units f) (length (ff_times f)) v))))))
      (ff_variables f)))
  | _ => UB
  end.

(** TimeSeries.cpp:92-130 [Create]; the dates are reals here and keep their seconds only up to the minute. *)
Definition create_forcing (name : string) (times : list R) (ids : list Z) (data : array) : outcome (forcing_series R) :=
  match times with
  | t0 :: t1 :: r =>
    bind (minute_date t0) (fun start =>
    bind (minute_date (last (t1 :: r) 0)) (fun stop =>
    let '(step, u) := extract_time_step (t1 - t0) in
    bind (match_type name) (fun ty =>
    if negb (Nat.eqb (a_rows data) (length times)) || negb (Nat.eqb (a_cols data) (length ids)) then Throw else
    bind (map_all (fun i =>
        let '(ok, s) := set_values (mkS start stop step u [] 0) (map (fun k => nth (i * a_rows data + k) (a_data data) 0) (seq 0 (a_rows data))) in
        if ok then Ok s else Throw) (seq 0 (a_cols data)))
      (fun l => Ok (mkF ty (combine ids l))))))
  | _ => UB
  end.

(** TimeSeriesDistributed.cpp:57-67 [GetDataPointer]. *)
Fixpoint data_pointer (id : Z) (l : list (Z * series R)) : option (series R) :=
  match l with [] => None | (i, s) :: r => if Z.eqb i id then Some s else data_pointer id r end.
(** ModelHydro.cpp:324-346 [AttachTimeSeriesToHydroUnits]: [units] has the id of each unit and the types of its forcings.  The result lists the series
    attached: unit, type, series.  [Throw]: false is returned, or the exception of a missing unit. *)
Definition attach_one (f : forcing_series R) (u : nat * (Z * list nat)) : outcome (list (nat * nat * series R)) :=
  let '(k, (id, types)) := u in
  if existsb (Nat.eqb (fs_type f)) types then
    match data_pointer id (fs_data f) with
    | None => Throw
    | Some s => if series_valid s then Ok [(k, fs_type f, s)] else Throw
    end
  else Ok [].
Definition attach (l : list (forcing_series R)) (units : list (Z * list nat)) : outcome (list (nat * nat * series R)) :=
  bind (map_all (fun f => bind (map_all (attach_one f) (combine (seq 0 (length units)) units)) (fun q => Ok (concat q))) l) (fun q => Ok (concat q)).
(** ModelHydro.cpp:265-292, one series after the other; [None]: one is refused. *)
Fixpoint add_all (T : timer) (have l : list (forcing_series R)) : option (list (forcing_series R)) :=
  match l with
  | [] => Some have
  | f :: r => match add_series T have f with (true, have') => add_all T have' r | (false, _) => None end
  end.

(** TimeSeriesData.cpp:62-67 [GetSum], TimeSeriesDistributed.cpp:44-55 [GetTotal] for the ids and areas of the basin settings. *)
Definition forcing_total (f : forcing_series R) (units : list (Z * R)) : outcome R :=
  bind (map_all (fun '(id, area) => match data_pointer id (fs_data f) with
                                    | Some s => Ok (fold_left Rplus (s_values s) 0 * area / Rsum snd units)
                                    | None => Throw end) units)
       (fun l => Ok (fold_left Rplus l 0)).
