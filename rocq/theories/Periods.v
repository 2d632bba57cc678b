(** Modelling periods, the spin-up and the dates of an evaluation.  No proofs here.
    PE = python/src/hydrobricks/periods.py, TR = python/src/hydrobricks/trainer.py.
    Times are counted in nanoseconds since 1970, as pandas does.  [Throw] stands for every Python exception.  Not modelled: names and messages of the
    periods, parsing of texts (dates, '4y'), the limits of the dates of pandas, warnings (overlapping periods). *)
From Verif Require Export Base Calendar.
Open Scope Z_scope.

Definition DAY : Z := 86400000000000.
(** PE:32-58, 88-96. *)
Record period := mkPeriod { p_start : Z; p_end : Z }.
Definition make_period (a b : Z) : outcome period := if b <? a then Throw else Ok (mkPeriod a b).
Definition n_days (p : period) : Z := (p_end p - p_start p) / DAY + 1.
(** pd.date_range(start, end, freq="D"). *)
Definition date_range (a b : Z) : list Z := map (fun k => a + Z.of_nat k * DAY) (seq 0 (Z.to_nat (if b <? a then 0 else (b - a) / DAY + 1))).
(** PE:98-101 [mask]. *)
Definition in_period (p : period) (t : Z) : bool := (p_start p <=? t) && (t <=? p_end p).
Definition slice (p : period) (time : list Z) (values : list R) : outcome (list R) :=
  if Nat.eqb (length time) (length values) then Ok (map snd (filter (fun q => in_period p (fst q)) (combine time values))) else Throw.

(** PE:116-176 [spinup_to_days], the specification parsed: a number of days (or '365d'), or of years ('4y'). *)
Inductive spinup := SDays (n : Z) | SYears (n : Z).
(** pd.DateOffset(years=n): the same day of the year, or the last one of its month. *)
Definition add_years (t n : Z) : Z :=
  let '(y, m, d) := civil_from_days (t / DAY) in days_from_civil (y + n) m (Z.min d (last_day (y + n) m)) * DAY + t mod DAY.
Definition spinup_to_days (s : spinup) (start : Z) : outcome Z :=
  let days := match s with SDays n => n | SYears n => (add_years start n - start) / DAY end in
  if days <? 0 then Throw else Ok days.

(** PE:214-274 [Periods]; the arguments are pairs of dates, or None. *)
Record periods := mkPeriods { ps_calibration : option period; ps_validation : option period; ps_simulation : period; ps_spinup : spinup }.
Definition coerce (v : option (Z * Z)) : outcome (option period) :=
  match v with None => Ok None | Some (a, b) => bind (make_period a b) (fun p => Ok (Some p)) end.
Definition defined (c v : option period) : list period := (match c with Some p => [p] | None => [] end) ++ (match v with Some p => [p] | None => [] end).
Definition make_periods (calibration validation simulation : option (Z * Z)) (s : spinup) : outcome periods :=
  bind (coerce calibration) (fun c => bind (coerce validation) (fun v =>
  bind (match simulation with
        | Some (a, b) => make_period a b
        | None => match defined c v with
                  | [] => Throw
                  | p :: r => make_period (fold_left Z.min (map p_start r) (p_start p)) (fold_left Z.max (map p_end r) (p_end p))
                  end
        end) (fun sim =>
  if existsb (fun p => (p_start p <? p_start sim) || (p_end sim <? p_end p)) (defined c v) then Throw
  else bind (spinup_to_days s (p_start sim)) (fun _ => Ok (mkPeriods c v sim s))))).
(** PE:290-293 [spinup_days_for]. *)
Definition spinup_days_for (P : periods) (p : period) : outcome Z := bind (spinup_to_days (ps_spinup P) (p_start p)) (fun days => Ok (Z.min days (n_days p))).

(** PE:337-374 [evaluate_periods], one period: the two series that are compared. *)
Definition evaluated (p : period) (time : list Z) (sim : list R) (obs_time : list Z) (obs : list R) : outcome (list R * list R) :=
  match time with
  | [] => Throw
  | t0 :: _ => if (p_start p <? t0) || (last time 0 <? p_end p) then Throw
               else bind (slice p time sim) (fun s => bind (slice p obs_time obs) (fun o => if Nat.eqb (length o) (length s) then Ok (s, o) else Throw))
  end.
(** PE:338-349: observations given as an array get the dates of the simulation. *)
Definition evaluated_array (p : period) (time : list Z) (sim obs : list R) : outcome (list R * list R) :=
  if Nat.eqb (length obs) (length sim) then evaluated p time sim time obs else Throw.

(** TR:437-511 [_align_observations_to_period], for one model: the observations on the days of the model; the last value of a date counts. *)
Fixpoint lookup_last (t : Z) (times : list Z) (obs : list R) : option R :=
  match times, obs with u :: r, x :: s => match lookup_last t r s with Some y => Some y | None => if u =? t then Some x else None end | _, _ => None end.
Definition align_observations (warmup : nat) (start stop : Z) (times : list Z) (obs : list R) : outcome (list R) :=
  if negb (Nat.eqb (length times) (length obs)) then Ok obs
  else let expected := date_range start stop in
       if Nat.leb (length expected) warmup then Throw
       else if existsb (fun d => match lookup_last d times obs with None => true | Some _ => false end) expected then Throw
       else Ok (map (fun d => match lookup_last d times obs with Some x => x | None => 0%R end) expected).
(** TR:1037, 1077-1081: what the objective function compares. *)
Definition compared (warmup : nat) (series : list R) : list R := skipn warmup series.
