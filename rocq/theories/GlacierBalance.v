(** The observed and the simulated mass balance of the glaciers, used in calibrations.  No proofs here.
    GM = python/src/hydrobricks/evaluation/glacier_mass_balance.py, MO = python/src/hydrobricks/models/model.py,
    GL = python/src/hydrobricks/modules/glacier.py.
    A missing number (NaN) is [None]; infinite numbers do not exist.  Times are counted in nanoseconds since 1970, as pandas does.  [Throw] stands for
    every Python exception.  Not modelled: the texts of the CSV files (a row has the parsed fields, [None] where a field could not be parsed), the limits of
    the dates of pandas, warnings, and the areas of the bands (they are read, but nothing uses them). *)
From Coq Require Import String.
From Verif Require Export Base Periods Topology.
Open Scope R_scope.

Definition value := option R.
Definition vadd (a b : value) : value := match a, b with Some x, Some y => Some (x + y) | _, _ => None end.
Definition vsub (a b : value) : value := match a, b with Some x, Some y => Some (x - y) | _, _ => None end.
Definition vmul (a b : value) : value := match a, b with Some x, Some y => Some (x * y) | _, _ => None end.
Definition nan0 (a : value) : R := match a with Some x => x | None => 0 end.
Definition present (l : list value) : list R := flat_map (fun a => match a with Some x => [x] | None => [] end) l.
(** np.nansum, np.nanmean. *)
Definition nansum (l : list value) : R := Rsum nan0 l.
Definition nanmean (l : list value) : value := match present l with [] => None | p => Some (Rsum (fun x => x) p / INR (length p)) end.

(** ** What was recorded: MO:551-600. *)
(** The series of a glacier cover in a unit, by the index of the day: content of its snowpack, output of its melt process, fraction of the unit. *)
Record series := mkSeries { sr_snow : nat -> value; sr_melt : nat -> value; sr_fraction : nat -> value }.
Record unit_record := mkUnit { ur_id : Z; ur_area : R; ur_covers : list series }.
(** The modelling period (MO:602-620: a day per index), the number of glacier covers of the model, the recorded units, and the table of the spatial
    structure: id and elevation. *)
Record recording := mkRecording { rc_start : Z; rc_end : Z; rc_covers : nat; rc_units : list unit_record; rc_table : list (Z * R) }.
(** The amount that the engine records for the melt of a glacier with the fraction [f] in a unit of area [a] when [x] melts: GL:105-119, the process sends
    it at once to a store of the sub-basin, whose area is [A] (ModelBuilder.cpp:512-545, FluxToBrickInstantaneous.cpp:21-27, the value of
    "glacier:melt:output" is the amount of the flux, Flux.h:72-74). *)
Definition recorded_melt (a A f x : R) : R := stored_amount a A (Some f) (WBasinBrick true) x.

(** ** Targets: GM:118-124. *)
Inductive balance_type := Annual | Winter | Summer.
Record target := mkTarget { tg_t0 : Z; tg_t1 : Z; tg_value : R; tg_type : balance_type; tg_band : option (value * value) }.

(** GM:670-675 [_date_index]; pandas get_indexer(method="nearest"): the later of two equally near. *)
Definition date_index (time : list Z) (date : Z) : outcome (option nat) :=
  match time with
  | [] => Throw
  | first :: _ =>
      if ((date <? first)%Z || (last time first <? date)%Z)%bool then Ok None
      else let left := pred (length (filter (fun t => (t <=? date)%Z) time)) in
           let right := length (filter (fun t => (t <? date)%Z) time) in
           Ok (Some (if (date - nth left time 0%Z <? nth right time 0%Z - date)%Z then left else right))
  end.
(** GM:662-667 [_elevation_by_id]: a dictionary; the last row with an id counts.  GM:476. *)
Fixpoint lookup_id (id : Z) (l : list (Z * R)) : option R :=
  match l with [] => None | (i, e) :: r => match lookup_id id r with Some x => Some x | None => if (i =? id)%Z then Some e else None end end.
Fixpoint elevations (tab : list (Z * R)) (us : list unit_record) : outcome (list R) :=
  match us with
  | [] => Ok []
  | u :: r => match lookup_id (ur_id u) tab with Some e => bind (elevations tab r) (fun l => Ok (e :: l)) | None => Throw end
  end.

(** GM:460-471: the covers are put together. *)
Definition sum_covers (f : series -> nat -> value) (l : list series) (t : nat) : value :=
  match l with [] => None | s :: r => fold_left (fun acc s => Some (nan0 acc + nan0 (f s t))) r (f s t) end.
Definition sum_areas (area : R) (l : list series) (t : nat) : value :=
  match l with [] => None | s :: r => fold_left (fun acc s => vadd acc (vmul (sr_fraction s t) (Some area))) r (vmul (sr_fraction s t) (Some area)) end.
(** GM:485-488. *)
Definition unit_balance (u : unit_record) (i0 i1 : nat) : value :=
  let snow := sum_covers sr_snow (ur_covers u) in
  let melt := sum_covers sr_melt (ur_covers u) in
  vsub (vsub (snow i1) (snow i0)) (Some (nansum (map melt (seq (S i0) (i1 - i0))))).
(** GM:490-495. *)
Definition glacier_weight (u : unit_record) (i0 i1 : nat) : value := nanmean (map (sum_areas (ur_area u) (ur_covers u)) (seq i0 (S i1 - i0))).
(** GM:497-502. *)
Definition in_band (band : option (value * value)) (elev : R) : bool :=
  match band with
  | None => true
  | Some (Some lo, Some hi) => (Rleb lo elev && Rltb elev hi)%bool
  | Some _ => false
  end.
Definition masked (band : option (value * value)) (i0 i1 : nat) (u : unit_record * R) : list (R * R) :=
  match unit_balance (fst u) i0 i1, glacier_weight (fst u) i0 i1 with
  | Some b, Some w => if (Rltb 0 w && in_band band (snd u))%bool then [(b, w)] else []
  | _, _ => []
  end.
(** GM:479-505. *)
Definition simulated_target (time : list Z) (us : list (unit_record * R)) (t : target) : outcome value :=
  bind (date_index time (tg_t0 t)) (fun o0 => bind (date_index time (tg_t1 t)) (fun o1 =>
  match o0, o1 with
  | Some i0, Some i1 =>
      if (i1 <=? i0)%nat then Ok None
      else match flat_map (masked (tg_band t) i0 i1) us with
           | [] => Ok None
           | l => Ok (Some (Rsum (fun p => fst p * snd p) l / Rsum snd l))
           end
  | _, _ => Ok None
  end)).
Fixpoint simulated_targets (time : list Z) (us : list (unit_record * R)) (l : list target) : outcome (list value) :=
  match l with [] => Ok [] | t :: r => bind (simulated_target time us t) (fun v => bind (simulated_targets time us r) (fun vs => Ok (v :: vs))) end.
(** GM:442-507 [simulated]. *)
Definition simulated (rc : recording) (l : list target) : outcome (list value) :=
  match l with
  | [] => Ok []
  | _ => if (rc_covers rc =? 0)%nat then Throw
         else bind (elevations (rc_table rc) (rc_units rc)) (fun es =>
              simulated_targets (date_range (rc_start rc) (rc_end rc)) (combine (rc_units rc) es) l)
  end.

(** ** Loading the observations *)
(** GM:509-531 [restrict_to_period]. *)
Definition restrict_to_period (start stop : option Z) (l : list target) : list target :=
  filter (fun t => negb ((match start with Some s => (tg_t0 t <? s)%Z | None => false end) || (match stop with Some e => (e <? tg_t1 t)%Z | None => false end))%bool) l.
(** GM:544-566 [_add_targets]: a row has the two dates, the value and, with bands, the two limits. *)
Record row := mkRow { rw_t0 : option Z; rw_t1 : option Z; rw_value : value; rw_lo : value; rw_hi : value }.
Definition add_targets (bands : bool) (bt : balance_type) (rows : list row) : list target :=
  flat_map (fun r => match rw_value r, rw_t0 r, rw_t1 r with
                     | Some v, Some a, Some b => [mkTarget a b v bt (if bands then Some (rw_lo r, rw_hi r) else None)]
                     | _, _, _ => []
                     end) rows.
(** GM:568-576, 62. *)
Definition check_balance_type (s : string) : outcome balance_type :=
  if (s =? "annual")%string then Ok Annual else if (s =? "winter")%string then Ok Winter else if (s =? "summer")%string then Ok Summer else Throw.
Definition value_unit_to_mm (s : string) : outcome R := if (s =? "mm_we")%string then Ok 1 else if (s =? "m_we")%string then Ok 1000 else Throw.
Definition area_unit_to_m2 (s : string) : outcome R := if (s =? "m2")%string then Ok 1 else if (s =? "km2")%string then Ok 1000000 else Throw.
(** GM:66-79; the name without blanks around it and in small letters. *)
Definition months : list (string * Z) :=
  [("january", 1%Z); ("february", 2%Z); ("march", 3%Z); ("april", 4%Z); ("may", 5%Z); ("june", 6%Z);
   ("july", 7%Z); ("august", 8%Z); ("september", 9%Z); ("october", 10%Z); ("november", 11%Z); ("december", 12%Z)]%string.
Inductive month_given := MonthName (s : string) | MonthNumber (m : Z).
Definition month_of (m : month_given) : outcome Z :=
  match m with
  | MonthName s => match find (fun p => (fst p =? s)%string) months with Some p => Ok (snd p) | None => Throw end
  | MonthNumber m => Ok m
  end.
(** GM:586-604 [_period_from_year]; an impossible month gives no date (errors="coerce"). *)
Definition first_of_month (y m : Z) : option Z := if ((1 <=? m) && (m <=? 12))%Z%bool then Some (days_from_civil y m 1 * DAY)%Z else None.
Definition year_period (m : Z) (y : option Z) : option Z * option Z :=
  match y with
  | None => (None, None)
  | Some y => match first_of_month y m with Some t => (Some t, Some (add_years t 1 - DAY)%Z) | None => (None, None) end
  end.

(** A row of a CSV file, and what the caller says about the columns. *)
Record csv_row := mkCsv { cr_id : string; cr_start : option Z; cr_end : option Z; cr_year : option Z; cr_value : value; cr_lo : value; cr_hi : value }.
Inductive period_columns := DateColumns | YearColumn (m : month_given) | NoPeriod.
Record csv_call := mkCall {
  cc_type : string; cc_value_unit : string; cc_area_unit : string; cc_glacier : option string; cc_period : period_columns; cc_bands : bool;
  cc_start : option Z; cc_end : option Z }.
Definition csv_rows (c : csv_call) (f : R) (rows : list csv_row) : outcome (list row) :=
  let value r := option_map (fun v => v * f) (cr_value r) in
  match cc_period c with
  | DateColumns => Ok (map (fun r => mkRow (cr_start r) (cr_end r) (value r) (cr_lo r) (cr_hi r)) rows)
  | YearColumn m => bind (month_of m) (fun m => Ok (map (fun r => let p := year_period m (cr_year r) in mkRow (fst p) (snd p) (value r) (cr_lo r) (cr_hi r)) rows))
  | NoPeriod => Throw
  end.
Definition of_glacier {X} (id : X -> string) (g : option string) (rows : list X) : outcome (list X) :=
  match g with
  | None => Ok rows
  | Some g => match filter (fun r => (id r =? g)%string) rows with [] => Throw | l => Ok l end
  end.
(** GM:227-296 [from_csv]. *)
Definition from_csv (c : csv_call) (rows : list csv_row) : outcome (list target) :=
  bind (check_balance_type (cc_type c)) (fun bt => bind (value_unit_to_mm (cc_value_unit c)) (fun f => bind (area_unit_to_m2 (cc_area_unit c)) (fun _ =>
  bind (of_glacier cr_id (cc_glacier c) rows) (fun rows => bind (csv_rows c f rows) (fun rows =>
  Ok (restrict_to_period (cc_start c) (cc_end c) (add_targets (cc_bands c) bt rows))))))).

(** A row of a GLAMOS file. *)
Record glamos_row := mkGlamos {
  gr_id : string; gr_start : option Z; gr_winter_end : option Z; gr_end : option Z; gr_winter : value; gr_summer : value; gr_annual : value; gr_lo : value; gr_hi : value }.
(** GM:607-659 [_read_glamos_table]: the first row with a date starts the data; then the rows without start or end are dropped. *)
Fixpoint from_first_date (l : list glamos_row) : list glamos_row :=
  match l with [] => [] | r :: q => match gr_start r with Some _ => l | None => from_first_date q end end.
Definition read_glamos (raw : list glamos_row) : outcome (list glamos_row) :=
  match from_first_date raw with
  | [] => Throw
  | l => Ok (filter (fun r => match gr_start r, gr_end r with Some _, Some _ => true | _, _ => false end) l)
  end.
(** GM:370-387, 107. *)
Definition glamos_target_row (bt : balance_type) (r : glamos_row) : row :=
  match bt with
  | Annual => mkRow (gr_start r) (gr_end r) (gr_annual r) (gr_lo r) (gr_hi r)
  | Winter => mkRow (gr_start r) (gr_winter_end r) (gr_winter r) (gr_lo r) (gr_hi r)
  | Summer => mkRow (gr_winter_end r) (gr_end r) (gr_summer r) (gr_lo r) (gr_hi r)
  end.
Fixpoint check_types (l : list string) : outcome (list balance_type) :=
  match l with [] => Ok [] | s :: r => bind (check_balance_type s) (fun b => bind (check_types r) (fun bs => Ok (b :: bs))) end.
(** GM:333-393 [from_glamos]. *)
Definition from_glamos (kind : string) (glacier : option string) (types : list string) (start stop : option Z) (raw : list glamos_row) : outcome (list target) :=
  if negb ((kind =? "whole") || (kind =? "elevationbins"))%string%bool then Throw
  else bind (check_types types) (fun bts => bind (read_glamos raw) (fun rows => bind (of_glacier gr_id glacier rows) (fun rows =>
       Ok (restrict_to_period start stop (flat_map (fun bt => add_targets (kind =? "elevationbins")%string bt (map (glamos_target_row bt) rows)) bts))))).
