(** Vocabulary of the theorems about the mass balance of the glaciers (C87, C88).  Definitions only. *)
From Coq Require Export String.
From Verif Require Export GlacierBalance CalendarSpec.
Open Scope R_scope.

(** ** What happens on the glacier *)
(** A hydro unit: whether the model has a glacier there, and if so, by day: the water content of the snow on the glacier [mm over the glacier] at the end of
    the day, the melt of ice during the day as it was recorded, the part of the unit covered by the glacier. *)
Record glacier_unit := mkGU { gu_id : Z; gu_area : R; gu_elevation : R; gu_glacier : bool; gu_snow : nat -> R; gu_melt : nat -> R; gu_fraction : nat -> R }.
Definition shown (g : glacier_unit) (f : nat -> R) (t : nat) : value := if gu_glacier g then Some (f t) else None.
Definition recorded_unit (g : glacier_unit) : unit_record :=
  mkUnit (gu_id g) (gu_area g) [mkSeries (shown g (gu_snow g)) (shown g (gu_melt g)) (shown g (gu_fraction g))].
(** The table of the units, in any order, has the elevations. *)
Definition describes (tab : list (Z * R)) (gs : list glacier_unit) : Prop :=
  NoDup (map fst tab) /\ forall g, In g gs -> In (gu_id g, gu_elevation g) tab.
(** The recording of a model with one glacier cover. *)
Definition recording_of (start stop : Z) (tab : list (Z * R)) (gs : list glacier_unit) : recording := mkRecording start stop 1 (map recorded_unit gs) tab.

(** The days after [i0] up to [i1]; the days from [i0] to [i1]. *)
Definition days_after (i0 i1 : nat) : list nat := seq (S i0) (i1 - i0).
Definition days_of (i0 i1 : nat) : list nat := seq i0 (S i1 - i0).
(** The surface balance of a unit as documented: the change of the snow minus the melt of ice. *)
Definition balance (g : glacier_unit) (i0 i1 : nat) : R := gu_snow g i1 - gu_snow g i0 - Rsum (gu_melt g) (days_after i0 i1).
(** The mean area of its glacier over the days. *)
Definition mean_area (g : glacier_unit) (i0 i1 : nat) : R := Rsum (fun t => gu_fraction g t * gu_area g) (days_of i0 i1) / INR (length (days_of i0 i1)).
(** The unit counts for the band: it has glacier in the period and its elevation is in the band. *)
Inductive within_band (e : R) : option (value * value) -> Prop :=
| Whole : within_band e None
| Band lo hi : lo <= e < hi -> within_band e (Some (Some lo, Some hi)).
Definition counts (band : option (value * value)) (i0 i1 : nat) (g : glacier_unit) : Prop :=
  gu_glacier g = true /\ 0 < mean_area g i0 i1 /\ within_band (gu_elevation g) band.
(** The units that count, in order. *)
Inductive chosen {X} (P : X -> Prop) : list X -> list X -> Prop :=
| CNil : chosen P [] []
| CTake x l m : P x -> chosen P l m -> chosen P (x :: l) (x :: m)
| CSkip x l m : ~ P x -> chosen P l m -> chosen P (x :: l) m.
(** The mean of the balances of units, weighted by the areas of their glaciers. *)
Definition area_of (gs : list glacier_unit) (i0 i1 : nat) : R := Rsum (fun g => mean_area g i0 i1) gs.
Definition mean_balance (gs : list glacier_unit) (i0 i1 : nat) (B : R) : Prop :=
  B * area_of gs i0 i1 = Rsum (fun g => balance g i0 i1 * mean_area g i0 i1) gs.

(** The days of the run: the day of index [i]. *)
Definition day_index (start stop : Z) (i : nat) (t : Z) : Prop := t = (start + Z.of_nat i * DAY)%Z /\ (t <= stop)%Z.
(** [i] is the day whose start is nearest to the date (the later one if two are), and the date is not before the first day or after the last one. *)
Definition nearest_day (start stop : Z) (date : Z) (i : nat) : Prop :=
  exists t, day_index start stop i t /\ (start <= date)%Z /\ (exists j t', day_index start stop j t' /\ date <= t')%Z /\
    forall j t', day_index start stop j t' -> (Z.abs (t - date) <= Z.abs (t' - date))%Z /\ (Z.abs (t - date) = Z.abs (t' - date) -> t' <= t)%Z.
(** The balance that is simulated for a target: exists, and is ... *)
Definition balance_for (start stop : Z) (gs : list glacier_unit) (t : target) (B : R) : Prop :=
  exists i0 i1 sel, nearest_day start stop (tg_t0 t) i0 /\ nearest_day start stop (tg_t1 t) i1 /\ (i0 < i1)%nat /\
    chosen (counts (tg_band t) i0 i1) gs sel /\ sel <> [] /\ mean_balance sel i0 i1 B.

(** ** The engine *)
(** The snow of each day: what fell and froze again minus what melted (all in mm over the glacier); the ice melts too. *)
Record weather := mkW { w_snowfall : nat -> R; w_refreezing : nat -> R; w_snowmelt : nat -> R; w_icemelt : nat -> R }.
Definition snow_follows (g : glacier_unit) (w : weather) : Prop :=
  forall t, gu_snow g (S t) = gu_snow g t + w_snowfall w (S t) + w_refreezing w (S t) - w_snowmelt w (S t).
(** Accumulation minus ablation at the surface of the glacier. *)
Definition surface_balance (w : weather) (i0 i1 : nat) : R :=
  Rsum (fun t => (w_snowfall w t + w_refreezing w t) - (w_snowmelt w t + w_icemelt w t)) (days_after i0 i1).
(** The recorded melt is the melt of the ice, or what the engine records. *)
Definition melt_as_is (g : glacier_unit) (w : weather) : Prop := forall t, gu_melt g t = w_icemelt w t.
Definition melt_of_engine (A : R) (g : glacier_unit) (w : weather) : Prop := forall t, gu_melt g t = recorded_melt (gu_area g) A (gu_fraction g t) (w_icemelt w t).

(** ** Loading *)
(** The rows that are wanted give a target each, in order; the others none. *)
Inductive yields {X} (wanted : X -> Prop) (shows : X -> target -> Prop) : list X -> list target -> Prop :=
| YNil : yields wanted shows [] []
| YTake x l t ts : wanted x -> shows x t -> yields wanted shows l ts -> yields wanted shows (x :: l) (t :: ts)
| YSkip x l ts : ~ wanted x -> yields wanted shows l ts -> yields wanted shows (x :: l) ts.
Definition type_name (b : balance_type) : string := match b with Annual => "annual" | Winter => "winter" | Summer => "summer" end.
(** The period is known and inside the limits. *)
Definition not_before (limit : option Z) (t : Z) : Prop := forall s, limit = Some s -> (s <= t)%Z.
Definition not_after (limit : option Z) (t : Z) : Prop := forall e, limit = Some e -> (t <= e)%Z.
Definition usable (a b : option Z) (v : value) (start stop : option Z) : Prop :=
  exists t0 t1 x, a = Some t0 /\ b = Some t1 /\ v = Some x /\ not_before start t0 /\ not_after stop t1.
(** The first moment of a day of the calendar. *)
Definition moment (t y m d : Z) : Prop := (t = days_from_civil y m d * DAY)%Z.
Definition month_names : list string :=
  ["january"; "february"; "march"; "april"; "may"; "june"; "july"; "august"; "september"; "october"; "november"; "december"]%string.
Inductive month_number : month_given -> Z -> Prop :=
| ByNumber n : month_number (MonthNumber n) n
| ByName s i : nth_error month_names i = Some s -> month_number (MonthName s) (Z.of_nat (S i)).
(** The period of a row: its dates; or, for the year [y] and the month of the start, from the first of the month to the day before the same date of the
    next year.  A field that is not known has no date, nor has a month that does not exist. *)
Definition period_of_row (c : csv_call) (r : csv_row) (a b : option Z) : Prop :=
  match cc_period c with
  | DateColumns => a = cr_start r /\ b = cr_end r
  | YearColumn m =>
      (exists y n t0 t1, cr_year r = Some y /\ month_number m n /\ (1 <= n <= 12)%Z /\ moment t0 y n 1 /\ moment (t1 + DAY) (y + 1) n 1 /\ a = Some t0 /\ b = Some t1) \/
      ((cr_year r = None \/ exists n, month_number m n /\ ~ (1 <= n <= 12)%Z) /\ a = None /\ b = None)
  | NoPeriod => False
  end.
Definition millimetres (u : string) (f : R) : Prop := (u = "mm_we"%string /\ f = 1) \/ (u = "m_we"%string /\ f = 1000).
Definition row_wanted (c : csv_call) (r : csv_row) : Prop :=
  (forall g, cc_glacier c = Some g -> cr_id r = g) /\ exists a b, period_of_row c r a b /\ usable a b (cr_value r) (cc_start c) (cc_end c).
Definition row_shows (c : csv_call) (r : csv_row) (t : target) : Prop :=
  exists f x, millimetres (cc_value_unit c) f /\ cr_value r = Some x /\ tg_value t = x * f /\ type_name (tg_type t) = cc_type c /\
    period_of_row c r (Some (tg_t0 t)) (Some (tg_t1 t)) /\ tg_band t = if cc_bands c then Some (cr_lo r, cr_hi r) else None.
(** The call can be answered. *)
Definition answerable (c : csv_call) (rows : list csv_row) : Prop :=
  (exists b, type_name b = cc_type c) /\ (exists f, millimetres (cc_value_unit c) f) /\ (cc_area_unit c = "m2" \/ cc_area_unit c = "km2")%string /\
  (forall g, cc_glacier c = Some g -> exists r, In r rows /\ cr_id r = g) /\
  match cc_period c with DateColumns => True | YearColumn m => exists n, month_number m n | NoPeriod => False end.
(** GLAMOS: the season of a balance. *)
Definition season (bt : balance_type) (r : glamos_row) (a b : option Z) (v : value) : Prop :=
  match bt with
  | Annual => a = gr_start r /\ b = gr_end r /\ v = gr_annual r
  | Winter => a = gr_start r /\ b = gr_winter_end r /\ v = gr_winter r
  | Summer => a = gr_winter_end r /\ b = gr_end r /\ v = gr_summer r
  end.
Definition glamos_wanted (glacier : option string) (start stop : option Z) (bt : balance_type) (r : glamos_row) : Prop :=
  (forall g, glacier = Some g -> gr_id r = g) /\ gr_start r <> None /\ gr_end r <> None /\ exists a b v, season bt r a b v /\ usable a b v start stop.
Definition glamos_shows (bins : bool) (bt : balance_type) (r : glamos_row) (t : target) : Prop :=
  season bt r (Some (tg_t0 t)) (Some (tg_t1 t)) (Some (tg_value t)) /\ tg_type t = bt /\ tg_band t = if bins then Some (gr_lo r, gr_hi r) else None.
