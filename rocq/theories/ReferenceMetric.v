(** The reference value of a metric from the observed discharge, and the skills made of it.  No proofs here.
    DI = python/src/hydrobricks/evaluation/discharge.py, ME = python/src/hydrobricks/evaluation/metrics.py.
    The series is daily; days are counted since 1970.  A missing number (NaN) is [None].  The metrics of HydroErr are not in /repo: [ev sim obs] is any
    function of the two arrays.  [Throw] stands for every Python exception. *)
From Coq Require Import String.
From Verif Require Export Calendar GlacierBalance.
From Verif Require Import ParamSet.
Open Scope R_scope.

Record obs_row := mkRow { rw_day : Z; rw_value : value }.
Definition year_of_day (z : Z) : Z := let '(y, _, _) := civil_from_days z in y.
Definition month_day (z : Z) : Z * Z := let '(_, m, d) := civil_from_days z in (m, d).
Definition feb29 (z : Z) : bool := let '(m, d) := month_day z in ((m =? 2) && (d =? 29))%Z.
(** pd.unique: the values in the order in which they come. *)
Fixpoint uniques (l : list Z) : list Z := match l with [] => [] | x :: r => x :: filter (fun y => negb (y =? x)%Z) (uniques r) end.
(** DI:194-212 [_prepare_dataframe]. *)
Definition prepare (l : list obs_row) : list obs_row := filter (fun r => negb (feb29 (rw_day r))) l.
Definition years_in (l : list obs_row) : list Z := uniques (map (fun r => year_of_day (rw_day r)) l).
(** Days from one to another: pd.date_range. *)
Definition days_list (z : Z) (n : nat) : list Z := map (fun k => (z + Z.of_nat k)%Z) (seq 0 n).
Definition date_range (a b : Z) : list Z := days_list a (Z.to_nat (b - a + 1)).

(** DI:275-317 [_prepare_comparison_data]: the years and the rows to compare with; np.unique of days in order. *)
Definition in_period (a b : Z) (r : obs_row) : bool := ((a <=? rw_day r) && (rw_day r <=? b))%Z.
Definition comparison (df : list obs_row) (start stop : option Z) : list Z * list obs_row :=
  match start, stop with
  | Some a, Some b => (uniques (map year_of_day (date_range a b)), filter (in_period a b) df)
  | _, _ => (years_in df, df)
  end.
(** DI:381, DI:443: df.loc[sampled_years]: for each year all its rows; a KeyError if there is none. *)
Definition rows_of_year (df : list obs_row) (y : Z) : outcome (list obs_row) :=
  match filter (fun r => (year_of_day (rw_day r) =? y)%Z) df with [] => Throw | r => Ok r end.
Fixpoint locate (df : list obs_row) (ys : list Z) : outcome (list obs_row) :=
  match ys with [] => Ok [] | y :: q => bind (rows_of_year df y) (fun r => bind (locate df q) (fun s => Ok (r ++ s))) end.
(** DI:319-338 [_should_exclude_sample]. *)
Definition excluded (ys zs : list Z) : bool := existsb (fun p => (fst p - snd p =? 0)%Z) (combine ys zs).
Definition metric_of (ev : list value -> list value -> outcome value) (df cmp : list obs_row) (ys : list Z) : outcome value :=
  bind (locate df ys) (fun s => ev (map rw_value s) (map rw_value cmp)).
Fixpoint metrics_of (ev : list value -> list value -> outcome value) (df cmp : list obs_row) (l : list (list Z)) : outcome (list value) :=
  match l with [] => Ok [] | ys :: r => bind (metric_of ev df cmp ys) (fun x => bind (metrics_of ev df cmp r) (fun q => Ok (x :: q))) end.
(** itertools.product. *)
Fixpoint product (ys : list Z) (n : nat) : list (list Z) :=
  match n with O => [[]] | S n => flat_map (fun y => map (cons y) (product ys n)) ys end.
(** np.mean. *)
Fixpoint total (l : list value) : value :=
  match l with [] => Some 0 | Some x :: r => match total r with Some s => Some (x + s) | None => None end | None :: _ => None end.
Definition np_mean (l : list value) : value := match l with [] => None | _ => match total l with Some s => Some (s / INR (length l)) | None => None end end.
(** DI:340-387 [_compute_all_combinations]. *)
Definition combinations (years cmp_years : list Z) (exclusion : bool) : list (list Z) :=
  filter (fun ys => negb (exclusion && excluded ys cmp_years)) (product years (length cmp_years)).
(** DI:389-449 [_compute_random_sampling]: the samples that are drawn; [None]: they do not suffice. *)
Fixpoint accepted (cmp_years : list Z) (exclusion : bool) (draws : list (list Z)) (n : nat) {struct draws} : option (list (list Z)) :=
  match n, draws with
  | O, _ => Some []
  | S _, [] => None
  | S k, ys :: r => if (exclusion && excluded ys cmp_years)%bool then accepted cmp_years exclusion r n else option_map (cons ys) (accepted cmp_years exclusion r k)
  end.
(** DI:214-251 [_compute_mean_discharge_metric]: groupby ... transform("mean"). *)
Definition same_month_day (a b : Z) : bool := let '(m, d) := month_day a in let '(m', d') := month_day b in ((m =? m') && (d =? d'))%Z.
Definition mean_of_day (df : list obs_row) (z : Z) : value := nanmean (map rw_value (filter (fun r => same_month_day (rw_day r) z) df)).
Definition mean_discharge (ev : list value -> list value -> outcome value) (df : list obs_row) (start stop : option Z) : outcome value :=
  let rows := map (fun r => (r, mean_of_day df (rw_day r))) df in
  let rows := match start with Some a => filter (fun p => (a <=? rw_day (fst p))%Z) rows | None => rows end in
  let rows := match stop with Some b => filter (fun p => (rw_day (fst p) <=? b)%Z) rows | None => rows end in
  ev (map snd rows) (map (fun p => rw_value (fst p)) rows).
(** DI:103-192 [compute_reference_metric]; the random samples are given.  [None]: still drawing. *)
Inductive method := MeanDischarge | AllCombinations | RandomSampling (draws : list (list Z)) (n_evals : nat).
Definition reference_metric (ev : list value -> list value -> outcome value) (l : list obs_row) (start stop : option Z) (exclusion : bool) (m : method) : option (outcome value) :=
  let df := prepare l in
  let years := years_in df in
  match m with
  | MeanDischarge => Some (mean_discharge ev df start stop)
  | _ =>
    if (length years <? 2)%nat then Some Throw
    else
      let '(cmp_years, cmp) := comparison df start stop in
      option_map (fun samples => bind (metrics_of ev df cmp samples) (fun q => Ok (np_mean q)))
        (match m with RandomSampling draws n => accepted cmp_years exclusion draws n | _ => Some (combinations years cmp_years exclusion) end)
  end.

(** ME:69-91 [reference_value], ME:94-123 [to_skill], for numbers. *)
Definition benchmark (obs : list R) : list R := repeat (Rsum (fun x => x) obs / INR (length obs)) (length obs).
Definition reference_value (evaluate : string -> list R -> list R -> R) (metric : string) (obs : list R) : R := evaluate metric (benchmark obs) obs.
Definition to_skill (evaluate : string -> list R -> list R -> R) (v : R) (metric : string) (obs : list R) : R :=
  if negb (is_error_metric metric) then v
  else let ref := reference_value evaluate metric obs in if Rltb (Rabs ref) (/ 1000000000000) then - v else 1 - v / ref.
