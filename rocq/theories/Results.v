(** The results file: recording of the values, writing, reading from Python.  No proofs here.
    Sources: core/src/base/Logger.cpp (InitContainers, Reset, SetDate, SaveInitialValues, Record, Increment, DumpOutputs), ResultWriter.cpp:8-90 (WriteNetCDF),
    FileNetcdf.cpp:187-201 (PutVar), python/src/hydrobricks/results.py (Results). *)
From Coq Require Export String.
From Verif Require Export Base.
Open Scope R_scope.

(** A double: [None] is NaN. *)
Definition value := option R.
(** An Eigen array with [m_rows] rows, column-major. *)
Record matrix := mkM { m_rows : nat; m_cols : nat; m_data : list value }.
Fixpoint set_nth {X} (l : list X) (i : nat) (x : X) : list X :=
  match l, i with [], _ => [] | _ :: r, O => x :: r | y :: r, S j => y :: set_nth r j x end.
(** [axxd::Ones(rows, cols) * NAN_D]. *)
Definition nan_matrix (rows cols : nat) : matrix := mkM rows cols (repeat None (rows * cols)).
(** Writing an element; outside the array it is undefined. *)
Definition m_set (m : matrix) (r c : nat) (v : value) : outcome matrix :=
  if (Nat.ltb r (m_rows m) && Nat.ltb c (m_cols m))%bool then Ok (mkM (m_rows m) (m_cols m) (set_nth (m_data m) (c * m_rows m + r) v)) else UB.

Section Recorder.
(** [P]: the state of the basin; a pointer is a way to read a value of it. *)
Context {P : Type}.
Definition pointer := option (P -> R).

(** Logger.h:310-330.  [r_time]: [None] is a date that was not written.  [r_fractions]: the recorded fractions, empty if they are not recorded. *)
Record recorder := mkRec {
  r_cursor : nat;
  r_time : list value;
  r_sub_labels : list string;
  r_sub_pt : list pointer;
  r_sub : list (list value);
  r_ids : list Z;
  r_structures : list Z;
  r_areas : list R;
  r_labels : list string;
  r_pt : list (list pointer);
  r_values : list matrix;
  r_covers : list string;
  r_fractions_pt : list (list pointer);
  r_fractions : list matrix }.

(** Logger.cpp:20-46 [InitContainers], with the pointers set afterwards (SetSubBasinValuePointer, SetHydroUnitValuePointer, SetHydroUnitFractionPointer,
    Logger.cpp:52-69).  [covers] is empty when the fractions are not recorded. *)
Definition init_containers (times : nat) (ids structures : list Z) (areas : list R) (sub_labels : list string) (sub_pt : list pointer)
    (labels : list string) (pt : list (list pointer)) (covers : list string) (fractions_pt : list (list pointer)) : recorder :=
  mkRec 0 (repeat None times) sub_labels sub_pt (map (fun _ => repeat None times) sub_labels) ids structures areas
    labels pt (map (fun _ => nan_matrix times (length ids)) labels) covers fractions_pt (map (fun _ => nan_matrix times (length ids)) covers).

(** Logger.cpp:48-50 [Reset]: only the cursor. *)
Definition reset_recorder (r : recorder) : recorder :=
  mkRec 0 (r_time r) (r_sub_labels r) (r_sub_pt r) (r_sub r) (r_ids r) (r_structures r) (r_areas r) (r_labels r) (r_pt r) (r_values r) (r_covers r) (r_fractions_pt r) (r_fractions r).

(** Logger.cpp:101-109: the loop over the units of a label, from unit [u]; unconnected pairs are skipped. *)
Fixpoint record_units (p : P) (cursor u : nat) (pts : list pointer) (m : matrix) : outcome matrix :=
  match pts with
  | [] => Ok m
  | None :: r => record_units p cursor (S u) r m
  | Some f :: r => bind (m_set m cursor u (Some (f p))) (record_units p cursor (S u) r)
  end.
Fixpoint record_labels (p : P) (cursor : nat) (pts : list (list pointer)) (ms : list matrix) : outcome (list matrix) :=
  match pts, ms with
  | pt :: ps, m :: q => bind (record_units p cursor 0 pt m) (fun m' => bind (record_labels p cursor ps q) (fun q' => Ok (m' :: q')))
  | _, _ => Ok ms
  end.
(** Logger.cpp:96-99: the values of the sub-basin; an unset pointer is read (undefined). *)
Fixpoint record_sub (p : P) (cursor : nat) (pts : list pointer) (vs : list (list value)) : outcome (list (list value)) :=
  match pts, vs with
  | pt :: ps, v :: q =>
    match pt with
    | None => UB
    | Some f => if Nat.ltb cursor (length v) then bind (record_sub p cursor ps q) (fun q' => Ok (set_nth v cursor (Some (f p)) :: q')) else UB
    end
  | _, _ => Ok vs
  end.
(** Logger.cpp:71-74 [SetDate], 93-120 [Record], 122-124 [Increment]: a row of the loop of ModelHydro.cpp:117-128. *)
Definition record_row (date : R) (p : P) (r : recorder) : outcome recorder :=
  if Nat.ltb (r_cursor r) (length (r_time r)) then
    bind (record_sub p (r_cursor r) (r_sub_pt r) (r_sub r)) (fun sub =>
    bind (record_labels p (r_cursor r) (r_pt r) (r_values r)) (fun values =>
    bind (record_labels p (r_cursor r) (r_fractions_pt r) (r_fractions r)) (fun fractions =>
    Ok (mkRec (S (r_cursor r)) (set_nth (r_time r) (r_cursor r) (Some date)) (r_sub_labels r) (r_sub_pt r) sub (r_ids r) (r_structures r) (r_areas r)
          (r_labels r) (r_pt r) values (r_covers r) (r_fractions_pt r) fractions))))
  else UB.
Fixpoint record_rows (l : list (R * P)) (r : recorder) : outcome recorder :=
  match l with [] => Ok r | (date, p) :: q => bind (record_row date p r) (record_rows q) end.

(** results.nc: dimensions and variables; a cell that was not written is [None] (the fill value, NaN). *)
Record results_file := mkRF {
  rf_times : nat; rf_units : nat;
  rf_time : list value; rf_ids : list Z; rf_structures : list Z; rf_areas : list R;
  rf_sub : nat -> nat -> value;           (** aggregated_values, time *)
  rf_values : nat -> nat -> nat -> value; (** distributed_values, hydro_units, time *)
  rf_fractions : nat -> nat -> nat -> value; (** land_covers, hydro_units, time *)
  rf_sub_labels : list string; rf_labels : list string; rf_covers : list string }.
(** nc_put_vara_double: block start [i, 0] and count [1, n], or start [i, 0, 0] and count [1, n1, n2], the last index varying fastest. *)
Definition put_vara_1 (n : nat) (buffer : list value) (i : nat) (cell : nat -> nat -> value) : nat -> nat -> value :=
  fun a t => if (Nat.eqb a i && Nat.ltb t n)%bool then nth t buffer None else cell a t.
Definition put_vara_2 (n1 n2 : nat) (buffer : list value) (i : nat) (cell : nat -> nat -> nat -> value) : nat -> nat -> nat -> value :=
  fun a b t => if (Nat.eqb a i && Nat.ltb b n1 && Nat.ltb t n2)%bool then nth (b * n2 + t) buffer None else cell a b t.
(** FileNetcdf.cpp:187-193, 195-201 [PutVar]. *)
Fixpoint put_vectors (i : nat) (l : list (list value)) (cell : nat -> nat -> value) : nat -> nat -> value :=
  match l with [] => cell | v :: r => put_vectors (S i) r (put_vara_1 (length v) v i cell) end.
Fixpoint put_matrices (i : nat) (l : list matrix) (cell : nat -> nat -> nat -> value) : nat -> nat -> nat -> value :=
  match l with [] => cell | m :: r => put_matrices (S i) r (put_vara_2 (m_cols m) (m_rows m) (m_data m) i cell) end.
(** ResultWriter.cpp:8-90 [WriteNetCDF]. *)
Definition write_results (r : recorder) : results_file :=
  mkRF (length (r_time r)) (length (r_ids r)) (r_time r) (r_ids r) (r_structures r) (r_areas r)
    (put_vectors 0 (r_sub r) (fun _ _ => None)) (put_matrices 0 (r_values r) (fun _ _ _ => None)) (put_matrices 0 (r_fractions r) (fun _ _ _ => None))
    (r_sub_labels r) (r_labels r) (r_covers r).
End Recorder.
Arguments pointer : clear implicits.
Arguments recorder : clear implicits.

(** *** Reading, python/src/hydrobricks/results.py *)
(** A text attribute of a netCDF file as Python sees it: one text, or a list of at least two. *)
Inductive attribute := OneText (s : string) | Texts (l : list string).
Definition attribute_of (l : list string) : attribute := match l with [s] => OneText s | _ => Texts l end.
(** results.py:423-429 [_get_distributed_labels]. *)
Definition distributed_labels (a : attribute) : list string := match a with OneText s => [s] | Texts l => l end.
Fixpoint position (x : string) (l : list string) : option nat :=
  match l with [] => None | y :: r => if String.eqb y x then Some 0%nat else option_map S (position x r) end.
Fixpoint ends_with (suffix s : string) : bool :=
  String.eqb s suffix || match s with EmptyString => false | String _ r => ends_with suffix r end.
(** results.py:431-457 [_resolve_component_label]; [Throw]: ValueError. *)
Definition resolve (labels : list string) (component : string) : outcome nat :=
  match position component labels with
  | Some i => Ok i
  | None => match filter (ends_with component) labels with
            | [l] => match position l labels with Some i => Ok i | None => Throw end
            | _ => Throw
            end
  end.
(** An array units x times. *)
Record table := mkTab { tb_units : nat; tb_times : nat; tb_cell : nat -> nat -> value }.
(** results.py:164-203 [get_hydro_units_values], for the whole period. *)
Definition hydro_units_values (f : results_file) (component : string) : outcome table :=
  bind (resolve (distributed_labels (attribute_of (rf_labels f))) component) (fun i => Ok (mkTab (rf_units f) (rf_times f) (rf_values f i))).
(** str.index and list.index: the place of a land cover in the attribute labels_land_covers. *)
Definition cover_index (a : attribute) (cover : string) : outcome nat :=
  match a with
  | OneText s => match String.index 0 cover s with Some i => Ok i | None => Throw end
  | Texts l => match position cover l with Some i => Ok i | None => Throw end
  end.
Definition vmul (a b : value) : value := match a, b with Some x, Some y => Some (x * y) | _, _ => None end.
(** results.py:104-147 [get_land_cover_areas]; without fractions in the file the attribute and the variable are missing, an index outside the variable is
    an IndexError. *)
Definition land_cover_areas (f : results_file) (cover : string) : outcome table :=
  match rf_covers f with
  | [] => Throw
  | l => bind (cover_index (attribute_of l) cover) (fun i =>
         if Nat.ltb i (length l) then Ok (mkTab (rf_units f) (rf_times f) (fun u t => vmul (nth_error (rf_areas f) u) (rf_fractions f i u t))) else Throw)
  end.
(** results.py:397-403 [_has_distributed_component], 328-356 [_stack_land_cover_swe]: pairs of content and area.  Iterating over a text gives its characters. *)
Definition one_char (c : Ascii.ascii) : string := String c EmptyString.
Definition iterate (a : attribute) : list string := match a with OneText s => map one_char (list_ascii_of_string s) | Texts l => l end.
Definition snow_label (cover : string) : string := (cover ++ "_snowpack:snow_content")%string.
Fixpoint stack_swe (f : results_file) (covers : list string) : outcome (list (table * table)) :=
  match covers with
  | [] => Ok []
  | c :: r =>
    bind (land_cover_areas f c) (fun areas =>
    let swe := match hydro_units_values f (snow_label c) with Ok t => t | _ => mkTab (rf_units f) (rf_times f) (fun _ _ => Some 0) end in
    bind (stack_swe f r) (fun q => Ok ((swe, areas) :: q)))
  end.
(** results.py:405-421 [_area_weighted_nanmean] over a list of cells (content, area): weights, nansum, quotient (0 / 0 is NaN; the sum of areas is not negative). *)
Definition weight (c : value * value) : R := match c with (Some _, Some a) => a | _ => 0 end.
Definition weighted (c : value * value) : R := match c with (Some v, Some a) => v * a | _ => 0 end.
Definition weighted_nanmean (l : list (value * value)) : value :=
  if Reqb (Rsum weight l) 0 then None else Some (Rsum weighted l / Rsum weight l).
(** results.py:205-249 [get_mean_hydro_units_values]: axis=1, of arrays units x times. *)
Definition mean_hydro_units_values (f : results_file) (cover component : string) : outcome (list value) :=
  bind (hydro_units_values f component) (fun v =>
  bind (land_cover_areas f cover) (fun a =>
  Ok (map (fun u => weighted_nanmean (map (fun t => (tb_cell v u t, tb_cell a u t)) (seq 0 (tb_times v)))) (seq 0 (tb_units v))))).
(** results.py:251-289 [get_mean_swe]: axis 0 of (covers x units, times). *)
Definition mean_swe (f : results_file) : outcome (list value) :=
  match rf_covers f with
  | [] => Throw
  | l => bind (stack_swe f (iterate (attribute_of l))) (fun q =>
         Ok (map (fun t => weighted_nanmean (flat_map (fun '(s, a) => map (fun u => (tb_cell s u t, tb_cell a u t)) (seq 0 (rf_units f))) q)) (seq 0 (rf_times f))))
  end.
(** results.py:291-326 [get_total_swe]: axis 0 of (covers, units, times). *)
Definition total_swe (f : results_file) : outcome (list (list value)) :=
  match rf_covers f with
  | [] => Throw
  | l => bind (stack_swe f (iterate (attribute_of l))) (fun q =>
         Ok (map (fun u => map (fun t => weighted_nanmean (map (fun '(s, a) => (tb_cell s u t, tb_cell a u t)) q)) (seq 0 (rf_times f))) (seq 0 (rf_units f))))
  end.
