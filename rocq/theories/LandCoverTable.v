(** The loading of land cover changes from tables and glacier masks.  No proofs here.
    LC = python/src/hydrobricks/actions/action_land_cover_change.py, UN = python/src/hydrobricks/_units.py, UT = python/src/hydrobricks/_utils.py.
    A missing number (NaN) is [None].  Times are counted in nanoseconds since 1970.  [Throw] stands for every Python exception.  Not modelled: the text of the
    files, the extraction from shapes by the method 'vector' (polygons), and the clipping and rasterization of the shapes (the masks are given). *)
From Coq Require Import String.
From Verif Require Export GlacierBalance Actions.
Open Scope R_scope.

(** A table: the dates of the columns, and the rows: the unit and a value for each column. *)
Record change_table := mkTable { ct_dates : list Z; ct_rows : list (Z * list value) }.
(** What is registered for a land cover: date (MJD), unit, area [m2]. *)
Definition land_change : Type := R * (Z * R).

(** UT:77-106 [date_as_mjd]. *)
Definition mjd_of (t : Z) : R := 40587 + IZR t / IZR DAY.
(** LC:782-803 [_remove_rows_with_no_changes]: a value equal to the one of the column before (in the file) is marked as missing. *)
Definition same_value (a b : value) : bool := match a, b with Some x, Some y => if Req_EM_T x y then true else false | _, _ => false end.
Fixpoint drop_same (prev : value) (l : list value) : list value := match l with [] => [] | v :: r => (if same_value prev v then None else v) :: drop_same v r end.
Definition remove_unchanged (l : list value) : list value := match l with [] => [] | v :: r => v :: drop_same v r end.
(** UN:251-271 [convert_unit] to square metres, for the names of the units of area; other units cannot be converted. *)
Definition area_factor (u : string) : outcome R :=
  if existsb (fun s => (s =? u)%string) ["m2"; "m^2"; "m**2"; "M2"]%string then Ok 1
  else if existsb (fun s => (s =? u)%string) ["km2"; "km^2"; "km**2"; "KM2"]%string then Ok 1000000 else Throw.
(** LC:805-839 [_populate_bounded_instance]: column by column, row by row. *)
Definition column_entries (rows : list (Z * list value)) (p : Z * nat) : list (R * (Z * R)) :=
  flat_map (fun r => match nth (snd p) (snd r) None with Some a => [(mjd_of (fst p), (fst r, a))] | None => [] end) rows.
Definition table_entries (t : change_table) : list land_change := flat_map (column_entries (ct_rows t)) (combine (ct_dates t) (seq 0 (length (ct_dates t)))).
Definition scale_change (f : R) (c : land_change) : land_change := (fst c, (fst (snd c), snd (snd c) * f)).
Definition populate (unit : string) (t : change_table) : outcome (list land_change) :=
  match table_entries t with [] => Ok [] | l => bind (area_factor unit) (fun f => Ok (map (scale_change f) l)) end.
(** LC:132-133. *)
Definition register_table (unit : string) (t : change_table) : outcome (list land_change) :=
  populate unit (mkTable (ct_dates t) (map (fun r => (fst r, remove_unchanged (snd r))) (ct_rows t))).

(** ** LC:54-133 [load_from_csv] *)
(** The units: id and elevation.  A row of the file: the number of its first column and the values. *)
Record hunit := mkHU { hu_id : Z; hu_elev : R }.
(** int(), astype(int64): towards zero. *)
Definition truncate (x : R) : Z := if Rleb 0 x then Int_part x else (- Int_part (- x))%Z.
(** LC:755-780 [_match_hydro_unit_ids]: the first unit with this elevation; an IndexError if there is none. *)
Definition match_elevation (us : list hunit) (x : R) : outcome Z :=
  match find (fun u => (truncate (hu_elev u) =? truncate x)%Z) us with Some u => Ok (hu_id u) | None => Throw end.
Fixpoint match_rows (us : list hunit) (rows : list (R * list value)) : outcome (list (Z * list value)) :=
  match rows with [] => Ok [] | (x, l) :: r => bind (match_elevation us x) (fun id => bind (match_rows us r) (fun q => Ok ((id, l) :: q))) end.
(** LC:113-127: the ids of the file are compared with the smallest and the largest id only. *)
Definition zmin (l : list Z) : option Z := match l with [] => None | a :: r => Some (fold_left Z.min r a) end.
Definition zmax (l : list Z) : option Z := match l with [] => None | a :: r => Some (fold_left Z.max r a) end.
Definition ids_in_range (us : list hunit) (ids : list Z) : bool :=
  match zmin ids, zmax ids, zmin (map hu_id us), zmax (map hu_id us) with
  | Some a, Some b, Some lo, Some hi => negb ((a <? lo)%Z || (hi <? b)%Z)
  | _, _, _, _ => true
  end.
Inductive file_rows := ById (l : list (Z * list value)) | ByElevation (l : list (R * list value)).
Definition load_from_csv (us : list hunit) (unit : string) (dates : list Z) (rows : file_rows) : outcome (list land_change) :=
  bind (match rows with
        | ById l => if ids_in_range us (map fst l) then Ok l else Throw
        | ByElevation l => match_rows us l
        end) (fun l => register_table unit (mkTable dates l)).

(** ** Glacier masks: LC:266-398 [_create_action_for_glaciers] with the method 'raster' *)
(** np.interp for increasing dates: the first value before, the last after, a straight line between. *)
Fixpoint np_interp (x : Z) (l : list (Z * R)) : R :=
  match l with
  | [] => 0
  | [p] => snd p
  | p :: ((q :: _) as r) => if (x <=? fst p)%Z then snd p
                            else if (x <? fst q)%Z then snd p + (snd q - snd p) / IZR (fst q - fst p) * IZR (x - fst p)
                            else np_interp x r
  end.
(** LC:634-669: the first days of the years from the first to the last date (pd.date_range, freq="YS"). *)
Definition year_of (t : Z) : Z := let '(y, _, _) := civil_from_days (t / DAY) in y.
Definition new_year (y : Z) : Z := (days_from_civil y 1 1 * DAY)%Z.
Definition year_starts (a b : Z) : list Z :=
  filter (fun t => (a <=? t)%Z && (t <=? b)%Z)%bool (map (fun k => new_year (year_of a + Z.of_nat k)) (seq 0 (Z.to_nat (year_of b - year_of a + 1)))).
Definition yearly_times (times : list Z) : list Z := match times with [] => [] | t :: _ => year_starts t (last times t) end.
Definition interpolate_yearly (times : list Z) (row : list R) : list R := map (fun x => np_interp x (combine times row)) (yearly_times times).

(** LC:552-627: the pixels of a unit that are glacier (debris), times the area of a pixel; what is left is other. *)
Record mask := mkMask { mk_glacier : list bool; mk_debris : list bool }.
Record surfaces := mkSurf { sf_glacier : R; sf_ice : R; sf_debris : R; sf_other : R }.
Definition pixels (grid : list Z) (id : Z) (m : list bool) : R := INR (length (filter (fun p => (fst p =? id)%Z && snd p)%bool (combine grid m))).
Definition extract (grid : list Z) (px : R) (with_debris : bool) (m : mask) (id : Z) : surfaces :=
  let all := INR (length (filter (fun z => (z =? id)%Z) grid)) * px in
  let g := pixels grid id (mk_glacier m) * px in
  let d := if with_debris then pixels grid id (mk_debris m) * px else 0 in
  mkSurf g (g - d) d (all - g).
Definition surface_table (grid : list Z) (px : R) (with_debris yearly : bool) (ids : list Z) (times : list Z) (masks : list mask) (f : surfaces -> R) : change_table :=
  let row id := map (fun m => f (extract grid px with_debris m id)) masks in
  mkTable (if yearly then yearly_times times else times)
    (map (fun id => (id, map (fun x => Some x) (if yearly then interpolate_yearly times (row id) else row id))) ids).
(** The tables that are given back and what is registered, by land cover. *)
Definition create_for_glaciers (grid : list Z) (px : R) (with_debris yearly : bool) (ids : list Z) (times : list Z) (masks : list mask) :
    outcome (list change_table * list (string * list land_change)) :=
  if negb (length masks =? length times)%nat then Throw
  else
    let table := surface_table grid px with_debris yearly ids times masks in
    if with_debris
    then bind (register_table "m2" (table sf_ice)) (fun a => bind (register_table "m2" (table sf_debris)) (fun b =>
         Ok ([table sf_ice; table sf_debris; table sf_other], [("glacier_ice"%string, a); ("glacier_debris"%string, b)])))
    else bind (register_table "m2" (table sf_glacier)) (fun a => Ok ([table sf_glacier; table sf_other], [("glacier"%string, a)])).
