(** Declaring the hydro units of a catchment: their properties and lateral connections.  No proofs here.
    Sources: core/src/base/SettingsBasin.cpp, core/src/spatial/SubBasin.cpp (BuildBasin, AddHydroUnit, GetHydroUnitById), HydroUnit.cpp
    (SetProperties, GetPropertyDouble, GetPropertyString, AddLateralConnection), HydroUnitProperty.cpp, and the calls made by
    python/src/hydrobricks/hydro_units.py (populate_bounded_instance, set_connectivity).
    Doubles are reals; NaN is [None].  The conversion of a property to 32 bits (HydroUnit.cpp:146-148) is not represented. *)
From Verif Require Export Base Structure.
Open Scope string_scope.
Open Scope R_scope.

(** ** Properties of a unit *)
(** HydroUnitProperty.h:41-44; a text property has no unit and a NaN value (HydroUnitProperty.cpp:13-17). *)
Inductive pvalue := Num (x : R) | Text (s : string).
Record prop := mkP { p_name : string; p_unit : string; p_value : pvalue }.

(** HydroUnitProperty.cpp:19-48 [GetValue]; [None]: NaN. *)
Definition get_value (p : prop) (unit : string) : option R :=
  match p_value p with
  | Text _ => None
  | Num v =>
    let u := p_unit p in
    if String.eqb u unit then Some v
    else if String.eqb u "degrees" || String.eqb u "degree" || String.eqb u "deg" || String.eqb u "°" then
      if String.eqb unit "degrees" || String.eqb u "degree" || String.eqb unit "deg" || String.eqb u "°" then Some v
      else if String.eqb unit "radians" || String.eqb unit "rad" then Some (v * PI / 180)
      else if String.eqb unit "percent" || String.eqb unit "%" then Some (100 * tan (v * PI / 180))
      else if String.eqb unit "m/m" || String.eqb unit "m_per_m" then Some (tan (v * PI / 180))
      else None
    else if String.eqb u "m2" || String.eqb u "m^2" then
      if String.eqb unit "ha" then Some (v / 10000)
      else if String.eqb unit "km2" || String.eqb unit "km^2" then Some (v / 1000000)
      else None
    else None
  end.
(** HydroUnitProperty.cpp:50-56 [GetValueString]. *)
Definition get_text (p : prop) : string := match p_value p with Text s => s | Num _ => "" end.

(** HydroUnit.cpp:136-144 [GetPropertyDouble], 150-158 [GetPropertyString]: the first property of that name. *)
Definition find_prop (name : string) (l : list prop) : option prop := find (fun p => String.eqb (p_name p) name) l.
Definition property_double (l : list prop) (name unit : string) : outcome (option R) :=
  match find_prop name l with Some p => Ok (get_value p unit) | None => Throw end.
Definition property_string (l : list prop) (name : string) : outcome string :=
  match find_prop name l with Some p => Ok (get_text p) | None => Throw end.

(** The properties read while the processes and splitters of a unit are created (ModelBuilder.cpp:192, 230):
    ProcessRunoffSocont.cpp:25, ProcessLateralSnowSlide.cpp:33, ProcessLateralSnowRedistributionFrey.cpp:65,
    ProcessMeltDegreeDayAspect.cpp:36, SplitterSnowRainCemaNeige.cpp:51. *)
Inductive reading := ReadNumber (name unit : string) | ReadText (name : string).
Definition process_reads (type : string) : list reading :=
  if String.eqb type "runoff:socont" then [ReadNumber "slope" "m/m"]
  else if in_list type lateral_types then [ReadNumber "slope" "degrees"]
  else if String.eqb type "melt:degree_day_aspect" then [ReadText "aspect_class"]
  else [].
Definition splitter_reads (type : string) : list reading :=
  if String.eqb type "snow_rain:cemaneige" then [ReadNumber "elevation" "m"] else [].
Definition structure_reads (st : structure) : list reading :=
  (flat_map (fun b => flat_map (fun p => process_reads (pr_type p)) (bs_processes b)) (st_bricks st) ++
   flat_map (fun s => splitter_reads (sp_type s)) (st_splitters st))%list.
(** Does a reading succeed?  Simplification: the readings are made in the order of the declaration; all failures throw. *)
Definition read_one (l : list prop) (r : reading) : outcome unit :=
  match r with
  | ReadNumber n u => bind (property_double l n u) (fun _ => Ok tt)
  | ReadText n => bind (property_string l n) (fun _ => Ok tt)
  end.
Fixpoint read_all (l : list prop) (rs : list reading) : outcome unit :=
  match rs with [] => Ok tt | r :: q => bind (read_one l r) (fun _ => read_all l q) end.

(** ** Settings of the basin *)
(** SettingsBasin.h:7-45. *)
Record cover_decl := mkCD { cd_name : string; cd_type : string; cd_fraction : R }.
Record unit_decl := mkUD { ud_id : Z; ud_area : R; ud_elevation : R; ud_covers : list cover_decl; ud_numbers : list (string * R * string);
  ud_texts : list (string * string) }.
Record lateral := mkLat { la_giver : Z; la_receiver : Z; la_fraction : R }.
(** [_selectedHydroUnit] points at an element of a vector; [Dangling]: the vector has been reallocated since. *)
Inductive pointer := Null | At (i : nat) | Dangling.
Record basin := mkBasin { ba_units : list unit_decl; ba_selected : pointer; ba_laterals : list lateral }.
Definition empty_basin : basin := mkBasin [] Null [].

(** SettingsBasin.cpp:11-18 [AddHydroUnit]. *)
Definition add_hydro_unit (id : Z) (area elevation : R) (b : basin) : basin :=
  mkBasin (ba_units b ++ [mkUD id area elevation [] [] []])%list (At (length (ba_units b))) (ba_laterals b).
(** SettingsBasin.cpp:20-47: the asserts on the selection. *)
Definition on_selected (f : unit_decl -> unit_decl) (b : basin) : outcome basin :=
  match ba_selected b with
  | At i => if Nat.ltb i (length (ba_units b)) then Ok (mkBasin (upd_nth i f (ba_units b)) (At i) (ba_laterals b)) else UB
  | _ => UB
  end.
Definition push_cover (c : cover_decl) (u : unit_decl) : unit_decl :=
  mkUD (ud_id u) (ud_area u) (ud_elevation u) (ud_covers u ++ [c])%list (ud_numbers u) (ud_texts u).
Definition push_number (p : string * R * string) (u : unit_decl) : unit_decl :=
  mkUD (ud_id u) (ud_area u) (ud_elevation u) (ud_covers u) (ud_numbers u ++ [p])%list (ud_texts u).
Definition push_text (p : string * string) (u : unit_decl) : unit_decl :=
  mkUD (ud_id u) (ud_area u) (ud_elevation u) (ud_covers u) (ud_numbers u) (ud_texts u ++ [p])%list.
Definition add_land_cover (name type : string) (fraction : R) : basin -> outcome basin := on_selected (push_cover (mkCD name type fraction)).
Definition add_number (name : string) (x : R) (unit : string) : basin -> outcome basin := on_selected (push_number (name, x, unit)).
Definition add_text (name value : string) : basin -> outcome basin := on_selected (push_text (name, value)).
(** SettingsBasin.cpp:49-58 [AddLateralConnection] (its type is unused). *)
Definition add_lateral (giver receiver : Z) (fraction : R) (b : basin) : basin :=
  mkBasin (ba_units b) (ba_selected b) (ba_laterals b ++ [mkLat giver receiver fraction])%list.
(** SettingsBasin.cpp:60-63 [Clear]: the lateral connections stay. *)
Definition clear (b : basin) : basin := mkBasin [] Null (ba_laterals b).

(** SettingsBasin.cpp:70-153 [Parse] of a readable file: one value per unit and variable.  [bf_variables]: the variables other than id and area
    whose first dimension is the units (the land covers among them).  Values are pushed to the units counted from the first one of the
    settings, and the selection is not updated. *)
Record basin_file := mkBF { bf_ids : list Z; bf_areas : list R; bf_covers : list (string * string * list R); bf_variables : list (string * list R) }.
Fixpoint push_each {X} (f : X -> unit_decl -> unit_decl) (values : list X) (l : list unit_decl) : list unit_decl :=
  match values, l with v :: vs, u :: us => f v u :: push_each f vs us | _, us => us end.
Definition parse (f : basin_file) (b : basin) : basin :=
  let units0 := (ba_units b ++ map (fun '(id, a) => mkUD id a 0 [] [] []) (combine (bf_ids f) (bf_areas f)))%list in
  let units1 := fold_left (fun l '(n, t, fr) => push_each (fun x => push_cover (mkCD n t x)) fr l) (bf_covers f) units0 in
  let units2 := fold_left (fun l '(n, vs) => push_each (fun x => push_number (n, x, "")) vs l) (bf_variables f) units1 in
  mkBasin units2 (match ba_selected b with At _ => Dangling | p => p end) (ba_laterals b).

(** ** The units of the sub-basin *)
Record hydro_unit := mkHU { hu_id : Z; hu_area : R; hu_props : list prop; hu_connections : list (nat * R) }.
(** HydroUnit.cpp:115-129 [SetProperties]: the numbers, then the texts; the elevation of the settings is not among them. *)
Definition unit_props (u : unit_decl) : list prop :=
  (map (fun '(n, x, un) => mkP n un (Num x)) (ud_numbers u) ++ map (fun '(n, s) => mkP n "" (Text s)) (ud_texts u))%list.
(** SubBasin.cpp:34-41. *)
Definition make_unit (u : unit_decl) : hydro_unit := mkHU (ud_id u) (ud_area u) (unit_props u) [].
(** SubBasin.cpp:169-175 [AddHydroUnit] fills the map by id, 194-201 [GetHydroUnitById]: the last unit with that id. *)
Fixpoint unit_by_id (id : Z) (l : list hydro_unit) : option nat :=
  match l with
  | [] => None
  | u :: r => match unit_by_id id r with
              | Some k => Some (S k)
              | None => if Z.eqb (hu_id u) id then Some O else None
              end
  end.
(** HydroUnit.cpp:205-211 [AddLateralConnection]. *)
Definition connect (giver receiver : nat) (fraction : R) (l : list hydro_unit) : outcome (list hydro_unit) :=
  if Rleb fraction 0 || Rltb 1 fraction then Throw
  else Ok (upd_nth giver (fun u => mkHU (hu_id u) (hu_area u) (hu_props u) (hu_connections u ++ [(receiver, fraction)])%list) l).
(** SubBasin.cpp:45-54: unknown ids are logged and skipped. *)
Fixpoint connect_all (cs : list lateral) (l : list hydro_unit) : outcome (list hydro_unit) :=
  match cs with
  | [] => Ok l
  | c :: r =>
    match unit_by_id (la_giver c) l, unit_by_id (la_receiver c) l with
    | Some g, Some t => bind (connect g t (la_fraction c) l) (connect_all r)
    | _, _ => connect_all r l
    end
  end.
(** SubBasin.cpp:28-55 [BuildBasin]. *)
Definition build_basin (b : basin) : outcome (list hydro_unit) := connect_all (ba_laterals b) (map make_unit (ba_units b)).
(** SubBasin.cpp:173: the area, accumulated from 0. *)
Definition basin_area (l : list hydro_unit) : R := fold_left (fun a u => a + hu_area u) l 0.

(** ** The calls made by the Python class *)
(** One row of the table of hydro units.  [rw_props]: the columns other than id, area, elevation, fractions and connectivity. *)
Record row := mkRow { rw_id : Z; rw_area : R; rw_elevation : R; rw_props : list (string * pvalue * string); rw_covers : list (string * string * R) }.
(** hydro_units.py:717-735: tiny overshoots are snapped, others refused (NaN fractions are 0 in the row). *)
Definition snap (f : R) : R :=
  if Rleb (- / 100000000) f && Rltb f 0 then 0 else if Rltb 1 f && Rleb f (1 + / 100000000) then 1 else f.
Fixpoint declare_props (l : list (string * pvalue * string)) (b : basin) : outcome basin :=
  match l with
  | [] => Ok b
  | (n, Num x, u) :: r => bind (add_number n x u b) (declare_props r)
  | (n, Text s, _) :: r => bind (add_text n s b) (declare_props r)
  end.
Fixpoint declare_covers (l : list (string * string * R)) (b : basin) : outcome basin :=
  match l with
  | [] => Ok b
  | (n, t, f) :: r => if Rleb 0 (snap f) && Rleb (snap f) 1 then bind (add_land_cover n t (snap f) b) (declare_covers r) else Throw
  end.
Fixpoint declare_rows (l : list row) (b : basin) : outcome basin :=
  match l with
  | [] => Ok b
  | r :: q => bind (declare_props (rw_props r) (add_hydro_unit (rw_id r) (rw_area r) (rw_elevation r) b)) (fun b1 =>
              bind (declare_covers (rw_covers r) b1) (declare_rows q))
  end.
(** hydro_units.py:669-736 [populate_bounded_instance] for the rows in the order of decreasing elevation. *)
Definition populate (l : list row) (b : basin) : outcome basin := declare_rows l (clear b).

(** hydro_units.py:738-848 [set_connectivity] for a table of (id, {connected id: ratio}).  [ids]: the ids of the units.  numpy.isclose:
    |total - 1| <= 1e-8 + 1e-5. *)
Fixpoint add_ratios (ids : list Z) (id : Z) (l : list (Z * R)) (b : basin) : outcome basin :=
  match l with
  | [] => Ok b
  | (to, x) :: r =>
    if Z.eqb to id then Throw
    else if Rltb x 0 || Rltb 1 x then Throw
    else if negb (existsb (Z.eqb id) ids) || negb (existsb (Z.eqb to) ids) then Throw
    else add_ratios ids id r (add_lateral id to x b)
  end.
Fixpoint set_connectivity (ids : list Z) (table : list (Z * list (Z * R))) (b : basin) : outcome basin :=
  match table with
  | [] => Ok b
  | (_, []) :: r => set_connectivity ids r b
  | (id, l) :: r =>
    if Rleb (Rabs (Rsum snd l - 1)) (/ 100000000 + / 100000)
    then bind (add_ratios ids id l b) (set_connectivity ids r) else Throw
  end.
