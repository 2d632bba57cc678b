(** The land cover fractions of the hydro units from classified maps and glacier extents.  No proofs here.
    CL = python/src/hydrobricks/preprocessing/catchment_land_cover.py, HU = python/src/hydrobricks/hydro_units.py, CA = python/src/hydrobricks/catchment.py,
    GC = python/src/hydrobricks/preprocessing/glacier_cover.py.  [Throw] stands for every Python exception.  Not modelled: reading, projecting and resampling of
    the maps, the rasterization of the polygons (the classes and masks on the grid of the units are given), and what is passed to the settings of the basin. *)
From Coq Require Import String.
From Verif Require Export Base.
Open Scope R_scope.

(** The columns fraction-<name> of a unit: a function of the name. *)
Record cunit := mkCU { cu_id : Z; cu_area : R; cu_frac : string -> R }.
Record cover_units := mkCovers { cu_covers : list (string * string); cu_units : list cunit }.

(** HU:553. *)
Definition generic_aliases : list string := ["open"; "ground"; "generic"; "generic_land_cover"]%string.
Definition is_alias (s : string) : bool := existsb (String.eqb s) generic_aliases.
(** HU:555-566 [get_generic_cover_name]. *)
Definition generic_name (covers : list (string * string)) : outcome string :=
  match find (fun c => is_alias (fst c) || is_alias (snd c))%bool covers with
  | Some c => Ok (fst c)
  | None => match covers with c :: _ => Ok (fst c) | [] => Throw end
  end.
Definition set_frac (u : cunit) (name : string) (x : R) : cunit := mkCU (cu_id u) (cu_area u) (fun s => if (s =? name)%string then x else cu_frac u s).
(** HU:535-548 [initialize_land_cover_fractions]. *)
Definition initialize_fractions (hs : cover_units) : outcome cover_units :=
  bind (generic_name (cu_covers hs)) (fun g =>
  Ok (mkCovers (cu_covers hs) (map (fun u => set_frac (fold_left (fun v c => set_frac v (fst c) 0) (cu_covers hs) u) g 1) (cu_units hs)))).
(** HU:568-599 [add_land_cover]. *)
Definition add_land_cover (name type : string) (hs : cover_units) : outcome cover_units :=
  if existsb (fun c => (fst c =? name)%string) (cu_covers hs) then Throw
  else Ok (mkCovers (cu_covers hs ++ [(name, type)]) (map (fun u => set_frac u name 0) (cu_units hs))).

(** HU:632-665: one row of the table of areas.  The first unit with this id. *)
Definition update_unit (generic name : string) (area : R) (u : cunit) : outcome cunit :=
  if Req_EM_T (cu_area u) 0 then Throw
  else
    let fraction := area / cu_area u in
    if negb (Rleb 0 fraction && Rleb fraction 1) then Throw
    else
      let u1 := set_frac u name fraction in
      let u2 := set_frac u1 generic (cu_frac u1 generic - fraction) in
      if Rltb (cu_frac u2 generic) (- (1 / 100000000)) then Throw else Ok u2.
Fixpoint update_first (generic name : string) (id : Z) (area : R) (us : list cunit) : outcome (list cunit) :=
  match us with
  | [] => Throw
  | u :: r => if (cu_id u =? id)%Z then bind (update_unit generic name area u) (fun u' => Ok (u' :: r))
              else bind (update_first generic name id area r) (fun r' => Ok (u :: r'))
  end.
Fixpoint update_rows (generic name : string) (rows : list (Z * R)) (us : list cunit) : outcome (list cunit) :=
  match rows with [] => Ok us | (id, a) :: r => bind (update_first generic name id a us) (update_rows generic name r) end.
(** HU:601-667 [initialize_from_land_cover_change], CA:857-892 [initialize_area_from_land_cover_change]. *)
Definition initialize_change (name : string) (rows : list (Z * R)) (hs : cover_units) : outcome cover_units :=
  if is_alias name then Throw
  else bind (generic_name (cu_covers hs)) (fun g => bind (update_rows g name rows (cu_units hs)) (fun us => Ok (mkCovers (cu_covers hs) us))).

(** ** Classes *)
(** A code of a class: a number, or a text that int() reads as a number; they are different keys of a dictionary. *)
Inductive class_key := Number (z : Z) | Text (z : Z).
Definition class_of (k : class_key) : Z := match k with Number z => z | Text z => z end.
Definition key_eqb (a b : class_key) : bool := match a, b with Number x, Number y => (x =? y)%Z | Text x, Text y => (x =? y)%Z | _, _ => false end.
Definition mapping := list (class_key * string).
(** CL:322-343 [_resolve_mapping]: dict.update. *)
Fixpoint put (k : class_key) (v : string) (m : mapping) : mapping :=
  match m with [] => [(k, v)] | (k', v') :: r => if key_eqb k k' then (k', v) :: r else (k', v') :: put k v r end.
Definition resolve_mapping (preset : option mapping) (own : option mapping) : outcome mapping :=
  let m := match preset with Some p => p | None => [] end in
  let m := match own with Some o => fold_left (fun m p => put (fst p) (snd p) m) o m | None => m end in
  match m with [] => Throw | _ => Ok m end.
(** CL:245-270 [_rasterize_classes]: [touched k] tells the cells covered by the polygons of a class ([None] if there is no polygon); first class wins. *)
Fixpoint burn (c : Z) (mask : list bool) (grid : list (Z * bool)) : list (Z * bool) :=
  match grid, mask with
  | (x, assigned) :: g, b :: m => (if b && negb assigned then (c, true) else (x, assigned))%bool :: burn c m g
  | g, _ => g
  end.
Definition rasterize_classes (n : nat) (touched : class_key -> option (list bool)) (m : mapping) : list Z :=
  map fst (fold_left (fun g p => match touched (fst p) with Some mask => burn (class_of (fst p)) mask g | None => g end) m (repeat (0%Z, false) n)).

(** CL:272-294 [_areas_from_class_grid].  np.unique: sorted, once. *)
Fixpoint insert_z (x : Z) (l : list Z) : list Z := match l with [] => [x] | y :: r => if (x <? y)%Z then x :: l else if (x =? y)%Z then l else y :: insert_z x r end.
Definition unique_z (l : list Z) : list Z := fold_right insert_z [] l.
Definition masked_ids (ids classes : list Z) (c : Z) : list Z := map fst (filter (fun p => (snd p =? c)%Z) (combine ids classes)).
Definition count_z (x : Z) (l : list Z) : R := INR (length (filter (fun y => (y =? x)%Z) l)).
Fixpoint add_area (id : Z) (a : R) (l : list (Z * R)) : list (Z * R) :=
  match l with [] => [(id, 0 + a)] | (i, x) :: r => if (i =? id)%Z then (i, x + a) :: r else (i, x) :: add_area id a r end.
Definition cover_areas := list (string * list (Z * R)).
Fixpoint add_cover_area (name : string) (id : Z) (a : R) (l : cover_areas) : cover_areas :=
  match l with [] => [(name, add_area id a [])] | (n, x) :: r => if (n =? name)%string then (n, add_area id a x) :: r else (n, x) :: add_cover_area name id a r end.
Definition areas_of_class (px : R) (ids classes : list Z) (acc : cover_areas) (p : class_key * string) : cover_areas :=
  let l := masked_ids ids classes (class_of (fst p)) in
  fold_left (fun acc id => add_cover_area (snd p) id (count_z id l * px) acc) (filter (fun i => negb (i =? 0)%Z) (unique_z l)) acc.
Definition areas_from_class_grid (px : R) (ids classes : list Z) (m : mapping) : cover_areas := fold_left (areas_of_class px ids classes) m [].

(** CL:113-122, CL:345-347. *)
Definition cover_type_of (name : string) : string :=
  if (name =? "glacier")%string then "glacier"%string else if (name =? "forest")%string then "forest"%string
  else if (name =? "lake")%string then "lake"%string else if (name =? "open")%string then "open"%string else "generic_land_cover"%string.
(** CL:296-320 [_apply_cover_areas]; the names in order. *)
Fixpoint insert_cover (c : string * list (Z * R)) (l : cover_areas) : cover_areas :=
  match l with [] => [c] | d :: r => if String.leb (fst c) (fst d) then c :: l else d :: insert_cover c r end.
Definition sort_covers (l : cover_areas) : cover_areas := fold_right insert_cover [] l.
Definition apply_cover (c : string * list (Z * R)) (hs : cover_units) : outcome cover_units :=
  bind (match find (fun d => (fst d =? fst c)%string) (cu_covers hs) with
        | Some d => Ok (hs, snd d)
        | None => bind (add_land_cover (fst c) (cover_type_of (fst c)) hs) (fun hs => Ok (hs, cover_type_of (fst c)))
        end) (fun '(hs, type) =>
  if (is_alias (fst c) || is_alias type)%bool then Ok hs else initialize_change (fst c) (snd c) hs).
Fixpoint apply_covers (l : cover_areas) (hs : cover_units) : outcome cover_units :=
  match l with [] => Ok hs | c :: r => bind (apply_cover c hs) (apply_covers r) end.
(** CL:140-189 [extract_from_raster], CL:191-243 [extract_from_shapefile], on the grid of the units. *)
Definition extract_classes (px : R) (ids classes : list Z) (preset own : option mapping) (hs : cover_units) : outcome cover_units :=
  bind (resolve_mapping preset own) (fun m => apply_covers (sort_covers (areas_from_class_grid px ids classes m)) hs).
Definition extract_shapes (px : R) (ids : list Z) (touched : class_key -> option (list bool)) (preset own : option mapping) (hs : cover_units) : outcome cover_units :=
  bind (resolve_mapping preset own) (fun m => apply_covers (sort_covers (areas_from_class_grid px ids (rasterize_classes (length ids) touched m) m)) hs).

(** ** Glacier extent: GC:105-257.  The grouping of GC:186-196 changes nothing, as each unit has one row. *)
Definition glacier_areas (px : R) (ids : list Z) (glacier : list bool) : list (Z * R) :=
  let l := map fst (filter snd (combine ids glacier)) in
  map (fun id => (id, count_z id l * px)) (filter (fun i => negb (i =? 0)%Z) (unique_z l)).
Definition detect_glacier (covers : list (string * string)) : outcome string :=
  match filter (fun c => (snd c =? "glacier")%string) covers with [c] => Ok (fst c) | _ => Throw end.
Definition glacier_from_extent (px : R) (ids : list Z) (glacier : list bool) (name : option string) (hs : cover_units) : outcome cover_units :=
  bind (match name with Some n => Ok n | None => detect_glacier (cu_covers hs) end) (fun n => initialize_change n (glacier_areas px ids glacier) hs).
