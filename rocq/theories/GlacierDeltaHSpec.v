(** Vocabulary of the theorems about the delta-h tables. *)
From Verif Require Export GlacierTables GlacierSpec LandCoverSpec GlacierTablesSpec.
Open Scope R_scope.

(** The parts of a glacier: at least one, each with pixels that all hold ice, in increasing order of elevation. *)
Definition part (parts : list dh_part) (j : nat) : dh_part := nth j parts (mkDP 0 0 []).
Definition pieces (parts : list dh_part) : Prop :=
  parts <> [] /\ (forall q, In q parts -> dp_thick q <> [] /\ forall h, In h (dp_thick q) -> 0 < h) /\
  forall i j, (i <= j < length parts)%nat -> dp_elev (part parts i) <= dp_elev (part parts j).
(** The distinct elevations, in increasing order. *)
Definition levels (parts : list dh_part) (E : list R) : Prop :=
  (forall i j, (i < j < length E)%nat -> nth i E 0 < nth j E 0) /\ forall e, In e E <-> exists q, In q parts /\ dp_elev q = e.
Definition of_unit (parts : list dh_part) (id : nat) : list nat := filter (fun j => (dp_unit (part parts j) =? id)%nat) (seq 0 (length parts)).
Definition at_level (parts : list dh_part) (e : R) : list nat := filter (fun j => Reqb (dp_elev (part parts j)) e) (seq 0 (length parts)).
(** Ice (m3 of ice) and extent (m2) of some parts once the surface of part [j] is lower by [low j] metres. *)
Definition ice_of_parts (g : grid) (parts : list dh_part) (low : nat -> R) (l : list nat) : R :=
  Rsum (fun j => ice_left (g_px g) (dp_thick (part parts j)) (low j)) l.
Definition extent_of_parts (g : grid) (parts : list dh_part) (low : nat -> R) (l : list nat) : R :=
  Rsum (fun j => extent_left (g_px g) (dp_thick (part parts j)) (low j)) l.
(** The hydro units are made of pixels of the raster (fewer than 10^8 each), at least those of the glacier; a pixel is larger than 1e-8 m2. *)
Definition basin_of_pixels (g : grid) (parts : list dh_part) (b : gbasin) : Prop :=
  PRECISION < g_px g /\
  forall q, In q parts -> exists N, Rsum (fun j => INR (length (dp_thick (part parts j)))) (of_unit parts (dp_unit q)) <= INR N /\ INR N < 100000000 /\
    gu_area (b (dp_unit q)) = INR N * g_px g.

(** What a delta-h table says, with the lowering [low r j] of part [j] in row [r]: the units of the parts, n + 1 rows, the last one without ice;
    in the others, the glacier with the surface of each part lowered more and more. *)
Definition delta_h_table (g : grid) (n : nat) (name : string) (parts : list dh_part) (low : nat -> nat -> R) (T : gtable) : Prop :=
  gt_rows T = S n /\ gt_cover T = name /\ NoDup (gt_units T) /\ (forall id, In id (gt_units T) <-> exists q, In q parts /\ dp_unit q = id) /\
  (forall i, gt_area T n i = 0 /\ gt_volume T n i = 0) /\
  (forall j, low 0%nat j = 0) /\ (forall r j, (S r < n)%nat -> (j < length parts)%nat -> low r j <= low (S r) j) /\
  (forall r i, (r < n)%nat -> In i (columns T) ->
     gt_area T r i = extent_of_parts g parts (low r) (of_unit parts (unit_of T i)) /\
     gt_volume T r i = ice_of_parts g parts (low r) (of_unit parts (unit_of T i))).
(** How much the surface is lowered: from one row to the next the n-th part of the initial ice, and what could not be melted before, is taken
    from the levels in proportion to their extent and to [shape] (where it is not negative), as far as they have ice.  [unmet r]: what was asked for minus what was melted. *)
Definition delta_h_law (g : grid) (n : nat) (shape : nat -> R) (parts : list dh_part) (E : list R) (low : nat -> nat -> R) (unmet : nat -> R) : Prop :=
  let extent r b := extent_of_parts g parts (low r) (at_level parts (nth b E 0)) in
  let ice r b := ice_of_parts g parts (low r) (at_level parts (nth b E 0)) in
  let total r := ice_of_parts g parts (low r) (seq 0 (length parts)) in
  unmet 0%nat = 0 /\ forall r, (S r < n)%nat -> 0 <= unmet (S r) /\ exists melt,
    melt * Rsum (fun b => extent r b * shape b) (seq 0 (length E)) = total 0%nat / INR n + unmet r /\
    (forall b, (b < length E)%nat -> ice (S r) b = Rmax 0 (ice r b - Rmax 0 (melt * shape b) * extent r b)) /\
    unmet (S r) = Rsum (fun b => Rmax 0 (melt * shape b) * extent r b) (seq 0 (length E)) - (total r - total (S r)).

(** Area of the glacier in km2; relative height of level [b] (0 for the highest, 1 for the lowest). *)
Definition area_km2 (g : grid) (parts : list dh_part) : R :=
  Rsum (fun j => INR (length (dp_thick (part parts j)))) (seq 0 (length parts)) * g_px g / 1000000.
Definition drop (E : list R) (b : nat) : R := (last E 0 - nth b E 0) / (last E 0 - nth 0 E 0).
(** The curves of change of thickness for glaciers of 5 to 20 km2, of less than 5 km2 and of more than 20 km2. *)
Definition curve_medium (x : R) : R := (x - 5/100) ^ 4 + 19/100 * (x - 5/100) + 1/100.
Definition curve_small (x : R) : R := (x - 30/100) ^ 2 + 60/100 * (x - 30/100) + 9/100.
Definition curve_large (x : R) : R := (x - 2/100) ^ 6 + 12/100 * (x - 2/100).

(** A run with the delta-h action and a table made from [parts]: the extents are those of the first row at the start (up to a relative
    error [d]), then any melt or accumulation of ice between yearly applications. *)
Inductive delta_h_run (d : R) (g : grid) (parts : list dh_part) (T : gtable) : gbasin * nat -> Prop :=
| delta_h_starts b : basin_of_pixels g parts b -> glaciers_ready T b -> ice_sane T b -> extents_match d T 0 b -> delta_h_run d g parts T (b, 0%nat)
| delta_h_melts b r b' : delta_h_run d g parts T (b, r) -> only_ice_changed T b b' -> glaciers_ready T b' -> ice_sane T b' -> delta_h_run d g parts T (b', r)
| delta_h_year b r b' r' : delta_h_run d g parts T (b, r) -> deltah_apply T (b, r) = Ok (b', r') -> delta_h_run d g parts T (b', r').
