(** Vocabulary of the theorems about the glacier tables. *)
From Verif Require Export GlacierTables GlacierSpec LandCoverSpec.
Open Scope R_scope.

(** A glacier as the thicknesses (m) of its pixels; after a lowering of its surface by [d] metres: the ice left (m3 of ice) and its extent (m2). *)
Definition ice_left (px : R) (thickness : list R) (d : R) : R := px * Rsum (fun h => Rmax 0 (h - d)) thickness.
Definition extent_left (px : R) (thickness : list R) (d : R) : R := px * INR (length (filter (fun h => Rltb d h) thickness)).

(** A raster: pixels and catchment have an area; each glacier has at least one pixel and all its pixels hold ice. *)
Definition raster (g : grid) : Prop := 0 < g_px g /\ 0 < g_catchment g.
Definition glaciers (units : list (nat * list R)) : Prop :=
  forall u, In u units -> snd u <> [] /\ forall h, In h (snd u) -> 0 < h.
Definition thickness_of (units : list (nat * list R)) (i : nat) : list R := snd (nth i units (0%nat, [])).

(** The hydro units of the basin are made of pixels of the raster (fewer than 10^8 each), at least those of the glacier; a pixel is larger
    than 1e-8 m2. *)
Definition units_of_pixels (g : grid) (units : list (nat * list R)) (b : gbasin) : Prop :=
  PRECISION < g_px g /\
  forall u, In u units -> exists N, (length (snd u) <= N)%nat /\ INR N < 100000000 /\ gu_area (b (fst u)) = INR N * g_px g.

(** A run with the area scaling action and the table [T] made from [units]: the glaciers exist at the start, then any melt or accumulation
    of ice between yearly applications. *)
Inductive scaling_run (g : grid) (units : list (nat * list R)) (T : gtable) : gbasin -> Prop :=
| scaling_start b : units_of_pixels g units b -> glaciers_ready T b -> ice_sane T b -> scaling_run g units T b
| scaling_melt b b' : scaling_run g units T b -> only_ice_changed T b b' -> glaciers_ready T b' -> ice_sane T b' -> scaling_run g units T b'
| scaling_year b b' : scaling_run g units T b -> scaling_apply T (columns T) b = Ok b' -> scaling_run g units T b'.

(** The covers of each glacierised unit are a partition of it, with a generic cover that leaves room for the initial extent of the glacier. *)
Definition room_for (T : gtable) (b : gbasin) : Prop :=
  forall i, In i (columns T) -> let id := unit_of T i in let u := gu_covers (b id) in
    fractions_ok u /\ total_fraction u <= 1 /\ exists c gc, find_cover u (gt_cover T) = Some c /\ generic_cover u = Some gc /\
      gt_area T 0 i <= (cv_fraction (hu_cover u c) + cv_fraction (hu_cover u gc)) * gu_area (b id).
