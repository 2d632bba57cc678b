(** The observed snow cover from a stack of images, and the cache of the aggregated values.  No proofs here.
    SC = python/src/hydrobricks/evaluation/snow_cover.py.
    An image is the list of its pixels, already on the grid of the raster of the hydro units (the reprojection by rasterio is not modelled); a missing number
    (NaN, infinity) is [None].  Times are counted in nanoseconds since 1970.  [Throw] stands for every Python exception.  Not modelled: how the files are read,
    the metadata, warnings. *)
From Coq Require Import String.
From Verif Require Export SnowCover.
Open Scope R_scope.

Definition image := list value.
(** The options of the aggregation: SC:385-387, 1091-1102; the ids that the caller gives, the raster of the ids and its value for no data. *)
Record agg_options := mkAgg { ag_nodata : option R; ag_min : option R; ag_max : option R; ag_ratio : R; ag_scale : R }.
Record grid := mkGrid { gd_units : list Z; gd_nodata : option Z }.

(** np.unique: sorted, without repetition. *)
Fixpoint insert_unique (z : Z) (l : list Z) : list Z :=
  match l with [] => [z] | a :: r => if (z <? a)%Z then z :: l else if (z =? a)%Z then l else a :: insert_unique z r end.
Definition unique_sorted (l : list Z) : list Z := fold_right insert_unique [] l.
(** SC:1110-1117, 1330-1337. *)
Definition unit_ids (hydro_units : option (list Z)) (g : grid) : list Z :=
  match hydro_units with
  | Some ids => ids
  | None => filter (fun u => (0 <? u)%Z && match gd_nodata g with None => true | Some n => negb (u =? n)%Z end)%bool (unique_sorted (gd_units g))
  end.

(** SC:1127-1134, 1358-1364. *)
Definition valid_pixel (o : agg_options) (v : value) : bool :=
  match v with
  | None => false
  | Some x => (match ag_nodata o with Some n => if Req_EM_T x n then false else true | None => true end
               && match ag_min o with Some m => Rleb m x | None => true end
               && match ag_max o with Some m => Rleb x m | None => true end)%bool
  end.
(** SC:1123-1143: the value of a unit in an image. *)
Definition unit_mean (o : agg_options) (g : grid) (img : image) (uid : Z) : value :=
  let sub := map snd (filter (fun p => (fst p =? uid)%Z) (combine (gd_units g) img)) in
  let good := filter (valid_pixel o) sub in
  match sub with
  | [] => None
  | _ => if ((0 <? length good)%nat && Rleb (ag_ratio o) (INR (length good) / INR (length sub)))%bool
         then option_map (fun m => m * ag_scale o) (nanmean good) else None
  end.
(** SC:1091-1145 [_aggregate_stack]: a row for each image. *)
Definition aggregate_stack (o : agg_options) (g : grid) (ids : list Z) (stack : list (Z * image)) : list (Z * list value) :=
  map (fun p => (fst p, map (unit_mean o g (snd p)) ids)) stack.

(** SC:1340-1341: the label of a pixel is the position of its unit; a repeated id takes the last one. *)
Fixpoint label_of_pixel (ids : list Z) (j : nat) (u : Z) : option nat :=
  match ids with [] => None | i :: r => match label_of_pixel r (S j) u with Some k => Some k | None => if (u =? i)%Z then Some j else None end end.
(** SC:1354-1376: np.bincount of the labels of the valid pixels, with and without the values as weights. *)
Definition bincount {X} (label : X -> option nat) (weight : X -> R) (l : list X) (j : nat) : R :=
  fold_left (fun acc x => match label x with Some k => if (k =? j)%nat then acc + weight x else acc | None => acc end) l 0.
Definition modis_row (o : agg_options) (g : grid) (ids : list Z) (img : image) : list value :=
  let label (p : Z * value) := label_of_pixel ids 0 (fst p) in
  let pixels := combine (gd_units g) img in
  let valid := filter (fun p => valid_pixel o (snd p)) pixels in
  map (fun j =>
    let n_pix := bincount label (fun _ => 1) pixels j in
    let cnt := bincount label (fun _ => 1) valid j in
    let sum := bincount label (fun p => nan0 (snd p)) valid j in
    if (Rltb 0 cnt && Rleb (ag_ratio o) (if Rltb 0 n_pix then cnt / n_pix else 0))%bool then Some (sum / cnt * ag_scale o) else None)
    (seq 0 (length ids)).

(** ** MODIS: SC:1272-1381 [_aggregate_modis].  A tile has the name of its file. *)
Record tile := mkTile { tl_name : string; tl_image : image }.
(** SC:1313-1319: the date from the name of the file; files out of the period are skipped. *)
Definition out_of_period (start stop : option Z) (t : Z) : bool :=
  (match start with Some s => (t <? s)%Z | None => false end || match stop with Some e => (e <? t)%Z | None => false end)%bool.
Fixpoint dated (date : string -> outcome Z) (start stop : option Z) (l : list tile) : outcome (list (Z * image)) :=
  match l with
  | [] => Ok []
  | t :: r => bind (date (tl_name t)) (fun d => bind (dated date start stop r) (fun q => Ok (if out_of_period start stop d then q else (d, tl_image t) :: q)))
  end.
(** SC:1350-1351: merge_arrays takes the first tile that has a value. *)
Definition over (a b : image) : image := map (fun p => match fst p with Some x => Some x | None => snd p end) (combine a b).
Definition mosaic (l : list image) : image := match l with [] => [] | a :: r => fold_left over r a end.
Definition modis_stack (l : list (Z * image)) : list (Z * image) :=
  map (fun d => (d, mosaic (map snd (filter (fun p => (fst p =? d)%Z) l)))) (unique_sorted (map fst l)).

(** ** Targets: SC:756-764, 907-929 [_build, restrict_to_period]. *)
Definition targets_of_row (ids : list Z) (row : Z * list value) : list snow_target :=
  flat_map (fun p => match snd p with Some v => [mkSnow (fst row) (fst p) v] | None => [] end) (combine ids (snd row)).
Definition restrict_snow (start stop : option Z) (l : list snow_target) : list snow_target := filter (fun t => negb (out_of_period start stop (st_t t))) l.
Definition build_targets (ids : list Z) (start stop : option Z) (matrix : list (Z * list value)) : list snow_target :=
  restrict_snow start stop (flat_map (targets_of_row ids) matrix).

(** ** The loaders and the cache: SC:440-543 [_from_stack], 660-720 [from_modis], 774-816. *)
(** The source: a stack of images (NetCDF, HDF5), or tiles and how the date is read from their names.  [sr_signature]: names, sizes and times of the files. *)
Inductive snow_source := Stack (l : list (Z * image)) | Tiles (date : string -> outcome Z) (l : list tile).
Record snow_call := mkSnowCall {
  sc_source : snow_source; sc_signature : list (string * Z * Z); sc_reading : string; sc_grid : grid; sc_units : option (list Z); sc_options : agg_options;
  sc_start : option Z; sc_stop : option Z }.
Definition fresh_load (c : snow_call) : outcome (list snow_target) :=
  let ids := unit_ids (sc_units c) (sc_grid c) in
  match sc_source c with
  | Stack l => Ok (build_targets ids (sc_start c) (sc_stop c) (aggregate_stack (sc_options c) (sc_grid c) ids l))
  | Tiles date l =>
      match l with
      | [] => Throw
      | _ => bind (dated date (sc_start c) (sc_stop c) l) (fun q =>
             Ok (build_targets ids (sc_start c) (sc_stop c) (map (fun p => (fst p, modis_row (sc_options c) (sc_grid c) ids (snd p))) (modis_stack q))))
      end
  end.
(** SC:490-506, 672-686, 1233-1250 [_cache_key]: the raster, the options (with what is said about the reading: loader, variable, ...) and the signature of the
    files; neither the ids of the caller nor the reading of the dates. *)
Definition cache_key : Type := grid * string * agg_options * (option Z * option Z) * list (string * Z * Z).
Definition key_of (c : snow_call) : cache_key := (sc_grid c, sc_reading c, sc_options c, (sc_start c, sc_stop c), sc_signature c).
(** A file of the cache by the hash of the key; its text keeps the values (SC:942-955, 801-807). *)
Definition cache := Z -> option (list snow_target).
Definition store (h : Z) (l : list snow_target) (ch : cache) : cache := fun k => if (k =? h)%Z then Some l else ch k.
Definition load (hash : cache_key -> Z) (c : snow_call) (ch : cache) : outcome (list snow_target) * cache :=
  match ch (hash (key_of c)) with
  | Some l => (Ok l, ch)
  | None => match fresh_load c with
            | Ok [] => (Ok [], ch)
            | Ok l => (Ok l, store (hash (key_of c)) l ch)
            | o => (o, ch)
            end
  end.
(** Loads one after the other, with the same folder. *)
Fixpoint loads (hash : cache_key -> Z) (cs : list snow_call) (ch : cache) : list (outcome (list snow_target)) :=
  match cs with [] => [] | c :: r => fst (load hash c ch) :: loads hash r (snd (load hash c ch)) end.
