(** Vocabulary of the theorems about the observed snow cover (C90).  Definitions only. *)
From Coq Require Export String Sorted.
From Verif Require Export SnowStack SnowCoverSpec.
Open Scope R_scope.

(** A pixel counts: it has a number that is not the code for missing and lies in the limits. *)
Definition usable_value (o : agg_options) (x : R) : Prop :=
  (forall n, ag_nodata o = Some n -> x <> n) /\ (forall m, ag_min o = Some m -> m <= x) /\ (forall m, ag_max o = Some m -> x <= m).
Definition counts_pixel (o : agg_options) (p : Z * value) : Prop := exists x, snd p = Some x /\ usable_value o x.
(** The value of the unit [uid] in an image: the scaled mean of its pixels that count, if there is one and they are at least the required share. *)
Definition unit_value (o : agg_options) (g : grid) (img : image) (uid : Z) (x : R) : Prop :=
  exists all good, chosen (fun p => fst p = uid) (combine (gd_units g) img) all /\ chosen (counts_pixel o) all good /\ good <> [] /\
    ag_ratio o * INR (length all) <= INR (length good) /\ x * INR (length good) = ag_scale o * Rsum (fun p => nan0 (snd p)) good.
(** The units: those that the caller names, or the positive values of the raster (not the one for no data), from the smallest to the largest. *)
Definition units_of (named : option (list Z)) (g : grid) (ids : list Z) : Prop :=
  match named with
  | Some l => ids = l
  | None => StronglySorted Z.lt ids /\ forall u, In u ids <-> In u (gd_units g) /\ (0 < u)%Z /\ gd_nodata g <> Some u
  end.
(** Each pair of an image and a unit with a value and a date in the limits gives one target, in this order; no other does. *)
Definition in_limits (start stop : option Z) (t : Z) : Prop := not_before start t /\ not_after stop t.
Definition observations (o : agg_options) (g : grid) (ids : list Z) (start stop : option Z) (stack : list (Z * image)) (ts : list snow_target) : Prop :=
  exists sel, chosen (fun p => in_limits start stop (fst (fst p)) /\ exists x, unit_value o g (snd (fst p)) (snd p) x) (list_prod stack ids) sel /\
    Forall2 (fun p t => st_t t = fst (fst p) /\ st_unit t = snd p /\ unit_value o g (snd (fst p)) (snd p) (st_value t)) sel ts.
(** The image of a date from its tiles: each pixel has the value of the first tile that has one. *)
Definition first_value (l : list image) (k : nat) (v : value) : Prop :=
  (exists before im after x, l = before ++ im :: after /\ nth_error im k = Some (Some x) /\ (forall b, In b before -> nth_error b k = Some None) /\ v = Some x) \/
  ((forall b, In b l -> nth_error b k = Some None) /\ v = None).
Definition mosaic_of (n : nat) (l : list image) (img : image) : Prop := length img = n /\ forall k v, nth_error img k = Some v -> first_value l k v.
(** The images of the dates of the tiles, from the first date to the last; a tile counts if its date is in the limits. *)
Definition images_of (n : nat) (date : string -> outcome Z) (start stop : option Z) (tiles : list tile) (stack : list (Z * image)) : Prop :=
  StronglySorted Z.lt (map fst stack) /\
  (forall d, In d (map fst stack) <-> in_limits start stop d /\ exists t, In t tiles /\ date (tl_name t) = Ok d) /\
  forall d img, In (d, img) stack -> exists sel, chosen (fun t => date (tl_name t) = Ok d) tiles sel /\ mosaic_of n (map tl_image sel) img.
(** Two loads read the same: what they say about the files is the same, so are the files; and they ask for the same units. *)
Definition same_request (c c' : snow_call) : Prop := sc_source c = sc_source c' /\ sc_units c = sc_units c'.
