(** Vocabulary of the theorems about the discretization (C86). *)
From Coq Require Export String.
From Verif Require Export Base Discretization.
Open Scope R_scope.

Definition in_catchment (c : cell) : Prop := exists x, z_elev c = Some x.
Definition between (x : option R) (lo hi : R) : Prop := exists v, x = Some v /\ lo <= v < hi.
(** The j-th polygon (from 1 on) covers the cell and none before it does. *)
Definition belongs_to_polygon (c : cell) (j : nat) : Prop :=
  exists i, j = S i /\ nth_error (z_cover c) i = Some true /\ forall h, (h < i)%nat -> nth_error (z_cover c) h = Some false.
(** The aspects of the four classes, in degrees from north. *)
Definition faces (a : R) (d : direction) : Prop :=
  match d with North => 315 <= a <= 360 \/ 0 <= a < 45 | East => 45 <= a < 135 | South => 135 <= a < 225 | West => 225 <= a < 315 end.
Definition belongs (c : cell) (k : class) : Prop :=
  match k with
  | ElevationBand lo hi => between (z_elev c) lo hi
  | SlopeBand lo hi => between (z_slope c) lo hi
  | AspectClass d => exists a, z_aspect c = Some a /\ faces a d
  | RadiationBand lo hi => between (z_rad c) lo hi
  | SubCatchment j => belongs_to_polygon c j
  end.
(** The cells of a unit: the cells of the catchment that are in each of its classes. *)
Definition part_of (c : cell) (u : list class) : Prop := in_catchment c /\ forall k, In k u -> belongs c k.
(** The cells have as many polygons as were given. *)
Definition covered_by (n : option nat) (g : list cell) : Prop := match n with Some n => forall c, In c g -> length (z_cover c) = n | None => True end.

(** Bands of equal height from the lowest to the highest value: no limits given. *)
Definition regular (m : method) : Prop := exists d, m = EqualIntervals d None None /\ 0 < d.
(** What the criteria need to be known of the cells. *)
Definition known_where (a : arguments) (g : list cell) : Prop :=
  (forall c, In c g -> in_catchment c -> In "slope"%string (a_criteria a) -> exists x, z_slope c = Some x) /\
  (forall c, In c g -> in_catchment c -> In "aspect"%string (a_criteria a) -> exists x, z_aspect c = Some x /\ 0 <= x <= 360) /\
  (forall c, In c g -> in_catchment c -> In "radiation"%string (a_criteria a) -> exists x, z_rad c = Some x) /\
  (In "sub_catchments"%string (a_criteria a) -> exists n, a_polygons a = Some n /\ forall c, In c g -> in_catchment c -> exists j, (j < n)%nat /\ nth_error (z_cover c) j = Some true).
Definition regular_bands (a : arguments) : Prop :=
  (In "elevation"%string (a_criteria a) -> regular (a_elevation a)) /\ (In "slope"%string (a_criteria a) -> regular (a_slope a)) /\
  (In "radiation"%string (a_criteria a) -> regular (a_radiation a)).
Definition cells_inside (g : list cell) : nat := length (filter inside g).
(** What makes a call acceptable: the methods are known, the distances are not zero, the values that fix the limits exist, the polygons are given and
    cover the catchment. *)
Definition possible (m : method) (data : list (option R)) : Prop :=
  match m with EqualIntervals d low high => d <> 0 /\ (low = None \/ high = None -> exists x, In (Some x) data) | Quantiles _ => True | Unknown => False end.
Definition acceptable (a : arguments) (g : list cell) : Prop :=
  (In "elevation"%string (a_criteria a) -> possible (a_elevation a) (map z_elev g)) /\
  (In "slope"%string (a_criteria a) -> possible (a_slope a) (map z_slope g)) /\
  (In "radiation"%string (a_criteria a) -> possible (a_radiation a) (map z_rad g)) /\
  (In "sub_catchments"%string (a_criteria a) -> exists n, a_polygons a = Some n /\ (0 < n)%nat /\
     forall c, In c g -> in_catchment c -> exists j, (j < n)%nat /\ nth_error (z_cover c) j = Some true).
