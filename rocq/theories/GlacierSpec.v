(** Vocabulary of the theorems about the glacier actions. *)
From Verif Require Export GlacierActions.
Open Scope R_scope.

(** Fraction, ice depth and ice volume of the cover [name] in unit [id] (0 if the unit has no such cover). *)
Definition g_fraction (b : gbasin) (name : string) (id : nat) : R :=
  match find_cover (gu_covers (b id)) name with Some c => cv_fraction (hu_cover (gu_covers (b id)) c) | None => 0 end.
Definition g_ice (b : gbasin) (name : string) (id : nat) : R :=
  match find_cover (gu_covers (b id)) name with Some c => slot_depth (hu_cover (gu_covers (b id)) c) SelfIce | None => 0 end.
Definition g_volume (b : gbasin) (name : string) (id : nat) : R := g_fraction b name id * gu_area (b id) * g_ice b name id.
Definition glacier_volume (T : gtable) (b : gbasin) : R := Rsum (fun i => g_volume b (gt_cover T) (unit_of T i)) (columns T).

(** The unit has an area and a finite glacier, which is not the cover absorbing area changes. *)
Definition gready (b : gbasin) (name : string) (id : nat) : Prop :=
  0 < gu_area (b id) /\ exists c, find_cover (gu_covers (b id)) name = Some c /\
    generic_cover (gu_covers (b id)) <> Some c /\ cv_slot (hu_cover (gu_covers (b id)) c) SelfIce <> None.
Definition glaciers_ready (T : gtable) (b : gbasin) : Prop :=
  NoDup (gt_units T) /\ forall i, In i (columns T) -> gready b (gt_cover T) (unit_of T i).

(** Ice is not negative, and no glacier is a sliver thinner than the tolerance of the code (1e-8 of its unit). *)
Definition ice_sane (T : gtable) (b : gbasin) : Prop :=
  forall i, In i (columns T) -> let id := unit_of T i in
    0 <= g_ice b (gt_cover T) id /\ (g_fraction b (gt_cover T) id = 0 \/ PRECISION < g_fraction b (gt_cover T) id <= 1).

(** A row of the table that suits the basin: each glacier is absent (no volume then), covers its whole unit, or a part of
    it that the tolerance of the code does not round; volumes are not negative. *)
Definition row_suits (T : gtable) (b : gbasin) (r : nat) : Prop :=
  (forall i, In i (columns T) -> let A := gu_area (b (unit_of T i)) in
     0 <= gt_volume T r i /\
     (gt_area T r i = 0 /\ gt_volume T r i = 0 \/
      PRECISION < gt_area T r i /\ (gt_area T r i = A \/ PRECISION < gt_area T r i / A < 1 - PRECISION))).
(** ... for all rows; the glacier exists at the start, every row but the last holds ice, and the last one holds ice or has no
    area. *)
Definition table_suits (T : gtable) (b : gbasin) : Prop :=
  (0 < gt_rows T)%nat /\ 0 < row_volume T 0 /\
  (forall r, (r < gt_rows T)%nat -> row_suits T b r) /\ (forall r, (S r < gt_rows T)%nat -> 0 < row_volume T r) /\
  (forall r, S r = gt_rows T -> 0 < row_volume T r \/ forall i, In i (columns T) -> gt_area T r i = 0).

(** The extents in the basin are those of row [r], up to a relative error [d]. *)
Definition extents_match (d : R) (T : gtable) (r : nat) (b : gbasin) : Prop :=
  forall i, In i (columns T) -> let id := unit_of T i in
    Rabs (g_fraction b (gt_cover T) id * gu_area (b id) - gt_area T r i) <= d * gt_area T r i.

(** The ice of the glaciers changed between two calls (melt, accumulation), their extents did not. *)
Definition only_ice_changed (T : gtable) (b b' : gbasin) : Prop :=
  forall i, In i (columns T) -> let id := unit_of T i in
    gu_area (b' id) = gu_area (b id) /\ g_fraction b' (gt_cover T) id = g_fraction b (gt_cover T) id.

(** States of the action over a run: initial extents of row 0, then any ice changes and yearly applications. *)
Inductive evolution (d : R) (T : gtable) : gbasin * nat -> Prop :=
| evolution_start b : glaciers_ready T b -> ice_sane T b -> table_suits T b -> extents_match d T 0 b -> evolution d T (b, 0%nat)
| evolution_melt b r b' : evolution d T (b, r) -> only_ice_changed T b b' -> glaciers_ready T b' -> ice_sane T b' -> evolution d T (b', r)
| evolution_apply b r b' r' : evolution d T (b, r) -> deltah_apply T (b, r) = Ok (b', r') -> evolution d T (b', r').

(** Area scaling: column [i] suits the unit, and a row of zero area is the last one (reached when the ice is gone). *)
Definition column_suits (T : gtable) (b : gbasin) (i : nat) : Prop :=
  let A := gu_area (b (unit_of T i)) in
  (0 < gt_rows T)%nat /\ 0 < gt_volume T 0 i /\
  (forall r, (S r < gt_rows T)%nat \/ r = 0%nat -> PRECISION < gt_area T r i) /\
  (forall r, (r < gt_rows T)%nat -> gt_area T r i = 0 \/ gt_area T r i = A \/ PRECISION < gt_area T r i / A < 1 - PRECISION).

(** The snow of the cover [name] of a unit was turned to ice: [u'] differs from [u] by the snow and ice of that cover only. *)
Definition snow_of (u : gunit) (name : string) : R :=
  match find_cover (gu_covers u) name with Some c => slot_depth (hu_cover (gu_covers u) c) Snow | None => 0 end.
Definition ice_of (u : gunit) (name : string) : R :=
  match find_cover (gu_covers u) name with Some c => slot_depth (hu_cover (gu_covers u) c) SelfIce | None => 0 end.
Definition rest_unchanged (u u' : gunit) (name : string) : Prop :=
  gu_area u' = gu_area u /\ hu_count (gu_covers u') = hu_count (gu_covers u) /\
  forall c, let v := hu_cover (gu_covers u) c in let v' := hu_cover (gu_covers u') c in
    cv_name v' = cv_name v /\ cv_fraction v' = cv_fraction v /\ cv_initial v' = cv_initial v /\ cv_outputs v' = cv_outputs v /\
    (forall r, find_cover (gu_covers u) name <> Some c \/ r <> Snow /\ r <> SelfIce -> cv_slot v' r = cv_slot v r).
Definition glacier_present (u : gunit) (name : string) : Prop :=
  match find_cover (gu_covers u) name with Some c => PRECISION < cv_fraction (hu_cover (gu_covers u) c) | None => False end.
