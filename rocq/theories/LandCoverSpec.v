(** Vocabulary of the theorems about land covers. *)
From Verif Require Export LandCover.

(** The fractions of a unit are those of a partition of its area, up to the rounding unit 2^-52. *)
Definition fractions_ok (u : hunit) : Prop :=
  (forall i, (i < hu_count u)%nat -> 0 <= cv_fraction (hu_cover u i) <= 1) /\
  Rabs (total_fraction u - 1) <= EPSILON_D.

(** Distinct cover names. *)
Definition names_distinct (u : hunit) : Prop :=
  forall i j, (i < hu_count u)%nat -> (j < hu_count u)%nat ->
    cv_name (hu_cover u i) = cv_name (hu_cover u j) -> i = j.

(** Depth of liquid water (soil surface, snowpack water, canopy) and of snow on a cover. *)
Definition water_depth (c : cover) : R := slot_depth c SelfWater + slot_depth c SnowpackWater + slot_depth c CanopyWater.
Definition snow_depth (c : cover) : R := slot_depth c Snow.

(** Volume over the unit (per unit of area): depth times the fraction it lies on. *)
Definition volume (depth : cover -> R) (u : hunit) : R :=
  Rsum (fun i => cv_fraction (hu_cover u i) * depth (hu_cover u i)) (seq 0 (hu_count u)).

Definition stores_nonneg (u : hunit) : Prop :=
  forall i r x, (i < hu_count u)%nat -> cv_slot (hu_cover u i) r = Some x -> 0 <= x.

(** Depth on a cover of the unit, given its name (0 if there is none). *)
Definition depth_of (depth : cover -> R) (u : hunit) (name : string) : R :=
  match find_cover u name with Some i => depth (hu_cover u i) | None => 0 end.
Definition generic_depth (depth : cover -> R) (u : hunit) : R :=
  match generic_cover u with Some i => depth (hu_cover u i) | None => 0 end.

(** Every cover can take the liquid water of another one: its own water storage is an ordinary (finite) one. *)
Definition can_take_water (u : hunit) : Prop :=
  forall i, (i < hu_count u)%nat -> cv_slot (hu_cover u i) SelfWater <> None.
(** Either every cover of the unit has a snowpack or none has. *)
Definition same_snowpacks (u : hunit) : Prop :=
  forall i j, (i < hu_count u)%nat -> (j < hu_count u)%nat ->
    cv_slot (hu_cover u i) Snow = None -> cv_slot (hu_cover u j) Snow = None.

(** Share of the area that a weighted output carries. *)
Definition carries (w : wflux) (share x : R) : Prop := delivered w x = x * (wf_unit w * share).

(** Every weighted output of every cover carries the fraction of its cover, and unit shares are shares. *)
Definition weights_follow (u : hunit) : Prop :=
  forall i w, (i < hu_count u)%nat -> In w (cv_outputs (hu_cover u i)) -> wf_weighted w = true ->
    0 <= wf_unit w <= 1 /\ forall x, carries w (cv_fraction (hu_cover u i)) x.
