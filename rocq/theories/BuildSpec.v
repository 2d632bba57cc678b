(** Vocabulary of the properties on built catchments: structures declared in the order of the flow.  Names and declarations only: nothing here
    depends on how the catchment is assembled. *)
From Verif Require Import Base Build.
Open Scope string_scope.

(** [x] comes before [y] in [l]. *)
Definition before {X} (l : list X) (x y : X) : Prop := exists l1 l2 l3, l = (l1 ++ x :: l2 ++ y :: l3)%list.

Definition storage (b : bset) : Prop := kind_of (bs_type b) = Some KStorage.
Definition solved_storage (b : bset) : Prop := storage b /\ bs_directly b = false.
Definition direct_storage (b : bset) : Prop := storage b /\ bs_directly b = true.
(** Surface component: snowpack or canopy.  Land cover: ground and the like, or glacier. *)
Definition component (b : bset) : Prop := kind_of (bs_type b) = Some KPack \/ kind_of (bs_type b) = Some KCanopy.
Definition land_cover (b : bset) : Prop := kind_of (bs_type b) = Some KCover \/ kind_of (bs_type b) = Some KGlacier.
Definition snowpack (b : bset) : Prop := kind_of (bs_type b) = Some KPack.
(** A brick takes water; a snowpack also snow, a glacier also ice. *)
Definition takes (b : bset) (t : ctype) : Prop :=
  t = Water \/ (t = Snow /\ kind_of (bs_type b) = Some KPack) \/ (t = Ice /\ kind_of (bs_type b) = Some KGlacier).

Section Flow.
Variable M : domain.
Variable u : nat.
Let st := un_str (unit_at M u).
Let bricks := created st.

(** Where the output [o] of brick [b] of the unit may go:
    - a component gives to the cover it lies on, to another component of this cover, to itself (at once), or (snow, at once) to the snowpacks of
      the units connected to this one;
    - a land cover gives to a storage, to the sub-basin or to the outlet; a storage computed directly too;
    - a solved storage gives to a later solved storage or to the outlet, with an ordinary flux.
    Whatever is not given at once goes to a brick that comes later. *)
Inductive flows (b : bset) (o : output) : Prop :=
| to_outlet : o_target o = "outlet" -> ~ component b -> flows b o
| within_surface d : component b -> In d bricks -> o_target o = bs_name d -> takes d (o_type o) -> d <> b ->
    (bs_name d = bs_parent b /\ land_cover d \/ component d /\ bs_parent d = bs_parent b) -> (o_now o = true \/ before bricks b d) -> flows b o
| within_itself : component b -> o_target o = bs_name b -> takes b (o_type o) -> o_now o = true -> flows b o
| sideways : snowpack b -> o_target o = "lateral" -> o_type o = Snow -> o_now o = true -> flows b o
| to_storage d : land_cover b \/ direct_storage b -> In d bricks -> storage d -> o_target o = bs_name d -> o_type o = Water ->
    (direct_storage d -> d <> b /\ (o_now o = true \/ before bricks b d)) -> flows b o
| to_basin d : land_cover b \/ direct_storage b -> In d (dm_basin M) -> o_target o = bs_name d -> o_type o = Water ->
    (forall d', In d' bricks -> bs_name d' <> bs_name d) -> flows b o
| onwards d : solved_storage b -> In d bricks -> solved_storage d -> o_target o = bs_name d -> o_type o = Water ->
    o_now o = false -> o_static o = false -> before bricks b d -> flows b o.

Record unit_in_order : Prop := {
  uo_area : 0 < un_area (unit_at M u);
  uo_names : NoDup (map bs_name bricks);
  uo_reserved : forall b, In b bricks -> bs_name b <> "outlet" /\ bs_name b <> "lateral";
  uo_kinds : forall b, In b bricks -> component b \/ land_cover b \/ storage b;
  uo_parent : forall b, In b bricks -> component b -> exists d, In d bricks /\ land_cover d /\ bs_name d = bs_parent b;
  uo_fraction : forall b, In b bricks -> land_cover b ->
    0 <= un_fraction (unit_at M u) (bs_name b) <= 1 /\ (Rabs (un_fraction (unit_at M u) (bs_name b)) <= PRECISION -> un_fraction (unit_at M u) (bs_name b) = 0);
  uo_capacity : forall b x, In b bricks -> bs_capacity b = Some x -> 0 <= x;
  uo_process : forall b p, In b bricks -> In p (bs_processes b) -> exists c, process_container b (pr_type p) = Some c;
  uo_flows : forall b p o, In b bricks -> In p (bs_processes b) -> to_atmosphere (pr_type p) = false -> In o (pr_outputs p) -> flows b o }.
End Flow.

(** The bricks of the sub-basin: storages that give to later ones or to the outlet. *)
Record basin_in_order (M : domain) : Prop := {
  bo_names : NoDup (map bs_name (dm_basin M));
  bo_reserved : forall b, In b (dm_basin M) -> bs_name b <> "outlet" /\ bs_name b <> "lateral";
  bo_kinds : forall b, In b (dm_basin M) -> storage b;
  bo_capacity : forall b x, In b (dm_basin M) -> bs_capacity b = Some x -> 0 <= x;
  bo_process : forall b p, In b (dm_basin M) -> In p (bs_processes b) -> exists c, process_container b (pr_type p) = Some c;
  bo_flows : forall b p o, In b (dm_basin M) -> In p (bs_processes b) -> to_atmosphere (pr_type p) = false -> In o (pr_outputs p) ->
    o_target o = "outlet" \/
    exists d, In d (dm_basin M) /\ o_target o = bs_name d /\ o_type o = Water /\ o_now o = false /\ before (dm_basin M) b d }.

Record in_flow_order (M : domain) : Prop := {
  io_units : forall u, (u < length (dm_units M))%nat -> unit_in_order M u;
  io_basin : basin_in_order M;
  (** A unit that sheds snow gives it to other existing units whose snowpacks have an area. *)
  io_lateral : forall u v, (u < length (dm_units M))%nat -> In v (un_receivers (unit_at M u)) ->
    (v < length (dm_units M))%nat /\ v <> u /\
    forall d, In d (created (un_str (unit_at M v))) -> snowpack d -> un_fraction (unit_at M v) (bs_parent d) <> 0 }.

(** Share of the catchment covered by a brick of a unit. *)
Definition share (M : domain) (u : nat) (b : bset) : R :=
  un_area (unit_at M u) / total_area M *
  (if is_cover b then un_fraction (unit_at M u) (bs_name b) else if is_component b then un_fraction (unit_at M u) (bs_parent b) else 1).
(** Shares of the directly computed bricks and of the solved ones, in the order of the catchment. *)
Definition direct_share (M : domain) (i : nat) : R := match nth_error (direct_items M) i with Some (u, b) => share M u b | None => 0 end.
Definition solved_share (M : domain) (i : nat) : R := match nth_error (solved_items M) i with Some (Some u, b) => share M u b | Some (None, _) => 1 | None => 0 end.
