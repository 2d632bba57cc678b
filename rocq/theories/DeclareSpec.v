(** A declared model whose water runs downwards: land covers, options and dictionary entries.  Nothing here depends on how the model is built. *)
From Verif Require Import Base Container Direct Network Topology Catchment CatchmentSpec Build BuildSpec StructureSpec.
Open Scope string_scope.

Section Model.
Variable covers : list (string * string).
Variable o : options.
Variable parts : list part.

Definition reserved : list string := ["outlet"; "lateral"; "rain_splitter"; "snow_splitter"].
(** Land covers and directly computed storages. *)
Definition upstream (p : part) : Prop := pt_kind p = CoverPart \/ (pt_kind p = UnitPart /\ pt_directly p = true).
(** Where the target [t] of the process [q] of the entry [p] may be: the outlet; from a land cover or a directly computed storage, a solved storage, a
    later directly computed one, or a storage of the sub-basin; from a solved storage, a later solved one; from one of the sub-basin, a later one. *)
Inductive goes (p : part) (q : part_process) (t : string) : Prop :=
| goes_out : t = "outlet" -> goes p q t
| goes_down d : upstream p -> In d parts -> pt_key d = t -> pt_kind d = UnitPart ->
    (pt_directly d = false \/ pt_kind p = CoverPart \/ before parts p d) -> goes p q t
| goes_basin d : upstream p -> In d parts -> pt_key d = t -> pt_kind d = BasinPart -> goes p q t
| goes_on d : pt_kind p = UnitPart -> pt_directly p = false -> In d parts -> pt_key d = t -> pt_kind d = UnitPart -> pt_directly d = false -> before parts p d ->
    pp_now q = false -> static_kind q = false -> goes p q t
| goes_later d : pt_kind p = BasinPart -> In d parts -> pt_key d = t -> pt_kind d = BasinPart -> before parts p d -> pp_now q = false -> goes p q t.

Record good_model : Prop := {
  gm_names : good_names covers;
  gm_options : good_options o;
  gm_splitter : op_snow o = true -> splitter_type o <> "multi_fluxes" /\ splitter_type o <> "rain";
  gm_cover_types : forall c, In c covers -> In (brick_type_of (snd c)) ["generic_land_cover"; "ground"; "generic"; "open"; "glacier"];
  gm_keys : NoDup (map pt_key parts);
  gm_cover : forall p, In p parts -> pt_kind p = CoverPart -> In (pt_key p) (map fst covers);
  gm_new : forall p, In p parts -> pt_kind p <> CoverPart -> ~ In (pt_key p) reserved /\
    forall c, In c covers -> pt_key p <> fst c /\ pt_key p <> pack_of (fst c) /\ pt_key p <> canopy_of (fst c);
  gm_storage : forall p, In p parts -> pt_kind p <> CoverPart -> pt_type p = "storage";
  gm_capacity : forall p x, In p parts -> pt_capacity p = Some x -> 0 <= x;
  gm_process : forall p q, In p parts -> In q (pt_processes p) -> in_list (resolve_alias (pp_type q)) (water_types ++ et_types)%list = true \/
    (pt_kind p = CoverPart /\ (forall c, In c covers -> fst c = pt_key p -> snd c = "glacier") /\ in_list (resolve_alias (pp_type q)) melt_types = true);
  gm_plain : forall p q t, In p parts -> In q (pt_processes p) -> In t (pp_targets q) -> plain_name t;
  gm_goes : forall p q t, In p parts -> In q (pt_processes p) -> In t (pp_targets q) -> to_atmosphere (pp_type q) = false -> goes p q t }.

End Model.

(** A structure variant: its land covers, its options (model.py:1049-1055: a variant may override some) and its entries.  A model: its primary variant and the
    variant of each hydro unit. *)
Record variant := mkVariant { v_covers : list (string * string); v_options : options; v_parts : list part }.
Definition declared (v : variant) : outcome structure := declare_model (v_covers v) (v_options v) (v_parts v).
Definition good_variant (v : variant) : Prop := good_model (v_covers v) (v_options v) (v_parts v).
Definition of_basin (p : part) : bool := match pt_kind p with BasinPart => true | _ => false end.

Section Catchment.
Variable primary : variant.
Variable V : nat -> variant.
Variable M : domain.
(** The variants are good models that share the storages of the sub-basin.  The hydro units have an area and the structure declared for them; the land
    covers of a unit share its area; snow is shed to other units whose land covers all have an area. *)
Record good_units : Prop := {
  gu_primary : good_variant primary;
  gu_basin : exists st, declared primary = Ok st /\ dm_basin M = st_basin st;
  gu_variant : forall u, (u < length (dm_units M))%nat -> good_variant (V u);
  gu_shared : forall u, (u < length (dm_units M))%nat -> filter of_basin (v_parts (V u)) = filter of_basin (v_parts primary);
  gu_str : forall u, (u < length (dm_units M))%nat -> declared (V u) = Ok (un_str (unit_at M u));
  gu_area : forall u, (u < length (dm_units M))%nat -> 0 < un_area (unit_at M u);
  gu_fraction : forall u c, (u < length (dm_units M))%nat -> In c (v_covers (V u)) -> let f := un_fraction (unit_at M u) (fst c) in
    0 <= f <= 1 /\ (Rabs f <= PRECISION -> f = 0);
  gu_whole : forall u, (u < length (dm_units M))%nat -> Rsum (fun c => un_fraction (unit_at M u) (fst c)) (v_covers (V u)) = 1;
  gu_receivers : forall u v, (u < length (dm_units M))%nat -> In v (un_receivers (unit_at M u)) ->
    (v < length (dm_units M))%nat /\ v <> u /\ forall c, In c (v_covers (V v)) -> un_fraction (unit_at M v) (fst c) <> 0 }.

(** The weather of a step: the rain and the snow of each unit, the ices covered by snow, the laws of the processes. *)
Record weather := mkWeather { wt_rain : nat -> R; wt_snow : nat -> R; wt_blocked : nat -> nat -> bool; wt_laws : nat -> dlaw }.
Definition input_of (x : weather) : cinput := precipitation M (wt_rain x) (wt_snow x) (wt_blocked x) (wt_laws x).
Definition wet (x : weather) : Prop := forall u, (u < length (dm_units M))%nat -> 0 <= wt_rain x u /\ 0 <= wt_snow x u.
(** Precipitation over the catchment (depth over its area); the snow counts if the variant has snow. *)
Definition precipitated (x : weather) : R :=
  Rsum (fun u => un_area (unit_at M u) / total_area M * (wt_rain x u + (if op_snow (v_options (V u)) then wt_snow x u else 0))) (unit_ids M).
(** Only the ice of glaciers is an infinite reservoir. *)
Definition ice_in_glaciers (G : cstate) : Prop :=
  forall i u b c, nth_error (direct_items M) i = Some (u, b) -> is_ice G i c = true -> c = 1%nat /\ kind_of (bs_type b) = Some KGlacier.
End Catchment.
