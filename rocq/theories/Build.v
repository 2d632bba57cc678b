(** From the declared structure to the catchment that is run: the bricks created in each hydro unit, their connections and their weights.
    core/src/base/ModelBuilder.cpp:98-187, :189-222, :448-578, core/src/base/Processor.cpp:29-52, :58-112.  No proofs here.

    Simplifications: two bricks of a unit do not have the same name (the code overwrites the entry of its map); outputs towards splitters and
    the splitters of the sub-basin are left out (a structure with them is refused here); the weights of the fluxes of land covers and of the
    lateral fluxes are those after SubBasin::AssignFractions and after the first call of the process; an overflow process has an output. *)
From Verif Require Import Base Container Direct Network Topology Catchment.
From Verif Require Export Structure.
Open Scope list_scope.

(** Hydro unit: area, structure variant, area fraction of its land covers, units that receive its lateral fluxes. *)
Record hunit := mkUnit { un_area : R; un_str : structure; un_fraction : string -> R; un_receivers : list nat }.
(** Catchment: its units and the bricks of the sub-basin in the primary structure (ModelBuilder.cpp:98-106). *)
Record domain := mkDom { dm_units : list hunit; dm_basin : list bset }.
Definition dummy_unit : hunit := mkUnit 1 empty_structure (fun _ => 1) [].
Definition unit_at (M : domain) (u : nat) : hunit := nth u (dm_units M) dummy_unit.
(** SubBasin.cpp:173: the area of the catchment. *)
Definition total_area (M : domain) : R := Rsum un_area (dm_units M).

(** ** Bricks *)
(** core/src/bricks/BrickTypes.cpp:7-20, Brick.cpp:22-54 [Factory]. *)
Inductive bkind := KStorage | KCover | KGlacier | KPack | KCanopy.
Definition kind_of (type : string) : option bkind :=
  if String.eqb type "storage" then Some KStorage
  else if in_list type ["generic_land_cover"; "ground"; "generic"; "open"] then Some KCover
  else if String.eqb type "glacier" then Some KGlacier
  else if String.eqb type "snowpack" then Some KPack
  else if String.eqb type "interception_storage" then Some KCanopy
  else None.
Definition is_kind (k : bkind) (b : bset) : bool :=
  match kind_of (bs_type b), k with
  | Some KStorage, KStorage | Some KCover, KCover | Some KGlacier, KGlacier | Some KPack, KPack | Some KCanopy, KCanopy => true
  | _, _ => false
  end.
Definition is_component (b : bset) : bool := is_kind KPack b || is_kind KCanopy b.
Definition is_cover (b : bset) : bool := is_kind KCover b || is_kind KGlacier b.
(** SurfaceComponent.cpp:9, LandCover.cpp:10, ModelBuilder.cpp:214-216: computed before the solver. *)
Definition is_direct (b : bset) : bool := is_component b || is_cover b || bs_directly b.
(** Containers: water, and snow or ice (Snowpack.cpp:5, Glacier.cpp:5). *)
Definition containers_of (b : bset) : list nat := if is_kind KPack b || is_kind KGlacier b then [0%nat; 1%nat] else [0%nat].

Definition pick (st : structure) (l : list nat) : list bset :=
  concat (map (fun i => match nth_error (st_bricks st) i with Some b => [b] | None => [] end) l).
(** ModelBuilder.cpp:157-180: surface components, land covers, then the others. *)
Definition others (st : structure) : list nat :=
  filter (fun i => negb (mem i (st_components st)) && negb (mem i (st_covers st))) (seq 0 (length (st_bricks st))).
Definition created (st : structure) : list bset := pick st (st_components st) ++ pick st (st_covers st) ++ pick st (others st).

Definition unit_items (M : domain) (keep : bset -> bool) (u : nat) : list (nat * bset) := map (pair u) (filter keep (created (un_str (unit_at M u)))).
Definition unit_ids (M : domain) : list nat := seq 0 (length (dm_units M)).
(** Processor.cpp:252-262: the directly computed bricks, unit by unit.  Processor.cpp:67-112: the solved ones, those of the sub-basin last. *)
Definition direct_items (M : domain) : list (nat * bset) := concat (map (unit_items M is_direct) (unit_ids M)).
Definition solved_items (M : domain) : list (option nat * bset) :=
  map (fun x => (Some (fst x), snd x)) (concat (map (unit_items M (fun b => negb (is_direct b))) (unit_ids M))) ++ map (pair None) (dm_basin M).

Definition direct_index (M : domain) (u : nat) (name : string) : option nat :=
  index_where (fun x => Nat.eqb (fst x) u && String.eqb (bs_name (snd x)) name) (direct_items M).
Definition owner_eqb (a b : option nat) : bool := match a, b with Some u, Some v => Nat.eqb u v | None, None => true | _, _ => false end.
Definition solved_index (M : domain) (o : option nat) (name : string) : option nat :=
  index_where (fun x => owner_eqb (fst x) o && String.eqb (bs_name (snd x)) name) (solved_items M).

(** ** Processes *)
(** Process.cpp:77-405: the container that a process empties; [None]: the factory refuses. *)
Definition process_container (b : bset) (type : string) : option nat :=
  let t := resolve_alias type in
  if in_list t (water_types ++ et_types) then Some 0%nat
  else if in_list t melt_types then (if is_kind KPack b || is_kind KGlacier b then Some 1%nat else None)
  else if in_list t (sublimation_types ++ snow_types ++ lateral_types) then (if is_kind KPack b then Some 1%nat else None)
  else None.
(** Process.h [ToAtmosphere]: ProcessET.h:32, ProcessSublimation.h:46. *)
Definition to_atmosphere (type : string) : bool := in_list (resolve_alias type) (et_types ++ sublimation_types).
(** Brick.cpp:86-93, Snowpack.cpp:25-35, Glacier.cpp [AttachFluxIn]: the container reached by a flux of a type. *)
Definition entry (b : bset) (t : ctype) : option nat :=
  match t with
  | Water => Some 0%nat
  | Snow => if is_kind KPack b then Some 1%nat else None
  | Ice => if is_kind KGlacier b then Some 1%nat else None
  | UnknownContent => None
  end.

(** Area fraction of a brick: LandCover.cpp:27-37; that of a component stays 1 (SurfaceComponent.cpp:6-8); a storage has none. *)
Definition fraction_of (U : hunit) (b : bset) : option R :=
  if is_cover b then Some (un_fraction U (bs_name b)) else if is_component b then Some 1 else None.

(** ** Outputs *)
(** A built output: how it delivers, its weight, where, and whether it is flagged static. *)
Record bout := mkBO { bo_tgt : dtarget; bo_frac : R; bo_place : place; bo_static : bool }.
Definition now_or (now : bool) : dtarget := if now then OutsideInstant else Outside.
Definition has_brick (st : structure) (name : string) : option bset := find (fun b => String.eqb (bs_name b) name) (created st).
Definition basin_brick (M : domain) (name : string) : option bset := find (fun b => String.eqb (bs_name b) name) (dm_basin M).

(** ModelBuilder.cpp:479-512, HydroUnit.h:219-228 [GetSnowpacks]: one flux per snowpack of each receiver, ProcessLateral.cpp:68-77. *)
Definition lateral_outs (M : domain) (u : nat) (b : bset) (o : output) : list bout :=
  concat (map (fun v =>
    concat (map (fun d => match direct_index M v (bs_name d) with
                          | Some j => [mkBO (now_or (o_now o))
                                         (un_area (unit_at M u) * un_fraction (unit_at M u) (bs_parent b)
                                          / (un_area (unit_at M v) * un_fraction (unit_at M v) (bs_parent d))) (InDirect j 1) (o_static o)]
                          | None => [] end)
      (filter (is_kind KPack) (created (un_str (unit_at M v))))))
    (un_receivers (unit_at M u))).
(** ModelBuilder.cpp:448-578: one output of a process of brick [b] of unit [u]. *)
Definition unit_outs (M : domain) (u : nat) (b : bset) (o : output) : list bout :=
  let U := unit_at M u in
  let weight := total_weight (un_area U) (total_area M) (fraction_of U b) in
  if String.eqb (o_target o) "outlet" then [mkBO Outside (weight WOutlet) AtOutlet true]
  else if String.eqb (o_target o) "lateral" then lateral_outs M u b o
  else match has_brick (un_str U) (o_target o) with
  | Some d =>
      let w := weight (WUnitBrick (o_now o) (fraction_of U d)) in
      if is_direct d then
        match direct_index M u (o_target o), entry d (o_type o) with
        | Some j, Some c => [mkBO (if o_now o && String.eqb (bs_name d) (bs_name b) then Inside c else now_or (o_now o)) w (InDirect j c) (o_static o)]
        | _, _ => []
        end
      else match solved_index M (Some u) (o_target o) with Some k => [mkBO (now_or (o_now o)) w (InStorage k) (o_static o)] | None => [] end
  | None =>
      match solved_index M None (o_target o) with Some k => [mkBO (now_or (o_now o)) (weight (WBasinBrick (o_now o))) (InStorage k) true] | None => [] end
  end.
(** ModelBuilder.cpp:394-446: the same for a brick of the sub-basin, without weights. *)
Definition basin_outs (M : domain) (o : output) : list bout :=
  if String.eqb (o_target o) "outlet" then [mkBO Outside 1 AtOutlet false]
  else match solved_index M None (o_target o) with Some k => [mkBO (now_or (o_now o)) 1 (InStorage k) false] | None => [] end.
(** ModelBuilder.cpp:457-462: a process that sends to the atmosphere has a single flux. *)
Definition process_outs (outs : output -> list bout) (p : process) : list bout :=
  if to_atmosphere (pr_type p) then [mkBO Outside 1 InAir false] else concat (map outs (pr_outputs p)).

(** ** What the builder and the processor refuse *)
(** ModelBuilder.cpp:486-512 (lateral fluxes are of snow), :514, :575, Brick.cpp:86-93 and the like, Processor.cpp:29-52 (a solved brick does not
    feed a directly computed one). *)
Definition unit_output_ok (M : domain) (u : nat) (b : bset) (o : output) : bool :=
  if String.eqb (o_target o) "outlet" then true
  else if String.eqb (o_target o) "lateral" then
    match un_receivers (unit_at M u) with [] => true | _ => match o_type o with Snow => true | _ => false end end
  else match has_brick (un_str (unit_at M u)) (o_target o) with
  | Some d => match entry d (o_type o) with Some _ => is_direct b || negb (is_direct d) | None => false end
  | None => match basin_brick M (o_target o) with Some d => match entry d (o_type o) with Some _ => true | None => false end | None => false end
  end.
Definition basin_output_ok (M : domain) (o : output) : bool :=
  if String.eqb (o_target o) "outlet" then true
  else match basin_brick M (o_target o) with Some d => match entry d (o_type o) with Some _ => true | None => false end | None => false end.
Definition process_ok (ok : output -> bool) (b : bset) (p : process) : bool :=
  match process_container b (pr_type p) with Some _ => to_atmosphere (pr_type p) || forallb ok (pr_outputs p) | None => false end.
Definition brick_ok (ok : output -> bool) (b : bset) : bool := forallb (process_ok ok b) (bs_processes b).
(** Brick.cpp:20-27: for a type that is not known the factory returns a null pointer, used right away (ModelBuilder.cpp:113-115, :208-211). *)
Definition all_known (M : domain) : bool :=
  forallb (fun b => match kind_of (bs_type b) with Some _ => true | None => false end)
    (dm_basin M ++ concat (map (fun u => created (un_str (unit_at M u))) (unit_ids M))).
Definition buildable (M : domain) : bool :=
  forallb (fun u => forallb (fun b => brick_ok (unit_output_ok M u b) b) (created (un_str (unit_at M u)))) (unit_ids M)
  && forallb (fun b => brick_ok (basin_output_ok M) b) (dm_basin M).

(** ** Assembling *)
(** The processes of a brick, with the container they empty and their outputs; the outputs of a brick are numbered in this order. *)
Definition built_processes (outs : output -> list bout) (b : bset) : list (nat * list bout) :=
  map (fun p => (match process_container b (pr_type p) with Some c => c | None => 0%nat end, process_outs outs p)) (bs_processes b).
Definition built_outs (l : list (nat * list bout)) : list bout := concat (map snd l).
Fixpoint number (l : list (nat * list bout)) (first : nat) : list dproc :=
  match l with [] => [] | (c, outs) :: r => mkDP c (seq first (length outs)) :: number r (first + length outs) end.
(** ModelBuilder.cpp:130-132, :234-236: the last process declared as "overflow". *)
Fixpoint overflow_index (outs : output -> list bout) (l : list process) (first : nat) : option nat :=
  match l with
  | [] => None
  | p :: r => match overflow_index outs r (first + length (process_outs outs p)) with
              | Some k => Some k
              | None => if String.eqb (pr_type p) "overflow" then match process_outs outs p with [] => None | _ => Some first end else None
              end
  end.
(** LandCover.h:91-93, SurfaceComponent.cpp:31-40: without area. *)
Definition without_area (U : hunit) (b : bset) : bool :=
  if is_cover b then NearlyZero (un_fraction U (bs_name b)) PRECISION
  else if is_component b then NearlyZero (un_fraction U (bs_parent b)) PRECISION else false.
Definition dummy_out : bout := mkBO Outside 1 InAir false.
Definition build_node (M : domain) (x : nat * bset) : dnode :=
  let '(u, b) := x in
  let l := built_processes (unit_outs M u b) b in
  mkNode (mkDB (map (fun o => mkDC (bo_tgt o) (bo_frac o)) (built_outs l)) (number l 0) (containers_of b)
            (fun c => match c with O => bs_capacity b | _ => None end)
            (fun c => match c with O => overflow_index (unit_outs M u b) (bs_processes b) 0 | _ => None end)
            (fun c => is_kind KPack b && Nat.eqb c 1))
    (without_area (unit_at M u) b) (fun k => bo_place (nth k (built_outs l) dummy_out)) (fun k => bo_static (nth k (built_outs l) dummy_out)).
Definition as_conn (i : nat) (overflow : bool) (o : bout) : conn :=
  mkConn i (match bo_place o with InStorage k => ToStore k | AtOutlet => Network.ToOutlet | _ => Network.ToAtmosphere end)
    (match bo_tgt o with OutsideInstant => Instant | _ => if bo_static o then Static else Regular end) (bo_frac o) overflow.
Definition item_outs (M : domain) (x : option nat * bset) : output -> list bout :=
  match fst x with Some u => unit_outs M u (snd x) | None => basin_outs M end.
Definition build_conns (M : domain) (i : nat) (x : option nat * bset) : list conn :=
  concat (map (fun p => map (as_conn i (String.eqb (pr_type p) "overflow")) (process_outs (item_outs M x) p)) (bs_processes (snd x))).
(** ProcessRoutingGR6J.cpp:20-27: the constructor lets the content of its brick be negative. *)
Definition may_be_negative (b : bset) : bool := existsb (fun p => String.eqb (resolve_alias (pr_type p)) "routing:gr6j") (bs_processes b).
Fixpoint with_index {X Y} (f : nat -> X -> Y) (i : nat) (l : list X) : list Y := match l with [] => [] | x :: r => f i x :: with_index f (S i) r end.
Definition build_net (M : domain) : net :=
  mkNet (map (fun x => mkBrick (bs_capacity (snd x)) (may_be_negative (snd x))) (solved_items M)) (concat (with_index (build_conns M) 0 (solved_items M))).
Definition build (M : domain) : outcome catchment :=
  if negb (all_known M) then UB else if buildable M then Ok (mkCatch (map (build_node M) (direct_items M)) (build_net M)) else Throw.

(** ** Splitters of a unit *)
(** core/src/fluxes/Splitter*.cpp [Compute]: the amounts given to the outputs, when the unit gets [rain] and [snow] (their computation from the forcing
    is in Processes.v) and the first input flux of the splitter holds [input]. *)
Definition splitter_amounts (rain snow input : R) (s : sset) : list R :=
  if String.eqb (sp_type s) "multi_fluxes" then map (fun _ => input) (sp_outputs s)
  else if String.eqb (sp_type s) "rain" then match sp_outputs s with [] => [] | _ :: r => rain :: map (fun _ => 0) r end
  else match sp_outputs s with _ :: _ :: r => rain :: snow :: map (fun _ => 0) r | [_] => [rain] | [] => [] end.
(** Processor.cpp:244-251: the splitters in order; an output towards a splitter is the input of this splitter (ModelBuilder.cpp:618-685: bricks are looked
    up before splitters).  Simplifications: a splitter has one input; [held]: the amounts in the inputs. *)
Definition hold (st : structure) (held : string -> R) (x : output * R) : string -> R :=
  match has_brick st (o_target (fst x)) with Some _ => held | None => fun name => if String.eqb name (o_target (fst x)) then snd x else held name end.
Fixpoint run_splitters (st : structure) (rain snow : R) (held : string -> R) (l : list sset) : list (output * R) :=
  match l with
  | [] => []
  | s :: r => let d := combine (sp_outputs s) (splitter_amounts rain snow (held (sp_name s)) s) in
              d ++ run_splitters st rain snow (fold_left (hold st) d held) r
  end.
(** What a unit delivers to the container [c] of its brick [b] (no weight: ModelBuilder.cpp:637-652). *)
Definition received (st : structure) (rain snow : R) (b : bset) (c : nat) : R :=
  Rsum (fun x => if String.eqb (o_target (fst x)) (bs_name b) && match entry b (o_type (fst x)) with Some c' => Nat.eqb c' c | None => false end then snd x else 0)
    (run_splitters st rain snow (fun _ => 0) (st_splitters st)).
(** The inputs of the catchment when unit [u] gets [rain u] and [snow u]. *)
Definition precipitation (M : domain) (rain snow : nat -> R) (blocked : nat -> nat -> bool) (laws : nat -> dlaw) : cinput :=
  mkCI (fun i c => match nth_error (direct_items M) i with Some (u, b) => received (un_str (unit_at M u)) (rain u) (snow u) b c | None => 0 end)
       (fun k => match nth_error (solved_items M) k with Some (Some u, b) => received (un_str (unit_at M u)) (rain u) (snow u) b 0 | _ => 0 end)
       blocked laws.
