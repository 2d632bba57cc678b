(** Model of the connections between the components, of the check of the fluxes (C44), of the splitters that are computed (C56), of the area weights of
    the fluxes (C48) and of the covers without area (C47).
    Sources: core/src/base/Processor.cpp, core/src/base/ModelBuilder.cpp, core/src/fluxes/*.cpp, core/src/bricks/LandCover.cpp. No proofs here. *)
From Verif Require Export Base Container Direct.

(** ** Components and connections *)
(** A brick or a splitter: of the unit [u], or of the sub-basin. *)
Inductive bref := UnitBrick (u b : nat) | BasinBrick (b : nat).
Inductive sref := UnitSplitter (u s : nat) | BasinSplitter (s : nat).
(** Kinds of fluxes (core/src/fluxes): FluxToBrick, FluxToBrickInstantaneous (a subclass of it), FluxSimple (to a splitter), FluxToOutlet,
    FluxToAtmosphere; ModelBuilder.cpp:394-578. *)
Inductive tflux := ToBrick (b : bref) | ToBrickNow (b : bref) | ToSplitter (s : sref) | ToOutlet | ToAtmosphere.
(** A brick: NeedsSolver() and the output fluxes of its processes. *)
Record tbrick := mkTB { tb_solver : bool; tb_processes : list (list tflux) }.
(** A splitter: its output fluxes. *)
Record tsplitter := mkTS { ts_outputs : list tflux }.
Record topology := mkT { tp_units : list (list tbrick * list tsplitter); tp_bricks : list tbrick; tp_splitters : list tsplitter }.
Definition brick_of (T : topology) (r : bref) : option tbrick :=
  match r with
  | UnitBrick u b => match nth_error (tp_units T) u with Some (bs, _) => nth_error bs b | None => None end
  | BasinBrick b => nth_error (tp_bricks T) b
  end.
Definition splitter_of (T : topology) (r : sref) : option tsplitter :=
  match r with
  | UnitSplitter u s => match nth_error (tp_units T) u with Some (_, ss) => nth_error ss s | None => None end
  | BasinSplitter s => nth_error (tp_splitters T) s
  end.

(** ** Check of the fluxes *)
(** Processor.cpp:58-112 [ConnectToElementsToSolve]: _iterableBricks. *)
Definition iterable_bricks (T : topology) : list tbrick := concat (map (fun us => filter tb_solver (fst us)) (tp_units T)) ++ tp_bricks T.
(** Processor.cpp:29-52 [ValidateFluxTopology]: one flux; a reference to a brick that does not exist would be a dangling pointer. *)
Definition check_flux (T : topology) (f : tflux) : outcome unit :=
  match f with
  | ToBrick r | ToBrickNow r => match brick_of T r with None => UB | Some b => if tb_solver b then Ok tt else Throw end
  | _ => Ok tt
  end.
Fixpoint check_all (T : topology) (fs : list tflux) : outcome unit :=
  match fs with [] => Ok tt | f :: r => bind (check_flux T f) (fun _ => check_all T r) end.
Definition validate_flux_topology (T : topology) : outcome unit := check_all T (concat (concat (map tb_processes (iterable_bricks T)))).

(** ** Splitters *)
(** Processor.cpp:244-251: the splitters that a step computes, in order: those of the units. *)
Definition computed_splitters (T : topology) : list sref :=
  concat (map (fun u => map (UnitSplitter u) (seq 0 (match nth_error (tp_units T) u with Some (_, ss) => length ss | None => 0 end))) (seq 0 (length (tp_units T)))).
(** Amounts in the first input flux and in the output fluxes of the splitters. *)
Record split_state := mkSS { ss_in : sref -> R; ss_out : sref -> nat -> R }.
Definition sref_eqb (a b : sref) : bool :=
  match a, b with
  | UnitSplitter u s, UnitSplitter u' s' => Nat.eqb u u' && Nat.eqb s s'
  | BasinSplitter s, BasinSplitter s' => Nat.eqb s s'
  | _, _ => false
  end.
(** SplitterMultiFluxes.cpp:35-40 [Compute]: each output gets the amount of the first input (FluxSimple.cpp, FluxToBrick.cpp:17-24 with weight 1).
    An output to another splitter is its input. *)
Definition feed (outs : list tflux) (x : R) (inp : sref -> R) : sref -> R :=
  fun r => if existsb (fun f => match f with ToSplitter r' => sref_eqb r r' | _ => false end) outs then x else inp r.
Definition compute_splitter (T : topology) (st : split_state) (r : sref) : split_state :=
  match splitter_of T r with
  | None => st
  | Some s => let x := ss_in st r in
    mkSS (feed (ts_outputs s) x (ss_in st)) (fun r' k => if sref_eqb r' r && Nat.ltb k (length (ts_outputs s)) then x else ss_out st r' k)
  end.
(** The splitters in a run: the bricks write the inputs ([arrive] gives the amounts of the step for the splitters that a brick feeds), then the splitters
    are computed. *)
Definition splitters_step (T : topology) (arrive : sref -> option R) (st : split_state) : split_state :=
  fold_left (compute_splitter T) (computed_splitters T) (mkSS (fun r => match arrive r with Some x => x | None => ss_in st r end) (ss_out st)).
Fixpoint splitters_run (T : topology) (h : list (sref -> option R)) (st : split_state) : split_state :=
  match h with [] => st | a :: r => splitters_run T r (splitters_step T a st) end.
Definition no_water : split_state := mkSS (fun _ => 0) (fun _ _ => 0).

(** ** Area weights of the fluxes *)
(** Where a process of a brick of a unit sends its water; [f]: area fraction of the target if it can have one. *)
Inductive wtarget := WOutlet | WUnitBrick (now : bool) (f : option R) | WBasinBrick (now : bool) | WUnitSplitter | WBasinSplitter.
(** The weights given by ModelBuilder.cpp:448-578 to the flux of a brick with area fraction [source] (None: it cannot have one) in a unit of area [a] of a
    catchment of area [A] (SubBasin.cpp:173: the sum of the areas of the units), then LandCover.cpp:27-37, SurfaceComponent.cpp [SetAreaFraction]:
    a flux that needs weighting gets the fraction of its brick; Flux.h:151-153 [UpdateFractionTotal]. *)
Definition unit_weight (a A : R) (t : wtarget) : R := match t with WOutlet | WBasinBrick _ | WBasinSplitter => a / A | _ => 1 end.
Definition needs_weighting (source : option R) (t : wtarget) : bool :=
  match source, t with None, _ => false | Some _, WUnitBrick _ (Some _) => false | Some _, _ => true end.
Definition total_weight (a A : R) (source : option R) (t : wtarget) : R :=
  unit_weight a A t * (if needs_weighting source t then match source with Some f => f | None => 1 end else 1).
(** The amount stored in the flux when a process releases [x]: Flux.cpp:20-26 (outlet), FluxToBrick.cpp:17-24, FluxToBrickInstantaneous.cpp:21-27,
    FluxSimple.cpp:14-17 (its assertion is not compiled in a release). *)
Definition stored_amount (a A : R) (source : option R) (t : wtarget) (x : R) : R :=
  let w := total_weight a A source t in
  match t with
  | WOutlet | WUnitBrick false _ | WBasinBrick false => if Rltb w 1 then x * w else x
  | WUnitBrick true _ | WBasinBrick true => if Reqb w 1 then x else x * w
  | WUnitSplitter | WBasinSplitter => x
  end.
(** SubBasin.cpp:322-329 [ComputeOutletDischarge]: the sum of the amounts of the fluxes to the outlet. *)
Definition outlet_discharge (amounts : list R) : R := fold_left Rplus amounts 0.

(** ** Covers without area *)
(** A cover (or a component on it): the brick with the weights that an area fraction gives to its fluxes, and its laws. *)
Record cover := mkCover { cv_brick : R -> dbrick; cv_law : dlaw }.
Record cover_state := mkCS { cs_fraction : R; cs_state : dstate }.
(** What happens to a cover: its area fraction is changed (LandCover.cpp:27-37: the amounts of the fluxes stay), or a step with given inputs. *)
Inductive cover_event := Area (f : R) | Step (inp : dinputs).
(** LandCover.h:91-93 [IsNull], Processor.cpp:254-262: a cover without area is skipped. *)
Definition cover_step (C : cover) (dt : R) (e : cover_event) (s : cover_state) : outcome cover_state :=
  match e with
  | Area f => Ok (mkCS f (cs_state s))
  | Step inp => if NearlyZero (cs_fraction s) PRECISION then Ok s
                else bind (direct_step (cv_brick C (cs_fraction s)) dt inp (cv_law C) (cs_state s)) (fun d => Ok (mkCS (cs_fraction s) d))
  end.
Fixpoint cover_run (C : cover) (dt : R) (h : list cover_event) (s : cover_state) : outcome cover_state :=
  match h with [] => Ok s | e :: r => bind (cover_step C dt e s) (cover_run C dt r) end.
(** WaterContainer.cpp:228-235, SubBasin.cpp [ComputeOutletDischarge]: what the receiver of the flux [k] takes in a step is its amount. *)
Definition delivered (s : cover_state) (k : nat) : R := ds_amount (cs_state s) k.
