(** Model of the reset of a sub-basin.  Sources: core/src/spatial/SubBasin.cpp:103-113, HydroUnit.cpp:103-107, core/src/bricks/Brick.cpp:47-52,
    LandCover.cpp:13-19, Glacier.cpp:9-14, Snowpack.cpp:9-12, core/src/processes/Process.cpp:445-449 and its overrides, core/src/fluxes/Flux.cpp:16-18. *)
From Verif Require Export Base Container Lateral.
Open Scope R_scope.

(** What a process remembers from one step to the next: nothing; the cold content of CemaNeige (ProcessMeltCemaNeige.h); the density and last
    water equivalent of the Frey redistribution; the unit hydrograph buffers and stores of the routing processes (the numbers are those of
    the members cleared by their Reset). *)
Inductive memory :=
| NoMemory
| ColdContent (c : R)
| FreyDensity (d : R * R)
| Buffers (uh : list R) (numbers : list R).
(** The memory of a newly built process, and after Process::Reset: ProcessMeltCemaNeige.cpp:58-61, ProcessLateralSnowRedistributionFrey.cpp:93-97,
    ProcessRoutingGR4J.cpp:36-45, ProcessRoutingGR6J.cpp:52-63, ProcessRoutingHBV.cpp:41-47.  Simplification: the buffers keep their length
    (their recomputation depends on parameters only). *)
Definition cleared (m : memory) : memory :=
  match m with
  | NoMemory => NoMemory
  | ColdContent _ => ColdContent 0
  | FreyDensity _ => FreyDensity density_reset
  | Buffers uh l => Buffers (map (fun _ => 0) uh) (map (fun _ => 0) l)
  end.
Record process_state := mkPr { pr_outputs : list R; pr_memory : memory }.
(** Process.cpp:445-449 [Reset], Flux.cpp:16-18. *)
Definition reset_process (p : process_state) : process_state := mkPr (map (fun _ => 0) (pr_outputs p)) (cleared (pr_memory p)).

(** Bricks: containers, processes and, for covers, the area fraction and the initial one. *)
Inductive brick_state :=
| PlainBrick (water : container) (procs : list process_state)
| CoverBrick (water : container) (procs : list process_state) (fraction initial : R)
| GlacierBrick (water ice : container) (procs : list process_state) (fraction initial : R)
| SnowBrick (water snow : container) (procs : list process_state).

(** Brick.cpp:47-52, LandCover.cpp:13-19, Glacier.cpp:9-14, Snowpack.cpp:9-12 (which does not reset its processes). *)
Definition reset_brick (b : brick_state) : brick_state :=
  match b with
  | PlainBrick w p => PlainBrick (reset w) (map reset_process p)
  | CoverBrick w p _ f0 => CoverBrick (reset w) (map reset_process p) f0 f0
  | GlacierBrick w i p _ f0 => GlacierBrick (reset w) (reset i) (map reset_process p) f0 f0
  | SnowBrick w s p => SnowBrick (reset w) (reset s) p
  end.

(** SubBasin.h: bricks of the sub-basin, bricks of the units. *)
Record basin_state := mkBa { ba_bricks : list brick_state; ba_units : list (list brick_state) }.
(** SubBasin.cpp:103-113, HydroUnit.cpp:103-107. *)
Definition reset_basin (b : basin_state) : basin_state := mkBa (map reset_brick (ba_bricks b)) (map (map reset_brick) (ba_units b)).
