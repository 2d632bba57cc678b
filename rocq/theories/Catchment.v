(** A whole time step of a catchment: the directly computed bricks of all hydro units in order, then the solver, then the
    discharge at the outlet.  core/src/base/Processor.cpp:237-276 [ProcessTimeStep], core/src/spatial/SubBasin.cpp:322-329.
    No proofs here.

    Simplifications: the splitters of the units are reduced to the amounts [in_direct] and [in_net] they and the forcing
    deliver (their computation is in Topology.v); fluxes from bricks to splitters are left out. *)
From Verif Require Import Base Container Direct Network.

(** Where an output of a directly computed brick goes (ModelBuilder.cpp:448-578): a container of a directly computed brick
    (of this unit or, for lateral fluxes, of another one), a solved storage, the outlet, the atmosphere. *)
Inductive place := InDirect (i c : nat) | InStorage (b : nat) | AtOutlet | InAir.

(** A directly computed brick in the catchment.  [nd_null]: IsNull (LandCover.h:91, SurfaceComponent.cpp:31-40);
    [nd_to], [nd_static]: destination and static flag of its outputs (ModelBuilder.cpp:467, :493, :535-540).  The kind of an
    output, instantaneous or not, is that of the brick ([d_tgt]). *)
Record dnode := mkNode { nd_brick : dbrick; nd_null : bool; nd_to : nat -> place; nd_static : nat -> bool }.

(** The directly computed bricks of all units, in the order of the loops of Processor.cpp:245-263, and the solved ones. *)
Record catchment := mkCatch { ct_nodes : list dnode; ct_net : net }.
Record cstate := mkCS { g_direct : nat -> dstate; g_net : state }.

(** What reaches the bricks from the forcing and the splitters in one step, the ices covered by snow, and the laws of the
    processes. *)
Record cinput := mkCI { in_direct : nat -> nat -> R; in_net : nat -> R; in_blocked : nat -> nat -> bool; in_law : nat -> dlaw }.

Definition dummy_node : dnode := mkNode (mkDB [] [] [] (fun _ => None) (fun _ => None) (fun _ => false)) true (fun _ => InAir) (fun _ => false).
Definition node_at (C : catchment) (i : nat) : dnode := nth i (ct_nodes C) dummy_node.
Definition node_count (C : catchment) : nat := length (ct_nodes C).
Definition out_count (C : catchment) (i : nat) : nat := length (db_conns (nd_brick (node_at C i))).

(** How an output delivers: FluxToBrick, FluxToBrick flagged static, FluxToBrickInstantaneous. *)
Inductive way := Plain | AsStatic | Now.
Definition way_of (n : dnode) (k : nat) : option way :=
  match d_tgt (dconn_at (nd_brick n) k) with
  | Inside _ => None
  | OutsideInstant => Some Now
  | Outside => Some (if nd_static n k then AsStatic else Plain)
  end.
Definition way_eqb (a b : way) : bool :=
  match a, b with Plain, Plain | AsStatic, AsStatic | Now, Now => true | _, _ => false end.
Definition place_eqb (a b : place) : bool :=
  match a, b with
  | InDirect i c, InDirect j d => Nat.eqb i j && Nat.eqb c d
  | InStorage x, InStorage y => Nat.eqb x y
  | AtOutlet, AtOutlet | InAir, InAir => true
  | _, _ => false
  end.
Definition delivers (n : dnode) (w : way) (p : place) (k : nat) : bool :=
  match way_of n k with Some w' => way_eqb w' w && place_eqb (nd_to n k) p | None => false end.

(** Amounts stored in the fluxes of brick [i] that deliver at [p] in the given way; then over all bricks
    (WaterContainer.cpp:96-105 and :228-235, one loop over the inputs). *)
Definition from_node (C : catchment) (g : nat -> dstate) (w : way) (p : place) (i : nat) : R :=
  Rsum (fun k => if delivers (node_at C i) w p k then ds_amount (g i) k else 0) (seq 0 (out_count C i)).
Definition arrives (C : catchment) (g : nat -> dstate) (w : way) (p : place) : R :=
  Rsum (from_node C g w p) (seq 0 (node_count C)).

(** The inputs of brick [j] when its turn comes: the fluxes hold the amounts of this step if their brick came earlier, of the
    previous step otherwise. *)
Definition node_inputs (C : catchment) (inp : cinput) (g : nat -> dstate) (j : nat) : dinputs :=
  mkDI (fun c => in_direct inp j c + arrives C g AsStatic (InDirect j c))
       (fun c => arrives C g Plain (InDirect j c))
       (fun c => arrives C g Now (InDirect j c))
       (in_blocked inp j).

(** FluxToBrickInstantaneous.cpp:29-34: the outputs of brick [i] towards containers of other bricks are deposited there.
    Simplification: in the code each deposit is made when the flux is updated, during the turn of brick [i]; its own
    computation does not read the other bricks. *)
Definition deposit_now (C : catchment) (i : nat) (g : nat -> dstate) : nat -> dstate :=
  fun j => mkDS (fun c => add_stat (from_node C g Now (InDirect j c) i) (ds_cont (g j) c)) (ds_rate (g j)) (ds_amount (g j)).

(** Processor.cpp:252-262: the turn of one directly computed brick. *)
Definition node_step (C : catchment) (dt : R) (inp : cinput) (g : nat -> dstate) (i : nat) : outcome (nat -> dstate) :=
  if nd_null (node_at C i) then Ok g
  else bind (direct_step (nd_brick (node_at C i)) dt (node_inputs C inp g i) (in_law inp i) (g i))
         (fun d => Ok (deposit_now C i (upd g i d))).

(** Processor.cpp:245-263: the first [p] bricks. *)
Fixpoint direct_phase (C : catchment) (dt : R) (inp : cinput) (g : nat -> dstate) (p : nat) : outcome (nat -> dstate) :=
  match p with
  | O => Ok g
  | S q => bind (direct_phase C dt inp g q) (fun g' => node_step C dt inp g' q)
  end.

(** What the solver receives: Network.v [external]. *)
Definition solver_inputs (C : catchment) (inp : cinput) (g : nat -> dstate) : external :=
  mkExt (fun b => in_net inp b + arrives C g AsStatic (InStorage b))
        (fun b => arrives C g Plain (InStorage b))
        (fun b => arrives C g Now (InStorage b)).

(** Processor.cpp:237-276 without the outlet; [solve] is the chosen solver. *)
Definition catchment_step (C : catchment) (dt : R) (inp : cinput) (solve : external -> state -> outcome state) (G : cstate)
  : outcome cstate :=
  bind (direct_phase C dt inp (g_direct G) (node_count C)) (fun g =>
  bind (solve (solver_inputs C inp g) (g_net G)) (fun s => Ok (mkCS g s))).

(** SubBasin.cpp:322-329 [ComputeOutletDischarge]: the sum of the amounts of the outlet fluxes. *)
Definition discharge (C : catchment) (G : cstate) : R :=
  Rsum (fun i => Rsum (fun k => match d_tgt (dconn_at (nd_brick (node_at C i)) k), nd_to (node_at C i) k with
                               | Inside _, _ => 0
                               | _, AtOutlet => ds_amount (g_direct G i) k
                               | _, _ => 0 end) (seq 0 (out_count C i))) (seq 0 (node_count C))
  + Rsum (fun k => match k_tgt (conn_at (ct_net C) k) with ToOutlet => s_amount (g_net G) k | _ => 0 end) (conn_ids (ct_net C)).
