(** The solved storages of a catchment and the processor that drives them:
    core/src/base/Processor.cpp, core/src/processes/Process.cpp, core/src/fluxes/*.cpp. *)
From Verif Require Import Base Container.

(** Where a flux delivers (ModelBuilder.cpp:448-578). *)
Inductive target := ToStore (b : nat) | ToOutlet | ToAtmosphere.

(** Kind of a flux between bricks: plain FluxToBrick, FluxToBrick flagged static
    (Flux.h SetAsStatic; ModelBuilder.cpp:535-540 for fluxes from a hydro unit to the sub-basin),
    FluxToBrickInstantaneous. *)
Inductive kind := Regular | Static | Instant.

(** One output flux of one process ("connection").  Connections are listed in the iteration order of
    Processor::EvaluateRates (Processor.cpp:146-172): by brick, then process, then flux. *)
Record conn := mkConn {
  k_src : nat;        (* index of the source brick in _iterableBricks *)
  k_tgt : target;
  k_kind : kind;
  k_frac : R;         (* _fractionTotal, Flux.h *)
  k_overflow : bool   (* the process is of type "overflow" *) }.

(** A solved brick: one water container (core/src/bricks/Storage.cpp, Brick.cpp:12-18).
    Simplification: the storages of the solver are not infinite storages (only Glacier.cpp:26 makes a
    container infinite) and are never null (Brick.h IsNull is false for a storage). *)
Record brick := mkBrick { b_cap : option R; b_allowneg : bool }.

Record net := mkNet { n_bricks : list brick; n_conns : list conn }.

Definition dummy_brick : brick := mkBrick None false.
Definition dummy_conn : conn := mkConn 0 ToOutlet Regular 1 false.
Definition brick_at (N : net) (b : nat) : brick := nth b (n_bricks N) dummy_brick.
Definition conn_at (N : net) (k : nat) : conn := nth k (n_conns N) dummy_conn.
Definition brick_ids (N : net) : list nat := seq 0 (length (n_bricks N)).
Definition conn_ids (N : net) : list nat := seq 0 (length (n_conns N)).

Definition goes_to (b : nat) (t : target) : bool :=
  match t with ToStore b' => Nat.eqb b' b | _ => false end.
Definition is_regular (k : kind) : bool := match k with Regular => true | _ => false end.
Definition is_static (k : kind) : bool := match k with Static => true | _ => false end.
Definition is_instant (k : kind) : bool := match k with Instant => true | _ => false end.

(** Fluxes leaving brick [b] (WaterContainer.cpp:66-94). *)
Definition outs (N : net) (b : nat) : list nat :=
  filter (fun k => Nat.eqb (k_src (conn_at N k)) b) (conn_ids N).
(** Fluxes entering brick [b], of any kind (WaterContainer::_inputs). *)
Definition inputs_of (N : net) (b : nat) : list nat :=
  filter (fun k => goes_to b (k_tgt (conn_at N k))) (conn_ids N).
(** Fluxes entering [b] seen by the limiter as rates (WaterContainer.cpp:97-121). *)
Definition ins (N : net) (b : nat) : list nat :=
  filter (fun k => is_regular (k_kind (conn_at N k))) (inputs_of N b).

(** ModelBuilder.cpp:234-236: the last process of type "overflow" of the brick is linked to its water
    container; its first flux carries the excess. *)
Definition overflow_of (N : net) (b : nat) : option nat :=
  find (fun k => k_overflow (conn_at N k)) (rev (outs N b)).

(** Content and pending changes of each brick, and the amount last stored in each flux. *)
Record state := mkState {
  s_content : nat -> R;
  s_dyn : nat -> R;
  s_stat : nat -> R;
  s_amount : nat -> R }.

(** What reaches the storages from outside the solver during the step:
    [e_seen]: forcing and static fluxes, seen by the limiter (WaterContainer.cpp:102-105) and added by
      UpdateContentFromInputs (Brick.cpp:166-168);
    [e_hidden]: amounts of plain (non-static) fluxes coming from directly computed bricks: their linked
      rate has been put back to zero (Processor.cpp:313-318), so the limiter sees a zero rate, but
      UpdateContentFromInputs adds their amount;
    [e_inst]: instantaneous deposits of the direct phase, already in the static change and seen by the
      limiter through GetRealAmount (WaterContainer.cpp:98-101). *)
Record external := mkExt { e_seen : nat -> R; e_hidden : nat -> R; e_inst : nat -> R }.

Definition content_changes (s : state) (b : nat) : R := s_content s b + s_dyn s b + s_stat s b.

(** Law of the processes: requested rate of each connection in a given state (Process::GetRates).
    The law is arbitrary; the internal state of processes is not part of [state], a different law may be
    used at each evaluation. *)
Definition law := state -> nat -> R.

(** Processor.cpp:146-172 without constraints, Process.cpp:480-487 [GetChangeRates] (zero rate for an
    empty container), ProcessOutflowOverflow.cpp (the overflow asks for nothing). *)
Definition evaluate (N : net) (f : law) (s : state) : nat -> R :=
  fun k =>
    if k_overflow (conn_at N k) then 0
    else if LessThanOrEqual (content_changes s (k_src (conn_at N k))) 0 PRECISION then 0
    else f s k.

(** WaterContainer.cpp:96-105: static inputs seen by the limiter. *)
Definition inputs_static (N : net) (e : external) (s : state) (b : nat) : R :=
  e_seen e b + e_inst e b
  + Rsum (s_amount s)
      (filter (fun k => negb (is_regular (k_kind (conn_at N k)))) (inputs_of N b)).

(** Brick.cpp:170-172 [Brick::ApplyConstraints]. *)
Definition constrain_brick (N : net) (dt : R) (e : external) (s : state) (b : nat)
    (rates : nat -> R) : outcome (nat -> R) :=
  apply_constraints dt (s_content s b + s_dyn s b) (inputs_static N e s b)
    (b_cap (brick_at N b)) (overflow_of N b) (b_allowneg (brick_at N b))
    (outs N b) (ins N b) rates.

(** One sweep over the bricks (Processor.cpp:201-203). *)
Fixpoint sweep (N : net) (dt : R) (e : external) (s : state) (l : list nat) (rates : nat -> R)
  : outcome (nat -> R) :=
  match l with
  | [] => Ok rates
  | b :: l' => bind (constrain_brick N dt e s b rates) (fun r => sweep N dt e s l' r)
  end.

Definition stable (N : net) (r r' : nat -> R) : bool :=
  forallb (fun k => Rleb (Rabs (r' k - r k)) PRECISION) (conn_ids N).

(** Processor.cpp:191-209 [EnforceConstraints]: at most [fuel] (10) sweeps, stopping when stable. *)
Fixpoint enforce_n (fuel : nat) (N : net) (dt : R) (e : external) (s : state) (rates : nat -> R)
  : outcome (nat -> R) :=
  match fuel with
  | O => Ok rates
  | S m =>
      bind (sweep N dt e s (brick_ids N) rates)
        (fun r => if stable N rates r then Ok r else enforce_n m N dt e s r)
  end.
Definition enforce := enforce_n 10.

(** Processor.cpp:174-189 [ConstrainRates]: linking nulls the overflow rates
    (ProcessOutflowOverflow.cpp:21-26). *)
Definition null_overflow (N : net) (rates : nat -> R) : nat -> R :=
  fun k => if k_overflow (conn_at N k) then 0 else rates k.
Definition constrain_rates (N : net) (dt : R) (e : external) (s : state) (rates : nat -> R) :=
  enforce N dt e s (null_overflow N rates).

(** Flux.cpp:20-26, FluxToBrick.cpp:17-24, FluxToBrickInstantaneous.cpp:21-27: weighted amount. *)
Definition weighted (c : conn) (amount : R) : R :=
  match k_kind c with
  | Instant => if Reqb (k_frac c) 1 then amount else amount * k_frac c
  | _ => if Rltb (k_frac c) 1 then amount * k_frac c else amount
  end.

(** UpdateFlux: store the amount; an instantaneous flux also deposits it (FluxToBrickInstantaneous.cpp:29-30). *)
Definition update_flux (N : net) (k : nat) (amount : R) (s : state) : state :=
  let c := conn_at N k in
  let a := weighted c amount in
  let stat' :=
    match k_kind c, k_tgt c with
    | Instant, ToStore b => upd (s_stat s) b (s_stat s b + a)
    | _, _ => s_stat s
    end in
  mkState (s_content s) (s_dyn s) stat' (upd (s_amount s) k a).

(** Process.cpp:495-508 [Process::ApplyChange]. *)
Definition apply_change (N : net) (dt : R) (rates : nat -> R) (s : state) (k : nat) : state :=
  let r := if Rltb (rates k) 0 then 0 else rates k in
  if GreaterThan r 0 PRECISION then
    let s1 := update_flux N k (r * dt) s in
    let b := k_src (conn_at N k) in
    mkState (s_content s1) (upd (s_dyn s1) b (s_dyn s1 b - r * dt)) (s_stat s1) (s_amount s1)
  else update_flux N k 0 s.

(** Brick.cpp:166-168 [UpdateContentFromInputs], WaterContainer.cpp:228-235: an instantaneous flux
    contributes 0 (FluxToBrickInstantaneous.cpp:13-15). *)
Definition sum_incoming (N : net) (e : external) (s : state) (b : nat) : R :=
  e_seen e b + e_hidden e b
  + Rsum (s_amount s)
      (filter (fun k => negb (is_instant (k_kind (conn_at N k)))) (inputs_of N b)).
Definition update_from_inputs (N : net) (e : external) (s : state) (b : nat) : state :=
  mkState (s_content s) (upd (s_dyn s) b (s_dyn s b + sum_incoming N e s b))
    (s_stat s) (s_amount s).

(** Processor.cpp:211-226 [ApplyRates] for one brick, then for all. *)
Definition apply_brick (N : net) (dt : R) (e : external) (rates : nat -> R) (s : state) (b : nat) : state :=
  fold_left (apply_change N dt rates) (outs N b) (update_from_inputs N e s b).
Definition apply_rates (N : net) (dt : R) (e : external) (rates : nat -> R) (s : state) : state :=
  fold_left (apply_brick N dt e rates) (brick_ids N) s.

(** Processor.cpp:228-235 [FinalizeTimeStep], WaterContainer.cpp:196-216. *)
Definition finalize_step (N : net) (s : state) : state :=
  mkState
    (fun b => finalize_value (b_allowneg (brick_at N b)) (s_content s b + (s_dyn s b + s_stat s b)))
    (fun _ => 0) (fun _ => 0) (s_amount s).

(** Processor.cpp:140-144 [ResetState]: only the dynamic changes are zeroed. *)
Definition reset_state (s : state) : state :=
  mkState (s_content s) (fun _ => 0) (s_stat s) (s_amount s).
(** GatherState / scale by [c] / ScatterState (Processor.cpp:126-138). *)
Definition scale_state (c : R) (s : state) : state :=
  mkState (s_content s) (fun b => s_dyn s b * c) (s_stat s) (s_amount s).

(** The direct phase precedes the solver: its instantaneous deposits are in the static changes. *)
Definition deposit (e : external) (s : state) : state :=
  mkState (s_content s) (s_dyn s) (fun b => s_stat s b + e_inst e b) (s_amount s).

(** core/src/base/SolverEulerExplicit.cpp:13-22 *)
Definition euler_step (N : net) (dt : R) (e : external) (f : law) (s0 : state) : outcome state :=
  let s := deposit e s0 in
  bind (enforce N dt e s (null_overflow N (evaluate N f s)))
    (fun k1 => Ok (finalize_step N (apply_rates N dt e k1 s))).

(** core/src/base/SolverHeunExplicit.cpp:16-38 ([f1], [f2]: the process laws at the two evaluations). *)
Definition heun_step (N : net) (dt : R) (e : external) (f1 f2 : law) (s0 : state) : outcome state :=
  let s := deposit e s0 in
  bind (enforce N dt e s (null_overflow N (evaluate N f1 s))) (fun k1 =>
  let s1 := apply_rates N dt e k1 s in
  let k2 := evaluate N f2 s1 in
  let s2 := reset_state s1 in
  bind (constrain_rates N dt e s2 (fun k => (k1 k + k2 k) / 2)) (fun kc =>
  Ok (finalize_step N (apply_rates N dt e kc s2)))).

(** core/src/base/SolverRK4.cpp:19-63 *)
Definition rk4_step (N : net) (dt : R) (e : external) (f1 f2 f3 f4 : law) (s0 : state) : outcome state :=
  let s := deposit e s0 in
  bind (enforce N dt e s (null_overflow N (evaluate N f1 s))) (fun k1 =>
  let s1 := scale_state (/ 2) (apply_rates N dt e k1 s) in
  let s1r := reset_state s1 in
  bind (constrain_rates N dt e s1r (evaluate N f2 s1)) (fun k2 =>
  let s2 := scale_state (/ 2) (apply_rates N dt e k2 s1r) in
  let s2r := reset_state s2 in
  bind (constrain_rates N dt e s2r (evaluate N f3 s2)) (fun k3 =>
  let s3 := apply_rates N dt e k3 s2r in
  let k4 := evaluate N f4 s3 in
  let s3r := reset_state s3 in
  bind (constrain_rates N dt e s3r (fun k => (k1 k + 2 * k2 k + 2 * k3 k + k4 k) / 6)) (fun kc =>
  Ok (finalize_step N (apply_rates N dt e kc s3r)))))).
