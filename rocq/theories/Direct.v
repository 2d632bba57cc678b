(** Bricks computed before the solver (land covers, surface components, storages flagged
    computed_directly): core/src/base/Processor.cpp:278-323 [ApplyDirectChanges].  No proofs here. *)
From Verif Require Import Base Container.

(** Where an output flux of the brick goes: instantaneously into another container of the same brick
    (SettingsModel.cpp:295-303 [OutputProcessToSameBrick], :574-590 [AddSnowpackRefreezing]), or outside it
    (FluxToBrick, FluxToOutlet, FluxToAtmosphere, FluxSimple; instantaneous or not). *)
Inductive dtarget := Inside (c : nat) | Outside | OutsideInstant.
Record dconn := mkDC { d_tgt : dtarget; d_frac : R (* _fractionTotal *) }.

(** A process: the container it empties and its output connections. *)
Record dproc := mkDP { p_cont : nat; p_conns : list nat }.

(** A brick.  Containers are numbered (0 = water, 1 = snow or ice); [db_static c]: inputs of the container are
    booked as static changes (the snow of a snowpack, Snowpack.cpp:109-112) instead of dynamic ones
    (Brick.cpp:166-168, Glacier.cpp UpdateContentFromInputs). *)
Record dbrick := mkDB {
  db_conns : list dconn;
  db_procs : list dproc;
  db_conts : list nat;
  db_cap : nat -> option R;
  db_ov : nat -> option nat;
  db_static : nat -> bool }.

Definition dummy_dconn : dconn := mkDC Outside 1.
Definition dconn_at (B : dbrick) (k : nat) : dconn := nth k (db_conns B) dummy_dconn.

(** The fluxes entering a container during the step:
    [i_forced]: amounts of the forcing and static fluxes; [i_plain]: amounts of the other fluxes from directly
    computed bricks (their linked rate is zero again, Processor.cpp:313-318); [i_inst]: real amounts stored in
    the instantaneous fluxes coming from other bricks; [i_blocked]: the ice is under snow and its melt is
    switched off (IceContainer.cpp:12-20). *)
Record dinputs := mkDI { i_forced : nat -> R; i_plain : nat -> R; i_inst : nat -> R; i_blocked : nat -> bool }.

Record dstate := mkDS {
  ds_cont : nat -> container;
  ds_rate : nat -> R;     (* _changeRatesNoSolver *)
  ds_amount : nat -> R    (* amount last stored in each output flux of the brick *) }.

(** Requested rates of the processes of the brick: any function of the containers.  Simplification: computing the rates leaves the containers as they are; the
    groundwater exchange of ProcessRoutingGR4J.cpp:110-125, which also adds an amount to the container, is left out here. *)
Definition dlaw := (nat -> container) -> nat -> R.

(** Brick.cpp:166-168, Snowpack.cpp:109-112, WaterContainer.cpp:228-235 (instantaneous fluxes count 0). *)
Definition take_inputs (B : dbrick) (inp : dinputs) (s : dstate) : dstate :=
  mkDS (fun c =>
          if mem c (db_conts B) then
            (if db_static B c then add_stat else add_dyn) (i_forced inp c + i_plain inp c) (ds_cont s c)
          else ds_cont s c)
       (fun _ => 0)                       (* Processor.cpp:282-294 *)
       (ds_amount s).

(** Fluxes leaving container [c] of the brick (WaterContainer.cpp:66-94). *)
Definition douts (B : dbrick) (c : nat) : list nat :=
  concat (map p_conns (filter (fun p => Nat.eqb (p_cont p) c) (db_procs B))).
(** Instantaneous fluxes of the brick itself entering container [c]. *)
Definition dins (B : dbrick) (c : nat) : list nat :=
  filter (fun k => match d_tgt (dconn_at B k) with Inside c' => Nat.eqb c' c | _ => false end)
    (seq 0 (length (db_conns B))).

(** WaterContainer.cpp:97-105: the real amount stored in an instantaneous flux of the brick counts, be it the
    one of this step or, if its process comes later in the list, still the one of the previous step. *)
Definition dinputs_static (B : dbrick) (inp : dinputs) (s : dstate) (c : nat) : R :=
  i_forced inp c + i_inst inp c + Rsum (ds_amount s) (dins B c).

(** Process.cpp:480-487 [GetChangeRates]. *)
Definition requested (B : dbrick) (f : dlaw) (s : dstate) (p : dproc) : nat -> R :=
  fun k =>
    if mem k (p_conns p) then
      match content_with_changes (ds_cont s (p_cont p)) with
      | Some x => if LessThanOrEqual x 0 PRECISION then 0 else f (ds_cont s) k
      | None => f (ds_cont s) k
      end
    else ds_rate s k.

(** WaterContainer.cpp:177-194, IceContainer.cpp:17-19 [SetOutgoingRatesToZero]. *)
Definition blocked_rates (B : dbrick) (inp : dinputs) (c : nat) (rates : nat -> R) : nat -> R :=
  if i_blocked inp c then (fun k => if mem k (douts B c) then 0 else rates k) else rates.

(** Processor.cpp:310. *)
Definition dconstrain (B : dbrick) (dt : R) (inp : dinputs) (s : dstate) (c : nat) (rates : nat -> R)
  : outcome (nat -> R) :=
  let rates := blocked_rates B inp c rates in
  let w := ds_cont s c in
  if c_infinite w then Ok rates else
  apply_constraints dt (c_content w + c_dyn w) (dinputs_static B inp s c)
    (db_cap B c) (db_ov B c) (c_allowneg w) (douts B c) [] rates.

(** Flux.cpp:20-26, FluxToBrick.cpp:17-24, FluxToBrickInstantaneous.cpp:21-27. *)
Definition dweighted (d : dconn) (x : R) : R :=
  match d_tgt d with
  | Outside => if Rltb (d_frac d) 1 then x * d_frac d else x
  | _ => if Reqb (d_frac d) 1 then x else x * d_frac d
  end.

Definition updc (f : nat -> container) (c : nat) (v : container) : nat -> container :=
  fun j => if Nat.eqb j c then v else f j.

(** Process.cpp:495-508 [ApplyChange], then Processor.cpp:315: the rate is put back to zero. *)
Definition apply_dconn (B : dbrick) (dt : R) (c : nat) (s : dstate) (k : nat) : dstate :=
  let r := if Rltb (ds_rate s k) 0 then 0 else ds_rate s k in
  let moves := GreaterThan r 0 PRECISION in
  let a := dweighted (dconn_at B k) (if moves then r * dt else 0) in
  let conts1 := match d_tgt (dconn_at B k) with
                | Inside c' => updc (ds_cont s) c' (add_stat a (ds_cont s c'))
                | _ => ds_cont s
                end in
  let conts2 := if moves then updc conts1 c (sub_dyn (r * dt) (conts1 c)) else conts1 in
  mkDS conts2 (upd (ds_rate s) k 0) (upd (ds_amount s) k a).

(** Processor.cpp:297-320: one process. *)
Definition dprocess (B : dbrick) (dt : R) (inp : dinputs) (f : dlaw) (s : dstate) (p : dproc) : outcome dstate :=
  bind (dconstrain B dt inp s (p_cont p) (requested B f s p)) (fun r =>
  Ok (fold_left (apply_dconn B dt (p_cont p)) (p_conns p) (mkDS (ds_cont s) r (ds_amount s)))).

Fixpoint dprocesses (B : dbrick) (dt : R) (inp : dinputs) (f : dlaw) (s : dstate) (l : list dproc)
  : outcome dstate :=
  match l with
  | [] => Ok s
  | p :: l' => bind (dprocess B dt inp f s p) (fun s' => dprocesses B dt inp f s' l')
  end.

(** Processor.cpp:278-323 followed by Brick::Finalize / Snowpack::Finalize / Glacier::Finalize. *)
Definition direct_step (B : dbrick) (dt : R) (inp : dinputs) (f : dlaw) (s : dstate) : outcome dstate :=
  bind (dprocesses B dt inp f (take_inputs B inp s) (db_procs B)) (fun s' =>
  Ok (mkDS (fun c => if mem c (db_conts B) then finalize (ds_cont s' c) else ds_cont s' c)
           (ds_rate s') (ds_amount s'))).
