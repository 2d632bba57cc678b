(** Model of the run of a model.  Sources: core/src/base/ModelHydro.cpp (Run, RunSpinup, RewindAfterSpinup, Reset, InitializeTimeSeries,
    UpdateForcing), TimeMachine.cpp (IncrementTime), Logger.cpp (SetDate, Record, Increment, Reset).
    The computation of a step, the actions, the parameter updates and the content of a row of results are parameters of this file:
    the theorems hold for all of them.  A failed ModelResult, as a thrown exception, is [Throw]. *)
From Verif Require Export Base Clock TimeSeries Actions.
Open Scope R_scope.

Section Run.
(** [P]: the state of the sub-basin (stores, covers, fluxes); [U]: parameters; [V]: forcing values; [A]: changes of dated actions;
    [Row]: a row of results. *)
Context {P U V A Row : Type}.

Record engine := mkE {
  e_process : R -> R -> U -> list V -> P -> outcome P; (** Processor::ProcessTimeStep: step in days, date, parameters, forcing *)
  e_recurring : R -> P -> outcome P;                    (** recurring actions due on a date (ActionsManager.cpp:82-89) *)
  e_apply : A -> P -> outcome P;                        (** Apply of a dated change; Throw when it returns false *)
  e_update : R -> U -> U;                               (** ParametersUpdater::DateUpdate *)
  e_row : P -> Row;                                     (** the values the logger points at *)
  e_restore_fractions : P -> P;                         (** SubBasin.cpp:124-128 [RestoreInitialAreaFractions] *)
  e_forget_updates : P -> P;                            (** SubBasin.cpp:177-181 [ResetForcingUpdates] *)
  e_reset : P -> P }.                                   (** SubBasin.cpp:103-113 [Reset] *)

(** ModelHydro.h: the model.  [m_rows]: the rows allocated by the logger (Logger.cpp:20-46), None while not written;
    [m_row]: the cursor of the logger; [m_initial]: the values saved by SaveInitialValues; [m_attached]: whether the clock knows the
    actions manager and the parameters updater; [m_spinup]: number of spin-up steps. *)
Record model := mkMod {
  m_date : R;
  m_series : list (series V);
  m_manager : manager A;
  m_params : U;
  m_attached : bool;
  m_rows : list (option (R * Row));
  m_row : nat;
  m_initial : option Row;
  m_phys : P }.

Definition set_phys (m : model) (p : P) : model :=
  mkMod (m_date m) (m_series m) (m_manager m) (m_params m) (m_attached m) (m_rows m) (m_row m) (m_initial m) p.
Definition set_series (m : model) (l : list (series V)) : model :=
  mkMod (m_date m) l (m_manager m) (m_params m) (m_attached m) (m_rows m) (m_row m) (m_initial m) (m_phys m).
Definition set_attached (m : model) (b : bool) : model :=
  mkMod (m_date m) (m_series m) (m_manager m) (m_params m) b (m_rows m) (m_row m) (m_initial m) (m_phys m).
Definition set_date (m : model) (d : R) : model :=
  mkMod d (m_series m) (m_manager m) (m_params m) (m_attached m) (m_rows m) (m_row m) (m_initial m) (m_phys m).

Variable E : engine.
Variable T : timer.
Variable dt : R.

Fixpoint map_outcome {X Y} (f : X -> outcome Y) (l : list X) : outcome (list Y) :=
  match l with
  | [] => Ok []
  | x :: r => bind (f x) (fun y => bind (map_outcome f r) (fun s => Ok (y :: s)))
  end.

(** ModelHydro.cpp:348-357 [InitializeTimeSeries]. *)
Definition init_series (m : model) : outcome model :=
  bind (map_outcome (fun s => bind (set_cursor (m_date m) s) (fun '(ok, s') => if ok : bool then Ok s' else Throw)) (m_series m))
       (fun l => Ok (set_series m l)).
(** ModelHydro.cpp:359-369 [UpdateForcing]. *)
Definition update_forcing (m : model) : outcome model :=
  bind (map_outcome (fun s => let '(ok, s') := advance s in if ok : bool then Ok s' else Throw) (m_series m)) (fun l =>
  Ok (set_phys (set_series m l) (e_forget_updates E (m_phys m)))).

(** Processor::ProcessTimeStep; the forcing values are those at the cursors.  Simplification: every series is read. *)
Definition process (m : model) : outcome model :=
  bind (map_outcome current_value (m_series m)) (fun v =>
  bind (e_process E dt (m_date m) (m_params m) v (m_phys m)) (fun p => Ok (set_phys m p))).

Fixpoint apply_all (l : list (R * (R * A))) (p : P) : outcome P :=
  match l with [] => Ok p | (_, (_, x)) :: r => bind (e_apply E x p) (apply_all r) end.
(** TimeMachine.cpp:49-59 [IncrementTime], ActionsManager.cpp:80-104 [DateUpdate]. *)
Definition increment_time (m : model) : outcome model :=
  let d := m_date m + dt in
  if m_attached m then
    bind (e_recurring E d (m_phys m)) (fun p =>
    bind (date_update d (m_manager m)) (fun '(log, g) =>
    bind (apply_all log p) (fun p =>
    Ok (mkMod d (m_series m) g (e_update E d (m_params m)) true (m_rows m) (m_row m) (m_initial m) p))))
  else Ok (set_date m d).

(** Logger.cpp:71-74 [SetDate], 93-120 [Record], 122-124 [Increment]: writing past the allocated rows is undefined. *)
Definition record_row (m : model) : outcome model :=
  match nth_error (m_rows m) (m_row m) with
  | None => UB
  | Some _ => Ok (mkMod (m_date m) (m_series m) (m_manager m) (m_params m) (m_attached m)
                    (firstn (m_row m) (m_rows m) ++ Some (m_date m, e_row E (m_phys m)) :: skipn (S (m_row m)) (m_rows m))
                    (m_row m) (m_initial m) (m_phys m))
  end.
Definition next_row (m : model) : model :=
  mkMod (m_date m) (m_series m) (m_manager m) (m_params m) (m_attached m) (m_rows m) (S (m_row m)) (m_initial m) (m_phys m).

(** ModelHydro.cpp:117-128: the body of the loop. *)
Definition sim_step (m : model) : outcome model :=
  bind (process m) (fun m => bind (record_row m) (fun m => bind (increment_time m) (fun m => update_forcing (next_row m)))).
Inductive sim_loop : model -> outcome model -> Prop :=
| sim_over m : is_over T (m_date m) = true -> sim_loop m (Ok m)
| sim_more m m1 r : is_over T (m_date m) = false -> sim_step m = Ok m1 -> sim_loop m1 r -> sim_loop m r
| sim_throw m : is_over T (m_date m) = false -> sim_step m = Throw -> sim_loop m Throw
| sim_ub m : is_over T (m_date m) = false -> sim_step m = UB -> sim_loop m UB.

(** ModelHydro.cpp:144-157: the steps of the spin-up. *)
Fixpoint spinup_steps (n : nat) (m : model) : outcome model :=
  match n with
  | O => Ok m
  | S k => bind (process m) (fun m => bind (increment_time m) (fun m => bind (update_forcing m) (spinup_steps k)))
  end.
(** ModelHydro.cpp:135-166 [RunSpinup], 168-181 [RewindAfterSpinup].  Simplification: after a failure the model is not used any more. *)
Definition run_spinup (n : nat) (m : model) : outcome model :=
  bind (spinup_steps n (set_attached m false)) (fun m =>
  let m := set_attached m true in
  init_series (set_phys (set_date m (t_start T)) (e_restore_fractions E (m_phys m)))).

(** Logger.cpp:76-91 [SaveInitialValues]. *)
Definition save_initial (m : model) : model :=
  mkMod (m_date m) (m_series m) (m_manager m) (m_params m) (m_attached m) (m_rows m) (m_row m) (Some (e_row E (m_phys m))) (m_phys m).

(** ModelHydro.cpp:100-133 [Run]. *)
Inductive run (spinup : nat) : model -> outcome model -> Prop :=
| run_ok m m1 m2 r : init_series m = Ok m1 -> (if (0 <? spinup)%nat then run_spinup spinup m1 else Ok m1) = Ok m2 ->
    sim_loop (save_initial m2) r -> run spinup m r
| run_init_fails m e : init_series m = e -> (forall m1, e <> Ok m1) -> run spinup m e
| run_spinup_fails m m1 e : init_series m = Ok m1 -> (if (0 <? spinup)%nat then run_spinup spinup m1 else Ok m1) = e -> (forall m2, e <> Ok m2) ->
    run spinup m e.

(** ModelHydro.cpp:183-193 [Reset]: neither the parameters nor the parameters updater are reset; the rows are kept. *)
Definition reset (m : model) : model :=
  mkMod (t_start T) (m_series m) (reset_manager (m_manager m)) (m_params m) (m_attached m) (m_rows m) 0 (m_initial m) (e_reset E (m_phys m)).
End Run.
Arguments engine : clear implicits.
Arguments model : clear implicits.

(** ModelHydro.cpp:48-52: number of spin-up steps. *)
Definition spinup_count (T : timer) (dt : R) (days : Z) : Z := Z.min (c_int (IZR days / dt)) (step_count T dt).
