(** The processes of the bricks computed before the solver, with their own formulas (Processes.v), and the models whose water balance does not need any
    other condition on them.  Nothing here depends on how the model is built. *)
From Verif Require Import Base Container Direct DirectSpec Network Catchment CatchmentSpec Build BuildSpec StructureSpec DeclareSpec Processes.
Open Scope string_scope.

(** [asks dt t x r]: with a step of [dt] days, a process of type [t] whose container holds [x] mm asks for [r] mm/d, for some values of its parameters and
    of what else it reads (the filling of its target, the demand, the snow of the snowpack). *)
Inductive asks (dt : R) : string -> R -> R -> Prop :=
| asks_rest x : asks dt "outflow:rest" x (outflow_rest false [] x)
| asks_direct x : asks dt "outflow:direct" x (outflow_direct x)
| asks_linear k x : 0 <= k <= 1 -> asks dt "outflow:linear" x (outflow_linear k x)
| asks_threshold capacity x : 0 <= capacity -> asks dt "outflow:threshold" x (outflow_threshold (Some dt) capacity x)
| asks_holding swe whc x : 0 <= swe -> 0 <= whc -> asks dt "outflow:snow_holding" x (outflow_snow_holding (Some swe) (Some dt) whc x)
| asks_infiltration cap target x r : infiltration_socont cap target x = Ok r -> asks dt "infiltration:socont" x r
| asks_infiltration_hbv cap target beta x r : infiltration_hbv cap target beta x = Ok r -> asks dt "infiltration:hbv" x r
| asks_runoff beta slope area x r : runoff_socont beta slope area x = Ok r -> asks dt "runoff:socont" x r
| asks_interception pet x : 0 <= pet -> asks dt "interception:gr4j" x (fst (gr4j_interception x pet))
| asks_open_water pet x : 0 <= pet -> asks dt "et:open_water" x (et_open_water (Some dt) x pet).
Definition gentle_types : list string :=
  ["outflow:rest"; "outflow:direct"; "outflow:linear"; "outflow:threshold"; "outflow:snow_holding"; "infiltration:socont"; "infiltration:hbv"; "runoff:socont";
   "interception:gr4j"; "et:open_water"].
Definition gentle (type : string) : Prop := In (resolve_alias type) gentle_types.

(** The law of a brick follows the formulas of its processes of these types: they ask for what the formula gives, or less; each of them has at most one
    output. *)
Definition follows (dt : R) (f : dlaw) (p : process) (q : dproc) : Prop :=
  gentle (pr_type p) -> (length (p_conns q) <= 1)%nat /\
  forall conts k, In k (p_conns q) -> exists r, asks dt (resolve_alias (pr_type p)) (level (conts (p_cont q))) r /\ f conts k <= r.
Definition by_formulas (M : domain) (C : catchment) (dt : R) (laws : nat -> dlaw) : Prop :=
  forall i u b, nth_error (direct_items M) i = Some (u, b) -> Forall2 (follows dt (laws i)) (bs_processes b) (db_procs (nd_brick (node_at C i))).

(** A variant whose directly computed bricks never ask for more water than they hold: no refreezing of the water of the snowpacks; the water of the
    snowpacks and of the land covers (without capacity) leaves by processes of the types above, and so does that of the directly computed storages,
    unless they get nothing from a rest or direct outflow other than at once.  Snow may leave by any process, and so may the ice of glaciers. *)
Record calm (v : variant) : Prop := {
  ca_refreeze : op_refreeze (v_options v) = None;
  ca_retention : forall out rain, op_retention (v_options v) = Some (out, rain) -> gentle out;
  ca_cover : forall p, In p (v_parts v) -> pt_kind p = CoverPart ->
    pt_capacity p = None /\ forall q, In q (pt_processes p) -> gentle (pp_type q) \/ In (resolve_alias (pp_type q)) melt_types;
  ca_storage : forall p, In p (v_parts v) -> pt_kind p = UnitPart -> pt_directly p = true ->
    (pt_capacity p = None /\ forall q, In q (pt_processes p) -> gentle (pp_type q)) \/
    (forall d q, In d (v_parts v) -> In q (pt_processes d) -> static_kind q = true -> pp_now q = false -> hd_error (pp_targets q) <> Some (pt_key p)) }.
