(** What the structure graph of a variant should hold, read from the exported variant alone (C95). *)
From Coq Require Import Sorted.
From Verif Require Export StructureGraph.

(** The variant asked for: the first with this number. *)
Definition chosen (structures : list variant_exp) (id : Z) (v : variant_exp) : Prop :=
  exists before after, structures = before ++ v :: after /\ ve_id v = id /\ Forall (fun w => ve_id w <> id) before.

Definition all_bricks (v : variant_exp) : list brick_exp := ve_unit_bricks v ++ ve_basin_bricks v.
Definition all_splitters (v : variant_exp) : list split_exp := ve_unit_splitters v ++ ve_basin_splitters v.
Definition component_names (v : variant_exp) : list string := map be_name (all_bricks v) ++ map se_name (all_splitters v).

(** Component [c] uses the forcing [f]: itself, or by one of its processes. *)
Inductive uses (v : variant_exp) (f : string) : string -> Prop :=
| uses_brick b : In b (all_bricks v) -> In f (be_forcing b) -> uses v f (be_name b)
| uses_process b p : In b (all_bricks v) -> In p (be_processes b) -> In f (pe_forcing p) -> uses v f (be_name b)
| uses_splitter p : In p (all_splitters v) -> In f (se_forcing p) -> uses v f (se_name p).

(** The water leaves a process by its outputs; without any it goes to the atmosphere. *)
Definition fluxes_of_process (b : brick_exp) (p : proc_exp) : list edge :=
  match pe_outputs p with
  | [] => [Edge (be_name b) "atmosphere" (pe_name p) (pe_kind p) "water" false]
  | outputs => map (fun o => Edge (be_name b) (oe_target o) (pe_name p) (pe_kind p) (oe_flux o) (oe_instant o)) outputs
  end.
Definition fluxes_of_brick (b : brick_exp) : list edge := flat_map (fluxes_of_process b) (be_processes b).
Definition fluxes_of_splitter (p : split_exp) : list edge := map (fun o => Edge (se_name p) (oe_target o) "" (se_kind p) (oe_flux o) (oe_instant o)) (se_outputs p).
Definition fluxes (v : variant_exp) : list edge := flat_map fluxes_of_brick (all_bricks v) ++ flat_map fluxes_of_splitter (all_splitters v).

(** Where a node comes from. *)
Inductive node_of (v : variant_exp) (with_forcing : bool) : node -> Prop :=
| node_brick b : In b (all_bricks v) -> node_of v with_forcing (Node (be_name b) RBrick (be_kind b) (be_level b) (be_cover b) (be_direct b) (be_forcing b))
| node_splitter p : In p (all_splitters v) -> node_of v with_forcing (Node (se_name p) RSplitter (se_kind p) (se_level p) false false (se_forcing p))
| node_forcing f c : with_forcing = true -> uses v f c -> node_of v with_forcing (Node f RForcing "" "" false false [])
| node_target e r : In e (fluxes v) -> (ed_target e = "outlet" -> r = ROutlet) -> (ed_target e = "atmosphere" -> r = RAtmosphere) ->
    (ed_target e <> "outlet" -> ed_target e <> "atmosphere" -> r = RBrick) -> node_of v with_forcing (Node (ed_target e) r "" "" false false []).

(** Pairs in the order of their strings. *)
Definition before_link (x y : string * string) : Prop := String.compare (fst x) (fst y) = Lt \/ (fst x = fst y /\ String.compare (snd x) (snd y) = Lt).
