(** The structure graph of a model variant and its summary.  Models python/src/hydrobricks/structure.py:49-490 (Node, Edge, StructureGraph.from_settings, to_text) on the export of
    core/bindings/Binding.cpp:54-152 (ExportStructure).  Simplified: the export always gives every key, so the defaults of dict.get are not needed; names are byte strings (the order of
    Python's code points is that of UTF-8 bytes); the summary is a list of blocks with their data, not its layout in characters; model name and solver (metadata) are left out. *)
From Coq Require Export String List ZArith Bool.
Export ListNotations.
Open Scope string_scope.
Open Scope list_scope.

(** The dictionaries of the export: core/bindings/Binding.cpp:63-118 (OutputsToList, ProcessesToList, BrickToDict, SplittersToList). *)
Record out_exp := OutExp { oe_target : string; oe_flux : string; oe_instant : bool }.
Record proc_exp := ProcExp { pe_name : string; pe_kind : string; pe_forcing : list string; pe_outputs : list out_exp }.
Record brick_exp := BrickExp { be_name : string; be_kind : string; be_level : string; be_cover : bool; be_direct : bool; be_forcing : list string; be_processes : list proc_exp }.
Record split_exp := SplitExp { se_name : string; se_kind : string; se_level : string; se_forcing : list string; se_outputs : list out_exp }.
(** core/bindings/Binding.cpp:120-152: the dictionary of one variant. *)
Record variant_exp := VariantExp { ve_id : Z; ve_unit_bricks : list brick_exp; ve_basin_bricks : list brick_exp; ve_unit_splitters : list split_exp; ve_basin_splitters : list split_exp }.

(** structure.py:50-72 and 75-93: nodes and edges of the graph. *)
Inductive role := RBrick | RSplitter | RForcing | ROutlet | RAtmosphere.
Record node := Node { nd_name : string; nd_role : role; nd_kind : string; nd_level : string; nd_cover : bool; nd_direct : bool; nd_forcing : list string }.
Record edge := Edge { ed_source : string; ed_target : string; ed_process : string; ed_kind : string; ed_flux : string; ed_instant : bool }.
Record graph := Graph { gr_nodes : list node; gr_edges : list edge; gr_id : Z; gr_variants : nat }.

(** structure.py:155-157: the local variables nodes (an ordered dictionary by name), edges and forcing_links. *)
Record building := Building { bd_nodes : list node; bd_edges : list edge; bd_links : list (string * string) }.
Definition known (name : string) (l : list node) : bool := existsb (fun n => String.eqb (nd_name n) name) l.
(** nodes[name] = ...: in the place of the earlier entry, else at the end. *)
Definition set_node (n : node) (l : list node) : list node :=
  if known (nd_name n) l then map (fun m => if String.eqb (nd_name m) (nd_name n) then n else m) l else l ++ [n].
(** nodes.setdefault(name, ...). *)
Definition default_node (n : node) (l : list node) : list node := if known (nd_name n) l then l else l ++ [n].
Definition plain (name : string) (r : role) : node := Node name r "" "" false false [].
(** structure.py:159-166: ensure_sink. *)
Definition sink_role (name : string) : role := if String.eqb name "outlet" then ROutlet else if String.eqb name "atmosphere" then RAtmosphere else RBrick.
Definition ensure_sink (name : string) (s : building) : building := Building (default_node (plain name (sink_role name)) (bd_nodes s)) (bd_edges s) (bd_links s).
(** structure.py:168-173: add_forcing. *)
Definition pair_eqb (x y : string * string) : bool := String.eqb (fst x) (fst y) && String.eqb (snd x) (snd y).
Definition add_link (x : string * string) (l : list (string * string)) : list (string * string) := if existsb (pair_eqb x) l then l else l ++ [x].
Definition add_forcing (with_forcing : bool) (component : string) (forcing : list string) (s : building) : building :=
  if with_forcing then fold_left (fun s f => Building (default_node (plain f RForcing) (bd_nodes s)) (bd_edges s) (add_link (f, component) (bd_links s))) forcing s else s.
(** structure.py:175-186: add_component, for a brick and for a splitter (which has neither flag). *)
Definition brick_node (b : brick_exp) : node := Node (be_name b) RBrick (be_kind b) (be_level b) (be_cover b) (be_direct b) (be_forcing b).
Definition split_node (p : split_exp) : node := Node (se_name p) RSplitter (se_kind p) (se_level p) false false (se_forcing p).
Definition add_component (with_forcing : bool) (n : node) (s : building) : building :=
  add_forcing with_forcing (nd_name n) (nd_forcing n) (Building (set_node n (bd_nodes s)) (bd_edges s) (bd_links s)).
Definition add_edge (e : edge) (s : building) : building := Building (bd_nodes s) (bd_edges s ++ [e]) (bd_links s).
(** structure.py:206-222: the outputs of a process, also 231-242 those of a splitter (with the empty process name). *)
Definition add_output (source process kind : string) (s : building) (o : out_exp) : building :=
  add_edge (Edge source (oe_target o) process kind (oe_flux o) (oe_instant o)) (ensure_sink (oe_target o) s).
(** structure.py:197-222: one process of a brick. *)
Definition add_process (with_forcing : bool) (b : brick_exp) (s : building) (p : proc_exp) : building :=
  let s := add_forcing with_forcing (be_name b) (pe_forcing p) s in
  match pe_outputs p with
  | [] => add_edge (Edge (be_name b) "atmosphere" (pe_name p) (pe_kind p) "water" false) (ensure_sink "atmosphere" s)
  | outputs => fold_left (add_output (be_name b) (pe_name p) (pe_kind p)) outputs s
  end.
Definition add_brick_edges (with_forcing : bool) (s : building) (b : brick_exp) : building := fold_left (add_process with_forcing b) (be_processes b) s.
(** structure.py:225-242: one splitter. *)
Definition add_split_edges (with_forcing : bool) (s : building) (p : split_exp) : building :=
  fold_left (add_output (se_name p) "" (se_kind p)) (se_outputs p) (add_forcing with_forcing (se_name p) (se_forcing p) s).
(** structure.py:245: sorted(forcing_links), the order of pairs of strings. *)
Definition pair_leb (x y : string * string) : bool :=
  match String.compare (fst x) (fst y) with Lt => true | Gt => false | Eq => match String.compare (snd x) (snd y) with Gt => false | _ => true end end.
Fixpoint insert_link (x : string * string) (l : list (string * string)) : list (string * string) :=
  match l with [] => [x] | y :: r => if pair_leb x y then x :: l else y :: insert_link x r end.
Definition sorted_links (l : list (string * string)) : list (string * string) := fold_right insert_link [] l.
Definition forcing_edge (x : string * string) : edge := Edge (fst x) (snd x) "" "forcing" (fst x) false.
Definition bricks (v : variant_exp) : list brick_exp := ve_unit_bricks v ++ ve_basin_bricks v.
Definition splitters (v : variant_exp) : list split_exp := ve_unit_splitters v ++ ve_basin_splitters v.
(** structure.py:188-246: from the empty dictionaries to nodes and edges. *)
Definition build (with_forcing : bool) (v : variant_exp) : building :=
  let s := fold_left (fun s b => add_component with_forcing (brick_node b) s) (bricks v) (Building [] [] []) in
  let s := fold_left (fun s p => add_component with_forcing (split_node p) s) (splitters v) s in
  let s := fold_left (add_brick_edges with_forcing) (bricks v) s in
  fold_left (add_split_edges with_forcing) (splitters v) s.
(** structure.py:117-256: from_settings; None is the ConfigurationError for an unknown variant. *)
Definition from_settings (structures : list variant_exp) (id : Z) (with_forcing : bool) : option graph :=
  match find (fun v => Z.eqb (ve_id v) id) structures with
  | None => None
  | Some v => let s := build with_forcing v in Some (Graph (bd_nodes s) (bd_edges s ++ map forcing_edge (sorted_links (bd_links s))) id (length structures))
  end.

(** structure.py:442-446 and 460-468: the fluxes listed under a component. *)
Definition listed_fluxes (g : graph) (name : string) : list edge := filter (fun e => negb (String.eqb (ed_kind e) "forcing") && String.eqb (ed_source e) name) (gr_edges g).
(** structure.py:448-468: render_component: header and tags come from the node, then its forcing, then its fluxes. *)
Record block := Block { bl_node : node; bl_forcing : list string; bl_fluxes : list edge }.
Definition render (g : graph) (n : node) : block := Block n (nd_forcing n) (listed_fluxes g (nd_name n)).
Definition is_component (n : node) : bool := match nd_role n with RBrick | RSplitter => true | _ => false end.
(** structure.py:470-480: the blocks of one level. *)
Definition level_blocks (g : graph) (level : string) : list block := map (render g) (filter (fun n => String.eqb (nd_level n) level && is_component n) (gr_nodes g)).
(** structure.py:483-489: the last line. *)
Record counts := Counts { ct_bricks : nat; ct_processes : nat; ct_fluxes : nat; ct_nodes : nat }.
Definition count {A} (p : A -> bool) (l : list A) : nat := length (filter p l).
Definition is_brick (n : node) : bool := match nd_role n with RBrick => true | _ => false end.
Definition last_line (g : graph) : counts :=
  Counts (count is_brick (gr_nodes g)) (count (fun e => negb (String.eqb (ed_process e) "")) (gr_edges g)) (count (fun e => negb (String.eqb (ed_kind e) "forcing")) (gr_edges g)) (length (gr_nodes g)).
(** structure.py:430-490: to_text. *)
Definition to_text (g : graph) : list block * list block * counts := (level_blocks g "hydro_unit", level_blocks g "sub_basin", last_line g).
