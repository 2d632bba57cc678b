(** The drawing of a structure graph.  Models python/src/hydrobricks/structure.py:272-425 (to_dot, _legend_label, _dot_node_attrs, _dot_edge_attrs) and the colours of 35-46.
    The DOT text is kept as its statements; the header (fonts, spacing, dpi) and the HTML of the legend's cells are left out; the quoting of names is that of the text. *)
From Coq Require Import Ascii.
From Verif Require Export StructureGraph.

(** structure.py:36-46: the colours. *)
Definition color_land_cover := "#b6d7a8". Definition color_brick := "#f5f5f5". Definition color_splitter := "#fff2cc". Definition color_atmo := "#cfe2f3". Definition color_outlet := "#e1d5e7".
Definition color_forcing := "#e69138". Definition color_snow := "#6fa8dc". Definition color_ice := "#9fc5e8". Definition color_flux := "#000000".

(** structure.py:392-412: _dot_node_attrs: label, shape and fill (for a forcing, the colour of its text). *)
Record node_look := NodeLook { nl_label : string; nl_shape : string; nl_color : string }.
Definition backslash_n : string := String (ascii_of_nat 92) "n".
Definition node_label (n : node) : string := if String.eqb (nd_kind n) "" then nd_name n else (nd_name n ++ backslash_n ++ "(" ++ nd_kind n ++ ")")%string.
Definition node_attrs (n : node) : node_look :=
  match nd_role n with
  | RForcing => NodeLook (node_label n) "plaintext" color_forcing
  | ROutlet => NodeLook (node_label n) "doublecircle" color_outlet
  | RAtmosphere => NodeLook (node_label n) "ellipse" color_atmo
  | RSplitter => NodeLook (node_label n) "diamond" color_splitter
  | RBrick => NodeLook (node_label n) "box" (if nd_cover n then color_land_cover else color_brick)
  end.
(** structure.py:415-424: _dot_edge_attrs; without a colour attribute an edge has the default of lines 292-293, a dark grey. *)
Definition color_default_edge := "#333333".
Record edge_look := EdgeLook { el_label : string; el_color : string; el_dashed : bool }.
Definition edge_attrs (e : edge) : edge_look :=
  if String.eqb (ed_kind e) "forcing" then EdgeLook "" color_forcing true
  else EdgeLook (ed_process e) (if String.eqb (ed_flux e) "snow" then color_snow else if String.eqb (ed_flux e) "ice" then color_ice else color_default_edge) (ed_instant e).

(** structure.py:322-390: _legend_label: the rows with their colour, whether dashed, and text. *)
Record legend_row := Row { lr_color : string; lr_dashed : bool; lr_line : bool; lr_text : string }.
Definition has_role (g : graph) (p : role -> bool) : bool := existsb (fun n => p (nd_role n)) (gr_nodes g).
Definition flux_edges (g : graph) : list edge := filter (fun e => negb (String.eqb (ed_kind e) "forcing")) (gr_edges g).
Definition when {A} (b : bool) (x : A) : list A := if b then [x] else [].
Definition legend_rows (g : graph) : list legend_row :=
  when (existsb nd_cover (gr_nodes g)) (Row color_land_cover false false "Land cover") ++
  [Row color_brick false false "Storage / brick"] ++
  when (has_role g (fun r => match r with RSplitter => true | _ => false end)) (Row color_splitter false false "Splitter") ++
  when (has_role g (fun r => match r with RAtmosphere => true | _ => false end)) (Row color_atmo false false "Atmosphere (ET)") ++
  when (has_role g (fun r => match r with ROutlet => true | _ => false end)) (Row color_outlet false false "Outlet") ++
  [Row color_flux false true "Flux (labelled with the process)"] ++
  when (existsb (fun e => String.eqb (ed_kind e) "forcing") (gr_edges g)) (Row color_forcing true true "Forcing input") ++
  when (existsb (fun e => String.eqb (ed_flux e) "snow") (flux_edges g)) (Row color_snow false true "Snow flux") ++
  when (existsb (fun e => String.eqb (ed_flux e) "ice") (flux_edges g)) (Row color_ice false true "Ice flux") ++
  when (existsb ed_instant (flux_edges g)) (Row color_flux true true "Instantaneous flux").

(** structure.py:272-320: to_dot: the statements in their order. *)
Inductive statement := SNode (name : string) (look : node_look) | SCluster (label : string) (nodes : list statement) | SEdge (source target : string) (look : edge_look) | SLegend (rows : list legend_row).
Definition node_statement (n : node) : statement := SNode (nd_name n) (node_attrs n).
Definition edge_statement (e : edge) : statement := SEdge (ed_source e) (ed_target e) (edge_attrs e).
Definition in_basin (n : node) : bool := String.eqb (nd_level n) "sub_basin".
Definition to_dot (g : graph) (legend : bool) : list statement :=
  map node_statement (filter (fun n => negb (in_basin n)) (gr_nodes g)) ++
  (match filter in_basin (gr_nodes g) with [] => [] | l => [SCluster "Sub-basin (catchment level)" (map node_statement l)] end) ++
  map edge_statement (gr_edges g) ++
  when legend (SLegend (legend_rows g)).

(** structure.py:296 and 313-314: a name in the text stands between quotes, as it is. *)
Definition quote : ascii := ascii_of_nat 34.
Definition quoted (name : string) : string := (String quote name ++ String quote "")%string.
