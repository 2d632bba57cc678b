(** What a drawing shows, read from its statements (C96). *)
From Coq Require Import Ascii.
From Verif Require Export StructureDrawing.

(** A node that is drawn, inside the sub-basin's frame or outside. *)
Inductive drawn (l : list statement) : bool -> string -> node_look -> Prop :=
| drawn_outside name look : In (SNode name look) l -> drawn l false name look
| drawn_inside label k name look : In (SCluster label k) l -> In (SNode name look) k -> drawn l true name look.
Definition arrows (l : list statement) : list (string * string * edge_look) := flat_map (fun s => match s with SEdge a b look => [(a, b, look)] | _ => [] end) l.
(** The names of the nodes drawn, as often as they are. *)
Definition drawn_names (l : list statement) : list string :=
  flat_map (fun s => match s with SNode a _ => [a] | SCluster _ k => flat_map (fun s => match s with SNode a _ => [a] | _ => [] end) k | _ => [] end) l.

(** The look of a node: by its role; land covers are green. *)
Inductive node_looks (n : node) : string -> string -> Prop :=
| looks_forcing : nd_role n = RForcing -> node_looks n "plaintext" "#e69138"
| looks_outlet : nd_role n = ROutlet -> node_looks n "doublecircle" "#e1d5e7"
| looks_atmosphere : nd_role n = RAtmosphere -> node_looks n "ellipse" "#cfe2f3"
| looks_splitter : nd_role n = RSplitter -> node_looks n "diamond" "#fff2cc"
| looks_cover : nd_role n = RBrick -> nd_cover n = true -> node_looks n "box" "#b6d7a8"
| looks_brick : nd_role n = RBrick -> nd_cover n = false -> node_looks n "box" "#f5f5f5".
(** The look of an arrow: forcing is dashed and orange; a flux has the name of its process, is dashed if instantaneous, and snow and ice have their colours. *)
Inductive edge_looks (e : edge) : edge_look -> Prop :=
| looks_input : ed_kind e = "forcing" -> edge_looks e (EdgeLook "" "#e69138" true)
| looks_snow : ed_kind e <> "forcing" -> ed_flux e = "snow" -> edge_looks e (EdgeLook (ed_process e) "#6fa8dc" (ed_instant e))
| looks_ice : ed_kind e <> "forcing" -> ed_flux e = "ice" -> edge_looks e (EdgeLook (ed_process e) "#9fc5e8" (ed_instant e))
| looks_flux : ed_kind e <> "forcing" -> ed_flux e <> "snow" -> ed_flux e <> "ice" -> edge_looks e (EdgeLook (ed_process e) "#333333" (ed_instant e)).

(** A quoted name as Graphviz reads it: up to the next quote; a backslash before a quote keeps it. *)
Inductive reads : string -> string -> string -> Prop :=
| reads_end rest : reads (String quote rest) "" rest
| reads_escaped s name rest : reads s name rest -> reads (String (ascii_of_nat 92) (String quote s)) (String quote name) rest
| reads_char c s name rest : c <> quote -> (c = ascii_of_nat 92 -> forall s', s <> String quote s') -> reads s name rest -> reads (String c s) (String c name) rest.
Definition reads_quoted (text name rest : string) : Prop := exists s, text = String quote s /\ reads s name rest.
