(** Vocabulary of the properties on the connections. *)
From Verif Require Import Base Topology.

(** A brick that is solved together with the others: one of a unit that needs the solver, or any one of the sub-basin. *)
Definition solved (T : topology) (r : bref) : Prop := exists b, brick_of T r = Some b /\ match r with UnitBrick _ _ => tb_solver b = true | BasinBrick _ => True end.
(** A brick that is computed directly, before the solver. *)
Definition computed_directly (T : topology) (r : bref) : Prop := exists b, brick_of T r = Some b /\ match r with UnitBrick _ _ => tb_solver b = false | BasinBrick _ => False end.
Definition is_output (f : tflux) (r : bref) : Prop := f = ToBrick r \/ f = ToBrickNow r.
(** A process of [r] has a flux to [r']. *)
Definition sends_to (T : topology) (r r' : bref) : Prop := exists b p f, brick_of T r = Some b /\ In p (tb_processes b) /\ In f p /\ is_output f r'.
(** The same, possibly through splitters. *)
Inductive splitter_leads (T : topology) : sref -> bref -> Prop :=
| leads_here s sp f r : splitter_of T s = Some sp -> In f (ts_outputs sp) -> is_output f r -> splitter_leads T s r
| leads_on s sp s' r : splitter_of T s = Some sp -> In (ToSplitter s') (ts_outputs sp) -> splitter_leads T s' r -> splitter_leads T s r.
Definition reaches (T : topology) (r r' : bref) : Prop :=
  sends_to T r r' \/ exists b p s, brick_of T r = Some b /\ In p (tb_processes b) /\ In (ToSplitter s) p /\ splitter_leads T s r'.
(** Every flux of a brick leads to a brick that exists. *)
Definition all_there (T : topology) : Prop := forall r r', sends_to T r r' -> exists b, brick_of T r' = Some b.

(** Area that a brick of a unit covers. *)
Definition covered (a : R) (f : option R) : R := match f with Some f => a * f | None => a end.
(** Area over which the depth in the target is counted. *)
Definition target_area (a A : R) (t : wtarget) : R := match t with WUnitBrick _ f => covered a f | WUnitSplitter => a | _ => A end.

(** Steps without change of the area. *)
Definition steps (h : list cover_event) : Prop := forall e, In e h -> exists inp, e = Step inp.
