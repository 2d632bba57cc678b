(** Vocabulary of the property on the reported totals. *)
From Coq Require Import String Ascii.
From Verif Require Import Base Logger.
Open Scope R_scope.

(** A label contains a text. *)
Definition has_text (text label : string) : Prop := exists a b, label = (a ++ text ++ b)%string.
(** A component is on a land cover: the cover itself, its snowpack or its canopy.  Labels are "component:item" or "component:process:item". *)
Definition on_cover (cover label : string) : Prop :=
  exists rest, label = (cover ++ ":" ++ rest)%string \/ label = (cover ++ "_snowpack:" ++ rest)%string \/ label = (cover ++ "_canopy:" ++ rest)%string.
(** Names of covers that designate different components: no colon, no repetition, no cover named as the snowpack or the canopy of another. *)
Definition no_colon (s : string) : Prop := forall a b, s <> (a ++ ":" ++ b)%string.
Definition clear_names (covers : list string) : Prop :=
  NoDup covers /\ (forall c, In c covers -> no_colon c) /\
  (forall c d, In c covers -> In d covers -> c <> (d ++ "_snowpack")%string /\ c <> (d ++ "_canopy")%string).
(** The part of the area of a unit, at a step, that a component covers: the fraction of its land cover (0 if the unit does not have it), or the whole unit. *)
Definition area_part (L : logger) (label : string) (t u : nat) (f : R) : Prop :=
  (exists c v, In (c, v) (lg_covers L) /\ on_cover c label /\ f = match v t u with Some x => x | None => 0 end) \/
  ((forall c v, In (c, v) (lg_covers L) -> ~ on_cover c label) /\ f = 1).
(** The value a unit reports (none: the unit does not have the component). *)
Definition reported (v : option R) : R := match v with Some x => x | None => 0 end.
(** All the series of the sub-basin, recorded at each step. *)
Definition sub_recorded (L : logger) (sub : list (nat -> R)) : Prop :=
  Forall2 (fun s v => forall t, (t < lg_steps L)%nat -> sb_value s t = Some (v t)) (lg_sub L) sub.
