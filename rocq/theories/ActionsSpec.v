(** Vocabulary of the properties on the schedule of actions, independent of the way the program keeps it. *)
From Coq Require Import Permutation Sorted.
From Verif Require Import Base.
Open Scope R_scope.

(** [log]: the applications of a run, in order: simulated date, then the change with the date it was registered for. *)
Definition chronological {A} (log : list (R * (R * A))) : Prop :=
  StronglySorted (fun a b => fst a <= fst b /\ fst (snd a) <= fst (snd b)) log.

(** Each change reached by the run, and no other, is applied, as many times as it was registered. *)
Definition each_once {A} (registered : list (R * A)) (last : R) (log : list (R * (R * A))) : Prop :=
  exists reached rest, Permutation registered (reached ++ rest) /\ Permutation (map snd log) reached /\
    (forall x, In x reached -> fst x <= last) /\ (forall x, In x rest -> last < fst x).

(** Each is applied at the first simulated date that is not before its own. *)
Definition at_first_date {A} (dates : list R) (log : list (R * (R * A))) : Prop :=
  forall w x, In (w, x) log -> In w dates /\ fst x <= w /\ (forall D, In D dates -> D < w -> D < fst x).
