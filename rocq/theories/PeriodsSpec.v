(** Vocabulary of the theorems about periods (C85). *)
From Coq Require Import Sorted.
From Verif Require Export Periods CalendarSpec.
Open Scope Z_scope.

(** The k-th day of a period. *)
Definition day_of (p : period) (k : nat) : Z := p_start p + Z.of_nat k * DAY.
Definition midnight (t : Z) : Prop := t mod DAY = 0.
Definition increasing (l : list Z) : Prop := StronglySorted Z.lt l.
(** [x] is the value of the series at [t]: the last one with this date. *)
Definition last_of (times : list Z) (values : list R) (t : Z) (x : R) : Prop :=
  exists j, nth_error times j = Some t /\ nth_error values j = Some x /\ forall j', (j < j')%nat -> nth_error times j' <> Some t.
(** [x] is a value of the series at [t]. *)
Definition value_at (times : list Z) (values : list R) (t : Z) (x : R) : Prop := exists j, nth_error times j = Some t /\ nth_error values j = Some x.
(** Inclusion of periods, and what the given pairs say. *)
Definition within (p q : period) : Prop := p_start q <= p_start p /\ p_end p <= p_end q.
Definition given (o : option (Z * Z)) (p : option period) : Prop :=
  match o, p with None, None => True | Some (a, b), Some p => p = mkPeriod a b /\ a <= b | _, _ => False end.
