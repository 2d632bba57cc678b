(** Vocabulary of the theorems about the sequential solvers. *)
From Verif Require Import Base.

(** [S] follows the reservoir equation dS/dt = inflow - coefficient * S during [0, h]. *)
Definition reservoir_solution (S : R -> R) (start inflow coefficient h : R) : Prop :=
  S 0 = start /\
  forall t, 0 <= t <= h -> derivable_pt_lim S t (inflow - coefficient * S t).

(** The outflow law: not negative, not decreasing with the content, nothing leaves an empty storage. *)
Definition outflow_law (q : R -> R) : Prop :=
  (forall x, 0 <= q x) /\ (forall x y, x <= y -> q x <= q y) /\ (forall x, x <= 0 -> q x = 0).

(** End-of-step content [S] of the implicit Euler equation S = start + h (inflow - q S), and of the
    trapezoidal equation S = start + h (inflow - (q start + q S) / 2).  When the law jumps (a demand that
    stops at an empty storage), the equation has no root: [S] is then the point where its two sides cross;
    when the crossing is below zero, [S] is zero. *)
Definition crosses (lhs rhs : R -> R) (S : R) : Prop :=
  0 <= S /\ (forall x, 0 <= x -> x < S -> lhs x <= rhs x) /\ (forall x, S < x -> rhs x < lhs x).
Definition implicit_content (q : R -> R) (start inflow h S : R) : Prop :=
  crosses (fun x => x) (fun x => start + h * (inflow - q x)) S.
Definition trapezoidal_content (q : R -> R) (start inflow h S : R) : Prop :=
  crosses (fun x => x) (fun x => start + h * (inflow - (q start + q x) / 2)) S.

(** Accuracy of the content: half of 1e-12 mm, or the bracket halved 101 times when it is wider. *)
Definition bisection_accuracy (start inflow h : R) : R :=
  Rmax (/ 1000000000000) ((start + h * inflow) / 2 ^ 100) / 2.

(** Amount booked for a connection asked for [rate] (mm/d): rates up to 1e-8 mm/d are not applied. *)
Definition booked (rate dt : R) : R := if Rlt_dec (/ 100000000) rate then rate * dt else 0.

(** Total outflow at content [x] of connections [l] whose processes ask for [q k x]; nothing is asked from a
    storage holding at most 1e-8 mm. *)
Definition total_outflow (q : nat -> R -> R) (l : list nat) (x : R) : R :=
  if Rle_dec x (/ 100000000) then 0 else Rsum (fun k => q k x) l.
