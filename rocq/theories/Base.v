(** Shared numeric helpers of the model.  C++ doubles are idealised as reals. *)
From Coq Require Export Reals List Lra Lia ZArith Bool Arith.
Export ListNotations.
Open Scope R_scope.

(** Outcome of a C++ call: a value, a thrown exception, or undefined behaviour
    (null pointer dereference, out-of-range index, failed assertion in code that relies on it). *)
Inductive outcome (A : Type) : Type :=
| Ok (a : A)
| Throw
| UB.
Arguments Ok {A} a.
Arguments Throw {A}.
Arguments UB {A}.

Definition bind {A B : Type} (x : outcome A) (f : A -> outcome B) : outcome B :=
  match x with Ok a => f a | Throw => Throw | UB => UB end.

(** Boolean real comparisons. *)
Definition Rleb (a b : R) : bool := if Rle_dec a b then true else false.
Definition Rltb (a b : R) : bool := if Rlt_dec a b then true else false.
Definition Reqb (a b : R) : bool := if Req_EM_T a b then true else false.

(** core/src/base/NumericConstants.h:21 [EPSILON_D] (2^-52), :27 [EPSILON_F] (2^-23), :34 [PRECISION]. *)
Definition EPSILON_D : R := / 4503599627370496.
Definition EPSILON_F : R := / 8388608.
Definition PRECISION : R := / 100000000.

(** core/src/base/NumericConstants.h:51-112: comparisons with a tolerance. *)
Definition NearlyEqual (a b tol : R) : bool := Rleb (Rabs (a - b)) tol.
Definition NearlyZero (a tol : R) : bool := Rleb (Rabs a) tol.
Definition GreaterThan (a b tol : R) : bool := Rltb (b + tol) a.
Definition LessThan (a b tol : R) : bool := Rltb a (b - tol).
Definition GreaterThanOrEqual (a b tol : R) : bool := Rleb (b - tol) a.
Definition LessThanOrEqual (a b tol : R) : bool := Rleb a (b + tol).

(** Sum of [f] over a list (a C++ accumulation loop). *)
Fixpoint Rsum {A : Type} (f : A -> R) (l : list A) : R :=
  match l with [] => 0 | x :: r => f x + Rsum f r end.

(** Point update of a map from indices to reals (a write through a pointer or index). *)
Definition upd {A : Type} (f : nat -> A) (i : nat) (v : A) : nat -> A :=
  fun j => if Nat.eqb j i then v else f j.
