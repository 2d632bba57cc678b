(** Model of the clock in the arithmetic the program uses, IEEE binary64 with rounding to nearest (Flocq).
    Sources: core/src/base/TimeMachine.cpp, core/src/base/UtilsDateTime.cpp:71-75, core/src/base/TimeConstants.h. *)
From Coq Require Import ZArith Reals List.
From Flocq Require Import Core IEEE754.BinarySingleNaN IEEE754.Binary IEEE754.Bits.
From Verif Require Import Clock.
Open Scope R_scope.

(** Conversion of an integer to double. *)
Definition fint (z : Z) : binary64 := Binary.binary_normalize 53 1024 (eq_refl _) (eq_refl _) mode_NE z 0 false.
Definition fplus : binary64 -> binary64 -> binary64 := b64_plus mode_NE.
Definition fminus : binary64 -> binary64 -> binary64 := b64_minus mode_NE.
Definition fdiv : binary64 -> binary64 -> binary64 := b64_div mode_NE.
Definition fgt (a b : binary64) : bool := match b64_compare a b with Some Gt => true | _ => false end.

(** UtilsDateTime.cpp:71-75 [SysTimeToMjd]: date of a number of seconds since 1970. *)
Definition fmjd (seconds : Z) : binary64 := fplus (fint 40587) (fdiv (fint seconds) (fint 86400)).

(** TimeMachine.cpp:66-85 [UpdateTimeStepInDays], for the units that do not throw; the products are integer products. *)
Definition fstep (step : Z) (u : time_unit) : binary64 :=
  match u with
  | Week => fint (step * 7)
  | Day => fint step
  | Hour => fdiv (fint step) (fint 24)
  | Minute => fdiv (fint step) (fint 1440)
  | VariableStep => fint 0
  end.

(** TimeMachine.cpp:61-64 [GetTimeStepCount]. *)
Definition fcount (start stop dt : binary64) : Z := Binary.Btrunc 53 1024 (fplus (fint 1) (fdiv (fminus stop start) dt)).
(** TimeMachine.cpp:45-47 [IsOver], 49-51 [IncrementTime]. *)
Definition fover (stop d : binary64) : bool := fgt d stop.
Definition fnext (dt d : binary64) : binary64 := fplus d dt.
