(** Model of the conversion of a date to seconds in the arithmetic the program uses.  Sources: core/src/base/UtilsDateTime.cpp:77-82.
    long double has a precision [p] of at least 53 bits on every platform (64 on x86-64, 113 or 53 elsewhere).  Simplification: no overflow nor
    underflow of the long double operations (dates are far from both). *)
From Coq Require Import ZArith Reals.
From Flocq Require Import Core IEEE754.BinarySingleNaN IEEE754.Binary IEEE754.Bits.
From Verif Require Import Base Clock ClockFloat TimeSeries Calendar.
Open Scope R_scope.

Definition ld_round (p : Z) (x : R) : R := round radix2 (FLX_exp p) ZnearestE x.
(** UtilsDateTime.cpp:77-82 [MjdToSysTime]. *)
Definition fmjd_to_seconds (p : Z) (mjd : binary64) : Z :=
  c_round (ld_round p (ld_round p (Binary.B2R 53 1024 mjd - 40587) * 86400)).
(** UtilsDateTime.cpp:84-89 [ToMJD], 90-107 [FromMJD]. *)
Definition fto_mjd (t : civil_time) : outcome binary64 := bind (to_seconds t) (fun s => Ok (fmjd s)).
Definition ffrom_mjd (p : Z) (mjd : binary64) : civil_time := of_seconds (fmjd_to_seconds p mjd).
