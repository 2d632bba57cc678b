(** Vocabulary of the theorems about units of measurement (C92).  Definitions only. *)
From Coq Require Export String Ascii.
From Verif Require Export Units.
Open Scope R_scope.

(** The quantities and the size of the units, in metres, square metres, seconds and metres per second. *)
Inductive quantity := Length | Area | Duration | Speed | Other.
Inductive measures : munit -> quantity -> R -> Prop :=
| is_mm : measures MM Length (1 / 1000) | is_m : measures M Length 1 | is_km : measures KM Length 1000
| is_m2 : measures M2 Area 1 | is_km2 : measures KM2 Area (1000 * 1000)
| is_second : measures SEC Duration 1 | is_hour : measures H Duration (60 * 60) | is_day : measures DAYS Duration (24 * (60 * 60))
| is_mm_d : measures MM_D Speed (1 / 1000 / (24 * (60 * 60))) | is_mm_h : measures MM_H Speed (1 / 1000 / (60 * 60)).
(** Brackets and spaces. *)
Definition punctuation (a : ascii) : Prop := In a ["("; "["; "{"; "<"; ")"; "]"; "}"; ">"; " "]%char.
(** [t] is [s] without brackets and spaces. *)
Inductive without_punctuation : string -> string -> Prop :=
| wp_nil : without_punctuation EmptyString EmptyString
| wp_drop a s t : punctuation a -> without_punctuation s t -> without_punctuation (String a s) t
| wp_keep a s t : ~ punctuation a -> without_punctuation s t -> without_punctuation (String a s) (String a t).
(** The names of the members of the enumeration. *)
Definition member_name (s : string) : Prop :=
  In s ["NO_UNIT"; "MM"; "M"; "KM"; "M2"; "KM2"; "DEG"; "YEAR"; "MONTH"; "DAY"; "H"; "S"; "MM_D"; "MM_H"; "M_S"; "C"; "K"; "PC"; "FRAC"; "MJ_M2_D"; "W_M2"; "KPA"]%string.
