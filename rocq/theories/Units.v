(** The units of measurement and their conversion.  No proofs here.
    UN = python/src/hydrobricks/_units.py.  Texts are sequences of bytes (UTF-8).  [Throw] stands for DataError.
    A unit that is given as a member of the enumeration is a text, too (StrEnum): its name in small letters (UN:11-35, auto()). *)
From Coq Require Import String Ascii.
From Verif Require Export Base.
Open Scope R_scope.

(** UN:11-35. *)
Inductive munit := NO_UNIT | MM | M | KM | M2 | KM2 | DEG | YEAR | MONTH | DAYS | H | SEC | MM_D | MM_H | M_S | DEG_C | KELVIN | PC | FRAC | MJ_M2_D | W_M2 | KPA.
Definition members : list (string * munit) :=
  [("NO_UNIT", NO_UNIT); ("MM", MM); ("M", M); ("KM", KM); ("M2", M2); ("KM2", KM2); ("DEG", DEG); ("YEAR", YEAR); ("MONTH", MONTH); ("DAY", DAYS); ("H", H); ("S", SEC);
   ("MM_D", MM_D); ("MM_H", MM_H); ("M_S", M_S); ("C", DEG_C); ("K", KELVIN); ("PC", PC); ("FRAC", FRAC); ("MJ_M2_D", MJ_M2_D); ("W_M2", W_M2); ("KPA", KPA)]%string.
(** The text of a member (StrEnum). *)
Definition text_of (u : munit) : string :=
  match u with
  | NO_UNIT => "no_unit" | MM => "mm" | M => "m" | KM => "km" | M2 => "m2" | KM2 => "km2" | DEG => "deg" | YEAR => "year" | MONTH => "month" | DAYS => "day" | H => "h" | SEC => "s"
  | MM_D => "mm_d" | MM_H => "mm_h" | M_S => "m_s" | DEG_C => "c" | KELVIN => "k" | PC => "pc" | FRAC => "frac" | MJ_M2_D => "mj_m2_d" | W_M2 => "w_m2" | KPA => "kpa"
  end%string.
(** UN:38-109. *)
Definition aliases : list (string * munit) :=
  [("mm", MM); ("millimeter", MM); ("m", M); ("meter", M); ("km", KM); ("kilometer", KM); ("m2", M2); ("m^2", M2); ("m**2", M2); ("square meter", M2); ("km2", KM2); ("km^2", KM2);
   ("km**2", KM2); ("square kilometer", KM2); ("deg", DEG); ("degree", DEG); ("degrees", DEG); ("year", YEAR); ("years", YEAR); ("month", MONTH); ("months", MONTH); ("day", DAYS);
   ("days", DAYS); ("h", H); ("hour", H); ("hours", H); ("s", SEC); ("second", SEC); ("seconds", SEC); ("mm/d", MM_D); ("mm/day", MM_D); ("mm_d", MM_D); ("mm_day", MM_D);
   ("millimeter per day", MM_D); ("mm/h", MM_H); ("mm/hour", MM_H); ("mm_h", MM_H); ("mm_hour", MM_H); ("millimeter per hour", MM_H); ("m/s", M_S); ("m/second", M_S); ("m_s", M_S);
   ("m_second", M_S); ("meter per second", M_S); ("°C", DEG_C); ("C", DEG_C); ("celsius", DEG_C); ("°K", KELVIN); ("K", KELVIN); ("kelvin", KELVIN); ("%", PC); ("percent", PC);
   ("frac", FRAC); ("fraction", FRAC); ("MJ/m2/d", MJ_M2_D); ("MJ/m2/day", MJ_M2_D); ("MJ_m2_d", MJ_M2_D); ("MJ_m2_day", MJ_M2_D); ("W/m2", W_M2); ("W_m2", W_M2); ("W/m^2", W_M2);
   ("W/m**2", W_M2); ("Watt per square meter", W_M2); ("kPa", KPA); ("kilopascal", KPA)]%string.
Fixpoint look_up {A} (k : string) (l : list (string * A)) : option A :=
  match l with [] => None | (k', v) :: r => if (k =? k')%string then Some v else look_up k r end.

(** UN:315-342 [remove_chars] with "([{<)]}> ". *)
Definition dropped (a : ascii) : bool := existsb (Ascii.eqb a) ["("; "["; "{"; "<"; ")"; "]"; "}"; ">"; " "]%char.
Fixpoint remove_chars (s : string) : string :=
  match s with EmptyString => EmptyString | String a r => if dropped a then remove_chars r else String a (remove_chars r) end.
(** "Unnamed" in the text. *)
Fixpoint contains (p s : string) : bool := prefix p s || match s with EmptyString => false | String _ r => contains p r end.
(** UN:144-158 [get_unit_enum], after the names of the members. *)
Definition stripped_unit (s : string) : outcome munit :=
  if (s =? "-")%string || (s =? "")%string || contains "Unnamed" s then Ok NO_UNIT else match look_up s aliases with Some u => Ok u | None => Throw end.
Definition get_unit_enum (s : string) : outcome munit :=
  match look_up s members with Some u => Ok u | None => stripped_unit (remove_chars s) end.
(** A name of a column can be a sequence of texts: remove_chars puts those together that are not in the text "([{<)]}> " (UN:187, UN:337-340). *)
Definition column_unit (name : list string) : outcome munit :=
  match name with
  | [s] => get_unit_enum s
  | _ => stripped_unit (String.concat "" (filter (fun s => negb (contains s "([{<)]}> ")) name))
  end.

(** UN:257-312 [convert_unit]. *)
Definition convert_known (v : R) (a b : munit) : outcome R :=
  match a, b with
  | MM, M => Ok (v / 1000) | M, MM => Ok (v * 1000) | M, KM => Ok (v / 1000) | KM, M => Ok (v * 1000)
  | M2, KM2 => Ok (v / 1000000) | KM2, M2 => Ok (v * 1000000)
  | DAYS, H => Ok (v * 24) | DAYS, SEC => Ok (v * 86400) | H, DAYS => Ok (v / 24) | H, SEC => Ok (v * 3600) | SEC, DAYS => Ok (v / 86400) | SEC, H => Ok (v / 3600)
  | MM_D, MM_H => Ok (v / 24) | MM_H, MM_D => Ok (v * 24)
  | _, _ => Throw
  end.
Definition munit_eqb (a b : munit) : bool := (text_of a =? text_of b)%string.
Definition convert_unit (v : R) (a b : string) : outcome R :=
  bind (get_unit_enum a) (fun ua => bind (get_unit_enum b) (fun ub => if munit_eqb ua ub then Ok v else convert_known v ua ub)).
(** UN:198-232 [convert_unit_df]: the column by column conversion of the values. *)
Definition convert_column (name : list string) (vs : list R) (b : string) : outcome (list R) :=
  bind (column_unit name) (fun ua => bind (get_unit_enum b) (fun ub =>
    if munit_eqb ua ub then Ok vs
    else bind (get_unit_enum (text_of ua)) (fun ua => bind (get_unit_enum (text_of ub)) (fun ub =>
      fold_right (fun v r => bind (if munit_eqb ua ub then Ok v else convert_known v ua ub) (fun w => bind r (fun ws => Ok (w :: ws)))) (Ok []) vs)))).
