(** Forcing data: what a user expects.  Definitions only. *)
From Verif Require Export ForcingFile.
Open Scope R_scope.

(** The value of a variable of the file at the [t]-th date for the [i]-th unit of the file, whatever the order of its dimensions. *)
Definition value_of (v : variable) (t i : nat) : R := if v_time_first v then v_cell v t i else v_cell v i t.
(** The series a unit must receive. *)
Definition unit_series (v : variable) (times i : nat) : list R := map (fun t => value_of v t i) (seq 0 times).
Definition array_series (a : array) (times i : nat) : list R := map (fun t => a_at a t i) (seq 0 times).
(** What was attached to the [k]-th unit for a type of forcing. *)
Definition attached_to (k ty : nat) (l : list (nat * nat * series R)) : list (series R) :=
  map snd (filter (fun x => Nat.eqb (fst (fst x)) k && Nat.eqb (snd (fst x)) ty) l).
(** Dates of a daily and of an hourly file. *)
Definition daily_dates (first : Z) (n : nat) : list R := map (fun i => IZR (first + Z.of_nat i)) (seq 0 n).
Definition hourly_dates (first : Z) (n : nat) : list R := map (fun i => IZR first + INR i / 24) (seq 0 n).
(** A text in capital letters. *)
Fixpoint capitals (s : string) : string := match s with EmptyString => EmptyString | String c r => String (upper c) (capitals r) end.
(** The names of the variables, by type of forcing, in capital letters. *)
Definition known_names : list (list string) :=
  [["PRECIPITATION"; "P"]; ["TEMPERATURE"; "T"]; ["TEMPERATURE_MIN"; "T_MIN"]; ["TEMPERATURE_MAX"; "T_MAX"];
   ["SOLAR_RADIATION"; "R_SOLAR"; "R"]; ["PET"; "ETP"]; ["CUSTOM_1"]; ["CUSTOM_2"]; ["CUSTOM_3"]]%string.
