(** Vocabulary of the properties on hydro units, written without the model's conversions and look-ups. *)
From Verif Require Import Base Basin.
Open Scope string_scope.
Open Scope R_scope.

(** The number [v] expresses the slope angle [a] (radians) in the unit [u]. *)
Definition reads_angle (u : string) (a v : R) : Prop :=
  (In u ["degrees"; "degree"; "deg"; "°"] /\ a = v * PI / 180) \/
  (In u ["radians"; "rad"] /\ v = a) \/
  (In u ["percent"; "%"] /\ v = 100 * tan a) \/
  (In u ["m/m"; "m_per_m"] /\ v = tan a).
(** The number [v] expresses the area [s] (square metres) in the unit [u]. *)
Definition reads_area (u : string) (s v : R) : Prop :=
  (In u ["m2"; "m^2"] /\ v = s) \/ (In u ["ha"] /\ s = v * 10000) \/ (In u ["km2"; "km^2"] /\ s = v * 1000000).
(** [v] in the unit [u] and [v'] in the unit [u'] are the same quantity. *)
Definition same_quantity (u : string) (v : R) (u' : string) (v' : R) : Prop :=
  (u = u' /\ v = v') \/ (exists a, reads_angle u a v /\ reads_angle u' a v') \/ (exists s, reads_area u s v /\ reads_area u' s v').

(** The conversions that are available. *)
Definition convertible (u u' : string) : Prop :=
  u = u' \/
  (In u ["degrees"; "deg"] /\ In u' ["degrees"; "deg"; "radians"; "rad"; "percent"; "%"; "m/m"; "m_per_m"]) \/
  (In u ["m2"; "m^2"] /\ In u' ["ha"; "km2"; "km^2"]).

(** A reading is possible when a property of that name was declared. *)
Definition reading_name (r : reading) : string := match r with ReadNumber n _ => n | ReadText n => n end.
Definition declares (u : unit_decl) (n : string) : Prop := In n (map (fun p => fst (fst p)) (ud_numbers u)) \/ In n (map fst (ud_texts u)).

(** A unit as declared by a row of the table of units. *)
Definition numbers_of (l : list (string * pvalue * string)) : list (string * R * string) :=
  flat_map (fun '(n, v, u) => match v with Num x => [(n, x, u)] | Text _ => [] end) l.
Definition texts_of (l : list (string * pvalue * string)) : list (string * string) :=
  flat_map (fun '(n, v, _) => match v with Num _ => [] | Text s => [(n, s)] end) l.
Definition fraction_declared (declared : string * string * R) (c : cover_decl) : Prop :=
  let '(n, t, f) := declared in
  cd_name c = n /\ cd_type c = t /\ 0 <= cd_fraction c <= 1 /\ Rabs (cd_fraction c - f) <= / 100000000 /\ (0 <= f <= 1 -> cd_fraction c = f).
Definition declared_by (r : row) (u : unit_decl) : Prop :=
  ud_id u = rw_id r /\ ud_area u = rw_area r /\ ud_elevation u = rw_elevation r /\ ud_numbers u = numbers_of (rw_props r) /\
  ud_texts u = texts_of (rw_props r) /\ Forall2 fraction_declared (rw_covers r) (ud_covers u).

(** The ids of the receivers of a unit, with their shares. *)
Definition receivers (l : list hydro_unit) (u : hydro_unit) : list (option Z * R) :=
  map (fun '(t, x) => (option_map hu_id (nth_error l t), x)) (hu_connections u).
Definition known (ids : list Z) (id : Z) : bool := existsb (Z.eqb id) ids.
(** The connections declared for the giver [id], in order, without those to unknown units. *)
Definition declared_receivers (ids : list Z) (cs : list lateral) (id : Z) : list (option Z * R) :=
  map (fun c => (Some (la_receiver c), la_fraction c)) (filter (fun c => Z.eqb (la_giver c) id && known ids (la_receiver c)) cs).
