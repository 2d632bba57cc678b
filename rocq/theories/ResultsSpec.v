(** The results file: what a user expects.  Definitions only. *)
From Verif Require Export Results.
Open Scope R_scope.

(** A pointer for each label of the sub-basin, at most one for each label and unit. *)
Definition well_connected {P} (units : nat) (sub_labels : list string) (sub_pt : list (pointer P)) (labels : list string) (pt : list (list (pointer P)))
    (covers : list string) (fractions_pt : list (list (pointer P))) : Prop :=
  length sub_pt = length sub_labels /\ length pt = length labels /\ length fractions_pt = length covers /\
  (forall p, In p sub_pt -> p <> None) /\ (forall l, In l pt -> length l = units) /\ (forall l, In l fractions_pt -> length l = units).
(** The value a pointer shows in a state: none (NaN) if the unit does not have the component. *)
Definition shown {P} (p : pointer P) (state : P) : value := match p with Some f => Some (f state) | None => None end.
(** What was recorded: the state of each step of the run, in order. *)
Definition state_at {P} (run : list (R * P)) (t : nat) : option P := option_map snd (nth_error run t).
Definition recorded {P} (run : list (R * P)) (p : pointer P) (t : nat) : value := match state_at run t with Some s => shown p s | None => None end.

Definition date_at {P} (run : list (R * P)) (t : nat) : value := option_map fst (nth_error run t).
(** The pointer of a label and unit. *)
Definition pointer_of {P} (pt : list (list (pointer P))) (i u : nat) : pointer P := nth u (nth i pt []) None.

(** A component is found under its full name, or under an end of exactly one name. *)
Definition names_label (labels : list string) (component label : string) : Prop :=
  In label labels /\ (component = label \/ (~ In component labels /\ (exists a, label = a ++ component)%string /\
    forall l, In l labels -> (exists a, l = a ++ component)%string -> l = label)).

(** Amounts on the land covers: the content of cover [c] in unit [u] at time [t] (nothing if no such cell) and its area. *)
Definition mean_of (cells : list (R * R)) (m : R) : Prop := m * Rsum snd cells = Rsum (fun c => fst c * snd c) cells.
(** The snow on a land cover in a unit: the recorded content of its snowpack, nothing if it has none. *)
Definition snow_on (f : results_file) (cover : string) (u t : nat) (v : value) : Prop :=
  (exists i, nth_error (rf_labels f) i = Some (cover ++ "_snowpack:snow_content")%string /\ v = rf_values f i u t) \/
  (~ In (cover ++ "_snowpack:snow_content")%string (rf_labels f) /\ v = Some 0).
(** The area of a land cover in a unit: its recorded part of the area of the unit (none: the unit does not have it). *)
Definition area_of (f : results_file) (cover : string) (u t : nat) (a : value) : Prop :=
  exists i, nth_error (rf_covers f) i = Some cover /\
    ((exists x y, nth_error (rf_areas f) u = Some x /\ rf_fractions f i u t = Some y /\ a = Some (x * y)) \/
     ((nth_error (rf_areas f) u = None \/ rf_fractions f i u t = None) /\ a = None)).
(** The cells that exist. *)
Definition present (l : list (value * value)) : list (R * R) := flat_map (fun c => match c with (Some v, Some a) => [(v, a)] | _ => [] end) l.
(** No cover is mistaken for another: the name of its snowpack, if it has none, does not end the name of another. *)
Definition clear_covers (f : results_file) : Prop :=
  NoDup (rf_covers f) /\ NoDup (rf_labels f) /\
  forall c l, In c (rf_covers f) -> In l (rf_labels f) -> (exists a, l = a ++ c ++ "_snowpack:snow_content")%string -> In (c ++ "_snowpack:snow_content")%string (rf_labels f).
