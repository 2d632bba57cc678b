(** Vocabulary of the theorems about land cover fractions from maps (C93).  Definitions only. *)
From Coq Require Export String.
From Verif Require Export LandCoverExtract.
Open Scope R_scope.

(** The number of cells of a unit that have a property. *)
Definition cells (ids : list Z) {A} (values : list A) (P : A -> bool) (id : Z) : R := INR (length (filter (fun p => (fst p =? id)%Z && P (snd p))%bool (combine ids values))).
(** The class [c] is mapped to the cover. *)
Definition mapped_to (m : mapping) (name : string) (c : Z) : bool := existsb (fun p => (class_of (fst p) =? c)%Z && (snd p =? name)%string)%bool m.
(** Soil: a cover with a generic name or type. *)
Definition generic_word (s : string) : Prop := In s ["open"; "ground"; "generic"; "generic_land_cover"]%string.
Definition soil (c : string * string) : Prop := generic_word (fst c) \/ generic_word (snd c).
(** The soil cover that takes the rest: the first one. *)
Definition rest_cover (covers : list (string * string)) (g : string) : Prop := exists before type after, covers = before ++ (g, type) :: after /\ soil (g, type) /\ forall c, In c before -> ~ soil c.
Definition one_of_each (hs : cover_units) : Prop := NoDup (map fst (cu_covers hs)) /\ NoDup (map cu_id (cu_units hs)).
(** Everything is soil. *)
Definition all_soil (hs : cover_units) (g : string) : Prop :=
  rest_cover (cu_covers hs) g /\ forall u, In u (cu_units hs) -> cu_frac u g = 1 /\ forall n, In n (map fst (cu_covers hs)) -> n <> g -> cu_frac u n = 0.
(** The units are those of the grid, with the area of their cells. *)
Definition on_grid (px : R) (ids : list Z) (hs : cover_units) : Prop :=
  0 < px /\ (forall u, In u (cu_units hs) -> cu_id u <> 0%Z /\ 0 < cu_area u /\ cu_area u = cells ids ids (fun _ => true) (cu_id u) * px) /\
  forall i, In i ids -> i <> 0%Z -> In i (map cu_id (cu_units hs)).
Definition same_units (us us' : list cunit) : Prop := Forall2 (fun u u' => cu_id u' = cu_id u /\ cu_area u' = cu_area u) us us'.
(** The fractions of a unit add up to one and none is negative. *)
Definition whole (covers : list (string * string)) (u : cunit) : Prop := Rsum (cu_frac u) (map fst covers) = 1 /\ forall n, In n (map fst covers) -> 0 <= cu_frac u n.
(** The entries of an optional dictionary. *)
Definition entries (d : option mapping) : mapping := match d with Some l => l | None => [] end.
