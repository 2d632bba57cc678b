(** Vocabulary of the properties on the settings of the model. *)
From Coq Require Import String Ascii.
From Verif Require Import Base Logger LoggerSpec Settings.

(** ** Places of parameters *)
Inductive side := OfUnits | OfBasin.
Inductive place := BrickPlace (s : side) (i k : nat) | ProcessPlace (s : side) (i j k : nat) | SplitterPlace (s : side) (i k : nat).
Definition bricks_of (st : structure) (s : side) : list sbrick := match s with OfUnits => str_unit_bricks st | OfBasin => str_basin_bricks st end.
Definition splitters_of (st : structure) (s : side) : list ssplitter := match s with OfUnits => str_unit_splitters st | OfBasin => str_basin_splitters st end.
(** The parameter at a place. *)
Definition param_in (b : sbrick) (j : option nat) (k : nat) : option sparameter :=
  match j with
  | None => nth_error (br_params b) k
  | Some j => match nth_error (br_processes b) j with Some p => nth_error (pr_params p) k | None => None end
  end.
Definition param_at (st : structure) (p : place) : option sparameter :=
  match p with
  | BrickPlace s i k => match nth_error (bricks_of st s) i with Some b => param_in b None k | None => None end
  | ProcessPlace s i j k => match nth_error (bricks_of st s) i with Some b => param_in b (Some j) k | None => None end
  | SplitterPlace s i k => match nth_error (splitters_of st s) i with Some x => nth_error (sl_params x) k | None => None end
  end.
(** Everything but the values of the parameters. *)
Definition blank (l : list sparameter) : list string := map sp_name l.
Definition blank_brick (b : sbrick) := (br_name b, br_type b, br_log b, blank (br_params b), map (fun p => (pr_name p, pr_log p, blank (pr_params p))) (br_processes b)).
Definition blank_splitter (s : ssplitter) := (sl_name s, sl_log s, blank (sl_params s)).
Definition blank_structure (st : structure) :=
  (str_log st, map blank_brick (str_unit_bricks st), map blank_brick (str_basin_bricks st), str_covers st, map blank_splitter (str_unit_splitters st), map blank_splitter (str_basin_splitters st)).

(** The index of the first element with a property. *)
Definition first_with {X} (P : X -> Prop) (l : list X) (i : nat) : Prop :=
  (exists x, nth_error l i = Some x /\ P x) /\ forall j y, (j < i)%nat -> nth_error l j = Some y -> ~ P y.
(** The parameter of a brick with a name: the first one of the brick itself, or else the first one of its first process that has one. *)
Definition named_in (name : string) (b : sbrick) (j : option nat) (k : nat) : Prop :=
  match j with
  | None => first_with (fun p => sp_name p = name) (br_params b) k
  | Some j => (forall p, In p (br_params b) -> sp_name p <> name) /\
      first_with (fun q => exists p, In p (pr_params q) /\ sp_name p = name) (br_processes b) j /\
      exists q, nth_error (br_processes b) j = Some q /\ first_with (fun p => sp_name p = name) (pr_params q) k
  end.
(** The component with a name in a variant: the first brick of the units, or else of the sub-basin, or else the first splitter. *)
Definition brick_called (st : structure) (comp : string) (s : side) (i : nat) : Prop :=
  first_with (fun b => br_name b = comp) (bricks_of st s) i /\ match s with OfUnits => True | OfBasin => forall b, In b (str_unit_bricks st) -> br_name b <> comp end.
Definition splitter_called (st : structure) (comp : string) (s : side) (i : nat) : Prop :=
  first_with (fun x => sl_name x = comp) (splitters_of st s) i /\ (forall b t, In b (bricks_of st t) -> br_name b <> comp) /\
  match s with OfUnits => True | OfBasin => forall x, In x (str_unit_splitters st) -> sl_name x <> comp end.
Definition designated (st : structure) (comp name : string) (p : place) : Prop :=
  match p with
  | BrickPlace s i k => brick_called st comp s i /\ exists b, nth_error (bricks_of st s) i = Some b /\ named_in name b None k
  | ProcessPlace s i j k => brick_called st comp s i /\ exists b, nth_error (bricks_of st s) i = Some b /\ named_in name b (Some j) k
  | SplitterPlace s i k => splitter_called st comp s i /\ exists x, nth_error (splitters_of st s) i = Some x /\ first_with (fun q => sp_name q = name) (sl_params x) k
  end.
Definition has_component (st : structure) (comp : string) : Prop := (exists s b, In b (bricks_of st s) /\ br_name b = comp) \/ (exists s x, In x (splitters_of st s) /\ sl_name x = comp).
(** Exactly the designated parameters have got the value. *)
Definition only_changed (chosen : place -> Prop) (name : string) (v : R) (st st' : structure) : Prop :=
  blank_structure st' = blank_structure st /\
  forall p, (chosen p -> param_at st' p = Some (mkPar name v)) /\ (~ chosen p -> param_at st' p = param_at st p).

(** ** Selection by type *)
(** The type of the bricks of a name "type:...": the part after the first colon; "land_cover" is for the generic covers and the glaciers. *)
Definition type_selector (comp type : string) : Prop := exists a, comp = (a ++ "type:" ++ type)%string /\ no_colon a.
Definition of_type (type : string) (b : sbrick) : Prop := br_type b = type \/ (type = "land_cover"%string /\ In (br_type b) ["generic_land_cover"; "ground"; "generic"; "open"; "glacier"]%string).
Definition designated_by_type (st : structure) (type name : string) (p : place) : Prop :=
  match p with
  | BrickPlace OfUnits i k => exists b, nth_error (str_unit_bricks st) i = Some b /\ of_type type b /\ named_in name b None k
  | ProcessPlace OfUnits i j k => exists b, nth_error (str_unit_bricks st) i = Some b /\ of_type type b /\ named_in name b (Some j) k
  | _ => False
  end.
Definition has_parameter (name : string) (b : sbrick) : Prop := exists j k, named_in name b j k.

(** ** Labels *)
(** [a] is declared before [b]: it has an occurrence before all those of [b]. *)
Definition declared_before (l : list string) (a b : string) : Prop := exists l1 l2, l = (l1 ++ a :: l2)%list /\ ~ In b l1 /\ a <> b.

(** ** Variants *)
Definition same_covers (a b : list string) : Prop := forall x, In x a <-> In x b.
(** Number of distinct names. *)
Definition distinct_count (l : list string) (n : nat) : Prop := exists d, NoDup d /\ same_covers d l /\ length d = n.
(** The covers present in a unit: those whose fraction is not negligible (1e-8). *)
Definition is_present (covers : list (string * R)) (c : string) : Prop := exists f, In (c, f) covers /\ PRECISION < Rabs f.
Definition exactly_for (covers : list (string * R)) (st : structure) : Prop := forall c, In c (cover_names st) <-> is_present covers c.
Definition enough_for (covers : list (string * R)) (st : structure) : Prop := forall c, is_present covers c -> In c (cover_names st).
(** With the fewest / the most distinct covers among the variants that satisfy [P]. *)
Definition smallest (P : structure -> Prop) (S : settings) (st : structure) : Prop :=
  P st /\ forall st' n n', In st' S -> P st' -> distinct_count (cover_names st) n -> distinct_count (cover_names st') n' -> (n <= n')%nat.
Definition largest (S : settings) (st : structure) : Prop :=
  forall st' n n', In st' S -> distinct_count (cover_names st) n -> distinct_count (cover_names st') n' -> (n' <= n)%nat.

(** ** Lists of components *)
Definition spaces (s : string) : Prop := forall c, In c (list_ascii_of_string s) -> c = " "%char.
(** A name without commas that neither starts nor ends with a space. *)
Definition clean_name (n : string) : Prop :=
  n <> ""%string /\ ~ has_text "," n /\ (forall r, n <> (" " ++ r)%string) /\ (forall r, n <> (r ++ " ")%string).
(** The text of a list: names separated by commas, with any spaces around them. *)
Inductive listed : string -> list string -> Prop :=
| listed_one a n b : spaces a -> spaces b -> clean_name n -> listed (a ++ n ++ b)%string [n]
| listed_more a n b t ns : spaces a -> spaces b -> clean_name n -> listed t ns -> listed (a ++ n ++ b ++ "," ++ t)%string (n :: ns).
(** One call per name, until one does not return true. *)
Fixpoint in_turn (names : list string) (name : string) (v : R) (S : settings) : settings * option bool :=
  match names with
  | [] => (S, Some true)
  | n :: r => match set_parameter_value n name v S with (S', Some true) => in_turn r name v S' | other => other end
  end.

(** ** Well-named settings *)
(** Distinct names without colons for the components and, in each brick, for its processes; the items of a component are distinct, without colons
    (the functions Add...Logging add an item once, SettingsModel.cpp:433-489). *)
Definition good_items (l : list string) : Prop := NoDup l /\ forall i, In i l -> no_colon i.
Definition good_brick (b : sbrick) : Prop :=
  no_colon (br_name b) /\ good_items (br_log b) /\ NoDup (map pr_name (br_processes b)) /\ forall p, In p (br_processes b) -> no_colon (pr_name p) /\ good_items (pr_log p).
Definition good_splitter (s : ssplitter) : Prop := no_colon (sl_name s) /\ good_items (sl_log s).
Definition good_names (st : structure) (s : side) : Prop :=
  NoDup (map br_name (bricks_of st s) ++ map sl_name (splitters_of st s))%list /\
  (forall b, In b (bricks_of st s) -> good_brick b) /\ (forall x, In x (splitters_of st s) -> good_splitter x) /\ good_items (str_log st).
