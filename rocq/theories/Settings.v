(** Model of the settings of the model: setting parameters by component (C42), labels of the log (C43), choice of the structure variants (C41).
    Sources: core/src/base/SettingsModel.cpp, core/src/base/SettingsModel.h, core/src/base/ModelBuilder.cpp, core/src/bricks/BrickTypes.cpp.
    Simplifications: forcing, outputs and parents of components are not represented; a selected element (pointer) is the element itself. *)
From Coq Require Export String Ascii.
From Verif Require Export Base Logger.
Open Scope string_scope.

(** SettingsModel.h:30-68. *)
Record sparameter := mkPar { sp_name : string; sp_value : R }.
Record sprocess := mkProc { pr_name : string; pr_log : list string; pr_params : list sparameter }.
Record sbrick := mkBrick { br_name : string; br_type : string; br_log : list string; br_params : list sparameter; br_processes : list sprocess }.
Record ssplitter := mkSplit { sl_name : string; sl_log : list string; sl_params : list sparameter }.
Record structure := mkStr {
  str_log : list string;
  str_unit_bricks : list sbrick;
  str_basin_bricks : list sbrick;
  str_covers : list nat;                  (* landCoverBricks: indices in the bricks of the units *)
  str_unit_splitters : list ssplitter;
  str_basin_splitters : list ssplitter }.
(** The variants; their identifiers are 1, 2, ... in order (SettingsModel.cpp:636-651 [AddStructure]). *)
Definition settings := list structure.

(** ** Setting a parameter *)

(** What a change of one element gives: there is no such element, it was changed, or an exception left. *)
Inductive change := NotThere | Changed | Raised.

(** SettingsModel.cpp:127-133, 236-242, 346-352: the first parameter with the name. *)
Fixpoint set_param (name : string) (v : R) (l : list sparameter) : option (list sparameter) :=
  match l with
  | [] => None
  | p :: r => if String.eqb (sp_name p) name then Some (mkPar (sp_name p) v :: r) else match set_param name v r with Some r' => Some (p :: r') | None => None end
  end.
(** SettingsModel.cpp:746-759 [SelectProcessWithParameter], 228-245 [SetProcessParameterValue]: the first process with the parameter. *)
Fixpoint set_process_param (name : string) (v : R) (l : list sprocess) : option (list sprocess) :=
  match l with
  | [] => None
  | p :: r =>
    match set_param name v (pr_params p) with
    | Some ps => Some (mkProc (pr_name p) (pr_log p) ps :: r)
    | None => match set_process_param name v r with Some r' => Some (p :: r') | None => None end
    end
  end.
(** SettingsModel.cpp:971-976: the parameter of the brick, or that of a process of it; None: an exception. *)
Definition set_in_brick (name : string) (v : R) (b : sbrick) : option sbrick :=
  match set_param name v (br_params b) with
  | Some ps => Some (mkBrick (br_name b) (br_type b) (br_log b) ps (br_processes b))
  | None =>
    match set_process_param name v (br_processes b) with
    | Some prs => Some (mkBrick (br_name b) (br_type b) (br_log b) (br_params b) prs)
    | None => None
    end
  end.
(** SettingsModel.cpp:338-355 [SetSplitterParameterValue]. *)
Definition set_in_splitter (name : string) (v : R) (s : ssplitter) : option ssplitter :=
  match set_param name v (sl_params s) with Some ps => Some (mkSplit (sl_name s) (sl_log s) ps) | None => None end.

(** The first element that satisfies a test (the Select...IfFound functions, SettingsModel.cpp:683-707, 772-794), changed by [f]. *)
Fixpoint on_first {X} (test : X -> bool) (f : X -> option X) (l : list X) : list X * change :=
  match l with
  | [] => ([], NotThere)
  | x :: r => if test x then match f x with Some y => (y :: r, Changed) | None => (l, Raised) end
              else let '(r', c) := on_first test f r in (x :: r', c)
  end.
Definition brick_named (n : string) (b : sbrick) : bool := String.eqb (br_name b) n.
Definition splitter_named (n : string) (s : ssplitter) : bool := String.eqb (sl_name s) n.

Definition with_unit_bricks (st : structure) l := mkStr (str_log st) l (str_basin_bricks st) (str_covers st) (str_unit_splitters st) (str_basin_splitters st).
Definition with_basin_bricks (st : structure) l := mkStr (str_log st) (str_unit_bricks st) l (str_covers st) (str_unit_splitters st) (str_basin_splitters st).
Definition with_unit_splitters (st : structure) l := mkStr (str_log st) (str_unit_bricks st) (str_basin_bricks st) (str_covers st) l (str_basin_splitters st).
Definition with_basin_splitters (st : structure) l := mkStr (str_log st) (str_unit_bricks st) (str_basin_bricks st) (str_covers st) (str_unit_splitters st) l.

(** component.substr(component.find(':') + 1). *)
Fixpoint after_colon (s : string) : string :=
  match s with EmptyString => EmptyString | String c r => if Ascii.eqb c ":" then r else after_colon r end.
(** BrickTypes.cpp:7-19: the names of the types GenericLandCover and Glacier; SettingsModel.cpp:988-997. *)
Definition land_cover_types : list string := ["generic_land_cover"; "ground"; "generic"; "open"; "glacier"].
Definition type_matches (type brick_type : string) : bool :=
  String.eqb brick_type type || (String.eqb type "land_cover" && existsb (String.eqb brick_type) land_cover_types).

(** SettingsModel.cpp:1000-1023: the bricks of the type, each selected again by its name among the bricks of the units; a name that is not
    there is an exception. *)
Fixpoint set_by_names (names : list string) (name : string) (v : R) (l : list sbrick) : list sbrick * change :=
  match names with
  | [] => (l, Changed)
  | n :: r => match on_first (brick_named n) (set_in_brick name v) l with
              | (l', Changed) => set_by_names r name v l'
              | (l', _) => (l', Raised)
              end
  end.
Definition names_of_type (type : string) (l : list sbrick) : list string := map br_name (filter (fun b => type_matches type (br_type b)) l).

(** SettingsModel.cpp:968-1032 [SetParameterValueInSelectedStructure]. *)
Definition set_in_structure (comp name : string) (v : R) (st : structure) : structure * change :=
  match on_first (brick_named comp) (set_in_brick name v) (str_unit_bricks st) with
  | (l, Changed) => (with_unit_bricks st l, Changed)
  | (_, Raised) => (st, Raised)
  | (_, NotThere) =>
  match on_first (brick_named comp) (set_in_brick name v) (str_basin_bricks st) with
  | (l, Changed) => (with_basin_bricks st l, Changed)
  | (_, Raised) => (st, Raised)
  | (_, NotThere) =>
  match on_first (splitter_named comp) (set_in_splitter name v) (str_unit_splitters st) with
  | (l, Changed) => (with_unit_splitters st l, Changed)
  | (_, Raised) => (st, Raised)
  | (_, NotThere) =>
  match on_first (splitter_named comp) (set_in_splitter name v) (str_basin_splitters st) with
  | (l, Changed) => (with_basin_splitters st l, Changed)
  | (_, Raised) => (st, Raised)
  | (_, NotThere) =>
  if contains "type:" comp then
    match set_by_names (names_of_type (after_colon comp) (str_unit_bricks st)) name v (str_unit_bricks st) with
    | (l, Changed) =>
      let '(l', c) := set_by_names (names_of_type (after_colon comp) (str_basin_bricks st)) name v l in (with_unit_bricks st l', c)
    | (l, c) => (with_unit_bricks st l, c)
    end
  else (st, NotThere)
  end end end end.

(** SettingsModel.cpp:946-966: every variant; an exception stops. *)
Fixpoint set_in_variants (comp name : string) (v : R) (S : settings) : settings * change :=
  match S with
  | [] => ([], NotThere)
  | st :: r =>
    match set_in_structure comp name v st with
    | (st', Raised) => (st' :: r, Raised)
    | (st', c) => let '(r', c') := set_in_variants comp name v r in
                  (st' :: r', match c, c' with _, Raised => Raised | Changed, _ => Changed | NotThere, _ => c' | Raised, _ => Raised end)
    end
  end.

(** SettingsModel.cpp:925-935: the parts of a list separated by commas, without the spaces around them, the empty ones left out. *)
Fixpoint split_commas (s : string) : list string :=
  match s with
  | EmptyString => [EmptyString]
  | String c r => if Ascii.eqb c "," then EmptyString :: split_commas r
                  else match split_commas r with t :: l => String c t :: l | [] => [String c EmptyString] end
  end.
Fixpoint trim_left (s : string) : string := match s with EmptyString => EmptyString | String c r => if Ascii.eqb c " " then trim_left r else s end.
Fixpoint trim_right (s : string) : string :=
  match s with
  | EmptyString => EmptyString
  | String c r => match trim_right r with EmptyString => if Ascii.eqb c " " then EmptyString else String c EmptyString | t => String c t end
  end.
Definition components_of (s : string) : list string := filter (fun t => negb (String.eqb t "")) (map (fun t => trim_right (trim_left t)) (split_commas s)).

(** SettingsModel.cpp:923-966 [SetParameterValue]: the settings afterwards, and the result: true, false or an exception (None). *)
Fixpoint set_list (comps : list string) (name : string) (v : R) (S : settings) : settings * option bool :=
  match comps with
  | [] => (S, Some true)
  | c :: r => match set_in_variants c name v S with
              | (S', Changed) => set_list r name v S'
              | (S', NotThere) => (S', Some false)
              | (S', Raised) => (S', None)
              end
  end.
Definition set_parameter_value (comp name : string) (v : R) (S : settings) : settings * option bool :=
  if contains "," comp then set_list (components_of comp) name v S
  else match set_in_variants comp name v S with (S', Changed) => (S', Some true) | (S', NotThere) => (S', Some false) | (S', Raised) => (S', None) end.

(** ** Labels of the log *)

(** What a label records: an item of a brick, of a process of a brick, of a splitter, or of the sub-basin. *)
Inductive source := BrickItem (brick item : string) | ProcessItem (brick : string) (process : nat) (item : string) | SplitterItem (splitter : nat) (item : string) | BasinItem (item : string).
(** The labels a variant declares, in order, with what they record: SettingsModel.cpp:821-838 (units), 884-905 (sub-basin);
    ModelBuilder.cpp:735-804, 822-873 visit the components in the same order. *)
Definition indexed {X} (l : list X) : list (nat * X) := combine (seq 0 (length l)) l.
Definition brick_labels (b : sbrick) : list (string * source) :=
  map (fun i => (br_name b ++ ":" ++ i, BrickItem (br_name b) i)) (br_log b) ++
  concat (map (fun '(k, p) => map (fun i => (br_name b ++ ":" ++ pr_name p ++ ":" ++ i, ProcessItem (br_name b) k i)) (pr_log p)) (indexed (br_processes b))).
Definition splitter_labels (ks : nat * ssplitter) : list (string * source) := map (fun i => (sl_name (snd ks) ++ ":" ++ i, SplitterItem (fst ks) i)) (sl_log (snd ks)).
Definition unit_labels (st : structure) : list (string * source) := concat (map brick_labels (str_unit_bricks st)) ++ concat (map splitter_labels (indexed (str_unit_splitters st))).
Definition basin_labels (st : structure) : list (string * source) :=
  concat (map brick_labels (str_basin_bricks st)) ++ concat (map splitter_labels (indexed (str_basin_splitters st))) ++ map (fun i => (i, BasinItem i)) (str_log st).

(** The lambda [add] of SettingsModel.cpp:813-818, 878-883: a label is appended the first time it is seen. *)
Definition add_label (seen : list string) (l : string) : list string := if existsb (String.eqb l) seen then seen else (seen ++ [l])%list.
Definition union_labels (l : list string) : list string := fold_left add_label l [].
(** SettingsModel.cpp:808-841 [GetHydroUnitLogLabels], 873-909 [GetSubBasinLogLabels]. *)
Definition hydro_unit_log_labels (S : settings) : list string := union_labels (concat (map (fun st => map fst (unit_labels st)) S)).
Definition sub_basin_log_labels (S : settings) : list string := union_labels (concat (map (fun st => map fst (basin_labels st)) S)).

(** ModelBuilder.cpp:728-804: the pointers of the sub-basin are set by position, in the order of the declarations of the first variant; a
    position outside the vector is undefined, positions that are not set stay null. *)
Definition sub_basin_pointers (S : settings) : outcome (list (option source)) :=
  match S with
  | [] => UB
  | st :: _ =>
    let n := length (sub_basin_log_labels S) in
    let declared := map (fun d => Some (snd d)) (basin_labels st) in
    if Nat.leb (length declared) n then Ok (declared ++ repeat None (n - length declared))%list else UB
  end.
(** Logger.cpp:78-82, 98-101: SaveInitialValues and Record read every pointer of the sub-basin. *)
Definition sub_basin_read (S : settings) : outcome (list source) :=
  bind (sub_basin_pointers S) (fun ps => fold_right (fun p r => match p with Some s => bind r (fun l => Ok (s :: l)) | None => UB end) (Ok []) ps).
(** ModelBuilder.cpp:806-873: the pointers of a unit are set by label; the last declaration wins. *)
Definition unit_pointers (S : settings) (st : structure) : list (option source) :=
  map (fun l => fold_left (fun p '(l', s) => if String.eqb l' l then Some s else p) (unit_labels st) None) (hydro_unit_log_labels S).

(** ** Choice of the variant of a unit *)

(** std::set<string> from a list: the distinct elements (the order does not matter here). *)
Definition string_set (l : list string) : list string := nodup string_dec l.
Definition includes (a b : list string) : bool := forallb (fun x => existsb (String.eqb x) a) b.
Definition same_set (a b : list string) : bool := includes a b && includes b a.
(** SettingsModel.cpp:862-871 [GetSelectedStructureLandCoverNames]. *)
Definition cover_names (st : structure) : list string := map (fun i => match nth_error (str_unit_bricks st) i with Some b => br_name b | None => "" end) (str_covers st).
(** ModelBuilder.cpp:53-59: the covers present in a unit. *)
Definition present_covers (covers : list (string * R)) : list string := string_set (map fst (filter (fun c => negb (NearlyZero (snd c) PRECISION)) covers)).
(** ModelBuilder.cpp:61-68: the first variant with exactly these covers (identifiers from [id]). *)
Fixpoint exact_variant (id : nat) (vs : list (list string)) (present : list string) : option nat :=
  match vs with [] => None | v :: r => if same_set v present then Some id else exact_variant (S id) r present end.
(** ModelBuilder.cpp:74-91: [small]: smallest superset so far and its size; [large]: largest so far and its size. *)
Fixpoint best_variant (id : nat) (vs : list (list string)) (present : list string) (small : option (nat * nat)) (large : nat * nat) : nat :=
  match vs with
  | [] => match small with Some (i, _) => i | None => fst large end
  | v :: r =>
    best_variant (S id) r present
      (if includes v present && match small with Some (_, n) => Nat.ltb (length v) n | None => true end then Some (id, length v) else small)
      (if Nat.ltb (snd large) (length v) then (id, length v) else large)
  end.
(** ModelBuilder.cpp:36-96 [AssignHydroUnitStructures] for one unit (with one variant the identifier stays 1, HydroUnit.h). *)
Definition assign_variant (S : settings) (covers : list (string * R)) : nat :=
  if Nat.leb (length S) 1 then 1%nat
  else let vs := map (fun st => string_set (cover_names st)) S in
       let present := present_covers covers in
       match exact_variant 1 vs present with Some i => i | None => best_variant 1 vs present None (1%nat, 0%nat) end.
