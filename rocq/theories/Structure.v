(** Declaring the structure of a model: the editing functions of core/src/base/SettingsModel.cpp that add bricks, processes and splitters, the
    generators built on them, and the calls made by python/src/hydrobricks/models/model_settings.py and model.py.  No proofs here.

    Simplifications: one structure variant is edited at a time; parameters other than the capacity, forcing and log items are not represented
    (Settings.v has them); the splitters of the sub-basin are left out; a pointer to the selected element is its index, and the pointer to the
    selected process is dropped when another brick is selected. *)
From Coq Require Export String Ascii.
From Verif Require Export Base.
Open Scope string_scope.

(** SettingsModel.h:18-68.  core/src/base/ContentTypes.cpp:6-15. *)
Inductive ctype := Water | Snow | Ice | UnknownContent.
Record output := mkOut { o_target : string; o_type : ctype; o_now : bool; o_static : bool }.
Record process := mkPr { pr_name : string; pr_type : string; pr_outputs : list output }.
Record bset := mkBs { bs_name : string; bs_type : string; bs_parent : string; bs_directly : bool; bs_capacity : option R; bs_processes : list process }.
Record sset := mkSs { sp_name : string; sp_type : string; sp_outputs : list output }.
Record structure := mkStr { st_bricks : list bset; st_basin : list bset; st_covers : list nat; st_components : list nat; st_splitters : list sset }.
Definition empty_structure : structure := mkStr [] [] [] [] [].

(** Selection: SettingsModel.h [_selectedBrick], [_selectedProcess], [_selectedSplitter]. *)
Inductive brick_sel := NoBrick | UnitSel (i : nat) | BasinSel (i : nat).
Record editor := mkEd { ed_str : structure; ed_brick : brick_sel; ed_process : option nat; ed_splitter : option nat }.
Definition new_editor : editor := mkEd empty_structure NoBrick None None.

Fixpoint upd_nth {X} (i : nat) (f : X -> X) (l : list X) : list X :=
  match l, i with [], _ => [] | x :: r, O => f x :: r | x :: r, S j => x :: upd_nth j f r end.
(** First index of an element with a property. *)
Fixpoint index_where {X} (test : X -> bool) (l : list X) : option nat :=
  match l with [] => None | x :: r => if test x then Some O else match index_where test r with Some j => Some (S j) | None => None end end.

Definition with_bricks (st : structure) l := mkStr l (st_basin st) (st_covers st) (st_components st) (st_splitters st).
Definition with_basin (st : structure) l := mkStr (st_bricks st) l (st_covers st) (st_components st) (st_splitters st).
Definition with_covers (st : structure) l := mkStr (st_bricks st) (st_basin st) l (st_components st) (st_splitters st).
Definition with_components (st : structure) l := mkStr (st_bricks st) (st_basin st) (st_covers st) l (st_splitters st).
Definition with_splitters (st : structure) l := mkStr (st_bricks st) (st_basin st) (st_covers st) (st_components st) l.

(** ** Editing functions *)
Definition new_brick (name type : string) : bset := mkBs name type "" false None [].
(** SettingsModel.cpp:45-63 [AddHydroUnitBrick]. *)
Definition add_unit_brick (name type : string) (e : editor) : editor :=
  mkEd (with_bricks (ed_str e) (st_bricks (ed_str e) ++ [new_brick name type])%list) (UnitSel (length (st_bricks (ed_str e)))) None (ed_splitter e).
(** SettingsModel.cpp:65-83 [AddSubBasinBrick]. *)
Definition add_basin_brick (name type : string) (e : editor) : editor :=
  mkEd (with_basin (ed_str e) ((st_basin (ed_str e) ++ [new_brick name type])%list)) (BasinSel (length (st_basin (ed_str e)))) None (ed_splitter e).
(** The selected brick is changed. *)
Definition on_brick (f : bset -> bset) (e : editor) : outcome editor :=
  match ed_brick e with
  | NoBrick => UB
  | UnitSel i => Ok (mkEd (with_bricks (ed_str e) (upd_nth i f (st_bricks (ed_str e)))) (ed_brick e) (ed_process e) (ed_splitter e))
  | BasinSel i => Ok (mkEd (with_basin (ed_str e) (upd_nth i f (st_basin (ed_str e)))) (ed_brick e) (ed_process e) (ed_splitter e))
  end.
Definition selected_brick (e : editor) : option bset :=
  match ed_brick e with NoBrick => None | UnitSel i => nth_error (st_bricks (ed_str e)) i | BasinSel i => nth_error (st_basin (ed_str e)) i end.
(** SettingsModel.cpp:103-106 [SetSurfaceComponentParent], 137-140 [SetCurrentBrickComputedDirectly], 108-116 [AddBrickParameter] for "capacity"
    (Brick.cpp:79-83 reads the first one). *)
Definition set_parent (p : string) : editor -> outcome editor :=
  on_brick (fun b => mkBs (bs_name b) (bs_type b) p (bs_directly b) (bs_capacity b) (bs_processes b)).
Definition set_directly : editor -> outcome editor :=
  on_brick (fun b => mkBs (bs_name b) (bs_type b) (bs_parent b) true (bs_capacity b) (bs_processes b)).
Definition add_capacity (x : R) : editor -> outcome editor :=
  on_brick (fun b => mkBs (bs_name b) (bs_type b) (bs_parent b) (bs_directly b) (match bs_capacity b with None => Some x | c => c end) (bs_processes b)).

(** SettingsModel.cpp:177-191: "x:type" is split at its first colon. *)
Fixpoint split_colon (s : string) : string * option string :=
  match s with
  | EmptyString => (EmptyString, None)
  | String c r => if Ascii.eqb c ":" then (EmptyString, Some r) else let '(a, b) := split_colon r in (String c a, b)
  end.
(** ContentTypes.cpp:6-15. *)
Definition content_named (s : string) : ctype :=
  if String.eqb s "water" then Water else if String.eqb s "snow" then Snow else if String.eqb s "ice" then Ice else UnknownContent.
Definition outputs_for (target : string) : list output :=
  if String.eqb target "" then []
  else match split_colon target with
       | (t, Some k) => [mkOut t (content_named k) false false]
       | (t, None) => [mkOut t Water false false]
       end.

(** Process.cpp:60-68: aliases.  Process.cpp:77-405: the known types. *)
Definition resolve_alias (type : string) : string :=
  if String.eqb type "outflow:percolation" then "percolation:constant"
  else if String.eqb type "overflow" then "outflow:overflow"
  else if String.eqb type "transform:snow_ice_constant" then "transformation:snow_ice_constant"
  else if String.eqb type "transform:snow_ice_swat" then "transformation:snow_ice_swat"
  else type.
Definition water_types : list string :=
  ["outflow:linear"; "percolation:constant"; "percolation:gr4j"; "outflow:direct"; "outflow:rest"; "outflow:overflow"; "runoff:socont";
   "infiltration:socont"; "infiltration:gr4j"; "infiltration:hbv"; "runoff:hbv"; "capillary:hbv"; "routing:hbv"; "outflow:snow_holding";
   "outflow:threshold"; "refreeze:degree_day"; "production:gr4j"; "routing:gr4j"; "routing:gr6j"].
(** ProcessET.h:32, ProcessInterceptionGR4J.h (a ProcessET): to the atmosphere. *)
Definition et_types : list string :=
  ["et:socont"; "et:gr4j"; "et:hbv"; "et:open_water"; "et:linear"; "et:power_law"; "et:exponential"; "interception:gr4j"].
Definition melt_types : list string := ["melt:degree_day"; "melt:degree_day_aspect"; "melt:temperature_index"].
(** ProcessSublimation.h:46: to the atmosphere. *)
Definition sublimation_types : list string := ["sublimation:constant"; "sublimation:pet"].
Definition snow_types : list string := ["melt:cemaneige"; "transformation:snow_ice_constant"; "transformation:snow_ice_swat"].
Definition lateral_types : list string := ["transport:snow_slide"; "transport:snow_redistribution_frey"; "transport:snow_redistribution_frey_dynamic"].
Definition known_types : list string := (water_types ++ et_types ++ melt_types ++ sublimation_types ++ snow_types ++ lateral_types)%list.
Definition in_list (s : string) (l : list string) : bool := existsb (String.eqb s) l.
Definition known_process (type : string) : bool := in_list (resolve_alias type) known_types.

Definition push_process (p : process) (b : bset) : bset :=
  mkBs (bs_name b) (bs_type b) (bs_parent b) (bs_directly b) (bs_capacity b) (bs_processes b ++ [p])%list.
(** SettingsModel.cpp:165-204 [AddBrickProcess]: an unknown type is refused (Process.cpp:435-444). *)
Definition add_process (name type target : string) (e : editor) : outcome editor :=
  match selected_brick e with
  | None => UB
  | Some b =>
    bind (on_brick (push_process (mkPr name type (outputs_for target))) e) (fun e' =>
    if known_process type then Ok (mkEd (ed_str e') (ed_brick e') (Some (length (bs_processes b))) (ed_splitter e')) else Throw)
  end.
Definition on_outputs (f : list output -> list output) (p : process) : process := mkPr (pr_name p) (pr_type p) (f (pr_outputs p)).
Definition on_process (f : list output -> list output) (e : editor) : outcome editor :=
  match ed_process e with
  | None => UB
  | Some k => on_brick (fun b => mkBs (bs_name b) (bs_type b) (bs_parent b) (bs_directly b) (bs_capacity b) (upd_nth k (on_outputs f) (bs_processes b))) e
  end.
(** SettingsModel.cpp:269-276 [AddProcessOutput]. *)
Definition add_output (target : string) (t : ctype) : editor -> outcome editor := on_process (fun l => (l ++ [mkOut target t false false])%list).
(** SettingsModel.cpp:278-284, 286-292. *)
Definition outputs_now : editor -> outcome editor := on_process (map (fun o => mkOut (o_target o) (o_type o) true (o_static o))).
Definition outputs_static : editor -> outcome editor := on_process (map (fun o => mkOut (o_target o) (o_type o) (o_now o) true)).
(** SettingsModel.cpp:294-302 [OutputProcessToSameBrick]. *)
Definition output_to_same (e : editor) : outcome editor :=
  match selected_brick e with None => UB | Some b => on_process (fun l => (l ++ [mkOut (bs_name b) Water true false])%list) e end.

(** SettingsModel.cpp:304-313 [AddHydroUnitSplitter]. *)
Definition add_splitter (name type : string) (e : editor) : editor :=
  mkEd (with_splitters (ed_str e) (st_splitters (ed_str e) ++ [mkSs name type []])%list) (ed_brick e) (ed_process e) (Some (length (st_splitters (ed_str e)))).
Definition on_splitter (f : sset -> sset) (e : editor) : outcome editor :=
  match ed_splitter e with
  | None => UB
  | Some i => Ok (mkEd (with_splitters (ed_str e) (upd_nth i f (st_splitters (ed_str e)))) (ed_brick e) (ed_process e) (ed_splitter e))
  end.
(** SettingsModel.cpp:378-386 [AddSplitterOutput]. *)
Definition add_splitter_output (target : string) (t : ctype) : editor -> outcome editor :=
  on_splitter (fun s => mkSs (sp_name s) (sp_type s) (sp_outputs s ++ [mkOut target t false false])%list).
(** SettingsModel.cpp:772-782, 796-800. *)
Definition select_splitter_if_found (name : string) (e : editor) : editor * bool :=
  match index_where (fun s => String.eqb (sp_name s) name) (st_splitters (ed_str e)) with
  | Some i => (mkEd (ed_str e) (ed_brick e) (ed_process e) (Some i), true)
  | None => (e, false)
  end.
Definition select_splitter (name : string) (e : editor) : outcome editor :=
  let '(e', found) := select_splitter_if_found name e in if found then Ok e' else Throw.
(** SettingsModel.cpp:388-412: the first output with the target. *)
Definition retarget (from to : string) (l : list output) : option (list output) :=
  match index_where (fun o => String.eqb (o_target o) from) l with
  | Some i => Some (upd_nth i (fun o => mkOut to (o_type o) (o_now o) (o_static o)) l)
  | None => None
  end.
Definition selected_splitter (e : editor) : option sset := match ed_splitter e with None => None | Some i => nth_error (st_splitters (ed_str e)) i end.
Definition change_target (strict : bool) (from to : string) (e : editor) : outcome editor :=
  match selected_splitter e with
  | None => UB
  | Some s => match retarget from to (sp_outputs s) with
              | Some l => on_splitter (fun s => mkSs (sp_name s) (sp_type s) l) e
              | None => if strict then Throw else Ok e
              end
  end.
(** SettingsModel.cpp:683-694, 709-714 [SelectHydroUnitBrick]. *)
Definition select_unit_brick (name : string) (e : editor) : outcome editor :=
  match index_where (fun b => String.eqb (bs_name b) name) (st_bricks (ed_str e)) with
  | Some i => Ok (mkEd (ed_str e) (UnitSel i) None (ed_splitter e))
  | None => Throw
  end.
(** SettingsModel.cpp:85-94 [AddLandCoverBrick]. *)
Definition add_land_cover (name type : string) (e : editor) : outcome editor :=
  let e := add_unit_brick name type e in
  let e := mkEd (with_covers (ed_str e) (st_covers (ed_str e) ++ [(length (st_bricks (ed_str e)) - 1)%nat])%list) (ed_brick e) (ed_process e) (ed_splitter e) in
  let '(e, found) := select_splitter_if_found "rain_splitter" e in
  if found then add_splitter_output name Water e else Ok e.
(** SettingsModel.cpp:96-102 [AddSurfaceComponentBrick]. *)
Definition add_component (name type : string) (e : editor) : editor :=
  let e := add_unit_brick name type e in
  mkEd (with_components (ed_str e) (st_components (ed_str e) ++ [(length (st_bricks (ed_str e)) - 1)%nat])%list) (ed_brick e) (ed_process e) (ed_splitter e).

(** ** Generators *)
Fixpoint each {X} (f : X -> editor -> outcome editor) (l : list X) (e : editor) : outcome editor :=
  match l with [] => Ok e | x :: r => bind (f x e) (each f r) end.
Notation "e >>= f" := (bind e f) (at level 50, left associativity).

(** SettingsModel.cpp:414-431 [GenerateCanopyInterception]. *)
Definition gen_canopy (cover target : string) (e : editor) : outcome editor :=
  set_parent cover (add_component (cover ++ "_canopy") "interception_storage" e)
  >>= add_process "throughfall" "outflow:threshold" target
  >>= add_process "interception_et" "et:open_water" ""
  >>= select_splitter "rain_splitter"
  >>= change_target true cover (cover ++ "_canopy").
(** SettingsModel.cpp:491-531 [GeneratePrecipitationSplitters]. *)
Definition gen_precipitation (with_snow : bool) (type : string) (e : editor) : outcome editor :=
  if with_snow then
    add_splitter_output "rain_splitter" Water (add_splitter "snow_rain_transition" type e)
    >>= add_splitter_output "snow_splitter" Snow
    >>= (fun e => Ok (add_splitter "rain_splitter" "multi_fluxes" (add_splitter "snow_splitter" "multi_fluxes" e)))
  else
    add_splitter_output "rain_splitter" Water (add_splitter "rain" "rain" e)
    >>= (fun e => Ok (add_splitter "rain_splitter" "multi_fluxes" e)).
(** The names and types of the land covers, read as the loops go (SettingsModel.cpp:536-538 and the like). *)
Definition over_covers (f : string -> string -> editor -> outcome editor) (e : editor) : outcome editor :=
  each (fun i e => match nth_error (st_bricks (ed_str e)) i with Some b => f (bs_name b) (bs_type b) e | None => UB end) (st_covers (ed_str e)) e.
(** SettingsModel.cpp:533-546 [GenerateSnowpacks]. *)
Definition gen_snowpacks (melt : string) : editor -> outcome editor :=
  over_covers (fun cover _ e =>
    select_splitter "snow_splitter" e
    >>= add_splitter_output (cover ++ "_snowpack") Snow
    >>= (fun e => set_parent cover (add_component (cover ++ "_snowpack") "snowpack" e))
    >>= add_process "melt" melt cover).
(** SettingsModel.cpp:607-634 [GenerateSnowpacksWithWaterRetention]. *)
Definition gen_snowpacks_retention (melt outflow : string) (rain_to_snowpack : bool) : editor -> outcome editor :=
  over_covers (fun cover _ e =>
    select_splitter "snow_splitter" e
    >>= add_splitter_output (cover ++ "_snowpack") Snow
    >>= (fun e => set_parent cover (add_component (cover ++ "_snowpack") "snowpack" e))
    >>= add_process "melt" melt ""
    >>= output_to_same
    >>= add_process "meltwater" outflow ""
    >>= add_output cover Water
    >>= (fun e => if rain_to_snowpack
                  then select_splitter "rain_splitter" e >>= change_target false cover (cover ++ "_snowpack")
                  else Ok e)).
(** SettingsModel.cpp:548-559 [AddSnowIceTransformation]. *)
Definition add_snow_ice (type : string) : editor -> outcome editor :=
  over_covers (fun cover ctype e =>
    select_unit_brick (cover ++ "_snowpack") e
    >>= (fun e => if String.eqb ctype "glacier" then add_process "snow_ice_transfo" type (cover ++ ":ice") e else Ok e)).
(** SettingsModel.cpp:561-573 [AddSnowRedistribution]. *)
Definition add_redistribution (type : string) (skip_glaciers : bool) : editor -> outcome editor :=
  over_covers (fun cover ctype e =>
    if skip_glaciers && String.eqb ctype "glacier" then Ok e
    else select_unit_brick (cover ++ "_snowpack") e >>= add_process "snow_redistribution" type "lateral:snow" >>= outputs_now).
(** SettingsModel.cpp:575-592 [AddSnowpackRefreezing]. *)
Definition add_refreezing (type : string) : editor -> outcome editor :=
  over_covers (fun cover _ e =>
    select_unit_brick (cover ++ "_snowpack") e >>= add_process "refreeze" type (cover ++ "_snowpack" ++ ":snow") >>= outputs_now).
(** SettingsModel.cpp:594-605 [AddSnowpackSublimation]. *)
Definition add_sublimation (type : string) : editor -> outcome editor :=
  over_covers (fun cover _ e => select_unit_brick (cover ++ "_snowpack") e >>= add_process "sublimation" type "").

(** ** The Python interface *)
(** model_settings.py:130-142; [None]: the option is not given.  [op_retention] is a pair of the outflow process and of [rain_to_snowpack]: the
    combination of [rain_to_snowpack] or of a refreezing process without retention is refused (model_settings.py:232-247). *)
Record options := mkOp {
  op_snow : bool; op_melt : string; op_split : option string; op_ice : option string; op_move : option string;
  op_retention : option (string * bool); op_refreeze : option string; op_sublimation : option string; op_interception : bool }.
Definition given (o : option string) (f : string -> editor -> outcome editor) (e : editor) : outcome editor := match o with Some x => f x e | None => Ok e end.
Definition splitter_type (o : options) : string :=
  match op_split o with Some t => t | None => if String.eqb (op_melt o) "melt:cemaneige" then "snow_rain:cemaneige" else "snow_rain:linear" end.
(** model_settings.py:207-211. *)
Definition generic_names : list string := ["ground"; "generic_land_cover"; "open"; "forest"; "lake"].
Definition brick_type_of (cover_type : string) : string := if in_list cover_type generic_names then "generic_land_cover" else cover_type.
Definition rain_on_packs (o : options) : bool := op_snow o && match op_retention o with Some (_, r) => r | None => false end.
(** model_settings.py:130-263 [generate_base_structure]; the covers are (name, type). *)
Definition base_structure (covers : list (string * string)) (o : options) (e : editor) : outcome editor :=
  gen_precipitation (op_snow o) (splitter_type o) e
  >>= each (fun c => add_land_cover (fst c) (brick_type_of (snd c))) covers
  >>= (fun e => if op_interception o
                then each (fun c e => if String.eqb (snd c) "forest"
                                      then gen_canopy (fst c) (if rain_on_packs o then fst c ++ "_snowpack" else fst c) e else Ok e) covers e
                else Ok e)
  >>= (fun e => if op_snow o
                then match op_retention o with
                     | Some (out, rain) => gen_snowpacks_retention (op_melt o) out rain e >>= given (op_refreeze o) add_refreezing
                     | None => match op_refreeze o with Some _ => Throw | None => gen_snowpacks (op_melt o) e end
                     end
                     >>= given (op_ice o) add_snow_ice
                     >>= given (op_move o) (fun t => add_redistribution t false)
                     >>= given (op_sublimation o) add_sublimation
                else Ok e).

(** One entry of the structure dictionary (model.py:1024-1110 [_generate_one_structure], 1225-1309). *)
Inductive part_kind := CoverPart | UnitPart | BasinPart.
Record part_process := mkPP { pp_name : string; pp_type : string; pp_targets : list string; pp_now : bool }.
Record part := mkPart { pt_key : string; pt_kind : part_kind; pt_type : string; pt_directly : bool; pt_capacity : option R; pt_processes : list part_process }.
(** model.py:1249-1309 [_set_structure_process], model_settings.py:315-354 [add_brick_process, add_process_output]. *)
Definition declare_process (p : part_process) (e : editor) : outcome editor :=
  add_process (pp_name p) (pp_type p) (hd "" (pp_targets p)) e
  >>= (fun e => if in_list (pp_type p) ["outflow:direct"; "outflow:rest"] then outputs_static e else Ok e)
  >>= (fun e => if pp_now p then outputs_now e else Ok e)
  >>= each (fun t => add_output t Water) (tl (pp_targets p)).
Definition declare_part (p : part) (e : editor) : outcome editor :=
  match pt_kind p with
  | CoverPart => select_unit_brick (pt_key p) e
  | UnitPart => Ok (add_unit_brick (pt_key p) (pt_type p) e)
  | BasinPart => Ok (add_basin_brick (pt_key p) (pt_type p) e)
  end
  >>= (fun e => if pt_directly p then set_directly e else Ok e)
  >>= (fun e => match pt_capacity p with Some x => add_capacity x e | None => Ok e end)
  >>= each declare_process (pt_processes p).
(** model.py:1080-1110. *)
Definition declare_model (covers : list (string * string)) (o : options) (parts : list part) : outcome structure :=
  bind (base_structure covers o new_editor >>= each declare_part parts) (fun e => Ok (ed_str e)).
