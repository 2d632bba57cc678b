(** What a model declared with land covers, options and a structure dictionary is expected to be.  Nothing here depends on the editing functions. *)
From Verif Require Import Base Build.
Open Scope string_scope.

Definition pack_of (cover : string) : string := cover ++ "_snowpack".
Definition canopy_of (cover : string) : string := cover ++ "_canopy".
Definition water_to (name : string) : output := mkOut name Water false false.

Section Declared.
Variable o : options.
(** A land cover: its name and its type. *)
Implicit Types c : string * string.
Definition has_canopy c : bool := op_interception o && String.eqb (snd c) "forest".
(** Where the rain falls: on the canopy, on the snowpack if asked for, else on the cover. *)
Definition rain_receiver c : string := if has_canopy c then canopy_of (fst c) else if rain_on_packs o then pack_of (fst c) else fst c.

Definition cover_brick c : bset := mkBs (fst c) (brick_type_of (snd c)) "" false None [].
Definition canopy_brick c : bset :=
  mkBs (canopy_of (fst c)) "interception_storage" (fst c) false None
    [mkPr "throughfall" "outflow:threshold" [water_to (if rain_on_packs o then pack_of (fst c) else fst c)]; mkPr "interception_et" "et:open_water" []].
(** The processes of a snowpack: melt and water retention, refreezing, formation of ice (glaciers), transport, sublimation. *)
Definition when (x : option string) (f : string -> process) : list process := match x with Some t => [f t] | None => [] end.
Definition melt_processes c : list process :=
  match op_retention o with
  | Some (out, _) => [mkPr "melt" (op_melt o) [mkOut (pack_of (fst c)) Water true false]; mkPr "meltwater" out [water_to (fst c)]]
  | None => [mkPr "melt" (op_melt o) [water_to (fst c)]]
  end.
Definition refreeze_processes c : list process := when (op_refreeze o) (fun t => mkPr "refreeze" t [mkOut (pack_of (fst c)) Snow true false]).
Definition ice_processes c : list process :=
  if String.eqb (brick_type_of (snd c)) "glacier" then when (op_ice o) (fun t => mkPr "snow_ice_transfo" t [mkOut (fst c) Ice false false]) else [].
Definition move_processes : list process := when (op_move o) (fun t => mkPr "snow_redistribution" t [mkOut "lateral" Snow true false]).
Definition loss_processes : list process := when (op_sublimation o) (fun t => mkPr "sublimation" t []).
Definition pack_brick c (l : list process) : bset := mkBs (pack_of (fst c)) "snowpack" (fst c) false None l.
Definition pack_processes c : list process := (melt_processes c ++ refreeze_processes c ++ ice_processes c ++ move_processes ++ loss_processes)%list.

Definition splitters (rain snow : list output) : list sset :=
  if op_snow o
  then [mkSs "snow_rain_transition" (splitter_type o) [mkOut "rain_splitter" Water false false; mkOut "snow_splitter" Snow false false];
        mkSs "snow_splitter" "multi_fluxes" snow; mkSs "rain_splitter" "multi_fluxes" rain]
  else [mkSs "rain" "rain" [mkOut "rain_splitter" Water false false]; mkSs "rain_splitter" "multi_fluxes" rain].

Variable covers : list (string * string).
Definition canopies : list bset := map canopy_brick (filter has_canopy covers).
Definition packs : list bset := if op_snow o then map (fun c => pack_brick c (pack_processes c)) covers else [].
(** The structure without the entries of the dictionary. *)
Definition base : structure :=
  mkStr (map cover_brick covers ++ canopies ++ packs) [] (seq 0 (length covers)) (seq (length covers) (length canopies + length packs))
    (splitters (map (fun c => water_to (rain_receiver c)) covers) (if op_snow o then map (fun c => mkOut (pack_of (fst c)) Snow false false) covers else [])).

(** Names without a colon, distinct, and no cover named like a component of another one. *)
Definition plain_name (s : string) : Prop := s <> "" /\ forall a, In a (list_ascii_of_string s) -> a <> ":"%char.
Record good_names : Prop := {
  gn_plain : forall c, In c covers -> plain_name (fst c);
  gn_distinct : NoDup (map fst covers);
  gn_apart : forall c c', In c covers -> In c' covers -> fst c <> pack_of (fst c') /\ fst c <> canopy_of (fst c');
  gn_reserved : forall c, In c covers -> ~ In (fst c) ["outlet"; "lateral"; "rain_splitter"; "snow_splitter"] }.
(** The options name existing processes of the right kind. *)
Definition is_one (x : option string) (l : list string) : Prop := forall t, x = Some t -> in_list (resolve_alias t) l = true.
Record good_options : Prop := {
  go_melt : in_list (op_melt o) (melt_types ++ ["melt:cemaneige"])%list = true;
  go_retention : forall out rain, op_retention o = Some (out, rain) -> in_list out water_types = true;
  go_refreeze : op_refreeze o <> None -> op_retention o <> None;
  go_refreeze_type : is_one (op_refreeze o) ["refreeze:degree_day"];
  go_ice : is_one (op_ice o) ["transformation:snow_ice_constant"; "transformation:snow_ice_swat"];
  go_move : is_one (op_move o) lateral_types;
  go_sublimation : is_one (op_sublimation o) sublimation_types }.
End Declared.

(** ** The entries of the dictionary *)
Definition static_kind (p : part_process) : bool := in_list (pp_type p) ["outflow:direct"; "outflow:rest"].
(** The flags concern the first target only. *)
Definition declared_process (p : part_process) : process :=
  mkPr (pp_name p) (pp_type p)
    (match pp_targets p with [] => [] | t :: r => mkOut t Water (pp_now p) (static_kind p) :: map water_to r end).
Definition add_declared (p : part) (b : bset) : bset :=
  mkBs (bs_name b) (bs_type b) (bs_parent b) (bs_directly b || pt_directly p)
    (match bs_capacity b with Some x => Some x | None => pt_capacity p end) (bs_processes b ++ map declared_process (pt_processes p)).
Definition add_part (p : part) (st : structure) : structure :=
  match pt_kind p with
  | CoverPart => with_bricks st (map (fun b => if String.eqb (bs_name b) (pt_key p) then add_declared p b else b) (st_bricks st))
  | UnitPart => with_bricks st (st_bricks st ++ [add_declared p (new_brick (pt_key p) (pt_type p))])
  | BasinPart => with_basin st (st_basin st ++ [add_declared p (new_brick (pt_key p) (pt_type p))])
  end%list.
Definition add_parts (parts : list part) (st : structure) : structure := fold_left (fun st p => add_part p st) parts st.
(** Entries: distinct keys, the covers are those of the model, known process types, plain target names. *)
Record good_parts (parts : list part) (st : structure) : Prop := {
  gp_cover : forall p, In p parts -> pt_kind p = CoverPart -> In (pt_key p) (map bs_name (st_bricks st));
  gp_new : forall p, In p parts -> pt_kind p = UnitPart -> ~ In (pt_key p) (map bs_name (st_bricks st));
  gp_keys : NoDup (map pt_key parts);
  gp_names : NoDup (map bs_name (st_bricks st));
  gp_types : forall p q, In p parts -> In q (pt_processes p) -> known_process (pp_type q) = true;
  gp_targets : forall p q t, In p parts -> In q (pt_processes p) -> In t (pp_targets q) -> plain_name t }.
