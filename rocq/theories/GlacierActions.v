(** Model of the glacier actions.  Sources: core/src/actions/Action.cpp, ActionGlacierEvolutionDeltaH.cpp,
    ActionGlacierEvolutionAreaScaling.cpp, ActionGlacierSnowToIceTransformation.cpp, ActionLandCoverChange.cpp.
    A division by zero (IEEE infinity or NaN stored in a container) and an index outside a table are [UB]. *)
From Verif Require Export Base LandCover.
Open Scope R_scope.

(** A hydro unit: its area and its covers; [cv_slot c SelfIce] is the ice of a glacier cover (mm w.e.).  Units are given by their
    identifier (SubBasin.cpp:194-201); the identifiers of the tables are known ones (checked by Init). *)
Record gunit := mkGU { gu_area : R; gu_covers : hunit }.
Definition gbasin := nat -> gunit.

(** GlobVars.h:8. *)
Definition iceDensity : R := 900.

(** The lookup tables: number of rows, area and volume per row and column, unit of each column, cover name. *)
Record gtable := mkGT { gt_rows : nat; gt_area : nat -> nat -> R; gt_volume : nat -> nat -> R; gt_units : list nat; gt_cover : string }.

(** A row of a table and its sum (Eigen [row(r).sum()]). *)
Definition columns (T : gtable) : list nat := seq 0 (length (gt_units T)).
Definition unit_of (T : gtable) (i : nat) : nat := nth i (gt_units T) 0%nat.
Definition row_volume (T : gtable) (r : nat) : R := Rsum (gt_volume T r) (columns T).
Definition row_in_table (T : gtable) (r : nat) : bool := (r <? gt_rows T)%nat.

(** Action.cpp:71-91 [CheckLandCoverAreaFraction]. *)
Definition check_fraction (f : R) : outcome R :=
  if NearlyZero f PRECISION then Ok 0
  else if NearlyEqual 1 f PRECISION then Ok 1
  else if Rltb f 0 || Rltb 1 f then Throw else Ok f.

(** HydroUnit.cpp:332 [ChangeLandCoverAreaFraction] called by an action: a refusal makes the action return false, and
    ActionsManager.cpp:85,98 then throw. *)
Definition change_in (b : gbasin) (id : nat) (name : string) (f : R) : outcome gbasin :=
  let '(ok, u) := change_fraction (gu_covers (b id)) name f in
  if ok then Ok (upd b id (mkGU (gu_area (b id)) u)) else Throw.

(** Glacier.cpp UpdateContent / Brick.cpp UpdateContent (Throw for a cover without ice or with infinite ice). *)
Definition put_slot (c : cover) (r : role) (x : R) : cover :=
  set_slot c (fun r' => if role_eqb r' r then Some x else cv_slot c r').
Definition set_ice (b : gbasin) (id c : nat) (x : R) : outcome gbasin :=
  match cv_slot (hu_cover (gu_covers (b id)) c) SelfIce with
  | None => Throw
  | Some _ => Ok (upd b id (mkGU (gu_area (b id)) (put_cover (gu_covers (b id)) c (put_slot (hu_cover (gu_covers (b id)) c) SelfIce x))))
  end.

(** The part of ice volume that the actions see in a unit (DeltaH.cpp:85-96, AreaScaling.cpp:86-93).  A cover without readable ice
    counts 0 here; such a cover makes Init and set_ice throw. *)
Definition ice_depth (c : cover) : R := slot_depth c SelfIce.
Definition unit_ice (b : gbasin) (name : string) (id : nat) : R :=
  match find_cover (gu_covers (b id)) name with
  | None => 0
  | Some c =>
    let cv := hu_cover (gu_covers (b id)) c in
    if NearlyZero (cv_fraction cv) PRECISION then 0 else cv_fraction cv * gu_area (b id) * ice_depth cv
  end.

(** [static_cast<int>] of a non-negative value. *)
Definition trunc (x : R) : nat := Z.to_nat (up x - 1).
(** DeltaH.cpp:99-107, AreaScaling.cpp:102-106.  An initial volume of zero gives 0/0 or -x/0, for which std::max returns 0; with one
    row only the increment is infinite and the quotient 0. *)
Definition table_row (T : gtable) (initial we : R) : nat :=
  let pc := if Reqb initial 0 then 0 else Rmax 0 ((initial - we) / initial) in
  if (gt_rows T =? 1)%nat then 0%nat else trunc (pc / (1 / (INR (gt_rows T) - 1))).

(** DeltaH.cpp:111-120: set the areas of a row, column after column. *)
Fixpoint set_areas (T : gtable) (r : nat) (cols : list nat) (b : gbasin) : outcome gbasin :=
  match cols with
  | [] => Ok b
  | i :: l =>
    let id := unit_of T i in
    bind (check_fraction (gt_area T r i / gu_area (b id))) (fun f =>
    bind (change_in b id (gt_cover T) f) (set_areas T r l))
  end.
(** DeltaH.cpp:126-139: spread the ice. *)
Fixpoint spread_ice (T : gtable) (r : nat) (we : R) (cols : list nat) (b : gbasin) : outcome gbasin :=
  match cols with
  | [] => Ok b
  | i :: l =>
    let id := unit_of T i in
    match find_cover (gu_covers (b id)) (gt_cover T) with
    | None => Throw
    | Some c =>
      if NearlyZero (gt_area T r i) PRECISION then bind (set_ice b id c 0) (spread_ice T r we l)
      else if Reqb (row_volume T r) 0 then UB
      else bind (set_ice b id c (we * (gt_volume T r i / row_volume T r) / gt_area T r i)) (spread_ice T r we l)
    end
  end.
(** DeltaH.cpp:79-142 [Apply]; the second component is [_lastRow]. *)
Definition total_ice (T : gtable) (b : gbasin) : R := Rsum (fun i => unit_ice b (gt_cover T) (unit_of T i)) (columns T).
Definition deltah_apply (T : gtable) (st : gbasin * nat) : outcome (gbasin * nat) :=
  let '(b, last) := st in
  let we := total_ice T b in
  let r := table_row T (row_volume T 0 * iceDensity) we in
  if negb (row_in_table T r) then UB else
  bind (if (r =? last)%nat then Ok b else set_areas T r (columns T) b) (fun b1 =>
  bind (spread_ice T r we (columns T) b1) (fun b2 => Ok (b2, r))).

(** DeltaH.cpp:29-68 [Init] for one unit; [SetInitialState] is not modelled here. *)
Definition evolution_init_unit (T : gtable) (i : nat) (b : gbasin) : outcome gbasin :=
  let id := unit_of T i in
  match find_cover (gu_covers (b id)) (gt_cover T) with
  | None => Throw
  | Some c =>
    let areaRef := gt_area T 0 i in
    let inModel := cv_fraction (hu_cover (gu_covers (b id)) c) * gu_area (b id) in
    bind (if NearlyZero inModel PRECISION then
            bind (check_fraction (areaRef / gu_area (b id))) (change_in b id (gt_cover T))
          else if NearlyEqual inModel areaRef PRECISION then Ok b else Throw) (fun b1 =>
    if Reqb areaRef 0 then UB
    else set_ice b1 id c (gt_volume T 0 i * iceDensity / areaRef))
  end.
Fixpoint evolution_init (T : gtable) (cols : list nat) (b : gbasin) : outcome gbasin :=
  match cols with [] => Ok b | i :: l => bind (evolution_init_unit T i b) (evolution_init T l) end.

(** AreaScaling.cpp:84-120, one unit. *)
Definition scaling_unit (T : gtable) (i : nat) (b : gbasin) : outcome gbasin :=
  let id := unit_of T i in
  match find_cover (gu_covers (b id)) (gt_cover T) with
  | None => Ok b
  | Some c =>
    let cv := hu_cover (gu_covers (b id)) c in
    if NearlyZero (cv_fraction cv) PRECISION then Ok b else
    let volume := cv_fraction cv * gu_area (b id) * ice_depth cv in
    if NearlyZero volume PRECISION then
      (* the result of the call is not looked at *)
      Ok (upd b id (mkGU (gu_area (b id)) (snd (change_fraction (gu_covers (b id)) (gt_cover T) 0))))
    else
      let r := table_row T (gt_volume T 0 i * iceDensity) volume in
      if negb (row_in_table T r) then UB else
      bind (check_fraction (gt_area T r i / gu_area (b id))) (fun f =>
      bind (change_in b id (gt_cover T) f) (fun b1 =>
      if Reqb (gt_area T r i) 0 then UB else set_ice b1 id c (volume / gt_area T r i)))
  end.
Fixpoint scaling_apply (T : gtable) (cols : list nat) (b : gbasin) : outcome gbasin :=
  match cols with [] => Ok b | i :: l => bind (scaling_unit T i b) (scaling_apply T l) end.

(** ActionGlacierSnowToIceTransformation.cpp:45-71, one unit.  A missing snowpack is skipped; the cast of line 53 gives a null pointer,
    dereferenced at line 69, when the cover is not a glacier. *)
Definition snow_to_ice_unit (name : string) (b : gbasin) (id : nat) : outcome gbasin :=
  match find_cover (gu_covers (b id)) name with
  | None => Ok b
  | Some c =>
    let cv := hu_cover (gu_covers (b id)) c in
    if NearlyZero (cv_fraction cv) PRECISION then Ok b else
    match cv_slot cv Snow with
    | None => Ok b
    | Some snow =>
      if Rleb snow 0 then Ok b else
      match cv_slot cv SelfIce with
      | None => UB
      | Some ice => Ok (upd b id (mkGU (gu_area (b id)) (put_cover (gu_covers (b id)) c (put_slot (put_slot cv SelfIce (ice + snow)) Snow 0))))
      end
    end
  end.
Fixpoint snow_to_ice (name : string) (ids : list nat) (b : gbasin) : outcome gbasin :=
  match ids with [] => Ok b | id :: l => bind (snow_to_ice_unit name b id) (snow_to_ice name l) end.

(** ActionLandCoverChange.cpp:25-39 [Apply] of the change (unit, cover, area) at the cursor. *)
Definition land_cover_change (id : nat) (name : string) (area : R) (b : gbasin) : outcome gbasin :=
  bind (check_fraction (area / gu_area (b id))) (change_in b id name).
