(** Model of the land covers of a hydro unit: area fractions, flux weights and the transfer of stored water when
    areas change.  Sources: core/src/spatial/HydroUnit.cpp, core/src/bricks/LandCover.cpp,
    core/src/bricks/SurfaceComponent.cpp, core/src/fluxes/Flux.h. *)
From Coq Require Export String.
From Verif Require Export Base.
Open Scope R_scope.

(** HydroUnit.cpp:12-18 [CoverRole]: the storages a cover may expose. *)
Inductive role := SelfWater | SelfIce | Snow | SnowpackWater | CanopyWater.
Definition all_roles : list role := [SelfWater; SelfIce; Snow; SnowpackWater; CanopyWater].
Definition role_eqb (a b : role) : bool :=
  match a, b with
  | SelfWater, SelfWater | SelfIce, SelfIce | Snow, Snow | SnowpackWater, SnowpackWater
  | CanopyWater, CanopyWater => true
  | _, _ => false
  end.
(** HydroUnit.cpp:38-50: the storages created with [ContentType::Water]. *)
Definition is_water (r : role) : bool :=
  match r with SelfWater | SnowpackWater | CanopyWater => true | SelfIce | Snow => false end.

(** An output flux seen from its weights: fluxes/Flux.h:115-136, 195-198 [_needsWeighting], [_fractionUnitArea],
    [_fractionLandCover]. *)
Record wflux := mkWF { wf_weighted : bool; wf_unit : R; wf_cover : R }.

(** A land cover with the storages named after it (HydroUnit.cpp:31-52 [GetContentSlots]): [cv_slot c r] is the depth
    held in storage [r], or [None] when the cover has no such storage or when it is infinite (both are left out
    of the transfer by the code).  The surface components '<cover>_snowpack' and '<cover>_canopy' found by name
    are fields of the cover here, so two covers never share one. *)
Record cover := mkCover {
  cv_name : string;
  cv_fraction : R;         (* _areaFraction *)
  cv_initial : R;          (* _initialAreaFraction *)
  cv_slot : role -> option R;
  cv_outputs : list wflux  (* outputs of all its processes *) }.

(** The covers of a unit, in order ([_landCoverBricks]); [_landCoverMap] is a search by name (names are distinct). *)
Record hunit := mkUnit { hu_count : nat; hu_cover : nat -> cover }.

Definition find_cover (u : hunit) (name : string) : option nat :=
  find (fun i => String.eqb (cv_name (hu_cover u i)) name) (seq 0 (hu_count u)).

(** LandCover.cpp:27-37 [SetAreaFraction], Flux.h:143-146 [SetFractionLandCover]. *)
Definition weight_outputs (value : R) (l : list wflux) : list wflux :=
  map (fun w => if wf_weighted w then mkWF true (wf_unit w) value else w) l.
Definition set_fraction (value : R) (c : cover) : cover :=
  mkCover (cv_name c) value (cv_initial c) (cv_slot c) (weight_outputs value (cv_outputs c)).

Definition set_slot (c : cover) (f : role -> option R) : cover :=
  mkCover (cv_name c) (cv_fraction c) (cv_initial c) f (cv_outputs c).

Definition put_cover (u : hunit) (i : nat) (c : cover) : hunit := mkUnit (hu_count u) (upd (hu_cover u) i c).

(** HydroUnit.cpp:371-381 [GetGenericLandCover]. *)
Fixpoint first_found (u : hunit) (names : list string) : option nat :=
  match names with
  | [] => None
  | n :: l => match find_cover u n with Some i => Some i | None => first_found u l end
  end.
Definition generic_names : list string := ["open"; "ground"; "generic"; "generic_land_cover"]%string.
Definition generic_cover (u : hunit) : option nat := first_found u generic_names.

(** HydroUnit.cpp:54-70 [GetSlotDepth], [HasRole]. *)
Definition slot_depth (c : cover) (r : role) : R := match cv_slot c r with Some x => x | None => 0 end.
Definition has_role (c : cover) (r : role) : bool := match cv_slot c r with Some _ => true | None => false end.

(** HydroUnit.cpp:427-432: liquid water of the donor that the receiver cannot mirror. *)
Definition unmatched_water (donor receiver : cover) : R :=
  Rsum (fun r => if is_water r && negb (has_role receiver r) then slot_depth donor r else 0) all_roles.

(** HydroUnit.cpp:434-442: new depths of the receiver. *)
Definition receive (donor receiver : cover) (fOld fNew strip : R) : role -> option R :=
  fun r => match cv_slot receiver r with
           | None => None
           | Some d =>
             let dd := slot_depth donor r + (if role_eqb r SelfWater then unmatched_water donor receiver else 0) in
             Some ((d * fOld + dd * strip) / fNew)
           end.

(** HydroUnit.cpp:446-450: the storages of a vanished donor are cleared. *)
Definition cleared (donor : cover) : role -> option R :=
  fun r => match cv_slot donor r with None => None | Some _ => Some 0 end.

Definition move_strip (u : hunit) (donor receiver : nat) (fRecOld fRecNew fDonorNew strip : R) : hunit :=
  if NearlyZero fRecNew EPSILON_D then u else
  let d := hu_cover u donor in
  let r := hu_cover u receiver in
  let u1 := put_cover u receiver (set_slot r (receive d r fRecOld fRecNew strip)) in
  if NearlyZero fDonorNew EPSILON_D then put_cover u1 donor (set_slot d (cleared d)) else u1.

(** HydroUnit.cpp:383-451 [TransferLandCoverContent]. *)
Definition transfer (u : hunit) (changed : nat) (fOld fNew : R) (generic : nat) (gOld gNew : R) : hunit :=
  let delta := fNew - fOld in
  if NearlyZero delta EPSILON_D then u else
  if Rltb 0 delta then move_strip u generic changed fOld fNew gNew delta
  else move_strip u changed generic gOld gNew fNew (- delta).

(** HydroUnit.cpp:463-466. *)
Definition total_fraction (u : hunit) : R := Rsum (fun i => cv_fraction (hu_cover u i)) (seq 0 (hu_count u)).

(** HydroUnit.cpp:459-490 [FixLandCoverFractionsTotal]. *)
Definition fix_total (u : hunit) : bool * hunit :=
  let total := total_fraction u in
  if NearlyEqual total 1 EPSILON_D then (true, u) else
  let diff := total - 1 in
  match generic_cover u with
  | None => (false, u)
  | Some g =>
    let fg := cv_fraction (hu_cover u g) in
    if LessThan fg diff EPSILON_D then (false, u)
    else if Rltb 0 (fg - diff) then (true, put_cover u g (set_fraction (fg - diff) (hu_cover u g)))
    else (true, put_cover u g (set_fraction 0 (hu_cover u g)))
  end.

(** HydroUnit.cpp:332-369 [ChangeLandCoverAreaFraction]; the Boolean is the returned value. *)
Definition change_fraction (u : hunit) (name : string) (fraction : R) : bool * hunit :=
  if Rltb fraction 0 || Rltb 1 fraction then (false, u) else
  match find_cover u name with
  | None => (false, u)
  | Some ch =>
    let apply u := fix_total (put_cover u ch (set_fraction fraction (hu_cover u ch))) in
    match generic_cover u with
    | Some g =>
      if negb (Nat.eqb g ch) && (1 <? hu_count u)%nat then
        let fOld := cv_fraction (hu_cover u ch) in
        let delta := fraction - fOld in
        let gOld := cv_fraction (hu_cover u g) in
        let gNew := gOld - delta in
        if LessThan gNew 0 EPSILON_D then (false, u)
        else apply (transfer u ch fOld fraction g gOld gNew)
      else apply u
    | None => apply u
    end
  end.

(** A sequence of changes (as issued by the actions of a run), stopping at the first refusal like
    ActionsManager does (an action returning false aborts the run). *)
Fixpoint change_all (u : hunit) (l : list (string * R)) : bool * hunit :=
  match l with
  | [] => (true, u)
  | (n, f) :: l' => let '(b, u') := change_fraction u n f in if b then change_all u' l' else (false, u')
  end.

(** HydroUnit.cpp:453-457 [RestoreInitialAreaFractions], LandCover.h:77-79. *)
Definition restore_initial (u : hunit) : hunit :=
  mkUnit (hu_count u) (fun i => set_fraction (cv_initial (hu_cover u i)) (hu_cover u i)).

(** HydroUnit.cpp:298-322 (in [IsValid]): the check on the fractions at validation, which also repairs small
    deviations.  NumericConstants.h:41: [TOLERANCE_LOOSE]. *)
Definition TOLERANCE_LOOSE : R := / 10000.
Definition validate_fractions (u : hunit) : bool * hunit :=
  if (hu_count u =? 0)%nat then (true, u) else
  let total := total_fraction u in
  if NearlyEqual total 1 EPSILON_D then (true, u) else
  if NearlyEqual total 1 TOLERANCE_LOOSE then
    let diff := total - 1 in
    match find (fun i => Rltb diff (cv_fraction (hu_cover u i))) (seq 0 (hu_count u)) with
    | Some i => (true, put_cover u i (set_fraction (cv_fraction (hu_cover u i) - diff) (hu_cover u i)))
    | None => (true, u)
    end
  else (false, u).

(** SubBasin.cpp:79-81 [AssignFractions]: the fraction given in the basin settings, also kept as the initial one. *)
Definition assign_fraction (value : R) (c : cover) : cover :=
  let c' := set_fraction value c in mkCover (cv_name c') (cv_fraction c') value (cv_slot c') (cv_outputs c').

(** A surface component (snowpack, canopy) of a cover: SurfaceComponent.h:78-79. *)
Record component := mkComp { sc_fraction : R; sc_parent : R (* fraction of the parent *); sc_outputs : list wflux }.

(** SurfaceComponent.cpp:12-24 [SetAreaFraction]: [value] is multiplied inside the loop over the outputs. *)
Fixpoint comp_outputs (parent value : R) (l : list wflux) : list wflux :=
  match l with
  | [] => []
  | w :: l' =>
    if wf_weighted w then
      let value' := value * parent in mkWF true (wf_unit w) value' :: comp_outputs parent value' l'
    else w :: comp_outputs parent value l'
  end.
Definition set_comp_fraction (value : R) (s : component) : component :=
  mkComp value (sc_parent s) (comp_outputs (sc_parent s) value (sc_outputs s)).

(** Flux.cpp:20-26, FluxToBrick.cpp:17-24: what the flux hands over when [x] leaves the store; Flux.h:133-136. *)
Definition delivered (w : wflux) (x : R) : R :=
  let total := wf_unit w * wf_cover w in if Rltb total 1 then x * total else x.

(** LandCover.cpp:27-37: when the area of the parent cover is set, only the outputs of the cover's own processes are
    visited; a component sees the new fraction through [GetParentAreaFraction] (SurfaceComponent.cpp:26-29), its outputs
    keep their weights. *)
Definition parent_changed (fraction : R) (s : component) : component :=
  mkComp (sc_fraction s) fraction (sc_outputs s).
