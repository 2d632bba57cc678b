(** Model of the logger's totals.  Sources: core/src/base/Logger.cpp, core/src/base/Logger.h.
    Simplifications: Eigen arrays are functions of the step and of the unit (both from 0), with the sizes [lg_steps] (at least 1: an accepted period has a
    step) and [lg_units]; NaN is [None]; the loops over matching indices are loops over the matching labels. *)
From Coq Require Export String.
From Verif Require Export Base.
Open Scope R_scope.

Record sub_series := mkSub { sb_label : string; sb_initial : option R; sb_value : nat -> option R }.
Record unit_series := mkHu { hs_label : string; hs_initial : nat -> option R; hs_value : nat -> nat -> option R }.
(** Logger.h:310-330.  [lg_covers]: labels and values of the recorded fractions (empty when they are not recorded, Logger.cpp:39-45). *)
Record logger := mkLog {
  lg_steps : nat;
  lg_units : nat;
  lg_area : nat -> R;
  lg_sub : list sub_series;
  lg_hu : list unit_series;
  lg_covers : list (string * (nat -> nat -> option R));
  lg_sub_et : list nat;
  lg_hu_et : list nat }.

(** Logger.cpp:11-13 [NanToZero]. *)
Definition nan_to_zero (v : option R) : R := match v with Some x => x | None => 0 end.
(** Sums and differences of doubles: NaN as soon as a term is. *)
Definition oplus (a b : option R) : option R := match a, b with Some x, Some y => Some (x + y) | _, _ => None end.
Definition ominus (a b : option R) : option R := match a, b with Some x, Some y => Some (x - y) | _, _ => None end.
Definition osum {X} (f : X -> option R) (l : list X) : option R := fold_right (fun x s => oplus (f x) s) (Some 0) l.

Definition steps (L : logger) : list nat := seq 0 (lg_steps L).
Definition units (L : logger) : list nat := seq 0 (lg_units L).
Definition last_step (L : logger) : nat := (lg_steps L - 1)%nat.
(** (values * areas).sum() / areas.sum(), for one row and for all rows. *)
Definition area_sum (L : logger) : R := Rsum (lg_area L) (units L).
Definition row_mean (L : logger) (v : nat -> R) : R := Rsum (fun u => v u * lg_area L u) (units L) / area_sum L.
Definition rows_mean (L : logger) (v : nat -> nat -> R) : R := Rsum (fun t => Rsum (fun u => v t u * lg_area L u) (units L)) (steps L) / area_sum L.

(** std::string::find(item) != npos; std::string::starts_with. *)
Definition contains (item label : string) : bool := match String.index 0 item label with Some _ => true | None => false end.
Definition starts_with (p s : string) : bool := String.prefix p s.

(** Logger.cpp:134-141 [GetOutletDischarge]. *)
Definition outlet_discharge (L : logger) : outcome (nat -> option R) :=
  match List.find (fun s => String.eqb (sb_label s) "outlet") (lg_sub L) with Some s => Ok (sb_value s) | None => Throw end.
(** Logger.cpp:143-153 [GetIndicesForSubBasinElements], 155-165 [GetIndicesForHydroUnitElements]. *)
Definition matching_sub (L : logger) (item : string) : list sub_series := filter (fun s => contains item (sb_label s)) (lg_sub L).
Definition matching_hu (L : logger) (item : string) : list unit_series := filter (fun s => contains item (hs_label s)) (lg_hu L).
(** Logger.cpp:167-176 [GetTotalSubBasin]. *)
Definition total_sub (L : logger) (item : string) : option R := osum (fun s => osum (sb_value s) (steps L)) (matching_sub L item).
(** Logger.cpp:222-224 [GetTotalOutletDischarge]. *)
Definition total_outlet (L : logger) : option R := total_sub L "outlet".
(** Logger.cpp:178-220 [GetTotalHydroUnits]. *)
Definition total_hydro_units (L : logger) (item : string) (weighting : bool) : option R :=
  if contains ":content" item then
    osum (fun s =>
      let fraction := match List.find (fun c => String.eqb (hs_label s) (fst c ++ ":content")) (lg_covers L) with Some c => snd c | None => fun _ _ => Some 1 end in
      match osum (fun t => osum (fun u => match fraction t u with Some f => Some (f * nan_to_zero (hs_value s t u) * lg_area L u) | None => None end) (units L)) (steps L) with
      | Some x => Some (x / area_sum L) | None => None end) (matching_hu L item)
  else if weighting then Some (Rsum (fun s => rows_mean L (fun t u => nan_to_zero (hs_value s t u))) (matching_hu L item))
  else Some (Rsum (fun s => Rsum (fun t => Rsum (fun u => nan_to_zero (hs_value s t u)) (units L)) (steps L)) (matching_hu L item)).

(** Logger.cpp:258-267 [GetFractionIndexForComponent]: the fractions of the first cover whose name begins the label. *)
Definition cover_of (L : logger) (label : string) : option (nat -> nat -> option R) :=
  match List.find (fun c => starts_with (fst c ++ ":") label || starts_with (fst c ++ "_snowpack:") label || starts_with (fst c ++ "_canopy:") label) (lg_covers L) with
  | Some c => Some (snd c)
  | None => None
  end.
Definition fraction_of (L : logger) (label : string) (t u : nat) : R := match cover_of L label with Some f => nan_to_zero (f t u) | None => 1 end.

(** Reading a vector at some indices; outside it is undefined. *)
Fixpoint pick {X} (l : list X) (indices : list nat) : outcome (list X) :=
  match indices with
  | [] => Ok []
  | i :: r => match nth_error l i with Some x => bind (pick l r) (fun s => Ok (x :: s)) | None => UB end
  end.
(** Logger.cpp:226-256 [GetTotalET]. *)
Definition total_et (L : logger) : outcome (option R) :=
  bind (pick (lg_sub L) (lg_sub_et L)) (fun subs =>
  bind (pick (lg_hu L) (lg_hu_et L)) (fun hus =>
  Ok (oplus (osum (fun s => osum (sb_value s) (steps L)) subs)
            (Some (Rsum (fun s => rows_mean L (fun t u => nan_to_zero (hs_value s t u) * fraction_of L (hs_label s) t u)) hus))))).

(** Logger.cpp:269-277, 279-287: initial and final state of the sub-basin; 289-305, 307-324: of the hydro units. *)
Definition sub_initial (L : logger) (tag : string) : option R := osum sb_initial (matching_sub L tag).
Definition sub_final (L : logger) (tag : string) : option R := osum (fun s => sb_value s (last_step L)) (matching_sub L tag).
Definition hu_initial (L : logger) (tag : string) : R :=
  Rsum (fun s => row_mean L (fun u => nan_to_zero (hs_initial s u) * fraction_of L (hs_label s) 0 u)) (matching_hu L tag).
Definition hu_final (L : logger) (tag : string) : R :=
  Rsum (fun s => row_mean L (fun u => nan_to_zero (hs_value s (last_step L) u) * fraction_of L (hs_label s) (last_step L) u)) (matching_hu L tag).
Definition storage_changes (L : logger) (tag : string) : option R :=
  ominus (oplus (ominus (sub_final L tag) (sub_initial L tag)) (Some (hu_final L tag))) (Some (hu_initial L tag)).
(** Logger.cpp:326-339 [GetTotalWaterStorageChanges], [GetTotalSnowStorageChanges], [GetTotalGlacierStorageChanges]. *)
Definition water_storage_changes (L : logger) : option R := storage_changes L ":water_content".
Definition snow_storage_changes (L : logger) : option R := storage_changes L ":snow_content".
Definition glacier_storage_changes (L : logger) : option R := storage_changes L ":ice_content".
