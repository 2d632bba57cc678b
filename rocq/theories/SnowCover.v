(** The observed and the simulated snow cover, used in calibrations.  No proofs here.
    SC = python/src/hydrobricks/evaluation/snow_cover.py, MO = python/src/hydrobricks/models/model.py.
    A missing number (NaN) is [None]; infinite numbers do not exist.  Times are counted in nanoseconds since 1970.  [Throw] stands for every Python exception.
    Not modelled: the texts of the CSV files (a row has the parsed fields), warnings, log messages. *)
From Coq Require Import String.
From Verif Require Export GlacierBalance.
Open Scope R_scope.

(** ** The simulated snow cover *)
(** SC:64-75 [_swe_to_fraction]: np.clip(swe / swe_full, 0, 1), missing numbers give 0. *)
Definition swe_to_fraction (full : R) (v : value) : R := match v with Some s => Rmin (Rmax (s / full) 0) 1 | None => 0 end.

(** SC:98-102: a target. *)
Record snow_target := mkSnow { st_t : Z; st_unit : Z; st_value : R }.
(** SC:104-132: the observations; [None] for the land covers: those of the model. *)
Record snow_obs := mkSnowObs { so_full : R; so_covers : option (list string); so_targets : list snow_target }.
Definition make_snow_obs (full : R) (covers : option (list string)) (targets : list snow_target) : outcome snow_obs :=
  if Rltb 0 full then Ok (mkSnowObs full covers targets) else Throw.

(** What the engine recorded, MO:536-620: the labels of the series in memory, the series of a label by row (unit) and day, those of the fractions of the land
    covers (if they were recorded), the ids of the rows, and the modelling period (a day per column). *)
Record snow_recording := mkSnowRec {
  sn_start : Z; sn_end : Z; sn_covers : list string; sn_ids : list Z; sn_labels : list string;
  sn_content : string -> nat -> nat -> value; sn_fractions : string -> option (nat -> nat -> value) }.

(** SC:851, 869, 877: an empty list means all covers too. *)
Definition asked_covers (covers : option (list string)) (model_covers : list string) : list string :=
  match covers with Some (c :: r) => c :: r | _ => model_covers end.
Definition snowpack_label (c : string) : string := (c ++ "_snowpack:snow_content")%string.
Definition recorded_cover (rc : snow_recording) (c : string) : bool := existsb (fun l => (l =? snowpack_label c)%string) (sn_labels rc).
(** SC:844-856 [required_recordings]; the label of the state of a brick is "brick:state" (core/src/base/SettingsModel.cpp:825). *)
Definition required_recordings (covers : option (list string)) (model_covers : list string) : list (string * string) :=
  map (fun c => ((c ++ "_snowpack")%string, "snow_content"%string)) (asked_covers covers model_covers).
Definition label_of (state : string * string) : string := (fst state ++ ":" ++ snd state)%string.

(** SC:892-903: the covers one after the other; a cover that was not recorded is skipped; the fractions must be there. *)
Fixpoint snow_layers (rc : snow_recording) (covers : list string) : outcome (list ((nat -> nat -> value) * (nat -> nat -> value))) :=
  match covers with
  | [] => Ok []
  | c :: r =>
      if recorded_cover rc c then
        match sn_fractions rc c with
        | Some f => bind (snow_layers rc r) (fun l => Ok ((f, sn_content rc (snowpack_label c)) :: l))
        | None => Throw
        end
      else snow_layers rc r
  end.
(** SC:901-903, 916-917: for a row and a day. *)
Definition covered_part (full : R) (l : list ((nat -> nat -> value) * (nat -> nat -> value))) (row t : nat) : R :=
  fold_left (fun acc p => acc + nan0 (fst p row t) * swe_to_fraction full (snd p row t)) l 0.
Definition total_part (l : list ((nat -> nat -> value) * (nat -> nat -> value))) (row t : nat) : R :=
  fold_left (fun acc p => acc + nan0 (fst p row t)) l 0.
Definition unit_scf (full : R) (l : list ((nat -> nat -> value) * (nat -> nat -> value))) (row t : nat) : value :=
  if Rltb 0 (total_part l row t) then Some (covered_part full l row t / total_part l row t) else None.
(** SC:919: a dictionary; the last row with an id counts. *)
Fixpoint row_of (id : Z) (ids : list Z) (row : nat) : option nat :=
  match ids with [] => None | i :: r => match row_of id r (S row) with Some k => Some k | None => if (i =? id)%Z then Some row else None end end.
(** SC:920-929. *)
Fixpoint read_targets (scf : nat -> nat -> value) (ids : list Z) (time : list Z) (l : list snow_target) : outcome (list value) :=
  match l with
  | [] => Ok []
  | t :: r =>
      bind (match row_of (st_unit t) ids 0 with
            | None => Ok None
            | Some row => bind (date_index time (st_t t)) (fun o => Ok (match o with Some i => scf row i | None => None end))
            end) (fun v => bind (read_targets scf ids time r) (fun vs => Ok (v :: vs)))
  end.
(** SC:858-930 [simulated]. *)
Definition simulated_snow (rc : snow_recording) (ob : snow_obs) : outcome (list value) :=
  match so_targets ob with
  | [] => Ok []
  | l => bind (snow_layers rc (asked_covers (so_covers ob) (sn_covers rc))) (fun layers =>
         match layers with
         | [] => Throw
         | _ => read_targets (unit_scf (so_full ob) layers) (sn_ids rc) (date_range (sn_start rc) (sn_end rc)) l
         end)
  end.
