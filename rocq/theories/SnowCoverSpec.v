(** Vocabulary of the theorems about the snow cover (C89).  Definitions only. *)
From Coq Require Export String.
From Verif Require Export SnowCover GlacierBalanceSpec.
Open Scope R_scope.

(** A hydro unit: the land covers that it has, with the part of the unit that each covers, by day, and the water content of the snow on each [mm]. *)
Record snow_unit := mkSU { su_id : Z; su_part : string -> option (nat -> R); su_swe : string -> nat -> R }.
Definition part (u : snow_unit) (t : nat) (c : string) : R := match su_part u c with Some f => f t | None => 0 end.
(** The recording has, for the land cover, the series of these units (missing in units without that cover). *)
Definition shows_cover (rc : snow_recording) (us : list snow_unit) (c : string) : Prop :=
  exists F, sn_fractions rc c = Some F /\ forall k u t, nth_error us k = Some u ->
    F k t = option_map (fun f => f t) (su_part u c) /\
    sn_content rc (c ++ "_snowpack:snow_content")%string k t = match su_part u c with Some _ => Some (su_swe u c t) | None => None end.
Definition shows_units (rc : snow_recording) (us : list snow_unit) (covers : list string) : Prop :=
  sn_ids rc = map su_id us /\ NoDup (map su_id us) /\ forall c, In c covers -> shows_cover rc us c.

(** The land covers that count: those that were asked for (all those of the model, if none is named) and whose snow was recorded. *)
Definition asked (ob : snow_obs) (rc : snow_recording) (l : list string) : Prop :=
  (so_covers ob = Some l /\ l <> []) \/ ((so_covers ob = None \/ so_covers ob = Some []) /\ l = sn_covers rc).
Definition considered (ob : snow_obs) (rc : snow_recording) (cs : list string) : Prop :=
  exists l, asked ob rc l /\ chosen (fun c => In (c ++ "_snowpack:snow_content")%string (sn_labels rc)) l cs.

(** The documented curve: nothing without snow, proportional to the water content, everything from [full] on. *)
Inductive depletion (full : R) : R -> R -> Prop :=
| Bare s : s <= 0 -> depletion full s 0
| Proportional s x : 0 < s < full -> x * full = s -> depletion full s x
| Covered s : full <= s -> depletion full s 1.
(** The mean over the land covers, weighted with the parts that they cover. *)
Definition snow_mean (full : R) (cs : list string) (u : snow_unit) (t : nat) (x : R) : Prop :=
  exists fs, Forall2 (fun c f => depletion full (su_swe u c t) f) cs fs /\
    x * Rsum (part u t) cs = Rsum (fun p => part u t (fst p) * snd p) (combine cs fs).
(** The simulated snow cover for a target exists, and is ... *)
Definition snow_cover_for (start stop : Z) (full : R) (cs : list string) (us : list snow_unit) (t : snow_target) (x : R) : Prop :=
  exists u i, In u us /\ su_id u = st_unit t /\ nearest_day start stop (st_t t) i /\ 0 < Rsum (part u i) cs /\ snow_mean full cs u i x.
(** The parts are parts. *)
Definition sound_unit (u : snow_unit) : Prop := forall c t, 0 <= part u t c.
