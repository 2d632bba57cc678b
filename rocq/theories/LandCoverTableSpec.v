(** Vocabulary of the theorems about the loading of land cover changes (C91).  Definitions only. *)
From Coq Require Export String Sorted.
From Verif Require Export LandCoverTable ActionsSpec GlacierBalanceSpec.
Open Scope R_scope.

(** The table says that at the date [t] the area of the unit is [x]: the value of its row in the last column, not after [t], that has a value. *)
Definition says (t : change_table) (id : Z) (date : Z) (x : R) : Prop :=
  exists vals j d, In (id, vals) (ct_rows t) /\ nth_error (ct_dates t) j = Some d /\ (d <= date)%Z /\ nth_error vals j = Some (Some x) /\
    forall k d', (j < k)%nat -> nth_error (ct_dates t) k = Some d' -> (d' <= date)%Z -> forall y, nth_error vals k <> Some (Some y).
(** A log of applied changes leaves the unit with this area: its last change. *)
Definition leaves (log : list (R * land_change)) (id : Z) (x : R) : Prop :=
  exists before w d after, log = before ++ (w, (d, (id, x))) :: after /\ forall w' d' x', ~ In (w', (d', (id, x'))) after.
(** A table with one row for each unit, and dates in order. *)
Definition well_formed (t : change_table) : Prop :=
  StronglySorted Z.lt (ct_dates t) /\ NoDup (map fst (ct_rows t)) /\ forall id vals, In (id, vals) (ct_rows t) -> length vals = length (ct_dates t).
Definition square_metres (u : string) (f : R) : Prop := (In u ["m2"; "m^2"; "m**2"; "M2"]%string /\ f = 1) \/ (In u ["km2"; "km^2"; "km**2"; "KM2"]%string /\ f = 1000000).

(** The units of the rows of a file: by elevation, the unit that is the only one with the same whole metres. *)
Definition whole_metres (x : R) (z : Z) : Prop := (0 <= x /\ IZR z <= x < IZR z + 1) \/ (x < 0 /\ IZR z - 1 < x <= IZR z).
Definition unit_at (us : list hunit) (x : R) (id : Z) : Prop :=
  exists u z, In u us /\ hu_id u = id /\ whole_metres (hu_elev u) z /\ whole_metres x z.
(** No two units have the same whole metres. *)
Definition distinct_elevations (us : list hunit) : Prop := NoDup us /\ forall u v z, In u us -> In v us -> whole_metres (hu_elev u) z -> whole_metres (hu_elev v) z -> u = v.

(** The value at [x] of the line from ([a], [va]) to ([b], [vb]). *)
Definition on_line (a : Z) (va : R) (b : Z) (vb : R) (x : Z) (v : R) : Prop := v * IZR (b - a) = va * IZR (b - x) + vb * IZR (x - a).
Definition neighbours (l : list (Z * R)) (a : Z) (va : R) (b : Z) (vb : R) : Prop := exists before after, l = before ++ (a, va) :: (b, vb) :: after.

(** The area of the pixels of a unit; the value of a column of a table for a unit. *)
Definition pixel_area (grid : list Z) (px : R) (id : Z) : R := INR (length (filter (fun z => (z =? id)%Z) grid)) * px.
Definition has_value (t : change_table) (id : Z) (j : nat) (v : R) : Prop := (exists vals, In (id, vals) (ct_rows t)) /\ forall vals, In (id, vals) (ct_rows t) -> nth_error vals j = Some (Some v).
(** The debris is on the glacier. *)
Definition debris_on_glacier (m : mask) : Prop := Forall2 (fun d g => d = true -> g = true) (mk_debris m) (mk_glacier m).
(** A run with the registered changes leaves each unit with the area that the table gives at the last date of the run. *)
Definition run_follows (cs : list land_change) (f : R) (t : change_table) : Prop :=
  forall dates last, StronglySorted Rlt (dates ++ [mjd_of last]) ->
  exists m log m', register [cs] new_manager = Ok m /\ run_dates (dates ++ [mjd_of last]) m = Ok (log, m') /\
    forall id y, leaves log id y <-> exists x, says t id last x /\ y = x * f.
