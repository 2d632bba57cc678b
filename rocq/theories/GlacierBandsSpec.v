(** Vocabulary of the theorems about the delta-h tables made on elevation bands. *)
From Verif Require Export GlacierTables GlacierSpec GlacierTablesSpec.
Open Scope R_scope.

(** The lines of a glacier profile that hold ice: at least one, each with a thickness, in increasing order of elevation. *)
Definition line (p : list dh_line) (j : nat) : dh_line := nth j p (mkDL 0 0 0 0).
Definition glacier_lines (profile : list dh_line) : list dh_line := filter (fun l => Rltb 0 (dl_area l)) profile.
Definition with_ice (profile : list dh_line) : Prop :=
  glacier_lines profile <> [] /\ forall l, In l profile -> 0 <= dl_area l /\ (0 < dl_area l -> 0 < dl_thick l).
Definition upwards (profile : list dh_line) : Prop :=
  let p := glacier_lines profile in forall i j, (i <= j < length p)%nat -> dl_elev (line p i) <= dl_elev (line p j).
(** The distinct elevations of the glacier, in increasing order. *)
Definition elevations (p : list dh_line) (E : list R) : Prop :=
  (forall i j, (i < j < length E)%nat -> nth i E 0 < nth j E 0) /\ forall e, In e E <-> exists l, In l p /\ dl_elev l = e.
Definition lines_in (p : list dh_line) (id : nat) : list nat := filter (fun j => (dl_unit (line p j) =? id)%nat) (seq 0 (length p)).
Definition lines_at (p : list dh_line) (e : R) : list nat := filter (fun j => Reqb (dl_elev (line p j)) e) (seq 0 (length p)).
(** Ice (m3) and extent (m2) of some lines when the share [kept e] of the ice and [narrow e] of the extent are left at elevation [e]. *)
Definition ice_kept (p : list dh_line) (kept : R -> R) (l : list nat) : R :=
  Rsum (fun j => dl_area (line p j) * dl_thick (line p j) * kept (dl_elev (line p j))) l.
Definition extent_kept (p : list dh_line) (narrow : R -> R) (l : list nat) : R := Rsum (fun j => dl_area (line p j) * narrow (dl_elev (line p j))) l.

(** What such a table says, with the shares left in each row: the units of the lines, n + 1 rows, the last one without ice; in the others each
    unit has what is left of its lines, and the ice of no elevation grows from row to row.  Ice and extent end together. *)
Definition bands_table (n : nat) (name : string) (p : list dh_line) (kept narrow : nat -> R -> R) (T : gtable) : Prop :=
  gt_rows T = S n /\ gt_cover T = name /\ NoDup (gt_units T) /\ (forall id, In id (gt_units T) <-> exists l, In l p /\ dl_unit l = id) /\
  (forall i, gt_area T n i = 0 /\ gt_volume T n i = 0) /\
  (forall e, kept 0%nat e = 1 /\ narrow 0%nat e = 1) /\
  (forall r l, (S r < n)%nat -> In l p -> kept (S r) (dl_elev l) <= kept r (dl_elev l)) /\
  (forall r l, (r < n)%nat -> In l p -> let e := dl_elev l in 0 <= kept r e /\ 0 <= narrow r e /\ (kept r e = 0 <-> narrow r e = 0)) /\
  (forall r i, (r < n)%nat -> In i (columns T) ->
     gt_area T r i = extent_kept p (narrow r) (lines_in p (unit_of T i)) /\ gt_volume T r i = ice_kept p (kept r) (lines_in p (unit_of T i))).
(** The widths: with the previous row as the reference, or when they are updated at the end only, the extent goes with the square root of the ice;
    with the first row as the reference it goes with the square root of the ice per extent of the row before. *)
Definition width_law (w : dh_width) (n : nat) (p : list dh_line) (kept narrow : nat -> R -> R) : Prop :=
  match w with
  | WidthInitial => forall r l, (S r < n)%nat -> In l p -> let e := dl_elev l in narrow r e * narrow (S r) e ^ 2 = kept (S r) e
  | _ => forall r l, (r < n)%nat -> In l p -> narrow r (dl_elev l) = sqrt (kept r (dl_elev l))
  end.
(** The extents that count for the melt: those of the row; if the widths are updated at the end only, the initial ones where ice is left. *)
Definition in_use (w : dh_width) (kept narrow : R -> R) (e : R) : R :=
  match w with WidthFixed => if Rltb 0 (kept e) then 1 else 0 | _ => narrow e end.
(** The melt from one row to the next: the n-th part of the initial ice, and what could not be melted before, is taken from the elevations in
    proportion to their extent and to [shape], as far as they have ice.  [unmet r]: what was asked for minus what was melted. *)
Definition melt_law (w : dh_width) (n : nat) (shape : nat -> R) (p : list dh_line) (E : list R) (kept narrow : nat -> R -> R) (unmet : nat -> R) : Prop :=
  let extent r b := extent_kept p (in_use w (kept r) (narrow r)) (lines_at p (nth b E 0)) in
  let ice r b := ice_kept p (kept r) (lines_at p (nth b E 0)) in
  let total r := ice_kept p (kept r) (seq 0 (length p)) in
  unmet 0%nat = 0 /\ forall r, (S r < n)%nat -> 0 <= unmet (S r) /\ exists melt, 0 <= melt /\
    melt * Rsum (fun b => extent r b * shape b) (seq 0 (length E)) = total 0%nat / INR n + unmet r /\
    (forall b, (b < length E)%nat -> ice (S r) b = Rmax 0 (ice r b - melt * shape b * extent r b)) /\
    unmet (S r) = Rsum (fun b => melt * shape b * extent r b) (seq 0 (length E)) - (total r - total (S r)).
(** Area of the glacier in km2. *)
Definition lines_km2 (p : list dh_line) : R := Rsum (fun j => dl_area (line p j)) (seq 0 (length p)) / 1000000.
