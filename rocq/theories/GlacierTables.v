(** The lookup tables of the glacier evolution, as prepared by the Python library.  No proofs here.
    Sources: python/src/hydrobricks/preprocessing/glacier_evolution_area_scaling.py (AS below) and glacier_evolution_delta_h.py (DH below),
    python/src/hydrobricks/_constants.py:23-25 (ice density 900 over water density 1000).
    Rasters are not modelled: the ice of a hydro unit (or of a part of an elevation band) is the list of the thicknesses of its ice-covered pixels.
    A division by zero that reaches the tables (IEEE infinity or NaN) is [UB]; a failed assertion or an exception is [Throw]. *)
From Verif Require Export Base GlacierActions.
Open Scope R_scope.

(** [np.mean]; [np.isclose(a, b, atol=1e-2)] with its default relative tolerance of 1e-5. *)
Definition mean (l : list R) : R := Rsum (fun v => v) l / INR (length l).
Definition isclose (a b : R) : bool := Rleb (Rabs (a - b)) (/ 100 + / 100000 * Rabs b).

(** AS:316-319, DH:851-854: one round of the loop that removes negative pixels.  Without a positive pixel the quotient is not used. *)
Definition px_deficit (l : list R) : R := - Rsum (fun v => if Rltb v 0 then v else 0) l.
Definition px_count (l : list R) : nat := length (filter (fun v => Rltb 0 v) l).
Definition px_round (l : list R) : list R :=
  let d := px_deficit l / INR (px_count l) in map (fun v => if Rleb v 0 then 0 else v - d) l.
(** The loop; [None]: not finished after [fuel] rounds. *)
Fixpoint px_settle (fuel : nat) (l : list R) : option (list R) :=
  if existsb (fun v => Rltb v 0) l then match fuel with O => None | S k => px_settle k (px_round l) end else Some l.
(** The pixels lose [melt] each (AS:313, DH:848) and the loop runs (with more fuel than it needs). *)
Definition px_melt (melt : R) (l : list R) : option (list R) := px_settle (S (length l)) (map (fun v => v - melt) l).
Definition px_nonzero (l : list R) : nat := length (filter (fun v => negb (Reqb v 0)) l).
Definition px_positive (l : list R) : list R := filter (fun v => Rltb 0 v) l.

(** The area of a pixel (m2) and of the catchment. *)
Record grid := mkG { g_px : R; g_catchment : R }.

(** *** Area scaling *)
(** The ice of one hydro unit at one increment: share of the catchment, mean water equivalent (mm), pixels (mm). *)
Record as_cell := mkAC { ac_area : R; ac_we : R; ac_px : list R }.
(** AS:223-247, 249-278 with [_get_glacier_patches] (AS:386-420): row 0, from the thicknesses (m). *)
Definition as_start (g : grid) (thickness : list R) : as_cell :=
  mkAC (INR (length thickness) * g_px g / g_catchment g) (mean thickness * iceDensity) (map (fun h => h * iceDensity) thickness).
(** AS:280-330 [_update_glacier_thickness], one unit.  The mean of no pixel is NaN, which fails the assertion. *)
Definition as_thin (change : R) (c : as_cell) : outcome as_cell :=
  if Reqb (ac_area c) 0 then Ok c else
  let melt := change / ac_area c in
  match px_melt melt (ac_px c) with
  | None => UB
  | Some [] => Throw
  | Some px => if isclose (mean px) (ac_we c - melt) then Ok (mkAC (ac_area c) (mean px) px) else Throw
  end.
(** AS:332-363 [_width_scaling], one unit. *)
Definition as_width (g : grid) (c : as_cell) : as_cell :=
  let px := px_positive (ac_px c) in
  mkAC (INR (px_nonzero (ac_px c)) * g_px g / g_catchment g) (match px with [] => 0 | _ => mean px end) px.
(** AS:93-98: the rows 1 .. n-1; the change is computed once from row 0 (AS:94).  The units do not depend on each other: they are followed one by one. *)
Definition as_step (g : grid) (change : R) (c : as_cell) : outcome as_cell := bind (as_thin change c) (fun c' => Ok (as_width g c')).
Fixpoint as_rows (g : grid) (change : R) (c : as_cell) (k : nat) : outcome (list as_cell) :=
  match k with O => Ok [c] | S j => bind (as_step g change c) (fun c' => bind (as_rows g change c' j) (fun l => Ok (c :: l))) end.
(** [n] increments: n + 1 rows, the last one of zeros.  With n = 0 the division of AS:94 gives values that are not used. *)
Definition as_column (g : grid) (n : nat) (thickness : list R) : outcome (list as_cell) :=
  let c := as_start g thickness in
  if (n =? 0)%nat then Ok [c]
  else bind (as_rows g (ac_we c * ac_area c / INR n) c (n - 1)) (fun l => Ok (l ++ [mkAC 0 0 []])).
Fixpoint outcomes {A B} (f : A -> outcome B) (l : list A) : outcome (list B) :=
  match l with [] => Ok [] | x :: r => bind (f x) (fun y => bind (outcomes f r) (fun q => Ok (y :: q))) end.
(** AS:365-383 [_update_lookup_tables].  The units come from [np.unique] (AS:412): each has one column and they are sorted. *)
Definition as_cell_at (cols : list (list as_cell)) (r i : nat) : as_cell := nth r (nth i cols []) (mkAC 0 0 []).
Definition as_table (g : grid) (n : nat) (name : string) (units : list (nat * list R)) : outcome gtable :=
  bind (outcomes (fun u => as_column g n (snd u)) units) (fun cols =>
  let area r i := ac_area (as_cell_at cols r i) * g_catchment g in
  Ok (mkGT (S n) area (fun r i => ac_we (as_cell_at cols r i) * area r i / iceDensity) (map fst units) name)).

(** *** Delta-h *)
(** DH:710-736 [_set_delta_h_parametrization]: a, b, c, gamma. *)
Definition dh_coefficients (km2 : R) : outcome (R * R * R * nat) :=
  if Rltb 20 km2 then Ok (- (2 / 100), 12 / 100, 0, 6%nat)
  else if Rleb 5 km2 && Rleb km2 20 then Ok (- (5 / 100), 19 / 100, 1 / 100, 4%nat)
  else if Rltb 0 km2 && Rltb km2 5 then Ok (- (30 / 100), 60 / 100, 9 / 100, 2%nat)
  else Throw.
(** DH:757-763. *)
Definition dh_shape (k : R * R * R * nat) (x : R) : R := let '(a, b, c, gam) := k in (x + a) ^ gam + b * (x + a) + c.

(** A line of the glacier profile: elevation, glacier area (m2), mean thickness (m), hydro unit. *)
Record dh_line := mkDL { dl_elev : R; dl_area : R; dl_thick : R; dl_unit : nat }.
(** DH:520-524: lines without a glacier are dropped. *)
Definition dh_lines (p : list dh_line) : list dh_line := filter (fun l => negb (Reqb (dl_area l) 0)) p.
(** [np.unique] of the elevations: sorted, without repetition (DH:548-550). *)
Fixpoint insert_elev (e : R) (l : list R) : list R :=
  match l with [] => [e] | x :: r => if Rltb e x then e :: l else if Reqb e x then l else x :: insert_elev e r end.
Definition elev_bands (p : list dh_line) : list R := fold_right insert_elev [] (map dl_elev p).
Fixpoint index_of (e : R) (l : list R) : nat := match l with [] => 0%nat | x :: r => if Reqb e x then 0%nat else S (index_of e r) end.
(** DH:552-555, 669-672: with one line per elevation, line [j] is taken for band [j]; otherwise the inverse of [np.unique]. *)
Definition sub_parts (p : list dh_line) : bool := negb (length (elev_bands p) =? length p)%nat.
Definition line_band (p : list dh_line) (j : nat) : nat :=
  if sub_parts p then index_of (dl_elev (nth j p (mkDL 0 0 0 0))) (elev_bands p) else j.
(** DH:698-702, 757-763: the normalised elevation of band [b] and the change of thickness there, without observed values.  A single
    elevation gives 0/0 (the call is then [UB] below). *)
Definition band_shape (p : list dh_line) (k : R * R * R * nat) (b : nat) : R :=
  let E := elev_bands p in
  let top := last E 0 in
  dh_shape k ((top - nth b E 0) / (top - nth 0 E 0)).

(** Arrays are functions of the index; [m] bands.  Step 2 (DH:765-776): the scaling factor. *)
Definition dh_factor (m n : nat) (M0 excess : R) (dh area : nat -> R) : outcome R :=
  let S := Rsum (fun b => area b * dh b) (seq 0 m) in
  if Reqb S 0 then UB else Ok ((M0 / INR n + excess) / S).

(** *** Delta-h on elevation bands (pixel_based_approach = False) *)
Record dh_band := mkDB { db_area : nat -> R; db_we : nat -> R; db_excess : R }.
(** update_width and update_width_reference. *)
Inductive dh_width := WidthInitial | WidthPrevious | WidthFixed.
(** DH:790-803. *)
Definition db_thin (m : nat) (f : R) (dh : nat -> R) (s : dh_band) : dh_band :=
  let new b := db_we s b - f * dh b in
  mkDB (db_area s) (fun b => if Rltb (new b) 0 then 0 else new b)
       (- Rsum (fun b => (if Rltb (new b) 0 then new b else 0) * db_area s b) (seq 0 m)).
(** DH:900-945: the new areas from the reference; [s0] is row 0, [s] the previous row, [we1] the water equivalent after the melt.
    The new row of areas holds zeros at first. *)
Definition db_new_area (w : dh_width) (s0 s : dh_band) (we1 : nat -> R) (b : nat) : R :=
  match w with
  | WidthInitial => if Rltb 0 (db_we s0 b) then db_area s0 b * sqrt (we1 b / db_we s0 b) else 0
  | WidthPrevious => if Rltb 0 (db_we s b) then db_area s b * sqrt (we1 b / db_we s b) else 0
  | WidthFixed => db_area s b
  end.
(** The new thickness divides by the new area where there is ice. *)
Definition db_width (m : nat) (w : dh_width) (s0 s t : dh_band) : outcome dh_band :=
  let A := db_new_area w s0 s (db_we t) in
  let we2 b := match w with
               | WidthFixed => db_we t b
               | _ => if Rltb 0 (db_we t b) then db_we t b * (db_area s b / A b) else db_we t b
               end in
  if match w with WidthFixed => false | _ => existsb (fun b => Rltb 0 (db_we t b) && Reqb (A b) 0) (seq 0 m) end then UB
  else Ok (mkDB (fun b => if Reqb (we2 b) 0 then 0 else A b) we2 (db_excess t)).
(** DH:560-565: increments 1 .. n-1. *)
Definition db_step (m n : nat) (w : dh_width) (M0 : R) (dh : nat -> R) (s0 s : dh_band) : outcome dh_band :=
  bind (dh_factor m n M0 (db_excess s) dh (db_area s)) (fun f => db_width m w s0 s (db_thin m f dh s)).
Fixpoint db_rows (m n : nat) (w : dh_width) (M0 : R) (dh : nat -> R) (s0 s : dh_band) (k : nat) : outcome (list dh_band) :=
  match k with O => Ok [s] | S j => bind (db_step m n w M0 dh s0 s) (fun s' => bind (db_rows m n w M0 dh s0 s' j) (fun l => Ok (s :: l))) end.
(** DH:980-996 [_final_width_scaling], one row (rows 1 .. n). *)
Definition db_final (m : nat) (s0 s : dh_band) : outcome dh_band :=
  let A b := if Rltb 0 (db_we s0 b) then db_area s0 b * sqrt (db_we s b / db_we s0 b) else db_area s b in
  if existsb (fun b => Rltb 0 (db_we s b) && Reqb (A b) 0) (seq 0 m) then UB
  else Ok (mkDB A (fun b => if Rltb 0 (db_we s b) then db_we s b * (db_area s0 b / A b) else db_we s b) (db_excess s)).
(** DH:665-681: row 0 of the bands from the lines (areas as shares of the catchment, mm). *)
Definition line_area (g : grid) (p : list dh_line) (j : nat) : R := dl_area (nth j p (mkDL 0 0 0 0)) / g_catchment g.
Definition line_we (p : list dh_line) (j : nat) : R := dl_thick (nth j p (mkDL 0 0 0 0)) * iceDensity.
Definition lines_of (p : list dh_line) (b : nat) : list nat := filter (fun j => (line_band p j =? b)%nat) (seq 0 (length p)).
Definition band_sum (p : list dh_line) (f : nat -> R) (b : nat) : R := Rsum f (lines_of p b).
Definition db_start (g : grid) (p : list dh_line) : dh_band :=
  if sub_parts p
  then mkDB (band_sum p (line_area g p))
            (fun b => band_sum p (fun j => line_we p j * (line_area g p j / band_sum p (line_area g p) b)) b) 0
  else mkDB (line_area g p) (line_we p) 0.
(** DH:998-1058: the lines of a row from its bands (row 0 keeps the lines). *)
Definition line_we_at (g : grid) (p : list dh_line) (s0 s : dh_band) (j : nat) : R :=
  if sub_parts p
  then let b := line_band p j in if Reqb (db_we s b) 0 then 0 else line_we p j * (db_we s b / db_we s0 b)
  else db_we s j.
Definition line_area_at (g : grid) (p : list dh_line) (s0 s : dh_band) (j : nat) : R :=
  if sub_parts p
  then let b := line_band p j in
       let w := line_we_at g p s0 s j in
       let a := if Reqb w 0 then 0 else line_area g p j in
       if Rltb 0 w then a * (db_area s b / db_area s0 b) else a
  else db_area s j.
(** DH:1060-1077 [_update_lookup_tables]: column of hydro unit [u] (the columns are the sorted units). *)
Definition unit_lines (p : list dh_line) (u : nat) : list nat :=
  filter (fun j => (dl_unit (nth j p (mkDL 0 0 0 0)) =? u)%nat) (seq 0 (length p)).
Fixpoint insert_unit (e : nat) (l : list nat) : list nat :=
  match l with [] => [e] | x :: r => if (e <? x)%nat then e :: l else if (e =? x)%nat then l else x :: insert_unit e r end.
Definition line_units (p : list dh_line) : list nat := fold_right insert_unit [] (map dl_unit p).
Definition lines_table (g : grid) (n : nat) (name : string) (p : list dh_line) (area we : nat -> nat -> R) : gtable :=
  let units := line_units p in
  mkGT (S n) (fun r i => Rsum (fun j => area r j * g_catchment g) (unit_lines p (nth i units 0%nat)))
    (fun r i => Rsum (fun j => we r j * (area r j * g_catchment g) / iceDensity) (unit_lines p (nth i units 0%nat))) units name.
(** DH:415-571 [compute_lookup_table] on bands.  [shape]: the change of thickness per band, observed or from [band_shape]. *)
Definition total_we (g : grid) (p : list dh_line) : R := Rsum (fun j => line_area g p j * line_we p j) (seq 0 (length p)).
Definition band_count (p : list dh_line) : nat := length (elev_bands p).
Definition zero_band : dh_band := mkDB (fun _ => 0) (fun _ => 0) 0.
Definition db_finish (m : nat) (w : dh_width) (s0 : dh_band) (l : list dh_band) : outcome (list dh_band) :=
  match w, l with WidthFixed, s :: r => bind (outcomes (db_final m s0) r) (fun q => Ok (s :: q)) | _, _ => Ok l end.
Definition dh_bands_table (g : grid) (n : nat) (w : dh_width) (name : string) (shape : nat -> R) (profile : list dh_line) : outcome gtable :=
  let p := dh_lines profile in
  let m := band_count p in
  let s0 := db_start g p in
  bind (if (n =? 0)%nat then Ok [s0] else bind (db_rows m n w (total_we g p) shape s0 s0 (n - 1)) (fun l => Ok (l ++ [zero_band]))) (fun l =>
  bind (db_finish m w s0 l) (fun q =>
  Ok (lines_table g n name p
        (fun r j => match r with O => line_area g p j | _ => line_area_at g p s0 (nth r q zero_band) j end)
        (fun r j => match r with O => line_we p j | _ => line_we_at g p s0 (nth r q zero_band) j end)))).
(** DH:705-708, 710-736, 757-763: without observed values; the glacier area counts all lines. *)
Definition glacier_km2 (g : grid) (p : list dh_line) : R :=
  Rsum (line_area g p) (seq 0 (length p)) * g_catchment g / (1000 * 1000).
Definition dh_bands_default (g : grid) (n : nat) (w : dh_width) (name : string) (profile : list dh_line) : outcome gtable :=
  let p := dh_lines profile in
  bind (dh_coefficients (glacier_km2 g p)) (fun k =>
  if (band_count p <=? 1)%nat then UB else dh_bands_table g n w name (band_shape p k) profile).

(** *** Delta-h on pixels (pixel_based_approach = True) *)
(** A part of a band: its thickness pixels; [P] parts, part [j] belongs to band [band j] of [m]. *)
Record dh_row := mkDR { dr_area : nat -> R; dr_we : nat -> R; dr_px : nat -> list R; dr_area_b : nat -> R; dr_we_b : nat -> R; dr_excess : R }.
Definition parts_of (P : nat) (band : nat -> nat) (b : nat) : list nat := filter (fun j => (band j =? b)%nat) (seq 0 P).
(** DH:374-394, 526-539, 665-681, [_get_glacier_patches] (DH:1149-1173): row 0. *)
Definition dr_start (g : grid) (P m : nat) (band : nat -> nat) (thickness : nat -> list R) : dh_row :=
  let area j := INR (length (thickness j)) * g_px g / g_catchment g in
  let we j := mean (thickness j) * iceDensity in
  let area_b b := Rsum area (parts_of P band b) in
  mkDR area we (fun j => map (fun h => h * iceDensity) (thickness j)) area_b
       (fun b => Rsum (fun j => we j * (area j / area_b b)) (parts_of P band b)) 0.
(** DH:833-866: one pass over the parts of a band. *)
Fixpoint parts_pass (melt : R) (ps : list nat) (we : nat -> R) (px : nat -> list R) (ex : nat -> R)
  : outcome ((nat -> R) * (nat -> list R) * (nat -> R)) :=
  match ps with
  | [] => Ok (we, px, ex)
  | j :: r =>
    if Rleb (we j) 0 then parts_pass melt r we px ex
    else if Rltb (we j) melt then parts_pass melt r (upd we j 0) (upd px j []) (upd ex j (we j - melt))
    else match px_melt melt (px j) with
         | None => UB
         | Some [] => Throw
         | Some l => if isclose (mean l) (we j - melt) && Rleb 0 (mean l) then parts_pass melt r (upd we j (mean l)) (upd px j l) ex else Throw
         end
  end.
(** DH:829-881: the loop; more fuel than it needs. *)
Fixpoint parts_loop (fuel : nat) (melt : R) (ps : list nat) (area : nat -> R) (we : nat -> R) (px : nat -> list R)
  : outcome ((nat -> R) * (nat -> list R)) :=
  if Rltb 0 melt then
    match fuel with
    | O => UB
    | S k =>
      bind (parts_pass melt ps we px (fun _ => 0)) (fun st =>
      let '(we', px', ex) := st in
      let tot := - Rsum (fun j => ex j * area j) ps in
      let pos := Rsum (fun j => if Rltb 0 (we' j) then area j else 0) ps in
      if Reqb pos 0 then Ok (we', px') else parts_loop k (tot / pos) ps area we' px')
    end
  else Ok (we, px).
(** DH:814-881: the bands one after the other; [ex] collects the excess of each band. *)
Fixpoint bands_melt (P : nat) (band : nat -> nat) (melt : nat -> R) (s : dh_row) (bs : list nat) (we : nat -> R) (px : nat -> list R) (ex : nat -> R)
  : outcome ((nat -> R) * (nat -> list R) * (nat -> R)) :=
  match bs with
  | [] => Ok (we, px, ex)
  | b :: r =>
    if Rltb (dr_we_b s b) (melt b)
    then bands_melt P band melt s r (fun j => if (band j =? b)%nat then 0 else we j) (fun j => if (band j =? b)%nat then [] else px j)
           (upd ex b (dr_we_b s b - melt b))
    else bind (parts_loop (S (length (parts_of P band b))) (melt b) (parts_of P band b) (dr_area s) we px) (fun st =>
         bands_melt P band melt s r (fst st) (snd st) ex)
  end.
(** DH:778-884, then the pixels of [_width_scaling] (DH:946-978). *)
Definition dr_width (g : grid) (P : nat) (band : nat -> nat) (px : nat -> list R) (excess : R) : dh_row :=
  let px' j := px_positive (px j) in
  let area j := INR (px_nonzero (px j)) * g_px g / g_catchment g in
  let all b := concat (map px' (parts_of P band b)) in
  mkDR area (fun j => match px' j with [] => 0 | l => mean l end) px'
       (fun b => Rsum area (parts_of P band b)) (fun b => match all b with [] => 0 | l => mean l end) excess.
Definition dr_step (g : grid) (P m n : nat) (band : nat -> nat) (M0 : R) (dh : nat -> R) (s : dh_row) : outcome dh_row :=
  bind (dh_factor m n M0 (dr_excess s) dh (dr_area_b s)) (fun f =>
  bind (bands_melt P band (fun b => f * dh b) s (seq 0 m) (dr_we s) (dr_px s) (fun _ => 0)) (fun st =>
  let '(_, px, ex) := st in
  Ok (dr_width g P band px (- Rsum (fun b => ex b * dr_area_b s b) (seq 0 m))))).
Fixpoint dr_rows (g : grid) (P m n : nat) (band : nat -> nat) (M0 : R) (dh : nat -> R) (s : dh_row) (k : nat) : outcome (list dh_row) :=
  match k with O => Ok [s] | S j => bind (dr_step g P m n band M0 dh s) (fun s' => bind (dr_rows g P m n band M0 dh s' j) (fun l => Ok (s :: l))) end.
Definition zero_row : dh_row := mkDR (fun _ => 0) (fun _ => 0) (fun _ => []) (fun _ => 0) (fun _ => 0) 0.
(** DH:692-694: the initial mass. *)
Definition dr_total (P : nat) (s : dh_row) : R := Rsum (fun j => dr_area s j * dr_we s j) (seq 0 P).
(** DH:415-571 on pixels, for any change of thickness per band. *)
Definition dr_all (g : grid) (P m n : nat) (band : nat -> nat) (dh : nat -> R) (thickness : nat -> list R) : outcome (list dh_row) :=
  let s0 := dr_start g P m band thickness in
  if (n =? 0)%nat then Ok [s0]
  else bind (dr_rows g P m n band (dr_total P s0) dh s0 (n - 1)) (fun l => Ok (l ++ [zero_row])).
(** The parts with their hydro units (DH:1060-1077). *)
Record dh_part := mkDP { dp_elev : R; dp_unit : nat; dp_thick : list R }.
Definition part_line (g : grid) (q : dh_part) : dh_line := mkDL (dp_elev q) (INR (length (dp_thick q)) * g_px g) (mean (dp_thick q)) (dp_unit q).
Definition dh_pixel_table (g : grid) (n : nat) (name : string) (shape : nat -> R) (parts : list dh_part) : outcome gtable :=
  let p := map (part_line g) parts in
  bind (dr_all g (length parts) (band_count p) n (line_band p) shape (fun j => dp_thick (nth j parts (mkDP 0 0 [])))) (fun q =>
  Ok (lines_table g n name p (fun r j => dr_area (nth r q zero_row) j) (fun r j => dr_we (nth r q zero_row) j))).
Definition dh_pixel_default (g : grid) (n : nat) (name : string) (parts : list dh_part) : outcome gtable :=
  let p := map (part_line g) parts in
  bind (dh_coefficients (glacier_km2 g p)) (fun k =>
  if (band_count p <=? 1)%nat then UB else dh_pixel_table g n name (band_shape p k) parts).
