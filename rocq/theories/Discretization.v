(** The discretization of a catchment into hydro units.  No proofs here.
    CD = python/src/hydrobricks/preprocessing/catchment_discretization.py, CA = python/src/hydrobricks/catchment.py.
    The grids are lists of cells (the order of the cells of the raster does not matter here); a number that is NaN is None and every comparison
    with it is false.  Numbers are reals.  Slope, aspect, radiation and the coverage of the cells by the polygons are inputs (xarray-spatial,
    rasterio).  Not modelled: attributes of the units other than the classes, the bounds and the area; the rounding to two decimals; a second
    discretization of the same catchment (the table of the units keeps its old columns). *)
From Coq Require Import String.
From Verif Require Import Base.
Open Scope R_scope.

(** A cell.  [z_elev]: None out of the catchment; [z_cover]: is it covered by each of the polygons of the sub-catchments. *)
Record cell := mkCell { z_elev : option R; z_slope : option R; z_aspect : option R; z_rad : option R; z_cover : list bool }.
Definition inside (c : cell) : bool := match z_elev c with Some _ => true | None => false end.

(** CD:187-280: how the bands of a quantity are made; [Unknown]: another text. *)
Inductive method := EqualIntervals (distance : R) (low high : option R) | Quantiles (number : nat) | Unknown.
(** The criteria that are used.  [by_sub]: the number of polygons, [Some None] if the argument is missing. *)
Record criteria := mkCrit { by_elevation : option method; by_slope : option method; by_aspect : bool; by_radiation : option method; by_sub : option (option nat) }.
Inductive direction := North | East | South | West.
Inductive class := ElevationBand (lo hi : R) | SlopeBand (lo hi : R) | AspectClass (d : direction) | RadiationBand (lo hi : R) | SubCatchment (k : nat).

(** *** Bands *)
Definition ceil (x : R) : Z := (- Int_part (- x))%Z.
(** Python x % d. *)
Definition modulo (x d : R) : R := x - d * IZR (Int_part (x / d)).
(** numpy.arange(a, b, d): ceil((b - a) / d) numbers. *)
Definition arange (a b d : R) : list R := map (fun i => a + INR i * d) (seq 0 (Z.to_nat (ceil ((b - a) / d)))).
Fixpoint known (l : list (option R)) : list R := match l with [] => [] | Some x :: r => x :: known r | None :: r => known r end.
Definition minimum (l : list R) : option R := match l with [] => None | x :: r => Some (fold_left Rmin r x) end.
Definition maximum (l : list R) : option R := match l with [] => None | x :: r => Some (fold_left Rmax r x) end.
(** numpy.nanquantile, linear interpolation between the sorted values. *)
Fixpoint insert (x : R) (l : list R) : list R := match l with [] => [x] | y :: r => if Rleb x y then x :: l else y :: insert x r end.
Definition sorted (l : list R) : list R := fold_right insert [] l.
Definition interpolate (s : list R) (h : R) : R :=
  let i := Z.to_nat (Int_part h) in
  let j := if Nat.ltb (S i) (length s) then S i else i in
  nth i s 0 + (nth j s 0 - nth i s 0) * (h - IZR (Int_part h)).
Definition quantile (l : list R) (q : R) : R := interpolate (sorted l) (q * INR (length l - 1)).
(** numpy.linspace(0, 1, num=n). *)
Definition linspace (n : nat) : list R := map (fun i => if Nat.eqb n 1 then 0 else INR i / INR (n - 1)) (seq 0 n).
(** CD:189-205, 216-232, 251-272: the limits of the bands.  Without any value the arange raises; the quantiles are NaN, no cell is in such a band. *)
Definition edges (m : method) (data : list (option R)) : outcome (list R) :=
  match m with
  | EqualIntervals d low high =>
      match low, minimum (known data), high, maximum (known data) with
      | None, None, _, _ | _, _, None, None => Throw
      | _, mn, _, mx =>
          if Reqb d 0 then Throw
          else let a := match low, mn with Some a, _ => a | None, Some x => x - modulo x d | None, None => 0 end in
               let b := match high, mx with Some b, _ => b | None, Some x => x + (d - modulo x d) | None, None => 0 end in
               Ok (arange a (b + d) d)
      end
  | Quantiles n => match known data with [] => Ok [] | v => Ok (map (quantile v) (linspace n)) end
  | Unknown => Throw
  end.
Definition pairs (l : list R) : list (R * R) := combine l (tl l).
Definition bands (mk : R -> R -> class) (m : option method) (data : list (option R)) : outcome (list (list class)) :=
  match m with None => Ok [] | Some m => bind (edges m data) (fun e => Ok [map (fun q => mk (fst q) (snd q)) (pairs e)]) end.

(** *** Sub-catchments *)
(** CD:501-508: a cell belongs to the first polygon that covers it; 0 if none does. *)
Fixpoint first_cover (l : list bool) (k : nat) : nat := match l with [] => O | b :: r => if b then k else first_cover r (S k) end.
Definition sub_id (c : cell) (n : nat) : nat := first_cover (firstn n (z_cover c)) 1.
(** CD:282-293, 494-526. *)
Definition sub_classes (s : option (option nat)) (g : list cell) : outcome (list (list class)) :=
  match s with
  | None => Ok []
  | Some None => Throw
  | Some (Some n) => if Nat.eqb n 0 then Throw
                     else if existsb (fun c => inside c && Nat.eqb (sub_id c n) 0) g then Throw else Ok [map SubCatchment (seq 1 n)]
  end.
Definition polygons (s : option (option nat)) : nat := match s with Some (Some n) => n | _ => O end.

(** *** Units *)
(** itertools.product: the last criterion runs fastest. *)
Fixpoint product (l : list (list class)) : list (list class) :=
  match l with [] => [[]] | a :: r => flat_map (fun x => map (cons x) (product r)) a end.
(** CD:184-307: the combinations; the criteria are always in this order. *)
Definition combinations (k : criteria) (g : list cell) : outcome (list (list class)) :=
  bind (bands ElevationBand (by_elevation k) (map z_elev g)) (fun e =>
  bind (bands SlopeBand (by_slope k) (map z_slope g)) (fun s =>
  let a := if by_aspect k then [map AspectClass [North; East; South; West]] else [] in
  bind (bands RadiationBand (by_radiation k) (map z_rad g)) (fun r =>
  bind (sub_classes (by_sub k) g) (fun b => Ok (product (e ++ s ++ a ++ r ++ b)))))).
Definition within (x : option R) (lo hi : R) : bool := match x with Some x => Rleb lo x && Rltb x hi | None => false end.
(** CD:314-374. *)
Definition in_class (n : nat) (c : cell) (k : class) : bool :=
  match k with
  | ElevationBand lo hi => within (z_elev c) lo hi
  | SlopeBand lo hi => within (z_slope c) lo hi
  | AspectClass North => match z_aspect c with Some a => Rleb 315 a && Rleb a 360 || Rleb 0 a && Rltb a 45 | None => false end
  | AspectClass East => within (z_aspect c) 45 135
  | AspectClass South => within (z_aspect c) 135 225
  | AspectClass West => within (z_aspect c) 225 315
  | RadiationBand lo hi => within (z_rad c) lo hi
  | SubCatchment j => Nat.eqb (sub_id c n) j
  end.
Definition in_unit (n : nat) (u : list class) (c : cell) : bool := inside c && forallb (in_class n c) u.
(** CD:312-384, 416: the cells with their unit, and the units made. *)
Fixpoint assign (n : nat) (l : list (list class)) (s : list (cell * nat)) (next : nat) : outcome (list (cell * nat) * list (list class)) :=
  match l with
  | [] => Ok (s, [])
  | u :: r =>
      if existsb (fun q => in_unit n u (fst q)) s
      then if existsb (fun q => in_unit n u (fst q) && negb (Nat.eqb (snd q) 0)) s then Throw
           else bind (assign n r (map (fun q => if in_unit n u (fst q) then (fst q, next) else q) s) (S next)) (fun q => Ok (fst q, u :: snd q))
      else assign n r s next
  end.
(** CD:182-418: the map of the units is stored in 16 bits. *)
Definition discretize (k : criteria) (g : list cell) : outcome (list Z * list (list class)) :=
  bind (combinations k g) (fun l =>
  bind (assign (polygons (by_sub k)) l (map (fun c => (c, O)) g) 1) (fun q => Ok (map (fun q => (Z.of_nat (snd q) mod 65536)%Z) (fst q), snd q))).
(** CD:70-88, 168-169: the arguments; a text is a list of one text, texts that are not recognised have no effect.  The radiation is computed before. *)
Record arguments := mkArg { a_criteria : list string; a_elevation : method; a_slope : method; a_radiation : method; a_polygons : option nat }.
Definition mentions (a : arguments) (t : string) : bool := existsb (String.eqb t) (a_criteria a).
Definition criteria_of (a : arguments) : criteria :=
  mkCrit (if mentions a "elevation" then Some (a_elevation a) else None) (if mentions a "slope" then Some (a_slope a) else None) (mentions a "aspect")
    (if mentions a "radiation" then Some (a_radiation a) else None) (if mentions a "sub_catchments" then Some (a_polygons a) else None).
Definition discretize_by (a : arguments) (g : list cell) : outcome (list Z * list (list class)) := discretize (criteria_of a) g.
(** CA:523-545: the ids of the table (numpy.unique without 0) and the areas, [pixel] being the area of a cell. *)
Fixpoint insert_id (x : Z) (l : list Z) : list Z :=
  match l with [] => [x] | y :: r => if (x <? y)%Z then x :: l else if (x =? y)%Z then l else y :: insert_id x r end.
Definition unit_ids (m : list Z) : list Z := filter (fun i => negb (i =? 0)%Z) (fold_right insert_id [] m).
Definition unit_area (pixel : R) (m : list Z) (i : Z) : R := INR (length (filter (Z.eqb i) m)) * pixel.
(** CA:585. *)
Definition catchment_area (pixel : R) (m : list Z) : R := Rsum (unit_area pixel m) (unit_ids m).
