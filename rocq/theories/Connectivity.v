(** The connectivity of hydro units from a flow direction grid.  No proofs here.
    CC = python/src/hydrobricks/preprocessing/catchment_connectivity.py.
    The flow direction and the accumulation of the flow (pysheds) are inputs.  Numbers are reals.  A Python dictionary is a list of pairs in
    the order of insertion. *)
From Coq Require Import String.
From Verif Require Import Base.
Open Scope R_scope.

Definition dict := list (Z * R).
Fixpoint d_add (d : dict) (k : Z) (x : R) : dict :=
  match d with [] => [(k, 0 + x)] | (j, y) :: r => if Z.eqb j k then (j, y + x) :: r else (j, y) :: d_add r k x end.
Definition d_del (d : dict) (k : Z) : dict := filter (fun q => negb (Z.eqb (fst q) k)) d.
Definition d_sum (d : dict) : R := Rsum snd d.
(** max(d, key=d.get): the first key with the highest value. *)
Fixpoint max_from (d : dict) (k : Z) (x : R) : Z := match d with [] => k | (j, y) :: r => if Rltb x y then max_from r j y else max_from r k x end.
Definition max_key (d : dict) : option Z := match d with [] => None | (j, y) :: r => Some (max_from r j y) end.

(** The grids: unit ids (0 out of the catchment), accumulated flow, D8 direction.  A table: the dictionary of each unit. *)
Record grid := mkGrid { g_rows : nat; g_cols : nat; g_id : nat -> nat -> Z; g_acc : nat -> nat -> R; g_dir : nat -> nat -> Z }.
Definition table := list (Z * dict).
Definition all_cells (g : grid) : list (nat * nat) := flat_map (fun i => map (pair i) (seq 0 (g_cols g))) (seq 0 (g_rows g)).

(** CC:390-402. *)
Definition d8_offset (d : Z) : option (Z * Z) :=
  (if d =? 1 then Some (0, 1) else if d =? 2 then Some (1, 1) else if d =? 4 then Some (1, 0) else if d =? 8 then Some (1, -1)
   else if d =? 16 then Some (0, -1) else if d =? 32 then Some (-1, -1) else if d =? 64 then Some (-1, 0) else if d =? 128 then Some (-1, 1) else None)%Z.
(** CC:412-433: the cell a cell flows to; None if there is none. *)
Definition next_cell (g : grid) (i j : nat) : outcome (option (nat * nat)) :=
  if Z.leb (g_dir g i j) 0 then Ok None
  else match d8_offset (g_dir g i j) with
       | None => Throw
       | Some (a, b) =>
           let i' := (Z.of_nat i + a)%Z in let j' := (Z.of_nat j + b)%Z in
           if Z.ltb i' 0 || Z.leb (Z.of_nat (g_rows g)) i' || Z.ltb j' 0 || Z.leb (Z.of_nat (g_cols g)) j' then Ok None else Ok (Some (Z.to_nat i', Z.to_nat j'))
       end.
(** CC:383-388: dict(zip(...)) keeps the last row of an id. *)
Definition has_row (t : table) (u : Z) : bool := existsb (fun q => Z.eqb (fst q) u) t.
Fixpoint add_flow (t : table) (u v : Z) (x : R) : table :=
  match t with [] => [] | (w, d) :: r => if Z.eqb w u && negb (has_row r u) then (w, d_add d v x) :: r else (w, d) :: add_flow r u v x end.
(** CC:407-444: one cell. *)
Definition cell_flow (g : grid) (t : table) (c : nat * nat) : outcome table :=
  let (i, j) := c in
  let u := g_id g i j in
  if Z.eqb u 0 then Ok t
  else bind (next_cell g i j) (fun n =>
       match n with
       | None => Ok t
       | Some (i', j') => let v := g_id g i' j' in
                          if Z.eqb v u then Ok t else if has_row t u then Ok (add_flow t u v (g_acc g i j)) else Throw
       end).
Fixpoint cells_flow (g : grid) (t : table) (l : list (nat * nat)) : outcome table :=
  match l with [] => Ok t | c :: r => bind (cell_flow g t c) (fun t' => cells_flow g t' r) end.
(** CC:364-444 [_sum_contributing_flow_acc] on the empty dictionaries of CC:117-119. *)
Definition gather (g : grid) (ids : list Z) : outcome table := cells_flow g (map (fun u => (u, [])) ids) (all_cells g).

(** CC:137-159. *)
Definition remove_out (d : dict) : dict := d_del d 0.
(** CC:161-197: the cells of the dilated mask of a unit (scipy's default: the four cells around a cell); numpy.unique sorts the ids. *)
Definition in_grid (g : grid) (i j : nat) : bool := Nat.ltb i (g_rows g) && Nat.ltb j (g_cols g).
Definition is_unit (g : grid) (u : Z) (i j : nat) : bool := in_grid g i j && Z.eqb (g_id g i j) u.
Definition dilated (g : grid) (u : Z) (c : nat * nat) : bool :=
  let (i, j) := c in
  is_unit g u i j || is_unit g u (S i) j || is_unit g u i (S j) ||
  match i with O => false | S k => is_unit g u k j end || match j with O => false | S k => is_unit g u i k end.
Fixpoint insert_id (k : Z) (l : list Z) : list Z :=
  match l with [] => [k] | j :: r => if Z.ltb k j then k :: j :: r else if Z.eqb k j then j :: r else j :: insert_id k r end.
Definition dilated_ids (g : grid) (u : Z) : list Z := map (fun c => g_id g (fst c) (snd c)) (filter (dilated g u) (all_cells g)).
Definition neighbour_ids (g : grid) (u : Z) : list Z :=
  filter (fun k => negb (Z.eqb k u)) (filter (fun k => negb (Z.eqb k 0)) (fold_left (fun l k => insert_id k l) (dilated_ids g u) [])).
Definition connect_to_neighbours (g : grid) (u : Z) (d : dict) : dict :=
  match d with
  | [] => map (fun k => (k, INR (List.length (filter (Z.eqb k) (dilated_ids g u))))) (neighbour_ids g u)
  | _ => d
  end.

(** CC:199-217. *)
Definition normalize_row (d : dict) : dict := let total := d_sum d in map (fun q => (fst q, snd q / total)) d.
(** Python's int() of a number that is not negative, and round(): half to even. *)
Definition py_round (x : R) : Z :=
  let f := Int_part x in if Rltb (x - IZR f) (1/2) then f else if Rltb (1/2) (x - IZR f) then (f + 1)%Z else if Z.even f then f else (f + 1)%Z.
(** sorted(..., reverse=True) is stable. *)
Fixpoint insert_rem (q : Z * R) (l : list (Z * R)) : list (Z * R) :=
  match l with [] => [q] | r :: l' => if Rltb (snd r) (snd q) then q :: r :: l' else r :: insert_rem q l' end.
Definition sort_rem (l : list (Z * R)) : list (Z * R) := fold_left (fun acc q => insert_rem q acc) l [].
(** l[:n] *)
Definition slice {A} (l : list A) (n : Z) : list A := firstn (if Z.ltb n 0 then List.length l - Z.to_nat (- n) else Z.to_nat n)%nat l.
(** CC:219-249. *)
Definition round_row (d : dict) (p : nat) : dict :=
  let total := d_sum d in
  let floored := map (fun q => (fst q, Int_part (snd q * 10 ^ p))) d in
  let remainder := map (fun q => (fst q, snd q * 10 ^ p - IZR (Int_part (snd q * 10 ^ p)))) d in
  let diff := (py_round (total * 10 ^ p) - fold_right Z.add 0 (map snd floored))%Z in
  let chosen := map fst (slice (sort_rem remainder) diff) in
  map (fun q => (fst q, IZR (snd q + (if existsb (Z.eqb (fst q)) chosen then 1 else 0)) / 10 ^ p)) floored.
(** CC:251-298. *)
Definition normalize_connectivity (force : bool) (p : nat) (d : dict) : dict :=
  match max_key d with
  | None => d
  | Some m =>
      if Z.eqb m 0 && negb force then []
      else let d1 := d_del d 0 in
           if Reqb (d_sum d1) 0 then d1
           else let d2 := filter (fun q => Rleb (1/100) (snd q)) (normalize_row d1) in
                round_row (normalize_row d2) p
  end.
(** CC:300-330. *)
Definition keep_highest (force : bool) (d : dict) : dict :=
  match max_key d with None => d | Some m => if Z.eqb m 0 && negb force then [] else [(m, 1)] end.
(** CC:37-362 [calculate], given the grids. *)
Definition each (f : Z -> dict -> dict) (t : table) : table := map (fun q => (fst q, f (fst q) (snd q))) t.
Definition calculate (g : grid) (ids : list Z) (mode : string) (force : bool) (p : nat) : outcome table :=
  match ids with
  | [] => Throw
  | _ =>
    bind (gather g ids) (fun t =>
    let t1 := if force then each (connect_to_neighbours g) (each (fun _ => remove_out) t) else t in
    if String.eqb mode "multiple" then Ok (each (fun _ => normalize_connectivity force p) t1)
    else if String.eqb mode "single" then Ok (each (fun _ => keep_highest force) t1)
    else Throw)
  end.
