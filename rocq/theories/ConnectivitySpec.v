(** Vocabulary of the theorems about connectivity (C82). *)
From Verif Require Export Base Connectivity.
Open Scope R_scope.

Definition cells (g : grid) : list (nat * nat) := list_prod (seq 0 (g_rows g)) (seq 0 (g_cols g)).
Definition id_of (g : grid) (c : nat * nat) : Z := g_id g (fst c) (snd c).
(** The D8 code of [c] points to [c']: row numbers grow to the south, column numbers to the east. *)
Definition drains (g : grid) (c c' : nat * nat) : bool :=
  let east := Nat.eqb (snd c') (S (snd c)) in let west := Nat.eqb (S (snd c')) (snd c) in let same_column := Nat.eqb (snd c') (snd c) in
  let south := Nat.eqb (fst c') (S (fst c)) in let north := Nat.eqb (S (fst c')) (fst c) in let same_row := Nat.eqb (fst c') (fst c) in
  match g_dir g (fst c) (snd c) with
  | 1%Z => same_row && east | 2%Z => south && east | 4%Z => south && same_column | 8%Z => south && west
  | 16%Z => same_row && west | 32%Z => north && west | 64%Z => north && same_column | 128%Z => north && east
  | _ => false
  end.
(** The flow that leaves unit [u] into cells whose id meets [P]; into unit [v]. *)
Definition flow_where (g : grid) (u : Z) (P : Z -> bool) : R :=
  Rsum (fun c => Rsum (fun c' => if drains g c c' && Z.eqb (id_of g c) u && P (id_of g c') then g_acc g (fst c) (snd c) else 0) (cells g)) (cells g).
Definition flow (g : grid) (u v : Z) : R := flow_where g u (Z.eqb v).
(** Some cell of [u] drains into a cell of [v]. *)
Definition receives (g : grid) (u v : Z) : Prop := exists c c', In c (cells g) /\ In c' (cells g) /\ drains g c c' = true /\ id_of g c = u /\ id_of g c' = v.
(** Water flows through every cell of a unit. *)
Definition flowing (g : grid) : Prop := forall c, In c (cells g) -> id_of g c <> 0%Z -> 0 < g_acc g (fst c) (snd c).
(** Cells with a common side; the cells of [v] along the border with [u]. *)
Definition touches (c c' : nat * nat) : Prop :=
  fst c = fst c' /\ (snd c = S (snd c') \/ snd c' = S (snd c)) \/ snd c = snd c' /\ (fst c = S (fst c') \/ fst c' = S (fst c)).
Definition border (g : grid) (u v : Z) (l : list (nat * nat)) : Prop :=
  NoDup l /\ forall c', In c' l <-> In c' (cells g) /\ id_of g c' = v /\ exists c, In c (cells g) /\ id_of g c = u /\ touches c c'.

(** [d] holds the shares of the weights [w] of the keys, with [p] decimal digits: multiples of 10^-p that add up to 1, each less than one unit
    of the last digit from the exact share, and in the order of the exact shares. *)
Definition shares (p : nat) (w : Z -> R) (keys : Z -> Prop) (d : dict) : Prop :=
  NoDup (map fst d) /\ (forall k, In k (map fst d) <-> keys k) /\ Rsum snd d = 1 /\
  (forall k x, In (k, x) d -> exists n : nat, x = INR n / 10 ^ p) /\
  (forall k x, In (k, x) d -> Rabs (x - w k / Rsum (fun q => w (fst q)) d) < / 10 ^ p) /\
  (forall k x j y, In (k, x) d -> In (j, y) d -> w k < w j -> x <= y).
(** The receivers of weight [w] kept: at least a hundredth of the total over all receivers. *)
Definition total (w : Z -> R) (receiver : Z -> Prop) (T : R) : Prop := exists l, NoDup l /\ (forall k, In k l <-> receiver k) /\ T = Rsum w l.
Definition kept (w : Z -> R) (receiver : Z -> Prop) (k : Z) : Prop := receiver k /\ forall T, total w receiver T -> T / 100 <= w k.
(** [v] is another unit of the catchment downstream of [u]; it has a common border with [u]. *)
Definition downstream (g : grid) (u v : Z) : Prop := v <> 0%Z /\ v <> u /\ receives g u v.
Definition neighbour (g : grid) (u v : Z) : Prop := v <> 0%Z /\ v <> u /\ exists l, border g u v l /\ l <> [].
(** More than a hundred receivers. *)
Definition crowd (rc : Z -> Prop) : Prop := exists l, NoDup l /\ (forall k, In k l -> rc k) /\ (100 < List.length l)%nat.
(** The grids use the ids of the list; the directions are D8 codes, or not positive for a cell that drains nowhere. *)
Definition known_units (g : grid) (ids : list Z) : Prop := forall c, In c (cells g) -> id_of g c <> 0%Z -> In (id_of g c) ids.
Definition d8 (g : grid) : Prop := forall c, In c (cells g) -> let d := g_dir g (fst c) (snd c) in (d <= 0)%Z \/ In d [1; 2; 4; 8; 16; 32; 64; 128]%Z.
