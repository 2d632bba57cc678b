(** Vocabulary of the water balance of a whole catchment.  Nothing here depends on how a step is computed. *)
From Verif Require Import Base Container Direct DirectSpec Network NetworkSpec Catchment.

Section Spec.
Variable C : catchment.
(** Share of the catchment area covered by each directly computed brick and by each solved storage. *)
Variables W w : nat -> R.

Definition conn_of (i k : nat) : dconn := dconn_at (nd_brick (node_at C i)) k.
Definition conts_of (i : nat) : list nat := db_conts (nd_brick (node_at C i)).
Definition outward (i k : nat) : Prop := forall c, d_tgt (conn_of i k) <> Inside c.

(** The catchment is consistent: the weight of a flux is the ratio of the area it comes from to the area it reaches, so that
    what leaves one brick is what reaches the other; ordinary fluxes reach bricks declared later; a cover without area has no share. *)
Record sound : Prop := {
  sd_valid : forall i, (i < node_count C)%nat -> dvalid (nd_brick (node_at C i)) /\ NoDup (conts_of i);
  sd_share : forall i, 0 <= W i;
  sd_null : forall i, (i < node_count C)%nat -> nd_null (node_at C i) = true -> W i = 0;
  sd_inside : forall i k c, (i < node_count C)%nat -> (k < out_count C i)%nat -> d_tgt (conn_of i k) = Inside c ->
    d_frac (conn_of i k) = 1;
  sd_out : forall i k, (i < node_count C)%nat -> (k < out_count C i)%nat -> outward i k ->
    0 <= d_frac (conn_of i k) /\ (d_tgt (conn_of i k) = Outside -> d_frac (conn_of i k) <= 1) /\
    match nd_to (node_at C i) k with
    | InDirect j c => (j < node_count C)%nat /\ In c (conts_of j) /\ W i = W j * d_frac (conn_of i k) /\ i <> j /\
                      (d_tgt (conn_of i k) = Outside -> (i < j)%nat)
    | InStorage b => (b < length (n_bricks (ct_net C)))%nat /\ W i = w b * d_frac (conn_of i k)
    | AtOutlet => d_frac (conn_of i k) = W i
    | InAir => d_frac (conn_of i k) = 1
    end;
  sd_wf : well_formed (ct_net C);
  sd_plain : plain (ct_net C);
  sd_forward : forward (ct_net C);
  sd_caps : sound_caps (ct_net C);
  sd_weights : weights (ct_net C) w }.

(** Glacier ice is an infinite reservoir: it is outside the balance. *)
Definition is_ice (G : cstate) (i c : nat) : bool := c_infinite (ds_cont (g_direct G i) c).

(** The state before the first step: nothing in transit. *)
Definition fresh (G : cstate) : Prop :=
  (forall i k, ds_amount (g_direct G i) k = 0) /\
  (forall i c, (i < node_count C)%nat -> In c (conts_of i) -> is_ice G i c = false ->
     let x := ds_cont (g_direct G i) c in c_dyn x = 0 /\ c_stat x = 0 /\ 0 <= c_content x /\ c_allowneg x = false) /\
  committed (g_net G) /\ (forall b, solid (ct_net C) b -> 0 <= s_content (g_net G) b).

(** The processes of a container either never ask for more than it holds, or no water it receives is counted twice. *)
Definition guarded (dt : R) (G : cstate) (inp : cinput) : Prop :=
  forall j c, (j < node_count C)%nat -> nd_null (node_at C j) = false -> In c (conts_of j) -> is_ice G j c = false ->
  let B := nd_brick (node_at C j) in
  asks_within B dt (in_law inp j) c \/
  ((db_static B c = true \/
    (in_direct inp j c = 0 /\
     forall i k, (i < node_count C)%nat -> (k < out_count C i)%nat -> d_tgt (conn_of i k) = Outside ->
       nd_static (node_at C i) k = true -> nd_to (node_at C i) k <> InDirect j c)) /\
   forall l1 p l2, db_procs B = l1 ++ p :: l2 -> p_cont p = c ->
     forall k, In k (concat (map p_conns (p :: l2))) -> d_tgt (dconn_at B k) <> Inside c).
Definition nonneg_input (inp : cinput) : Prop := (forall i c, 0 <= in_direct inp i c) /\ (forall b, 0 <= in_net inp b).

(** A run: the input of each step and the state after it; each step may use another of the solvers. *)
Definition is_solver (dt : R) (solve : external -> state -> outcome state) : Prop :=
  forall e s s', solve e s = Ok s' -> solver_step (ct_net C) dt e s s'.
Fixpoint crun (dt : R) (G : cstate) (l : list (cinput * cstate)) : Prop :=
  match l with
  | [] => True
  | (inp, G') :: l' => (exists solve, is_solver dt solve /\ catchment_step C dt inp solve G = Ok G') /\ crun dt G' l'
  end.
Fixpoint cfinal (G : cstate) (l : list (cinput * cstate)) : cstate :=
  match l with [] => G | (_, G') :: l' => cfinal G' l' end.

(** Water in the catchment (depth over its whole area), ice left aside. *)
Definition in_catchment (G : cstate) : R :=
  Rsum (fun i => W i * Rsum (fun c => if is_ice G i c then 0 else level (ds_cont (g_direct G i) c)) (conts_of i)) (seq 0 (node_count C))
  + stored (ct_net C) w (g_net G).
(** Water brought by the forcing during a step. *)
Definition fallen (G : cstate) (inp : cinput) : R :=
  Rsum (fun i => W i * Rsum (fun c => if is_ice G i c then 0 else in_direct inp i c) (conts_of i)) (seq 0 (node_count C))
  + Rsum (fun b => w b * in_net inp b) (brick_ids (ct_net C)).

(** Volume carried by an output that reports [a]: the depth times the area it is reported for. *)
Definition volume (i k : nat) (a : R) : R :=
  match d_tgt (conn_of i k) with
  | Inside _ => W i * a
  | _ => match nd_to (node_at C i) k with
         | InDirect j _ => W j * a | InStorage b => w b * a | AtOutlet => a | InAir => W i * a end
  end.
(** Water evaporated in a step, from the reported amounts. *)
Definition evaporated (G' : cstate) : R :=
  Rsum (fun i => Rsum (fun k => match d_tgt (conn_of i k), nd_to (node_at C i) k with
                               | Inside _, _ => 0
                               | _, InAir => W i * ds_amount (g_direct G' i) k
                               | _, _ => 0 end) (seq 0 (out_count C i))) (seq 0 (node_count C))
  + Rsum (fun k => match k_tgt (conn_at (ct_net C) k) with ToAtmosphere => w (k_src (conn_at (ct_net C) k)) * s_amount (g_net G') k | _ => 0 end)
      (conn_ids (ct_net C)).
(** Water given by the ice and water turned into ice in a step. *)
Definition from_ice (G' : cstate) : R :=
  Rsum (fun i => Rsum (fun c => if is_ice G' i c then Rsum (fun k => volume i k (ds_amount (g_direct G' i) k)) (douts (nd_brick (node_at C i)) c) else 0)
    (conts_of i)) (seq 0 (node_count C)).
Definition into_ice (G' : cstate) : R :=
  Rsum (fun i => Rsum (fun k =>
      if match d_tgt (conn_of i k), nd_to (node_at C i) k with
         | Inside c, _ => is_ice G' i c
         | _, InDirect j c => is_ice G' j c
         | _, _ => false end
      then volume i k (ds_amount (g_direct G' i) k) else 0) (seq 0 (out_count C i))) (seq 0 (node_count C)).

(** Tolerance of one step: 1e-8 mm per directly computed container, and that of the storages. *)
Definition catchment_tolerance (dt : R) : R :=
  Rsum (fun i => W i * (INR (length (conts_of i)) * PRECISION)) (seq 0 (node_count C))
  + Rsum (fun b => w b * step_tolerance (ct_net C) dt b) (brick_ids (ct_net C)).

(** Precipitation: hydro unit [u] covers the share [A u]; its rain falls on the water of its land covers, its snow on the snow of
    their snowpacks; the covers share the whole unit, and so do the snowpacks. *)
Record watered (units : list nat) (A : nat -> R) (covers packs : nat -> list nat) (G : cstate) : Prop := {
  wt_covers : forall u, In u units -> NoDup (covers u) /\ Rsum W (covers u) = A u;
  wt_packs : forall u, In u units -> NoDup (packs u) /\ Rsum W (packs u) = A u;
  wt_water : forall u i, In u units -> In i (covers u) -> (i < node_count C)%nat /\ In 0%nat (conts_of i) /\ is_ice G i 0 = false;
  wt_snow : forall u i, In u units -> In i (packs u) -> (i < node_count C)%nat /\ In 1%nat (conts_of i) /\ is_ice G i 1 = false }.
(** What the splitters deliver when unit [u] gets [rain u] and [snow u]. *)
Definition rain_and_snow (units : list nat) (covers packs : nat -> list nat) (rain snow : nat -> R) (inp : cinput) : Prop :=
  (forall i c, in_direct inp i c =
     match c with
     | 0%nat => Rsum (fun u => if mem i (covers u) then rain u else 0) units
     | 1%nat => Rsum (fun u => if mem i (packs u) then snow u else 0) units
     | _ => 0 end) /\
  (forall b, in_net inp b = 0).
End Spec.
