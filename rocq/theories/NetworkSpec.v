(** Vocabulary of the theorems about solved storages.  Nothing here depends on how a step is computed. *)
From Verif Require Import Base Network Sequential.

(** Every connection leaves an existing storage and a connection to a storage reaches an existing one. *)
Definition well_formed (N : net) : Prop :=
  forall c, In c (n_conns N) ->
    (k_src c < length (n_bricks N))%nat /\
    (forall b, k_tgt c = ToStore b -> (b < length (n_bricks N))%nat).

(** Storages feed only storages declared after them. *)
Definition forward (N : net) : Prop :=
  forall c b, In c (n_conns N) -> k_tgt c = ToStore b -> (k_src c < b)%nat.

(** Connections between storages are ordinary ones carrying the whole amount. *)
Definition plain (N : net) : Prop :=
  forall c b, In c (n_conns N) -> k_tgt c = ToStore b -> k_kind c = Regular /\ k_frac c = 1.

(** Every declared capacity is non-negative. *)
Definition sound_caps (N : net) : Prop :=
  forall b c, In b (n_bricks N) -> b_cap b = Some c -> 0 <= c.

(** Water arriving from outside the solver during the step. *)
Definition external_in (e : external) (b : nat) : R := e_seen e b + e_hidden e b + e_inst e b.
Definition nonneg_external (e : external) : Prop :=
  forall b, 0 <= e_seen e b /\ 0 <= e_hidden e b /\ 0 <= e_inst e b.

(** Between two steps nothing is pending. *)
Definition committed (s : state) : Prop := forall b, s_dyn s b = 0 /\ s_stat s b = 0.

(** Water delivered to [b] and water withdrawn from [b], given per-connection quantities. *)
Definition received (N : net) (amount : nat -> R) (b : nat) : R :=
  Rsum (fun k => match k_tgt (conn_at N k) with
                 | ToStore b' => if Nat.eqb b' b then amount k else 0
                 | _ => 0 end) (conn_ids N).
Definition withdrawn (N : net) (released : nat -> R) (b : nat) : R :=
  Rsum (fun k => if Nat.eqb (k_src (conn_at N k)) b then released k else 0) (conn_ids N).

(** What is reported by a flux of weight [frac] when [x] is released. *)
Definition reports (c : conn) (x y : R) : Prop :=
  (k_frac c <= 1 -> y = x * k_frac c) /\ (k_kind c <> Instant -> 1 <= k_frac c -> y = x).

(** Content kept by a storage whose level is [x]: the residue below 1e-8 mm is dropped. *)
Definition kept (x : R) : R := if Rle_dec x PRECISION then 0 else x.

(** Tolerance of one storage in one step (mm): snapping of the residue, plus the rates too small to be
    applied: 2^-52 mm/d per outgoing flux and 1e-8 mm/d per incoming flux. *)
Definition step_tolerance (N : net) (dt : R) (b : nat) : R :=
  PRECISION
  + (INR (length (outs N b)) * EPSILON_D + INR (length (ins N b)) * PRECISION) * dt.

(** ** One step, as seen from outside *)
Definition solid (N : net) (b : nat) : Prop :=
  (b < length (n_bricks N))%nat /\ b_allowneg (brick_at N b) = false.

(** The level [b] would end at if the books are kept exactly: previous content, plus water from outside,
    plus what the fluxes report as delivered, minus what was withdrawn. *)
Definition book_level (N : net) (e : external) (s s' : state) (released : nat -> R) (b : nat) : R :=
  s_content s b + external_in e b + received N (s_amount s') b - withdrawn N released b.

Record closes (N : net) (dt : R) (e : external) (s s' : state) (released : nat -> R) : Prop := {
  cl_released : forall k, 0 <= released k;
  cl_reports : forall k, (k < length (n_conns N))%nat ->
      reports (conn_at N k) (released k) (s_amount s' k);
  cl_committed : committed s';
  cl_exact : forall b, (b < length (n_bricks N))%nat -> b_allowneg (brick_at N b) = true ->
      s_content s' b = book_level N e s s' released b;
  cl_kept : forall b, solid N b -> s_content s' b = kept (book_level N e s s' released b);
  cl_close : forall b, solid N b ->
      - ((INR (length (outs N b)) * EPSILON_D + INR (length (ins N b)) * PRECISION) * dt)
      <= book_level N e s s' released b }.

(** A step of one of the solvers (three simultaneous ones, four sequential schemes), with whatever laws the
    processes follow. *)
Inductive solver_step (N : net) (dt : R) (e : external) (s s' : state) : Prop :=
| by_euler f : euler_step N dt e f s = Ok s' -> solver_step N dt e s s'
| by_heun f1 f2 : heun_step N dt e f1 f2 s = Ok s' -> solver_step N dt e s s'
| by_rk4 f1 f2 f3 f4 : rk4_step N dt e f1 f2 f3 f4 s = Ok s' -> solver_step N dt e s s'
| by_sequential sch f r r' : seq_step N dt e sch f s r = Ok (s', r') -> solver_step N dt e s s'.

(** A run: the external inputs and the state after each step. *)
Fixpoint run (N : net) (dt : R) (s : state) (l : list (external * state)) : Prop :=
  match l with
  | [] => True
  | (e, s') :: l' => solver_step N dt e s s' /\ run N dt s' l'
  end.
Fixpoint final (s : state) (l : list (external * state)) : state :=
  match l with [] => s | (_, s') :: l' => final s' l' end.

(** Catchment weights: [w b] is the share of the catchment covered by storage [b].  Fluxes to the outlet
    carry that share (ModelBuilder.cpp), fluxes to the atmosphere carry the whole depth. *)
Definition weights (N : net) (w : nat -> R) : Prop :=
  (forall b, 0 <= w b) /\
  forall c, In c (n_conns N) ->
    match k_tgt c with
    | ToStore b => w (k_src c) = w b
    | ToOutlet => k_frac c = w (k_src c) /\ k_frac c <= 1
    | ToAtmosphere => k_frac c = 1
    end.
Definition stored (N : net) (w : nat -> R) (s : state) : R :=
  Rsum (fun b => w b * s_content s b) (brick_ids N).
Definition entering (N : net) (w : nat -> R) (e : external) : R :=
  Rsum (fun b => w b * external_in e b) (brick_ids N).
(** Catchment depth leaving through the outlet and to the atmosphere, from the reported amounts. *)
Definition leaving (N : net) (w : nat -> R) (s' : state) : R :=
  Rsum (fun k => match k_tgt (conn_at N k) with
                 | ToStore _ => 0
                 | ToOutlet => s_amount s' k
                 | ToAtmosphere => w (k_src (conn_at N k)) * s_amount s' k
                 end) (conn_ids N).

(** [P] holds of every step of the run. *)
Fixpoint each_step (P : external -> state -> state -> Prop) (s : state) (l : list (external * state)) : Prop :=
  match l with
  | [] => True
  | (e, s') :: l' => P e s s' /\ each_step P s' l'
  end.
