(** Vocabulary of the property on reset. *)
From Verif Require Import Base Container Lateral Reset Clock TimeSeries Actions ModelRun.
Open Scope R_scope.

(** What a run may not change: the saved initial states, the options of the containers, and the list of bricks and processes. *)
Definition same_container (a b : container) : Prop := c_init a = c_init b /\ c_infinite a = c_infinite b /\ c_allowneg a = c_allowneg b.
Definition same_memory (a b : memory) : Prop :=
  match a, b with
  | NoMemory, NoMemory | ColdContent _, ColdContent _ | FreyDensity _, FreyDensity _ => True
  | Buffers u l, Buffers v k => length u = length v /\ length l = length k
  | _, _ => False
  end.
Definition same_process (a b : process_state) : Prop := length (pr_outputs a) = length (pr_outputs b) /\ same_memory (pr_memory a) (pr_memory b).
Inductive same_brick : brick_state -> brick_state -> Prop :=
| same_plain w p w' p' : same_container w w' -> Forall2 same_process p p' -> same_brick (PlainBrick w p) (PlainBrick w' p')
| same_cover w p f f0 w' p' f' : same_container w w' -> Forall2 same_process p p' -> same_brick (CoverBrick w p f f0) (CoverBrick w' p' f' f0)
| same_glacier w i p f f0 w' i' p' f' : same_container w w' -> same_container i i' -> Forall2 same_process p p' ->
    same_brick (GlacierBrick w i p f f0) (GlacierBrick w' i' p' f' f0)
| same_snow w s p w' s' p' : same_container w w' -> same_container s s' -> Forall2 same_process p p' -> same_brick (SnowBrick w s p) (SnowBrick w' s' p').
Definition same_basin (a b : basin_state) : Prop := Forall2 same_brick (ba_bricks a) (ba_bricks b) /\ Forall2 (Forall2 same_brick) (ba_units a) (ba_units b).

(** A basin ready to run for the first time: every store at its initial state, no pending change, no flux, new memories, initial extents. *)
Definition container_ready (c : container) : Prop := c_content c = c_init c /\ c_dyn c = 0 /\ c_stat c = 0.
Definition memory_new (m : memory) : Prop :=
  match m with
  | NoMemory => True
  | ColdContent c => c = 0
  | FreyDensity d => d = (250, 0)
  | Buffers uh l => (forall x, In x uh -> x = 0) /\ (forall x, In x l -> x = 0)
  end.
Definition process_ready (p : process_state) : Prop := (forall x, In x (pr_outputs p) -> x = 0) /\ memory_new (pr_memory p).
Inductive brick_ready : brick_state -> Prop :=
| ready_plain w p : container_ready w -> Forall process_ready p -> brick_ready (PlainBrick w p)
| ready_cover w p f : container_ready w -> Forall process_ready p -> brick_ready (CoverBrick w p f f)
| ready_glacier w i p f : container_ready w -> container_ready i -> Forall process_ready p -> brick_ready (GlacierBrick w i p f f)
| ready_snow w s p : container_ready w -> container_ready s -> Forall process_ready p -> brick_ready (SnowBrick w s p).
Definition basin_ready (b : basin_state) : Prop := Forall brick_ready (ba_bricks b) /\ Forall (Forall brick_ready) (ba_units b).

(** Bricks other than snowpacks; stores of a brick. *)
Definition not_snow (b : brick_state) : Prop := match b with SnowBrick _ _ _ => False | _ => True end.
Definition no_snowpack (b : basin_state) : Prop := Forall not_snow (ba_bricks b) /\ Forall (Forall not_snow) (ba_units b).

(** Basins equal in everything but what the processes of their snowpacks hold (fluxes and memories). *)
Inductive except_snow_processes : brick_state -> brick_state -> Prop :=
| except_same b : except_snow_processes b b
| except_snow w s p p' : Forall2 same_process p p' -> except_snow_processes (SnowBrick w s p) (SnowBrick w s p').
Definition basin_except_snow (a b : basin_state) : Prop :=
  Forall2 except_snow_processes (ba_bricks a) (ba_bricks b) /\ Forall2 (Forall2 except_snow_processes) (ba_units a) (ba_units b).

(** The operations of a run keep what a run may not change (saved states, options, structure). *)
Definition keeps_frame {U V A Row : Type} (E : engine basin_state U V A Row) (dt : R) (b0 : basin_state) : Prop :=
  (forall d u v p p', same_basin b0 p -> e_process E dt d u v p = Ok p' -> same_basin b0 p') /\
  (forall d p p', same_basin b0 p -> e_recurring E d p = Ok p' -> same_basin b0 p') /\
  (forall x p p', same_basin b0 p -> e_apply E x p = Ok p' -> same_basin b0 p') /\
  (forall p, same_basin b0 p -> same_basin b0 (e_restore_fractions E p)) /\
  (forall p, same_basin b0 p -> same_basin b0 (e_forget_updates E p)).
