(** Vocabulary of the theorems about directly computed bricks. *)
From Verif Require Import Base Container Direct.

(** The brick is consistent: its processes empty its own containers, every output belongs to one process only,
    its internal outputs reach its own containers, an overflow is an output of the container it relieves. *)
Record dvalid (B : dbrick) : Prop := {
  dv_conts : forall p, In p (db_procs B) -> In (p_cont p) (db_conts B);
  dv_nodup : NoDup (concat (map p_conns (db_procs B)));
  dv_range : forall k, In k (concat (map p_conns (db_procs B))) <-> (k < length (db_conns B))%nat;
  dv_inside : forall k c, d_tgt (dconn_at B k) = Inside c -> In c (db_conts B);
  dv_ov : forall c k, db_ov B c = Some k -> In k (douts B c);
  dv_cap : forall c x, db_cap B c = Some x -> 0 <= x }.

(** Nothing pending in a container. *)
Definition dpending (s : dstate) (c : nat) : R := c_dyn (ds_cont s c) + c_stat (ds_cont s c).

(** Level the books give for container [c]: what it held, what entered from outside the brick, what the
    brick's own instantaneous fluxes brought, minus what its processes released. *)
Definition dbook (B : dbrick) (inp : dinputs) (s s' : dstate) (released : nat -> R) (c : nat) : R :=
  c_content (ds_cont s c) + dpending s c + (i_forced inp c + i_plain inp c)
  + Rsum (ds_amount s') (dins B c) - Rsum released (douts B c).

(** What a flux of weight [frac] reports when [x] is released: that share of [x]; an ordinary flux of weight above one reports
    [x] itself, an instantaneous one (towards a smaller area) reports the larger depth. *)
Definition dreports (d : dconn) (x y : R) : Prop :=
  (d_frac d <= 1 \/ d_tgt d <> Outside -> y = x * d_frac d) /\ (d_tgt d = Outside -> 1 <= d_frac d -> y = x).

(** Water in a container, pending changes included. *)
Definition level (w : container) : R := c_content w + c_dyn w + c_stat w.

(** The processes emptying [c] never ask for more than it holds (and [c] has no capacity). *)
Definition asks_within (B : dbrick) (dt : R) (f : dlaw) (c : nat) : Prop :=
  db_cap B c = None /\ forall conts p, In p (db_procs B) -> p_cont p = c ->
    Rsum (fun k => Rmax 0 (f conts k)) (p_conns p) * dt <= Rmax 0 (level (conts c)).

(** No input of [c] is counted twice: instantaneous deposits are pending, forcing and static inputs reach only a
    container that books them as static, and no instantaneous flux of the brick still carries, when a process
    empties [c], the amount of the previous step. *)
Definition seen_once (B : dbrick) (inp : dinputs) (c : nat) (s : dstate) : Prop :=
  i_inst inp c <= c_stat (ds_cont s c) /\ (db_static B c = true \/ i_forced inp c = 0) /\
  forall l1 p l2, db_procs B = l1 ++ p :: l2 -> p_cont p = c ->
    forall k, In k (concat (map p_conns (p :: l2))) -> d_tgt (dconn_at B k) = Inside c -> ds_amount s k = 0.

(** A container in a regular situation before the step. *)
Definition in_order (inp : dinputs) (s : dstate) (c : nat) : Prop :=
  c_infinite (ds_cont s c) = false /\ c_allowneg (ds_cont s c) = false /\
  0 <= level (ds_cont s c) /\ 0 <= i_forced inp c /\ 0 <= i_plain inp c.
