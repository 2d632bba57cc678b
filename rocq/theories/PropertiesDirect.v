(** Property theorems: bricks computed before the solver (C05). *)
From Verif Require Import WitnessTools Container NetworkSpec Direct DirectSpec DirectFacts DirectSafe DirectWitness Processes.

(** *** C05 *)
(** In every case the books are kept: there is one amount released per output flux, the flux reports that amount
    times its weight, and each container ends at its level (dropped below 1e-8 mm, so a negative level is
    replaced by zero) with nothing pending. *)
Theorem c05_books : forall B dt inp f s s', dvalid B -> 0 < dt -> direct_step B dt inp f s = Ok s' ->
  exists released : nat -> R,
  (forall k, 0 <= released k) /\
  (forall k, (k < length (db_conns B))%nat -> dreports (dconn_at B k) (released k) (ds_amount s' k)) /\
  (forall c, In c (db_conts B) -> c_infinite (ds_cont s c) = false ->
     dpending s' c = 0 /\
     c_content (ds_cont s' c) =
       if c_allowneg (ds_cont s c) then dbook B inp s s' released c else kept (dbook B inp s s' released c)).
Proof.
  intros B dt inp f s s' HB Hdt H. destruct (books_final B dt inp f s s' HB Hdt H) as (r & A & C & D & _). exists r; auto.
Qed.
Print Assumptions c05_books.

(** Water is conserved by the brick, up to 1e-8 mm per container, when each container either is asked no more
    than it holds or has no input counted twice.  Missing for the full property: see c05_forced_water_refuted and
    c05_refrozen_snow_refuted, where it is false. *)
Theorem c05_conserved_partial : forall B dt inp f s s', dvalid B -> 0 < dt -> direct_step B dt inp f s = Ok s' ->
  NoDup (db_conts B) ->
  (forall k, (k < length (db_conns B))%nat -> 0 <= d_frac (dconn_at B k)) ->
  (forall k c, d_tgt (dconn_at B k) = Inside c -> d_frac (dconn_at B k) = 1) ->
  (forall c, In c (db_conts B) -> in_order inp s c /\ (asks_within B dt f c \/ seen_once B inp c s)) ->
  exists released : nat -> R,
  (forall k, 0 <= released k) /\
  (forall k, (k < length (db_conns B))%nat -> dreports (dconn_at B k) (released k) (ds_amount s' k)) /\
  let before := Rsum (fun c => level (ds_cont s c)) (db_conts B) in
  let entered := Rsum (fun c => i_forced inp c + i_plain inp c) (db_conts B) in
  let left_brick := Rsum (fun k => match d_tgt (dconn_at B k) with Inside _ => 0 | _ => released k end)
                      (seq 0 (length (db_conns B))) in
  let after := Rsum (fun c => level (ds_cont s' c)) (db_conts B) in
  before + entered - left_brick - INR (length (db_conts B)) * PRECISION <= after <= before + entered - left_brick.
Proof. exact balance. Qed.
Print Assumptions c05_conserved_partial.

(** A storage whose requests stay within its content, or whose inputs are counted once, does not go below zero. *)
Theorem c05_not_overdrawn_partial : forall B dt inp f s s', dvalid B -> 0 < dt -> direct_step B dt inp f s = Ok s' ->
  (forall k, (k < length (db_conns B))%nat -> 0 <= d_frac (dconn_at B k)) ->
  exists released : nat -> R,
  (forall k, 0 <= released k) /\
  (forall k, (k < length (db_conns B))%nat -> dreports (dconn_at B k) (released k) (ds_amount s' k)) /\
  forall c, In c (db_conts B) -> in_order inp s c -> asks_within B dt f c \/ seen_once B inp c s ->
     0 <= dbook B inp s s' released c.
Proof.
  intros B dt inp f s s' HB Hdt H Hf. destruct (books_final B dt inp f s s' HB Hdt H) as (r & A & C & _ & D). exists r; auto.
Qed.
Print Assumptions c05_not_overdrawn_partial.

(** The HBV snowpack on a first cold day meets the hypotheses. *)
Example c05_case : dvalid hbv_snowpack /\ NoDup (db_conts hbv_snowpack) /\
  direct_step hbv_snowpack 1 no_input (hbv_snow_law 1 (-10)) snow_day0 = Ok snow_day1 /\
  (forall k c, d_tgt (dconn_at hbv_snowpack k) = Inside c -> d_frac (dconn_at hbv_snowpack k) = 1) /\
  forall c, In c (db_conts hbv_snowpack) ->
    in_order no_input snow_day0 c /\
    (asks_within hbv_snowpack 1 (hbv_snow_law 1 (-10)) c \/ seen_once hbv_snowpack no_input c snow_day0).
Proof.
  split; [exact hbv_snowpack_valid|]. split; [cbn; repeat constructor; cbn; intuition lia|].
  split; [exact snow_cold|]. split.
  - intros k c. do 3 (destruct k as [|k]; [reflexivity|]). destruct k; discriminate.
  - intros c Hc. split.
    + cbn in Hc. destruct Hc as [<-|[<-|[]]]; unfold in_order, level; cbn; repeat split; lra.
    + right. cbn in Hc. destruct Hc as [<-|[<-|[]]]; unfold seen_once; cbn; (split; [lra|split; [auto|]]);
        intros l1 p l2 _ _ k _ _; unfold vec; destruct k; reflexivity.
Qed.

(** False in general (1): 10 mm of rain (a static input) on an empty cover whose percolation asks for 50 mm/d; the
    rain is counted twice by the limiter and 20 mm leave. *)
Theorem c05_forced_water_refuted : exists B inp f s s', dvalid B /\ direct_step B 1 inp f s = Ok s' /\
  db_conts B = [0%nat] /\ length (db_conns B) = 1%nat /\ dconn_at B 0 = mkDC Outside 1 /\
  level (ds_cont s 0%nat) = 0 /\ i_forced inp 0%nat = 10 /\ i_plain inp 0%nat = 0 /\ i_inst inp 0%nat = 0 /\
  level (ds_cont s' 0%nat) = 0 /\ ds_amount s' 0%nat = 20.
Proof.
  destruct perc_step as (s' & H & A & C). exists perc_brick, perc_inputs, perc_law, perc_state, s'.
  assert (E : level (ds_cont s' 0%nat) = 0).
  { destruct (c05_books _ _ _ _ _ _ perc_valid Rlt_0_1 H) as (r & _ & _ & D).
    destruct (D 0%nat) as (P & _); [cbn; tauto|reflexivity|]. unfold dpending in P. unfold level. lra. }
  repeat split; try exact C; try exact E; try exact H; try apply perc_valid; unfold level; cbn; lra.
Qed.
Print Assumptions c05_forced_water_refuted.

(** False in general (2): the HBV snowpack.  11 mm of snow on a warm day after a day with 1 mm of refreezing:
    12 mm of meltwater leave, because the limiter of the snow still counts the refrozen millimetre of the day
    before. *)
Theorem c05_refrozen_snow_refuted : exists s0 s1 s2,
  direct_step hbv_snowpack 1 no_input (hbv_snow_law 1 (-10)) s0 = Ok s1 /\
  direct_step hbv_snowpack 1 no_input (hbv_snow_law 1 10) s1 = Ok s2 /\
  ds_cont s0 0%nat = store 1 /\ ds_cont s0 1%nat = store 10 /\ (forall k, ds_amount s0 k = 0) /\
  ds_amount s1 1%nat = 0 /\ ds_cont s1 0%nat = store 0 /\ ds_cont s1 1%nat = store 11 /\
  c_content (ds_cont s2 0%nat) = 0 /\ c_content (ds_cont s2 1%nat) = 0 /\ ds_amount s2 1%nat = 12.
Proof.
  destruct snow_warm as (s2 & H & A & C & D). exists snow_day0, snow_day1, s2.
  repeat split; try exact snow_cold; try assumption. intros k; unfold snow_day0, vec; destruct k; reflexivity.
Qed.
Print Assumptions c05_refrozen_snow_refuted.
