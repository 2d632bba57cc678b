(** Property theorems: solved storages (C01-C04, C06-C08, C48). *)
From Verif Require Import Base BaseFacts Container ContainerFacts LimiterFacts Network NetworkSpec
  NetworkFacts SolverFacts StepFacts Sequential SequentialFacts RunFacts CapacityFacts NetworkTools NetworkWitness.

(** *** C01, C06: every step keeps the books *)
(** Along any run of the Euler, Heun, RK4 and sequential solvers (in any mixture) on storages declared in flow order,
    whatever the processes ask for: no storage ever reports a negative content, and each storage ends the
    step with its previous content, plus the water from outside, plus exactly what the connections report
    as delivered to it, minus exactly what was withdrawn from it; each connection reports what was
    withdrawn for it.  Removing a negative residue never creates more than a rounding tolerance. *)
Theorem c01_c06_every_step_closes : forall N dt, 0 < dt ->
  well_formed N -> plain N -> forward N -> sound_caps N ->
  forall l s, committed s -> (forall b, solid N b -> 0 <= s_content s b) ->
  (forall e s', In (e, s') l -> nonneg_external e) -> run N dt s l ->
  each_step (fun e s s' => (exists released, closes N dt e s s' released) /\
     forall b, solid N b -> 0 <= s_content s' b) s l.
Proof. exact run_closes. Qed.
Print Assumptions c01_c06_every_step_closes.

Example c01_case : well_formed demo_net /\ plain demo_net /\ forward demo_net /\ sound_caps demo_net /\
  committed demo_state /\ (forall b, solid demo_net b -> 0 <= s_content demo_state b) /\
  nonneg_external demo_ext /\ run demo_net 1 demo_state [(demo_ext, demo_after)] /\
  s_content demo_after 0%nat = 20 /\ s_content demo_after 1%nat = 1.
Proof.
  split; [exact demo_wf|]. split; [exact demo_plain|]. split; [exact demo_forward|]. split; [exact demo_caps|].
  split; [exact demo_committed|]. split; [exact demo_pos|]. split; [exact demo_ext_ok|].
  split; [|exact demo_after_contents]. split; [|exact I]. exact (by_euler _ _ _ _ _ _ demo_euler).
Qed.

(** *** C02 *)
(** One call of the limiter: with an idle overflow and water in the store, the level reached is at most the
    capacity and the overflow takes exactly the excess over it. *)
Theorem c02_limiter_capacity : forall dt content stat cap ov o i r r',
  0 < dt -> NoDup o -> (forall k, In k o -> ~ In k i) -> (forall k, ov = Some k -> In k o) ->
  0 <= content + stat -> (forall c, cap = Some c -> 0 <= c) ->
  apply_constraints dt content stat cap ov false o i r = Ok r' ->
  forall c k, cap = Some c -> ov = Some k -> r k = 0 -> PRECISION * dt < content + stat ->
  let end_level := content + stat + (Rsum r' i - Rsum r' o) * dt in
  end_level <= c /\ r' k * dt = Rmax 0 (end_level + r' k * dt - c).
Proof. exact limiter_overflow. Qed.
Print Assumptions c02_limiter_capacity.

(** A whole Euler step, when every capped storage has an overflow and the inflow is visible to the limiter:
    the content ends at or below the capacity (up to rates under 1e-8 mm/d that are not applied), and the
    overflow rate is exactly the excess of the step, zero without excess. *)
Theorem c02_euler_capacity_partial : forall N dt e f s s', 0 < dt <= 1 ->
  well_formed N -> forward N -> plain N -> sound_caps N -> nonneg_external e -> committed s ->
  (forall b, solid N b -> 0 <= s_content s b) ->
  (forall b c, (b < length (n_bricks N))%nat -> b_cap (brick_at N b) = Some c ->
     exists k, In k (outs N b) /\ k_overflow (conn_at N k) = true) ->
  (forall k, (k < length (n_conns N))%nat -> f (deposit e s) k <= 0 \/ EPSILON_D < f (deposit e s) k) ->
  euler_step N dt e f s = Ok s' ->
  exists rate : nat -> R,
    (forall k, (k < length (n_conns N))%nat -> 0 <= rate k) /\
    (forall k, (k < length (n_conns N))%nat ->
       s_amount s' k = weighted (conn_at N k) (if Rlt_dec PRECISION (rate k) then rate k * dt else 0)) /\
    forall b c k, (b < length (n_bricks N))%nat -> b_cap (brick_at N b) = Some c -> overflow_of N b = Some k ->
      (e_hidden e b = 0 -> s_content s' b <= c + INR (length (outs N b)) * PRECISION * dt) /\
      rate k * dt = Rmax 0 (s_content s b + e_seen e b + e_inst e b
         + (Rsum rate (ins N b) - (Rsum rate (outs N b) - rate k)) * dt - c).
Proof. exact euler_capacity. Qed.
Print Assumptions c02_euler_capacity_partial.

Example c02_case : b_cap (brick_at demo_net 0) = Some 20 /\ overflow_of demo_net 0 = Some 1%nat /\
  (forall k, (k < 3)%nat -> demo_law (deposit demo_ext demo_state) k <= 0 \/
      EPSILON_D < demo_law (deposit demo_ext demo_state) k) /\
  euler_step demo_net 1 demo_ext demo_law demo_state = Ok demo_after /\
  s_content demo_after 0%nat = 20 /\ s_amount demo_after 1%nat = 3.
Proof.
  split; [reflexivity|]. split; [reflexivity|]. split.
  - intros k Hk. unfold demo_law, vec. destruct k as [|[|[|k]]]; cbn; unfold EPSILON_D; try lra; lia.
  - split; [exact demo_euler|]. split; [apply demo_after_contents|exact demo_after_overflow].
Qed.

(** The general claim fails.  (a) Sweeps that correct each other: the overflow rate is overwritten, not
    updated, so it alternates and the upper store (capacity 10, overflow attached) ends at 12 mm. *)
Theorem c02_oscillation_refuted :
  ~ (forall N dt e f s s' b c k,
       0 < dt -> well_formed N -> forward N -> plain N -> sound_caps N -> nonneg_external e -> committed s ->
       (forall b, solid N b -> 0 <= s_content s b) -> (forall b, e_hidden e b = 0) ->
       b_cap (brick_at N b) = Some c -> overflow_of N b = Some k -> s_content s b <= c ->
       euler_step N dt e f s = Ok s' -> s_content s' b <= c + 1).
Proof.
  intros H.
  specialize (H osc_net 1 osc_ext osc_law osc_state osc_after 0%nat 10 1%nat).
  rewrite osc_content in H. assert (Hx : 12 <= 10 + 1); [|lra].
  apply H; try reflexivity; try lra.
  - exact osc_wf. - exact osc_forward. - exact osc_plain. - exact osc_caps. - exact osc_ext_ok.
  - exact osc_committed.
  - intros b _. cbn [osc_state s_content]. apply vec_nonneg; repeat constructor; lra.
  - intros b. cbn. unfold vec. destruct b; reflexivity.
  - cbn. unfold vec; cbn. lra.
  - exact osc_euler.
Qed.
Print Assumptions c02_oscillation_refuted.

(** (b) Inflow from a directly computed cover through a plain connection (infiltration in GSM-Socont) is
    not seen by the limiter: the store ends at 250 mm for a capacity of 200 mm, overflow attached. *)
Theorem c02_hidden_inflow_refuted :
  ~ (forall N dt e f s s' b c k,
       0 < dt -> well_formed N -> forward N -> plain N -> sound_caps N -> nonneg_external e -> committed s ->
       (forall b, (b < length (n_bricks N))%nat -> b_cap (brick_at N b) = None \/ overflow_of N b <> None) ->
       b_cap (brick_at N b) = Some c -> overflow_of N b = Some k -> s_content s b <= c ->
       euler_step N dt e f s = Ok s' -> s_content s' b <= c + 1).
Proof.
  intros H. specialize (H hid_net 1 hid_ext hid_law hid_state hid_after 0%nat 200 0%nat).
  rewrite hid_content in H. assert (Hx : 250 <= 200 + 1); [|lra].
  apply H; try reflexivity; try lra.
  - well_formed_tac.
  - intros c b Hc E; cbn in Hc. destruct Hc as [<-|[]]. discriminate.
  - intros c b Hc E; cbn in Hc. destruct Hc as [<-|[]]. discriminate.
  - intros b c Hb E; cbn in Hb. destruct Hb as [<-|[]]. injection E as <-. lra.
  - intros b; cbn [hid_ext e_seen e_hidden e_inst]; repeat split; apply vec_nonneg; repeat constructor; lra.
  - intros b; cbn; unfold vec; destruct b; auto.
  - intros b Hb. right. cbn in Hb. destruct b; [|lia]. discriminate.
  - cbn; unfold vec; cbn. lra.
  - exact hid_euler.
Qed.
Print Assumptions c02_hidden_inflow_refuted.

(** *** C03, C48 *)
(** Catchment balance over a run of any length: stored water (area-weighted) at the end is the stored water
    at the start plus everything that entered minus everything reported at the outlet and to the atmosphere,
    within the tolerance of each step. *)
Theorem c03_balance_closes : forall N dt w, 0 < dt -> well_formed N -> plain N -> weights N w ->
  forward N -> sound_caps N ->
  forall l s, committed s -> (forall b, solid N b -> 0 <= s_content s b) ->
  (forall e s', In (e, s') l -> nonneg_external e) -> run N dt s l ->
  Rabs (stored N w (final s l)
        - (stored N w s + Rsum (fun p => entering N w (fst p)) l - Rsum (fun p => leaving N w (snd p)) l))
  <= INR (length l) * Rsum (fun b => w b * step_tolerance N dt b) (brick_ids N).
Proof.
  exact (fun N dt w Hdt Hwf Hpl Hw Hfw Hc l s Hcm Hp He Hr =>
    proj2 (run_inv N dt w Hdt Hwf Hpl Hw Hfw Hc l s Hcm Hp He Hr)).
Qed.
Print Assumptions c03_balance_closes.

Example c03_case : weights demo_net (fun _ => 1) /\
  stored demo_net (fun _ => 1) demo_state = 23 /\ entering demo_net (fun _ => 1) demo_ext = 7 /\
  stored demo_net (fun _ => 1) demo_after = 21 /\ leaving demo_net (fun _ => 1) demo_after = 9.
Proof.
  split; [|split; [|split; [|split]]].
  - split; [intros; lra|]. intros c Hc; cbn in Hc.
    repeat (destruct Hc as [<-|Hc]; [cbn; first [reflexivity|split; lra|lra]|]). destruct Hc.
  - unfold stored, vec. cbn. lra.
  - unfold entering, external_in, vec. cbn. lra.
  - unfold stored. cbn [brick_ids seq length n_bricks demo_net Rsum].
    rewrite (proj1 demo_after_contents), (proj2 demo_after_contents). lra.
  - unfold leaving. cbn [conn_ids seq length n_conns demo_net Rsum conn_at nth k_tgt].
    rewrite demo_after_overflow. replace (s_amount demo_after 2%nat) with 6; [lra|].
    symmetry. unfold demo_after. eval_amount.
Qed.

(** The balance fails when a hydro unit storage hands water over to a sub-basin storage (a static
    connection): the limiter of the receiving storage counts last step's delivery.  Here 24 mm leave a
    system that held 23 mm and received nothing. *)
Theorem c03_static_handoff_refuted :
  ~ (forall N dt l s,
       0 < dt -> well_formed N -> forward N -> sound_caps N ->
       (forall c b, In c (n_conns N) -> k_tgt c = ToStore b -> k_frac c = 1) -> weights N (fun _ => 1) ->
       committed s -> (forall b, solid N b -> 0 <= s_content s b) ->
       (forall e s', In (e, s') l -> nonneg_external e) -> run N dt s l ->
       Rabs (stored N (fun _ => 1) (final s l)
         - (stored N (fun _ => 1) s + Rsum (fun p => entering N (fun _ => 1) (fst p)) l
            - Rsum (fun p => leaving N (fun _ => 1) (snd p)) l)) < 1).
Proof.
  intros H. specialize (H hand_net 1 [(no_ext, hand_mid); (no_ext, hand_after)] hand_state).
  assert (Hx : Rabs (0 - (23 + 0 - 24)) < 1); [|rewrite Rabs_right in Hx; lra].
  replace (0 - (23 + 0 - 24)) with (stored hand_net (fun _ => 1) (final hand_state [(no_ext, hand_mid); (no_ext, hand_after)])
    - (stored hand_net (fun _ => 1) hand_state + Rsum (fun p => entering hand_net (fun _ => 1) (fst p)) [(no_ext, hand_mid); (no_ext, hand_after)]
       - Rsum (fun p => leaving hand_net (fun _ => 1) (snd p)) [(no_ext, hand_mid); (no_ext, hand_after)])).
  - apply H.
    + lra. + exact hand_wf. + exact hand_forward.
    + intros b c Hb E; cbn in Hb. repeat (destruct Hb as [<-|Hb]; [discriminate|]). destruct Hb.
    + intros c b Hc E; cbn in Hc. repeat (destruct Hc as [<-|Hc]; [reflexivity|]). destruct Hc.
    + split; [intros; lra|]. intros c Hc; cbn in Hc.
      repeat (destruct Hc as [<-|Hc]; [cbn; first [reflexivity|split; lra|lra]|]). destruct Hc.
    + intros b; cbn; unfold vec; destruct b; auto.
    + intros b _. cbn [hand_state s_content]. apply vec_nonneg; repeat constructor; lra.
    + intros e s' [E|[E|[]]]; injection E as <- <-; intros b;
        cbn [no_ext e_seen e_hidden e_inst]; repeat split; apply vec_nonneg; constructor.
    + split; [exact (by_euler _ _ _ _ _ _ hand_euler1)|].
      split; [exact (by_euler _ _ _ _ _ _ hand_euler2)|exact I].
  - assert (A1 := hand_after_contents). assert (A2 := hand_after_amounts). assert (A3 := hand_mid_amounts).
    unfold stored, entering, leaving, external_in.
    cbn [final conn_ids brick_ids seq length n_conns n_bricks hand_net Rsum conn_at nth k_tgt fst snd
         no_ext e_seen e_hidden e_inst hand_state s_content].
    rewrite (proj1 A1), (proj2 A1), (proj2 A2), (proj2 A3). unfold vec; cbn. lra.
Qed.
Print Assumptions c03_static_handoff_refuted.

(** *** C04 *)
Theorem c04_limiter_bounds : forall dt content stat cap ov o i r r',
  0 < dt -> (forall k, In k o -> ~ In k i) -> (forall k, ov = Some k -> In k o) ->
  0 <= content + stat -> (forall c, cap = Some c -> 0 <= c) ->
  apply_constraints dt content stat cap ov false o i r = Ok r' ->
  (forall k, ~ In k o -> ~ In k i -> r' k = r k) /\
  (forall k, In k o \/ In k i -> 0 <= r' k) /\
  (forall k, In k i -> r' k <= Rmax 0 (r k)) /\
  (forall k, In k o -> ov <> Some k -> r' k <= Rmax 0 (r k)).
Proof. exact limiter_bounds. Qed.
Print Assumptions c04_limiter_bounds.

Theorem c04_limiter_leaves_feasible_steps : forall dt content stat cap ov o i r r',
  (forall k, ov = Some k -> In k o) -> 0 <= content + stat -> (forall c, cap = Some c -> 0 <= c) ->
  apply_constraints dt content stat cap ov false o i r = Ok r' ->
  let level := content + stat + (Rsum (fun k => Rmax 0 (r k)) i - Rsum (fun k => Rmax 0 (r k)) o) * dt in
  0 <= level -> (forall c, cap = Some c -> level <= c) ->
  forall k, In k o \/ In k i -> r' k = Rmax 0 (r k).
Proof. exact limiter_noop. Qed.
Print Assumptions c04_limiter_leaves_feasible_steps.

(** An infeasible step: every outflow is scaled by the same factor and the storage ends exactly empty. *)
Theorem c04_limiter_proportional : forall dt content stat cap ov o i r r',
  0 < dt -> (forall k, In k o -> ~ In k i) -> (forall k, ov = Some k -> In k o) ->
  0 <= content + stat -> (forall c, cap = Some c -> 0 <= c) ->
  apply_constraints dt content stat cap ov false o i r = Ok r' ->
  content + stat + (Rsum (fun k => Rmax 0 (r k)) i - Rsum (fun k => Rmax 0 (r k)) o) * dt < 0 ->
  (forall k, In k o -> Rmax 0 (r k) = 0 \/ EPSILON_D < Rmax 0 (r k)) ->
  PRECISION * dt < content + stat ->
  (forall k, In k o -> r' k = Rmax 0 (r k) *
      (((content + stat) / dt + Rsum (fun k => Rmax 0 (r k)) i) / Rsum (fun k => Rmax 0 (r k)) o)) /\
  content + stat + (Rsum r' i - Rsum r' o) * dt = 0.
Proof. exact limiter_proportional. Qed.
Print Assumptions c04_limiter_proportional.

Example c04_case : exists r', apply_constraints 1 2 1 None None false [0;1]%nat [2]%nat (vec [4;4;1]) = Ok r' /\
  r' 0%nat = 2 /\ r' 1%nat = 2 /\ r' 2%nat = 1.
Proof.
  exists (vec [2;2;1]). split; [|repeat split].
  unfold apply_constraints; rcbn; unfold clamp_rates; rcbn; rtests. f_equal.
  unfold limit_outgoing, NearlyZero, NearlyEqual. by_index 3%nat.
Qed.

(** An empty store asked to release is frozen even when water flows in during the step: the limitation is
    then not proportional (the outflow is set to zero instead of the inflow). *)
Theorem c04_empty_store_frozen_refuted :
  ~ (forall dt content stat o i r r' k,
       0 < dt -> (forall k, In k o -> ~ In k i) -> 0 <= content + stat ->
       apply_constraints dt content stat None None false o i r = Ok r' ->
       content + stat + (Rsum r i - Rsum r o) * dt < 0 -> (forall j, In j o \/ In j i -> EPSILON_D < r j) ->
       In k o -> r' k = r k * (((content + stat) / dt + Rsum r i) / Rsum r o)).
Proof.
  intros H. specialize (H 1 0 0 [0]%nat [1]%nat (vec [8;5]) (vec [0;5]) 0%nat).
  assert (Hx : vec [0;5] 0%nat = vec [8;5] 0%nat * (((0 + 0) / 1 + Rsum (vec [8;5]) [1%nat]) / Rsum (vec [8;5]) [0%nat])).
  - apply H.
    + lra.
    + intros k [<-|[]] [E|[]]. discriminate.
    + lra.
    + unfold apply_constraints; rcbn; unfold clamp_rates; rcbn; rtests. f_equal.
      unfold limit_outgoing, NearlyZero, NearlyEqual. by_index 2%nat.
    + unfold vec; cbn. lra.
    + intros j [[<-|[]]|[<-|[]]]; unfold vec, EPSILON_D; cbn; lra.
    + left; reflexivity.
  - unfold vec in Hx; cbn in Hx. field_simplify in Hx. lra.
Qed.
Print Assumptions c04_empty_store_frozen_refuted.

(** *** C06: declaration order *)
(** With the Heun solver and a storage declared after the one it feeds, the receiver is credited the amount
    of the trial stage: here 5 mm are received for 3.75 mm withdrawn. *)
Theorem c06_backward_connection_refuted :
  ~ (forall N dt e f1 f2 s s',
       0 < dt -> well_formed N -> plain N -> sound_caps N -> nonneg_external e -> committed s ->
       (forall b, solid N b -> 0 <= s_content s b) -> heun_step N dt e f1 f2 s = Ok s' ->
       exists released, (forall k, (k < length (n_conns N))%nat -> reports (conn_at N k) (released k) (s_amount s' k)) /\
         forall b, solid N b -> Rabs (s_content s' b - book_level N e s s' released b) < 1).
Proof.
  intros H. destruct (H back_net 1 no_ext back_law back_law back_state back_after) as (rel & Hr & Hb).
  - lra. - exact back_wf.
  - intros c b Hc E; cbn in Hc. destruct Hc as [<-|[]]. split; reflexivity.
  - intros b c Hc E; cbn in Hc. destruct Hc as [<-|[<-|[]]]; discriminate.
  - intros b; cbn [no_ext e_seen e_hidden e_inst]; repeat split; apply vec_nonneg; constructor.
  - intros b; cbn; unfold vec; destruct b; auto.
  - intros b _. cbn [back_state s_content]. apply vec_nonneg; repeat constructor; lra.
  - exact back_heun.
  - assert (Hs : solid back_net 0) by (split; [cbn; lia|reflexivity]). specialize (Hb 0%nat Hs).
    destruct back_contents as (E0 & E1 & Ea). unfold book_level, received, withdrawn, external_in in Hb.
    cbn [conn_ids seq length n_conns back_net Rsum conn_at nth k_tgt k_src Nat.eqb
         no_ext e_seen e_hidden e_inst back_state s_content] in Hb.
    rewrite E0, Ea in Hb. unfold vec in Hb; cbn in Hb. rewrite Rabs_right in Hb; lra.
Qed.
Print Assumptions c06_backward_connection_refuted.

(** *** C07: instantaneous connections *)
Theorem c07_euler_books_every_kind_once : forall N dt e f s s',
  0 < dt -> well_formed N -> forward N -> committed s -> euler_step N dt e f s = Ok s' ->
  exists released, (forall k, 0 <= released k) /\
    (forall k, (k < length (n_conns N))%nat -> reports (conn_at N k) (released k) (s_amount s' k)) /\
    forall b, (b < length (n_bricks N))%nat ->
      s_content s' b = (if b_allowneg (brick_at N b) then fun x => x else kept) (book_level N e s s' released b).
Proof. exact euler_books. Qed.
Print Assumptions c07_euler_books_every_kind_once.

(** With Heun the deposit of the trial stage is kept: 4 mm withdrawn, 8 mm received. *)
Theorem c07_heun_deposits_twice_refuted :
  ~ (forall N dt e f1 f2 s s',
       0 < dt -> well_formed N -> forward N -> sound_caps N -> nonneg_external e -> committed s ->
       (forall b, solid N b -> 0 <= s_content s b) -> heun_step N dt e f1 f2 s = Ok s' ->
       exists released, (forall k, (k < length (n_conns N))%nat -> reports (conn_at N k) (released k) (s_amount s' k)) /\
         forall b, solid N b -> Rabs (s_content s' b - book_level N e s s' released b) < 1).
Proof.
  intros H. destruct (H inst_net 1 no_ext inst_law inst_law inst_state inst_after) as (rel & Hr & Hb).
  - lra. - exact inst_wf. - exact inst_forward.
  - intros b c Hc E; cbn in Hc. destruct Hc as [<-|[<-|[]]]; discriminate.
  - intros b; cbn [no_ext e_seen e_hidden e_inst]; repeat split; apply vec_nonneg; constructor.
  - intros b; cbn; unfold vec; destruct b; auto.
  - intros b _. cbn [inst_state s_content]. apply vec_nonneg; repeat constructor; lra.
  - exact inst_heun.
  - assert (Hs : solid inst_net 1) by (split; [cbn; lia|reflexivity]). specialize (Hb 1%nat Hs).
    destruct inst_contents as (E0 & E1 & Ea). unfold book_level, received, withdrawn, external_in in Hb.
    cbn [conn_ids seq length n_conns inst_net Rsum conn_at nth k_tgt k_src Nat.eqb
         no_ext e_seen e_hidden e_inst inst_state s_content] in Hb.
    rewrite E1, Ea in Hb. unfold vec in Hb; cbn in Hb. rewrite Rabs_right in Hb; lra.
Qed.
Print Assumptions c07_heun_deposits_twice_refuted.

(** *** C08: stages leave no trace *)
Theorem c08_heun_no_trace : forall N dt e s s', well_formed N -> forward N -> plain N -> committed s ->
  forall f1 f2, heun_step N dt e f1 f2 s = Ok s' ->
  let t := deposit e s in
  exists k1 k2 kc,
    enforce N dt e t (null_overflow N (evaluate N f1 t)) = Ok k1 /\
    k2 = evaluate N f2 (apply_rates N dt e k1 t) /\
    constrain_rates N dt e t (fun k => (k1 k + k2 k) / 2) = Ok kc /\
    (forall b, (b < length (n_bricks N))%nat ->
       s_content s' b = s_content (finalize_step N (apply_rates N dt e kc t)) b) /\
    (forall k, (k < length (n_conns N))%nat ->
       s_amount s' k = s_amount (finalize_step N (apply_rates N dt e kc t)) k).
Proof. exact heun_no_trace. Qed.
Print Assumptions c08_heun_no_trace.

Theorem c08_rk4_no_trace : forall N dt e s s', well_formed N -> forward N -> plain N -> committed s ->
  forall f1 f2 f3 f4, rk4_step N dt e f1 f2 f3 f4 s = Ok s' ->
  let t := deposit e s in
  exists k1 k2 k3 k4 kc,
    enforce N dt e t (null_overflow N (evaluate N f1 t)) = Ok k1 /\
    (exists t2 t3 t4,
       constrain_rates N dt e t (evaluate N f2 t2) = Ok k2 /\
       constrain_rates N dt e t (evaluate N f3 t3) = Ok k3 /\ k4 = evaluate N f4 t4 /\
       forall b, (b < length (n_bricks N))%nat ->
         s_content t2 b = s_content s b /\
         s_dyn t2 b = s_dyn (apply_rates N dt e k1 t) b / 2 /\
         s_content t3 b = s_content s b /\
         s_dyn t3 b = s_dyn (apply_rates N dt e k2 t) b / 2 /\
         s_content t4 b = s_content s b /\
         s_dyn t4 b = s_dyn (apply_rates N dt e k3 t) b) /\
    constrain_rates N dt e t (fun k => (k1 k + 2 * k2 k + 2 * k3 k + k4 k) / 6) = Ok kc /\
    (forall b, (b < length (n_bricks N))%nat ->
       s_content s' b = s_content (finalize_step N (apply_rates N dt e kc t)) b) /\
    (forall k, (k < length (n_conns N))%nat ->
       s_amount s' k = s_amount (finalize_step N (apply_rates N dt e kc t)) k).
Proof. exact rk4_no_trace. Qed.
Print Assumptions c08_rk4_no_trace.
