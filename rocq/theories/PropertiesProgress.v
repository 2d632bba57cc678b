(** C64: a time step is carried out. *)
From Verif Require Import Base BaseFacts WitnessTools Container ContainerFacts Direct DirectSpec Network NetworkSpec NetworkTools Sequential Catchment CatchmentSpec ProgressFacts.

(** A solver whose processes never ask for more than 10000 mm/d. *)
Inductive moderate (N : net) (dt : R) : (external -> state -> outcome state) -> Prop :=
| mod_euler f : (forall s k, f s k <= 10000) -> moderate N dt (fun e s => euler_step N dt e f s)
| mod_heun f1 f2 : (forall s k, f1 s k <= 10000) -> (forall s k, f2 s k <= 10000) -> moderate N dt (fun e s => heun_step N dt e f1 f2 s)
| mod_rk4 f1 f2 f3 f4 : (forall s k, f1 s k <= 10000) -> (forall s k, f2 s k <= 10000) -> (forall s k, f3 s k <= 10000) -> (forall s k, f4 s k <= 10000) ->
    moderate N dt (fun e s => rk4_step N dt e f1 f2 f3 f4 s)
| mod_sequential sch f r : sch = ImplicitEuler \/ sch = CrankNicolson -> (forall s k, f s k <= 10000) -> (forall k, r k <= 10000) ->
    moderate N dt (fun e s => bind (seq_step N dt e sch f s r) (fun p => Ok (fst p))).

(** Without capacities, any sequence of inputs is run to its end, whatever the contents. *)
Theorem c64_run_completes : forall C dt, 0 < dt ->
  (forall i c, (i < node_count C)%nat -> db_cap (nd_brick (node_at C i)) c = None) ->
  (forall b, (b < length (n_bricks (ct_net C)))%nat -> b_cap (brick_at (ct_net C) b) = None) ->
  forall inputs : list (cinput * (external -> state -> outcome state)),
  (forall inp solve, In (inp, solve) inputs -> (forall i conts k, in_law inp i conts k <= 10000) /\ moderate (ct_net C) dt solve) ->
  forall G, exists states : list cstate, length states = length inputs /\
    forall n inp solve, nth_error inputs n = Some (inp, solve) ->
    exists G', nth_error states n = Some G' /\ catchment_step C dt inp solve (match n with O => G | S m => nth m states G end) = Ok G'.
Proof.
  intros C dt Hdt Hd Hn inputs. induction inputs as [|[inp solve] l IH]; intros Hin G.
  - exists []. split; [reflexivity|]. intros [|n] inp solve H; discriminate.
  - destruct (Hin inp solve (or_introl eq_refl)) as [Hlaw Hmod].
    assert (Hstep : exists G', catchment_step C dt inp solve G = Ok G').
    { unfold catchment_step. destruct (phase_pass C dt inp Hdt) with (g := g_direct G) (p := node_count C) as (g&Eg); [intros i p Hi _; apply Hd, Hi|exact Hlaw|lia|]. rewrite Eg. cbn [bind].
      assert (Hs : exists s, solve (solver_inputs C inp g) (g_net G) = Ok s).
      { destruct Hmod as [f Hf|f1 f2 H1 H2|f1 f2 f3 f4 H1 H2 H3 H4|sch f r Hsch Hf Hr].
        - apply (euler_pass (ct_net C) dt _ Hdt (fun _ => 10000)); [intros k; lra|exact Hf|]. intros b c Hb Hc. rewrite (Hn b Hb) in Hc. discriminate.
        - apply heun_pass; assumption.
        - apply rk4_pass; assumption.
        - destruct (seq_pass (ct_net C) dt (solver_inputs C inp g) Hdt Hn sch f Hsch Hf (g_net G) r Hr) as (p&E). rewrite E. eexists. reflexivity. }
      destruct Hs as (s&Es). rewrite Es. eexists. reflexivity. }
    destruct Hstep as (G'&EG). destruct (IH (fun i s H => Hin i s (or_intror H)) G') as (states&Hlen&Hst). exists (G' :: states). split; [cbn; lia|].
    intros [|n] i s H; cbn [nth_error] in H.
    + injection H as <- <-. exists G'. split; [reflexivity|exact EG].
    + destruct (Hst n i s H) as (G''&E1&E2). exists G''. split; [exact E1|]. destruct n as [|n]; [exact E2|]. cbn [nth]. rewrite (nth_indep states G G'); [exact E2|].
      assert (nth_error l (S n) <> None) by congruence. apply nth_error_Some in H0. lia.
Qed.
Print Assumptions c64_run_completes.

(** With capacities and overflows, an Euler step is carried out if the overflow is not asked to release more than 10000 mm/d: [B] bounds the rates, and the
    overflow of a storage may carry the excess of its content and all its inflows. *)
Theorem c64_overflow_step : forall C dt inp f G B, 0 < dt ->
  (forall i c, (i < node_count C)%nat -> db_cap (nd_brick (node_at C i)) c = None) ->
  (forall i conts k, in_law inp i conts k <= 10000) ->
  (forall k, 0 <= B k <= 10000) -> (forall s k, f s k <= B k) ->
  (forall g b c, direct_phase C dt inp (g_direct G) (node_count C) = Ok g -> (b < length (n_bricks (ct_net C)))%nat -> b_cap (brick_at (ct_net C) b) = Some c ->
     exists k, overflow_of (ct_net C) b = Some k /\
       (s_content (g_net G) b + s_dyn (g_net G) b + inputs_static (ct_net C) (solver_inputs C inp g) (g_net G) b - c) / dt + Rsum B (ins (ct_net C) b) <= B k) ->
  exists G', catchment_step C dt inp (fun e s => euler_step (ct_net C) dt e f s) G = Ok G'.
Proof.
  intros C dt inp f G B Hdt Hd Hlaw HB Hf Hroom. unfold catchment_step.
  destruct (phase_pass C dt inp Hdt) with (g := g_direct G) (p := node_count C) as (g&Eg); [intros i p Hi _; apply Hd, Hi|exact Hlaw|lia|]. rewrite Eg. cbn [bind].
  destruct (euler_pass (ct_net C) dt (solver_inputs C inp g) Hdt B HB f (g_net G) Hf) as (s&Es).
  - intros b c Hb Hc. destruct (Hroom g b c Eg Hb Hc) as (k&E&H). exists k. split; [exact E|exact H].
  - rewrite Es. eexists. reflexivity.
Qed.
Print Assumptions c64_overflow_step.

(** The limit on the rates does abort runs: a storage of 200 mm whose capacity is 100 mm and that has an overflow to the outlet cannot be computed with a time
    step of ten minutes, whatever its processes: its overflow is first set to 14400 mm/d, then rejected as too high. *)
Definition full_net : net := mkNet [mkBrick (Some 100) false] [mkConn 0 Network.ToOutlet Regular 1 true].
Definition full_state : state := mkState (vec [200]) (vec []) (vec []) (vec []).
Definition quiet : external := mkExt (fun _ => 0) (fun _ => 0) (fun _ => 0).
Theorem c64_overflow_aborts_refuted :
  ~ (forall N dt e f s, 0 < dt -> (forall s k, 0 <= f s k <= 10000) -> (forall b c, b_cap (brick_at N b) = Some c -> exists k, overflow_of N b = Some k) ->
       exists s', euler_step N dt e f s = Ok s').
Proof.
  intros H. destruct (H full_net (/ 144) quiet (fun _ _ => 0) full_state) as (s'&E).
  - lra.
  - intros; lra.
  - intros [|b] c Hc; cbn in Hc; [exists 0%nat; reflexivity|destruct b; discriminate].
  - revert E. unfold euler_step, enforce.
    assert (E1 : forall r, r = (fun _ => 0) -> sweep full_net (/144) quiet (deposit quiet full_state) (brick_ids full_net) r = Ok (upd (fun _ => 0) 0 14400)).
    { intros r ->. cbn [brick_ids full_net n_bricks length seq sweep]. unfold constrain_brick, apply_constraints. rewrite too_high_false by (intros; lra).
      replace (outs full_net 0) with [0%nat] by reflexivity. replace (ins full_net 0) with (@nil nat) by reflexivity. replace (overflow_of full_net 0) with (Some 0%nat) by reflexivity.
      replace (clamp_rates (clamp_rates (fun _ : nat => 0) [0%nat]) []) with (fun _ : nat => 0).
      2:{ extensionality k. unfold clamp_rates, Rltb. cbn [mem existsb]. destruct (Nat.eqb k 0 || false)%bool; [destruct (Rlt_dec 0 0); lra|reflexivity]. }
      replace (inputs_static full_net quiet (deposit quiet full_state) 0) with 0 by (unfold inputs_static; cbn; lra).
      cbn [Rsum b_cap brick_at nth full_net n_bricks b_allowneg deposit s_content s_dyn full_state vec]. unfold Rltb.
      destruct (Rlt_dec (0 - (0 + 0)) 0) as [K|_]; [lra|]. cbn [negb andb]. destruct (Rlt_dec 100 _) as [_|K]; [|exfalso; apply K; lra].
      cbn [bind]. f_equal. f_equal. lra. }
    cbn [enforce_n]. rewrite E1.
    2:{ extensionality k. unfold null_overflow, evaluate. destruct (k_overflow _); [reflexivity|]. destruct (LessThanOrEqual _ _ _); reflexivity. }
    cbn [bind].
    match goal with |- context[stable ?N ?a ?b] => replace (stable N a b) with false end.
    2:{ symmetry. unfold stable. cbn [conn_ids full_net n_conns length seq forallb]. unfold upd. cbn [Nat.eqb]. unfold Rleb.
        match goal with |- context[Rle_dec ?a ?b] => destruct (Rle_dec a b) as [K|_] end; [|reflexivity]. exfalso. revert K.
        replace (null_overflow full_net (evaluate full_net (fun _ _ : _ => 0) (deposit quiet full_state)) 0) with 0 by reflexivity. rewrite Rabs_right by lra. unfold PRECISION. lra. }
    match goal with |- context[sweep ?N ?d ?e ?s ?l ?r] => replace (sweep N d e s l r) with (@Throw (nat -> R)) end; [discriminate|].
    symmetry. cbn [brick_ids full_net n_bricks length seq sweep]. unfold constrain_brick, apply_constraints. replace (outs full_net 0) with [0%nat] by reflexivity.
    unfold outgoing_too_high. cbn [existsb]. unfold upd. cbn [Nat.eqb]. unfold Rltb. destruct (Rlt_dec 10000 14400); [reflexivity|lra].
Qed.
Print Assumptions c64_overflow_aborts_refuted.
