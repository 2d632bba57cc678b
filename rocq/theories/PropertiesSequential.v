(** Property theorems: sequential solvers and solver names (C09-C12, C54). *)
From Coq Require Import String.
From Verif Require Import Base BaseFacts Container ContainerFacts Network Sequential NetworkSpec SequentialSpec
  NetworkFacts SolverFacts StepFacts SequentialFacts RunFacts SchemeFacts SequentialProofs WitnessTools
  SolverNames SequentialWitness.

(** *** C09 *)
(** A storage of a network declared in flow order, solved by analytic_linear, whose connections are linear
    (coefficients [coef lin k]) or overflows, without capacity, all its inflow visible to the limiter: the
    committed content is the exact solution [S] of the reservoir equation with the constant inflow received
    during the step, and each connection gets its coefficient times the same mean content, the volumes closing
    the balance exactly; up to the rates below 1e-8 mm/d that are not applied. *)
Theorem c09_analytic_exact : forall N dt e, 0 < dt ->
  well_formed N -> plain N -> forward N -> sound_caps N -> nonneg_external e ->
  forall s, committed s -> (forall b, solid N b -> 0 <= s_content s b) ->
  forall b, solid N b -> b_cap (brick_at N b) = None -> e_hidden e b = 0 ->
  forall lin, (forall k, In k (outs N b) -> (exists c, lin k = Some c /\ 0 <= c) \/
                                            (lin k = None /\ k_overflow (conn_at N k) = true)) ->
  0 < Rsum (coef lin) (outs N b) ->
  forall f r s' r' S, seq_step N dt e (Analytic lin) f s r = Ok (s', r') ->
  let start := s_content s b + e_inst e b in
  let inflow := (e_seen e b + received N (s_amount s') b) / dt in
  let total := Rsum (coef lin) (outs N b) in
  reservoir_solution S start inflow total dt ->
  Rabs (s_content s' b - S dt) <= PRECISION + INR (length (outs N b)) * PRECISION * dt /\
  exists mean, 0 <= mean /\ total * mean * dt = start + inflow * dt - S dt /\
    forall k, In k (outs N b) -> s_amount s' k = weighted (conn_at N k) (booked (coef lin k * mean) dt).
Proof. intros until 2; intros; eapply analytic_step; eassumption. Qed.
Print Assumptions c09_analytic_exact.

(** The equation has a solution for every start, inflow and coefficient. *)
Theorem c09_solution_exists : forall start inflow coefficient h, 0 < coefficient ->
  exists S, reservoir_solution S start inflow coefficient h.
Proof. intros. eexists. apply reservoir_exists. assumption. Qed.
Print Assumptions c09_solution_exists.

Example c09_case : well_formed one_net /\ plain one_net /\ forward one_net /\ sound_caps one_net /\
  nonneg_external (one_ext 6 0) /\ committed (one_state 10) /\ solid one_net 0 /\
  Rsum (coef one_lin) (outs one_net 0) = / 2 /\
  exists s' r', seq_step one_net 1 (one_ext 6 0) (Analytic one_lin) one_law (one_state 10) (fun _ => 0) = Ok (s', r').
Proof.
  split; [exact one_wf|]. split; [exact one_plain|]. split; [exact one_forward|]. split; [exact one_caps|].
  split; [apply one_ext_ok; lra|]. split; [apply one_committed|]. split; [exact one_solid|].
  split; [exact one_total|exact one_analytic_runs].
Qed.

(** Two half steps and one full step with the same inflow rate, for a storage fed from outside only. *)
Theorem c09_half_steps : forall N dt e eh, 0 < dt ->
  well_formed N -> plain N -> forward N -> sound_caps N -> nonneg_external e -> nonneg_external eh ->
  forall s, committed s -> (forall b, solid N b -> 0 <= s_content s b) ->
  forall b, solid N b -> b_cap (brick_at N b) = None -> inputs_of N b = [] ->
  e_hidden e b = 0 -> e_hidden eh b = 0 -> e_inst e b = 0 -> e_inst eh b = 0 -> e_seen eh b = e_seen e b / 2 ->
  forall lin, (forall k, In k (outs N b) -> (exists c, lin k = Some c /\ 0 <= c) \/
                                            (lin k = None /\ k_overflow (conn_at N k) = true)) ->
  0 < Rsum (coef lin) (outs N b) ->
  forall f r s1 r1 s2 r2 s' r',
  seq_step N dt e (Analytic lin) f s r = Ok (s', r') ->
  seq_step N (dt / 2) eh (Analytic lin) f s r = Ok (s1, r1) ->
  seq_step N (dt / 2) eh (Analytic lin) f s1 r1 = Ok (s2, r2) ->
  Rabs (s_content s2 b - s_content s' b) <= 3 * PRECISION + 2 * INR (length (outs N b)) * PRECISION * dt.
Proof.
  intros N dt e eh Hdt Hwf Hpl Hfw Hcaps He Heh s Hcm Hpos b Hb Hcap Hin H1 H2 H3 H4 H5 lin Hlin HK
    f r s1 r1 s2 r2 s' r' Hf Ha Hc.
  assert (Hrec : forall a, received N a b = 0) by (intros a; rewrite received_inputs, Hin; reflexivity).
  set (K := Rsum (coef lin) (outs N b)) in *.
  destruct (seq_step_closes N (dt / 2) eh (Analytic lin) f ltac:(lra) Hwf Hpl Hfw Hcaps Heh s Hcm Hpos r s1 r1 Ha) as [rel Hcl].
  assert (Hcm1 := cl_committed _ _ _ _ _ _ Hcl).
  assert (Hpos1 : forall b, solid N b -> 0 <= s_content s1 b) by (intros; eapply closes_nonneg; eassumption).
  set (sol := fun x I t => x * exp (- K * t) + I / K * (1 - exp (- K * t))).
  set (I := e_seen e b / dt).
  assert (EI : forall a, (e_seen e b + received N a b) / dt = I) by (intros; rewrite Hrec; unfold I; f_equal; ring).
  assert (EIh : forall a, (e_seen eh b + received N a b) / (dt / 2) = I) by (intros; rewrite Hrec, H5; unfold I; field; lra).
  destruct (c09_analytic_exact N dt e Hdt Hwf Hpl Hfw Hcaps He s Hcm Hpos b Hb Hcap H1 lin Hlin HK f r s' r'
    (sol (s_content s b + e_inst e b) I) Hf) as [Bf _]; [rewrite EI; apply reservoir_exists, HK|].
  destruct (c09_analytic_exact N (dt / 2) eh ltac:(lra) Hwf Hpl Hfw Hcaps Heh s Hcm Hpos b Hb Hcap H2 lin Hlin HK f r s1 r1
    (sol (s_content s b + e_inst eh b) I) Ha) as [Ba _]; [rewrite EIh; apply reservoir_exists, HK|].
  destruct (c09_analytic_exact N (dt / 2) eh ltac:(lra) Hwf Hpl Hfw Hcaps Heh s1 Hcm1 Hpos1 b Hb Hcap H2 lin Hlin HK f r1 s2 r2
    (sol (s_content s1 b + e_inst eh b) I) Hc) as [Bc _]; [rewrite EIh; apply reservoir_exists, HK|].
  rewrite H3, Rplus_0_r in Bf. rewrite H4, Rplus_0_r in Ba. rewrite H4, Rplus_0_r in Bc.
  set (d := exp (- K * (dt / 2))).
  assert (Hd : 0 < d <= 1).
  { unfold d. pose proof (exp_le_1 (K * (dt / 2)) ltac:(apply Rmult_le_pos; lra)) as Hx.
    replace (- (K * (dt / 2))) with (- K * (dt / 2)) in Hx by ring. exact Hx. }
  assert (Hdd : exp (- K * dt) = d * d).
  { unfold d. rewrite <- exp_plus. f_equal. field. }
  assert (Es : sol (s_content s b) I dt = sol (sol (s_content s b) I (dt / 2)) I (dt / 2)).
  { unfold sol. rewrite Hdd. fold d. field. lra. }
  assert (Hlip : Rabs (sol (s_content s1 b) I (dt / 2) - sol (sol (s_content s b) I (dt / 2)) I (dt / 2))
                 <= Rabs (s_content s1 b - sol (s_content s b) I (dt / 2))).
  { set (y := sol (s_content s b) I (dt / 2)). unfold sol. fold d.
    replace (s_content s1 b * d + I / K * (1 - d) - (y * d + I / K * (1 - d))) with (d * (s_content s1 b - y)) by ring.
    rewrite Rabs_mult, (Rabs_right d) by lra. pose proof (Rabs_pos (s_content s1 b - y)). nra. }
  rewrite <- Es in Hlip.
  apply Rabs_bounds in Bf. apply Rabs_bounds in Bc. pose proof (Rle_trans _ _ _ Hlip Ba) as Hl.
  apply Rabs_bounds in Hl. pose proof PRECISION_pos as HP.
  apply Rabs_le. lra.
Qed.
Print Assumptions c09_half_steps.

(** Exactness is lost when the inflow comes from a directly computed cover through a plain connection
    (infiltration): the limiter does not see it, and an empty storage releases nothing although the exact
    outflow is a third of the inflow.  Here the exact content is below 7 mm, the committed one is 10 mm. *)
Theorem c09_hidden_inflow_refuted :
  ~ (forall N dt e s b lin f r s' r' S,
       0 < dt -> well_formed N -> plain N -> forward N -> sound_caps N -> nonneg_external e -> committed s ->
       (forall b, solid N b -> 0 <= s_content s b) -> solid N b -> b_cap (brick_at N b) = None ->
       (forall k, In k (outs N b) -> exists c, lin k = Some c /\ 0 <= c) -> 0 < Rsum (coef lin) (outs N b) ->
       seq_step N dt e (Analytic lin) f s r = Ok (s', r') ->
       reservoir_solution S (s_content s b + e_inst e b)
         ((e_seen e b + e_hidden e b + received N (s_amount s') b) / dt) (Rsum (coef lin) (outs N b)) dt ->
       Rabs (s_content s' b - S dt) <= 1).
Proof.
  intros H. destruct hidden_runs as (s' & r' & Hr & Hc).
  assert (Ek : Rsum (coef hidden_lin) (outs hidden_net 0) = 1) by (cbn; unfold coef; cbn; lra).
  specialize (H hidden_net 1 (one_ext 0 10) (one_state 0) 0%nat hidden_lin (fun _ _ => 0) (fun _ => 0) s' r' hidden_exact).
  rewrite Hc in H. pose proof hidden_exact_small as Hs.
  assert (Hx : Rabs (10 - hidden_exact 1) <= 1); [|apply Rabs_bounds in Hx; lra].
  apply H; try lra.
  - intros c Hc'; cbn in Hc'. destruct Hc' as [<-|[]]. cbn. split; [lia|discriminate].
  - intros c b Hc' E; cbn in Hc'. destruct Hc' as [<-|[]]. discriminate.
  - intros c b Hc' E; cbn in Hc'. destruct Hc' as [<-|[]]. discriminate.
  - intros b c Hb E; cbn in Hb. destruct Hb as [<-|[]]. discriminate.
  - apply one_ext_ok; lra.
  - apply one_committed.
  - intros b [Hb _]. cbn in Hb. destruct b; [cbn; unfold vec; cbn; lra|lia].
  - split; cbn; [lia|reflexivity].
  - reflexivity.
  - cbn. intros k [<-|[]]. exists 1. split; [reflexivity|lra].
  - exact Hr.
  - rewrite Ek. rewrite received_inputs. cbn [one_state one_ext s_content e_inst e_seen e_hidden]. unfold vec.
    cbn [nth inputs_of conn_ids hidden_net n_conns length seq filter goes_to conn_at k_tgt Rsum].
    replace (0 + 0) with 0 by ring. replace ((0 + 10 + 0) / 1) with 10 by field.
    apply reservoir_exists. lra.
Qed.
Print Assumptions c09_hidden_inflow_refuted.

(** *** C10 *)
(** For every outflow law (non-negative, non-decreasing, zero at an empty storage; it may jump), the content
    at which the implicit Euler and the Crank-Nicolson bisections stop is within the final bracket width of the
    end-of-step content of their equation, which exists, and lies between zero and the available water. *)
Theorem c10_implicit_bisection : forall q start inflow h, outflow_law q -> 0 < h -> 0 <= start -> 0 <= inflow ->
  exists S, implicit_content q start inflow h S /\
    Rabs (implicit_end false q start inflow h - S) <= bisection_accuracy start inflow h /\
    0 <= implicit_end false q start inflow h <= start + h * inflow.
Proof. exact implicit_accurate. Qed.
Print Assumptions c10_implicit_bisection.
Theorem c10_trapezoidal_bisection : forall q start inflow h, outflow_law q -> 0 < h -> 0 <= start -> 0 <= inflow ->
  exists S, trapezoidal_content q start inflow h S /\
    Rabs (trapezoidal_end false q (q start) start inflow h - S) <= bisection_accuracy start inflow h /\
    0 <= trapezoidal_end false q (q start) start inflow h <= start + h * inflow.
Proof. exact trapezoidal_accurate. Qed.
Print Assumptions c10_trapezoidal_bisection.

(** The end-of-step content is unique, and a non-negative root of the equation is it. *)
Theorem c10_root_is_the_content : forall q start inflow h, outflow_law q -> 0 < h ->
  (forall S S', implicit_content q start inflow h S -> implicit_content q start inflow h S' -> S = S') /\
  (forall S S', trapezoidal_content q start inflow h S -> trapezoidal_content q start inflow h S' -> S = S') /\
  (forall S, 0 <= S -> S = start + h * (inflow - q S) -> implicit_content q start inflow h S) /\
  (forall S, 0 <= S -> S = start + h * (inflow - (q start + q S) / 2) -> trapezoidal_content q start inflow h S).
Proof.
  intros q start inflow h (_ & Hm & _) Hh.
  split; [intros S S'; apply crosses_unique|]. split; [intros S S'; apply crosses_unique|].
  split; intros S H0 HS; apply root_crosses; try assumption; intros x y Hxy; pose proof (Hm x y Hxy); nra.
Qed.
Print Assumptions c10_root_is_the_content.

(** Through a whole step: when the laws of the storage depend on its content only and are Lipschitz above
    1e-8 mm, the committed content is the root of the equation up to the bisection accuracy and rounding. *)
Theorem c10_implicit_step : forall N dt e, 0 < dt ->
  well_formed N -> plain N -> forward N -> sound_caps N -> nonneg_external e ->
  forall s, committed s -> (forall b, solid N b -> 0 <= s_content s b) ->
  forall b, solid N b -> b_cap (brick_at N b) = None -> e_hidden e b = 0 ->
  forall (q : nat -> R -> R) (f : law),
  (forall s k, In k (outs N b) -> k_overflow (conn_at N k) = false -> f s k = q k (content_changes s b)) ->
  (forall k x, In k (outs N b) -> k_overflow (conn_at N k) = true -> q k x = 0) ->
  (forall k x, In k (outs N b) -> 0 <= x -> 0 <= q k x) ->
  (forall k x y, In k (outs N b) -> 0 <= x <= y -> q k x <= q k y) ->
  let Q := total_outflow q (outs N b) in
  forall r s' r' L S, seq_step N dt e ImplicitEuler f s r = Ok (s', r') -> 0 <= L ->
  (forall x y, PRECISION < x -> PRECISION < y -> Rabs (Q x - Q y) <= L * Rabs (x - y)) ->
  let start := s_content s b + e_inst e b in
  let inflow := (e_seen e b + received N (s_amount s') b) / dt in
  let acc := bisection_accuracy start inflow dt in
  implicit_content Q start inflow dt S -> PRECISION + (1 + dt * L) * acc < S ->
  S = start + dt * (inflow - Q S) /\
  Rabs (s_content s' b - S) <= PRECISION + INR (length (outs N b)) * PRECISION * dt + dt * L * acc.
Proof. intros until 2; intros; eapply implicit_step; eassumption. Qed.
Print Assumptions c10_implicit_step.

Theorem c10_trapezoidal_step : forall N dt e, 0 < dt ->
  well_formed N -> plain N -> forward N -> sound_caps N -> nonneg_external e ->
  forall s, committed s -> (forall b, solid N b -> 0 <= s_content s b) ->
  forall b, solid N b -> b_cap (brick_at N b) = None -> e_hidden e b = 0 ->
  forall (q : nat -> R -> R) (f : law),
  (forall s k, In k (outs N b) -> k_overflow (conn_at N k) = false -> f s k = q k (content_changes s b)) ->
  (forall k x, In k (outs N b) -> k_overflow (conn_at N k) = true -> q k x = 0) ->
  (forall k x, In k (outs N b) -> 0 <= x -> 0 <= q k x) ->
  (forall k x y, In k (outs N b) -> 0 <= x <= y -> q k x <= q k y) ->
  let Q := total_outflow q (outs N b) in
  forall r s' r' L S, seq_step N dt e CrankNicolson f s r = Ok (s', r') -> 0 <= L ->
  (forall x y, PRECISION < x -> PRECISION < y -> Rabs (Q x - Q y) <= L * Rabs (x - y)) ->
  let start := s_content s b + e_inst e b in
  let inflow := (e_seen e b + received N (s_amount s') b) / dt in
  let acc := bisection_accuracy start inflow dt in
  trapezoidal_content Q start inflow dt S -> PRECISION + (1 + dt * L) * acc < S ->
  S = start + dt * (inflow - (Q start + Q S) / 2) /\
  Rabs (s_content s' b - S) <= PRECISION + INR (length (outs N b)) * PRECISION * dt + dt * L * acc.
Proof. intros until 2; intros; eapply trapezoidal_step; eassumption. Qed.
Print Assumptions c10_trapezoidal_step.

(** A reservoir of 10 mm receiving 6 mm, asked for a quarter of its content per day by each of two outlets. *)
Example c10_case : (exists s' r',
    seq_step one_net 1 (one_ext 6 0) ImplicitEuler one_law (one_state 10) (fun _ => 0) = Ok (s', r')) /\
  outflow_law (total_outflow one_q (outs one_net 0)) /\
  (forall x y, PRECISION < x -> PRECISION < y ->
     Rabs (total_outflow one_q (outs one_net 0) x - total_outflow one_q (outs one_net 0) y) <= / 2 * Rabs (x - y)) /\
  implicit_content (total_outflow one_q (outs one_net 0)) 10 6 1 (32 / 3) /\
  PRECISION + (1 + 1 * / 2) * bisection_accuracy 10 6 1 < 32 / 3.
Proof.
  split; [exact one_implicit_runs|]. split; [exact one_Q_outflow|]. split; [exact one_Q_lip|].
  split; [exact one_implicit_content|]. pose proof one_acc. unfold PRECISION. lra.
Qed.

(** *** C11 *)
(** One step of any of the four schemes, whatever the processes ask for: contents are not negative, each
    connection reports what was withdrawn for it, each storage ends with its start content plus what it received
    minus what was withdrawn (residues below 1e-8 mm removed), and removing a negative residue creates no more
    than the rounding tolerance. *)
Theorem c11_sequential_balance : forall N dt e sch f, 0 < dt ->
  well_formed N -> plain N -> forward N -> sound_caps N -> nonneg_external e ->
  forall s, committed s -> (forall b, solid N b -> 0 <= s_content s b) ->
  forall r s' r', seq_step N dt e sch f s r = Ok (s', r') ->
  (exists released, closes N dt e s s' released) /\ (forall b, solid N b -> 0 <= s_content s' b).
Proof.
  intros. destruct (seq_step_closes N dt e sch f H H0 H1 H2 H3 H4 s H5 H6 r s' r' H7) as [rel Hcl].
  split; [exists rel; exact Hcl|]. intros b Hb. eapply closes_nonneg; eassumption.
Qed.
Print Assumptions c11_sequential_balance.
Example c11_case : exists s' r', seq_step one_net 1 (one_ext 6 0) ImplicitEuler one_law (one_state 10) (fun _ => 0) = Ok (s', r').
Proof. exact one_implicit_runs. Qed.

(** *** C54 *)
(** exponential_euler is exact for linear laws as well, with the same sharing between the outlets. *)
Theorem c54_exponential_exact : forall N dt e, 0 < dt ->
  well_formed N -> plain N -> forward N -> sound_caps N -> nonneg_external e ->
  forall s, committed s -> (forall b, solid N b -> 0 <= s_content s b) ->
  forall b, solid N b -> b_cap (brick_at N b) = None -> e_hidden e b = 0 ->
  forall (c : nat -> R) (f : law),
  (forall s k, In k (outs N b) -> k_overflow (conn_at N k) = false -> f s k = c k * content_changes s b) ->
  (forall k, In k (outs N b) -> k_overflow (conn_at N k) = true -> c k = 0) ->
  (forall k, In k (outs N b) -> 0 <= c k) -> / 10000000000 < Rsum c (outs N b) ->
  forall r s' r' S, seq_step N dt e ExponentialEuler f s r = Ok (s', r') ->
  let start := s_content s b + e_inst e b in
  let inflow := (e_seen e b + received N (s_amount s') b) / dt in
  let total := Rsum c (outs N b) in
  start = 0 \/ PRECISION < start ->
  reservoir_solution S start inflow total dt -> PRECISION < S dt ->
  Rabs (s_content s' b - S dt) <= PRECISION + INR (length (outs N b)) * PRECISION * dt /\
  exists mean, 0 <= mean /\ total * mean * dt = start + inflow * dt - S dt /\
    forall k, In k (outs N b) -> s_amount s' k = weighted (conn_at N k) (booked (c k * mean) dt).
Proof. intros until 2; intros; eapply exponential_step; eassumption. Qed.
Print Assumptions c54_exponential_exact.

Example c54_case : (exists s' r',
    seq_step one_net 1 (one_ext 6 0) ExponentialEuler one_law (one_state 10) (fun _ => 0) = Ok (s', r')) /\
  Rsum (fun _ => / 4) (outs one_net 0) = / 2 /\
  (forall S, reservoir_solution S 10 6 (/ 2) 1 -> PRECISION < S 1).
Proof.
  split; [exact one_exponential_runs|]. split; [cbn; lra|].
  intros S HS. rewrite (reservoir_formula S 10 6 (/ 2) 1) by (try lra; exact HS).
  pose proof (exp_le_1 (/ 2 * 1) ltac:(lra)) as He. replace (- (/ 2 * 1)) with (- / 2 * 1) in He by ring.
  unfold PRECISION. lra.
Qed.

(** *** C12 *)
(** The names of the documentation, and the scheme each one stands for. *)
Definition published (name : string) (k : solver_kind) : Prop :=
  match k with
  | SolverRK4 => name = "rk4"%string \/ name = "runge_kutta"%string
  | SolverEulerExplicit => name = "euler_explicit"%string
  | SolverHeunExplicit => name = "heun_explicit"%string
  | SolverAnalyticLinear => name = "analytic_linear"%string \/ name = "analytic"%string
  | SolverImplicitEuler => name = "implicit_euler"%string \/ name = "euler_implicit"%string
  | SolverCrankNicolson => name = "crank_nicolson"%string \/ name = "trapezoidal"%string
  | SolverExponentialEuler => name = "exponential_euler"%string
  end.

Theorem c12_names : forall name,
  (forall k, solver_factory name = Ok k <-> published name k) /\
  (solver_factory name = Throw <-> ~ In name valid_solver_names).
Proof.
  intros name.
  assert (Hcases : In name valid_solver_names \/ ~ In name valid_solver_names) by
    (destruct (in_dec string_dec name valid_solver_names); auto).
  destruct Hcases as [Hin|Hout].
  - cbn [valid_solver_names In] in Hin.
    repeat (destruct Hin as [<-|Hin]; [split; [intros k; destruct k; cbn; split; intros H;
        try discriminate; try reflexivity; try (left; reflexivity); try (right; reflexivity);
        repeat (destruct H as [H|H]); try discriminate H | cbn; split; intros H; [discriminate|];
        exfalso; apply H; cbn; tauto] |]).
    destruct Hin.
  - assert (Ht : solver_factory name = Throw).
    { unfold solver_factory. enough (G : forall m, (forall n k, In (n, k) m -> In n valid_solver_names) -> lookup m name = Throw).
      - apply G. cbn. intros n k H. repeat (destruct H as [H|H]; [injection H as <- <-; tauto|]). destruct H.
      - induction m as [|[n k] m IH]; intros Hm; cbn [lookup]; [reflexivity|].
        destruct (String.eqb_spec n name) as [<-|_].
        + exfalso. apply Hout. apply (Hm n k). left; reflexivity.
        + apply IH. intros n' k' H'. apply (Hm n' k'). right; exact H'. }
    split; [|split; [intros _; exact Hout|intros _; exact Ht]].
    intros k. rewrite Ht. split; [discriminate|]. intros H. exfalso. apply Hout.
    destruct k; cbn in H; repeat (destruct H as [H|H]); subst; cbn; tauto.
Qed.
Print Assumptions c12_names.
