(** What the sequential schemes achieve on one storage of a network. *)
From Verif Require Import Base BaseFacts Container ContainerFacts Network Sequential NetworkSpec
  SequentialSpec NetworkFacts SolverFacts StepFacts SequentialFacts SchemeFacts.

Lemma Rsum_div {A} (g : A -> R) c l : Rsum (fun x => g x / c) l = Rsum g l / c.
Proof. unfold Rdiv. apply Rsum_scal_r. Qed.

Lemma applied_booked dt r k : applied dt r k = booked (r k) dt.
Proof. reflexivity. Qed.

Lemma applied_error dt r l : 0 < dt -> (forall k, In k l -> 0 <= r k) ->
  Rsum r l * dt - INR (length l) * PRECISION * dt <= Rsum (applied dt r) l <= Rsum r l * dt.
Proof.
  intros Hdt Hr. split.
  - rewrite <- Rsum_scal_r.
    replace (INR (length l) * PRECISION * dt) with (Rsum (fun _ : nat => PRECISION * dt) l)
      by (rewrite Rsum_const; ring).
    rewrite <- Rsum_minus. apply Rsum_le; intros k _. apply applied_ge, Hdt.
  - rewrite <- Rsum_scal_r. apply Rsum_le; intros k Hk. apply applied_le; auto.
Qed.

Section OneStorage.
Variables (N : net) (dt : R) (e : external).
Hypothesis Hdt : 0 < dt.
Hypothesis Hwf : well_formed N.
Hypothesis Hpl : plain N.
Hypothesis Hfw : forward N.
Hypothesis Hcaps : sound_caps N.
Hypothesis He : nonneg_external e.
Variable s0 : state.
Hypothesis Hcm : committed s0.
Hypothesis Hpos : forall b, solid N b -> 0 <= s_content s0 b.
Variable b : nat.
Hypothesis Hb : solid N b.
Hypothesis Hcap : b_cap (brick_at N b) = None.
Hypothesis Hhid : e_hidden e b = 0.

Let start := s_content s0 b + e_inst e b.
Let inflow (s' : state) := (e_seen e b + received N (s_amount s') b) / dt.
Lemma start_nonneg : 0 <= start.
Proof. unfold start. pose proof (Hpos b Hb). destruct (He b) as (?&?&?). lra. Qed.

(** Rates [rates] that leave the level [x] are applied, and the content ends at [x] up to rounding. *)
Lemma seq_reaches sch f r0 s' r' : seq_step N dt e sch f s0 r0 = Ok (s', r') ->
  0 <= inflow s' /\
  exists s, content_changes s b = start /\ s_dyn s b = 0 /\
  forall x, let rates := brick_rates N sch f s b start (inflow s') dt in
    (forall k, In k (outs N b) -> 0 <= rates k) ->
    Rsum rates (outs N b) * dt = start + inflow s' * dt - x -> 0 <= x ->
    (forall k, In k (outs N b) -> s_amount s' k = weighted (conn_at N k) (booked (rates k) dt)) /\
    Rabs (s_content s' b - x) <= PRECISION + INR (length (outs N b)) * PRECISION * dt.
Proof.
  intros H. destruct (seq_applies N dt e sch f Hdt Hpl Hfw Hcaps He s0 Hcm Hpos r0 s' r' b H Hb Hcap Hhid)
    as (s & A & B & C & D).
  unfold inflow. rewrite received_inputs. split; [exact C|].
  exists s. split; [exact A|]. split; [exact B|]. intros x. cbv zeta. cbv zeta in D. fold start in D.
  set (rates := brick_rates _ _ _ _ _ _ _ _) in *. intros Hnn Hsum Hx.
  destruct (D Hnn) as [D1 D2].
  - lra.
  - split; [exact D1|]. rewrite D2.
    pose proof (applied_error dt rates (outs N b) Hdt Hnn) as Ha.
    set (y := start + _ - _). assert (Hy : x <= y <= x + INR (length (outs N b)) * PRECISION * dt) by (unfold y; lra).
    unfold kept. pose proof PRECISION_pos. destruct (Rle_dec y PRECISION); apply Rabs_le; lra.
Qed.

(** *** analytic_linear *)
Section Analytic.
Variables (lin : nat -> option R).
Hypothesis Hlin : forall k, In k (outs N b) -> (exists c, lin k = Some c /\ 0 <= c) \/
                                               (lin k = None /\ k_overflow (conn_at N k) = true).
Let K := Rsum (coef lin) (outs N b).
Hypothesis HK : 0 < K.

Lemma coef_nonneg k : In k (outs N b) -> 0 <= coef lin k.
Proof. intros Hk. unfold coef. destruct (Hlin k Hk) as [(c & -> & Hc)|[-> _]]; lra. Qed.

Lemma analytic_rates_linear f s I k : 0 <= I -> In k (outs N b) ->
  let x := start * exp (- K * dt) + I / K * (1 - exp (- K * dt)) in
  brick_rates N (Analytic lin) f s b start I dt k
  = coef lin k * ((start + I * dt - x) / K / dt).
Proof.
  intros HI Hk x. cbn [brick_rates]. unfold analytic_rates.
  assert (Hfr : Rsum (evaluate N f s) (filter (fun k => negb (is_linear lin k)) (outs N b)) = 0).
  { apply Rsum_zero. intros j Hj. apply filter_In in Hj. destruct Hj as [Hj Hn].
    unfold is_linear in Hn. destruct (Hlin j Hj) as [(c & E & _)|[E Ho]]; rewrite E in Hn; [discriminate|].
    unfold evaluate. rewrite Ho. reflexivity. }
  rewrite Hfr. fold K. rewrite Rminus_0_r.
  pose proof (reservoir_nonneg start I K dt HK ltac:(lra) start_nonneg HI) as [Hx0 Hx1]. fold x in Hx0, Hx1.
  fold x. assert (Hmx : Rmax ((I * dt - (x - start)) / dt) 0 = (I * dt - (x - start)) / dt).
  { apply Rmax_left. apply Rmult_le_pos; [lra|left; apply Rinv_0_lt_compat, Hdt]. }
  unfold coef. destruct (Hlin k Hk) as [(c & -> & Hc)|[-> Ho]].
  - assert (HKn : ~ K <= 0) by lra. unfold Rleb. destruct (Rle_dec K 0); [contradiction|].
    rewrite Hmx. field. split; lra.
  - unfold evaluate. rewrite Ho. ring.
Qed.

Lemma analytic_step f r0 s' r' S : seq_step N dt e (Analytic lin) f s0 r0 = Ok (s', r') ->
  reservoir_solution S start (inflow s') K dt ->
  Rabs (s_content s' b - S dt) <= PRECISION + INR (length (outs N b)) * PRECISION * dt /\
  exists mean, 0 <= mean /\ K * mean * dt = start + inflow s' * dt - S dt /\
    forall k, In k (outs N b) ->
      s_amount s' k = weighted (conn_at N k) (booked (coef lin k * mean) dt).
Proof.
  intros H HS. destruct (seq_reaches _ _ _ _ _ H) as (HI & s & _ & _ & Hr).
  assert (ES := reservoir_formula S start (inflow s') K dt HK ltac:(lra) HS).
  set (x := start * exp (- K * dt) + inflow s' / K * (1 - exp (- K * dt))) in ES.
  pose proof (reservoir_nonneg start (inflow s') K dt HK ltac:(lra) start_nonneg HI) as [Hx0 Hx1]. fold x in Hx0, Hx1.
  set (mean := (start + inflow s' * dt - x) / K / dt).
  assert (Hmean : 0 <= mean).
  { unfold mean. repeat apply Rmult_le_pos; try (left; apply Rinv_0_lt_compat); lra. }
  assert (Erates : forall k, In k (outs N b) ->
     brick_rates N (Analytic lin) f s b start (inflow s') dt k = coef lin k * mean)
    by (intros k Hk; apply analytic_rates_linear; assumption).
  destruct (Hr x) as [R1 R2].
  - intros k Hk. rewrite Erates by exact Hk. apply Rmult_le_pos; [apply coef_nonneg, Hk|exact Hmean].
  - rewrite (Rsum_ext_in _ _ _ Erates), Rsum_scal_r. fold K. unfold mean. field. lra.
  - exact Hx0.
  - rewrite ES. split; [exact R2|]. exists mean. split; [exact Hmean|]. split; [unfold mean; field; lra|].
    intros k Hk. rewrite R1, Erates by exact Hk. reflexivity.
Qed.
End Analytic.

(** *** Schemes that evaluate the laws at a given content *)
Section Laws.
Variables (q : nat -> R -> R) (f : law).
Hypothesis Hf : forall s k, In k (outs N b) -> k_overflow (conn_at N k) = false -> f s k = q k (content_changes s b).
Hypothesis Hov : forall k x, In k (outs N b) -> k_overflow (conn_at N k) = true -> q k x = 0.
Hypothesis Hq0 : forall k x, In k (outs N b) -> 0 <= x -> 0 <= q k x.
Hypothesis Hqm : forall k x y, In k (outs N b) -> 0 <= x <= y -> q k x <= q k y.
Let Q := total_outflow q (outs N b).

Lemma rates_at_law s k x : content_changes s b = start -> s_dyn s b = 0 -> In k (outs N b) ->
  rates_at N f s b (x - start) k = if Rle_dec x PRECISION then 0 else q k x.
Proof.
  intros Hc Hd Hk. unfold rates_at, evaluate.
  assert (Hsrc : k_src (conn_at N k) = b) by (apply in_outs in Hk; apply Hk).
  assert (Hcc : content_changes (set_dyn s b (x - start)) b = x).
  { unfold content_changes in *. cbn [set_dyn s_content s_dyn s_stat]. unfold upd. rewrite Nat.eqb_refl. lra. }
  destruct (k_overflow (conn_at N k)) eqn:Eo.
  - rewrite Hov by assumption. destruct (Rle_dec x PRECISION); reflexivity.
  - rewrite Hsrc, Hcc. unfold LessThanOrEqual. rewrite Rplus_0_l. unfold Rleb.
    destruct (Rle_dec x PRECISION); [reflexivity|]. rewrite Hf by assumption. rewrite Hcc. reflexivity.
Qed.
Lemma total_rate_law s x : content_changes s b = start -> s_dyn s b = 0 ->
  total_rate_at N f s b (x - start) = Q x.
Proof.
  intros Hc Hd. unfold total_rate_at.
  rewrite (Rsum_ext_in _ (fun k => if Rle_dec x PRECISION then 0 else q k x)) by (intros; apply rates_at_law; assumption).
  unfold Q, total_outflow. fold PRECISION. destruct (Rle_dec x PRECISION); [|reflexivity].
  apply Rsum_zero. reflexivity.
Qed.
Lemma Q_law : outflow_law Q.
Proof.
  pose proof PRECISION_pos as Hp.
  unfold outflow_law, Q, total_outflow. fold PRECISION. split; [|split].
  - intros x. destruct (Rle_dec x PRECISION); [lra|]. apply Rsum_nonneg. intros k Hk. apply Hq0; [exact Hk|lra].
  - intros x y Hxy. destruct (Rle_dec x PRECISION), (Rle_dec y PRECISION); try lra.
    + apply Rsum_nonneg. intros k Hk. apply Hq0; [exact Hk|lra].
    + apply Rsum_le. intros k Hk. apply Hqm; [exact Hk|lra].
  - intros x Hx. destruct (Rle_dec x PRECISION); [reflexivity|lra].
Qed.

Lemma implicit_rates s I k : content_changes s b = start -> s_dyn s b = 0 -> In k (outs N b) ->
  brick_rates N ImplicitEuler f s b start I dt k
  = if Rle_dec (implicit_end false Q start I dt) PRECISION then 0 else q k (implicit_end false Q start I dt).
Proof.
  intros Hc Hd Hk. cbn [brick_rates]. destruct Hb as [_ Han]. rewrite Han.
  rewrite rates_at_law by assumption.
  assert (E : implicit_end false (fun x => total_rate_at N f s b (x - start)) start I dt = implicit_end false Q start I dt).
  { unfold implicit_end, implicit_lower. rewrite !total_rate_law by assumption. f_equal.
    apply FunctionalExtensionality.functional_extensionality. intros x. unfold implicit_g.
    rewrite total_rate_law by assumption. reflexivity. }
  rewrite E. reflexivity.
Qed.
Lemma trapezoidal_rates s I k : content_changes s b = start -> s_dyn s b = 0 -> In k (outs N b) ->
  let x := trapezoidal_end false Q (Q start) start I dt in
  brick_rates N CrankNicolson f s b start I dt k
  = ((if Rle_dec start PRECISION then 0 else q k start) + (if Rle_dec x PRECISION then 0 else q k x)) / 2.
Proof.
  intros Hc Hd Hk x. cbn [brick_rates]. destruct Hb as [_ Han]. rewrite Han.
  rewrite rates_at_law by assumption.
  replace (rates_at N f s b 0 k) with (rates_at N f s b (start - start) k) by (f_equal; ring).
  replace (total_rate_at N f s b 0) with (total_rate_at N f s b (start - start)) by (f_equal; ring).
  rewrite rates_at_law by assumption. rewrite (total_rate_law s start) by assumption.
  assert (E : trapezoidal_end false (fun x => total_rate_at N f s b (x - start)) (Q start) start I dt = x).
  { unfold x, trapezoidal_end, trapezoidal_lower. rewrite !total_rate_law by assumption. f_equal.
    apply FunctionalExtensionality.functional_extensionality. intros y. unfold trapezoidal_g.
    rewrite total_rate_law by assumption. reflexivity. }
  rewrite E. reflexivity.
Qed.

Lemma Q_sum x : Rsum (fun k => if Rle_dec x PRECISION then 0 else q k x) (outs N b) = Q x.
Proof.
  unfold Q, total_outflow. fold PRECISION. destruct (Rle_dec x PRECISION); [|reflexivity].
  apply Rsum_zero; reflexivity.
Qed.
Lemma q_guard_nonneg x k : 0 <= x -> In k (outs N b) -> 0 <= if Rle_dec x PRECISION then 0 else q k x.
Proof. intros Hx Hk. destruct (Rle_dec x PRECISION); [lra|apply Hq0; assumption]. Qed.

(** Lipschitz laws away from the empty storage: the crossing is a root, and the level left by the rates
    evaluated at a content close to it is close to it. *)
Section Lipschitz.
Variables (L a c I : R).
Hypothesis HL0 : 0 <= L.
Hypothesis Hc0 : 0 <= c.
Hypothesis HL : forall x y, PRECISION < x -> PRECISION < y -> Rabs (Q x - Q y) <= L * Rabs (x - y).
Let rhs x := start + dt * (I - (a + c * Q x)).
Lemma rhs_lipschitz x y : PRECISION < x -> PRECISION < y -> Rabs (rhs x - rhs y) <= dt * c * L * Rabs (x - y).
Proof.
  intros Hx Hy. unfold rhs.
  replace (start + dt * (I - (a + c * Q x)) - (start + dt * (I - (a + c * Q y)))) with (dt * c * (Q y - Q x)) by ring.
  rewrite Rabs_mult, (Rabs_right (dt * c)) by (apply Rle_ge, Rmult_le_pos; lra).
  replace (dt * c * L * Rabs (x - y)) with (dt * c * (L * Rabs (x - y))) by ring. apply Rmult_le_compat_l; [apply Rmult_le_pos; lra|].
  rewrite (Rabs_minus_sym x y). apply HL; assumption.
Qed.
Lemma crossing_root S : PRECISION < S -> crosses (fun x => x) rhs S -> S = rhs S.
Proof.
  intros Hp (H0 & H1 & H2). pose proof PRECISION_pos as HP.
  set (M := 1 + dt * c * L). assert (HM : 1 <= M).
  { unfold M. assert (0 <= dt * c * L) by (repeat apply Rmult_le_pos; lra). lra. }
  apply Rle_antisym; apply le_epsilon; intros eps Heps.
  - set (d := Rmin (eps / M) ((S - PRECISION) / 2)).
    assert (HeM : 0 < eps / M) by (apply Rmult_lt_0_compat; [lra|apply Rinv_0_lt_compat; lra]).
    assert (Hd : 0 < d) by (unfold d; apply Rmin_glb_lt; lra).
    assert (Hd1 : d <= eps / M) by apply Rmin_l. assert (Hd2 : d <= (S - PRECISION) / 2) by apply Rmin_r.
    pose proof (H1 (S - d) ltac:(lra) ltac:(lra)) as Hx.
    pose proof (rhs_lipschitz (S - d) S ltac:(lra) Hp) as Hl.
    replace (S - d - S) with (- d) in Hl by ring. rewrite Rabs_Ropp, (Rabs_right d) in Hl by lra.
    pose proof (Rle_abs (rhs (S - d) - rhs S)).
    assert (M * d <= eps). { apply (Rmult_le_compat_l M) in Hd1; [|lra]. replace (M * (eps / M)) with eps in Hd1 by (field; lra). exact Hd1. }
    unfold M in *. lra.
  - set (d := eps / M). assert (HeM : 0 < d) by (unfold d; apply Rmult_lt_0_compat; [lra|apply Rinv_0_lt_compat; lra]).
    pose proof (H2 (S + d) ltac:(lra)) as Hx.
    pose proof (rhs_lipschitz S (S + d) Hp ltac:(lra)) as Hl.
    replace (S - (S + d)) with (- d) in Hl by ring. rewrite Rabs_Ropp, (Rabs_right d) in Hl by lra.
    pose proof (Rle_abs (rhs S - rhs (S + d))).
    assert (M * d = eps) by (unfold d; field; lra). unfold M in *. lra.
Qed.
Lemma level_close S x acc : PRECISION + acc < S -> 0 <= acc -> crosses (fun x => x) rhs S -> Rabs (x - S) <= acc ->
  Rabs (rhs x - S) <= dt * c * L * acc.
Proof.
  intros Hs Hacc HS Hx. assert (Hx' := Hx). apply Rabs_bounds in Hx'.
  pose proof (crossing_root S ltac:(lra) HS) as Er. replace (rhs x - S) with (rhs x - rhs S) by lra.
  eapply Rle_trans; [apply rhs_lipschitz; lra|].
  apply Rmult_le_compat_l; [repeat apply Rmult_le_pos; lra|exact Hx].
Qed.
End Lipschitz.

Lemma implicit_step r0 s' r' L S :
  seq_step N dt e ImplicitEuler f s0 r0 = Ok (s', r') -> 0 <= L ->
  (forall x y, PRECISION < x -> PRECISION < y -> Rabs (Q x - Q y) <= L * Rabs (x - y)) ->
  let acc := bisection_accuracy start (inflow s') dt in
  implicit_content Q start (inflow s') dt S -> PRECISION + (1 + dt * L) * acc < S ->
  S = start + dt * (inflow s' - Q S) /\
  Rabs (s_content s' b - S) <= PRECISION + INR (length (outs N b)) * PRECISION * dt + dt * L * acc.
Proof.
  intros H HL0 HL acc HS HSp. destruct (seq_reaches _ _ _ _ _ H) as (HI & s & Hc & Hd & Hr).
  destruct (implicit_accurate Q start (inflow s') dt Q_law Hdt start_nonneg HI) as (S1 & A & B & C).
  assert (E : S1 = S) by (eapply crosses_unique; [exact A|exact HS]). subst S1.
  set (x := implicit_end false Q start (inflow s') dt) in *. fold acc in B.
  assert (Hacc : 0 <= acc). { eapply Rle_trans; [apply Rabs_pos|exact B]. }
  assert (HdL : 0 <= dt * L) by (apply Rmult_le_pos; lra).
  assert (HdLa : 0 <= dt * L * acc) by (apply Rmult_le_pos; lra).
  assert (HSc : crosses (fun x => x) (fun x => start + dt * (inflow s' - (0 + 1 * Q x))) S)
    by (eapply crosses_ext; [|exact HS]; intros y; cbn; ring).
  pose proof PRECISION_pos as HP.
  assert (Hroot := crossing_root L 0 1 (inflow s') HL0 ltac:(lra) HL S ltac:(nra) HSc). cbv beta in Hroot.
  assert (Hlev := level_close L 0 1 (inflow s') HL0 ltac:(lra) HL S x acc ltac:(nra) Hacc HSc B). cbv beta in Hlev.
  set (y := start + dt * (inflow s' - (0 + 1 * Q x))) in Hlev.
  rewrite Rmult_1_r in Hlev. assert (Hlev' := Hlev). apply Rabs_bounds in Hlev'.
  assert (Erates : forall k, In k (outs N b) ->
     brick_rates N ImplicitEuler f s b start (inflow s') dt k = if Rle_dec x PRECISION then 0 else q k x)
    by (intros k Hk; apply implicit_rates; assumption).
  destruct (Hr y) as [R1 R2].
  - intros k Hk. rewrite Erates by exact Hk. apply q_guard_nonneg; [lra|exact Hk].
  - rewrite (Rsum_ext_in _ _ _ Erates), Q_sum. unfold y. ring.
  - nra.
  - split; [rewrite Hroot at 1; ring|].
    replace (s_content s' b - S) with ((s_content s' b - y) + (y - S)) by ring.
    eapply Rle_trans; [apply Rabs_triang|]. lra.
Qed.

Lemma trapezoidal_step r0 s' r' L S :
  seq_step N dt e CrankNicolson f s0 r0 = Ok (s', r') -> 0 <= L ->
  (forall x y, PRECISION < x -> PRECISION < y -> Rabs (Q x - Q y) <= L * Rabs (x - y)) ->
  let acc := bisection_accuracy start (inflow s') dt in
  trapezoidal_content Q start (inflow s') dt S -> PRECISION + (1 + dt * L) * acc < S ->
  S = start + dt * (inflow s' - (Q start + Q S) / 2) /\
  Rabs (s_content s' b - S) <= PRECISION + INR (length (outs N b)) * PRECISION * dt + dt * L * acc.
Proof.
  intros H HL0 HL acc HS HSp. destruct (seq_reaches _ _ _ _ _ H) as (HI & s & Hc & Hd & Hr).
  destruct (trapezoidal_accurate Q start (inflow s') dt Q_law Hdt start_nonneg HI) as (S1 & A & B & C).
  assert (E : S1 = S) by (eapply crosses_unique; [exact A|exact HS]). subst S1.
  set (x := trapezoidal_end false Q (Q start) start (inflow s') dt) in *. fold acc in B.
  assert (Hacc : 0 <= acc). { eapply Rle_trans; [apply Rabs_pos|exact B]. }
  assert (HdL : 0 <= dt * L) by (apply Rmult_le_pos; lra).
  assert (HdLa : 0 <= dt * L * acc) by (apply Rmult_le_pos; lra).
  assert (HSc : crosses (fun x => x) (fun x => start + dt * (inflow s' - (Q start / 2 + / 2 * Q x))) S)
    by (eapply crosses_ext; [|exact HS]; intros y; cbn; field).
  pose proof PRECISION_pos as HP.
  assert (Hroot := crossing_root L (Q start / 2) (/ 2) (inflow s') HL0 ltac:(lra) HL S ltac:(nra) HSc). cbv beta in Hroot.
  assert (Hlev := level_close L (Q start / 2) (/ 2) (inflow s') HL0 ltac:(lra) HL S x acc ltac:(nra) Hacc HSc B). cbv beta in Hlev.
  set (y := start + dt * (inflow s' - (Q start / 2 + / 2 * Q x))) in Hlev.
  replace (dt * / 2 * L * acc) with (dt * L * acc / 2) in Hlev by field.
  assert (Hlev' := Hlev). apply Rabs_bounds in Hlev'.
  assert (Erates : forall k, In k (outs N b) ->
     brick_rates N CrankNicolson f s b start (inflow s') dt k =
     ((if Rle_dec start PRECISION then 0 else q k start) + (if Rle_dec x PRECISION then 0 else q k x)) / 2)
    by (intros k Hk; apply trapezoidal_rates; assumption).
  pose proof start_nonneg as Hst.
  destruct (Hr y) as [R1 R2].
  - intros k Hk. rewrite Erates by exact Hk.
    pose proof (q_guard_nonneg start k Hst Hk). pose proof (q_guard_nonneg x k ltac:(lra) Hk). lra.
  - rewrite (Rsum_ext_in _ _ _ Erates), Rsum_div, Rsum_plus, !Q_sum. unfold y. field.
  - nra.
  - split; [rewrite Hroot at 1; field|].
    replace (s_content s' b - S) with ((s_content s' b - y) + (y - S)) by ring.
    eapply Rle_trans; [apply Rabs_triang|]. lra.
Qed.
End Laws.

(** *** exponential_euler on linear laws *)
Section Exponential.
Variables (c : nat -> R) (f : law).
Hypothesis Hf : forall s k, In k (outs N b) -> k_overflow (conn_at N k) = false -> f s k = c k * content_changes s b.
Hypothesis Hov : forall k, In k (outs N b) -> k_overflow (conn_at N k) = true -> c k = 0.
Hypothesis Hc0 : forall k, In k (outs N b) -> 0 <= c k.
Let K := Rsum c (outs N b).
Hypothesis HK : SLOPE_MIN < K.
Let q k x := c k * x.

Lemma lin_total x : PRECISION < x -> total_outflow q (outs N b) x = K * x.
Proof.
  intros Hx. unfold total_outflow. fold PRECISION. destruct (Rle_dec x PRECISION); [lra|].
  unfold q. rewrite Rsum_scal_r. reflexivity.
Qed.
Lemma lin_total_0 x : x = 0 \/ PRECISION < x -> total_outflow q (outs N b) x = K * x.
Proof.
  intros [->|Hx]; [|apply lin_total, Hx]. unfold total_outflow. fold PRECISION. pose proof PRECISION_pos.
  destruct (Rle_dec 0 PRECISION); lra.
Qed.
Lemma lin_rates s k x : content_changes s b = start -> s_dyn s b = 0 -> In k (outs N b) -> x = 0 \/ PRECISION < x ->
  rates_at N f s b (x - start) k = c k * x.
Proof.
  intros Hc Hd Hk Hx. rewrite (rates_at_law q f) by (try assumption; intros; unfold q; try rewrite Hov by assumption; ring).
  pose proof PRECISION_pos. destruct (Rle_dec x PRECISION); [|reflexivity].
  destruct Hx as [->|Hx]; [ring|lra].
Qed.

Lemma exponential_rates s I k : content_changes s b = start -> s_dyn s b = 0 -> In k (outs N b) -> 0 <= I ->
  start = 0 \/ PRECISION < start ->
  let x := start * exp (- K * dt) + I / K * (1 - exp (- K * dt)) in
  PRECISION < x ->
  brick_rates N ExponentialEuler f s b start I dt k = c k * ((start + I * dt - x) / K / dt).
Proof.
  intros Hc Hd Hk HI Hst x Hx. cbn [brick_rates]. destruct Hb as [_ Han]. rewrite Han.
  pose proof start_nonneg as Hs0. pose proof PRECISION_pos as HP.
  assert (HK0 : 0 < K) by (unfold SLOPE_MIN in HK; lra).
  assert (Htot : forall y, y = 0 \/ PRECISION < y -> total_rate_at N f s b (y - start) = K * y).
  { intros y Hy. rewrite (total_rate_law q f) by (try assumption; intros; unfold q; try rewrite Hov by assumption; ring).
    apply lin_total_0, Hy. }
  set (qq := fun y => total_rate_at N f s b (y - start)).
  assert (Hslope : exponential_slope qq start I dt = K).
  { unfold exponential_slope. set (eps := Rmax _ _).
    assert (Heps : / 1000 <= eps) by apply Rmax_l.
    unfold qq. rewrite (Htot start Hst), (Htot (start + eps)) by (right; unfold PRECISION; lra). field. lra. }
  rewrite Hslope. unfold Rleb. destruct (Rle_dec K SLOPE_MIN); [lra|].
  assert (Hend : exponential_end false qq start I dt = x).
  { unfold exponential_end. rewrite Hslope. unfold qq. rewrite (Htot start Hst).
    replace (start + (I - K * start) / K * (1 - exp (- K * dt))) with x by (unfold x; field; lra).
    apply Rmax_left. lra. }
  rewrite Hend.
  pose proof (reservoir_nonneg start I K dt HK0 ltac:(lra) Hs0 HI) as [Hx0 Hx1]. fold x in Hx0, Hx1.
  rewrite Rmax_left.
  2:{ replace (I - (x - start) / dt) with ((I * dt - (x - start)) / dt) by (field; lra).
      apply Rmult_le_pos; [lra|left; apply Rinv_0_lt_compat, Hdt]. }
  replace (rates_at N f s b 0) with (rates_at N f s b (start - start)) by (f_equal; ring).
  assert (Hw : Rsum (fun k => rates_at N f s b (start - start) k + rates_at N f s b (x - start) k) (outs N b) = K * (start + x)).
  { rewrite (Rsum_ext_in _ (fun k => c k * (start + x))); [apply Rsum_scal_r|].
    intros j Hj. rewrite !lin_rates by auto. ring. }
  rewrite Hw. assert (HKx : 0 < K * (start + x)) by (apply Rmult_lt_0_compat; lra).
  unfold Rltb. destruct (Rlt_dec 0 (K * (start + x))); [|lra].
  rewrite !lin_rates by auto. field. repeat split; lra.
Qed.

Lemma exponential_step r0 s' r' S : seq_step N dt e ExponentialEuler f s0 r0 = Ok (s', r') ->
  start = 0 \/ PRECISION < start ->
  reservoir_solution S start (inflow s') K dt -> PRECISION < S dt ->
  Rabs (s_content s' b - S dt) <= PRECISION + INR (length (outs N b)) * PRECISION * dt /\
  exists mean, 0 <= mean /\ K * mean * dt = start + inflow s' * dt - S dt /\
    forall k, In k (outs N b) -> s_amount s' k = weighted (conn_at N k) (booked (c k * mean) dt).
Proof.
  intros H Hst HS HSp. destruct (seq_reaches _ _ _ _ _ H) as (HI & s & Hc & Hd & Hr).
  assert (HK0 : 0 < K) by (unfold SLOPE_MIN in HK; lra).
  assert (ES := reservoir_formula S start (inflow s') K dt HK0 ltac:(lra) HS).
  set (x := start * exp (- K * dt) + inflow s' / K * (1 - exp (- K * dt))) in ES.
  pose proof (reservoir_nonneg start (inflow s') K dt HK0 ltac:(lra) start_nonneg HI) as [Hx0 Hx1]. fold x in Hx0, Hx1.
  set (mean := (start + inflow s' * dt - x) / K / dt).
  assert (Hmean : 0 <= mean).
  { unfold mean. repeat apply Rmult_le_pos; try (left; apply Rinv_0_lt_compat); lra. }
  rewrite ES in HSp.
  assert (Erates : forall k, In k (outs N b) ->
     brick_rates N ExponentialEuler f s b start (inflow s') dt k = c k * mean)
    by (intros k Hk; apply exponential_rates; assumption).
  destruct (Hr x) as [R1 R2].
  - intros k Hk. rewrite Erates by exact Hk. apply Rmult_le_pos; [apply Hc0, Hk|exact Hmean].
  - rewrite (Rsum_ext_in _ _ _ Erates), Rsum_scal_r. fold K. unfold mean. field. lra.
  - exact Hx0.
  - rewrite ES. split; [exact R2|]. exists mean. split; [exact Hmean|]. split; [unfold mean; field; lra|].
    intros k Hk. rewrite R1, Erates by exact Hk. reflexivity.
Qed.
End Exponential.
End OneStorage.
