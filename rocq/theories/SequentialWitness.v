(** Concrete cases for the sequential solvers. *)
From Coq Require Import String.
From Verif Require Import NetworkTools ContainerFacts Sequential SequentialSpec SequentialFacts SchemeFacts
  SequentialProofs SolverNames.

Lemma constrain_ok N dt e s b r : b_cap (brick_at N b) = None ->
  (forall k, In k (outs N b) -> r k <= 10000) -> exists r', constrain_brick N dt e s b r = Ok r'.
Proof.
  intros Hc Hr. unfold constrain_brick, apply_constraints. rewrite Hc.
  assert (E : outgoing_too_high r (outs N b) = false).
  { unfold outgoing_too_high. destruct (existsb _ _) eqn:Ex; [|reflexivity].
    apply existsb_exists in Ex. destruct Ex as (k & Hk & Hk'). apply Rltb_true in Hk'.
    specialize (Hr k Hk). lra. }
  rewrite E. eexists. reflexivity.
Qed.

(** One reservoir with two outlets. *)
Definition one_net : net := mkNet [mkBrick None false]
  [mkConn 0 ToOutlet Regular 1 false; mkConn 0 ToAtmosphere Regular 1 false].
Definition one_state (x : R) : state := mkState (vec [x]) (fun _ => 0) (fun _ => 0) (fun _ => 0).
Definition one_ext (seen hidden : R) : external := mkExt (vec [seen]) (vec [hidden]) (fun _ => 0).
Definition one_lin : nat -> option R := fun k => match k with O => Some (/ 4) | _ => Some (/ 4) end.
Definition one_law : law := fun s _ => / 4 * content_changes s 0.

Lemma one_wf : well_formed one_net.
Proof. well_formed_tac. Qed.
Lemma one_plain : plain one_net.
Proof. intros c b Hc E; cbn in Hc. destruct Hc as [<-|[<-|[]]]; discriminate. Qed.
Lemma one_forward : forward one_net.
Proof. intros c b Hc E; cbn in Hc. destruct Hc as [<-|[<-|[]]]; discriminate. Qed.
Lemma one_caps : sound_caps one_net.
Proof. intros b c Hb E; cbn in Hb. destruct Hb as [<-|[]]. discriminate. Qed.
Lemma one_ext_ok a h : 0 <= a -> 0 <= h -> nonneg_external (one_ext a h).
Proof.
  intros Ha Hh b. cbn [one_ext e_seen e_hidden e_inst]. unfold vec.
  destruct b as [|[|b]]; cbn; repeat split; lra.
Qed.
Lemma one_committed x : committed (one_state x).
Proof. intros b; split; reflexivity. Qed.
Lemma one_pos x : 0 <= x -> forall b, solid one_net b -> 0 <= s_content (one_state x) b.
Proof. intros Hx b [Hb _]. cbn in Hb. destruct b; [exact Hx|lia]. Qed.
Lemma one_solid : solid one_net 0.
Proof. split; cbn; [lia|reflexivity]. Qed.

Lemma one_step sch f x a h : (forall s k, content_changes s 0 = x + 0 -> s_dyn s 0%nat = 0 -> In k (outs one_net 0) ->
     brick_rates one_net sch f s 0 (x + 0) ((a + h + 0) / 1) 1 k <= 10000) ->
  exists s' r', seq_step one_net 1 (one_ext a h) sch f (one_state x) (fun _ => 0) = Ok (s', r').
Proof.
  intros Hr. unfold seq_step. set (s := deposit (one_ext a h) (one_state x)).
  assert (Ec : content_changes s 0 = x + 0).
  { unfold s, content_changes; cbn. unfold vec; cbn. lra. }
  assert (Ei : sum_incoming one_net (one_ext a h) s 0 = a + h + 0) by (unfold sum_incoming; cbn; unfold vec; reflexivity).
  cbn [brick_ids one_net n_bricks length seq seq_bricks bind seq_brick]. fold one_net.
  rewrite Ec, Ei.
  set (r1 := fun k => if mem k _ then _ else _).
  destruct (constrain_ok one_net 1 (one_ext a h) s 0 r1) as [r2 E]; [reflexivity| |].
  - intros k Hk. unfold r1. rewrite (proj2 (mem_in k _) Hk). apply Hr; [exact Ec|reflexivity|exact Hk].
  - rewrite E. cbn [bind fst snd]. eexists. eexists. reflexivity.
Qed.

Lemma one_total : Rsum (coef one_lin) (outs one_net 0) = / 2.
Proof. cbn. unfold coef; cbn. lra. Qed.

Lemma one_analytic_runs : exists s' r',
  seq_step one_net 1 (one_ext 6 0) (Analytic one_lin) one_law (one_state 10) (fun _ => 0) = Ok (s', r').
Proof.
  apply one_step. intros s k _ _ _. cbn [brick_rates]. unfold analytic_rates. rewrite one_total.
  assert (Hl : exists c, one_lin k = Some c /\ c = / 4) by (destruct k; eexists; split; reflexivity).
  destruct Hl as (c & El & ->). rewrite El. rewrite (proj2 (Rleb_false (/ 2) 0)) by lra.
  replace (Rsum (evaluate one_net one_law s) (filter (fun k => negb (is_linear one_lin k)) (outs one_net 0))) with 0
    by reflexivity.
  pose proof (exp_le_1 (/ 2 * 1) ltac:(lra)) as He. replace (- (/ 2 * 1)) with (- / 2 * 1) in He by ring.
  set (d := exp (- / 2 * 1)) in *.
  match goal with |- Rmax ?z 0 * _ / _ <= _ => assert (Hz : Rmax z 0 <= 100) by (apply Rmax_lub; lra) end.
  lra.
Qed.

(** Inflow from a directly computed cover through a plain connection. *)
Definition hidden_lin : nat -> option R := fun k => match k with O => Some 1 | _ => None end.
Definition hidden_net : net := mkNet [mkBrick None false] [mkConn 0 ToOutlet Regular 1 false].
Definition hidden_exact : R -> R := fun t => 0 * exp (- (1) * t) + 10 / 1 * (1 - exp (- (1) * t)).
Lemma hidden_exact_small : hidden_exact 1 <= 7.
Proof.
  unfold hidden_exact. assert (H3 := exp_le_3). assert (Hp := exp_pos (- (1) * 1)).
  assert (E : exp (- (1) * 1) * exp 1 = 1).
  { rewrite <- exp_plus. replace (- (1) * 1 + 1) with 0 by ring. apply exp_0. }
  assert (/ 3 <= exp (- (1) * 1)) by nra. lra.
Qed.
Lemma hidden_runs : exists s' r',
  seq_step hidden_net 1 (one_ext 0 10) (Analytic hidden_lin) (fun _ _ => 0) (one_state 0) (fun _ => 0) = Ok (s', r')
  /\ s_content s' 0%nat = 10.
Proof.
  unfold seq_step. set (s := deposit (one_ext 0 10) (one_state 0)).
  cbn [brick_ids hidden_net n_bricks length seq seq_bricks bind seq_brick]. fold hidden_net.
  set (r1 := fun k => if mem k _ then _ else _).
  assert (Hr1 : / 3 <= r1 0%nat <= 10).
  { unfold r1. cbn [brick_rates]. change (mem 0 (outs hidden_net 0)) with true. cbv iota.
    unfold analytic_rates.
    assert (Ek : Rsum (coef hidden_lin) (outs hidden_net 0) = 1) by (cbn; unfold coef; cbn; lra).
    rewrite Ek. cbn [hidden_lin]. rewrite (proj2 (Rleb_false 1 0)) by lra.
    replace (Rsum _ (filter _ _)) with 0 by reflexivity.
    assert (Ec : content_changes s 0 = 0) by (unfold s, content_changes; cbn; unfold vec; cbn; lra).
    assert (Ei : sum_incoming hidden_net (one_ext 0 10) s 0 = 10) by (unfold sum_incoming; cbn; unfold vec; cbn; lra).
    rewrite Ec, Ei. pose proof hidden_exact_small as Hh. unfold hidden_exact in Hh.
    assert (Hp := exp_pos (- (1) * 1)). pose proof (one_minus_exp 1) as H1.
    pose proof (exp_le_1 1 ltac:(lra)) as He. replace (- (1)) with (- (1) * 1) in He at 1 2 by ring.
    match goal with |- _ <= Rmax ?z 0 * _ / _ <= _ => set (zz := z) end.
    assert (Hz : / 3 <= zz <= 10) by (unfold zz; lra).
    rewrite Rmax_left by lra. lra. }
  assert (Hc : constrain_brick hidden_net 1 (one_ext 0 10) s 0 r1 = Ok (fun k => match k with O => 0 | _ => r1 k end)).
  { clearbody r1. unfold constrain_brick, apply_constraints; rcbn. unfold clamp_rates, inputs_static; rcbn. unfold vec; rcbn. rtests.
    f_equal. unfold limit_outgoing, NearlyZero, NearlyEqual. extensionality k. destruct k; rcbn; rtests; [|reflexivity].
    reflexivity. }
  rewrite Hc. cbn [bind fst snd]. eexists. eexists. split; [reflexivity|].
  cbn [finalize_step s_content]. clear Hc Hr1. clearbody r1. unfold apply_brick. cbn. unfold upd, vec; cbn.
  unfold finalize_value, NearlyZero, LessThan. unfold apply_change. rcbn. unfold GreaterThan. rtests. rcbn. unfold upd; rcbn.
  unfold sum_incoming; rcbn; unfold vec; rcbn. rtests. lra.
Qed.

(** The laws of [one_law], per connection. *)
Definition one_q : nat -> R -> R := fun _ x => / 4 * x.
Lemma one_q_nonneg k x : In k (outs one_net 0) -> 0 <= x -> 0 <= one_q k x.
Proof. intros _ Hx. unfold one_q. lra. Qed.
Lemma one_q_mono k x y : In k (outs one_net 0) -> 0 <= x <= y -> one_q k x <= one_q k y.
Proof. intros _ Hx. unfold one_q. lra. Qed.
Lemma one_q_over k x : In k (outs one_net 0) -> k_overflow (conn_at one_net k) = true -> one_q k x = 0.
Proof. cbn. intros [<-|[<-|[]]]; discriminate. Qed.
Lemma one_q_law s k : In k (outs one_net 0) -> k_overflow (conn_at one_net k) = false ->
  one_law s k = one_q k (content_changes s 0).
Proof. reflexivity. Qed.
Lemma one_Q x : PRECISION < x -> total_outflow one_q (outs one_net 0) x = / 2 * x.
Proof.
  intros Hx. unfold total_outflow. fold PRECISION. destruct (Rle_dec x PRECISION); [lra|].
  cbn. unfold one_q. lra.
Qed.
Lemma one_Q_lip x y : PRECISION < x -> PRECISION < y ->
  Rabs (total_outflow one_q (outs one_net 0) x - total_outflow one_q (outs one_net 0) y) <= / 2 * Rabs (x - y).
Proof.
  intros Hx Hy. rewrite !one_Q by assumption. replace (/ 2 * x - / 2 * y) with (/ 2 * (x - y)) by ring.
  rewrite Rabs_mult, (Rabs_right (/ 2)) by lra. lra.
Qed.
Lemma one_Q_outflow : outflow_law (total_outflow one_q (outs one_net 0)).
Proof. apply Q_law; [exact one_q_nonneg|exact one_q_mono]. Qed.

Lemma one_acc : bisection_accuracy 10 6 1 <= 1 / 2.
Proof.
  unfold bisection_accuracy. enough (Rmax (/ 1000000000000) ((10 + 1 * 6) / 2 ^ 100) <= 1) by lra.
  apply Rmax_lub; [lra|]. assert (H := Rle_pow 2 4 100 ltac:(lra) ltac:(lia)).
  assert (H16 : 16 <= 2 ^ 100) by (eapply Rle_trans; [|exact H]; lra).
  apply (Rmult_le_reg_r (2 ^ 100)); [lra|]. unfold Rdiv. rewrite Rmult_assoc, Rinv_l by lra. lra.
Qed.
Lemma one_implicit_content : implicit_content (total_outflow one_q (outs one_net 0)) 10 6 1 (32 / 3).
Proof.
  apply root_crosses; [lra| |].
  - rewrite one_Q by num. lra.
  - intros x y Hxy. destruct one_Q_outflow as (_ & Hm & _). pose proof (Hm x y Hxy). lra.
Qed.
Lemma one_implicit_runs : exists s' r',
  seq_step one_net 1 (one_ext 6 0) ImplicitEuler one_law (one_state 10) (fun _ => 0) = Ok (s', r').
Proof.
  apply one_step. intros s k Hc Hd Hk.
  rewrite (implicit_rates one_net 1 (one_ext 6 0) (one_state 10) 0 one_solid one_q one_law one_q_law one_q_over s _ k Hc Hd Hk).
  destruct (implicit_accurate _ (10 + 0) ((6 + 0 + 0) / 1) 1 one_Q_outflow ltac:(lra) ltac:(lra) ltac:(lra))
    as (S & _ & _ & HX).
  cbn [one_state one_ext s_content e_inst]. unfold vec; cbn [nth].
  set (x := implicit_end _ _ _ _ _) in *. destruct (Rle_dec x PRECISION); unfold one_q; lra.
Qed.

Lemma one_exponential_runs : exists s' r',
  seq_step one_net 1 (one_ext 6 0) ExponentialEuler one_law (one_state 10) (fun _ => 0) = Ok (s', r').
Proof.
  apply one_step. intros s k Hc Hd Hk.
  pose proof (exp_le_1 (/ 2 * 1) ltac:(lra)) as He. replace (- (/ 2 * 1)) with (- / 2 * 1) in He by ring.
  assert (EK : Rsum (fun _ : nat => / 4) (outs one_net 0) = / 2) by (cbn; lra).
  change (10 + 0) with (s_content (one_state 10) 0%nat + e_inst (one_ext 6 0) 0%nat).
  rewrite (exponential_rates one_net 1 (one_ext 6 0) Rlt_0_1 (one_ext_ok 6 0 ltac:(lra) ltac:(lra)) (one_state 10)
    (one_pos 10 ltac:(lra)) 0 one_solid (fun _ => / 4) one_law).
  - rewrite EK. cbn [one_state one_ext s_content e_inst]. unfold vec; cbn [nth]. lra.
  - reflexivity.
  - cbn. intros j [<-|[<-|[]]]; discriminate.
  - rewrite EK. unfold SLOPE_MIN. lra.
  - exact Hc.
  - exact Hd.
  - exact Hk.
  - lra.
  - right. cbn. unfold vec; cbn. num.
  - rewrite EK. cbn [one_state one_ext s_content e_inst]. unfold vec; cbn [nth]. unfold PRECISION. lra.
Qed.
