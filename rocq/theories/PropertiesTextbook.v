(** Property theorems: what the explicit solvers compute when no limit is met (C57), and how accurate they are (C58). *)
From Verif Require Import Base BaseFacts Container Network NetworkSpec NetworkFacts NetworkTools NetworkWitness TextbookSpec TextbookFacts OrderFacts.

(** *** C57 *)
(** For any number of storages in flow order, any flows that depend on the contents, any inflow: if the rates of every stage
    meet no limit, the step succeeds and its contents are those of the textbook method of that name applied to the
    reservoir equations, starting from the contents plus the instantaneous deposits; each flux reports the mean rate of
    the method times the time step (times its weight). *)
Theorem c57_euler : forall N dt e s q, 0 < dt -> well_formed N -> plain N -> forward N -> sound_caps N ->
  nonneg_external e -> committed s -> (forall b, solid N b -> 0 <= s_content s b) -> reservoir_flows N q ->
  let x0 b := s_content s b + e_inst e b in
  unlimited N dt e x0 (q x0) ->
  exists s', euler_step N dt e (sees_contents q) s = Ok s' /\
    (forall b, (b < length (n_bricks N))%nat -> s_content s' b = reported N b (euler_method (slope N dt e q) dt x0 b)) /\
    (forall k, (k < length (n_conns N))%nat -> reports (conn_at N k) (q x0 k * dt) (s_amount s' k)).
Proof.
  intros N dt e s q H1 H2 H3 H4 H5 H6 H7 H8 H9 x0 H.
  destruct (euler_textbook N dt e s q H1 H2 H3 H4 H5 H6 H7 H8 H9 H) as (s' & A & B & C).
  exists s'. split; [exact A|]. split; [exact B|]. intros k Hk. rewrite C by exact Hk. apply weighted_reports.
Qed.
Print Assumptions c57_euler.

Theorem c57_heun : forall N dt e s q, 0 < dt -> well_formed N -> plain N -> forward N -> sound_caps N ->
  nonneg_external e -> committed s -> (forall b, solid N b -> 0 <= s_content s b) -> reservoir_flows N q ->
  let F := slope N dt e q in
  let x0 b := s_content s b + e_inst e b in
  let mean k := (q x0 k + q (euler_method F dt x0) k) / 2 in
  unlimited N dt e x0 (q x0) -> unlimited N dt e x0 mean ->
  exists s', heun_step N dt e (sees_contents q) (sees_contents q) s = Ok s' /\
    (forall b, (b < length (n_bricks N))%nat -> s_content s' b = reported N b (heun_method F dt x0 b)) /\
    (forall k, (k < length (n_conns N))%nat -> reports (conn_at N k) (mean k * dt) (s_amount s' k)).
Proof.
  intros N dt e s q H1 H2 H3 H4 H5 H6 H7 H8 H9 F x0 mean Ha Hb.
  destruct (heun_textbook N dt e s q H1 H2 H3 H4 H5 H6 H7 H8 H9 Ha Hb) as (s' & A & B & C).
  exists s'. split; [exact A|]. split; [exact B|]. intros k Hk. rewrite C by exact Hk. apply weighted_reports.
Qed.
Print Assumptions c57_heun.

Theorem c57_rk4 : forall N dt e s q, 0 < dt -> well_formed N -> plain N -> forward N -> sound_caps N ->
  nonneg_external e -> committed s -> (forall b, solid N b -> 0 <= s_content s b) -> reservoir_flows N q ->
  let F := slope N dt e q in
  let x0 b := s_content s b + e_inst e b in
  let mean k := (q x0 k + 2 * q (rk4_k2 F dt x0) k + 2 * q (rk4_k3 F dt x0) k + q (rk4_k4 F dt x0) k) / 6 in
  unlimited N dt e x0 (q x0) -> unlimited N dt e x0 (q (rk4_k2 F dt x0)) -> unlimited N dt e x0 (q (rk4_k3 F dt x0)) ->
  unlimited N dt e x0 mean ->
  exists s', rk4_step N dt e (sees_contents q) (sees_contents q) (sees_contents q) (sees_contents q) s = Ok s' /\
    (forall b, (b < length (n_bricks N))%nat -> s_content s' b = reported N b (rk4_method F dt x0 b)) /\
    (forall k, (k < length (n_conns N))%nat -> reports (conn_at N k) (mean k * dt) (s_amount s' k)).
Proof.
  intros N dt e s q H1 H2 H3 H4 H5 H6 H7 H8 H9 F x0 mean Ha Hb Hc Hd.
  destruct (rk4_textbook N dt e s q H1 H2 H3 H4 H5 H6 H7 H8 H9 Ha Hb Hc Hd) as (s' & A & B & C).
  exists s'. split; [exact A|]. split; [exact B|]. intros k Hk. rewrite C by exact Hk. apply weighted_reports.
Qed.
Print Assumptions c57_rk4.

(** Two storages (the first with a capacity and an overflow), 7 mm of inflow, linear flows: the hypotheses hold. *)
Definition free_net : net := mkNet [mkBrick (Some 100) false; mkBrick None false]
  [mkConn 0 (ToStore 1) Regular 1 false; mkConn 0 ToOutlet Regular 1 true; mkConn 1 ToOutlet Regular (/ 2) false].
Definition free_flows : flows := fun x k =>
  match k with
  | 0%nat => if Rle_dec (x 0%nat) PRECISION then 0 else x 0%nat / 10
  | 2%nat => if Rle_dec (x 1%nat) PRECISION then 0 else x 1%nat / 5
  | _ => 0
  end.
Definition free_state : state := mkState (vec [50;20]) (vec []) (vec []) (vec []).
Lemma free_mid (r : nat -> R) : 1 <= r 0%nat <= 10 -> r 1%nat = 0 -> 1 <= r 2%nat <= 10 ->
  unlimited free_net 1 demo_ext (fun b => s_content free_state b + e_inst demo_ext b) r.
Proof.
  intros H0 H1 H2. split.
  - intros k Hk. cbn in Hk. destruct k as [|[|[|k]]]; [right|left; auto|right|lia]; unfold PRECISION; lra.
  - intros b Hb. cbn in Hb. destruct b as [|[|b]]; [| |lia]; unfold received, withdrawn, vec; cbn; split; try (right; lra); intros c E; inversion E; lra.
Qed.
Example c57_case :
  let q := free_flows in let F := slope free_net 1 demo_ext q in
  let x0 b := s_content free_state b + e_inst demo_ext b in
  well_formed free_net /\ plain free_net /\ forward free_net /\ sound_caps free_net /\ committed free_state /\
  reservoir_flows free_net q /\
  unlimited free_net 1 demo_ext x0 (q x0) /\
  unlimited free_net 1 demo_ext x0 (fun k => (q x0 k + q (euler_method F 1 x0) k) / 2) /\
  unlimited free_net 1 demo_ext x0 (q (rk4_k2 F 1 x0)) /\ unlimited free_net 1 demo_ext x0 (q (rk4_k3 F 1 x0)) /\
  unlimited free_net 1 demo_ext x0 (fun k => (q x0 k + 2 * q (rk4_k2 F 1 x0) k + 2 * q (rk4_k3 F 1 x0) k + q (rk4_k4 F 1 x0) k) / 6).
Proof.
  intros q F x0.
  assert (Hq : forall x, 20 <= x 0%nat <= 80 -> 10 <= x 1%nat <= 40 ->
    (q x 0%nat = x 0%nat / 10 /\ q x 1%nat = 0 /\ q x 2%nat = x 1%nat / 5) /\
    F x 0%nat = 7 - x 0%nat / 10 /\ F x 1%nat = x 0%nat / 10 - x 1%nat / 5).
  { intros x A B. assert (E : q x 0%nat = x 0%nat / 10 /\ q x 1%nat = 0 /\ q x 2%nat = x 1%nat / 5).
    { unfold q, free_flows. unfold PRECISION. destruct (Rle_dec _ _); [lra|]. destruct (Rle_dec _ _); [lra|]. auto. }
    split; [exact E|]. destruct E as (E0 & E1 & E2). unfold F, slope, balance_of, received, withdrawn, vec. cbn -[q].
    rewrite E0, E1, E2. split; lra. }
  assert (X0 : x0 0%nat = 50 /\ x0 1%nat = 20) by (unfold x0, vec; cbn; split; lra). destruct X0 as [X00 X01].
  destruct (Hq x0) as ((A0 & A1 & A2) & A3 & A4); [lra|lra|].
  set (xe := euler_method F 1 x0). assert (E0 : xe 0%nat = 52) by (unfold xe, euler_method; lra).
  assert (E1 : xe 1%nat = 21) by (unfold xe, euler_method; lra).
  destruct (Hq xe) as ((B0 & B1 & B2) & _); [lra|lra|].
  set (xa := rk4_k2 F 1 x0). assert (Xa0 : xa 0%nat = 51) by (unfold xa, rk4_k2; lra).
  assert (Xa1 : xa 1%nat = 20 + / 2) by (unfold xa, rk4_k2; lra).
  destruct (Hq xa) as ((C0 & C1 & C2) & C3 & C4); [lra|lra|].
  set (xb := rk4_k3 F 1 x0). assert (Xb0 : 50 <= xb 0%nat <= 52) by (unfold xb, rk4_k3; fold xa; lra).
  assert (Xb1 : 20 <= xb 1%nat <= 21) by (unfold xb, rk4_k3; fold xa; lra).
  destruct (Hq xb) as ((D0 & D1 & D2) & D3 & D4); [lra|lra|].
  set (xc := rk4_k4 F 1 x0). assert (Xc0 : 50 <= xc 0%nat <= 54) by (unfold xc, rk4_k4; fold xb; lra).
  assert (Xc1 : 18 <= xc 1%nat <= 24) by (unfold xc, rk4_k4; fold xb; lra).
  destruct (Hq xc) as ((G0 & G1 & G2) & _); [lra|lra|].
  repeat apply conj.
  - well_formed_tac.
  - intros c b H E; cbn in H. repeat (destruct H as [<-|H]; [cbn in *; try discriminate; split; reflexivity|]). destruct H.
  - intros c b H E; cbn in H. repeat (destruct H as [<-|H]; [cbn in *; try discriminate; injection E as <-; lia|]). destruct H.
  - intros b c H E; cbn in H. repeat (destruct H as [<-|H]; [cbn in E; try discriminate; injection E as <-; lra|]). destruct H.
  - intros b; cbn; unfold vec; destruct b; auto.
  - split.
    + intros x y k H _. unfold q, free_flows. rewrite (H 0%nat), (H 1%nat) by (cbn; lia). reflexivity.
    + intros x k Hk H. cbn in Hk. destruct k as [|[|[|k]]]; cbn in H; unfold q, free_flows; try reflexivity; destruct (Rle_dec _ _); lra.
    + intros x k Hk H. cbn in Hk. destruct k as [|[|[|k]]]; try discriminate; reflexivity.
  - apply free_mid; lra.
  - apply free_mid; cbv beta; lra.
  - apply free_mid; lra.
  - apply free_mid; lra.
  - apply free_mid; cbv beta; lra.
Qed.

(** *** C58 *)
(** A linear reservoir (release coefficient [a]): as long as its content and its outflow stay above the 1e-8 thresholds and
    the outflow under the limit of 10000 mm/d, [n] steps of the method multiply the content by the n-th power of its
    polynomial, and the result differs from the exact solution by at most [n] times the first omitted term: Euler is of
    order 1, Heun of order 2, RK4 of order 4. *)
Theorem c58_order : forall m a dt n x s, 0 < a -> 0 < dt -> a * dt <= / 2 -> committed s -> s_content s 0%nat = x -> 0 < x ->
  let p := exp_poly (order m) (a * dt) in
  2 * PRECISION < x * p ^ n -> 2 * PRECISION < a * (x * p ^ n) -> a * x <= 10000 ->
  exists s', many_steps n m reservoir dt nothing_enters (sees_contents (linear_outflow a)) s = Ok s' /\
    s_content s' 0%nat = x * p ^ n /\
    Rabs (s_content s' 0%nat - x * exp (- (a * (INR n * dt)))) <=
      x * (INR n * ((a * dt) ^ S (order m) / INR (fact (S (order m))))).
Proof.
  intros m a dt n x s Ha Hdt Hz Hs Hx Hpos p H1 H2 H3.
  assert (G1 : PRECISION < x * p ^ n / 2) by lra.
  assert (G2 : PRECISION < a * (x * p ^ n / 2)) by (unfold Rdiv; rewrite <- Rmult_assoc; lra).
  destruct (steps_linear a dt m Ha Hdt Hz n x s Hs Hx G1 G2 H3 Hpos) as (s' & A & _ & C).
  exists s'. split; [exact A|]. split; [exact C|].
  exact (order_linear a dt m n x s s' Ha Hdt Hz Hs Hx G1 G2 H3 Hpos A).
Qed.
Print Assumptions c58_order.

(** 100 mm, coefficient 0.3 per day, ten daily steps of RK4: the error is below 0.03 mm. *)
Example c58_case : let p := exp_poly (order RungeKutta4) ((3 / 10) * 1) in
  committed (mkState (vec [100]) (vec []) (vec []) (vec [])) /\ 2 * PRECISION < 100 * p ^ 10 /\ 2 * PRECISION < 3 / 10 * (100 * p ^ 10) /\
  100 * (INR 10 * (((3 / 10) * 1) ^ 5 / INR (fact 5))) < 3 / 100.
Proof.
  intros p. assert (Hp : 7 / 10 <= p <= 1) by (unfold p, exp_poly; cbn; lra).
  assert (Hp10 : (7 / 10) ^ 10 <= p ^ 10) by (apply pow_incr; lra).
  assert (H7 : / 100 <= (7 / 10) ^ 10) by lra.
  split; [intros b; cbn; unfold vec; destruct b; auto|]. unfold PRECISION. split; [lra|]. split; [lra|].
  replace (INR 10) with 10 by (cbn; lra). replace (INR (fact 5)) with 120 by (cbn; lra). lra.
Qed.
