(** Order of the explicit solvers on a linear reservoir: proofs. *)
From Coq Require Import Ranalysis1 MVT Rpower Rtrigo_def.
From Verif Require Import Base BaseFacts Container Network NetworkSpec NetworkFacts TextbookSpec TextbookFacts.

(** ** The polynomial approximates the exponential *)
Lemma exp_poly_S n z : exp_poly (S n) z = exp_poly n z + (- z) ^ S n / INR (fact (S n)).
Proof. unfold exp_poly. rewrite seq_S, Rsum_app. cbn [Rsum plus]. lra. Qed.
Lemma exp_poly_0 n : exp_poly n 0 = 1.
Proof.
  induction n as [|n IH]; [unfold exp_poly; cbn; lra|]. rewrite exp_poly_S, IH. rewrite Ropp_0, pow_ne_zero by lia. lra.
Qed.
Lemma term_deriv n z : derivable_pt_lim (fun z => (- z) ^ S n / INR (fact (S n))) z (- ((- z) ^ n / INR (fact n))).
Proof.
  pose proof (INR_fact_lt_0 n) as Hf. pose proof (lt_0_INR (S n) ltac:(lia)) as Hn.
  replace (- ((- z) ^ n / INR (fact n))) with ((INR (S n) * (- z) ^ pred (S n) * - 1) * / INR (fact (S n))).
  - assert (H : derivable_pt_lim (fun y => (- y) ^ S n) z (INR (S n) * (- z) ^ pred (S n) * - 1)).
    { apply (derivable_pt_lim_comp (fun y => - y) (fun y => y ^ S n)); [|apply derivable_pt_lim_pow].
      replace (-1) with (- 1) by lra. apply (derivable_pt_lim_opp (fun y => y)), derivable_pt_lim_id. }
    pose proof (derivable_pt_lim_scal _ (/ INR (fact (S n))) z _ H) as G.
    rewrite Rmult_comm. unfold mult_real_fct in G.
    assert (E : forall y, (- y) ^ S n / INR (fact (S n)) = / INR (fact (S n)) * (- y) ^ S n) by (intros; unfold Rdiv; lra).
    intros eps He. destruct (G eps He) as (d & Hd). exists d. intros h Hh Hl. rewrite !E. apply Hd; auto.
  - rewrite fact_simpl, mult_INR. cbn [pred]. field. split; apply Rgt_not_eq; lra.
Qed.
Lemma exp_poly_deriv n z : derivable_pt_lim (exp_poly (S n)) z (- exp_poly n z).
Proof.
  revert z. induction n as [|n IH]; intros z.
  - assert (E : forall y, exp_poly 1 y = 1 + (- y) ^ 1 / INR (fact 1)) by (intros; unfold exp_poly; cbn; lra).
    pose proof (derivable_pt_lim_plus (fun _ => 1) (fun y => (- y) ^ 1 / INR (fact 1)) z _ _ (derivable_pt_lim_const 1 z) (term_deriv 0 z)) as G.
    replace (- exp_poly 0 z) with (0 + - ((- z) ^ 0 / INR (fact 0))) by (unfold exp_poly; cbn; lra).
    intros eps He. destruct (G eps He) as (d & Hd). exists d. intros h Hh Hl. rewrite !E. apply Hd; auto.
  - pose proof (derivable_pt_lim_plus _ _ z _ _ (IH z) (term_deriv (S n) z)) as G.
    rewrite exp_poly_S, Ropp_plus_distr.
    intros eps He. destruct (G eps He) as (d & Hd). exists d. intros h Hh Hl. rewrite !(exp_poly_S (S n)). apply Hd; auto.
Qed.
Lemma exp_opp_deriv z : derivable_pt_lim (fun z => exp (- z)) z (- exp (- z)).
Proof.
  replace (- exp (- z)) with (exp (- z) * - 1) by lra.
  apply (derivable_pt_lim_comp (fun z => - z) exp); [|apply derivable_pt_lim_exp].
  replace (-1) with (- 1) by lra. apply (derivable_pt_lim_opp (fun y => y)), derivable_pt_lim_id.
Qed.
Lemma remainder_sign n z : 0 <= z -> 0 <= (-1) ^ S n * (exp (- z) - exp_poly n z).
Proof.
  revert z. induction n as [|n IH]; intros z Hz.
  - unfold exp_poly; cbn. assert (exp (- z) <= 1); [|lra].
    destruct Hz as [Hz|<-]; [left; rewrite <- exp_0; apply exp_increasing; lra|rewrite Ropp_0, exp_0; lra].
  - destruct Hz as [Hz|<-]; [|rewrite Ropp_0, exp_0, exp_poly_0; lra].
    set (g := fun y => exp (- y) - exp_poly (S n) y).
    assert (Hg : forall y, derivable_pt_lim g y (- exp (- y) - - exp_poly n y))
      by (intros y; apply derivable_pt_lim_minus; [apply exp_opp_deriv|apply exp_poly_deriv]).
    destruct (MVT_cor2 g _ 0 z Hz (fun c _ => Hg c)) as (c & Hc & Hc1 & Hc2).
    assert (E0 : g 0 = 0) by (unfold g; rewrite Ropp_0, exp_0, exp_poly_0; lra).
    assert (Eg : g z = - (exp (- c) - exp_poly n c) * z) by lra.
    fold (g z). rewrite Eg.
    replace ((-1) ^ S (S n) * (- (exp (- c) - exp_poly n c) * z)) with ((-1) ^ S n * (exp (- c) - exp_poly n c) * z).
    + apply Rmult_le_pos; [apply IH|]; lra.
    + rewrite <- (tech_pow_Rmult (-1) (S n)). ring.
Qed.
Lemma exp_poly_close n z : 0 <= z -> Rabs (exp_poly n z - exp (- z)) <= z ^ S n / INR (fact (S n)).
Proof.
  intros Hz. pose proof (remainder_sign n z Hz) as A. pose proof (remainder_sign (S n) z Hz) as B.
  rewrite exp_poly_S in B. rewrite <- tech_pow_Rmult in B.
  assert (Ez : (-1) ^ S n * (- z) ^ S n = z ^ S n).
  { rewrite <- Rpow_mult_distr. f_equal. lra. }
  assert (C : (-1) ^ S n * (exp (- z) - exp_poly n z) <= z ^ S n / INR (fact (S n))).
  { assert (-1 * (-1) ^ S n * (exp (- z) - (exp_poly n z + (- z) ^ S n / INR (fact (S n))))
      = - ((-1) ^ S n * (exp (- z) - exp_poly n z)) + ((-1) ^ S n * (- z) ^ S n) / INR (fact (S n))) by (unfold Rdiv; ring).
    rewrite H, Ez in B. lra. }
  rewrite Rabs_minus_sym. destruct (Rle_dec 0 (exp (- z) - exp_poly n z)) as [Hp|Hp].
  - rewrite Rabs_right by lra. assert ((-1) ^ S n = 1 \/ (-1) ^ S n = -1) as [E|E] by
      (clear; induction (S n) as [|m [IH|IH]]; cbn; [left|right|left]; lra); rewrite E in *; [lra|].
    assert (exp (- z) - exp_poly n z = 0) as -> by lra.
    pose proof (INR_fact_lt_0 (S n)). apply Rmult_le_pos; [apply pow_le; lra|left; apply Rinv_0_lt_compat; lra].
  - rewrite Rabs_left by lra. assert ((-1) ^ S n = 1 \/ (-1) ^ S n = -1) as [E|E] by
      (clear; induction (S n) as [|m [IH|IH]]; cbn; [left|right|left]; lra); rewrite E in *; lra.
Qed.

(** ** Powers of two numbers in [0,1] *)
Lemma pow_close n x y d : 0 <= x <= 1 -> 0 <= y <= 1 -> Rabs (x - y) <= d -> Rabs (x ^ n - y ^ n) <= INR n * d.
Proof.
  intros Hx Hy Hd. induction n as [|n IH]; [cbn; replace (1 - 1) with 0 by lra; rewrite Rabs_R0; lra|].
  rewrite S_INR, <- !tech_pow_Rmult.
  replace (x * x ^ n - y * y ^ n) with (x * (x ^ n - y ^ n) + (x - y) * y ^ n) by ring.
  eapply Rle_trans; [apply Rabs_triang|]. rewrite !Rabs_mult.
  assert (0 <= y ^ n <= 1) by (split; [apply pow_le; lra|rewrite <- (pow1 n); apply pow_incr; lra]).
  rewrite (Rabs_right x), (Rabs_right (y ^ n)) by lra.
  pose proof (Rabs_pos (x ^ n - y ^ n)). pose proof (Rabs_pos (x - y)).
  assert (x * Rabs (x ^ n - y ^ n) <= 1 * Rabs (x ^ n - y ^ n)) by (apply Rmult_le_compat_r; lra).
  assert (Rabs (x - y) * y ^ n <= Rabs (x - y) * 1) by (apply Rmult_le_compat_l; lra). lra.
Qed.

(** ** The reservoir *)
Lemma reservoir_flows_linear a : reservoir_flows reservoir (linear_outflow a).
Proof.
  split.
  - intros x y k H _. unfold linear_outflow. rewrite (H 0%nat) by (cbn; lia). reflexivity.
  - intros x k Hk H. cbn in Hk. assert (k = 0%nat) by lia. subst k. cbn in H. unfold linear_outflow. destruct (Rle_dec _ _); lra.
  - intros x k Hk H. cbn in Hk. assert (k = 0%nat) by lia. subst k. discriminate.
Qed.
Lemma reservoir_wf : well_formed reservoir.
Proof. intros c [<-|[]]. cbn. split; [lia|discriminate]. Qed.
Lemma reservoir_plain : plain reservoir. Proof. intros c b [<-|[]]; discriminate. Qed.
Lemma reservoir_forward : forward reservoir. Proof. intros c b [<-|[]]; discriminate. Qed.
Lemma reservoir_caps : sound_caps reservoir. Proof. intros b c [<-|[]]; discriminate. Qed.
Lemma nothing_ok : nonneg_external nothing_enters. Proof. intros b; cbn; lra. Qed.

Lemma slope_res dt a x : dt <> 0 -> PRECISION < x 0%nat ->
  slope reservoir dt nothing_enters (linear_outflow a) x 0%nat = - (a * x 0%nat).
Proof.
  intros H Hx. unfold slope, balance_of, received, withdrawn, linear_outflow. cbn. destruct (Rle_dec _ _); [lra|]. unfold Rdiv. lra.
Qed.
Lemma unlimited_res dt x r : 0 < dt -> r 0%nat = 0 \/ PRECISION < r 0%nat <= 10000 -> r 0%nat * dt <= x 0%nat ->
  unlimited reservoir dt nothing_enters x r.
Proof.
  intros Hdt Hr Hx. split.
  - intros k Hk. cbn in Hk. assert (k = 0%nat) by lia. subst. auto.
  - intros b Hb. cbn in Hb. assert (b = 0%nat) by lia. subst. cbn. split; [right; lra|discriminate].
Qed.

Lemma poly_half m z : 0 < z <= / 2 -> / 2 <= exp_poly (order m) z <= 1.
Proof.
  intros Hz. assert (0 <= z * z) by (apply Rmult_le_pos; lra).
  destruct m; unfold exp_poly; cbn [order seq Rsum pow fact Nat.mul Nat.add INR]; [lra|nra|].
  assert (z * z <= / 2 * z) by (apply Rmult_le_compat_r; lra).
  assert (0 <= z * z * z) by (apply Rmult_le_pos; lra).
  assert (z * z * z <= / 2 * (z * z)) by (rewrite (Rmult_comm (/2)); apply Rmult_le_compat_l; lra).
  assert (0 <= z * z * z * z) by (apply Rmult_le_pos; lra).
  assert (z * z * z * z <= / 2 * (z * z * z)) by (rewrite (Rmult_comm (/2)); apply Rmult_le_compat_l; lra).
  lra.
Qed.

Section Step.
Variables (a dt x : R) (s : state).
Hypothesis Ha : 0 < a.
Hypothesis Hdt : 0 < dt.
Hypothesis Hz : a * dt <= / 2.
Hypothesis Hs : committed s.
Hypothesis Hx : s_content s 0%nat = x.
Hypothesis Hbig : PRECISION < x / 2.
Hypothesis Hrate : PRECISION < a * (x / 2).
Hypothesis Hmax : a * x <= 10000.
Let x0 (b : nat) : R := s_content s b + e_inst nothing_enters b.
Let q := linear_outflow a.
Let F := slope reservoir dt nothing_enters q.
Lemma Hx0 : x0 0%nat = x. Proof. unfold x0; cbn. lra. Qed.
Lemma Hzp : 0 < a * dt. Proof. apply Rmult_lt_0_compat; auto. Qed.
Lemma Hprec : 0 < PRECISION. Proof. unfold PRECISION. lra. Qed.

(** Contents between half and the whole of [x]. *)
Lemma q_mid y k : x / 2 <= y 0%nat <= x -> q y k = a * y 0%nat /\ PRECISION < q y k <= 10000 /\ q y k * dt <= x0 0%nat.
Proof.
  intros Hy. pose proof Hzp. unfold q, linear_outflow. destruct (Rle_dec _ _); [lra|].
  assert (a * (x / 2) <= a * y 0%nat) by (apply Rmult_le_compat_l; lra).
  assert (a * y 0%nat <= a * x) by (apply Rmult_le_compat_l; lra).
  split; [reflexivity|]. split; [lra|]. rewrite Hx0.
  apply Rle_trans with (a * x * dt); [apply Rmult_le_compat_r; lra|].
  assert (a * dt * x <= 1 * x) by (apply Rmult_le_compat_r; lra). lra.
Qed.
Lemma F_mid y : x / 2 <= y 0%nat <= x -> F y 0%nat = - (a * y 0%nat).
Proof. intros Hy. apply slope_res; lra. Qed.
Lemma unl y : x / 2 <= y 0%nat <= x -> unlimited reservoir dt nothing_enters x0 (q y).
Proof. intros Hy. destruct (q_mid y 0 Hy) as (_ & A & B). apply unlimited_res; auto. Qed.
Lemma solid_pos : forall b, solid reservoir b -> 0 <= s_content s b.
Proof. intros b [Hb _]. cbn in Hb. assert (b = 0%nat) by lia. subst b. pose proof Hprec; lra. Qed.
Lemma start_mid : x / 2 <= x0 0%nat <= x. Proof. rewrite Hx0. pose proof Hprec. lra. Qed.
Lemma res_reported y : PRECISION < y -> reported reservoir 0 y = y.
Proof. intros H. unfold reported; cbn. unfold kept. destruct (Rle_dec _ _); lra. Qed.

Lemma step_linear m : x / 2 <= x * exp_poly (order m) (a * dt) <= x /\
  exists s', one_step m reservoir dt nothing_enters (sees_contents q) s = Ok s' /\ committed s' /\
    s_content s' 0%nat = x * exp_poly (order m) (a * dt) /\
    s_amount s' 0%nat = x - x * exp_poly (order m) (a * dt).
Proof.
  pose proof Hzp as Hz0. pose proof Hprec as Hp. set (z := a * dt) in *.
  assert (Hxp : 0 < x) by lra.
  assert (Hmid : forall c, / 2 <= c <= 1 -> x / 2 <= x * c <= x).
  { intros c Hc. split; [replace (x / 2) with (x * / 2) by lra; apply Rmult_le_compat_l; lra|].
    rewrite <- (Rmult_1_r x) at 2. apply Rmult_le_compat_l; lra. }
  pose proof (poly_half m z (conj Hz0 Hz)) as Hpoly.
  split; [apply Hmid; auto|].
  pose proof (euler_textbook reservoir dt nothing_enters s q Hdt reservoir_wf reservoir_plain reservoir_forward reservoir_caps nothing_ok Hs solid_pos (reservoir_flows_linear a)) as TE.
  pose proof (heun_textbook reservoir dt nothing_enters s q Hdt reservoir_wf reservoir_plain reservoir_forward reservoir_caps nothing_ok Hs solid_pos (reservoir_flows_linear a)) as TH.
  pose proof (rk4_textbook reservoir dt nothing_enters s q Hdt reservoir_wf reservoir_plain reservoir_forward reservoir_caps nothing_ok Hs solid_pos (reservoir_flows_linear a)) as TR.
  fold x0 F in TE, TH, TR.
  assert (Hcm : forall s', one_step m reservoir dt nothing_enters (sees_contents q) s = Ok s' -> committed s').
  { intros s' H. destruct m; cbn [one_step] in H; [unfold euler_step in H|unfold heun_step in H|unfold rk4_step in H];
      repeat match goal with H : bind _ _ = Ok _ |- _ => apply bind_ok in H; destruct H as (? & _ & H) end;
      injection H as <-; intros b; split; reflexivity. }
  pose proof start_mid as SM. pose proof Hx0 as E0.
  assert (F0 : F x0 0%nat = - (a * x)) by (rewrite F_mid, E0; auto).
  destruct m.
  - destruct (TE (unl x0 SM)) as (s' & H & C & A). exists s'. split; [exact H|]. split; [auto|].
    rewrite C, A by (cbn; lia). unfold euler_method. rewrite E0, F0. destruct (q_mid x0 0 SM) as (-> & _). rewrite E0.
    assert (Ep : x * exp_poly (order Euler) z = x + dt * - (a * x)) by (unfold exp_poly, z; cbn; lra).
    rewrite <- Ep. split; [apply res_reported; pose proof (Hmid _ Hpoly); lra|].
    rewrite weighted_one by reflexivity. rewrite Ep. lra.
  - set (x1 := euler_method F dt x0) in *.
    assert (X1 : x1 0%nat = x * (1 - z)) by (unfold x1, euler_method; rewrite E0, F0; unfold z; lra).
    assert (M1 : x / 2 <= x1 0%nat <= x) by (rewrite X1; apply Hmid; lra).
    destruct (q_mid x0 0 SM) as (Q0 & B0 & L0). destruct (q_mid x1 0 M1) as (Q1 & B1 & L1).
    destruct TH as (s' & H & C & A); [apply unl; auto|apply unlimited_res; [auto|right; lra|cbv beta; lra]|].
    exists s'. split; [exact H|]. split; [auto|]. rewrite C, A by (cbn; lia). unfold heun_method. fold x1.
    rewrite (F_mid x1 M1), Q0, Q1, E0, F0, X1.
    assert (Ep : x * exp_poly (order Heun) z = x + dt * ((- (a * x) + - (a * (x * (1 - z)))) / 2)) by (unfold exp_poly, z; cbn; field).
    rewrite <- Ep. split; [apply res_reported; pose proof (Hmid _ Hpoly); lra|].
    rewrite weighted_one by reflexivity. rewrite Ep. lra.
  - set (xa := rk4_k2 F dt x0) in *. set (xb := rk4_k3 F dt x0) in *. set (xc := rk4_k4 F dt x0) in *.
    assert (XA : xa 0%nat = x * (1 - z / 2)) by (unfold xa, rk4_k2; rewrite E0, F0; unfold z; lra).
    assert (MA : x / 2 <= xa 0%nat <= x) by (rewrite XA; apply Hmid; lra).
    assert (XB : xb 0%nat = x * (1 - z / 2 * (1 - z / 2))).
    { unfold xb, rk4_k3. fold xa. rewrite E0, (F_mid xa MA), XA. unfold z; lra. }
    assert (Hb1 : 0 <= z / 2 * (1 - z / 2) <= / 2).
    { split; [apply Rmult_le_pos; lra|]. replace (/ 2) with (/ 2 * 1) by lra. apply Rmult_le_compat; lra. }
    assert (MB : x / 2 <= xb 0%nat <= x) by (rewrite XB; apply Hmid; lra).
    assert (XC : xc 0%nat = x * (1 - z * (1 - z / 2 * (1 - z / 2)))).
    { unfold xc, rk4_k4. fold xb. rewrite E0, (F_mid xb MB), XB. unfold z; lra. }
    assert (Hc1 : 0 <= z * (1 - z / 2 * (1 - z / 2)) <= / 2).
    { split; [apply Rmult_le_pos; lra|]. replace (/ 2) with (/ 2 * 1) by lra. apply Rmult_le_compat; lra. }
    assert (MC : x / 2 <= xc 0%nat <= x) by (rewrite XC; apply Hmid; lra).
    destruct (q_mid x0 0 SM) as (Q0 & B0 & L0). destruct (q_mid xa 0 MA) as (QA & BA & LA).
    destruct (q_mid xb 0 MB) as (QB & BB & LB). destruct (q_mid xc 0 MC) as (QC & BC & LC).
    destruct TR as (s' & H & C & A); [apply unl; auto|apply unl; auto|apply unl; auto|apply unlimited_res; [auto|right; lra|cbv beta; lra]|].
    exists s'. split; [exact H|]. split; [auto|]. rewrite C, A by (cbn; lia). unfold rk4_method. fold xa xb xc.
    rewrite (F_mid xa MA), (F_mid xb MB), (F_mid xc MC), Q0, QA, QB, QC, E0, F0, XA, XB, XC.
    assert (Ep : x * exp_poly (order RungeKutta4) z = x + dt / 6 * (- (a * x) + 2 * - (a * (x * (1 - z / 2))) + 2 * - (a * (x * (1 - z / 2 * (1 - z / 2)))) + - (a * (x * (1 - z * (1 - z / 2 * (1 - z / 2))))))) by (unfold exp_poly, z; cbn; field).
    rewrite <- Ep. split; [apply res_reported; pose proof (Hmid _ Hpoly); lra|].
    rewrite weighted_one by reflexivity. rewrite Ep. lra.
Qed.
End Step.

(** ** Many steps *)
Lemma steps_linear a dt m : 0 < a -> 0 < dt -> a * dt <= / 2 ->
  let p := exp_poly (order m) (a * dt) in
  forall n x s, committed s -> s_content s 0%nat = x ->
  PRECISION < x * p ^ n / 2 -> PRECISION < a * (x * p ^ n / 2) -> a * x <= 10000 -> 0 < x ->
  exists s', many_steps n m reservoir dt nothing_enters (sees_contents (linear_outflow a)) s = Ok s' /\ committed s' /\
    s_content s' 0%nat = x * p ^ n.
Proof.
  intros Ha Hdt Hz p n. assert (Hz0 : 0 < a * dt) by (apply Rmult_lt_0_compat; auto).
  pose proof (poly_half m (a * dt) (conj Hz0 Hz)) as Hp. fold p in Hp.
  induction n as [|n IH]; intros x s Hs Hx Hb Hr Hm Hpos.
  - exists s. cbn. rewrite Hx. repeat split; auto; try lra; apply Hs.
  - cbn [many_steps].
    assert (Hpn : 0 <= p ^ S n <= 1) by (split; [apply pow_le; lra|rewrite <- (pow1 (S n)); apply pow_incr; lra]).
    assert (Hle : x * p ^ S n / 2 <= x / 2).
    { assert (x * p ^ S n <= x * 1) by (apply Rmult_le_compat_l; lra). lra. }
    assert (Hle2 : a * (x * p ^ S n / 2) <= a * (x / 2)) by (apply Rmult_le_compat_l; lra).
    destruct (step_linear a dt x s Ha Hdt Hz Hs Hx ltac:(lra) ltac:(lra) Hm m) as (Hmid & s1 & H1 & Hs1 & C1 & _). fold p in Hmid, C1.
    rewrite H1. cbn [bind].
    assert (Ep : x * p * p ^ n = x * p ^ S n) by (cbn; ring).
    destruct (IH (x * p) s1) as (s' & H & Hs' & C); auto.
    + rewrite Ep; auto.
    + rewrite Ep; auto.
    + apply Rle_trans with (a * x); [|auto]. apply Rmult_le_compat_l; lra.
    + apply Rmult_lt_0_compat; lra.
    + exists s'. rewrite Ep in C. auto.
Qed.
Lemma order_linear a dt m n x s s' : 0 < a -> 0 < dt -> a * dt <= / 2 -> committed s -> s_content s 0%nat = x ->
  let p := exp_poly (order m) (a * dt) in
  PRECISION < x * p ^ n / 2 -> PRECISION < a * (x * p ^ n / 2) -> a * x <= 10000 -> 0 < x ->
  many_steps n m reservoir dt nothing_enters (sees_contents (linear_outflow a)) s = Ok s' ->
  Rabs (s_content s' 0%nat - x * exp (- (a * (INR n * dt)))) <= x * (INR n * ((a * dt) ^ S (order m) / INR (fact (S (order m))))).
Proof.
  intros Ha Hdt Hz Hs Hx p Hb Hr Hm Hpos H. assert (Hz0 : 0 < a * dt) by (apply Rmult_lt_0_compat; auto).
  destruct (steps_linear a dt m Ha Hdt Hz n x s Hs Hx Hb Hr Hm Hpos) as (s'' & H' & _ & C).
  rewrite H in H'. injection H' as <-. rewrite C. fold p.
  assert (Ee : exp (- (a * (INR n * dt))) = exp (- (a * dt)) ^ n).
  { clear. induction n as [|n IH]; [cbn; rewrite Rmult_0_l, Rmult_0_r, Ropp_0, exp_0; reflexivity|].
    rewrite S_INR, <- tech_pow_Rmult, <- IH, <- exp_plus. f_equal. ring. }
  rewrite Ee, <- Rmult_minus_distr_l, Rabs_mult, (Rabs_right x) by lra.
  apply Rmult_le_compat_l; [lra|]. apply pow_close.
  - pose proof (poly_half m (a * dt) (conj Hz0 Hz)). fold p in H0. lra.
  - split; [left; apply exp_pos|]. left. rewrite <- exp_0. apply exp_increasing. lra.
  - apply exp_poly_close. lra.
Qed.
