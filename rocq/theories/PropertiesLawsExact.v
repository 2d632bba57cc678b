(** Properties C72 (the GR4J and GR6J store functions integrate the published equations) and C73 (laws of the other processes). *)
From Verif Require Import Base BaseFacts ClockFacts Processes ProcessFacts Lateral LateralFacts.
From Coq Require Import Lra Psatz.
Open Scope R_scope.

(** *** Specification *)
(** [store] starts at [s] and changes, with respect to [x] (rain, demand, time), at the rate [law] of its level. *)
Definition follows (law : R -> R) (s : R) (store : R -> R) : Prop :=
  store 0 = s /\ forall x, 0 <= x -> derivable_pt_lim store x (law (store x)).

(** *** Tools *)
Lemma Rleb_cases x y : (x <= y /\ Rleb x y = true) \/ (y < x /\ Rleb x y = false).
Proof. unfold Rleb. destruct (Rle_dec x y); [left|right]; split; (lra || reflexivity). Qed.
Lemma Rltb_cases x y : (x < y /\ Rltb x y = true) \/ (y <= x /\ Rltb x y = false).
Proof. unfold Rltb. destruct (Rlt_dec x y); [left|right]; split; (lra || reflexivity). Qed.
Lemma tanh_derive x : derivable_pt_lim tanh x (1 - tanh x * tanh x).
Proof.
  assert (C : cosh x <> 0) by (unfold cosh; pose proof (exp_pos x); pose proof (exp_pos (- x)); lra).
  replace (1 - tanh x * tanh x) with ((cosh x * cosh x - sinh x * sinh x) / Rsqr (cosh x)) by (unfold tanh, Rsqr; field; exact C).
  apply (derivable_pt_lim_div sinh cosh); [apply derivable_pt_lim_sinh|apply derivable_pt_lim_cosh|exact C].
Qed.
Lemma tanh_scaled X x : 0 < X -> derivable_pt_lim (fun p => tanh (p / X)) x ((1 - tanh (x / X) * tanh (x / X)) / X).
Proof.
  intros HX. apply derivable_pt_lim_ext with (f := fun p => tanh (p * / X)); [reflexivity|].
  replace ((1 - tanh (x / X) * tanh (x / X)) / X) with ((1 - tanh (x * / X) * tanh (x * / X)) * (/ X)) by reflexivity.
  apply (derivable_pt_lim_comp (fun p => p * / X) tanh); [|apply tanh_derive].
  replace (/ X) with (1 * / X) at 1 by lra. replace (1 * / X) with (1 * / X + x * 0) by lra. apply (derivable_pt_lim_mult id (fct_cte (/ X))); [apply derivable_pt_lim_id|apply derivable_pt_lim_const].
Qed.
Lemma linear_derive k x : derivable_pt_lim (fun p => 1 + p * k) x k.
Proof.
  assert (D : derivable_pt_lim (fun p => p * k) x (1 * k)) by (apply (derivable_pt_lim_scal_right id); apply derivable_pt_lim_id).
  replace (derivable_pt_lim (fun p => 1 + p * k) x k) with (derivable_pt_lim (fun p => 1 + p * k) x (0 + 1 * k)) by (f_equal; lra).
  apply (derivable_pt_lim_plus (fct_cte 1) (fun p => p * k)); [apply derivable_pt_lim_const|exact D].
Qed.
(** (a + t) / (1 + a t), for t = tanh (x / X). *)
Lemma tanh_flow a X x : 0 < X -> 0 <= a <= 1 -> 0 <= x ->
  let u := fun p => (a + tanh (p / X)) / (1 + a * tanh (p / X)) in derivable_pt_lim u x ((1 - u x * u x) / X).
Proof.
  intros HX Ha Hx. cbn zeta.
  assert (0 <= x / X) by (unfold Rdiv; apply Rmult_le_pos; [lra|left; apply Rinv_0_lt_compat; lra]).
  pose proof (tanh_pos (x / X) H) as T0. pose proof (tanh_lt1 (x / X)) as T1.
  pose proof (tanh_scaled X x HX) as D. set (d := (1 - tanh (x / X) * tanh (x / X)) / X) in *.
  assert (D1 : derivable_pt_lim (fun p => a + tanh (p / X)) x (0 + d)) by (apply (derivable_pt_lim_plus (fct_cte a) (fun p => tanh (p / X))); [apply derivable_pt_lim_const|exact D]).
  assert (D2 : derivable_pt_lim (fun p => 1 + a * tanh (p / X)) x (0 + a * d)).
  { apply (derivable_pt_lim_plus (fct_cte 1) (fun p => a * tanh (p / X))); [apply derivable_pt_lim_const|]. apply (derivable_pt_lim_scal (fun p => tanh (p / X))). exact D. }
  assert (P : 0 <= a * tanh (x / X)) by (apply Rmult_le_pos; lra).
  assert (N : 1 + a * tanh (x / X) <> 0) by lra.
  cbv beta. replace ((1 - (a + tanh (x / X)) / (1 + a * tanh (x / X)) * ((a + tanh (x / X)) / (1 + a * tanh (x / X)))) / X) with
    (((0 + d) * (1 + a * tanh (x / X)) - (0 + a * d) * (a + tanh (x / X))) / Rsqr (1 + a * tanh (x / X))).
  - pose proof (derivable_pt_lim_div (fun p => a + tanh (p / X)) (fun p => 1 + a * tanh (p / X)) x _ _ D1 D2 N) as D3. exact D3.
  - unfold d, Rsqr. set (t := tanh (x / X)) in *. field. split; [exact N|lra].
Qed.
Lemma tanh_0 : tanh (0 / 1) = 0.
Proof. unfold tanh, sinh. replace (0 / 1) with 0 by lra. rewrite Ropp_0, exp_0. unfold Rdiv. lra. Qed.

(** *** C72 *)
(** Rain fills the production store at the rate 1 - (S / X1)^2: up to 13 X1 of rain, the level after the infiltration is that of the equation. *)
Theorem c72_infiltration : forall S X1, 0 < X1 -> 0 <= S <= X1 -> exists store,
  follows (fun s => 1 - (s / X1) * (s / X1)) S store /\
  forall rain, 0 <= rain <= 13 * X1 -> S + gr4j_infiltration S rain X1 = store rain.
Proof.
  intros S X HX HS. set (a := S / X).
  assert (Ha : 0 <= a <= 1).
  { unfold a. split; [unfold Rdiv; apply Rmult_le_pos; [lra|left; apply Rinv_0_lt_compat; lra]|]. apply (Rmult_le_reg_r X); [lra|]. unfold Rdiv. rewrite Rmult_assoc, Rinv_l by lra. lra. }
  set (u := fun p => (a + tanh (p / X)) / (1 + a * tanh (p / X))). exists (fun p => X * u p).
  assert (T0 : tanh (0 / X) = 0) by (replace (0 / X) with (0 / 1) by (unfold Rdiv; ring); exact tanh_0).
  assert (U : forall p, 0 <= p -> 1 + a * tanh (p / X) <> 0).
  { intros p Hp. assert (0 <= tanh (p / X)) by (apply tanh_pos; unfold Rdiv; apply Rmult_le_pos; [lra|left; apply Rinv_0_lt_compat; lra]). assert (0 <= a * tanh (p / X)) by (apply Rmult_le_pos; lra). lra. }
  split; [split|].
  - unfold u. rewrite T0. unfold a. field. lra.
  - intros p Hp. replace (1 - X * u p / X * (X * u p / X)) with (X * ((1 - u p * u p) / X)) by (field; lra).
    apply (derivable_pt_lim_scal u). exact (tanh_flow a X p HX Ha Hp).
  - intros r Hr. unfold gr4j_infiltration, u. destruct (Rleb_cases r 0) as [(E & ->)|(E & ->)]; cbn [orb].
    + replace r with 0 by lra. rewrite T0. unfold a. field. lra.
    + destruct (Rleb_cases X 0) as [(E' & _)|(E' & ->)]; [lra|]. unfold tanh_capped. rewrite Rmin_left.
      * fold a. replace S with (X * a) at 1 by (unfold a; field; lra). specialize (U r ltac:(lra)). field. exact U.
      * apply (Rmult_le_reg_r X); [lra|]. unfold Rdiv. rewrite Rmult_assoc, Rinv_l by lra. lra.
Qed.
Print Assumptions c72_infiltration.
(** The demand empties it at the rate (S / X1) (2 - S / X1). *)
Theorem c72_evaporation : forall S X1, 0 < X1 -> 0 <= S <= X1 -> exists store,
  follows (fun s => - (s / X1 * (2 - s / X1))) S store /\
  forall demand, 0 <= demand <= 13 * X1 -> S - gr4j_evaporation S demand X1 = store demand.
Proof.
  intros S X HX HS. set (a := 1 - S / X).
  assert (Ha : 0 <= a <= 1).
  { unfold a. assert (0 <= S / X <= 1); [|lra]. split; [unfold Rdiv; apply Rmult_le_pos; [lra|left; apply Rinv_0_lt_compat; lra]|]. apply (Rmult_le_reg_r X); [lra|]. unfold Rdiv. rewrite Rmult_assoc, Rinv_l by lra. lra. }
  set (u := fun p => (a + tanh (p / X)) / (1 + a * tanh (p / X))). exists (fun p => X - X * u p).
  assert (T0 : tanh (0 / X) = 0) by (replace (0 / X) with (0 / 1) by (unfold Rdiv; ring); exact tanh_0).
  assert (U : forall p, 0 <= p -> 1 + a * tanh (p / X) <> 0).
  { intros p Hp. assert (0 <= tanh (p / X)) by (apply tanh_pos; unfold Rdiv; apply Rmult_le_pos; [lra|left; apply Rinv_0_lt_compat; lra]). assert (0 <= a * tanh (p / X)) by (apply Rmult_le_pos; lra). lra. }
  split; [split|].
  - unfold u. rewrite T0. unfold a. field. lra.
  - intros p Hp. replace (- ((X - X * u p) / X * (2 - (X - X * u p) / X))) with (0 - X * ((1 - u p * u p) / X)) by (field; lra).
    apply (derivable_pt_lim_minus (fct_cte X) (fun p => X * u p)); [apply derivable_pt_lim_const|]. apply (derivable_pt_lim_scal u). exact (tanh_flow a X p HX Ha Hp).
  - intros r Hr. unfold gr4j_evaporation, u. destruct (Rleb_cases r 0) as [(E & ->)|(E & ->)]; cbn [orb].
    + replace r with 0 by lra. rewrite T0. unfold a. field. lra.
    + destruct (Rleb_cases X 0) as [(E' & _)|(E' & ->)]; [lra|]. unfold tanh_capped. rewrite Rmin_left.
      * specialize (U r ltac:(lra)). fold a. set (t := tanh (r / X)) in *. replace (S / X) with (1 - a) by (unfold a; ring).
        replace S with (X * (1 - a)) by (unfold a; field; lra). field. exact U.
      * apply (Rmult_le_reg_r X); [lra|]. unfold Rdiv. rewrite Rmult_assoc, Rinv_l by lra. lra.
Qed.
Print Assumptions c72_evaporation.
(** Percolation empties it, during one day, at the rate X1 / 4 (4 / 9)^4 (S / X1)^5. *)
Theorem c72_percolation : forall S X1, 0 < X1 -> 0 <= S -> exists store,
  follows (fun s => - (X1 / 4 * (4 / 9) ^ 4 * (s / X1) ^ 5)) S store /\ S - gr4j_percolation S X1 = store 1.
Proof.
  intros S X HX HS.
  assert (Q4 : forall q, 0 <= q -> 0 <= q * q * q * q / (2562890625 / 100000000)).
  { intros q Hq. assert (0 <= q * q * q * q) by (repeat (apply Rmult_le_pos; try exact Hq)). lra. }
  set (k := S / X * (S / X) * (S / X) * (S / X) / (2562890625 / 100000000)).
  assert (Hr : 0 <= S / X) by (unfold Rdiv; apply Rmult_le_pos; [lra|left; apply Rinv_0_lt_compat; lra]).
  assert (Hk : 0 <= k) by (apply Q4; exact Hr).
  exists (fun t => S * Rpower (1 + t * k) (- (1 / 4))). split; [split|].
  - replace (1 + 0 * k) with 1 by ring. unfold Rpower. rewrite ln_1, Rmult_0_r, exp_0. ring.
  - intros t Ht. assert (B : 0 < 1 + t * k) by (assert (0 <= t * k) by (apply Rmult_le_pos; assumption); lra).
    set (b := 1 + t * k) in *.
    replace (- (X / 4 * (4 / 9) ^ 4 * (S * Rpower b (- (1 / 4)) / X) ^ 5)) with (S * (- (1 / 4) * Rpower b (- (1 / 4) - 1) * k)).
    + apply (derivable_pt_lim_scal (fun t => Rpower (1 + t * k) (- (1 / 4)))).
      apply (derivable_pt_lim_comp (fun p => 1 + p * k) (fun x => Rpower x (- (1 / 4)))); [apply linear_derive|]. apply derivable_pt_lim_power. exact B.
    + replace (Rpower b (- (1 / 4) - 1)) with (Rpower b (- (1 / 4)) ^ 5).
      * set (q := Rpower b (- (1 / 4))). unfold k. field. lra.
      * rewrite <- Rpower_pow by (unfold Rpower; apply exp_pos). rewrite Rpower_mult. f_equal. cbn [INR]. lra.
  - unfold gr4j_percolation. destruct (Rleb_cases X 0) as [(E' & _)|(E' & ->)]; [lra|]. replace (1 + 1 * k) with (1 + k) by ring. fold k. ring.
Qed.
Print Assumptions c72_percolation.
(** The exponential store of GR6J empties, during one day, at the rate X6 exp (R / X6); the shortcuts for large levels change it by less than X6 exp (-14). *)
Theorem c72_exponential_store : forall L X6, 0 < X6 -> exists store,
  follows (fun s => - (X6 * exp (s / X6))) L store /\
  (-7 * X6 <= L <= 7 * X6 -> L - gr6j_exponential_outflow L X6 = store 1) /\
  Rabs (L - gr6j_exponential_outflow L X6 - store 1) <= X6 * exp (-14).
Proof.
  intros L X HX. set (e := exp (- (L / X))). assert (He : 0 < e) by apply exp_pos.
  exists (fun t => - X * ln (t + e)).
  assert (EX : L = X * (L / X)) by (field; lra).
  assert (S1 : - X * ln (1 + e) = L - X * ln (exp (L / X) + 1)).
  { replace (1 + e) with ((exp (L / X) + 1) * e).
    - rewrite ln_mult; [|pose proof (exp_pos (L / X)); lra|exact He]. unfold e. rewrite ln_exp. rewrite EX at 3. ring.
    - rewrite Rmult_plus_distr_r. unfold e. rewrite <- exp_plus. replace (L / X + - (L / X)) with 0 by ring. rewrite exp_0. ring. }
  split; [split|split].
  - rewrite Rplus_0_l. unfold e. rewrite ln_exp. field. lra.
  - intros t Ht. replace (- (X * exp (- X * ln (t + e) / X))) with (- X * (/ (t + e) * (1 + 0))).
    + apply (derivable_pt_lim_scal (fun t => ln (t + e))).
      apply (derivable_pt_lim_comp (fun p => p + e) ln); [|apply derivable_pt_lim_ln; lra].
      apply (derivable_pt_lim_plus id (fct_cte e)); [apply derivable_pt_lim_id|apply derivable_pt_lim_const].
    + replace (- X * ln (t + e) / X) with (- ln (t + e)) by (field; lra). rewrite exp_Ropp, exp_ln by lra. ring.
  - intros HL. rewrite S1. unfold gr6j_exponential_outflow. destruct (Rleb_cases X 0) as [(E' & _)|(_ & ->)]; [lra|].
    assert (-7 <= L / X <= 7).
    { split; apply (Rmult_le_reg_r X); try lra; unfold Rdiv; rewrite Rmult_assoc, Rinv_l by lra; lra. }
    rewrite (Rmin_right 33) by lra. rewrite Rmax_right by lra.
    destruct (Rltb_cases 7 (L / X)) as [(E' & _)|(_ & ->)]; [lra|]. destruct (Rltb_cases (L / X) (-7)) as [(E' & _)|(_ & ->)]; [lra|]. reflexivity.
  - rewrite S1. set (r := L / X) in *. unfold gr6j_exponential_outflow. destruct (Rleb_cases X 0) as [(E' & _)|(_ & ->)]; [lra|]. fold r.
    (* bounds of ln (1 + y) *)
    assert (UP : forall y, 0 < y -> 0 <= y - ln (1 + y) <= y * y).
    { intros y Hy. split.
      - assert (ln (1 + y) <= y); [|lra]. rewrite <- (ln_exp y) at 2. destruct (exp_ineq1_le y) as [h|h]; [left; apply ln_increasing; lra|right; rewrite h; reflexivity].
      - assert (y - y * y <= ln (1 + y)); [|lra]. assert (HI : ln (/ (1 + y)) <= / (1 + y) - 1).
        { pose proof (exp_ineq1_le (/ (1 + y) - 1)) as h. replace (1 + (/ (1 + y) - 1)) with (/ (1 + y)) in h by ring. rewrite <- (ln_exp (/ (1 + y) - 1)).
          destruct h as [h|h]; [left; apply ln_increasing; [apply Rinv_0_lt_compat; lra|exact h]|right; rewrite <- h; reflexivity]. }
        rewrite ln_Rinv in HI by lra. assert (/ (1 + y) - 1 <= - y + y * y); [|lra].
        apply (Rmult_le_reg_r (1 + y)); [lra|]. rewrite Rmult_minus_distr_r, Rinv_l by lra. assert (0 < y * y) by nra. nra. }
    assert (SQ : forall z, 7 <= z -> exp (- z) * exp (- z) <= exp (-14)).
    { intros z Hz. rewrite <- exp_plus. destruct (Rle_lt_or_eq_dec (- z + - z) (-14) ltac:(lra)) as [h|h]; [left; apply exp_increasing; exact h|right; rewrite h; reflexivity]. }
    assert (EM : forall x y, x <= y -> exp x <= exp y).
    { intros x y [h|h]; [left; apply exp_increasing; exact h|right; rewrite h; reflexivity]. }
    assert (BIG : X * ln (exp r + 1) = L + X * ln (1 + exp (- r))).
    { replace (exp r + 1) with (exp r * (1 + exp (- r))).
      - rewrite ln_mult; [|apply exp_pos|pose proof (exp_pos (- r)); lra]. rewrite ln_exp, EX. fold r. ring.
      - rewrite Rmult_plus_distr_l, <- exp_plus. replace (r + - r) with 0 by ring. rewrite exp_0. ring. }
    assert (FIN : forall a b, Rabs (a - b) <= exp (-14) -> Rabs (X * a - X * b) <= X * exp (-14)).
    { intros a b h. rewrite <- Rmult_minus_distr_l, Rabs_mult, (Rabs_right X) by lra. apply Rmult_le_compat_l; lra. }
    destruct (Rltb_cases 7 (Rmax (-33) (Rmin 33 r))) as [(E & ->)|(E & ->)].
    + assert (7 < r). { unfold Rmax, Rmin in E. destruct (Rle_dec 33 r); [lra|]. destruct (Rle_dec (-33) r) in E; lra. }
      rewrite BIG. rewrite Rmax_right by (apply Rmin_glb; lra). set (m := Rmin 33 r) in *.
      replace (L - (L + X / exp m) - (L - (L + X * ln (1 + exp (- r))))) with (X * ln (1 + exp (- r)) - X * exp (- m)) by (rewrite (exp_Ropp m); unfold Rdiv; ring).
      apply FIN. pose proof (UP (exp (- r)) (exp_pos _)) as U. pose proof (SQ r ltac:(lra)) as Q.
      destruct (Rle_dec r 33) as [Hr|Hr].
      * unfold m. rewrite Rmin_right by lra. apply Rabs_le. lra.
      * unfold m. rewrite Rmin_left by lra. pose proof (EM (-33) (-14) ltac:(lra)). pose proof (EM (- r) (-33) ltac:(lra)). pose proof (exp_pos (- r)). pose proof (exp_pos (-33)).
        assert (0 <= ln (1 + exp (- r))) by (rewrite <- ln_1; left; apply ln_increasing; lra). replace (- (33)) with (-33) by ring. apply Rabs_le. lra.
    + destruct (Rltb_cases (Rmax (-33) (Rmin 33 r)) (-7)) as [(E2 & ->)|(E2 & ->)].
      * assert (r < -7). { unfold Rmax, Rmin in E2. destruct (Rle_dec 33 r); [destruct (Rle_dec (-33) 33); lra|]. destruct (Rle_dec (-33) r) in E2; lra. }
        rewrite (Rmin_right 33) by lra. set (m := Rmax (-33) r) in *.
        replace (L - X * exp m - (L - X * ln (exp r + 1))) with (X * ln (exp r + 1) - X * exp m) by ring. apply FIN. replace (exp r + 1) with (1 + exp r) by ring.
        pose proof (UP (exp r) (exp_pos _)) as U. pose proof (SQ (- r) ltac:(lra)) as Q. rewrite Ropp_involutive in Q.
        destruct (Rle_dec (-33) r) as [Hr|Hr].
        -- unfold m. rewrite Rmax_right by lra. apply Rabs_le. lra.
        -- unfold m. rewrite Rmax_left by lra. pose proof (EM (-33) (-14) ltac:(lra)). pose proof (EM r (-33) ltac:(lra)). pose proof (exp_pos r). pose proof (exp_pos (-33)).
           assert (0 <= ln (1 + exp r)) by (rewrite <- ln_1; left; apply ln_increasing; lra). apply Rabs_le. lra.
      * assert (Hm : Rmax (-33) (Rmin 33 r) = r).
        { unfold Rmax, Rmin in *. destruct (Rle_dec 33 r); [destruct (Rle_dec (-33) 33); lra|]. destruct (Rle_dec (-33) r); lra. }
        rewrite Hm. replace (L - X * ln (exp r + 1) - (L - X * ln (exp r + 1))) with 0 by ring. rewrite Rabs_R0. pose proof (exp_pos (-14)). apply Rmult_le_pos; lra.
Qed.
Print Assumptions c72_exponential_store.
(** The equation determines the level: two stores that follow it from the same level, where the rate does not increase with the level, are equal. *)
Theorem c72_unique : forall law s f g (inside : R -> Prop), follows law s f -> follows law s g ->
  (forall x, 0 <= x -> inside (f x) /\ inside (g x)) -> (forall a b, inside a -> inside b -> a <= b -> law b <= law a) ->
  forall x, 0 <= x -> f x = g x.
Proof.
  intros law s f g I (F0 & FD) (G0 & GD) HI HL x Hx. destruct (Req_dec x 0) as [->|N]; [congruence|].
  set (h := fun y => (f y - g y) * (f y - g y)). set (h' := fun y => (law (f y) - law (g y)) * (f y - g y) + (f y - g y) * (law (f y) - law (g y))).
  assert (HD : forall y, 0 <= y -> derivable_pt_lim h y (h' y)).
  { intros y Hy. assert (D : derivable_pt_lim (fun y => f y - g y) y (law (f y) - law (g y))) by (apply (derivable_pt_lim_minus f g); [apply FD|apply GD]; exact Hy).
    exact (derivable_pt_lim_mult _ _ y _ _ D D). }
  destruct (MVT_cor2 h h' 0 x) as (c & E & Hc); [lra|intros c Hc; apply HD; lra|].
  assert (N0 : h' c <= 0).
  { unfold h'. destruct (HI c ltac:(lra)) as (Ia & Ib). destruct (Rle_dec (f c) (g c)) as [L|L].
    - pose proof (HL _ _ Ia Ib L). nra.
    - pose proof (HL _ _ Ib Ia ltac:(lra)). nra. }
  assert (H0 : h 0 = 0) by (unfold h; rewrite F0, G0; ring).
  assert (P0 : h x <= 0) by nra. unfold h in P0. assert (Q : f x - g x = 0); [|lra]. apply Rsqr_0_uniq. unfold Rsqr. pose proof (Rle_0_sqr (f x - g x)). unfold Rsqr in *. lra.
Qed.
Print Assumptions c72_unique.
(** A store of 100 mm in 350 mm of capacity, 20 mm of rain, then a day of demand and percolation. *)
Example c72_case : exists a b c, follows (fun s => 1 - (s / 350) * (s / 350)) 100 a /\ 100 + gr4j_infiltration 100 20 350 = a 20 /\
  follows (fun s => - (s / 350 * (2 - s / 350))) 100 b /\ 100 - gr4j_evaporation 100 3 350 = b 3 /\
  follows (fun s => - (350 / 4 * (4 / 9) ^ 4 * (s / 350) ^ 5)) 100 c /\ 100 - gr4j_percolation 100 350 = c 1.
Proof.
  destruct (c72_infiltration 100 350) as (a & A1 & A2); [lra|lra|]. destruct (c72_evaporation 100 350) as (b & B1 & B2); [lra|lra|].
  destruct (c72_percolation 100 350) as (c & C1 & C2); [lra|lra|]. exists a, b, c. split; [exact A1|]. split; [apply A2; lra|]. split; [exact B1|]. split; [apply B2; lra|]. split; assumption.
Qed.

(** *** C73 *)
(** Evapotranspiration as a function of the filling of a store of positive capacity, for a demand that is not negative. *)
Theorem c73_linear : forall c content pet, 0 < c -> 0 <= content -> exists q, et_linear (Some c) content pet = Ok q /\
  (content <= c -> q * c = pet * content) /\ (c <= content -> q = pet).
Proof.
  intros c s pet Hc Hs. unfold et_linear, filling_ratio. destruct (Reqb_cases c 0) as [(E & _)|(_ & ->)]; [lra|]. cbn [bind]. eexists. split; [reflexivity|].
  assert (0 <= s / c) by (unfold Rdiv; apply Rmult_le_pos; [lra|left; apply Rinv_0_lt_compat; lra]). split; intros H1.
  - assert (s / c <= 1) by (apply (Rmult_le_reg_r c); [lra|]; unfold Rdiv; rewrite Rmult_assoc, Rinv_l by lra; lra).
    rewrite (Rmin_right 1 (s / c)), Rmax_right, Rmin_right by lra. field. lra.
  - assert (1 <= s / c) by (apply (Rmult_le_reg_r c); [lra|]; unfold Rdiv; rewrite Rmult_assoc, Rinv_l by lra; lra).
    rewrite (Rmin_left 1 (s / c)), Rmax_right, Rmin_left by lra. lra.
Qed.
Print Assumptions c73_linear.
Theorem c73_hbv : forall c content lp cf pet, 0 < c -> 0 <= lp -> exists q, et_hbv (Some c) content lp cf pet = Ok q /\
  (lp * c <= content -> q = cf * pet) /\ (content <= lp * c -> 0 < lp -> q * (lp * c) = cf * pet * content).
Proof.
  intros c s lp cf pet Hc Hl. unfold et_hbv. destruct (Rleb_cases (lp * c) 0) as [(E & ->)|(E & ->)].
  - eexists. split; [reflexivity|]. split; [reflexivity|]. intros _ Hp. assert (0 < lp * c) by (apply Rmult_lt_0_compat; lra). lra.
  - eexists. split; [reflexivity|]. split.
    + intros H1. rewrite Rmin_left; [lra|]. apply (Rmult_le_reg_r (lp * c)); [lra|]. unfold Rdiv. rewrite Rmult_assoc, Rinv_l by lra. lra.
    + intros H1 Hp. rewrite Rmin_right; [field; lra|]. apply (Rmult_le_reg_r (lp * c)); [lra|]. unfold Rdiv. rewrite Rmult_assoc, Rinv_l by lra. lra.
Qed.
Print Assumptions c73_hbv.
(** Power law: the exponent-th root of the ratio to the demand is the filling; Socont is the square root law. *)
Theorem c73_power : forall c content e pet, 0 < c -> 0 < content -> 0 < e -> 0 < pet -> exists q, et_power (Some c) content e pet = Ok q /\ 0 < q /\
  (content <= c -> Rpower (q / pet) (1 / e) = content / c) /\ (c <= content -> q = pet).
Proof.
  intros c s e pet Hc Hs He Hp. unfold et_power, filling_ratio. destruct (Reqb_cases c 0) as [(E & _)|(_ & ->)]; [lra|]. cbn [bind].
  assert (H : 0 < s / c) by (unfold Rdiv; apply Rmult_lt_0_compat; [lra|apply Rinv_0_lt_compat; lra]).
  destruct (Rle_dec s c) as [L|L].
  - assert (s / c <= 1) by (apply (Rmult_le_reg_r c); [lra|]; unfold Rdiv; rewrite Rmult_assoc, Rinv_l by lra; lra).
    rewrite (Rmin_right 1 (s / c)), Rmax_right by lra. unfold cpow. destruct (Rltb_cases 0 (s / c)) as [(_ & ->)|(B & _)]; [|lra]. cbn [bind]. eexists. split; [reflexivity|].
    split; [apply Rmult_lt_0_compat; [exact Hp|unfold Rpower; apply exp_pos]|]. split.
    + intros _. replace (pet * Rpower (s / c) e / pet) with (Rpower (s / c) e) by (field; lra). rewrite Rpower_mult. replace (e * (1 / e)) with 1 by (field; lra). apply Rpower_1. exact H.
    + intros L'. assert (s = c) as -> by lra. replace (c / c) with 1 by (field; lra). unfold Rpower. rewrite ln_1, Rmult_0_r, exp_0. ring.
  - assert (1 <= s / c) by (apply (Rmult_le_reg_r c); [lra|]; unfold Rdiv; rewrite Rmult_assoc, Rinv_l by lra; lra).
    rewrite (Rmin_left 1 (s / c)), Rmax_right by lra. unfold cpow. destruct (Rltb_cases 0 1) as [(_ & ->)|(B & _)]; [|lra]. cbn [bind]. eexists. split; [reflexivity|].
    split; [apply Rmult_lt_0_compat; [exact Hp|unfold Rpower; apply exp_pos]|]. split; [intros; lra|].
    intros _. unfold Rpower. rewrite ln_1, Rmult_0_r, exp_0. ring.
Qed.
Print Assumptions c73_power.
Theorem c73_socont : forall c content pet, 0 < c -> 0 < content -> 0 < pet -> exists q, et_socont (Some c) content pet = Ok q /\ 0 < q /\
  (content <= c -> q * q * c = pet * pet * content) /\ (c <= content -> q = pet).
Proof.
  intros c s pet Hc Hs Hp. destruct (c73_power c s (1 / 2) pet Hc Hs ltac:(lra) Hp) as (q & E & Q & K1 & K2). exists q. split; [exact E|]. split; [exact Q|]. split; [|exact K2].
  intros L. specialize (K1 L). assert (P : 0 < q / pet) by (unfold Rdiv; apply Rmult_lt_0_compat; [lra|apply Rinv_0_lt_compat; lra]).
  replace (1 / (1 / 2)) with (INR 2) in K1 by (cbn [INR]; lra). rewrite Rpower_pow in K1 by exact P.
  replace (q * q * c) with ((q / pet) ^ 2 * (pet * pet * c)) by (field; lra). rewrite K1. field. lra.
Qed.
Print Assumptions c73_socont.
Theorem c73_exponential : forall c content alpha pet, 0 < c -> 0 <= content <= c -> exists q, et_exponential (Some c) content alpha pet = Ok q /\
  pet - q = pet * exp (- (alpha * (content / c))).
Proof.
  intros c s alpha pet Hc Hs. unfold et_exponential, filling_ratio. destruct (Reqb_cases c 0) as [(E & _)|(_ & ->)]; [lra|]. cbn [bind]. eexists. split; [reflexivity|].
  assert (0 <= s / c) by (unfold Rdiv; apply Rmult_le_pos; [lra|left; apply Rinv_0_lt_compat; lra]).
  assert (s / c <= 1) by (apply (Rmult_le_reg_r c); [lra|]; unfold Rdiv; rewrite Rmult_assoc, Rinv_l by lra; lra).
  rewrite (Rmin_right 1 (s / c)), Rmax_right by lra. replace (- alpha * (s / c)) with (- (alpha * (s / c))) by ring. ring.
Qed.
Print Assumptions c73_exponential.
(** Ice under snow does not melt where melt is blocked by snow, and melts as usual everywhere else. *)
Theorem c73_ice_under_snow : forall blocked snow content, snow <> None -> exists acc, ice_accessible blocked snow content = Ok acc /\
  forall factor tmelt t, 0 < content ->
    (blocked = true -> snow = Some true -> melt_degree_day acc factor tmelt t = 0) /\
    ((blocked = false \/ snow = Some false) -> melt_degree_day acc factor tmelt t = factor * Rmax 0 (t - tmelt)).
Proof.
  intros b s x Hs. assert (M : forall acc f tm t, acc = true -> melt_degree_day acc f tm t = f * Rmax 0 (t - tm)).
  { intros acc f tm t ->. unfold melt_degree_day. destruct (Rleb_cases tm t) as [(E & ->)|(E & ->)]; [rewrite Rmax_right by lra; ring|rewrite Rmax_left by lra; ring]. }
  assert (A : 0 < x -> accessible x = true) by (intros h; unfold accessible; destruct (Rltb_cases 0 x) as [(_ & ->)|(B & _)]; [reflexivity|lra]).
  destruct s as [[|]|]; [| |congruence]; destruct b; cbn [ice_accessible]; eexists; (split; [reflexivity|]); intros f tm t Hx; (split; [intros Hb Hn|intros [Hb|Hn]]); try discriminate; try reflexivity; apply M, A, Hx.
Qed.
Print Assumptions c73_ice_under_snow.
(** Snow sublimates at the given rate, or at the given share of the potential evapotranspiration, as long as there is snow and not at all without. *)
Theorem c73_sublimation : forall snow rate pet factor,
  (0 < snow -> sublimation_constant (accessible snow) rate = rate /\ sublimation_pet (accessible snow) pet factor = pet * factor) /\
  (snow <= 0 -> sublimation_constant (accessible snow) rate = 0 /\ sublimation_pet (accessible snow) pet factor = 0).
Proof.
  intros x rate pet factor. unfold accessible. destruct (Rltb_cases 0 x) as [(E & ->)|(E & ->)]; split; intros H; try (exfalso; lra); split; reflexivity.
Qed.
Print Assumptions c73_sublimation.
Lemma sin_period_n (k : Z) x : sin (x + 2 * IZR k * PI) = sin x.
Proof.
  destruct (Z.le_ge_cases 0 k) as [H|H].
  - pose proof (sin_period x (Z.to_nat k)) as P. rewrite INR_IZR_INZ, Z2Nat.id in P by exact H. exact P.
  - pose proof (sin_period (x + 2 * IZR k * PI) (Z.to_nat (- k))) as P. rewrite INR_IZR_INZ, Z2Nat.id, opp_IZR in P by lia. rewrite <- P. f_equal. ring.
Qed.
(** The transformation of snow into ice is stronger than average in the summer half-year of the hemisphere and weaker in its winter half-year. *)
Theorem c73_seasons : forall coeff doy x, 0 < coeff -> 0 < x -> (1 <= doy <= 366)%Z ->
  ((82 <= doy <= 263)%Z -> coeff * x < snow_to_ice_swat true coeff doy x /\ snow_to_ice_swat false coeff doy x < coeff * x) /\
  ((doy <= 80 \/ 265 <= doy)%Z -> snow_to_ice_swat true coeff doy x < coeff * x /\ coeff * x < snow_to_ice_swat false coeff doy x).
Proof.
  intros coeff doy x Hc Hx Hd. assert (P : 0 < coeff * x) by (apply Rmult_lt_0_compat; assumption).
  assert (UP : forall d, (1 <= d <= 182)%Z -> 0 < sin (2 * PI * IZR d / 365)).
  { intros d Hr. pose proof PI_RGT_0. assert (1 <= IZR d <= 182) by (split; apply IZR_le; lia). apply sin_gt_0; [apply Rmult_lt_0_compat; [nra|lra]|]. apply (Rmult_lt_reg_r 365); [lra|]. unfold Rdiv. rewrite Rmult_assoc, Rinv_l by lra. nra. }
  assert (SH : forall d k, sin (2 * PI * IZR d / 365) = sin (2 * PI * IZR (d + 365 * k) / 365)).
  { intros d k. rewrite plus_IZR, mult_IZR. rewrite <- (sin_period_n k (2 * PI * IZR d / 365)). f_equal. field. }
  assert (DN : forall d, (-182 <= d <= -1)%Z -> sin (2 * PI * IZR d / 365) < 0).
  { intros d Hr. pose proof (UP (- d)%Z ltac:(lia)) as U. rewrite opp_IZR in U. replace (2 * PI * - IZR d / 365) with (- (2 * PI * IZR d / 365)) in U by (unfold Rdiv; ring). rewrite sin_neg in U. lra. }
  unfold snow_to_ice_swat. split.
  - intros Hs. pose proof (UP (doy - 81)%Z ltac:(lia)) as U. pose proof (DN (doy - 264)%Z ltac:(lia)) as V.
    set (u := sin (2 * PI * IZR (doy - 81) / 365)) in *. set (v := sin (2 * PI * IZR (doy - 264) / 365)) in *. split; nra.
  - intros [Hs|Hs].
    + pose proof (DN (doy - 81)%Z ltac:(lia)) as U. assert (V : 0 < sin (2 * PI * IZR (doy - 264) / 365)) by (rewrite (SH _ 1%Z); apply UP; lia).
      set (u := sin (2 * PI * IZR (doy - 81) / 365)) in *. set (v := sin (2 * PI * IZR (doy - 264) / 365)) in *. split; nra.
    + assert (U : sin (2 * PI * IZR (doy - 81) / 365) < 0) by (rewrite (SH _ (-1)%Z); apply DN; lia). pose proof (UP (doy - 264)%Z ltac:(lia)) as V.
      set (u := sin (2 * PI * IZR (doy - 81) / 365)) in *. set (v := sin (2 * PI * IZR (doy - 264) / 365)) in *. split; nra.
Qed.
Print Assumptions c73_seasons.
Example c73_case : et_hbv (Some 200) 50 (1 / 2) 1 4 = Ok (1 * 4 * Rmin 1 (50 / (1 / 2 * 200))) /\ 1 * 4 * Rmin 1 (50 / (1 / 2 * 200)) = 2 /\ ice_accessible true (Some true) 5000 = Ok false.
Proof.
  split; [unfold et_hbv; destruct (Rleb_cases (1 / 2 * 200) 0) as [(E & _)|(_ & ->)]; [lra|reflexivity]|]. split; [rewrite Rmin_right by lra; lra|reflexivity].
Qed.
