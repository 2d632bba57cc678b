(** Lemmas about the schemes of the sequential solvers. *)
From Verif Require Import Base BaseFacts Sequential SequentialSpec.

(** ** Bisection *)
Section Bisect.
Variable g : R -> R.
Lemma bisect_spec n : forall lo hi S lo' hi', lo <= hi ->
  (forall x, lo <= x <= hi -> x < S -> g x <= 0) -> (forall x, lo <= x <= hi -> S < x -> 0 < g x) ->
  lo <= S <= hi -> bisect n g lo hi = (lo', hi') ->
  lo' <= S <= hi' /\ lo <= lo' /\ hi' <= hi /\ (hi' - lo' < BISECT_TOL \/ hi' - lo' = (hi - lo) / 2 ^ n).
Proof.
  induction n as [|n IH]; intros lo hi S lo' hi' Hlh H1 H2 HS H.
  - cbn in H. injection H as <- <-. cbn [pow]. split; [exact HS|]. split; [lra|]. split; [lra|].
    right. field.
  - cbn [bisect] in H. set (m := (lo + hi) / 2) in *.
    assert (Hm : lo <= m <= hi) by (unfold m; lra).
    destruct (Rltb_spec 0 (g m)) as [Hg|Hg].
    + assert (HSm : S <= m). { destruct (Rle_lt_dec S m); [assumption|]. specialize (H1 m Hm r). lra. }
      destruct (Rltb (m - lo) BISECT_TOL) eqn:E.
      * injection H as <- <-. apply Rltb_true in E. repeat split; lra.
      * destruct (IH lo m S lo' hi') as (A & B & C & D); try lra.
        -- intros x Hx Hs. apply H1; lra.
        -- intros x Hx Hs. apply H2; lra.
        -- exact H.
        -- split; [exact A|]. split; [exact B|]. split; [lra|].
           destruct D as [D|D]; [left; exact D|right]. rewrite D. unfold m. cbn [pow]. field.
           apply pow_nonzero; lra.
    + assert (HSm : m <= S). { destruct (Rle_lt_dec m S); [assumption|]. specialize (H2 m Hm r). lra. }
      destruct (Rltb (hi - m) BISECT_TOL) eqn:E.
      * injection H as <- <-. apply Rltb_true in E. repeat split; lra.
      * destruct (IH m hi S lo' hi') as (A & B & C & D); try lra.
        -- intros x Hx Hs. apply H1; lra.
        -- intros x Hx Hs. apply H2; lra.
        -- exact H.
        -- split; [exact A|]. split; [lra|]. split; [lra|].
           destruct D as [D|D]; [left; exact D|right]. rewrite D. unfold m. cbn [pow]. field.
           apply pow_nonzero; lra.
Qed.

Lemma end_of_bracket_spec lo hi S w : lo <= hi ->
  (forall x, lo <= x <= hi -> x < S -> g x <= 0) -> (forall x, lo <= x <= hi -> S < x -> 0 < g x) ->
  lo <= S <= hi -> hi - lo <= w ->
  Rabs (end_of_bracket g lo hi - S) <= Rmax BISECT_TOL (w / 2 ^ 100) / 2 /\
  lo <= end_of_bracket g lo hi <= hi.
Proof.
  intros Hlh H1 H2 HS Hw. unfold end_of_bracket.
  assert (HT : 0 < BISECT_TOL) by (unfold BISECT_TOL; lra).
  pose proof (Rmax_l BISECT_TOL (w / 2 ^ 100)).
  destruct (Rltb_spec lo hi) as [Hl|Hl].
  - destruct (bisect 100 g lo hi) as [lo' hi'] eqn:E. cbn [fst snd].
    destruct (bisect_spec 100 lo hi S lo' hi' Hlh H1 H2 HS E) as (A & B & C & D).
    assert (Hwid : hi' - lo' <= Rmax BISECT_TOL (w / 2 ^ 100)).
    { destruct D as [D|D]; [lra|]. rewrite D. eapply Rle_trans; [|apply Rmax_r].
      unfold Rdiv. apply Rmult_le_compat_r; [|lra].
      left. apply Rinv_0_lt_compat, pow_lt. lra. }
    split; [|lra]. apply Rabs_le. lra.
  - split; [|lra]. replace (lo - S) with 0 by lra. rewrite Rabs_R0. lra.
Qed.
End Bisect.

(** ** Implicit Euler and Crank-Nicolson *)
(** Both solve x = start + h * (inflow - (a + c q x)), with [a, c] = [0, 1] or [q start / 2, 1/2]. *)
Section Crossing.
Variables (q : R -> R) (start inflow h a c : R).
Hypothesis Hq : outflow_law q.
Hypothesis Hh : 0 < h.
Hypothesis Hs : 0 <= start.
Hypothesis Hi : 0 <= inflow.
Hypothesis Ha : 0 <= a.
Hypothesis Hc : 0 <= c.
Let rhs x := start + h * (inflow - (a + c * q x)).

Lemma rhs_mono x y : x <= y -> rhs y <= rhs x.
Proof.
  intros H. unfold rhs. destruct Hq as (_ & Hm & _). pose proof (Hm x y H).
  apply Rplus_le_compat_l. apply Rmult_le_compat_l; [lra|]. nra.
Qed.
Lemma rhs_upper x : rhs x <= start + h * inflow.
Proof.
  unfold rhs. apply Rplus_le_compat_l, Rmult_le_compat_l; [lra|].
  pose proof (proj1 Hq x). nra.
Qed.
Lemma crosses_exists : exists S, crosses (fun x => x) rhs S.
Proof.
  set (E := fun x => x = 0 \/ (0 <= x /\ x <= rhs x)).
  assert (Hup : 0 <= start + h * inflow) by (assert (0 <= h * inflow) by (apply Rmult_le_pos; lra); lra).
  destruct (completeness E) as [S [HS1 HS2]].
  - exists (start + h * inflow). intros x [->|[_ Hx]]; [lra|]. pose proof (rhs_upper x). lra.
  - exists 0. left; reflexivity.
  - exists S. assert (H0 : 0 <= S) by (apply HS1; left; reflexivity).
    split; [exact H0|]. split.
    + intros x Hx HxS. destruct (Rle_lt_dec x (rhs x)) as [H|H]; [exact H|].
      exfalso. enough (S <= x) by lra. apply HS2. intros y [->|[Hy Hy2]]; [exact Hx|].
      destruct (Rle_lt_dec y x); [assumption|]. pose proof (rhs_mono x y). lra.
    + intros x HxS. destruct (Rlt_le_dec (rhs x) x) as [H|H]; [exact H|].
      enough (x <= S) by lra. apply HS1. right. lra.
Qed.

Let lo0 := start + h * (inflow - (a + c * q (start + h * inflow))).
Lemma crosses_upper S : crosses (fun x => x) rhs S -> S <= start + h * inflow.
Proof.
  intros (H0 & H1 & H2). destruct (Rle_lt_dec S (start + h * inflow)) as [H|H]; [exact H|].
  exfalso. set (x := (S + (start + h * inflow)) / 2).
  assert (0 <= h * inflow) by (apply Rmult_le_pos; lra).
  assert (Hx : x <= rhs x) by (apply H1; unfold x; lra).
  pose proof (rhs_upper x). unfold x in *. lra.
Qed.
Lemma crosses_lower S : crosses (fun x => x) rhs S -> Rmax lo0 0 <= S.
Proof.
  intros (H0 & H1 & H2). apply Rmax_lub; [|exact H0].
  destruct (Rle_lt_dec lo0 S) as [H|H]; [exact H|exfalso].
  assert (Hl : lo0 <= start + h * inflow) by (apply (rhs_upper (start + h * inflow))).
  set (x := (S + lo0) / 2). assert (Hx : rhs x < x) by (apply H2; unfold x; lra).
  assert (lo0 <= rhs lo0). { unfold lo0 at 1. apply rhs_mono. exact Hl. }
  pose proof (rhs_mono x lo0). unfold x in *. lra.
Qed.
Lemma bracket_accurate g S : (forall x, g x = x - rhs x) -> crosses (fun x => x) rhs S ->
  Rabs (end_of_bracket g (Rmax lo0 0) (start + h * inflow) - S) <= bisection_accuracy start inflow h /\
  0 <= end_of_bracket g (Rmax lo0 0) (start + h * inflow) <= start + h * inflow.
Proof.
  intros Hg HS. pose proof (crosses_upper S HS). pose proof (crosses_lower S HS).
  pose proof (Rmax_r lo0 0).
  destruct (end_of_bracket_spec g (Rmax lo0 0) (start + h * inflow) S (start + h * inflow)) as [A B].
  - lra.
  - intros x Hx HxS. rewrite Hg. destruct HS as (_ & H1' & _). assert (x <= rhs x) by (apply H1'; lra). lra.
  - intros x Hx HxS. rewrite Hg. destruct HS as (_ & _ & H2'). specialize (H2' x HxS). lra.
  - lra.
  - lra.
  - split; [exact A|lra].
Qed.
End Crossing.

Lemma crosses_ext r1 r2 S : (forall x, r1 x = r2 x) -> crosses (fun x => x) r1 S -> crosses (fun x => x) r2 S.
Proof.
  intros E (H0 & H1 & H2). split; [exact H0|]. split; intros x; [|]; intros; rewrite <- E; auto.
Qed.

Section Implicit.
Variables (q : R -> R) (start inflow h : R).
Hypothesis Hq : outflow_law q.
Hypothesis Hh : 0 < h.
Hypothesis Hs : 0 <= start.
Hypothesis Hi : 0 <= inflow.

Lemma upper_bound_eq : upper_bound start inflow h = start + h * inflow.
Proof. unfold upper_bound. rewrite Rmax_left by lra. reflexivity. Qed.

Lemma implicit_accurate : exists S, implicit_content q start inflow h S /\
  Rabs (implicit_end false q start inflow h - S) <= bisection_accuracy start inflow h /\
  0 <= implicit_end false q start inflow h <= start + h * inflow.
Proof.
  destruct (crosses_exists q start inflow h 0 1 Hq Hh Hs Hi (Rle_refl 0) ltac:(lra)) as [S HS].
  exists S. split; [eapply crosses_ext; [|exact HS]; intros x; cbn; ring|].
  unfold implicit_end, implicit_lower. rewrite upper_bound_eq.
  replace (start + h * (inflow - q (start + h * inflow)))
    with (start + h * (inflow - (0 + 1 * q (start + h * inflow)))) by ring.
  apply (bracket_accurate q start inflow h 0 1 Hq Hh Hs Hi (Rle_refl 0) ltac:(lra)); [|exact HS].
  intros x. unfold implicit_g. ring.
Qed.
Lemma trapezoidal_accurate : exists S, trapezoidal_content q start inflow h S /\
  Rabs (trapezoidal_end false q (q start) start inflow h - S) <= bisection_accuracy start inflow h /\
  0 <= trapezoidal_end false q (q start) start inflow h <= start + h * inflow.
Proof.
  assert (H0 := proj1 Hq start).
  destruct (crosses_exists q start inflow h (q start / 2) (/ 2) Hq Hh Hs Hi ltac:(lra) ltac:(lra)) as [S HS].
  exists S. split; [eapply crosses_ext; [|exact HS]; intros x; cbn; field|].
  unfold trapezoidal_end, trapezoidal_lower. rewrite upper_bound_eq.
  replace (start + h * (inflow - (q start + q (start + h * inflow)) / 2))
    with (start + h * (inflow - (q start / 2 + / 2 * q (start + h * inflow)))) by field.
  apply (bracket_accurate q start inflow h (q start / 2) (/ 2) Hq Hh Hs Hi ltac:(lra) ltac:(lra)); [|exact HS].
  intros x. unfold trapezoidal_g. field.
Qed.
End Implicit.

(** The crossing is unique, and any non-negative root is the crossing. *)
Lemma crosses_unique r S S' : crosses (fun x => x) r S -> crosses (fun x => x) r S' -> S = S'.
Proof.
  intros (A0 & A1 & A2) (B0 & B1 & B2). destruct (Rtotal_order S S') as [H|[H|H]]; [|exact H|];
  exfalso; set (m := (S + S') / 2).
  - specialize (A2 m ltac:(unfold m; lra)). specialize (B1 m ltac:(unfold m; lra) ltac:(unfold m; lra)). lra.
  - specialize (B2 m ltac:(unfold m; lra)). specialize (A1 m ltac:(unfold m; lra) ltac:(unfold m; lra)). lra.
Qed.
Lemma root_crosses r S : 0 <= S -> S = r S -> (forall x y, x <= y -> r y <= r x) -> crosses (fun x => x) r S.
Proof.
  intros H0 HS Hm. split; [exact H0|]. split; intros x; intros.
  - pose proof (Hm x S). lra.
  - pose proof (Hm S x). lra.
Qed.

(** ** Linear reservoirs *)
Lemma one_minus_exp x : 1 - exp (- x) <= x.
Proof. pose proof (exp_ineq1_le (- x)). lra. Qed.
Lemma exp_le_1 x : 0 <= x -> 0 < exp (- x) <= 1.
Proof.
  intros H. split; [apply exp_pos|]. destruct (Req_dec x 0) as [->|Hne]; [rewrite Ropp_0, exp_0; lra|].
  left. assert (E := exp_increasing (- x) 0 ltac:(lra)). rewrite exp_0 in E. exact E.
Qed.

Lemma lin_deriv K t : derivable_pt_lim (fun t => K * t) t K.
Proof.
  assert (H := derivable_pt_lim_scal id K t 1 (derivable_pt_lim_id t)). rewrite Rmult_1_r in H. exact H.
Qed.

Lemma reservoir_formula S start inflow K h : 0 < K -> 0 <= h -> reservoir_solution S start inflow K h ->
  S h = start * exp (- K * h) + inflow / K * (1 - exp (- K * h)).
Proof.
  intros HK Hh [H0 Hd].
  destruct (Req_dec h 0) as [->|Hne].
  { rewrite Rmult_0_r, exp_0, H0. lra. }
  set (phi := fun t => (S t - inflow / K) * exp (K * t)).
  assert (Hphi : forall t, 0 <= t <= h -> derivable_pt_lim phi t 0).
  { intros t Ht. unfold phi.
    replace 0 with ((inflow - K * S t - 0) * exp (K * t) + (S t - inflow / K) * (exp (K * t) * K)) by (field; lra).
    apply (derivable_pt_lim_mult (fun t => S t - inflow / K) (fun t => exp (K * t))).
    - apply (derivable_pt_lim_minus S (fun _ => inflow / K)); [apply Hd, Ht|apply derivable_pt_lim_const].
    - apply (derivable_pt_lim_comp (fun t => K * t) exp).
      + exact (lin_deriv K t).
      + apply derivable_pt_lim_exp. }
  destruct (MVT_cor2 phi (fun _ => 0) 0 h ltac:(lra) Hphi) as (c & Hc & _).
  unfold phi in Hc. rewrite H0, Rmult_0_r, exp_0 in Hc.
  assert (E : (S h - inflow / K) * exp (K * h) = start - inflow / K) by lra.
  assert (Einv : exp (- K * h) * exp (K * h) = 1).
  { rewrite <- exp_plus. replace (- K * h + K * h) with 0 by ring. apply exp_0. }
  assert (E2 : S h - inflow / K = (start - inflow / K) * exp (- K * h)).
  { rewrite <- E. rewrite Rmult_assoc, (Rmult_comm (exp (K * h))), Einv. ring. }
  replace (S h) with (inflow / K + (S h - inflow / K)) by ring. rewrite E2. ring.
Qed.

(** Such a solution exists. *)
Lemma reservoir_exists start inflow K h : 0 < K ->
  reservoir_solution (fun t => start * exp (- K * t) + inflow / K * (1 - exp (- K * t))) start inflow K h.
Proof.
  intros HK. split; [rewrite Rmult_0_r, exp_0; ring|]. intros t _.
  assert (He : derivable_pt_lim (fun t => exp (- K * t)) t (exp (- K * t) * (- K))).
  { apply (derivable_pt_lim_comp (fun t => - K * t) exp); [|apply derivable_pt_lim_exp].
    exact (lin_deriv (- K) t). }
  replace (inflow - K * (start * exp (- K * t) + inflow / K * (1 - exp (- K * t))))
    with (start * (exp (- K * t) * - K) + inflow / K * (0 - exp (- K * t) * - K)) by (field; lra).
  apply (derivable_pt_lim_plus (fun t => start * exp (- K * t)) (fun t => inflow / K * (1 - exp (- K * t)))).
  - apply (derivable_pt_lim_scal (fun t => exp (- K * t))), He.
  - apply (derivable_pt_lim_scal (fun t => 1 - exp (- K * t))). apply (derivable_pt_lim_minus (fun _ => 1)); [apply derivable_pt_lim_const|exact He].
Qed.

Lemma reservoir_nonneg start inflow K h : 0 < K -> 0 <= h -> 0 <= start -> 0 <= inflow ->
  let x := start * exp (- K * h) + inflow / K * (1 - exp (- K * h)) in
  0 <= x /\ 0 <= inflow * h - (x - start).
Proof.
  intros HK Hh Hs Hi x. assert (HKh : 0 <= K * h) by (apply Rmult_le_pos; lra).
  pose proof (exp_le_1 (K * h) HKh) as He. replace (- (K * h)) with (- K * h) in He by ring.
  pose proof (one_minus_exp (K * h)) as Ho. replace (- (K * h)) with (- K * h) in Ho by ring.
  assert (HiK : 0 <= inflow / K) by (apply Rmult_le_pos; [lra|left; apply Rinv_0_lt_compat, HK]).
  unfold x. split.
  - apply Rplus_le_le_0_compat; apply Rmult_le_pos; lra.
  - replace (inflow * h) with (inflow / K * (K * h)) by (field; lra).
    assert (0 <= start * (1 - exp (- K * h))) by (apply Rmult_le_pos; lra).
    assert (inflow / K * (1 - exp (- K * h)) <= inflow / K * (K * h)) by (apply Rmult_le_compat_l; lra). lra.
Qed.
