(** Property theorems: clock, forcing and run (C32, C33, C34, C35, C45, C46). *)
From Coq Require Import ZArith Reals Lra Lia List.
From Verif Require Import Base BaseFacts Clock TimeSeries Actions ModelRun RunSpec ClockFacts ModelRunFacts SupplyFacts RunMoreFacts.
Open Scope R_scope.

(** *** C32 *)
(** In real arithmetic: for every valid clock, the steps performed are those of the dates start, start + dt, ... not after the end;
    their number is the number of rows allocated; no other sequence of steps is possible. *)
Theorem c32_steps : forall T dt, timer_valid T dt = true ->
  let n := Z.to_nat (step_count T dt) in
  fills_period (t_start T) (t_end T) dt n /\ Z.of_nat n = step_count T dt /\
  forall dates, loop_dates (next_date dt) (is_over T) (t_start T) dates <-> dates = period_dates (t_start T) dt n.
Proof.
  intros T dt H n. apply timer_facts in H. destruct H as (H1 & H2 & H3). pose proof (count_fills T dt ltac:(lra) H2) as F. fold n in F. split; [exact F|].
  split.
  - unfold n. rewrite Z2Nat.id; [reflexivity|]. unfold step_count. apply c_int_nonneg.
    assert (0 <= (t_end T - t_start T) / dt) by (apply Rmult_le_pos; [lra|left; apply Rinv_0_lt_compat; exact H2]). lra.
  - intros dates. pose proof (loop_period T dt n (t_start T) F) as L. split; [intros X; exact (loop_deterministic _ _ _ _ X _ L)|intros ->; exact L].
Qed.
Print Assumptions c32_steps.
(** Every row of results is written, in the order of the dates, whatever the model, the forcing and the spin-up, as soon as the run succeeds. *)
Theorem c32_every_row_filled : forall (P U V A Row : Type) (E : engine P U V A Row) T dt spinup (m m' : model P U V A Row),
  timer_valid T dt = true -> m_date m = t_start T -> m_row m = 0%nat -> length (m_rows m) = Z.to_nat (step_count T dt) ->
  run E T dt spinup m (Ok m') ->
  exists rows, m_rows m' = map Some rows /\ map fst rows = period_dates (t_start T) dt (Z.to_nat (step_count T dt)).
Proof.
  intros P U V A Row E T dt k m m' H Hd Hr Hl X. apply timer_facts in H. destruct H as (H1 & H2 & H3).
  exact (run_rows E T dt k _ m m' Hd Hr Hl (count_fills T dt ltac:(lra) H2) X).
Qed.
Print Assumptions c32_every_row_filled.

(** A small model: one store that receives the forcing. *)
Definition adder : engine R unit R unit R :=
  mkE (fun _ _ _ v p => Ok (p + fold_right Rplus 0 v)) (fun _ p => Ok p) (fun _ p => Ok p) (fun _ u => u) (fun p => p) (fun p => p) (fun p => p) (fun _ => 0).
Definition T3 : timer := mkT 10 12 1 Day.
Definition rain : series R := mkS 9 13 1 Day [1; 2; 3; 4; 5] 0.
Definition adder_model : model R unit R unit R := mkMod 10 [rain] new_manager tt true [None; None; None] 0 None 0.
Ltac rtest := repeat first [ rewrite (proj2 (Rltb_true _ _)) by lra | rewrite (proj2 (Rltb_false _ _)) by lra | rewrite (proj2 (Rleb_true _ _)) by lra | rewrite (proj2 (Rleb_false _ _)) by lra ].
Lemma T3_valid : timer_valid T3 1 = true.
Proof. unfold timer_valid, T3. cbn [t_start t_end t_step]. rtest. reflexivity. Qed.
Lemma T3_count : step_count T3 1 = 3%Z.
Proof. unfold step_count, T3. cbn [t_start t_end]. apply c_int_unique; lra. Qed.
Lemma rain_usable : usable T3 1 rain.
Proof.
  unfold usable, well_dated, date_of, T3, rain. cbn. repeat split; try lra; try discriminate. left; reflexivity.
Qed.
Lemma adder_fresh : fresh_model T3 adder_model.
Proof. repeat split. Qed.

(** *** C34 *)
(** Series with the step of the clock that cover the period (daily, or hourly and minutely with an offset of whole days): the run performs,
    at every date, the computation with the values in force at that date; it fails only if the computation itself, or an action, fails. *)
Theorem c34_forcing_of_the_dates : forall (P U V A Row : Type) (E : engine P U V A Row) T dt (m : model P U V A Row),
  timer_valid T dt = true -> fresh_model T m -> length (m_rows m) = Z.to_nat (step_count T dt) -> (forall s, In s (m_series m) -> usable T dt s) ->
  let dates := period_dates (t_start T) dt (Z.to_nat (step_count T dt)) in
  exists forcing, (forall d, In d dates -> Forall2 (fun s v => in_force s d v) (m_series m) (forcing d)) /\
    match spec_run E dt forcing dates (m_phys m) (m_params m) (m_manager m) with
    | Ok (rows, p, u, g) => exists m', run E T dt 0 m (Ok m') /\ m_rows m' = map Some rows /\ m_phys m' = p /\ m_params m' = u /\ m_manager m' = g
    | Throw => run E T dt 0 m Throw
    | UB => run E T dt 0 m UB
    end.
Proof.
  intros P U V A Row E T dt m Hv Hfr Hlen Hu dates. apply timer_facts in Hv. destruct Hv as (H1 & H2 & H3).
  assert (HT : t_start T <= t_end T) by lra. set (n := Z.to_nat (step_count T dt)) in *. pose proof (count_fills T dt HT H2) as F. fold n in F.
  pose proof (forcing_of_spec T dt (m_series m) n H2 HT Hu (proj1 F)) as FF.
  exists (forcing_of dt (m_series m)). split.
  - intros d Hd. unfold dates, period_dates in Hd. apply in_map_iff in Hd. destruct Hd as (i & <- & Hi). apply in_seq in Hi. apply FF. lia.
  - destruct (series_supplied T dt H2 m (forcing_of dt (m_series m)) n (proj1 Hfr) HT Hu (proj1 F) (count_positive T dt HT H2) FF) as (m1 & Hi & Hs).
    pose proof (run_spec_thm E T dt (forcing_of dt (m_series m)) n m m1 Hfr Hi Hs F Hlen) as S1. fold dates in S1.
    destruct (spec_run E dt (forcing_of dt (m_series m)) dates (m_phys m) (m_params m) (m_manager m)) as [[[[rows p] u] g]| |]; [|exact S1|exact S1].
    destruct S1 as (m' & R1 & I1 & I2 & I3 & I4 & _). exists m'. auto.
Qed.
Print Assumptions c34_forcing_of_the_dates.
(** There is a run of three days; the first value of the series, recorded for the day before, is not used. *)
Example c34_holds_somewhere : exists m', run adder T3 1 0 adder_model (Ok m') /\ m_rows m' = [Some (10, 2); Some (11, 2 + 3); Some (12, 2 + 3 + 4)].
Proof.
  pose proof (count_fills T3 1 ltac:(cbn; lra) ltac:(lra)) as F. pose proof (c34_forcing_of_the_dates _ _ _ _ _ adder T3 1 adder_model T3_valid adder_fresh) as K.
  rewrite T3_count in K, F. specialize (K eq_refl). cbn [adder_model m_series] in K. specialize (K ltac:(intros s [<-|[]]; exact rain_usable)). cbn zeta in K.
  change (Z.to_nat 3) with 3%nat in *. unfold period_dates in K. cbn [seq map] in K.
  destruct K as (f & Hf & K).
  assert (V0 : forall i d x, In d [10; 11; 12] -> d = 9 + INR i -> nth_error [1; 2; 3; 4; 5] i = Some x -> f d = [x]).
  { intros i d x Hd Ed Hx. assert (Hin : In d [t_start T3 + INR 0 * 1; t_start T3 + INR 1 * 1; t_start T3 + INR 2 * 1]).
    { cbn in Hd |- *. destruct Hd as [<-|[<-|[<-|[]]]]; [left|right; left|right; right; left]; lra. }
    specialize (Hf d Hin). inversion Hf as [|? v ? l (j & Hj & Hjd) Hl]; subst. inversion Hl; subst. unfold date_of in Hjd. cbn [rain s_start s_step s_unit unit_days] in Hjd. cbn [rain s_values] in Hj.
    assert (j = i). { apply (index_unique 1 ltac:(lra) 9 (9 + INR i)); [rewrite !S_INR in *; lra|rewrite !S_INR; lra]. }
    subst j. rewrite Hx in Hj. injection Hj as ->. reflexivity. }
  replace (t_start T3 + INR 0 * 1) with 10 in K by (cbn; lra). replace (t_start T3 + INR 1 * 1) with 11 in K by (cbn; lra). replace (t_start T3 + INR 2 * 1) with 12 in K by (cbn; lra).
  pose proof (V0 1%nat 10 2 ltac:(left; reflexivity) ltac:(cbn; lra) eq_refl) as V1.
  pose proof (V0 2%nat 11 3 ltac:(right; left; reflexivity) ltac:(cbn; lra) eq_refl) as V2.
  pose proof (V0 3%nat 12 4 ltac:(right; right; left; reflexivity) ltac:(cbn; lra) eq_refl) as V3.
  cbn [spec_run adder e_process e_recurring e_row e_forget_updates e_update adder_model m_phys m_params m_manager bind] in K. rewrite V1, V2, V3 in K.
  cbn in K. destruct K as (m' & R1 & R2 & _). exists m'. split; [exact R1|]. rewrite R2. repeat (f_equal; try lra).
Qed.

(** Refuted without the condition on the step: a daily series given to an hourly model passes every check of its addition, and the run reads
    beyond its data. *)
Definition hours2 : timer := mkT 1 2 1 Hour.
Definition daily2 : series R := mkS 1 2 1 Day [5; 6] 0.
Definition hourly_model : model R unit R unit R := mkMod 1 [daily2] new_manager tt true (repeat None 25) 0 None 0.
Lemma hourly_step dt d c v rows r i p o : nth_error [5; 6] c = Some v -> nth_error rows r = Some o ->
  sim_step adder dt (mkMod d [with_cursor daily2 (Z.of_nat c)] new_manager tt true rows r i p) =
  Ok (mkMod (d + dt) [with_cursor daily2 (Z.of_nat (S c))] new_manager tt true (firstn r rows ++ Some (d, p + (v + 0)) :: skipn (S r) rows) (S r) i (p + (v + 0))).
Proof.
  intros Hc Hr. assert (Hc2 : (c < 2)%nat) by (change 2%nat with (length [5; 6]); apply nth_error_Some; congruence).
  unfold sim_step, process. cbn [m_series map_outcome]. rewrite (current_at daily2 c v Hc). cbn [bind m_date m_params m_phys adder e_process fold_right].
  unfold record_row. cbn [set_phys m_rows m_row]. rewrite Hr. cbn [bind]. unfold increment_time. cbn [m_attached set_phys m_date m_series m_manager m_params m_rows m_row m_initial m_phys adder e_recurring bind e_row].
  change (date_update (d + dt) (@new_manager unit)) with (Ok (@nil (R * (R * unit)), @new_manager unit)). cbn [bind apply_all e_update].
  unfold update_forcing, next_row. cbn [m_series map_outcome]. unfold advance. cbn [with_cursor s_values s_cursor daily2 length].
  rewrite (proj2 (Z.leb_gt _ _)) by lia. replace (Z.of_nat c + 1)%Z with (Z.of_nat (S c)) by lia. reflexivity.
Qed.
Theorem c34_time_step_not_checked_refuted :
  step_in_days 1 Hour = Ok (/ 24) /\ timer_valid hours2 (/ 24) = true /\ Z.to_nat (step_count hours2 (/ 24)) = length (m_rows hourly_model) /\
  set_values (mkS 1 2 1 Day [] 0) [5; 6] = (true, daily2) /\
  add_series hours2 [] (mkF 0 [(1%Z, daily2)]) = (true, [mkF 0 [(1%Z, daily2)]]) /\ run adder hours2 (/ 24) 0 hourly_model UB.
Proof.
  split; [unfold step_in_days; f_equal; lra|]. split; [unfold timer_valid, hours2; cbn [t_start t_end t_step]; rtest; reflexivity|].
  split; [replace (step_count hours2 (/ 24)) with 25%Z; [reflexivity|]; symmetry; unfold step_count, hours2; cbn [t_start t_end]; apply c_int_unique; lra|].
  split; [unfold set_values; cbn; destruct (Reqb_cases (1 + 1) 2) as [(_ & ->)|(H & _)]; [reflexivity|exfalso; apply H; lra]|].
  split.
  { apply add_series_spec. split; [reflexivity|]. split; [unfold forcing_valid; cbn -[Rleb]; unfold series_valid; cbn -[Rleb]; rtest; reflexivity|].
    split; [intros g []|]. exists 1%Z, daily2, []. cbn. repeat split; lra. }
  eapply (run_ok _ _ _ _ _ (set_series hourly_model [daily2])).
  - unfold init_series, hourly_model. cbn [m_series m_date map_outcome]. rewrite (set_cursor_day daily2 1 0 eq_refl) by (cbn; lra). reflexivity.
  - reflexivity.
  - assert (O : forall d, d <= 2 -> is_over hours2 d = false) by (intros d Hd; unfold is_over; apply Rltb_false; cbn; exact Hd).
    unfold save_initial, hourly_model, set_series. cbn [m_date m_series m_manager m_params m_attached m_rows m_row m_initial m_phys].
    change [daily2] with [with_cursor daily2 (Z.of_nat 0)]. generalize (Some (e_row adder 0)) as i0. intros i0.
    eapply sim_more; [apply O; cbn; lra|eapply hourly_step; reflexivity|]. eapply sim_more; [apply O; cbn [m_date]; lra|eapply hourly_step; reflexivity|].
    apply sim_ub; [apply O; cbn [m_date]; lra|]. unfold sim_step, process. cbn [m_series map_outcome]. reflexivity.
Qed.
Print Assumptions c34_time_step_not_checked_refuted.

(** *** C33 *)
(** Daily series: positioned at any date of its range, the series gives the value in force at that date; in particular the value recorded for it. *)
Theorem c33_daily : forall (V : Type) (s : series V) date, well_dated s -> s_step s = 1%Z -> s_unit s = Day -> s_start s <= date <= s_end s ->
  (exists v, in_force s date v /\ value_for date s = Ok v) /\ (forall v, recorded_at s date v -> value_for date s = Ok v).
Proof.
  intros V s date W Hs Hu Hd. destruct (value_day s date W Hs Hu Hd) as (v & Hf & Hv). split; [eauto|].
  intros w (i & Hi & Ei). destruct Hf as (j & Hj & Hjd). unfold date_of in *. rewrite Hs, Hu in *. cbn [unit_days] in *.
  assert (i = j). { apply (index_unique 1 ltac:(lra) (s_start s) date); rewrite !S_INR in *; lra. }
  subst j. rewrite Hi in Hj. injection Hj as ->. exact Hv.
Qed.
Print Assumptions c33_daily.
Example c33_daily_somewhere : recorded_at rain 11 3 /\ value_for 11 rain = Ok 3.
Proof.
  assert (H : recorded_at rain 11 3) by (exists 2%nat; split; [reflexivity|unfold date_of; cbn; lra]). split; [exact H|].
  apply c33_daily; [apply rain_usable|reflexivity|reflexivity|cbn; lra|exact H].
Qed.
(** Hourly and minutely series: the value recorded for the date, at a whole number of days after the start of the series. *)
Theorem c33_subdaily_whole_days_partial : forall (V : Type) (s : series V) date (k : nat), well_dated s -> s_step s = 1%Z -> s_unit s = Hour \/ s_unit s = Minute ->
  date = s_start s + INR k -> date <= s_end s -> exists v, recorded_at s date v /\ value_for date s = Ok v.
Proof.
  intros V s date k W Hs Hu Hd He. destruct (value_subday s date k W Hs Hu ltac:(lra) He) as (Hv & Hl).
  destruct (nth_error (s_values s) (k * per_day (s_unit s))) as [v|] eqn:En; [|apply nth_error_None in En; lia].
  exists v. split; [|exact Hv]. exists (k * per_day (s_unit s))%nat. split; [exact En|]. unfold date_of. rewrite Hs, mult_INR, Hd.
  destruct Hu as [-> | ->]; cbn [per_day unit_days]; [replace (INR 24) with 24 by (cbn; lra)|rewrite (INR_IZR_INZ (Z.to_nat 1440)), Z2Nat.id by lia]; lra.
Qed.
Print Assumptions c33_subdaily_whole_days_partial.
(** Refuted at the other hours: for every hourly series, every day k and every hour h of 1..23, the value given for the hour h of the day k is
    the one recorded for the beginning of that day. *)
Theorem c33_hours_of_the_day_refuted : forall (V : Type) (s : series V) (k h : nat), well_dated s -> s_step s = 1%Z -> s_unit s = Hour -> (1 <= h <= 23)%nat ->
  let date := date_of s (24 * k + h) in date <= s_end s ->
  exists v, recorded_at s (date_of s (24 * k)) v /\ value_for date s = Ok v /\ date_of s (24 * k) <> date.
Proof.
  intros V s k h W Hs Hu Hh date He. assert (Dd : forall i, date_of s i = s_start s + INR i / 24) by (intros i; unfold date_of; rewrite Hs, Hu; cbn [unit_days]; lra).
  assert (Hh1 : 1 <= INR h <= 23). { split; [apply (le_INR 1); lia|replace 23 with (INR 23) by (cbn; lra); apply le_INR; lia]. }
  assert (E24 : forall i, INR (24 * k + i) = 24 * INR k + INR i) by (intros i; rewrite plus_INR, mult_INR; replace (INR 24) with 24 by (cbn; lra); reflexivity).
  assert (E0 : INR (24 * k) = 24 * INR k) by (rewrite mult_INR; replace (INR 24) with 24 by (cbn; lra); reflexivity).
  destruct (value_subday s date k W Hs (or_introl Hu)) as (Hv & Hl); [unfold date; rewrite Dd, E24; lra|exact He|].
  rewrite Hu in Hv, Hl. cbn [per_day] in Hv, Hl. rewrite Nat.mul_comm in Hv, Hl. destruct (nth_error (s_values s) (24 * k)) as [v|] eqn:En; [|apply nth_error_None in En; lia].
  exists v. split; [exists (24 * k)%nat; auto|]. split; [exact Hv|]. unfold date. rewrite !Dd, E24, E0. lra.
Qed.
Print Assumptions c33_hours_of_the_day_refuted.
(** Two values an hour apart: the value given for the second hour is the first one. *)
Example c33_refuted_somewhere : exists s : series nat, well_dated s /\ s_unit s = Hour /\ recorded_at s (1 + 1 / 24) 8%nat /\ value_for (1 + 1 / 24) s = Ok 7%nat.
Proof.
  set (s := mkS 1 (1 + 1 / 24) 1 Hour [7; 8]%nat 0). assert (W : well_dated s) by (split; [discriminate|unfold date_of, s; cbn; lra]).
  exists s. split; [exact W|]. split; [reflexivity|]. split; [exists 1%nat; split; [reflexivity|unfold date_of, s; cbn; lra]|].
  destruct (value_subday s (1 + 1 / 24) 0 W eq_refl (or_introl eq_refl)) as (Hv & _); [cbn; lra|cbn; lra|exact Hv].
Qed.
(** Refuted for a step of several days: the position counts days, not steps, and can be out of the data. *)
Theorem c33_step_ignored_refuted : exists s : series nat, well_dated s /\ s_step s = 2%Z /\ s_unit s = Day /\ recorded_at s 3 8%nat /\ value_for 3 s = Ok 9%nat /\
  recorded_at s 5 9%nat /\ value_for 5 s = UB.
Proof.
  set (s := mkS 1 5 2 Day [7; 8; 9]%nat 0). exists s. split; [split; [discriminate|unfold date_of, s; cbn; lra]|]. split; [reflexivity|]. split; [reflexivity|].
  split; [exists 1%nat; split; [reflexivity|unfold date_of, s; cbn; lra]|]. split; [unfold value_for; rewrite (set_cursor_day s 3 2 eq_refl) by (cbn; lra); reflexivity|].
  split; [exists 2%nat; split; [reflexivity|unfold date_of, s; cbn; lra]|]. unfold value_for. rewrite (set_cursor_day s 5 4 eq_refl) by (cbn; lra). reflexivity.
Qed.
Print Assumptions c33_step_ignored_refuted.

(** *** C35 *)
(** A run with a spin-up is the run without spin-up from the stores warmed up over the first steps of the period, with the fractions
    restored: no row, no action, no parameter modification, same clock and same forcing.  The warm-up computes with the parameters given. *)
Theorem c35_spin_up : forall (P U V A Row : Type) (E : engine P U V A Row) T dt spinup (m : model P U V A Row),
  timer_valid T dt = true -> fresh_model T m -> (forall s, In s (m_series m) -> usable T dt s) -> (0 < spinup <= Z.to_nat (step_count T dt))%nat ->
  exists forcing, (forall d, In d (period_dates (t_start T) dt (Z.to_nat (step_count T dt))) -> Forall2 (fun s v => in_force s d v) (m_series m) (forcing d)) /\
    forall p, warm_up E dt forcing (period_dates (t_start T) dt spinup) (m_params m) (m_phys m) = Ok p ->
    forall r, run E T dt spinup m r <-> run E T dt 0 (set_phys m (e_restore_fractions E p)) r.
Proof.
  intros P U V A Row E T dt k m Hv Hfr Hu Hk. apply timer_facts in Hv. destruct Hv as (H1 & H2 & H3).
  assert (HT : t_start T <= t_end T) by lra. set (n := Z.to_nat (step_count T dt)) in *. pose proof (count_fills T dt HT H2) as F. fold n in F.
  pose proof (forcing_of_spec T dt (m_series m) n H2 HT Hu (proj1 F)) as FF. exists (forcing_of dt (m_series m)). split.
  - intros d Hd. unfold period_dates in Hd. apply in_map_iff in Hd. destruct Hd as (i & <- & Hi). apply in_seq in Hi. apply FF. lia.
  - intros p Hw. destruct (series_supplied T dt H2 m (forcing_of dt (m_series m)) n (proj1 Hfr) HT Hu (proj1 F) (count_positive T dt HT H2) FF) as (m1 & Hi & Hs).
    exact (run_spinup_equiv E T dt (forcing_of dt (m_series m)) k n m m1 p Hk Hfr Hi Hs Hw).
Qed.
Print Assumptions c35_spin_up.
(** The number of spin-up steps never exceeds that of the period, whatever the duration asked for; within the period it is the number of
    whole steps of that duration. *)
Theorem c35_never_longer_than_the_period : forall T dt days, timer_valid T dt = true -> (0 <= days)%Z ->
  (0 <= spinup_count T dt days <= step_count T dt)%Z /\
  (forall n : Z, (n < step_count T dt)%Z -> spinup_count T dt days = n <-> IZR n * dt <= IZR days < (IZR n + 1) * dt).
Proof.
  intros T dt days Hv Hd. apply timer_facts in Hv. destruct Hv as (H1 & H2 & H3). unfold spinup_count.
  assert (D0 : 0 <= IZR days) by (apply (IZR_le 0); exact Hd).
  assert (Q0 : 0 <= IZR days / dt) by (apply Rmult_le_pos; [exact D0|left; apply Rinv_0_lt_compat; exact H2]).
  pose proof (c_int_nonneg _ Q0) as C0. pose proof (c_int_spec _ Q0) as C. assert (Eq : IZR days = IZR days / dt * dt) by (field; lra).
  pose proof (count_positive T dt ltac:(lra) H2). split; [lia|]. intros n Hn. rewrite Z.min_l_iff || idtac. set (c := c_int (IZR days / dt)) in *. set (q := IZR days / dt) in *.
  assert (Hc : forall z : Z, IZR z * dt <= IZR days < (IZR z + 1) * dt -> c = z).
  { intros z (Z1 & Z2). unfold c. apply c_int_unique; [exact Q0|]. split; [apply Rmult_le_reg_r with dt; lra|apply Rmult_lt_reg_r with dt; lra]. }
  split.
  - intros Hm. assert (Hcn : c = n) by lia. rewrite <- Hcn, Eq. split; [apply Rmult_le_compat_r; lra|]. apply Rmult_lt_compat_r; [exact H2|exact (proj2 C)].
  - intros X. apply Hc in X. lia.
Qed.
Print Assumptions c35_never_longer_than_the_period.
(** One day of spin-up of the small model: the store starts with the rain of the first day. *)
Example c35_holds_somewhere : warm_up adder 1 (fun _ => [2]) (period_dates 10 1 1) tt 0 = Ok (0 + (2 + 0)) /\ (0 < 1 <= Z.to_nat (step_count T3 1))%nat /\ spinup_count T3 1 1 = 1%Z.
Proof.
  split; [reflexivity|]. rewrite T3_count. split; [lia|]. apply (proj2 (c35_never_longer_than_the_period T3 1 1 T3_valid ltac:(lia)) 1%Z); [rewrite T3_count; lia|lra].
Qed.

(** *** C45 *)
(** Series whose units share their dates (as all those built from one time axis): accepted exactly when valid, of a new type, starting no later
    and ending no earlier than the model; a refused series leaves the model unchanged. *)
Theorem c45_accepted_iff_covering : forall (V : Type) T l (f : forcing_series V) start stop, (forall id s, In (id, s) (fs_data f) -> s_start s = start /\ s_end s = stop) ->
  let covering := forcing_valid f = true /\ (forall g, In g l -> fs_type g <> fs_type f) /\ start <= t_start T /\ t_end T <= stop in
  (covering -> add_series T l f = (true, l ++ [f])) /\ (~ covering -> add_series T l f = (false, l)).
Proof.
  intros V T l f start stop Hd covering. split.
  - intros (H1 & H2 & H3 & H4). apply add_series_spec. split; [reflexivity|]. split; [exact H1|]. split; [exact H2|].
    destruct (fs_data f) as [|[id s] rest] eqn:Ed; [unfold forcing_valid in H1; rewrite Ed in H1; discriminate|].
    destruct (Hd id s (or_introl eq_refl)) as (D1 & D2). exists id, s, rest. rewrite D1, D2. auto.
  - intros N. destruct (add_series T l f) as [[|] l'] eqn:Ea.
    + exfalso. apply N. apply add_series_spec in Ea. destruct Ea as (_ & H1 & H2 & id & s & rest & Ed & H3 & H4). rewrite Ed in Hd.
      destruct (Hd id s (or_introl eq_refl)) as (<- & <-). repeat split; assumption.
    + f_equal. exact (add_series_refused T l f l' Ea).
Qed.
Print Assumptions c45_accepted_iff_covering.
(** What a valid series is: at least one unit, each unit once, and for each of them at least one value, a positive step and an end that is not before the start. *)
Theorem c45_valid_series : forall (V : Type) (f : forcing_series V), forcing_valid f = true <->
  fs_data f <> [] /\ NoDup (map fst (fs_data f)) /\
  forall id s, In (id, s) (fs_data f) -> s_values s <> [] /\ (0 < s_step s)%Z /\ s_start s <= s_end s.
Proof.
  intros V f. unfold forcing_valid. rewrite !Bool.andb_true_iff, forallb_forall, Bool.negb_true_iff, Nat.eqb_neq.
  assert (D : forall l, no_duplicate l = true <-> NoDup l).
  { induction l as [|x l IH]; cbn [no_duplicate]; [split; [constructor|reflexivity]|]. rewrite Bool.andb_true_iff, IH, Bool.negb_true_iff. split.
    - intros (H1 & H2). constructor; [|exact H2]. intros Hin. assert (existsb (Z.eqb x) l = true); [|congruence]. apply existsb_exists. exists x. split; [exact Hin|apply Z.eqb_refl].
    - intros H. inversion H as [|? ? N H2]; subst. split; [|exact H2]. destruct (existsb (Z.eqb x) l) eqn:E; [|reflexivity]. apply existsb_exists in E. destruct E as (y & Hy & Q). apply Z.eqb_eq in Q. subst. contradiction. }
  assert (S : forall s : series V, series_valid s = true <-> s_values s <> [] /\ (0 < s_step s)%Z /\ s_start s <= s_end s).
  { intros s. unfold series_valid. rewrite !Bool.andb_true_iff, Bool.negb_true_iff, Nat.eqb_neq, Z.ltb_lt, Rleb_true. split.
    - intros ((H1 & H2) & H3). split; [|auto]. intros E. apply H1. rewrite E. reflexivity.
    - intros (H1 & H2 & H3). split; [split|]; [|exact H3|exact H2]. intros E. apply H1. destruct (s_values s); [reflexivity|discriminate]. }
  rewrite D. split.
  - intros ((H1 & H2) & H3). split; [intros E; apply H1; rewrite E; reflexivity|]. split; [exact H3|]. intros id s Hin. apply S. exact (H2 (id, s) Hin).
  - intros (H1 & H2 & H3). split; [split|exact H2].
    + intros E. apply H1. destruct (fs_data f); [reflexivity|discriminate].
    + intros [id s] Hin. apply S. exact (H3 id s Hin).
Qed.
Print Assumptions c45_valid_series.
Example c45_holds_somewhere : add_series T3 [] (mkF 0 [(1%Z, rain); (2%Z, rain)]) = (true, [mkF 0 [(1%Z, rain); (2%Z, rain)]]) /\
  add_series T3 [mkF 0 [(1%Z, rain)]] (mkF 0 [(1%Z, rain)]) = (false, [mkF 0 [(1%Z, rain)]]) /\
  add_series (mkT 8 12 1 Day) [] (mkF 0 [(1%Z, rain)]) = (false, []).
Proof.
  assert (Hv : series_valid rain = true) by (unfold series_valid; cbn -[Rleb]; rtest; reflexivity).
  split; [|split].
  - apply (c45_accepted_iff_covering R T3 [] (mkF 0 [(1%Z, rain); (2%Z, rain)]) 9 13).
    + intros id s [[= <- <-]|[[= <- <-]|[]]]; auto.
    + repeat split; [unfold forcing_valid; cbn -[series_valid]; rewrite Hv; reflexivity|intros g []|cbn; lra|cbn; lra].
  - apply (c45_accepted_iff_covering R T3 [mkF 0 [(1%Z, rain)]] (mkF 0 [(1%Z, rain)]) 9 13).
    + intros id s [[= <- <-]|[]]; auto.
    + intros (_ & H & _). exact (H _ (or_introl eq_refl) eq_refl).
  - apply (c45_accepted_iff_covering R (mkT 8 12 1 Day) [] (mkF 0 [(1%Z, rain)]) 9 13).
    + intros id s [[= <- <-]|[]]; auto.
    + intros (_ & _ & H & _). cbn in H. lra.
Qed.
(** Refuted for units with different dates: only those of the first unit are checked. *)
Theorem c45_first_unit_only_refuted : exists f : forcing_series R, exists id s, In (id, s) (fs_data f) /\ t_start T3 < s_start s /\ s_end s < t_end T3 /\
  add_series T3 [] f = (true, [f]) /\ set_cursor (t_start T3) s = Ok (false, s).
Proof.
  set (s := mkS 11 11 1 Day [7] 0). set (f := mkF 0 [(1%Z, rain); (2%Z, s)]). exists f, 2%Z, s. split; [right; left; reflexivity|]. split; [cbn; lra|]. split; [cbn; lra|]. split.
  - apply (add_series_spec T3 [] f). split; [reflexivity|]. split; [unfold forcing_valid, series_valid; cbn -[Rleb]; rtest; reflexivity|]. split; [intros g []|].
    exists 1%Z, rain, [(2%Z, s)]. cbn. repeat split; lra.
  - unfold set_cursor. cbn [T3 t_start s s_start]. rtest. reflexivity.
Qed.
Print Assumptions c45_first_unit_only_refuted.

(** *** C46 *)
(** Spacings of a whole number of days, or of less than 24 whole hours, are recognised. *)
Theorem c46_days_and_hours : forall n, ((1 <= n)%Z -> extract_time_step (IZR n) = (n, Day)) /\ ((1 <= n <= 23)%Z -> extract_time_step (IZR n / 24) = (n, Hour)).
Proof. intros n. split; intros H; [apply extract_days; exact H|apply extract_hours; lia]. Qed.
Print Assumptions c46_days_and_hours.
(** A series created from a regular time axis, whatever its spacing, records every value for its date in the axis: a spacing that is
    not recognised is refused. *)
Theorem c46_created_series_keep_their_dates : forall (V : Type) t0 h n (values : list V) s, (2 <= n)%nat -> create_series (uniform_axis t0 h n) values = Ok s ->
  IZR (s_step s) * unit_days (s_unit s) = h /\ (0 < h -> well_dated s) /\
  forall i v, nth_error values i = Some v -> exists d, nth_error (uniform_axis t0 h n) i = Some d /\ nth_error (s_values s) i = Some v /\ d = date_of s i.
Proof.
  intros V t0 h n values s Hn H. destruct (create_dates t0 h n values s Hn H) as (E1 & E2 & E3 & E4 & E5 & E6 & E7).
  assert (Dd : forall i, date_of s i = t0 + INR i * h) by (intros i; unfold date_of; rewrite E5, E3; reflexivity).
  split; [exact E5|]. split.
  - intros Hh. split; [rewrite E1; intros ->; cbn in E2; lia|]. rewrite E4, Dd, E1, E2. reflexivity.
  - intros i v Hi. rewrite E1. assert (Hl : (i < n)%nat) by (rewrite <- E2; apply nth_error_Some; congruence).
    exists (date_of s i). split; [|auto]. unfold uniform_axis. rewrite nth_error_map. rewrite (nth_error_nth' (seq 0 n) 0%nat) by (rewrite seq_length; lia).
    rewrite seq_nth by lia. cbn [option_map plus]. rewrite Dd. reflexivity.
Qed.
Print Assumptions c46_created_series_keep_their_dates.
Example c46_holds_somewhere : create_series (uniform_axis 10 (IZR 6 / 24) 4) [1; 2; 3; 4] = Ok (mkS 10 (10 + INR 3 * (IZR 6 / 24)) 6 Hour [1; 2; 3; 4] 0).
Proof. apply (create_accepts 10 (IZR 6 / 24) 4); [lia|reflexivity|apply extract_hours; lia|cbn; lra]. Qed.
(** Refuted for other spacings: 10 minutes and 36 hours are not recognised; such axes are refused (values are lost, not misdated). *)
Theorem c46_other_spacings_refuted : extract_time_step (1 / 144) = (0%Z, Hour) /\ extract_time_step (3 / 2) = (2%Z, Day) /\
  (forall (V : Type) t0 n (values : list V) s, (2 <= n)%nat -> create_series (uniform_axis t0 (1 / 144) n) values <> Ok s) /\
  (forall (V : Type) t0 n (values : list V) s, (2 <= n)%nat -> create_series (uniform_axis t0 (3 / 2) n) values <> Ok s).
Proof.
  assert (X1 : extract_time_step (1 / 144) = (0%Z, Hour)).
  { unfold extract_time_step. destruct (Reqb_cases (1 / 144) 1) as [(E1 & ->)|(E1 & ->)]; [lra|]. rtest. f_equal. unfold c_round. rtest.
    assert (up (1 / 144 * 24 + 1 / 2) = 1)%Z; [|lia]. symmetry. apply tech_up; lra. }
  assert (X2 : extract_time_step (3 / 2) = (2%Z, Day)).
  { unfold extract_time_step. destruct (Reqb_cases (3 / 2) 1) as [(E1 & ->)|(E1 & ->)]; [lra|]. rtest. f_equal. unfold c_round. rtest.
    assert (up (3 / 2 + 1 / 2) = 3)%Z; [|lia]. symmetry. apply tech_up; lra. }
  split; [exact X1|]. split; [exact X2|]. split; intros V t0 n values s Hn H; pose proof (create_dates t0 _ n values s Hn H) as (_ & _ & _ & _ & E5 & _);
    unfold create_series in H; destruct (axis_two t0 (1 / 144) n Hn) as (l1 & L1 & _), (axis_two t0 (3 / 2) n Hn) as (l2 & L2 & _).
  - rewrite L1 in H. replace (t0 + 1 / 144 - t0) with (1 / 144) in H by lra. rewrite X1 in H. destruct (negb _); [discriminate|]. unfold set_values in H. cbn [s_start s_end s_step s_unit s_cursor] in H.
    destruct (Reqb _ _); [|discriminate]. injection H as <-. cbn in E5. lra.
  - rewrite L2 in H. replace (t0 + 3 / 2 - t0) with (3 / 2) in H by lra. rewrite X2 in H. destruct (negb _); [discriminate|]. unfold set_values in H. cbn [s_start s_end s_step s_unit s_cursor] in H.
    destruct (Reqb _ _); [|discriminate]. injection H as <-. cbn in E5. lra.
Qed.
Print Assumptions c46_other_spacings_refuted.
