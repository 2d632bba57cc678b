(** Lemmas about the clock and the time series. *)
From Verif Require Import Base BaseFacts Clock TimeSeries RunSpec.
Open Scope R_scope.

Lemma Reqb_cases a b : (a = b /\ Reqb a b = true) \/ (a <> b /\ Reqb a b = false).
Proof. unfold Reqb. destruct (Req_EM_T a b); auto. Qed.

Lemma c_int_spec x : 0 <= x -> IZR (c_int x) <= x < IZR (c_int x) + 1.
Proof. intros H. unfold c_int. rewrite (proj2 (Rleb_true 0 x) H). destruct (archimed x). rewrite minus_IZR. lra. Qed.
Lemma c_int_unique x z : 0 <= x -> IZR z <= x < IZR z + 1 -> c_int x = z.
Proof.
  intros H0 H. unfold c_int. rewrite (proj2 (Rleb_true 0 x) H0). assert (up x = z + 1)%Z; [|lia]. symmetry. apply tech_up; rewrite plus_IZR; lra.
Qed.
Lemma c_int_nonneg x : 0 <= x -> (0 <= c_int x)%Z.
Proof. intros H. destruct (c_int_spec x H) as [_ H2]. assert (-1 < c_int x)%Z; [apply lt_IZR; lra|lia]. Qed.
Lemma c_int_IZR z : (0 <= z)%Z -> c_int (IZR z) = z.
Proof. intros H. apply c_int_unique; [apply IZR_le; exact H|]. lra. Qed.
Lemma c_int_INR n : c_int (INR n) = Z.of_nat n.
Proof. rewrite INR_IZR_INZ. apply c_int_IZR. lia. Qed.

Lemma loop_deterministic {D} (next : D -> D) over d l : loop_dates next over d l -> forall l', loop_dates next over d l' -> l = l'.
Proof. induction 1 as [d H|d l H H1 IH]; intros l' H'; inversion H'; subst; try congruence. f_equal. auto. Qed.

Lemma count_fills T dt : t_start T <= t_end T -> 0 < dt -> fills_period (t_start T) (t_end T) dt (Z.to_nat (step_count T dt)).
Proof.
  intros H1 H2. unfold step_count. set (q := (t_end T - t_start T) / dt).
  assert (Hq : 0 <= q) by (unfold q; apply Rmult_le_pos; [lra|left; apply Rinv_0_lt_compat; exact H2]).
  assert (Eq : q * dt = t_end T - t_start T) by (unfold q; field; lra).
  destruct (c_int_spec (1 + q)) as [C1 C2]; [lra|]. pose proof (c_int_nonneg (1 + q) ltac:(lra)) as C0. set (c := c_int (1 + q)) in *.
  assert (Ec : INR (Z.to_nat c) = IZR c) by (rewrite INR_IZR_INZ, Z2Nat.id; [reflexivity|exact C0]).
  split.
  - intros i Hi. assert (INR i + 1 <= IZR c).
    { rewrite <- Ec, <- S_INR. apply le_INR. lia. }
    assert (INR i * dt <= q * dt) by (apply Rmult_le_compat_r; lra). lra.
  - rewrite Ec. assert (q * dt < IZR c * dt) by (apply Rmult_lt_compat_r; lra). lra.
Qed.
Lemma count_positive T dt : t_start T <= t_end T -> 0 < dt -> (0 < Z.to_nat (step_count T dt))%nat.
Proof.
  intros H1 H2. destruct (count_fills T dt H1 H2) as [_ H]. destruct (Z.to_nat (step_count T dt)); [cbn in H; lra|lia].
Qed.
Lemma fills_unique start stop dt n m : 0 < dt -> fills_period start stop dt n -> fills_period start stop dt m -> n = m.
Proof.
  intros Hd (A1 & A2) (B1 & B2). destruct (Nat.lt_trichotomy n m) as [L|[L|L]]; [|exact L|].
  - specialize (B1 n L). lra.
  - specialize (A1 m L). lra.
Qed.

Lemma period_S start dt n : period_dates start dt (S n) = start :: period_dates (start + dt) dt n.
Proof.
  unfold period_dates. cbn [seq map]. f_equal; [cbn; lra|]. rewrite <- seq_shift, map_map. apply map_ext. intros i. rewrite S_INR. lra.
Qed.
Lemma loop_period T dt n : forall start, fills_period start (t_end T) dt n -> loop_dates (next_date dt) (is_over T) start (period_dates start dt n).
Proof.
  induction n as [|n IH]; intros start (H1 & H2).
  - constructor. unfold is_over. apply Rltb_true. cbn in H2. lra.
  - rewrite period_S. constructor.
    + unfold is_over. apply Rltb_false. specialize (H1 0%nat ltac:(lia)). cbn in H1. lra.
    + apply IH. split.
      * intros i Hi. specialize (H1 (S i) ltac:(lia)). rewrite S_INR in H1. lra.
      * rewrite S_INR in H2. lra.
Qed.

(** *** Series *)
Section SeriesFacts.
Context {V : Type}.

Lemma set_values_dated s (values : list V) s' : set_values s values = (true, s') -> values <> [] -> s_unit s <> VariableStep -> well_dated s'.
Proof.
  unfold set_values. destruct (Reqb_cases (increment_date (s_start s) (s_step s * (Z.of_nat (length values) - 1)) (s_unit s)) (s_end s)) as [[H ->]|[H ->]]; [|discriminate].
  intros [= <-] Hn Hu. split; [exact Hn|]. cbn [s_end s_values]. rewrite <- H. unfold date_of. cbn [s_start s_step s_unit].
  assert (Hl : INR (length values - 1) = IZR (Z.of_nat (length values) - 1)).
  { rewrite INR_IZR_INZ. f_equal. destruct values; [contradiction|cbn [length]; lia]. }
  rewrite Hl. destruct (s_unit s); cbn [increment_date unit_days]; try contradiction; rewrite ?mult_IZR; lra.
Qed.

(** A positioned cursor. *)
Lemma set_cursor_day s date c : s_unit s = Day -> 0 <= date - s_start s -> date <= s_end s -> IZR c <= date - s_start s < IZR c + 1 ->
  @set_cursor V date s = Ok (true, with_cursor s c).
Proof.
  intros Hu H0 H1 H2. unfold set_cursor. rewrite (proj2 (Rltb_false _ _)) by lra. rewrite (proj2 (Rltb_false _ _)) by lra.
  rewrite Hu. cbv zeta. rewrite (c_int_unique _ c H0 H2). reflexivity.
Qed.
Lemma set_cursor_hour s date c : s_unit s = Hour -> 0 <= date - s_start s -> date <= s_end s -> IZR c <= date - s_start s < IZR c + 1 ->
  @set_cursor V date s = Ok (true, with_cursor s (c * 24)).
Proof.
  intros Hu H0 H1 H2. unfold set_cursor. rewrite (proj2 (Rltb_false _ _)) by lra. rewrite (proj2 (Rltb_false _ _)) by lra.
  rewrite Hu. cbv zeta. rewrite (c_int_unique _ c H0 H2). reflexivity.
Qed.
Lemma set_cursor_minute s date c : s_unit s = Minute -> 0 <= date - s_start s -> date <= s_end s -> IZR c <= date - s_start s < IZR c + 1 ->
  @set_cursor V date s = Ok (true, with_cursor s (c * 1440)).
Proof.
  intros Hu H0 H1 H2. unfold set_cursor. rewrite (proj2 (Rltb_false _ _)) by lra. rewrite (proj2 (Rltb_false _ _)) by lra.
  rewrite Hu. cbv zeta. rewrite (c_int_unique _ c H0 H2). reflexivity.
Qed.

Lemma current_at s i (v : V) : nth_error (s_values s) i = Some v -> current_value (with_cursor s (Z.of_nat i)) = Ok v.
Proof.
  intros H. unfold current_value. cbn [with_cursor s_cursor s_values]. replace (Z.of_nat i <? 0)%Z with false by (symmetry; apply Z.ltb_ge; lia).
  rewrite Nat2Z.id, H. reflexivity.
Qed.
Lemma last_date_bound s i : well_dated s -> 0 < IZR (s_step s) * unit_days (s_unit s) -> (i < length (@s_values V s))%nat -> date_of s i <= s_end s.
Proof.
  intros (_ & H) Hp Hi. rewrite H. unfold date_of. assert (INR i <= INR (length (s_values s) - 1)) by (apply le_INR; lia).
  apply Rplus_le_compat_l. apply Rmult_le_compat_r; lra.
Qed.
Lemma date_nonneg s i : 0 < IZR (s_step s) * unit_days (s_unit s) -> 0 <= @date_of V s i - s_start s.
Proof. intros H. unfold date_of. pose proof (pos_INR i). assert (0 <= INR i * (IZR (s_step s) * unit_days (s_unit s))) by (apply Rmult_le_pos; lra). lra. Qed.
End SeriesFacts.
