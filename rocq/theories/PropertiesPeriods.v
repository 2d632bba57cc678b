(** C85: modelling periods, spin-up durations and the dates of an evaluation. *)
From Coq Require Import Sorted.
From Flocq Require Import Binary.
From Verif Require Import BaseFacts WitnessTools CalendarFacts Clock CalendarFloat ClockFloat PropertiesClock PeriodsSpec PeriodsFacts.
Open Scope Z_scope.

(** *** Periods *)
Lemma coerce_given o p : coerce o = Ok p <-> given o p.
Proof.
  unfold coerce, given, make_period. destruct o as [(a, b)|]; [|destruct p; split; intro H; try discriminate; try contradiction; auto].
  destruct (Z.ltb_spec b a); cbn [bind]; destruct p as [p|]; split; intro H0; try discriminate; try contradiction; [destruct H0; lia|injection H0 as <-; auto|destruct H0 as (-> & _); reflexivity].
Qed.
Lemma defined_in c v p : In p (defined c v) <-> c = Some p \/ v = Some p.
Proof.
  unfold defined. rewrite in_app_iff. destruct c as [q|], v as [r|]; cbn; split; intros H; repeat match goal with K : _ \/ _ |- _ => destruct K end; subst; try contradiction; try discriminate;
  try (injection H as ->); auto.
Qed.
(** What an accepted set of periods is: the given pairs, each with its start before its end, all within the simulation span; the default span is the
    smallest one that contains the others. *)
Theorem c85_periods c v s sp P : make_periods c v s sp = Ok P ->
  given c (ps_calibration P) /\ given v (ps_validation P) /\ ps_spinup P = sp /\
  p_start (ps_simulation P) <= p_end (ps_simulation P) /\
  (forall p, ps_calibration P = Some p \/ ps_validation P = Some p -> within p (ps_simulation P)) /\
  match s with
  | Some (a, b) => ps_simulation P = mkPeriod a b
  | None => (exists p, (ps_calibration P = Some p \/ ps_validation P = Some p) /\ p_start p = p_start (ps_simulation P)) /\
            (exists p, (ps_calibration P = Some p \/ ps_validation P = Some p) /\ p_end p = p_end (ps_simulation P))
  end /\ exists d, spinup_to_days sp (p_start (ps_simulation P)) = Ok d.
Proof.
  unfold make_periods. destruct (coerce c) as [pc| |] eqn:C; cbn [bind]; try discriminate. destruct (coerce v) as [pv| |] eqn:V; cbn [bind]; try discriminate. apply coerce_given in C. apply coerce_given in V.
  match goal with |- bind ?a _ = _ -> _ => destruct a as [sim| |] eqn:S end; cbn [bind]; try discriminate. destruct (existsb _ _) eqn:X; [discriminate|]. destruct (spinup_to_days sp (p_start sim)) as [d| |] eqn:D; cbn [bind]; try discriminate.
  intros [= <-]. cbn [ps_calibration ps_validation ps_simulation ps_spinup]. do 2 (split; [assumption|]). split; [reflexivity|]. split; [|split; [|split]].
  - destruct s as [(a, b)|]; [unfold make_period in S; destruct (Z.ltb_spec b a); [discriminate|]; injection S as <-; assumption|]. destruct (defined pc pv); [discriminate|]. unfold make_period in S. destruct (Z.ltb_spec (fold_left Z.max (map p_end l) (p_end p)) (fold_left Z.min (map p_start l) (p_start p))); [discriminate|]. injection S as <-. assumption.
  - intros p Hp. apply defined_in in Hp. assert (F : (p_start p <? p_start sim) || (p_end sim <? p_end p) = false).
    { destruct ((p_start p <? p_start sim) || (p_end sim <? p_end p)) eqn:E; [|reflexivity]. rewrite <- X. symmetry. apply existsb_exists. exists p. auto. }
    apply orb_false_elim in F. destruct F as (F1 & F2). apply Z.ltb_ge in F1, F2. split; lia.
  - destruct s as [(a, b)|]; [unfold make_period in S; destruct (Z.ltb_spec b a); [discriminate|]; injection S as <-; reflexivity|].
    destruct pc as [pc|], pv as [pv|]; cbn [defined app map fold_left] in S; [| | |discriminate]; unfold make_period in S; (match type of S with context [?x <? ?z] => destruct (Z.ltb_spec x z) end; [discriminate|]); injection S as <-; cbn [p_start p_end].
    + split; [destruct (Z.min_spec (p_start pc) (p_start pv)) as [(_ & ->)|(_ & ->)]; [exists pc|exists pv]|destruct (Z.max_spec (p_end pc) (p_end pv)) as [(_ & ->)|(_ & ->)]; [exists pv|exists pc]]; auto.
    + split; exists pc; auto.
    + split; exists pv; auto.
  - exists d. exact D.
Qed.
Print Assumptions c85_periods.
(** It raises only if no period is given, a period ends before it starts, one is not in the given span, or the spin-up is negative. *)
Theorem c85_raises c v s sp : make_periods c v s sp = Throw ->
  (c = None /\ v = None /\ s = None) \/ (exists a b, (c = Some (a, b) \/ v = Some (a, b) \/ s = Some (a, b)) /\ b < a) \/
  (exists a b a' b', (c = Some (a, b) \/ v = Some (a, b)) /\ s = Some (a', b') /\ (a < a' \/ b' < b)) \/ (exists t, spinup_to_days sp t = Throw).
Proof.
  assert (K : forall o, coerce o = Throw -> exists a b, o = Some (a, b) /\ b < a).
  { intros [(a, b)|] E; [|discriminate]. unfold coerce, make_period in E. destruct (Z.ltb_spec b a); [exists a, b; auto|discriminate]. }
  assert (K2 : forall o, coerce o <> UB) by (intros [(a, b)|]; unfold coerce, make_period; [destruct (b <? a)|]; discriminate).
  unfold make_periods. destruct (coerce c) as [pc| |] eqn:C; cbn [bind]; [|destruct (K c C) as (a & b & E & L); intros _; right; left; exists a, b; auto|elim (K2 c C)].
  destruct (coerce v) as [pv| |] eqn:V; cbn [bind]; [|destruct (K v V) as (a & b & E & L); intros _; right; left; exists a, b; auto|elim (K2 v V)].
  apply coerce_given in C. apply coerce_given in V. match goal with |- bind ?a _ = _ -> _ => destruct a as [sim| |] eqn:S end; cbn [bind].
  - destruct (existsb _ _) eqn:X.
    + intros _. apply existsb_exists in X. destruct X as (p & I & F). apply defined_in in I. apply orb_prop in F. rewrite !Z.ltb_lt in F. destruct s as [(a', b')|].
      * right. right. left. unfold make_period in S. destruct (Z.ltb_spec b' a'); [discriminate|]. injection S as <-. cbn [p_start p_end] in F. exists (p_start p), (p_end p), a', b'. split; [|auto].
        destruct I as [-> | ->]; [left; destruct c as [(x, y)|]; [|contradiction]; destruct C as (-> & _); reflexivity|right; destruct v as [(x, y)|]; [|contradiction]; destruct V as (-> & _); reflexivity].
      * exfalso. destruct pc as [pc|], pv as [pv|]; cbn [defined app map fold_left] in S; [| | |discriminate]; unfold make_period in S; (match type of S with context [?x <? ?z] => destruct (Z.ltb_spec x z) end; [discriminate|]); injection S as <-; cbn [p_start p_end] in F; destruct I as [I|I]; try discriminate; injection I as ->; lia.
    + destruct (spinup_to_days sp (p_start sim)) as [d| |] eqn:D; cbn [bind]; try discriminate. intros _. right. right. right. exists (p_start sim). exact D.
  - intros _. destruct s as [(a, b)|].
    + right. left. exists a, b. unfold make_period in S. destruct (Z.ltb_spec b a); [auto|discriminate].
    + destruct c as [(a, b)|], pc as [pc|]; try contradiction; destruct v as [(a', b')|], pv as [pv|]; try contradiction; cbn [defined app map fold_left] in S; unfold make_period in S;
      [destruct C as (-> & C); destruct V as (-> & V)|destruct C as (-> & C)|destruct V as (-> & V)|left; auto]; cbn [p_start p_end] in S; (match type of S with context [?x <? ?z] => destruct (Z.ltb_spec x z) end; [|discriminate]); exfalso; lia.
  - discriminate.
Qed.
Print Assumptions c85_raises.
Definition T (y m d : Z) : Z := days_from_civil y m d * DAY.
Example c85_case : exists P, make_periods (Some (T 1981 1 1, T 2000 12 31)) (Some (T 2001 1 1, T 2020 12 31)) None (SYears 4) = Ok P /\
  ps_simulation P = mkPeriod (T 1981 1 1) (T 2020 12 31) /\ spinup_days_for P (mkPeriod (T 2001 1 1) (T 2020 12 31)) = Ok 1461.
Proof. eexists. split; [vm_compute; reflexivity|]. split; vm_compute; reflexivity. Qed.

(** *** The spin-up *)
(** n years are the days until the same date n years later, 28 February standing for a 29th that does not exist; each year counts 365 or 366 days. *)
Theorem c85_spinup_years y m d r n : valid_date y m d -> 0 <= r < DAY -> 0 <= n ->
  exists d', (d' = d \/ (m = 2 /\ d = 29 /\ ~ leap_year (y + n) /\ d' = 28)) /\ valid_date (y + n) m d' /\
    spinup_to_days (SYears n) (days_from_civil y m d * DAY + r) = Ok (days_from_civil (y + n) m d' - days_from_civil y m d) /\
    365 * n <= days_from_civil (y + n) m d' - days_from_civil y m d <= 366 * n.
Proof.
  intros V Hr Hn. apply valid_date_spec in V. destruct V as (Hm & Hd). exists (Z.min d (last_day (y + n) m)).
  assert (Q : (days_from_civil y m d * DAY + r) / DAY = days_from_civil y m d) by (rewrite Z.div_add_l by discriminate; rewrite (Z.div_small r DAY Hr); lia).
  assert (Rm : (days_from_civil y m d * DAY + r) mod DAY = r) by (rewrite Z.add_comm, Z_mod_plus_full; apply Z.mod_small; exact Hr).
  pose proof (last_day_le (y + n) m) as L.
  assert (Cases : Z.min d (last_day (y + n) m) = d \/ (m = 2 /\ d = 29 /\ is_leap (y + n) = false /\ Z.min d (last_day (y + n) m) = 28)).
  { destruct (Z.eq_dec m 2) as [->|N]; [|left; rewrite (last_day_not_feb (y + n) y m N); lia]. unfold last_day in *. cbn [Z.eqb Pos.eqb] in *. destruct (is_leap (y + n)) eqn:E1, (is_leap y); try (left; lia). destruct (Z.eq_dec d 29) as [->|]; [right; auto|left; lia]. }
  split; [|split; [|split]].
  - destruct Cases as [E|(A & B & C & E)]; [left; exact E|right]. repeat split; try assumption. intro K. apply is_leap_spec in K. congruence.
  - apply valid_date_spec. lia.
  - unfold spinup_to_days, add_years. rewrite Q, Rm, (civil_of_days y m d Hm Hd). set (d' := Z.min d _) in *.
    replace (days_from_civil (y + n) m d' * DAY + r - (days_from_civil y m d * DAY + r)) with ((days_from_civil (y + n) m d' - days_from_civil y m d) * DAY) by lia. rewrite Z.div_mul by discriminate.
    assert (B : 0 <= days_from_civil (y + n) m d' - days_from_civil y m d); [|destruct (Z.ltb_spec (days_from_civil (y + n) m d' - days_from_civil y m d) 0); [lia|reflexivity]].
    destruct Cases as [->|(-> & -> & E & ->)]; [pose proof (years_between y m d n Hn); lia|]. destruct (Z.eq_dec n 0) as [->|]; [rewrite Z.add_0_r in E; unfold last_day in Hd; cbn [Z.eqb Pos.eqb] in Hd; rewrite E in Hd; lia|].
    assert (Ly : is_leap y = true) by (unfold last_day in Hd; cbn [Z.eqb Pos.eqb] in Hd; destruct (is_leap y); [reflexivity|lia]). pose proof (years_from_leap y n ltac:(lia) Ly). rewrite (dfc_day (y + n) 2 28), (dfc_day (y + n) 2 29) in *. lia.
  - destruct Cases as [->|(-> & -> & E & ->)]; [apply years_between; exact Hn|]. destruct (Z.eq_dec n 0) as [->|]; [rewrite Z.add_0_r in E; unfold last_day in Hd; cbn [Z.eqb Pos.eqb] in Hd; rewrite E in Hd; lia|].
    assert (Ly : is_leap y = true) by (unfold last_day in Hd; cbn [Z.eqb Pos.eqb] in Hd; destruct (is_leap y); [reflexivity|lia]). pose proof (years_from_leap y n ltac:(lia) Ly). pose proof (years_between y 2 29 n Hn). rewrite (dfc_day (y + n) 2 28), (dfc_day (y + n) 2 29) in *. lia.
Qed.
Print Assumptions c85_spinup_years.
Example c85_leap_case : spinup_to_days (SYears 1) (T 2020 2 29) = Ok 365 /\ spinup_to_days (SYears 4) (T 2020 2 29) = Ok 1461 /\ valid_date 2020 2 29.
Proof. split; [vm_compute; reflexivity|]. split; [vm_compute; reflexivity|]. apply valid_date_spec. vm_compute. split; split; discriminate. Qed.
(** For a period the spin-up is never longer than the period, and it is the one asked for if the period is long enough. *)
Theorem c85_spinup_within P p d : p_start p <= p_end p -> spinup_to_days (ps_spinup P) (p_start p) = Ok d ->
  exists k, spinup_days_for P p = Ok k /\ 0 <= k <= Z.of_nat (length (date_range (p_start p) (p_end p))) /\ (d <= n_days p -> k = d).
Proof.
  intros H D. unfold spinup_days_for. rewrite D. cbn [bind]. eexists. split; [reflexivity|]. rewrite date_range_length by exact H. unfold n_days.
  assert (0 <= (p_end p - p_start p) / DAY) by (apply Z.div_pos; [lia|apply DAY_pos]). rewrite Z2Nat.id by lia.
  assert (0 <= d) by (unfold spinup_to_days in D; destruct (Z.ltb_spec (match ps_spinup P with SDays n => n | SYears n => (add_years (p_start p) n - p_start p) / DAY end) 0); [discriminate|]; injection D as <-; lia).
  split; [lia|intro; lia].
Qed.
Print Assumptions c85_spinup_within.

(** *** The evaluation of a run *)
Lemma same_phase a b : midnight a -> midnight b -> (b - a) mod DAY = 0.
Proof. unfold midnight. intros A B. rewrite Zminus_mod, A, B. reflexivity. Qed.
Lemma midnight_shift t a : midnight a -> ((t - a) mod DAY = 0 <-> midnight t).
Proof.
  intro A. split; [|intro H; apply same_phase; assumption]. unfold midnight in *. intro H. replace t with ((t - a) + a) by lia. rewrite Zplus_mod, H, A. reflexivity.
Qed.
Lemma last_in {A} (d : A) : forall l x, In (last (x :: l) d) (x :: l).
Proof. induction l as [|y l IH]; intro x; [left; reflexivity|]. right. apply (IH y). Qed.
Lemma run_dates a b p : a <= b -> midnight a -> midnight (p_start p) -> p_start p <= p_end p -> a <= p_start p -> p_end p <= b -> filter (in_period p) (date_range a b) = date_range (p_start p) (p_end p).
Proof.
  intros H Ma Mp Hp A B. apply sorted_same; [apply filter_sorted, date_range_sorted|apply date_range_sorted|]. intro t. rewrite filter_In, !date_range_in by assumption. unfold in_period. rewrite andb_true_iff, !Z.leb_le, !midnight_shift by assumption. intuition lia.
Qed.
(** A run from [a] to [b] with daily steps, and observations at midnight with increasing dates: the two series that are compared have one value for
    every day of the period, both of this day. *)
Theorem c85_pairs_partial a b p sim obs_time obs s o : a <= b -> midnight a -> midnight (p_start p) -> p_start p <= p_end p -> increasing obs_time -> (forall t, In t obs_time -> midnight t) ->
  evaluated p (date_range a b) sim obs_time obs = Ok (s, o) ->
  Z.of_nat (length s) = n_days p /\ length o = length s /\
  forall k, (k < length s)%nat -> exists x y, nth_error s k = Some x /\ nth_error o k = Some y /\ value_at (date_range a b) sim (day_of p k) x /\ value_at obs_time obs (day_of p k) y.
Proof.
  intros H Ma Mp Hp So Mo E. unfold evaluated in E. destruct (date_range a b) as [|t0 r] eqn:Dr; [discriminate|]. rewrite <- Dr in E |- *.
  assert (T0 : t0 = a). { assert (N : nth_error (date_range a b) 0 = Some (a + Z.of_nat 0 * DAY)) by (apply date_range_nth; [exact H|]; assert (0 <= (b - a) / DAY) by (apply Z.div_pos; [lia|apply DAY_pos]); lia). rewrite Dr in N. cbn [nth_error] in N. injection N as ->. lia. }
  assert (Lb : last (date_range a b) 0 <= b). { pose proof (last_in 0 r t0) as I. rewrite <- Dr in I. apply date_range_in in I; [|exact H]. lia. }
  destruct ((p_start p <? t0) || (last (date_range a b) 0 <? p_end p)) eqn:C; [discriminate|]. apply orb_false_elim in C. destruct C as (C1 & C2). apply Z.ltb_ge in C1, C2. rewrite Dr in E at 1. cbn [app] in E. rewrite <- ?Dr in E.
  unfold slice in E. destruct (Nat.eqb_spec (length (date_range a b)) (length sim)) as [L1|]; cbn [bind] in E; [|discriminate]. destruct (Nat.eqb_spec (length obs_time) (length obs)) as [L2|]; cbn [bind] in E; [|discriminate].
  destruct (Nat.eqb_spec (length (map snd (filter (fun q => in_period p (fst q)) (combine obs_time obs)))) (length (map snd (filter (fun q => in_period p (fst q)) (combine (date_range a b) sim))))) as [L3|]; [|discriminate]. injection E as <- <-.
  assert (D1 : filter (in_period p) (date_range a b) = date_range (p_start p) (p_end p)) by (apply run_dates; try assumption; lia).
  assert (N1 : length (map snd (filter (fun q => in_period p (fst q)) (combine (date_range a b) sim))) = length (date_range (p_start p) (p_end p))) by (rewrite <- D1, <- (slice_dates (in_period p) _ _ L1), !map_length; reflexivity).
  assert (D2 : filter (in_period p) obs_time = date_range (p_start p) (p_end p)).
  { assert (N2 : length (filter (in_period p) obs_time) = length (date_range (p_start p) (p_end p))) by (rewrite <- N1, <- L3, <- (slice_dates (in_period p) _ _ L2), !map_length; reflexivity).
    assert (Sub : incl (filter (in_period p) obs_time) (date_range (p_start p) (p_end p))).
    { intros t I. apply filter_In in I. destruct I as (I & J). unfold in_period in J. rewrite andb_true_iff, !Z.leb_le in J. apply date_range_in; [exact Hp|]. split; [lia|]. apply same_phase; [exact Mp|]. exact (Mo t I). }
    apply sorted_same; [apply filter_sorted; exact So|apply date_range_sorted|]. intro t. split; [apply Sub|]. apply (NoDup_length_incl (sorted_nodup _ (filter_sorted _ _ So))); [rewrite N2; apply Nat.le_refl|exact Sub]. }
  rewrite N1 in *. split; [|split; [exact L3|]].
  - rewrite date_range_length by exact Hp. unfold n_days. assert (0 <= (p_end p - p_start p) / DAY) by (apply Z.div_pos; [lia|apply DAY_pos]). lia.
  - intros k Hk. assert (Hday : nth_error (date_range (p_start p) (p_end p)) k = Some (day_of p k)) by (apply date_range_nth; [exact Hp|]; rewrite <- date_range_length by exact Hp; exact Hk).
    destruct (nth_error (map snd (filter (fun q => in_period p (fst q)) (combine (date_range a b) sim))) k) as [x|] eqn:X; [|apply nth_error_None in X; lia].
    destruct (nth_error (map snd (filter (fun q => in_period p (fst q)) (combine obs_time obs))) k) as [y|] eqn:Y; [|apply nth_error_None in Y; lia].
    exists x, y. split; [reflexivity|]. split; [reflexivity|]. split; [apply (slice_nth (in_period p) _ _ k x _ L1 X); rewrite D1; exact Hday|apply (slice_nth (in_period p) _ _ k y _ L2 Y); rewrite D2; exact Hday].
Qed.
Print Assumptions c85_pairs_partial.
(** An array of observations is paired with the dates of the run. *)
Theorem c85_pairs_array a b p sim obs s o : a <= b -> midnight a -> midnight (p_start p) -> p_start p <= p_end p -> evaluated_array p (date_range a b) sim obs = Ok (s, o) ->
  Z.of_nat (length s) = n_days p /\ length o = length s /\
  forall k, (k < length s)%nat -> exists x y, nth_error s k = Some x /\ nth_error o k = Some y /\ value_at (date_range a b) sim (day_of p k) x /\ value_at (date_range a b) obs (day_of p k) y.
Proof.
  intros H Ma Mp Hp E. unfold evaluated_array in E. destruct (Nat.eqb (length obs) (length sim)); [|discriminate]. apply c85_pairs_partial with (5 := date_range_sorted a b) in E; try assumption.
  intros t I. apply date_range_in in I; [|exact H]. apply (midnight_shift t a Ma). exact (proj2 I).
Qed.
Print Assumptions c85_pairs_array.
(** False in general: only the number of observations in the period is checked.  Observations with a day twice and another one missing are compared
    with the values of the wrong days. *)
Theorem c85_pairs_refuted : exists s o, evaluated (mkPeriod (T 2000 1 1) (T 2000 1 3)) (date_range (T 2000 1 1) (T 2000 1 3)) [1; 2; 3]%R [T 2000 1 1; T 2000 1 1; T 2000 1 2] [10; 11; 20]%R = Ok (s, o) /\
  s = [1; 2; 3]%R /\ o = [10; 11; 20]%R.
Proof. eexists. eexists. split; [vm_compute; reflexivity|]. split; reflexivity. Qed.
Print Assumptions c85_pairs_refuted.
Example c85_pairs_case : exists s o, evaluated (mkPeriod (T 2000 2 28) (T 2000 3 1)) (date_range (T 2000 2 1) (T 2000 3 2)) (map IZR (map Z.of_nat (seq 0 31))) (date_range (T 2000 2 27) (T 2000 3 5)) [1; 2; 3; 4; 5; 6; 7; 8]%R = Ok (s, o) /\
  s = map IZR [27; 28; 29] /\ o = [2; 3; 4]%R /\ midnight (T 2000 2 28).
Proof. eexists. eexists. split; [vm_compute; reflexivity|]. split; [reflexivity|]. split; [reflexivity|vm_compute; reflexivity]. Qed.

Lemma same_entries {A} : forall l m : list A, (forall k, nth_error l k = nth_error m k) -> l = m.
Proof. induction l as [|x l IH]; intros [|y m] H; [reflexivity|discriminate (H 0%nat)|discriminate (H 0%nat)|]. injection (H 0%nat) as ->. f_equal. apply IH. intro k. exact (H (S k)). Qed.

(** *** The observations of a calibration *)
(** They are accepted if and only if every day of the model has one (the last one counts) and the warm-up is shorter than the period; then they are
    in the order of the days of the model, whatever the order and the extent of the data. *)
Theorem c85_aligned warmup start stop times obs r : start <= stop -> length times = length obs ->
  (align_observations warmup start stop times obs = Ok r <->
   (Z.of_nat warmup < n_days (mkPeriod start stop) /\ Z.of_nat (length r) = n_days (mkPeriod start stop) /\
    forall k, (k < length r)%nat -> exists x, nth_error r k = Some x /\ last_of times obs (start + Z.of_nat k * DAY) x)) /\
  (align_observations warmup start stop times obs = Throw <->
   n_days (mkPeriod start stop) <= Z.of_nat warmup \/ exists k, 0 <= k < n_days (mkPeriod start stop) /\ ~ In (start + k * DAY) times).
Proof.
  intros H L. unfold align_observations. rewrite L, Nat.eqb_refl. cbn [negb]. cbv zeta. set (E := date_range start stop). set (n := n_days (mkPeriod start stop)).
  assert (N0 : 1 <= n) by (unfold n, n_days; cbn [p_start p_end]; assert (0 <= (stop - start) / DAY) by (apply Z.div_pos; [lia|apply DAY_pos]); lia).
  assert (NE : length E = Z.to_nat n) by (apply date_range_length; exact H).
  assert (Nth : forall k, (k < Z.to_nat n)%nat -> nth_error E k = Some (start + Z.of_nat k * DAY)) by (intros k K; apply date_range_nth; assumption).
  assert (U : forall t x y, last_of times obs t x -> last_of times obs t y -> x = y).
  { intros t x y (j & A & B & C) (j' & A' & B' & C'). destruct (Nat.lt_trichotomy j j') as [Q|[->|Q]]; [elim (C j' Q A')|congruence|elim (C' j Q A)]. }
  assert (Miss : existsb (fun d => match lookup_last d times obs with None => true | Some _ => false end) E = true <-> exists k, 0 <= k < n /\ ~ In (start + k * DAY) times).
  { rewrite existsb_exists. split.
    - intros (d & I & M). destruct (lookup_last d times obs) eqn:Ld; [discriminate|]. apply In_nth_error in I. destruct I as (k & K). assert (Hk : (k < Z.to_nat n)%nat) by (rewrite <- NE; apply nth_error_Some; congruence). rewrite (Nth k Hk) in K. injection K as <-.
      exists (Z.of_nat k). split; [lia|]. exact (lookup_last_none _ _ _ L Ld).
    - intros (k & K & M). exists (start + k * DAY). split; [apply (nth_error_In E (Z.to_nat k)); rewrite Nth by lia; rewrite Z2Nat.id by lia; reflexivity|].
      destruct (lookup_last (start + k * DAY) times obs) eqn:Ld; [|reflexivity]. exfalso. destruct (lookup_last_some _ _ _ _ Ld) as [(j & J & _)|Q]; [apply M; apply (nth_error_In _ _ J)|contradiction]. }
  destruct (Nat.leb_spec (length E) warmup) as [W|W]; [split; split; intro Q; try discriminate; [lia|left; lia|reflexivity]|].
  destruct (existsb _ E) eqn:X.
  - split; split; intro Q; try discriminate; [|right; apply Miss; reflexivity|reflexivity]. exfalso. destruct (proj1 Miss eq_refl) as (k & K & M). destruct Q as (_ & Q1 & Q2). destruct (Q2 (Z.to_nat k)) as (x & _ & (j & J & _)); [lia|]. rewrite Z2Nat.id in J by lia. apply M. exact (nth_error_In _ _ J).
  - assert (Val : forall k, (k < Z.to_nat n)%nat -> exists x, nth_error (map (fun d => match lookup_last d times obs with Some x => x | None => 0%R end) E) k = Some x /\ last_of times obs (start + Z.of_nat k * DAY) x).
    { intros k K. rewrite nth_error_map, (Nth k K). cbn [option_map]. destruct (lookup_last (start + Z.of_nat k * DAY) times obs) as [x|] eqn:Ld; [exists x; split; [reflexivity|]; destruct (lookup_last_some _ _ _ _ Ld) as [Q|Q]; [exact Q|contradiction]|].
      exfalso. assert (F : false = true); [|discriminate]. apply Miss. exists (Z.of_nat k). split; [lia|]. exact (lookup_last_none _ _ _ L Ld). }
    split; split; intro Q; try discriminate.
    + injection Q as <-. rewrite map_length, NE. split; [lia|]. split; [lia|exact Val].
    + destruct Q as (Q0 & Q1 & Q2). f_equal. apply same_entries. intro k. destruct (Nat.lt_ge_cases k (Z.to_nat n)) as [K|K].
      * destruct (Val k K) as (x & X1 & X2). destruct (Q2 k) as (y & Y1 & Y2); [lia|]. rewrite X1, Y1, (U _ _ _ X2 Y2). reflexivity.
      * rewrite (proj2 (nth_error_None _ k)) by (rewrite map_length; lia). symmetry. apply nth_error_None. lia.
    + exfalso. destruct Q as [Q|Q]; [lia|]. apply Miss in Q. discriminate.
Qed.
Print Assumptions c85_aligned.
(** The objective function then compares, after the warm-up, the simulated and the observed value of the same day. *)
Theorem c85_compared warmup start stop times obs r sim : start <= stop -> length times = length obs -> align_observations warmup start stop times obs = Ok r ->
  Z.of_nat (length sim) = n_days (mkPeriod start stop) ->
  length (compared warmup sim) = length (compared warmup r) /\ (0 < length (compared warmup r))%nat /\
  forall k, (k < length (compared warmup r))%nat -> exists x y, nth_error (compared warmup sim) k = Some x /\ nth_error (compared warmup r) k = Some y /\
    nth_error sim (warmup + k) = Some x /\ last_of times obs (start + Z.of_nat (warmup + k) * DAY) y.
Proof.
  intros H L A S. apply (proj1 (c85_aligned warmup start stop times obs r H L)) in A. destruct A as (A & B & C). unfold compared. rewrite !skipn_length. split; [lia|]. split; [lia|]. intros k K.
  assert (Nk : forall (l : list R) j, nth_error (skipn warmup l) j = nth_error l (warmup + j)) by (clear; intros l j; revert l; induction warmup as [|w IH]; intros [|x l]; cbn; try reflexivity; [destruct j; reflexivity|apply IH]).
  destruct (C (warmup + k)%nat) as (y & Y1 & Y2); [lia|]. destruct (nth_error sim (warmup + k)) as [x|] eqn:X; [|apply nth_error_None in X; lia]. exists x, y. rewrite !Nk. auto.
Qed.
Print Assumptions c85_compared.
Example c85_aligned_case : exists r, align_observations 1 (T 2000 2 28) (T 2000 3 1) [T 2000 3 1; T 2000 2 27; T 2000 2 29; T 2000 2 28; T 2000 2 29] [5; 1; 7; 2; 3]%R = Ok r /\ r = [2; 3; 5]%R /\ compared 1 r = [3; 5]%R.
Proof. eexists. split; [vm_compute; reflexivity|]. split; reflexivity. Qed.
(** The number of days of a period is the number of rows of a daily run over it, with the binary64 dates of the clock. *)
Theorem c85_rows a b : 0 <= a <= b -> b < 2 ^ 30 -> fcount (fmjd (86400 * a)) (fmjd (86400 * b)) (fstep 1 Day) = n_days (mkPeriod (a * DAY) (b * DAY)) /\
  Z.of_nat (length (date_range (a * DAY) (b * DAY))) = n_days (mkPeriod (a * DAY) (b * DAY)).
Proof.
  intros H B. destruct (c32_binary64_daily a b 1 H ltac:(lia) B ltac:(lia)) as (dates & _ & _ & _ & E). rewrite Z.div_1_r in E. rewrite E. pose proof DAY_pos. rewrite date_range_length by nia. unfold n_days. cbn [p_start p_end].
  replace (b * DAY - a * DAY) with ((b - a) * DAY) by lia. rewrite Z.div_mul by lia. lia.
Qed.
Print Assumptions c85_rows.
