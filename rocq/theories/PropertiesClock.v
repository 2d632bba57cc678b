(** Property theorems: the number of steps in binary64 arithmetic (C32). *)
From Coq Require Import ZArith Reals Lra Lia List.
From Flocq Require Import Core IEEE754.BinarySingleNaN IEEE754.Binary IEEE754.Bits.
From Verif Require Import Base Clock ClockFloat RunSpec ClockFacts ClockFloatFacts.
Open Scope R_scope.

Lemma fint_grid z : (Z.abs z < 2 ^ 53)%Z -> on_grid 0 (fint z) z.
Proof. intros H. destruct (fint_val z H) as (H1 & H2). split; [exact H2|]. rewrite H1. cbn [pow]. lra. Qed.
Lemma midnight k : (0 <= k < 2 ^ 30)%Z -> on_grid 0 (fmjd (86400 * k)) (40587 + k).
Proof.
  intros H. unfold fmjd. apply fplus_grid; [lia|apply fint_grid; lia| |lia].
  destruct (fint_val (86400 * k) ltac:(lia)) as (A1 & A2), (fint_val 86400 ltac:(lia)) as (B1 & B2).
  assert (E : val (fint (86400 * k)) / val (fint 86400) = IZR k) by (rewrite A1, B1, mult_IZR; field).
  destruct (fdiv_val (fint (86400 * k)) (fint 86400) A2) as (C1 & C2).
  - rewrite B1. lra.
  - rewrite E, <- (Rmult_1_r (IZR k)), <- Rinv_1. change 1 with (2 ^ 0) at 1. apply grid_small. lia.
  - split; [exact C2|]. rewrite C1, E, rnd_int by lia. cbn [pow]. lra.
Qed.

(** *** C32, binary64 *)
(** Periods between two midnights, with a step of a whole number of days (dates up to the year 2,900,000): the steps performed are exactly
    those announced, and their dates are exact. *)
Theorem c32_binary64_daily : forall a b n, (0 <= a <= b)%Z -> (0 < n)%Z -> (b < 2 ^ 30)%Z -> (n < 2 ^ 30)%Z ->
  let start := fmjd (86400 * a) in let stop := fmjd (86400 * b) in let dt := fstep n Day in
  exists dates, loop_dates (fnext dt) (fover stop) start dates /\ Z.of_nat (length dates) = fcount start stop dt /\
    map (B2R 53 1024) dates = period_dates (B2R 53 1024 start) (IZR n) (length dates) /\ fcount start stop dt = ((b - a) / n + 1)%Z.
Proof.
  intros a b n Hab Hn Hb Hn2 start stop dt. pose proof (midnight a ltac:(lia)) as Ga. pose proof (midnight b ltac:(lia)) as Gb. pose proof (fint_grid n ltac:(lia)) as Gn.
  destruct (grid_clock 0 start stop dt (40587 + a) (40587 + b) n ltac:(lia) Ga Gb Gn ltac:(lia) ltac:(lia) ltac:(lia)) as (l & L1 & L2 & L3 & L4).
  exists l. split; [exact L1|]. split; [exact L2|]. split.
  - rewrite L3. f_equal. unfold dt. cbn [fstep]. apply (fint_val n). lia.
  - rewrite (fcount_grid 0 start stop dt (40587 + a) (40587 + b) n ltac:(lia) Ga Gb Gn ltac:(lia) ltac:(lia) ltac:(lia)). f_equal. f_equal. lia.
Qed.
Print Assumptions c32_binary64_daily.
(** Start, end and step multiples of one power of two of a day (so 3, 6 and 12 hours, 45 minutes): same conclusion. *)
Theorem c32_binary64_binary_fractions : forall k start stop dt a b c, (k <= 1000)%nat ->
  is_finite 53 1024 start = true -> is_finite 53 1024 stop = true -> is_finite 53 1024 dt = true ->
  B2R 53 1024 start = IZR a * / 2 ^ k -> B2R 53 1024 stop = IZR b * / 2 ^ k -> B2R 53 1024 dt = IZR c * / 2 ^ k ->
  (0 <= a <= b)%Z -> (0 < c)%Z -> (b + c < 2 ^ 50)%Z ->
  exists dates, loop_dates (fnext dt) (fover stop) start dates /\ Z.of_nat (length dates) = fcount start stop dt /\
    map (B2R 53 1024) dates = period_dates (B2R 53 1024 start) (B2R 53 1024 dt) (length dates) /\
    fills_period (B2R 53 1024 start) (B2R 53 1024 stop) (B2R 53 1024 dt) (length dates).
Proof. intros k start stop dt a b c Hk F1 F2 F3 V1 V2 V3 H1 H2 H3. exact (grid_clock k start stop dt a b c Hk (conj F1 V1) (conj F2 V2) (conj F3 V3) H1 H2 H3). Qed.
Print Assumptions c32_binary64_binary_fractions.
(** Three-hourly steps, 2020-01-01 00:00 to 2020-12-31 21:00. *)
Example c32_binary64_three_hours : exists dates, loop_dates (fnext (fstep 3 Hour)) (fover (fmjd (1577836800 + 366 * 86400 - 10800))) (fmjd 1577836800) dates /\
  length dates = Z.to_nat 2928 /\ fcount (fmjd 1577836800) (fmjd (1577836800 + 366 * 86400 - 10800)) (fstep 3 Hour) = 2928%Z.
Proof.
  assert (C : fcount (fmjd 1577836800) (fmjd (1577836800 + 366 * 86400 - 10800)) (fstep 3 Hour) = 2928%Z) by (vm_compute; reflexivity).
  assert (St : fsteps (Z.to_nat 3000) (fmjd (1577836800 + 366 * 86400 - 10800)) (fstep 3 Hour) (fmjd 1577836800) 0 = Some 2928%Z) by (vm_compute; reflexivity).
  apply fsteps_loop in St. destruct St as (l & L & E). exists l. split; [exact L|]. split; [lia|exact C].
Qed.
(** Any step and any dates before the year 2200: if the end is away from the dates of the period by the slack of (n + 4) * 2^-36 day (half a
    second for 40 years of hours), the number of steps performed is the number of rows, and it is the exact one. *)
Theorem c32_binary64_away_from_the_dates : forall start stop dt n,
  is_finite 53 1024 start = true -> is_finite 53 1024 stop = true -> is_finite 53 1024 dt = true ->
  0 <= B2R 53 1024 start -> B2R 53 1024 stop <= 2 ^ 17 - 2 ^ 10 -> / 2 ^ 20 <= B2R 53 1024 dt <= 2 ^ 10 -> (1 <= n)%nat ->
  let slack := (INR n + 4) * / 2 ^ 36 in
  B2R 53 1024 start + (INR n - 1) * B2R 53 1024 dt + slack <= B2R 53 1024 stop ->
  B2R 53 1024 stop + slack <= B2R 53 1024 start + INR n * B2R 53 1024 dt ->
  exists dates, loop_dates (fnext dt) (fover stop) start dates /\ length dates = n /\ fcount start stop dt = Z.of_nat n /\
    forall i d, nth_error dates i = Some d -> Rabs (B2R 53 1024 d - (B2R 53 1024 start + INR i * B2R 53 1024 dt)) <= slack.
Proof. intros start stop dt n F1 F2 F3 B1 B2 B3 Hn sl H1 H2. apply margin_clock; auto. unfold fbounds. tauto. Qed.
Print Assumptions c32_binary64_away_from_the_dates.
(** Hourly steps over a day ending at half past: 24 steps and 24 rows. *)
Example c32_binary64_away_somewhere : let start := fint 58849 in let stop := fplus (fint 58849) (fdiv (fint 47) (fint 48)) in let dt := fstep 1 Hour in
  is_finite 53 1024 stop = true /\ is_finite 53 1024 dt = true /\
  B2R 53 1024 start + (INR 24 - 1) * B2R 53 1024 dt + (INR 24 + 4) * / 2 ^ 36 <= B2R 53 1024 stop /\
  B2R 53 1024 stop + (INR 24 + 4) * / 2 ^ 36 <= B2R 53 1024 start + INR 24 * B2R 53 1024 dt.
Proof.
  destruct (fint_val 58849 ltac:(lia)) as (A1 & A2), (fint_val 1 ltac:(lia)) as (B1 & B2), (fint_val 24 ltac:(lia)) as (C1 & C2), (fint_val 47 ltac:(lia)) as (D1 & D2), (fint_val 48 ltac:(lia)) as (E1 & E2).
  destruct (fdiv_val (fint 1) (fint 24) B2) as (G1 & G2); [lra|rewrite B1, C1, Rabs_pos_eq by lra; cbn [pow]; lra|].
  destruct (fdiv_val (fint 47) (fint 48) D2) as (H1 & H2); [lra|rewrite D1, E1, Rabs_pos_eq by lra; cbn [pow]; lra|].
  rewrite B1, C1 in G1. rewrite D1, E1 in H1. apply near_u in G1; [|cbn [pow]; lra]. apply near_u in H1; [|cbn [pow]; lra].
  destruct (fplus_val (fint 58849) (fdiv (fint 47) (fint 48)) A2 H2) as (K1 & K2); [rewrite A1, Rabs_pos_eq by (cbn [pow] in *; lra); cbn [pow] in *; lra|].
  rewrite A1 in K1. apply near_u in K1; [|cbn [pow] in *; lra]. cbn zeta. cbn [fstep]. split; [exact K2|]. split; [exact G2|]. rewrite A1.
  replace (INR 24) with 24 by (cbn; lra). cbn [pow] in *. split; lra.
Qed.
(** C32, the step: [n] weeks, days, hours or minutes, in days; a step of another unit is refused.  The axis of a time series advances by the same amounts. *)
Definition minutes_in (u : time_unit) : option Z :=
  match u with Week => Some 10080%Z | Day => Some 1440%Z | Hour => Some 60%Z | Minute => Some 1%Z | VariableStep => None end.
Theorem c32_step_length : forall n u,
  match minutes_in u with
  | Some m => exists dt, step_in_days n u = Ok dt /\ 1440 * dt = IZR (n * m) /\ forall d, increment_date d n u = d + dt
  | None => step_in_days n u = Throw
  end.
Proof.
  intros n u. destruct u; cbn [minutes_in step_in_days increment_date]; try reflexivity; eexists; (split; [reflexivity|split; [rewrite !mult_IZR; lra|reflexivity]]).
Qed.
Print Assumptions c32_step_length.
(** Refuted in general: for a year of hourly steps, from 2020-01-01 00:00 to 2020-12-31 23:00, one more step is performed than there are rows
    (the last one writes out of the rows); for a day of ten-minute steps, from 00:00 to 24:00, one step less, and a row stays unfilled. *)
Theorem c32_binary64_hourly_refuted :
  (exists dates, loop_dates (fnext (fstep 1 Hour)) (fover (fmjd (1577836800 + 366 * 86400 - 3600))) (fmjd 1577836800) dates /\
     Z.of_nat (length dates) = 8784%Z /\ fcount (fmjd 1577836800) (fmjd (1577836800 + 366 * 86400 - 3600)) (fstep 1 Hour) = 8783%Z) /\
  (exists dates, loop_dates (fnext (fstep 10 Minute)) (fover (fmjd (1577836800 + 86400))) (fmjd 1577836800) dates /\
     Z.of_nat (length dates) = 144%Z /\ fcount (fmjd 1577836800) (fmjd (1577836800 + 86400)) (fstep 10 Minute) = 145%Z).
Proof.
  split.
  - destruct (fsteps_loop _ _ _ _ _ _ hourly_steps) as (l & L & E). exists l. split; [exact L|]. split; [lia|exact hourly_rows].
  - destruct (fsteps_loop _ _ _ _ _ _ minutes_steps) as (l & L & E). exists l. split; [exact L|]. split; [lia|exact minutes_rows].
Qed.
Print Assumptions c32_binary64_hourly_refuted.
