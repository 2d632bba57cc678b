(** Lemmas on the calendar. *)
From Coq Require Import ZArith Lia Bool List.
From Verif Require Import Base BaseFacts Clock TimeSeries ClockFacts Calendar CalendarSpec.
Open Scope Z_scope.

Lemma is_leap_spec y : is_leap y = true <-> leap_year y.
Proof.
  unfold is_leap, leap_year. rewrite andb_true_iff, orb_true_iff, negb_true_iff, !Z.eqb_eq, Z.eqb_neq.
  rewrite <- !Z.mod_divide by lia. tauto.
Qed.
Lemma last_day_spec y m : 1 <= m <= 12 -> month_length y m (last_day y m).
Proof.
  intros H. unfold month_length, last_day. pose proof (is_leap_spec y) as L.
  assert (C : m = 1 \/ m = 2 \/ m = 3 \/ m = 4 \/ m = 5 \/ m = 6 \/ m = 7 \/ m = 8 \/ m = 9 \/ m = 10 \/ m = 11 \/ m = 12) by lia.
  destruct C as [->|[->|[->|[->|[->|[->|[->|[->|[->|[->|[->| ->]]]]]]]]]]]; cbn -[is_leap]; try (right; right; lia).
  destruct (is_leap y) eqn:E; [left; tauto|right; left]. split; [reflexivity|]. split; [|reflexivity]. intros X. apply L in X. congruence.
Qed.
Lemma month_length_fun y m n : month_length y m n -> n = last_day y m /\ 1 <= m <= 12.
Proof.
  intros H. assert (Hm : 1 <= m <= 12) by (unfold month_length in H; lia). split; [|exact Hm].
  pose proof (last_day_spec y m Hm) as L. unfold month_length in *.
  destruct H as [(-> & H1 & H2)|[(-> & H1 & H2)|[(H1 & H2)|(H1 & H2)]]], L as [(L1 & L2 & L3)|[(L1 & L2 & L3)|[(L1 & L2)|(L1 & L2)]]]; try lia; try tauto; exfalso; tauto.
Qed.
Lemma valid_date_spec y m d : valid_date y m d <-> 1 <= m <= 12 /\ 1 <= d <= last_day y m.
Proof.
  split.
  - intros (n & H & Hd). apply month_length_fun in H. destruct H as (-> & H). auto.
  - intros (H & Hd). exists (last_day y m). split; [apply last_day_spec; exact H|exact Hd].
Qed.
Lemma leap_era a y : is_leap (400 * a + y) = is_leap y.
Proof.
  unfold is_leap. replace ((400 * a + y) mod 4) with (y mod 4) by (replace (400 * a + y) with (y + (100 * a) * 4) by lia; rewrite Z.mod_add; lia).
  replace ((400 * a + y) mod 100) with (y mod 100) by (replace (400 * a + y) with (y + (4 * a) * 100) by lia; rewrite Z.mod_add; lia).
  replace ((400 * a + y) mod 400) with (y mod 400) by (replace (400 * a + y) with (y + a * 400) by lia; rewrite Z.mod_add; lia). reflexivity.
Qed.
Lemma last_day_era a y m : last_day (400 * a + y) m = last_day y m.
Proof. unfold last_day. rewrite leap_era. reflexivity. Qed.
Lemma last_day_le y m : 28 <= last_day y m <= 31.
Proof. unfold last_day. destruct (m =? 2), (is_leap y), ((m =? 4) || (m =? 6) || (m =? 9) || (m =? 11)); lia. Qed.

(** A period of 400 years, day by day: the algorithm is periodic, so that this covers all days. *)
Fixpoint all_from (n : nat) (z : Z) (p : Z -> bool) : bool :=
  match n with O => true | S k => p z && all_from k (z + 1) p end.
Lemma all_from_spec n : forall a p, all_from n a p = true -> forall z, a <= z < a + Z.of_nat n -> p z = true.
Proof.
  induction n as [|n IH]; cbn [all_from]; intros a p H z Hz; [lia|]. apply andb_true_iff in H. destruct H as (H1 & H2).
  destruct (Z.eq_dec z a) as [->|Hn]; [exact H1|]. apply (IH (a + 1)); [exact H2|lia].
Qed.
Definition day_checked (doe : Z) : bool :=
  let '(y, m, d) := civil_from_days (doe - 719468) in
  (1 <=? m) && (m <=? 12) && (1 <=? d) && (d <=? last_day y m) && (days_from_civil y m d =? doe - 719468) && (0 <=? y) && (y <=? 400).
(** The year, the first day of it (they start in March) and the last one; then the month and the day. *)
Definition fy (x : Z) : Z := x - x / 1460 + x / 36524 - x / 146096.
Definition first_doe (y : Z) : Z := 365 * y + y / 4 - y / 100.
Definition last_doe (y : Z) : Z := if y =? 399 then 146096 else first_doe (y + 1) - 1.
Lemma fy_step x : fy x <= fy (x + 1).
Proof. unfold fy. Z.to_euclidean_division_equations. lia. Qed.
Lemma fy_mono x (n : nat) : fy x <= fy (x + Z.of_nat n).
Proof.
  induction n as [|n IH]; [replace (x + Z.of_nat 0) with x by lia; lia|]. pose proof (fy_step (x + Z.of_nat n)). replace (x + Z.of_nat (S n)) with (x + Z.of_nat n + 1) by lia. lia.
Qed.
Lemma fy_le x y : x <= y -> fy x / 365 <= fy y / 365.
Proof. intros H. apply Z.div_le_mono; [lia|]. pose proof (fy_mono x (Z.to_nat (y - x))) as M. replace (x + Z.of_nat (Z.to_nat (y - x))) with y in M by lia. exact M. Qed.
Lemma years_checked : all_from 400 0 (fun y => (fy (first_doe y) / 365 =? y) && (fy (last_doe y) / 365 =? y) && (last_doe y - first_doe y =? (if is_leap (y + 1) then 365 else 364))) = true.
Proof. vm_compute. reflexivity. Qed.
Lemma year_checked y : 0 <= y < 400 -> fy (first_doe y) / 365 = y /\ fy (last_doe y) / 365 = y /\ last_doe y - first_doe y = if is_leap (y + 1) then 365 else 364.
Proof. intros H. pose proof (all_from_spec _ _ _ years_checked y ltac:(lia)) as C. cbv beta in C. rewrite !andb_true_iff, !Z.eqb_eq in C. tauto. Qed.
Lemma in_year x : 0 <= x < 146097 -> let y := fy x / 365 in 0 <= y < 400 /\ first_doe y <= x <= last_doe y.
Proof.
  intros H y. assert (Hy : 0 <= y < 400).
  { pose proof (fy_le 0 x ltac:(lia)) as A. pose proof (fy_le x 146096 ltac:(lia)) as B. change (fy 0 / 365) with 0 in A. change (fy 146096 / 365) with 399 in B. fold y in A, B. lia. }
  split; [exact Hy|]. destruct (Z.lt_ge_cases x (first_doe y)) as [L|L]; [|destruct (Z.lt_ge_cases (last_doe y) x) as [G|G]; [|lia]]; exfalso.
  - destruct (Z.eq_dec y 0) as [E|E]; [rewrite E in L; change (first_doe 0) with 0 in L; lia|]. destruct (year_checked (y - 1) ltac:(lia)) as (_ & C & _).
    assert (El : last_doe (y - 1) = first_doe y - 1) by (unfold last_doe; replace (y - 1 =? 399) with false by (symmetry; apply Z.eqb_neq; lia); replace (y - 1 + 1) with y by lia; reflexivity).
    rewrite El in C. pose proof (fy_le x (first_doe y - 1) ltac:(lia)) as M. rewrite C in M. fold y in M. lia.
  - unfold last_doe in G. destruct (Z.eqb_spec y 399) as [E|E]; [lia|]. destruct (year_checked (y + 1) ltac:(lia)) as (C & _ & _).
    pose proof (fy_le (first_doe (y + 1)) x ltac:(lia)) as M. rewrite C in M. fold y in M. lia.
Qed.
Definition mp_of (doy : Z) : Z := (5 * doy + 2) / 153.
Definition month_of (doy : Z) : Z := if mp_of doy <? 10 then mp_of doy + 3 else mp_of doy - 9.
Definition dom_of (doy : Z) : Z := doy - (153 * mp_of doy + 2) / 5 + 1.
Lemma days_of_year_checked : all_from 366 0 (fun n => (1 <=? month_of n) && (month_of n <=? 12) && (1 <=? dom_of n) && (march_month (month_of n) =? mp_of n) &&
  (if month_of n =? 2 then dom_of n <=? (if n =? 365 then 29 else 28) else dom_of n <=? last_day 1 (month_of n))) = true.
Proof. vm_compute. reflexivity. Qed.
Lemma last_day_not_feb y y' m : m <> 2 -> last_day y m = last_day y' m.
Proof. intros H. unfold last_day. apply Z.eqb_neq in H. rewrite H. reflexivity. Qed.
Lemma era_days doe : 0 <= doe < 146097 -> day_checked doe = true.
Proof.
  intros H. destruct (in_year doe H) as (Hy & Hd). set (y := fy doe / 365) in *. destruct (year_checked y Hy) as (_ & _ & Hl).
  set (n := doe - first_doe y) in *. assert (Hn : 0 <= n < 366) by (unfold n; destruct (is_leap (y + 1)); lia).
  pose proof (all_from_spec _ _ _ days_of_year_checked n ltac:(lia)) as C. cbv beta in C. rewrite !andb_true_iff, !Z.leb_le, Z.eqb_eq in C. destruct C as ((((C1 & C2) & C3) & C4) & C5).
  unfold day_checked, civil_from_days. replace (doe - 719468 + 719468) with doe by lia. rewrite (Z.div_small doe 146097), (Z.mod_small doe 146097) by lia.
  change ((doe - doe / 1460 + doe / 36524 - doe / 146096) / 365) with y. change (doe - (365 * y + y / 4 - y / 100)) with n. change ((5 * n + 2) / 153) with (mp_of n).
  change (if mp_of n <? 10 then mp_of n + 3 else mp_of n - 9) with (month_of n). change (n - (153 * mp_of n + 2) / 5 + 1) with (dom_of n). cbv zeta. replace (y + 0 * 400) with y by lia.
  assert (C6 : dom_of n <= last_day (if month_of n <=? 2 then y + 1 else y) (month_of n)).
  { destruct (Z.eqb_spec (month_of n) 2) as [E|E].
    - rewrite E. cbn [Z.leb]. change (2 <=? 2) with true. cbv iota. unfold last_day. change (2 =? 2) with true. cbv iota. apply Z.leb_le in C5.
      destruct (Z.eqb_spec n 365) as [E2|E2]; destruct (is_leap (y + 1)); unfold n in *; lia.
    - apply Z.leb_le in C5. rewrite (last_day_not_feb _ 1) by exact E. exact C5. }
  assert (C7 : days_from_civil (if month_of n <=? 2 then y + 1 else y) (month_of n) (dom_of n) = doe - 719468).
  { unfold days_from_civil. replace (if month_of n <=? 2 then (if month_of n <=? 2 then y + 1 else y) - 1 else if month_of n <=? 2 then y + 1 else y) with y by (destruct (month_of n <=? 2); lia).
    rewrite (Z.div_small y 400), (Z.mod_small y 400), C4 by lia. unfold dom_of, n, first_doe. lia. }
  rewrite !andb_true_iff, !Z.leb_le, Z.eqb_eq. repeat split; try assumption; destruct (month_of n <=? 2); lia.
Qed.

Lemma div_era k n a y : 0 < k -> (n * k * a + y) / k = n * a + y / k.
Proof. intros H. replace (n * k * a + y) with (y + n * a * k) by lia. rewrite Z.div_add by lia. lia. Qed.
Lemma dfc_era a y m d : days_from_civil (400 * a + y) m d = 146097 * a + days_from_civil y m d.
Proof.
  unfold days_from_civil. set (u := if m <=? 2 then y - 1 else y).
  replace (if m <=? 2 then 400 * a + y - 1 else 400 * a + y) with (u + a * 400) by (unfold u; destruct (m <=? 2); lia).
  rewrite Z.div_add, Z.mod_add by lia. lia.
Qed.
Lemma cfd_era a z : civil_from_days (146097 * a + z) = (let '(y, m, d) := civil_from_days z in (400 * a + y, m, d)).
Proof.
  unfold civil_from_days. replace (146097 * a + z + 719468) with (z + 719468 + a * 146097) by lia. rewrite Z.div_add, Z.mod_add by lia.
  set (doe := (z + 719468) mod 146097). set (yoe := (doe - doe / 1460 + doe / 36524 - doe / 146096) / 365).
  set (mp := (5 * (doe - (365 * yoe + yoe / 4 - yoe / 100)) + 2) / 153). set (m := if mp <? 10 then mp + 3 else mp - 9).
  cbv zeta. f_equal. f_equal. destruct (m <=? 2); lia.
Qed.

(** Every day has a valid date that counts back to it. *)
Lemma civil_valid z : let '(y, m, d) := civil_from_days z in 1 <= m <= 12 /\ 1 <= d <= last_day y m /\ days_from_civil y m d = z.
Proof.
  set (w := z + 719468). pose proof (Z.div_mod w 146097 ltac:(lia)) as E. pose proof (Z.mod_pos_bound w 146097 ltac:(lia)) as B.
  assert (Ez : z = 146097 * (w / 146097) + (w mod 146097 - 719468)) by (unfold w in *; lia).
  pose proof (cfd_era (w / 146097) (w mod 146097 - 719468)) as F. rewrite <- Ez in F. rewrite F. clear F. pose proof (era_days (w mod 146097) ltac:(lia)) as C. unfold day_checked in C.
  destruct (civil_from_days (w mod 146097 - 719468)) as [[y m] d]. rewrite !andb_true_iff, !Z.leb_le, Z.eqb_eq in C.
  destruct C as ((((((C1 & C2) & C3) & C4) & C5) & C6) & C7). split; [lia|]. rewrite last_day_era. split; [lia|]. rewrite dfc_era, C5. lia.
Qed.

(** Months follow each other. *)
Definition month_checked (y m : Z) : bool :=
  if m =? 12 then days_from_civil (y + 1) 1 1 =? days_from_civil y 12 1 + last_day y 12 else days_from_civil y (m + 1) 1 =? days_from_civil y m 1 + last_day y m.
Lemma months_checked : all_from 400 0 (fun y => all_from 12 1 (month_checked y)) = true.
Proof. vm_compute. reflexivity. Qed.
Lemma month_step y m : 1 <= m <= 12 -> (if m =? 12 then days_from_civil (y + 1) 1 1 else days_from_civil y (m + 1) 1) = days_from_civil y m 1 + last_day y m.
Proof.
  intros Hm. pose proof (Z.div_mod y 400 ltac:(lia)) as E. pose proof (Z.mod_pos_bound y 400 ltac:(lia)) as B.
  pose proof (all_from_spec _ _ _ months_checked (y mod 400) ltac:(lia)) as C. cbv beta in C. pose proof (all_from_spec _ _ _ C m ltac:(lia)) as D. unfold month_checked in D.
  pose proof (last_day_era (y / 400) (y mod 400) m) as L. pose proof (fun k => dfc_era (y / 400) (y mod 400) k 1) as F. pose proof (dfc_era (y / 400) (y mod 400 + 1) 1 1) as F1.
  replace (400 * (y / 400) + (y mod 400 + 1)) with (y + 1) in F1 by lia. rewrite <- E in L. pose proof (F m) as Fm. pose proof (F (m + 1)) as Fm1. rewrite <- E in Fm, Fm1.
  rewrite L, Fm, F1, Fm1.
  destruct (m =? 12) eqn:Em; apply Z.eqb_eq in D; [apply Z.eqb_eq in Em; subst m|]; lia.
Qed.
(** First day of the k-th month since year 0. *)
Definition month_start (k : Z) : Z := days_from_civil (k / 12) (k mod 12 + 1) 1.
Lemma month_start_of y m : 1 <= m <= 12 -> month_start (12 * y + (m - 1)) = days_from_civil y m 1.
Proof.
  intros H. unfold month_start. replace (12 * y + (m - 1)) with (m - 1 + y * 12) by lia. rewrite Z.div_add, Z.mod_add by lia.
  rewrite Z.div_small, Z.mod_small by lia. f_equal; lia.
Qed.
Lemma month_start_next k : month_start (k + 1) = month_start k + last_day (k / 12) (k mod 12 + 1).
Proof.
  pose proof (Z.div_mod k 12 ltac:(lia)) as E. pose proof (Z.mod_pos_bound k 12 ltac:(lia)) as B. set (y := k / 12) in *. set (m := k mod 12 + 1).
  assert (Hm : 1 <= m <= 12) by (unfold m; lia). assert (Ek : k = 12 * y + (m - 1)) by (unfold m; lia). rewrite Ek. rewrite (month_start_of y m Hm). rewrite <- (month_step y m Hm).
  destruct (m =? 12) eqn:Em.
  - apply Z.eqb_eq in Em. rewrite Em. replace (12 * y + (12 - 1) + 1) with (12 * (y + 1) + (1 - 1)) by lia. apply month_start_of. lia.
  - apply Z.eqb_neq in Em. replace (12 * y + (m - 1) + 1) with (12 * y + (m + 1 - 1)) by lia. apply month_start_of. lia.
Qed.
Lemma month_start_mono k : forall n : nat, month_start k + 28 * Z.of_nat n <= month_start (k + Z.of_nat n).
Proof.
  induction n as [|n IH]; [replace (k + Z.of_nat 0) with k by lia; lia|]. replace (k + Z.of_nat (S n)) with (k + Z.of_nat n + 1) by lia.
  rewrite month_start_next. pose proof (last_day_le ((k + Z.of_nat n) / 12) ((k + Z.of_nat n) mod 12 + 1)). lia.
Qed.
Lemma dfc_day y m d : days_from_civil y m d = days_from_civil y m 1 + (d - 1).
Proof. unfold days_from_civil. lia. Qed.
Lemma days_injective y m d y' m' d' : 1 <= m <= 12 -> 1 <= d <= last_day y m -> 1 <= m' <= 12 -> 1 <= d' <= last_day y' m' ->
  days_from_civil y m d = days_from_civil y' m' d' -> y = y' /\ m = m' /\ d = d'.
Proof.
  assert (K : forall y m d y' m' d', 1 <= m <= 12 -> 1 <= d <= last_day y m -> 1 <= m' <= 12 -> 1 <= d' <= last_day y' m' ->
    days_from_civil y m d = days_from_civil y' m' d' -> 12 * y + (m - 1) <= 12 * y' + (m' - 1)).
  { clear. intros y m d y' m' d' Hm Hd Hm' Hd' E. destruct (Z.le_gt_cases (12 * y + (m - 1)) (12 * y' + (m' - 1))) as [|G]; [assumption|exfalso].
    rewrite (dfc_day y m), (dfc_day y' m') in E. rewrite <- (month_start_of y m Hm), <- (month_start_of y' m' Hm') in E.
    set (k := 12 * y + (m - 1)) in *. set (k' := 12 * y' + (m' - 1)) in *.
    pose proof (month_start_next k') as N. assert (Ek : k' / 12 = y' /\ k' mod 12 + 1 = m').
    { unfold k'. replace (12 * y' + (m' - 1)) with (m' - 1 + y' * 12) by lia. rewrite Z.div_add, Z.mod_add by lia. rewrite Z.div_small, Z.mod_small by lia. lia. }
    destruct Ek as (Ey & Em). rewrite Ey, Em in N. pose proof (month_start_mono (k' + 1) (Z.to_nat (k - (k' + 1)))) as M. rewrite Z2Nat.id in M by lia.
    replace (k' + 1 + (k - (k' + 1))) with k in M by lia. lia. }
  intros Hm Hd Hm' Hd' E. pose proof (K y m d y' m' d' Hm Hd Hm' Hd' E). pose proof (K y' m' d' y m d Hm' Hd' Hm Hd (eq_sym E)).
  assert (y = y' /\ m = m') as (-> & ->) by lia. rewrite (dfc_day y' m' d), (dfc_day y' m' d') in E. lia.
Qed.
Lemma civil_of_days y m d : 1 <= m <= 12 -> 1 <= d <= last_day y m -> civil_from_days (days_from_civil y m d) = (y, m, d).
Proof.
  intros Hm Hd. pose proof (civil_valid (days_from_civil y m d)) as C. destruct (civil_from_days (days_from_civil y m d)) as [[y' m'] d']. destruct C as (C1 & C2 & C3).
  destruct (days_injective _ _ _ _ _ _ C1 C2 Hm Hd C3) as (-> & -> & ->). reflexivity.
Qed.
Lemma day_after_next a b y m d y' m' d' : a = (y, m, d) -> b = (y', m', d') -> day_after a b -> valid_date y m d -> days_from_civil y' m' d' = days_from_civil y m d + 1 /\ valid_date y' m' d'.
Proof.
  intros Ea Eb H V. apply valid_date_spec in V. destruct V as (V1 & V2). destruct H as [u v w H|u v w H Hm|u]; injection Ea as <- <- <-; injection Eb as <- <- <-.
  - split; [rewrite (dfc_day u v (w + 1)), (dfc_day u v w); lia|exact H].
  - pose proof (month_length_fun _ _ _ H) as (L & L2). pose proof (month_step u v V1) as M. rewrite (proj2 (Z.eqb_neq v 12)) in M by lia. rewrite (dfc_day u v w). split; [lia|].
    apply valid_date_spec. pose proof (last_day_le u (v + 1)). lia.
  - pose proof (month_step u 12 ltac:(lia)) as M. cbn [Z.eqb Pos.eqb] in M. rewrite (dfc_day u 12 31). change (last_day u 12) with 31 in M. split; [lia|].
    apply valid_date_spec. pose proof (last_day_le (u + 1) 1). lia.
Qed.
