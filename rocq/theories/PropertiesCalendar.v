(** Property theorems: search in arrays (C38), dates (C39). *)
From Coq Require Import ZArith Reals Lra Lia List Sorted.
From Flocq Require Import Core IEEE754.Bits.
From Verif Require Import Base BaseFacts Clock ClockFacts TimeSeries ClockFloat RunMoreFacts Search SearchFacts Calendar CalendarSpec CalendarFacts CalendarFloat CalendarFloatFacts.
Import ListNotations.
Open Scope R_scope.

(** *** C38 *)
(** For every non-empty array in increasing or decreasing order (equal elements allowed), every value and tolerance: if some element is within
    the tolerance the search returns the index of such an element; otherwise it reports out-of-range when the value is on one side of all
    elements (not-found for an array of one element) and not-found when it is between two of them. *)
Theorem c38_search : forall l v tol, l <> [] -> StronglySorted Rle l \/ StronglySorted Rge l ->
  ((exists x, In x l /\ Rabs (v - x) <= tol) <-> (exists i, find_value l v tol = Ok (Found i))) /\
  (forall i, find_value l v tol = Ok (Found i) -> exists x, nth_error l i = Some x /\ Rabs (v - x) <= tol) /\
  (find_value l v tol = Ok OutOfRange -> (forall x, In x l -> v < x) \/ (forall x, In x l -> x < v)) /\
  (find_value l v tol = Ok NotFound -> length l = 1%nat \/ exists a b, In a l /\ In b l /\ a <= v <= b) /\
  (exists r, find_value l v tol = Ok r).
Proof.
  intros l v tol Hn Hs. destruct (find_sorted l v tol Hn Hs) as (r & Er & Hr). rewrite Er. split; [|split; [|split; [|split; [|eauto]]]].
  - split.
    + intros (x & Hx & Hab). destruct r as [i| |]; [eauto|exfalso; exact (proj1 Hr x Hx Hab)|exfalso; exact (proj1 Hr x Hx Hab)].
    + intros (i & [= ->]). destruct Hr as (x & Hx & Hab). exists x. split; [exact (nth_error_In l i Hx)|exact Hab].
  - intros i [= ->]. exact Hr.
  - intros [= ->]. exact (proj2 Hr).
  - intros [= ->]. exact (proj2 Hr).
Qed.
Print Assumptions c38_search.
(** Whatever the array, sorted or not, a returned index is right. *)
Theorem c38_found_is_right : forall l v tol i, find_value l v tol = Ok (Found i) -> exists x, nth_error l i = Some x /\ Rabs (v - x) <= tol.
Proof. exact find_sound. Qed.
Print Assumptions c38_found_is_right.
Example c38_holds_somewhere : StronglySorted Rge [9; 7; 7; 2] /\ (exists i, find_value [9; 7; 7; 2] 3 1 = Ok (Found i)) /\ ~ (exists i, find_value [9; 7; 7; 2] 4 1 = Ok (Found i)).
Proof.
  assert (S1 : StronglySorted Rge [9; 7; 7; 2]) by (repeat constructor; lra). split; [exact S1|].
  split.
  - apply (c38_search [9; 7; 7; 2] 3 1 ltac:(discriminate) (or_intror S1)). exists 2. split; [cbn; auto 10|]. rewrite Rabs_right; lra.
  - intros H. apply (c38_search [9; 7; 7; 2] 4 1 ltac:(discriminate) (or_intror S1)) in H. destruct H as (x & Hx & Hab). apply Rabs_le_inv in Hab.
    destruct Hx as [<-|[<-|[<-|[<-|[]]]]]; lra.
Qed.

(** *** C39 *)
Open Scope Z_scope.
Lemma in_known y m d : known_year y -> valid_date y m d -> to_sys_days y m d = Ok (days_from_civil y m d).
Proof.
  intros Hy V. apply valid_date_spec in V. destruct V as (V1 & V2). pose proof (last_day_le y m). unfold known_year in Hy. unfold to_sys_days.
  replace ((y <? -32767) || (32767 <? y) || (m <? 1) || (12 <? m) || (d <? 1) || (31 <? d)) with false.
  - replace (last_day y m <? d) with false by (symmetry; apply Z.ltb_ge; lia). reflexivity.
  - symmetry. repeat (apply orb_false_iff; split); apply Z.ltb_ge; lia.
Qed.
Lemma hms_ok h mi s : 0 <= h <= 23 -> 0 <= mi <= 59 -> 0 <= s <= 60 -> hms_refused h mi s = false.
Proof. intros. unfold hms_refused. repeat (apply orb_false_iff; split); apply Z.ltb_ge; lia. Qed.
Lemma to_seconds_ok t : known_year (ct_year t) -> valid_date (ct_year t) (ct_month t) (ct_day t) -> 0 <= ct_hour t <= 23 -> 0 <= ct_min t <= 59 -> 0 <= ct_sec t <= 60 ->
  to_seconds t = Ok (days_from_civil (ct_year t) (ct_month t) (ct_day t) * 86400 + ct_hour t * 3600 + ct_min t * 60 + ct_sec t).
Proof. intros Hy V H1 H2 H3. unfold to_seconds. rewrite hms_ok by assumption. rewrite in_known by assumption. reflexivity. Qed.
Lemma of_seconds_back y m d h mi s : valid_date y m d -> valid_time h mi s -> of_seconds (days_from_civil y m d * 86400 + h * 3600 + mi * 60 + s) = mkTime y m d h mi s.
Proof.
  intros V (H1 & H2 & H3). apply valid_date_spec in V. destruct V as (V1 & V2). unfold of_seconds.
  set (z := days_from_civil y m d) in *. replace (z * 86400 + h * 3600 + mi * 60 + s) with (h * 3600 + mi * 60 + s + z * 86400) by lia.
  rewrite Z.div_add, Z.mod_add by lia. rewrite (Z.div_small (h * 3600 + mi * 60 + s)), (Z.mod_small (h * 3600 + mi * 60 + s)) by lia.
  unfold z. rewrite Z.add_0_l, civil_of_days by assumption.
  assert (E1 : (h * 3600 + mi * 60 + s) / 3600 = h) by (symmetry; apply (Z.div_unique _ 3600 h (mi * 60 + s)); lia). rewrite E1.
  replace (h * 3600 + mi * 60 + s - h * 3600) with (mi * 60 + s) by lia.
  assert (E2 : (mi * 60 + s) / 60 = mi) by (symmetry; apply (Z.div_unique _ 60 mi s); lia). rewrite E2. f_equal. lia.
Qed.
Lemma mjd_seconds s : mjd_to_seconds (seconds_to_mjd s) = s.
Proof. unfold mjd_to_seconds, seconds_to_mjd. replace ((40587 + IZR s / 86400 - 40587) * 86400)%R with (IZR s) by field. apply c_round_int. Qed.

(** Every date and time of the calendar is converted and comes back unchanged. *)
Theorem c39_round_trip : forall t, known_year (ct_year t) -> valid_date (ct_year t) (ct_month t) (ct_day t) -> valid_time (ct_hour t) (ct_min t) (ct_sec t) ->
  exists x, to_mjd t = Ok x /\ from_mjd x = t.
Proof.
  intros [y m d h mi s]. cbn [ct_year ct_month ct_day ct_hour ct_min ct_sec]. intros Hy V T. pose proof T as (T1 & T2 & T3).
  unfold to_mjd. rewrite to_seconds_ok by (cbn; try assumption; lia). cbn [bind ct_year ct_month ct_day ct_hour ct_min ct_sec]. eexists. split; [reflexivity|].
  unfold from_mjd. rewrite mjd_seconds. apply of_seconds_back; assumption.
Qed.
Print Assumptions c39_round_trip.
(** ... also in the arithmetic of the program: binary64 dates, long double of any precision of at least 53 bits. *)
Lemma seconds_bound t n : known_year (ct_year t) -> valid_date (ct_year t) (ct_month t) (ct_day t) -> valid_time (ct_hour t) (ct_min t) (ct_sec t) -> to_seconds t = Ok n ->
  Z.abs n <= 2 ^ 40.
Proof.
  intros Hy V T. pose proof T as (T1 & T2 & T3). rewrite to_seconds_ok by (try assumption; lia). intros [= <-]. apply valid_date_spec in V. destruct V as (V1 & V2).
  pose proof (last_day_le (ct_year t) (ct_month t)). unfold known_year in Hy. set (z := days_from_civil _ _ _).
  assert (Bz : -12700000 <= z <= 12000000).
  { unfold z, days_from_civil. set (u := if ct_month t <=? 2 then ct_year t - 1 else ct_year t). assert (Hu : -32768 <= u <= 32767) by (unfold u; destruct (ct_month t <=? 2); lia).
    assert (Hm : 0 <= march_month (ct_month t) <= 11) by (unfold march_month; destruct (Z.ltb_spec 2 (ct_month t)); lia). clearbody u.
    assert (-82 <= u / 400 <= 81) by (split; [apply Z.div_le_lower_bound|apply Z.lt_succ_r; apply Z.div_lt_upper_bound]; lia).
    pose proof (Z.mod_pos_bound u 400 ltac:(lia)). assert (0 <= u mod 400 / 4 <= 99) by (split; [apply Z.div_pos|apply Z.lt_succ_r; apply Z.div_lt_upper_bound]; lia).
    assert (0 <= u mod 400 / 100 <= 3) by (split; [apply Z.div_pos|apply Z.lt_succ_r; apply Z.div_lt_upper_bound]; lia).
    assert (0 <= (153 * march_month (ct_month t) + 2) / 5 <= 340) by (split; [apply Z.div_pos|apply Z.lt_succ_r; apply Z.div_lt_upper_bound]; lia). lia. }
  clearbody z. lia.
Qed.
Theorem c39_binary64_round_trip : forall p t, 53 <= p -> known_year (ct_year t) -> valid_date (ct_year t) (ct_month t) (ct_day t) -> valid_time (ct_hour t) (ct_min t) (ct_sec t) ->
  exists x, fto_mjd t = Ok x /\ ffrom_mjd p x = t.
Proof.
  intros p t Hp Hy V T. pose proof T as (T1 & T2 & T3). pose proof (to_seconds_ok t Hy V T1 T2 ltac:(lia)) as E. unfold fto_mjd. rewrite E. cbn [bind]. eexists. split; [reflexivity|].
  unfold ffrom_mjd. rewrite seconds_back; [|exact Hp|exact (seconds_bound t _ Hy V T E)]. destruct t as [y m d h mi s]. apply of_seconds_back; assumption.
Qed.
Print Assumptions c39_binary64_round_trip.
(** 1970-01-01 is the day 40587; the day after is one more, at the same time of day. *)
Theorem c39_consecutive_days : to_mjd (mkTime 1970 1 1 0 0 0) = Ok 40587%R /\
  forall y m d y' m' d' h mi s, known_year y -> known_year y' -> valid_date y m d -> day_after (y, m, d) (y', m', d') -> valid_time h mi s ->
  exists x, to_mjd (mkTime y m d h mi s) = Ok x /\ to_mjd (mkTime y' m' d' h mi s) = Ok (x + 1)%R.
Proof.
  split; [unfold to_mjd; cbn [bind to_seconds hms_refused ct_year ct_month ct_day ct_hour ct_min ct_sec]; vm_compute (to_seconds _); cbn [bind]; unfold seconds_to_mjd; f_equal; lra|].
  intros y m d y' m' d' h mi s Hy Hy' V A T. pose proof T as (T1 & T2 & T3). destruct (day_after_next _ _ y m d y' m' d' eq_refl eq_refl A V) as (E & V').
  unfold to_mjd. rewrite !to_seconds_ok by (cbn; try assumption; lia). cbn [bind ct_year ct_month ct_day ct_hour ct_min ct_sec]. eexists. split; [reflexivity|]. f_equal.
  unfold seconds_to_mjd. rewrite E, !plus_IZR, !mult_IZR, plus_IZR. lra.
Qed.
Print Assumptions c39_consecutive_days.
(** Dates that do not exist are refused. *)
Theorem c39_refused : forall t, ~ (known_year (ct_year t) /\ valid_date (ct_year t) (ct_month t) (ct_day t) /\ 0 <= ct_hour t <= 23 /\ 0 <= ct_min t <= 59 /\ 0 <= ct_sec t <= 60) -> to_mjd t = Throw.
Proof.
  intros t H. unfold to_mjd, to_seconds. destruct (hms_refused _ _ _) eqn:Eh; [reflexivity|]. cbn [bind].
  unfold to_sys_days. destruct (_ || _) eqn:Ed; [reflexivity|]. destruct (Z.ltb_spec (last_day (ct_year t) (ct_month t)) (ct_day t)); [reflexivity|]. exfalso. apply H.
  unfold hms_refused in Eh. repeat (apply orb_false_iff in Eh; destruct Eh as (Eh & ?)). repeat (apply orb_false_iff in Ed; destruct Ed as (Ed & ?)).
  repeat match goal with X : (_ <? _) = false |- _ => apply Z.ltb_ge in X end.
  split; [unfold known_year; lia|]. split; [apply valid_date_spec; lia|lia].
Qed.
Print Assumptions c39_refused.
(** Every date of the clock has a valid civil date, which is within half a second of it. *)
Theorem c39_any_date : forall x, let t := from_mjd x in valid_date (ct_year t) (ct_month t) (ct_day t) /\ valid_time (ct_hour t) (ct_min t) (ct_sec t) /\
  (known_year (ct_year t) -> exists y, to_mjd t = Ok y /\ (Rabs (y - x) <= 1 / 2 / 86400)%R).
Proof.
  intros x t. set (n := mjd_to_seconds x). assert (Et : t = of_seconds n) by reflexivity. unfold of_seconds in Et.
  pose proof (civil_valid (n / 86400)) as C. destruct (civil_from_days (n / 86400)) as [[y m] d]. destruct C as (C1 & C2 & C3).
  pose proof (Z.div_mod n 86400 ltac:(lia)) as E. pose proof (Z.mod_pos_bound n 86400 ltac:(lia)) as B. set (tod := n mod 86400) in *.
  pose proof (Z.div_mod tod 3600 ltac:(lia)) as E1. pose proof (Z.mod_pos_bound tod 3600 ltac:(lia)) as B1. set (h := tod / 3600) in *.
  pose proof (Z.div_mod (tod - h * 3600) 60 ltac:(lia)) as E2. pose proof (Z.mod_pos_bound (tod - h * 3600) 60 ltac:(lia)) as B2. set (mi := (tod - h * 3600) / 60) in *.
  assert (V : valid_date y m d) by (apply valid_date_spec; auto).
  assert (T : valid_time h mi (tod - h * 3600 - mi * 60)) by (unfold valid_time; lia).
  rewrite Et. cbn [ct_year ct_month ct_day ct_hour ct_min ct_sec]. split; [exact V|]. split; [exact T|]. intros Hy. destruct T as (T1 & T2 & T3).
  unfold to_mjd. rewrite to_seconds_ok by (cbn; try assumption; lia). cbn [bind ct_year ct_month ct_day ct_hour ct_min ct_sec]. eexists. split; [reflexivity|].
  rewrite C3. replace (n / 86400 * 86400 + h * 3600 + mi * 60 + (tod - h * 3600 - mi * 60)) with n by lia.
  unfold seconds_to_mjd. assert (Hn : (Rabs (IZR n - (x - 40587) * 86400) <= 1 / 2)%R).
  { unfold n, mjd_to_seconds. clear. set (u := ((x - 40587) * 86400)%R). unfold c_round. destruct (Rleb_spec 0 u) as [Hu|Hu].
    - pose proof (archimed (u + 1 / 2)) as (A1 & A2). rewrite minus_IZR. apply Rabs_le. lra.
    - pose proof (archimed (1 / 2 - u)) as (A1 & A2). rewrite minus_IZR. apply Rabs_le. lra. }
  apply Rabs_le_inv in Hn. apply Rabs_le. lra.
Qed.
Print Assumptions c39_any_date.
(** A leap second (accepted) does not come back: it is the first second of the next minute. *)
Theorem c39_leap_second_refuted : exists x, to_mjd (mkTime 2016 12 31 23 59 60) = Ok x /\ from_mjd x = mkTime 2017 1 1 0 0 0.
Proof.
  unfold to_mjd. assert (E : to_seconds (mkTime 2016 12 31 23 59 60) = Ok 1483228800) by (vm_compute; reflexivity). rewrite E. cbn [bind]. eexists. split; [reflexivity|].
  unfold from_mjd. rewrite mjd_seconds. vm_compute. reflexivity.
Qed.
Print Assumptions c39_leap_second_refuted.

(** The day of the year is the ordinal of the day: one more than the number of days since January 1st. *)
Lemma cum_checked : all_from 400 0 (fun y => all_from 12 1 (fun m => nth (Z.to_nat (m - 1)) cum_month_days 0 + 1 + (if is_leap y && (1 <? m - 1) then 1 else 0) =? days_from_civil y m 1 - days_from_civil y 1 1 + 1)) = true.
Proof. vm_compute. reflexivity. Qed.
Theorem c39_day_of_year : forall x, (0 < x)%R -> let t := from_mjd x in known_year (ct_year t) ->
  exists day first, to_mjd (mkTime (ct_year t) (ct_month t) (ct_day t) 0 0 0) = Ok day /\ to_mjd (mkTime (ct_year t) 1 1 0 0 0) = Ok first /\
    (IZR (day_of_year x) = day - first + 1)%R.
Proof.
  intros x Hx t Hy. destruct (c39_any_date x) as (V & _). fold t in V. pose proof V as V0. apply valid_date_spec in V0. destruct V0 as (V1 & V2).
  assert (Vf : valid_date (ct_year t) 1 1) by (apply valid_date_spec; pose proof (last_day_le (ct_year t) 1); lia).
  unfold to_mjd. rewrite !to_seconds_ok by (cbn; try assumption; lia). cbn [bind ct_year ct_month ct_day ct_hour ct_min ct_sec]. do 2 eexists. split; [reflexivity|]. split; [reflexivity|].
  unfold day_of_year. rewrite (proj2 (Rleb_false x 0)) by lra. cbv zeta. fold t.
  replace ((ct_month t - 1 <? 0) || (11 <? ct_month t - 1)) with false by (symmetry; apply orb_false_iff; split; apply Z.ltb_ge; lia).
  set (y := ct_year t) in *. set (m := ct_month t) in *. set (d := ct_day t) in *. clearbody y m d.
  pose proof (Z.div_mod y 400 ltac:(lia)) as E. pose proof (Z.mod_pos_bound y 400 ltac:(lia)) as B.
  pose proof (all_from_spec _ _ _ cum_checked (y mod 400) ltac:(lia)) as C. cbv beta in C. pose proof (all_from_spec _ _ _ C m ltac:(lia)) as D. cbv beta in D. apply Z.eqb_eq in D.
  pose proof (leap_era (y / 400) (y mod 400)) as L. rewrite <- E in L. pose proof (fun k => dfc_era (y / 400) (y mod 400) k 1) as F. pose proof (F m) as Fm. pose proof (F 1) as F1. rewrite <- E in Fm, F1.
  rewrite L. set (w := nth (Z.to_nat (m - 1)) cum_month_days 0) in *. set (b := if is_leap (y mod 400) && (1 <? m - 1) then 1 else 0) in *.
  assert (K : w + d + b = days_from_civil y m d - days_from_civil y 1 1 + 1) by (rewrite (dfc_day y m d); lia). rewrite K.
  unfold seconds_to_mjd. rewrite plus_IZR, minus_IZR. rewrite !plus_IZR, !mult_IZR. lra.
Qed.
Print Assumptions c39_day_of_year.
(** Refuted up to 1858-11-17 (day 0): the ordinal is always 1. *)
Theorem c39_day_of_year_before_refuted : day_of_year 0 = 1 /\ from_mjd 0 = mkTime 1858 11 17 0 0 0.
Proof.
  split; [unfold day_of_year; rewrite (proj2 (Rleb_true 0 0)) by lra; reflexivity|].
  unfold from_mjd, mjd_to_seconds. replace ((0 - 40587) * 86400)%R with (IZR (-3506716800)) by lra. rewrite c_round_int. vm_compute. reflexivity.
Qed.
Print Assumptions c39_day_of_year_before_refuted.
Example c39_holds_somewhere : valid_date 2024 2 29 /\ ~ valid_date 2023 2 29 /\ day_after (2024, 2, 29) (2024, 3, 1) /\ to_mjd (mkTime 2023 2 29 0 0 0) = Throw /\
  (exists x, to_mjd (mkTime 2024 2 29 13 45 59) = Ok x /\ from_mjd x = mkTime 2024 2 29 13 45 59) /\ day_of_year 60370 = 61 /\ from_mjd 60370 = mkTime 2024 3 1 0 0 0.
Proof.
  assert (V : valid_date 2024 2 29) by (apply valid_date_spec; cbn; lia). split; [exact V|]. split; [intros X; apply valid_date_spec in X; cbn in X; lia|].
  split; [apply (next_month 2024 2 29); [apply (last_day_spec 2024 2); lia|lia]|]. split; [apply c39_refused; cbn; intros (_ & X & _); apply valid_date_spec in X; cbn in X; lia|].
  split; [apply c39_round_trip; cbn; [unfold known_year; lia|exact V|unfold valid_time; lia]|].
  assert (E : from_mjd 60370 = mkTime 2024 3 1 0 0 0).
  { unfold from_mjd, mjd_to_seconds. replace ((60370 - 40587) * 86400)%R with (IZR 1709251200) by lra. rewrite c_round_int. vm_compute. reflexivity. }
  split; [|exact E]. unfold day_of_year. rewrite (proj2 (Rleb_false 60370 0)) by lra. rewrite E. reflexivity.
Qed.
