(** Property theorems: splitters and process formulas (C13-C16, C21, C49-C51). *)
From Verif Require Import Base BaseFacts Processes ProcessFacts WitnessTools.

(** *** C13: rain and snow *)
(** There is one rain share, a function of temperature alone, between 0 and 1 and non-decreasing, such
    that the splitter delivers share x precipitation as rain and the rest as snow, each multiplied by its
    correction factor. *)
Theorem c13_linear : forall start stop, exists share : R -> R,
  (forall t, 0 <= share t <= 1) /\ (forall t t', t <= t' -> share t <= share t') /\
  (forall t, t <= start -> share t = 0) /\ (forall t, start < t -> stop <= t -> share t = 1) /\
  forall rcf scf precip t, split_linear start stop rcf scf precip t =
    Ok (precip * share t * rcf, precip * (1 - share t) * scf).
Proof. exact (fun start stop => ex_intro _ (linear_share start stop) (linear_share_ok start stop)). Qed.
Print Assumptions c13_linear.

Theorem c13_threshold : forall thr, exists share : R -> R,
  (forall t, 0 <= share t <= 1) /\ (forall t t', t <= t' -> share t <= share t') /\
  (forall t, t <= thr -> share t = 0) /\ (forall t, thr < t -> share t = 1) /\
  forall rcf scf precip t, split_threshold thr rcf scf precip t =
    Ok (precip * share t * rcf, precip * (1 - share t) * scf).
Proof. exact (fun thr => ex_intro _ (threshold_share thr) (threshold_share_ok thr)). Qed.
Print Assumptions c13_threshold.

(** CemaNeige: above 1500 m the solid share depends on the mean temperature, below on the daily minimum and
    maximum; it never increases when they increase.  A splitter without the needed forcing is undefined. *)
Theorem c13_cemaneige : exists high : R -> R, exists low : R -> R -> R,
  (forall t, 0 <= high t <= 1) /\ (forall t t', t <= t' -> high t' <= high t) /\
  (forall t, t <= -1 -> high t = 1) /\ (forall t, 3 <= t -> high t = 0) /\
  (forall a b, 0 <= low a b <= 1) /\ (forall a b a' b', a <= a' -> b <= b' -> low a' b' <= low a b) /\
  (forall a b, a <= 0 -> b <= 0 -> low a b = 1) /\ (forall a b, 0 < a -> low a b = 0) /\
  (forall z rcf scf precip t tmin tmax, 1500 <= z -> split_cemaneige z rcf scf precip (Some t) tmin tmax =
     Ok (precip * (1 - high t) * rcf, precip * high t * scf)) /\
  (forall z rcf scf precip t a b, z < 1500 -> split_cemaneige z rcf scf precip t (Some a) (Some b) =
     Ok (precip * (1 - low a b) * rcf, precip * low a b * scf)).
Proof.
  exists cemaneige_solid_high, cemaneige_solid_low.
  destruct cemaneige_high_ok as (A&B&C&D). destruct cemaneige_low_ok as (E&F&G&H).
  repeat split; try apply A; try apply E; auto;
    intros; unfold split_cemaneige, cemaneige_solid; dec; try lra; reflexivity.
Qed.
Print Assumptions c13_cemaneige.

(** With unit factors, rain plus snow is the precipitation and both are parts of it. *)
Definition conserves (precip : R) (out : outcome (R * R)) : Prop :=
  exists rain snow, out = Ok (rain, snow) /\ rain + snow = precip /\
    (0 <= precip -> 0 <= rain <= precip /\ 0 <= snow <= precip).
Theorem c13_precipitation_conserved : forall precip,
  (forall start stop t, conserves precip (split_linear start stop 1 1 precip t)) /\
  (forall thr t, conserves precip (split_threshold thr 1 1 precip t)) /\
  (forall z t a b, conserves precip (split_cemaneige z 1 1 precip (Some t) (Some a) (Some b))) /\
  conserves precip (split_rain 1 precip).
Proof.
  intros precip.
  assert (G : forall f out, 0 <= f <= 1 -> out = Ok (precip * f * 1, precip * (1 - f) * 1) -> conserves precip out).
  { intros f out Hf ->. exists (precip * f * 1), (precip * (1 - f) * 1). split; [reflexivity|]. split; [ring|]. intros. nra. }
  split; [|split; [|split]].
  - intros start stop t. destruct (c13_linear start stop) as (f & B & _ & _ & _ & E). exact (G (f t) _ (B t) (E 1 1 precip t)).
  - intros thr t. destruct (c13_threshold thr) as (f & B & _ & _ & _ & E). exact (G (f t) _ (B t) (E 1 1 precip t)).
  - intros z t a b. destruct c13_cemaneige as (h & l & Bh & _ & _ & _ & Bl & _ & _ & _ & Eh & El).
    destruct (Rle_dec 1500 z) as [Hz|Hz].
    + apply (G (1 - h t)); [pose proof (Bh t); lra|]. rewrite Eh by exact Hz. f_equal; f_equal; ring.
    + apply (G (1 - l a b)); [pose proof (Bl a b); lra|]. rewrite El by lra. f_equal; f_equal; ring.
  - apply (G 1); [lra|]. unfold split_rain. f_equal; f_equal; ring.
Qed.
Print Assumptions c13_precipitation_conserved.
Example c13_case : split_linear 0 2 1 1 10 (1/2) = Ok (10 * ((1/2 - 0) / (2 - 0)) * 1, 10 * (1 - (1/2 - 0) / (2 - 0)) * 1)
  /\ 10 * ((1/2 - 0) / (2 - 0)) * 1 = 5/2.
Proof. split; [unfold split_linear; dec; try lra; reflexivity|lra]. Qed.

(** *** C14: production store *)
Theorem c14_infiltration : forall S Pn X1, 0 <= S <= X1 -> 0 <= Pn ->
  0 <= gr4j_infiltration S Pn X1 <= Pn /\ gr4j_infiltration S Pn X1 <= X1 - S.
Proof. exact infiltration_ok. Qed.
Print Assumptions c14_infiltration.
Theorem c14_evaporation : forall S En X1, 0 <= S <= X1 -> 0 <= En ->
  0 <= gr4j_evaporation S En X1 <= En /\ gr4j_evaporation S En X1 <= S.
Proof. exact evaporation_ok. Qed.
Print Assumptions c14_evaporation.
Theorem c14_percolation : forall S X1, 0 <= S -> 0 <= gr4j_percolation S X1 <= S /\
  (0 < S -> 0 < X1 -> 0 < gr4j_percolation S X1 < S).
Proof. exact percolation_ok. Qed.
Print Assumptions c14_percolation.
(** One day of the production store with the rates the processes request, and every day of a history of
    (rain, demand): the store stays between empty and full, releases are non-negative, and the total
    evaporation (interception plus store) stays within the demand. *)
Fixpoint gr4j_history (X1 S : R) (l : list (R * R)) : list R :=
  match l with
  | [] => [S]
  | (P, E) :: r =>
      let (icept, en) := gr4j_interception P E in
      let pn := P - icept in
      S :: gr4j_history X1 (S + P - icept - gr4j_et_rate X1 S pn en - gr4j_production_rate X1 S pn en) r
  end.
Theorem c14_production_store_bounded : forall X1 S l, 0 < X1 -> 0 <= S <= X1 ->
  (forall P E, In (P, E) l -> 0 <= P /\ 0 <= E) ->
  forall level, In level (gr4j_history X1 S l) -> 0 <= level <= X1.
Proof.
  intros X1 S l HX. revert S. induction l as [|[P E] r IH]; intros S HS Hl level Hin.
  - destruct Hin as [<-|[]]. exact HS.
  - destruct (Hl P E (or_introl eq_refl)) as (HP & HE). pose proof (gr4j_day P E X1 S HP HE HX HS) as D.
    cbn [gr4j_history] in Hin. destruct (gr4j_interception P E) as [ic en]. destruct Hin as [<-|Hin]; [exact HS|].
    apply (IH _ (proj2 (proj2 (proj2 D)))) in Hin; auto. intros P' E' H'. apply Hl. right; exact H'.
Qed.
Print Assumptions c14_production_store_bounded.
Theorem c15_gr4j_evaporation_within_demand : forall P E X1 S, 0 <= P -> 0 <= E -> 0 < X1 -> 0 <= S <= X1 ->
  let (icept, en) := gr4j_interception P E in
  let pn := P - icept in
  let es := gr4j_et_rate X1 S pn en in let pr := gr4j_production_rate X1 S pn en in
  0 <= icept <= P /\ 0 <= icept + es <= E /\ 0 <= pr /\ 0 <= S + P - icept - es - pr <= X1.
Proof. exact gr4j_day. Qed.
Print Assumptions c15_gr4j_evaporation_within_demand.
Example c14_case : 0 <= 100 <= 350 /\ 0 < gr4j_percolation 100 350 < 100 /\
  gr4j_history 350 100 [(5, 5)] = [100; 100 - gr4j_percolation 100 350].
Proof.
  split; [lra|]. split; [apply c14_percolation; lra|].
  cbn [gr4j_history gr4j_interception]. rewrite Rmin_left by lra. rewrite Rmax_left by lra.
  unfold gr4j_et_rate, gr4j_production_rate, gr4j_infiltration, gr4j_evaporation.
  replace (Rleb 0 0) with true by (dec; [reflexivity|lra]).
  replace (Rleb (5 - 5) 0) with true by (dec; [reflexivity|lra]).
  replace (Rleb 350 0) with false by (dec; [lra|reflexivity]). cbn [orb].
  replace (100 + 0 - 0) with 100 by lra. f_equal. f_equal. lra.
Qed.

(** *** C15: evapotranspiration *)
(** For a storage of positive capacity and a non-negative demand, the rate exists, does not exceed the
    demand, is not negative while the content is not, and does not decrease with the content. *)
Definition demand_limited (et : R -> R -> outcome R) : Prop :=
  forall pet, 0 <= pet ->
  (forall content, exists q, et content pet = Ok q /\ q <= pet /\ (0 <= content -> 0 <= q)) /\
  (forall x y q q', x <= y -> et x pet = Ok q -> et y pet = Ok q' -> q <= q').
Theorem c15_socont : forall c, 0 < c -> demand_limited (fun content pet => et_socont (Some c) content pet).
Proof. exact et_socont_good. Qed.
Print Assumptions c15_socont.
Theorem c15_power_law : forall c e, 0 < c -> 0 < e ->
  demand_limited (fun content pet => et_power (Some c) content e pet).
Proof. exact et_power_good. Qed.
Print Assumptions c15_power_law.
Theorem c15_linear : forall c, 0 < c -> demand_limited (fun content pet => et_linear (Some c) content pet).
Proof. exact et_linear_good. Qed.
Print Assumptions c15_linear.
Theorem c15_exponential : forall c alpha, 0 < c -> 0 <= alpha ->
  demand_limited (fun content pet => et_exponential (Some c) content alpha pet).
Proof. exact et_exponential_good. Qed.
Print Assumptions c15_exponential.
Theorem c15_hbv : forall c lp cf, 0 < c -> 0 < lp -> 0 <= cf <= 1 ->
  demand_limited (fun content pet => et_hbv (Some c) content lp cf pet).
Proof. exact et_hbv_good. Qed.
Print Assumptions c15_hbv.
Theorem c15_open_water : forall dt, 0 < dt ->
  demand_limited (fun content pet => Ok (et_open_water (Some dt) content pet)) /\
  forall content pet, 0 <= content -> et_open_water (Some dt) content pet * dt <= content.
Proof. exact et_open_water_good. Qed.
Print Assumptions c15_open_water.
(** A correction factor above one lets the HBV rate exceed the potential evapotranspiration. *)
Theorem c15_hbv_correction_refuted :
  ~ (forall c lp cf content pet q, 0 < c -> 0 < lp -> 0 <= cf -> 0 <= pet ->
       et_hbv (Some c) content lp cf pet = Ok q -> q <= pet).
Proof.
  intros H. specialize (H 100 (1/2) (3/2) 80 4 (3/2 * 4 * Rmin 1 (80 / (1/2 * 100)))).
  assert (E : et_hbv (Some 100) 80 (1/2) (3/2) 4 = Ok (3/2 * 4 * Rmin 1 (80 / (1/2 * 100)))).
  { unfold et_hbv. dec; [lra|reflexivity]. }
  specialize (H ltac:(lra) ltac:(lra) ltac:(lra) ltac:(lra) E). rewrite Rmin_left in H by lra. lra.
Qed.
Print Assumptions c15_hbv_correction_refuted.
Example c15_case : et_linear (Some 100) 25 4 = Ok (4 * Rmin 1 (Rmax 0 (Rmin 1 (25 / 100)))) /\
  4 * Rmin 1 (Rmax 0 (Rmin 1 (25 / 100))) = 1.
Proof.
  split; [unfold et_linear, filling_ratio; dec; [lra|reflexivity]|].
  rewrite (Rmin_right 1 (25/100)) by lra. rewrite Rmax_right by lra. rewrite Rmin_right by lra. lra.
Qed.

(** *** C16: melt and refreezing *)
(** No melt at or below the melting temperature, never negative, not decreasing with temperature. *)
Definition thermal (tmelt : R) (melt : R -> R) : Prop :=
  (forall t, t <= tmelt -> melt t = 0) /\ (forall t, 0 <= melt t) /\ (forall t t', t <= t' -> melt t <= melt t').
Theorem c16_degree_day : forall acc factor tmelt, 0 <= factor -> thermal tmelt (melt_degree_day acc factor tmelt).
Proof. exact degree_day_good. Qed.
Print Assumptions c16_degree_day.
Theorem c16_temperature_index : forall acc factor rc rad tmelt, 0 <= factor + rc * rad ->
  thermal tmelt (melt_temperature_index acc factor rc rad tmelt).
Proof. exact temperature_index_good. Qed.
Print Assumptions c16_temperature_index.
Theorem c16_cemaneige : forall ctg kf tmelt ms swe cold, 0 <= ctg <= 1 -> 0 <= kf -> 0 <= ms ->
  thermal tmelt (fun t => snd (melt_cemaneige ctg kf tmelt ms swe cold t)).
Proof. exact cemaneige_good. Qed.
Print Assumptions c16_cemaneige.
(** Over any weather history the cold content stays at or below zero, and nothing melts while it is below. *)
Fixpoint cemaneige_run (ctg kf tmelt ms : R) (cold : R) (l : list (R * R)) : list (R * R) :=
  match l with
  | [] => []
  | (swe, t) :: r => let o := melt_cemaneige ctg kf tmelt ms swe cold t in o :: cemaneige_run ctg kf tmelt ms (fst o) r
  end.
Theorem c16_cemaneige_cold_content : forall ctg kf tmelt ms l cold, cold <= 0 ->
  forall cold' melt, In (cold', melt) (cemaneige_run ctg kf tmelt ms cold l) -> cold' <= 0 /\ (cold' < 0 -> melt = 0).
Proof.
  intros ctg kf tmelt ms. induction l as [|[swe t] r IH]; intros cold Hc cold' melt Hin; [destruct Hin|].
  cbn [cemaneige_run] in Hin. pose proof (cemaneige_cold ctg kf tmelt ms swe cold t Hc) as H.
  destruct (melt_cemaneige ctg kf tmelt ms swe cold t) as [c m]. destruct Hin as [E|Hin].
  - injection E as <- <-. exact H.
  - exact (IH c (proj1 H) cold' melt Hin).
Qed.
Print Assumptions c16_cemaneige_cold_content.
Theorem c16_refreeze : forall sib cfr t, 0 <= cfr -> (forall ddf tm, sib = Some (ddf, tm) -> 0 <= ddf) ->
  0 <= refreeze_degree_day sib cfr t /\
  (forall ddf tm, sib = Some (ddf, tm) -> tm <= t -> refreeze_degree_day sib cfr t = 0) /\
  (forall t', t <= t' -> refreeze_degree_day sib cfr t' <= refreeze_degree_day sib cfr t).
Proof. exact refreeze_good. Qed.
Print Assumptions c16_refreeze.
(** Snow melt and refreezing never happen in the same step. *)
Theorem c16_melt_xor_refreeze : forall acc ddf tm cfr t,
  melt_degree_day acc ddf tm t = 0 \/ refreeze_degree_day (Some (ddf, tm)) cfr t = 0.
Proof. intros. unfold melt_degree_day, refreeze_degree_day. destruct acc; dec; auto. Qed.
Print Assumptions c16_melt_xor_refreeze.
Example c16_case : melt_degree_day true 3 0 2 = (2 - 0) * 3 /\ snd (melt_cemaneige 0 3 0 100 90 0 2) = 6.
Proof.
  split; [unfold melt_degree_day; dec; try lra; reflexivity|].
  unfold melt_cemaneige, accessible. replace (Rltb 0 90) with true by (dec; [reflexivity|lra]).
  replace (0 * 0 + (1 - 0) * (2 - 0)) with 2 by lra. rewrite (Rmin_left 0 2) by lra.
  replace (Rltb 0 0) with false by (dec; [lra|reflexivity]). replace (Rleb 2 0) with false by (dec; [lra|reflexivity]).
  cbn [orb snd]. replace (Rltb 0 (9/10*100)) with true by (dec; [reflexivity|lra]). rewrite Rmin_left by lra. lra.
Qed.

(** *** C21: exponential store *)
(** The outflow is positive, larger than the level (so a positive store is always emptied below zero), and
    within X6 * e^-14 above the exact law X6 * ln(1 + e^(R/X6)); it increases with the level up to that. *)
Theorem c21_outflow : forall R1 R2 X6, 0 < X6 -> R1 <= R2 ->
  0 < gr6j_exponential_outflow R1 X6 /\ R1 < gr6j_exponential_outflow R1 X6 /\
  gr6j_exponential_outflow R1 X6 <= gr6j_exponential_outflow R2 X6 + X6 * exp (-14).
Proof. exact exponential_facts. Qed.
Print Assumptions c21_outflow.
Theorem c21_accuracy : forall Rexp X6, 0 < X6 ->
  X6 * ln (exp (Rexp / X6) + 1) <= gr6j_exponential_outflow Rexp X6
    <= X6 * ln (exp (Rexp / X6) + 1) + X6 * exp (-14).
Proof. exact exponential_close. Qed.
Print Assumptions c21_accuracy.
(** It is not monotone: it drops when the level reaches -7 X6. *)
Theorem c21_monotone_refuted :
  ~ (forall R1 R2 X6, 0 < X6 -> R1 <= R2 -> gr6j_exponential_outflow R1 X6 <= gr6j_exponential_outflow R2 X6).
Proof.
  intros H.
  (* a level just below -7: exp of it still exceeds ln(1 + exp(-7)) *)
  assert (Hlt : ln (exp (-7) + 1) < exp (-7)).
  { pose proof (exp_pos (-7)). apply exp_lt_inv. rewrite exp_ln by lra.
    rewrite Rplus_comm. apply exp_ineq1. lra. }
  set (y := ln ((ln (exp (-7) + 1) + exp (-7)) / 2)).
  assert (Hpos : 0 < ln (exp (-7) + 1)) by (rewrite <- ln_1; apply ln_increasing; pose proof (exp_pos (-7)); lra).
  pose proof (exp_pos (-7)) as Hp7.
  assert (Ey : exp y = (ln (exp (-7) + 1) + exp (-7)) / 2) by (unfold y; apply exp_ln; lra).
  assert (Hy7 : y < -7) by (apply exp_lt_inv; lra).
  assert (Hy33 : -33 <= y).
  { apply Rnot_lt_le. intros Hc. assert (exp y < exp (-33)) by (apply exp_increasing; exact Hc).
    pose proof (ln1_bounds (exp (-7)) ltac:(lra)) as (L & _).
    assert (exp (-33) = exp (-7) * exp (-26)) by (rewrite <- exp_plus; f_equal; lra).
    assert (exp (-26) <= 1/2).
    { pose proof (exp_ge_1x 26). replace (-26) with (- (26)) by lra. rewrite exp_Ropp.
      apply Rle_trans with (/ 27); [apply Rinv_le_contravar; lra|lra]. }
    nra. }
  specialize (H y (-7) 1 ltac:(lra) ltac:(lra)). unfold gr6j_exponential_outflow in H.
  replace (Rleb 1 0) with false in H by (dec; [lra|reflexivity]). cbv zeta in H.
  replace (y / 1) with y in H by field. replace (-7 / 1) with (-7) in H by field.
  rewrite !(Rmin_right 33) in H by lra. rewrite !(Rmax_right (-33)) in H by lra.
  replace (Rltb 7 y) with false in H by (dec; [lra|reflexivity]).
  replace (Rltb y (-7)) with true in H by (dec; [reflexivity|lra]).
  replace (Rltb 7 (-7)) with false in H by (dec; [lra|reflexivity]).
  replace (Rltb (-7) (-7)) with false in H by (dec; [lra|reflexivity]). rewrite Ey in H. lra.
Qed.
Print Assumptions c21_monotone_refuted.

(** *** C49: infiltration, runoff and capillary rise *)
Theorem c49_infiltration_socont : forall c target x, 0 <= x -> 0 < c ->
  exists q, infiltration_socont (Some c) target x = Ok q /\
  0 <= q <= x /\ (target <= 0 -> q = x) /\ (c <= target -> q = 0).
Proof. exact infiltration_socont_ok. Qed.
Print Assumptions c49_infiltration_socont.
Theorem c49_infiltration_hbv : forall c target beta x, 0 <= x -> 0 < c -> 0 < beta ->
  exists q, infiltration_hbv (Some c) target beta x = Ok q /\
  0 <= q <= x /\ (target <= 0 -> q = x) /\ (c <= target -> q = 0).
Proof. exact infiltration_hbv_ok. Qed.
Print Assumptions c49_infiltration_hbv.
Theorem c49_infiltration_decreases : forall c t t' x q q' beta, 0 <= x -> 0 < c -> 0 < beta -> t <= t' ->
  (infiltration_socont (Some c) t x = Ok q -> infiltration_socont (Some c) t' x = Ok q' -> q' <= q) /\
  (infiltration_hbv (Some c) t beta x = Ok q -> infiltration_hbv (Some c) t' beta x = Ok q' -> q' <= q).
Proof. exact infiltration_mono. Qed.
Print Assumptions c49_infiltration_decreases.
Theorem c49_runoff_socont : forall beta slope area x, 0 <= x -> 0 <= beta -> 0 <= slope -> 0 < area ->
  exists q, runoff_socont beta slope area x = Ok q /\ 0 <= q <= x.
Proof. exact runoff_socont_ok. Qed.
Print Assumptions c49_runoff_socont.
Theorem c49_runoff_hbv : forall k alpha uz uz', 0 <= k -> 0 <= alpha -> uz <= uz' ->
  exists q q', runoff_hbv k alpha uz = Ok q /\ runoff_hbv k alpha uz' = Ok q' /\ 0 <= q <= q'.
Proof. exact runoff_hbv_ok. Qed.
Print Assumptions c49_runoff_hbv.
Theorem c49_capillary : forall c target cflux w, 0 < c -> 0 <= cflux -> (forall x, In x w -> 0 <= x) ->
  Rsum (fun x => x) w <= 1 ->
  exists q, capillary_hbv (Some c) target cflux w = Ok q /\ 0 <= q <= cflux /\ (c <= target -> q = 0).
Proof. exact capillary_ok. Qed.
Print Assumptions c49_capillary.
(** Socont infiltration is not limited by the free capacity of the soil. *)
Theorem c49_infiltration_fits_refuted :
  ~ (forall c target x q, 0 <= x -> 0 <= target <= c -> 0 < c ->
       infiltration_socont (Some c) target x = Ok q -> target + q <= c).
Proof.
  intros H. specialize (H 100 50 200 (200 * (1 - 1/2 * (1/2)))).
  assert (E : infiltration_socont (Some 100) 50 200 = Ok (200 * (1 - 1/2 * (1/2)))).
  { unfold infiltration_socont, filling_ratio. dec; try lra. cbn [bind].
    rewrite Rmin_right by lra. rewrite Rmax_right by lra. f_equal. field. }
  specialize (H ltac:(lra) ltac:(lra) ltac:(lra) E). lra.
Qed.
Print Assumptions c49_infiltration_fits_refuted.

(** *** C50: threshold drains *)
(** A threshold outflow (or a snowpack's retention outflow) takes out, over one step of any length, exactly
    the water above the threshold: what remains is the smaller of the content and the threshold. *)
Theorem c50_threshold : forall dt cap x, 0 < dt ->
  0 <= outflow_threshold (Some dt) cap x /\ x - outflow_threshold (Some dt) cap x * dt = Rmin x cap.
Proof. exact drains_ok. Qed.
Print Assumptions c50_threshold.
Theorem c50_snow_holding : forall dt swe whc x, 0 < dt ->
  0 <= outflow_snow_holding (Some swe) (Some dt) whc x /\
  x - outflow_snow_holding (Some swe) (Some dt) whc x * dt = Rmin x (whc * swe).
Proof. exact holding_ok. Qed.
Print Assumptions c50_snow_holding.

(** *** C51: the rest outflow *)
(** The "rest" outflow and the other outflows of the storage together take its content over a day. *)
Theorem c51_rest : forall sib x, (forall q, In q sib -> 0 <= q) ->
  0 <= outflow_rest true sib x /\
  (Rsum (fun q => q) sib <= x -> Rsum (fun q => q) sib + outflow_rest true sib x = x) /\
  (0 <= x -> outflow_rest false sib x = x).
Proof. exact rest_ok. Qed.
Print Assumptions c51_rest.
(** SWAT snow-to-ice transformation: never negative, at most twice the basal coefficient, any day of year. *)
Theorem c51_swat_bounds : forall north coeff doy x, 0 <= coeff -> 0 <= x ->
  0 <= snow_to_ice_swat north coeff doy x <= 2 * coeff * x.
Proof. exact swat_ok. Qed.
Print Assumptions c51_swat_bounds.
