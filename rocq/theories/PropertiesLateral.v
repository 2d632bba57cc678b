(** Property theorems: lateral transport of snow (C22, C55). *)
From Verif Require Import Base BaseFacts Container ContainerFacts NetworkSpec Direct DirectSpec DirectFacts DirectSafe DirectWitness
  Lateral LateralSpec LateralFacts LateralWitness.
Open Scope R_scope.

(** *** C22 *)
(** The snow volume leaving the origin (depth over the area of its cover) is the volume deposited on the receiving units.
    [amount] is any law: slide, Frey & Holzmann, or another. *)
Theorem c22_volume_conserved : forall B dt inp f s s' p o targets limit factor amount,
  dvalid B -> 0 < dt -> In p (db_procs B) ->
  lateral_process B f p o targets limit factor amount s -> targets_ok targets ->
  c_infinite (ds_cont s (p_cont p)) = false -> c_allowneg (ds_cont s (p_cont p)) = false -> db_cap B (p_cont p) = None ->
  dprocess B dt inp f s p = Ok s' ->
  or_area o * or_fraction o * (level (ds_cont s (p_cont p)) - level (ds_cont s' (p_cont p)))
  = deposited (ds_amount s') (p_conns p) targets.
Proof. exact volume_conserved. Qed.
Print Assumptions c22_volume_conserved.

(** What leaves in a step is at most the amount computed by the law times the time step, when the shares of the connections
    add up to at most one. *)
Theorem c22_released_within : forall B dt inp f s s' p o targets limit factor amount,
  dvalid B -> 0 < dt -> In p (db_procs B) ->
  lateral_process B f p o targets limit factor amount s -> targets_ok targets -> shares_ok targets ->
  0 <= amount (ds_cont s) ->
  c_infinite (ds_cont s (p_cont p)) = false -> c_allowneg (ds_cont s (p_cont p)) = false -> db_cap B (p_cont p) = None ->
  dprocess B dt inp f s p = Ok s' ->
  0 <= level (ds_cont s (p_cont p)) - level (ds_cont s' (p_cont p)) <= amount (ds_cont s) * dt.
Proof. exact released_within. Qed.
Print Assumptions c22_released_within.

(** The snow slide leaves on the origin at least the depth [h] its slope can hold (one depth unit is 1/4 of water equivalent)
    and never a negative amount, for steps of at most one day. *)
Theorem c22_slide_keeps_holding_depth : forall B dt inp f s s' p o targets P slope h,
  dvalid B -> 0 < dt <= 1 -> In p (db_procs B) ->
  lateral_process B f p o targets (sp_maxdepth P) slide_factor (fun conts => slide_amount P slope (level (conts (p_cont p)))) s ->
  targets_ok targets -> shares_ok targets -> holding P slope h ->
  c_infinite (ds_cont s (p_cont p)) = false -> c_allowneg (ds_cont s (p_cont p)) = false -> db_cap B (p_cont p) = None ->
  dprocess B dt inp f s p = Ok s' ->
  Rmin (level (ds_cont s (p_cont p))) (h / 4) <= level (ds_cont s' (p_cont p)) <= level (ds_cont s (p_cont p)).
Proof.
  intros B dt inp f s s' p o targets P slope h H1 H2 H3 H4 H5 H6 Hh H7 H8 H9 H. rewrite <- (holding_depth P slope h Hh).
  exact (slide_keeps B dt inp f s s' p o targets P slope H1 H2 H3 H4 H5 H6 H7 H8 H9 H).
Qed.
Print Assumptions c22_slide_keeps_holding_depth.

(** Nothing being in the way, every receiving snowpack that is not overfull gets exactly its share of the snow beyond the
    holding depth (at most 1000 mm per day), as a volume; an overfull one gets nothing. *)
Theorem c22_slide_receives : forall B dt inp f s s' p o targets P slope h,
  dvalid B -> 0 < dt <= 1 -> In p (db_procs B) ->
  lateral_process B f p o targets (sp_maxdepth P) slide_factor (fun conts => slide_amount P slope (level (conts (p_cont p)))) s ->
  targets_ok targets -> shares_ok targets ->
  c_infinite (ds_cont s (p_cont p)) = false -> c_allowneg (ds_cont s (p_cont p)) = false -> db_cap B (p_cont p) = None ->
  unhindered B inp s p -> holding P slope h -> 0 <= h ->
  dprocess B dt inp f s p = Ok s' ->
  forall i k t, nth_error (p_conns p) i = Some k -> nth_error targets i = Some t -> PRECISION < lo_fraction t ->
  let wanted := Rmin 1000 (Rmax 0 (level (ds_cont s (p_cont p)) - h / 4)) * lo_weight t * lo_fraction t in
  let got := ds_amount s' k * (lo_area t * lo_fraction t) in
  (overfull (sp_maxdepth P) 4 t -> got = 0) /\
  (~ overfull (sp_maxdepth P) 4 t -> PRECISION < wanted -> got = or_area o * or_fraction o * (wanted * dt)).
Proof. exact slide_receives. Qed.
Print Assumptions c22_slide_receives.

(** ... and the same for the redistribution of Frey & Holzmann with snow of density [rho]. *)
Theorem c22_frey_receives : forall B dt inp f s s' p o targets P rho slope a,
  dvalid B -> 0 < dt <= 1 -> In p (db_procs B) -> 0 < rho -> 0 <= fp_hold P -> 0 <= fp_correction P <= 1 -> 0 <= slope <= 90 ->
  lateral_process B f p o targets (fp_maxdepth P) (frey_factor rho) (fun conts => frey_amount P rho slope (level (conts (p_cont p)))) s ->
  targets_ok targets -> shares_ok targets ->
  c_infinite (ds_cont s (p_cont p)) = false -> c_allowneg (ds_cont s (p_cont p)) = false -> db_cap B (p_cont p) = None ->
  unhindered B inp s p -> frey_wanted P rho slope (level (ds_cont s (p_cont p))) a ->
  dprocess B dt inp f s p = Ok s' ->
  forall i k t, nth_error (p_conns p) i = Some k -> nth_error targets i = Some t -> PRECISION < lo_fraction t ->
  let wanted := a * lo_weight t * lo_fraction t in
  let got := ds_amount s' k * (lo_area t * lo_fraction t) in
  (overfull (fp_maxdepth P) (1000 / rho) t -> got = 0) /\
  (~ overfull (fp_maxdepth P) (1000 / rho) t -> PRECISION < wanted -> got = or_area o * or_fraction o * (wanted * dt)).
Proof. exact frey_receives. Qed.
Print Assumptions c22_frey_receives.

(** The redistribution of Frey & Holzmann never takes more than the snow present, for steps of at most one day. *)
Theorem c22_frey_within_snow : forall B dt inp f s s' p o targets P rho slope factor,
  dvalid B -> 0 < dt <= 1 -> In p (db_procs B) -> 0 < rho -> 0 <= fp_hold P -> 0 <= fp_correction P <= 1 ->
  lateral_process B f p o targets (fp_maxdepth P) factor (fun conts => frey_amount P rho slope (level (conts (p_cont p)))) s ->
  targets_ok targets -> shares_ok targets -> 0 <= level (ds_cont s (p_cont p)) ->
  c_infinite (ds_cont s (p_cont p)) = false -> c_allowneg (ds_cont s (p_cont p)) = false -> db_cap B (p_cont p) = None ->
  dprocess B dt inp f s p = Ok s' ->
  0 <= level (ds_cont s' (p_cont p)) <= level (ds_cont s (p_cont p)).
Proof. exact frey_keeps. Qed.
Print Assumptions c22_frey_within_snow.

(** 50 mm of snow on half of a 100 m2 unit: 40 mm leave, 30 mm to a unit of 200 m2 and 10 mm to one of 50 m2. *)
Example c22_case : dvalid slide_brick /\ In (mkDP 1 [0%nat; 1%nat]) (db_procs slide_brick) /\
  lateral_process slide_brick slide_law (mkDP 1 [0%nat; 1%nat]) slide_origin slide_targets (-1) slide_factor
    (fun conts => slide_amount slide_P 30 (level (conts 1%nat))) slide_state /\
  targets_ok slide_targets /\ shares_ok slide_targets /\ sp_maxdepth slide_P = -1 /\
  unhindered slide_brick no_input slide_state (mkDP 1 [0%nat; 1%nat]) /\ holding slide_P 30 40 /\
  exists s', dprocess slide_brick 1 no_input slide_law slide_state (mkDP 1 [0%nat; 1%nat]) = Ok s' /\
  ds_amount s' 0%nat = 30 * (50 / 200) /\ ds_amount s' 1%nat = 10 * (50 / 50).
Proof.
  split; [exact slide_valid|]. split; [left; reflexivity|]. split; [exact slide_lateral|].
  split; [intros t [<-|[<-|[]]]; cbn; lra|]. split; [split; [intros t [<-|[<-|[]]]; cbn; lra|cbn; lra]|].
  split; [reflexivity|]. split; [exact slide_unhindered|]. split; [exact slide_holding|]. exact slide_runs.
Qed.

(** *** C55 *)
(** The dynamic snow density stays between the densities given as parameters (and its initial value 250), whatever the
    weather and the snow amounts. *)
Theorem c55_density_bounded : forall D lo hi l,
  lo <= fd_min D -> fd_min D <= fd_freshmax D -> fd_freshmax D <= hi -> lo <= fd_max D <= hi -> lo <= snowDensity <= hi ->
  lo <= fst (run_density D l density_reset) <= hi.
Proof. intros D lo hi l H1 H2 H3 H4 H5. apply run_density_bounds; auto. Qed.
Print Assumptions c55_density_bounded.

(** Without fresh snow the density never decreases: the snowpack settles. *)
Theorem c55_density_settles : forall D dt t swe density prev,
  density <= fd_max D -> 0 < swe <= prev -> density <= fst (update_density D dt t swe (density, prev)) <= fd_max D.
Proof. exact density_settles. Qed.
Print Assumptions c55_density_settles.

(** Each step in terms of the step before it: the snow of the previous step settles, the rest is fresh snow; the density is their mean. *)
Theorem c55_consecutive_steps : forall D l dt1 t1 s1 dt2 t2 s2,
  let before := fst (run_density D (l ++ [(dt1, t1, s1)]) density_reset) in
  let after := fst (run_density D (l ++ [(dt1, t1, s1); (dt2, t2, s2)]) density_reset) in
  let settled := before + (fd_max D - before) * Rmin (Rmax (fd_settling D * dt2) 0) 1 in
  (0 <= s1 < s2 -> after * s2 = settled * s1 + fresh_density D t2 * (s2 - s1)) /\
  (0 < s2 <= s1 -> after = settled) /\ (s2 <= 0 -> after = fresh_density D t2).
Proof.
  intros D l dt1 t1 s1 dt2 t2 s2.
  assert (A : forall l' st, run_density D (l ++ l') st = run_density D l' (run_density D l st)).
  { intros l'. induction l as [|[[dt t] swe] l0 IH]; intros st; [reflexivity|]. cbn [app run_density]. apply IH. }
  cbn zeta. rewrite !A. set (st := run_density D l density_reset). cbn [run_density]. set (st1 := update_density D dt1 t1 s1 st).
  assert (P1 : snd st1 = s1) by (unfold st1, update_density; destruct st; reflexivity).
  destruct st1 as [d1 p1] eqn:E1. cbn [snd] in P1. subst p1. cbn [fst]. unfold update_density. cbn [fst].
  set (settled := d1 + (fd_max D - d1) * Rmin (Rmax (fd_settling D * dt2) 0) 1).
  split; [|split].
  - intros (H0 & H1). destruct (Rleb s2 0) eqn:E; [apply Rleb_true in E; lra|].
    rewrite (Rmax_left (s2 - s1)) by lra. rewrite Rmin_left by lra. rewrite Rmax_left by lra.
    rewrite !(proj2 (Rltb_true _ _)) by lra. cbn [andb]. field. lra.
  - intros (H0 & H1). destruct (Rleb s2 0) eqn:E; [apply Rleb_true in E; lra|]. rewrite (Rmax_right (s2 - s1)) by lra. 
    replace (Rltb 0 0) with false; [reflexivity|]. symmetry. apply Bool.not_true_iff_false. rewrite Rltb_true. lra.
  - intros H. rewrite (proj2 (Rleb_true _ _) H). reflexivity.
Qed.
Print Assumptions c55_consecutive_steps.

Example c55_case : let D := mkFD 50 200 450 (1/100) 2 0 in
  50 <= fd_min D /\ fd_min D <= fd_freshmax D /\ fd_freshmax D <= 450 /\ 50 <= fd_max D <= 450 /\ 50 <= snowDensity <= 450.
Proof. cbn. unfold snowDensity. lra. Qed.
