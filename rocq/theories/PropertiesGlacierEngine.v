(** C87: the simulated mass balance of the glaciers, and what the engine records. *)
From Verif Require Import BaseFacts PeriodsFacts GlacierBalanceSpec GlacierBalanceFacts PropertiesGlacierBalance.
Open Scope R_scope.

Lemma snow_change g w i0 i1 : snow_follows g w -> (i0 <= i1)%nat ->
  gu_snow g i1 - gu_snow g i0 = Rsum (fun t => w_snowfall w t + w_refreezing w t - w_snowmelt w t) (days_after i0 i1).
Proof.
  intros H L. induction L as [|i1 L IH]; [unfold days_after; rewrite Nat.sub_diag; simpl; lra|].
  rewrite (days_after_split i0 i1 (S i1)), Rsum_app, <- IH by lia. unfold days_after. replace (S i1 - i1)%nat with 1%nat by lia. simpl. rewrite H. lra.
Qed.
Lemma balance_surface g w i0 i1 : snow_follows g w -> (i0 <= i1)%nat ->
  balance g i0 i1 = surface_balance w i0 i1 + Rsum (fun t => w_icemelt w t - gu_melt g t) (days_after i0 i1).
Proof.
  intros H L. unfold balance, surface_balance. rewrite (snow_change g w i0 i1 H L), <- Rsum_plus, <- Rsum_minus. apply Rsum_ext_in. intros. lra.
Qed.
(** [T] is the mean of the surface balances (accumulation minus ablation of the days after the first one) of units. *)
Definition mean_surface (weather_of : glacier_unit -> weather) (gs : list glacier_unit) (i0 i1 : nat) (T : R) : Prop :=
  T * area_of gs i0 i1 = Rsum (fun g => surface_balance (weather_of g) i0 i1 * mean_area g i0 i1) gs.
Definition surface_for (start stop : Z) (gs : list glacier_unit) (weather_of : glacier_unit -> weather) (t : target) (T : R) : Prop :=
  exists i0 i1 sel, nearest_day start stop (tg_t0 t) i0 /\ nearest_day start stop (tg_t1 t) i1 /\ (i0 < i1)%nat /\
    chosen (counts (tg_band t) i0 i1) gs sel /\ sel <> [] /\ mean_surface weather_of sel i0 i1 T.

(** If the melt of ice were recorded in mm over the glacier, the simulated value would be the mean of accumulation minus ablation. *)
Theorem c87_surface start stop tab gs weather_of targets vs k t v T : (start <= stop)%Z -> describes tab gs ->
  (forall g, In g gs -> snow_follows g (weather_of g) /\ melt_as_is g (weather_of g)) ->
  simulated (recording_of start stop tab gs) targets = Ok vs -> nth_error targets k = Some t -> nth_error vs k = Some v ->
  (v = Some T <-> surface_for start stop gs weather_of t T).
Proof.
  intros H D W E Ht Hv. rewrite (simulated_get _ _ _ _ _ _ _ _ _ T H D E Ht Hv).
  assert (Q : forall sel i0 i1 band, (i0 < i1)%nat -> chosen (counts band i0 i1) gs sel ->
     Rsum (fun g => balance g i0 i1 * mean_area g i0 i1) sel = Rsum (fun g => surface_balance (weather_of g) i0 i1 * mean_area g i0 i1) sel).
  { intros sel i0 i1 band L C. apply Rsum_ext_in. intros g G. apply (chosen_in _ _ _ g C) in G. destruct (W g (proj1 G)) as (Sf & Mi). rewrite (balance_surface g (weather_of g) i0 i1 Sf) by lia.
    rewrite (Rsum_zero _ (days_after i0 i1)); [lra|]. intros d _. rewrite Mi. lra. }
  split; intros (i0 & i1 & sel & N0 & N1 & L & C & Ne & M); exists i0, i1, sel; (split; [exact N0|]; split; [exact N1|]; split; [exact L|]; split; [exact C|]; split; [exact Ne|]);
    unfold mean_balance, mean_surface in *; specialize (Q sel i0 i1 (tg_band t) L C); lra.
Qed.
Print Assumptions c87_surface.

Lemma recorded_melt_eq a A f x : recorded_melt a A f x = x * (a / A * f).
Proof. unfold recorded_melt, stored_amount, total_weight, unit_weight, needs_weighting, Reqb. destruct (Req_EM_T (a / A * f) 1) as [->|_]; lra. Qed.

(** The engine records the melt of ice in mm over the whole catchment.  So the simulated value is above the mean of accumulation minus ablation, by the
    melt on the glacier that is not counted: of each unit the part 1 - (area of the glacier) / (area of the catchment). *)
Theorem c87_icemelt start stop tab gs weather_of A targets vs k t B : (start <= stop)%Z -> describes tab gs -> 0 < A ->
  (forall g, In g gs -> snow_follows g (weather_of g) /\ melt_of_engine A g (weather_of g)) ->
  simulated (recording_of start stop tab gs) targets = Ok vs -> nth_error targets k = Some t -> nth_error vs k = Some (Some B) ->
  exists i0 i1 sel T, nearest_day start stop (tg_t0 t) i0 /\ nearest_day start stop (tg_t1 t) i1 /\ chosen (counts (tg_band t) i0 i1) gs sel /\ 0 < area_of sel i0 i1 /\
    surface_for start stop gs weather_of t T /\
    (B - T) * area_of sel i0 i1 =
      Rsum (fun g => Rsum (fun d => w_icemelt (weather_of g) d * (1 - gu_fraction g d * gu_area g / A)) (days_after i0 i1) * mean_area g i0 i1) sel.
Proof.
  intros H D PA W E Ht Hv. destruct (proj1 (simulated_get _ _ _ _ _ _ _ _ _ B H D E Ht Hv) eq_refl) as (i0 & i1 & sel & N0 & N1 & L & C & Ne & M).
  pose proof (area_pos _ _ _ _ _ C Ne) as P.
  exists i0, i1, sel, (Rsum (fun g => surface_balance (weather_of g) i0 i1 * mean_area g i0 i1) sel / area_of sel i0 i1).
  assert (P' : area_of sel i0 i1 <> 0) by lra.
  split; [exact N0|]. split; [exact N1|]. split; [exact C|]. split; [exact P|]. split.
  - exists i0, i1, sel. split; [exact N0|]. split; [exact N1|]. split; [exact L|]. split; [exact C|]. split; [exact Ne|]. unfold mean_surface. field. exact P'.
  - unfold mean_balance in M. rewrite Rmult_minus_distr_r, M. unfold Rdiv. rewrite Rmult_assoc, Rinv_l, Rmult_1_r by exact P'. rewrite <- Rsum_minus. apply Rsum_ext_in. intros g G.
    apply (chosen_in _ _ _ g C) in G. destruct (W g (proj1 G)) as (Sf & Mi). rewrite (balance_surface g (weather_of g) i0 i1 Sf) by lia.
    rewrite (Rsum_ext_in (fun d => w_icemelt (weather_of g) d * (1 - gu_fraction g d * gu_area g * / A)) (fun d => w_icemelt (weather_of g) d - gu_melt g d)); [lra|].
    intros d _. rewrite Mi, recorded_melt_eq. field. lra.
Qed.
Print Assumptions c87_icemelt.

(** Whatever the run: the simulated value is not below the mean of accumulation minus ablation, if glaciers are not larger than the catchment. *)
Theorem c87_icemelt_above start stop tab gs weather_of A targets vs k t B T : (start <= stop)%Z -> describes tab gs -> 0 < A ->
  (forall g, In g gs -> snow_follows g (weather_of g) /\ melt_of_engine A g (weather_of g) /\ 0 <= gu_area g <= A /\
     forall d, 0 <= gu_fraction g d <= 1 /\ 0 <= w_icemelt (weather_of g) d) ->
  simulated (recording_of start stop tab gs) targets = Ok vs -> nth_error targets k = Some t -> nth_error vs k = Some (Some B) ->
  surface_for start stop gs weather_of t T -> T <= B.
Proof.
  intros H D PA W E Ht Hv St.
  destruct (c87_icemelt start stop tab gs weather_of A targets vs k t B H D PA ltac:(intros g G; split; apply (W g G)) E Ht Hv) as (i0 & i1 & sel & T' & N0 & N1 & C & P & St' & Q).
  assert (T' = T) as ->.
  { destruct St as (j0 & j1 & sel1 & M0 & M1 & _ & C1 & _ & Q1), St' as (l0 & l1 & sel2 & O0 & O1 & _ & C2 & _ & Q2).
    rewrite (nearest_unique _ _ _ _ _ M0 N0), (nearest_unique _ _ _ _ _ M1 N1) in *. rewrite (nearest_unique _ _ _ _ _ O0 N0), (nearest_unique _ _ _ _ _ O1 N1) in *.
    rewrite (chosen_unique _ _ _ _ C1 C) in *. rewrite (chosen_unique _ _ _ _ C2 C) in *. unfold mean_surface in *. apply (Rmult_eq_reg_r (area_of sel i0 i1)); lra. }
  assert (0 <= (B - T) * area_of sel i0 i1) as K.
  { rewrite Q. apply Rsum_nonneg. intros g G. apply (chosen_in _ _ _ g C) in G. destruct G as (G & _ & Am & _). destruct (W g G) as (_ & _ & (A0 & A1) & Wd). apply Rmult_le_pos; [|lra].
    apply Rsum_nonneg. intros d _. destruct (Wd d) as ((F0 & F1) & I). apply Rmult_le_pos; [exact I|].
    assert (gu_fraction g d * gu_area g / A <= 1); [|lra]. apply (Rmult_le_reg_r A); [exact PA|]. unfold Rdiv. rewrite Rmult_assoc, Rinv_l, Rmult_1_r, Rmult_1_l by lra. nra. }
  apply Rnot_lt_le. intro Lt. nra.
Qed.
Print Assumptions c87_icemelt_above.

(** ** Cases *)
Lemma nearest_exact a b i t : (a <= b)%Z -> day_index a b i t -> nearest_day a b t i.
Proof.
  intros H (E & L). pose proof DAY_pos. exists t. split; [split; assumption|]. split; [nia|]. split; [exists i, t; split; [split; assumption|lia]|]. intros j t' (E' & L'). split; lia.
Qed.
Lemma simulated_one start stop tab gs t B : (start <= stop)%Z -> describes tab gs -> balance_for start stop gs t B -> simulated (recording_of start stop tab gs) [t] = Ok [Some B].
Proof.
  intros H D V. destruct (c87_balance start stop tab gs [t] H D) as (vs & E & Len & F). destruct vs as [|v [|]]; try discriminate. rewrite E. repeat f_equal. exact (proj2 (F 0%nat t v eq_refl eq_refl B) V).
Qed.
(** A catchment of 4 km2 with one unit of 2 km2, half of it covered by a glacier without snow; 8 mm of ice melt on the second day. *)
Definition icy : glacier_unit :=
  mkGU 7 2000000 2500 true (fun _ => 0) (fun d => recorded_melt 2000000 4000000 (1 / 2) (if Nat.eqb d 1 then 8 else 0)) (fun _ => 1 / 2).
Definition icy_weather : weather := mkW (fun _ => 0) (fun _ => 0) (fun _ => 0) (fun d => if Nat.eqb d 1 then 8 else 0).
Definition icy_target : target := mkTarget 0 DAY 0 Annual None.
Lemma icy_area : mean_area icy 0 1 = 1000000.
Proof. rewrite steady_area; [simpl; lra|intro; reflexivity|lia]. Qed.
Lemma icy_chosen : chosen (counts None 0 1) [icy] [icy].
Proof. constructor; [|constructor]. split; [reflexivity|]. split; [rewrite icy_area; lra|constructor]. Qed.
Lemma icy_described : describes [(7%Z, 2500)] [icy].
Proof. split; [repeat constructor; simpl; tauto|]. intros g [<-|[]]. left. reflexivity. Qed.
Lemma icy_days : nearest_day 0 DAY 0 0 /\ nearest_day 0 DAY DAY 1.
Proof. pose proof DAY_pos. split; apply nearest_exact; try lia; split; lia. Qed.

(** The simulated balance is not accumulation minus ablation: here the glacier loses 8 mm, and 2 mm are reported. *)
Theorem c87_icemelt_refuted :
  ~ (forall start stop tab gs weather_of A targets vs k t B, (start <= stop)%Z -> describes tab gs -> 0 < A ->
     (forall g, In g gs -> snow_follows g (weather_of g) /\ melt_of_engine A g (weather_of g)) ->
     simulated (recording_of start stop tab gs) targets = Ok vs -> nth_error targets k = Some t -> nth_error vs k = Some (Some B) -> surface_for start stop gs weather_of t B).
Proof.
  intro Claim. destruct icy_days as (N0 & N1). pose proof DAY_pos as PD.
  assert (E : simulated (recording_of 0 DAY [(7%Z, 2500)] [icy]) [icy_target] = Ok [Some (-2)]).
  { apply simulated_one; [lia|exact icy_described|]. exists 0%nat, 1%nat, [icy]. split; [exact N0|]. split; [exact N1|]. split; [lia|]. split; [exact icy_chosen|]. split; [discriminate|].
    unfold mean_balance, area_of. cbn [Rsum]. rewrite icy_area. unfold balance, days_after. simpl. rewrite recorded_melt_eq. lra. }
  specialize (Claim 0%Z DAY [(7%Z, 2500)] [icy] (fun _ => icy_weather) 4000000 [icy_target] [Some (-2)] 0%nat icy_target (-2) ltac:(lia) icy_described ltac:(lra)).
  destruct Claim as (j0 & j1 & sel & M0 & M1 & _ & C & _ & Q); try exact E; try reflexivity.
  { intros g [<-|[]]. split; [intro d; simpl; lra|intro d; reflexivity]. }
  cbn [icy_target tg_t0 tg_t1 tg_band] in *. rewrite (nearest_unique _ _ _ _ _ M0 N0), (nearest_unique _ _ _ _ _ M1 N1) in *. rewrite (chosen_unique _ _ _ _ C icy_chosen) in *.
  unfold mean_surface, area_of in Q. cbn [Rsum] in Q. rewrite icy_area in Q. unfold surface_balance, days_after in Q. simpl in Q. lra.
Qed.
Print Assumptions c87_icemelt_refuted.
Example c87_icemelt_case : exists T B, surface_for 0 DAY [icy] (fun _ => icy_weather) icy_target T /\ balance_for 0 DAY [icy] icy_target B /\ T = -8 /\ B = -2.
Proof.
  destruct icy_days as (N0 & N1). exists (-8), (-2). split; [|split; [|split; reflexivity]]; exists 0%nat, 1%nat, [icy]; (split; [exact N0|]; split; [exact N1|]; split; [lia|]; split; [exact icy_chosen|]; split; [discriminate|]).
  - unfold mean_surface, area_of. cbn [Rsum]. rewrite icy_area. unfold surface_balance, days_after. simpl. lra.
  - unfold mean_balance, area_of. cbn [Rsum]. rewrite icy_area. unfold balance, days_after. simpl. rewrite recorded_melt_eq. lra.
Qed.

(** A model with two glacier covers (debris and bare ice, each on half of the unit), on both of which 10 mm of snow remain: the glacier gains 10 mm
    everywhere, and 20 mm are reported. *)
Definition snowy : series := mkSeries (fun d => Some (if Nat.eqb d 1 then 10 else 0)) (fun _ => Some 0) (fun _ => Some (1 / 2)).
Theorem c87_covers_refuted :
  ~ (forall rc t B x, (forall u s, In u (rc_units rc) -> In s (ur_covers u) -> sr_snow s 0%nat = Some 0 /\ sr_snow s 1%nat = Some x /\ forall d, sr_melt s d = Some 0) ->
     rc_start rc = 0%Z -> rc_end rc = DAY -> simulated rc [t] = Ok [Some B] -> tg_t0 t = 0%Z -> tg_t1 t = DAY -> B = x).
Proof.
  intro Claim. set (rc := mkRecording 0 DAY 2 [mkUnit 7 2000000 [snowy; snowy]] [(7%Z, 2500)]).
  assert (E : simulated rc [icy_target] = Ok [Some 20]).
  { unfold rc, simulated. cbn [rc_covers rc_table rc_units rc_start rc_end Nat.eqb]. change (elevations [(7%Z, 2500)] [mkUnit 7 2000000 [snowy; snowy]]) with (Ok [2500]). cbn [bind combine simulated_targets].
    unfold simulated_target. change (date_range 0 DAY) with [0%Z; DAY]. change (date_index [0%Z; DAY] (tg_t0 icy_target)) with (@Ok (option nat) (Some 0%nat)).
    change (date_index [0%Z; DAY] (tg_t1 icy_target)) with (@Ok (option nat) (Some 1%nat)). cbn [bind Nat.leb flat_map app]. unfold masked. cbn [fst snd].
    assert (glacier_weight (mkUnit 7 2000000 [snowy; snowy]) 0 1 = Some 2000000) as ->. { unfold glacier_weight. simpl. unfold nanmean. simpl. f_equal. field. }
    assert (unit_balance (mkUnit 7 2000000 [snowy; snowy]) 0 1 = Some 20) as ->. { unfold unit_balance. simpl. unfold nansum. simpl. f_equal. lra. }
    unfold Rltb. destruct (Rlt_dec 0 2000000); [|lra]. cbn [andb in_band icy_target tg_band app bind]. simpl. repeat f_equal. field. }
  specialize (Claim rc icy_target 20 10). assert (20 = 10) as K; [|lra]. apply Claim; try reflexivity; try exact E. intros u s [<-|[]] [<-|[<-|[]]]; repeat split; reflexivity.
Qed.
Print Assumptions c87_covers_refuted.
