(** Property theorems: reported totals (C40). *)
From Coq Require Import String Ascii.
From Verif Require Import Base BaseFacts Logger LoggerSpec LoggerFacts.
Open Scope R_scope.

(** C40, discharge: when no other label contains "outlet", the total discharge is the sum over the steps of the series of the outlet. *)
Theorem c40_outlet : forall L i s q, nth_error (lg_sub L) i = Some s -> sb_label s = "outlet"%string ->
  (forall j s', nth_error (lg_sub L) j = Some s' -> has_text "outlet" (sb_label s') -> j = i) ->
  (forall t, (t < lg_steps L)%nat -> sb_value s t = Some (q t)) ->
  total_outlet L = Some (Rsum q (seq 0 (lg_steps L))) /\ exists v, outlet_discharge L = Ok v /\ forall t, (t < lg_steps L)%nat -> v t = Some (q t).
Proof.
  intros L i s q Hi Hl Hu Hq. assert (Hs : osum (sb_value s) (steps L) = Some (Rsum q (seq 0 (lg_steps L)))).
  { apply osum_some. intros t Ht. apply Hq. apply in_seq in Ht. lia. }
  assert (Hself : has_text "outlet" (sb_label s)) by (exists ""%string, ""%string; rewrite Hl; reflexivity).
  unfold total_outlet, total_sub, matching_sub, outlet_discharge. revert i Hi Hu. generalize (lg_sub L). induction l as [|x l IH]; intros i Hi Hu; [destruct i; discriminate|].
  destruct i as [|i]; cbn [nth_error] in Hi.
  - injection Hi as ->. cbn [filter List.find]. rewrite (proj2 (contains_spec _ _) Hself). rewrite Hl. cbn [String.eqb].
    assert (E : filter (fun s0 => contains "outlet" (sb_label s0)) l = []).
    { clear IH. assert (K : forall y, In y l -> contains "outlet" (sb_label y) = false).
      { intros y Hy. apply In_nth_error in Hy. destruct Hy as (j & Hj). destruct (contains "outlet" (sb_label y)) eqn:C; [|reflexivity]. apply contains_spec in C. specialize (Hu (S j) y Hj C). discriminate. }
      clear Hu. induction l as [|y l IHl]; [reflexivity|]. cbn [filter]. rewrite K by (left; reflexivity). apply IHl. intros z Hz. apply K. right. exact Hz. }
    rewrite E. unfold osum at 1. cbn [fold_right]. rewrite Hs. cbn [oplus]. rewrite Rplus_0_r. split; [reflexivity|]. exists (sb_value s). split; [reflexivity|exact Hq].
  - assert (C : contains "outlet" (sb_label x) = false).
    { destruct (contains "outlet" (sb_label x)) eqn:C; [|reflexivity]. apply contains_spec in C. specialize (Hu 0%nat x eq_refl C). discriminate. }
    cbn [filter List.find]. rewrite C. destruct (String.eqb (sb_label x) "outlet") eqn:E.
    { apply String.eqb_eq in E. exfalso. assert (X : has_text "outlet" (sb_label x)) by (exists ""%string, ""%string; rewrite E; reflexivity). apply contains_spec in X. congruence. }
    apply (IH i Hi). intros j s' Hj Ht. specialize (Hu (S j) s' Hj Ht). lia.
Qed.
Print Assumptions c40_outlet.

(** C40, evapotranspiration: the total is, over the steps, the sum of the series of the sub-basin and of the area-weighted mean over the units of the
    values of their components, each reduced to the part of the unit that the component covers. *)
Theorem c40_evapotranspiration : forall L subs sub hus part, 0 < area_sum L -> clear_names (map fst (lg_covers L)) ->
  Forall2 (fun i s => nth_error (lg_sub L) i = Some s) (lg_sub_et L) subs -> Forall2 (fun s v => forall t, (t < lg_steps L)%nat -> sb_value s t = Some (v t)) subs sub ->
  Forall2 (fun i s => nth_error (lg_hu L) i = Some s) (lg_hu_et L) hus ->
  (forall s t u, In s hus -> (t < lg_steps L)%nat -> (u < lg_units L)%nat -> area_part L (hs_label s) t u (part (hs_label s) t u)) ->
  total_et L = Ok (Some (Rsum (fun t => Rsum (fun v => v t) sub +
    Rsum (fun u => lg_area L u / Rsum (lg_area L) (seq 0 (lg_units L)) * Rsum (fun s => reported (hs_value s t u) * part (hs_label s) t u) hus) (seq 0 (lg_units L))) (seq 0 (lg_steps L)))).
Proof.
  intros L subs sub hus part _ N Fs Fv Fh Hp. assert (P : forall X (l : list X) idx s, Forall2 (fun i x => nth_error l i = Some x) idx s -> pick l idx = Ok s).
  { clear. induction 1 as [|i x idx s E F IH]; [reflexivity|]. cbn [pick]. rewrite E, IH. reflexivity. }
  unfold total_et. rewrite (P _ _ _ _ Fs), (P _ _ _ _ Fh). cbn [bind]. do 2 f_equal.
  assert (S1 : osum (fun s => osum (sb_value s) (steps L)) subs = Some (Rsum (fun v => Rsum v (steps L)) sub)).
  { clear Fs. induction Fv as [|s v subs sub Hv F IH]; [reflexivity|]. rewrite osum_cons, IH. cbn [Rsum]. rewrite (osum_some (sb_value s) v); [reflexivity|].
    intros t Ht. apply Hv. unfold steps in Ht. apply in_seq in Ht. lia. }
  rewrite S1. cbn [oplus]. f_equal. rewrite (Rsum_plus (fun t => Rsum (fun v => v t) sub)). fold (steps L). f_equal; [apply Rsum_swap|].
  rewrite (Rsum_ext_in _ (fun s => Rsum (fun t => Rsum (fun u => lg_area L u / area_sum L * (reported (hs_value s t u) * part (hs_label s) t u)) (units L)) (steps L))).
  - rewrite Rsum_swap. apply Rsum_ext_in. intros t _. rewrite Rsum_swap. apply Rsum_ext_in. intros u _. rewrite Rsum_scal. reflexivity.
  - intros s Hs. rewrite rows_mean_eq. apply Rsum_ext_in. intros t Ht. apply Rsum_ext_in. intros u Hu. unfold steps, units in Ht, Hu. apply in_seq in Ht, Hu.
    rewrite (fraction_of_part L (hs_label s) t u (part (hs_label s) t u) N); [reflexivity|]. apply Hp; [exact Hs|lia|lia].
Qed.
Print Assumptions c40_evapotranspiration.

(** Water (snow, ice) held at a time: that of the sub-basin and the area-weighted mean of that of the units, among the labels with a given text. *)
Definition held (L : logger) (tag : string) (sub : sub_series -> R) (hu : unit_series -> nat -> R) : R :=
  Rsum (fun s => if contains tag (sb_label s) then sub s else 0) (lg_sub L) +
  Rsum (fun u => lg_area L u / Rsum (lg_area L) (seq 0 (lg_units L)) * Rsum (fun s => if contains tag (hs_label s) then hu s u else 0) (lg_hu L)) (seq 0 (lg_units L)).
(** C40, storage: the change of storage is what is held after the last step less what was held before the first, with the fractions of the covers at
    those steps. *)
Theorem c40_storage : forall L tag sub0 sub1 part, 0 < area_sum L -> (0 < lg_steps L)%nat -> clear_names (map fst (lg_covers L)) ->
  (forall s, In s (lg_sub L) -> has_text tag (sb_label s) -> sb_initial s = Some (sub0 s) /\ sb_value s (lg_steps L - 1) = Some (sub1 s)) ->
  (forall s t u, In s (lg_hu L) -> has_text tag (hs_label s) -> (t < lg_steps L)%nat -> (u < lg_units L)%nat -> area_part L (hs_label s) t u (part (hs_label s) t u)) ->
  storage_changes L tag = Some (
    held L tag sub1 (fun s u => reported (hs_value s (lg_steps L - 1) u) * part (hs_label s) (lg_steps L - 1)%nat u) -
    held L tag sub0 (fun s u => reported (hs_initial s u) * part (hs_label s) 0%nat u)) /\
  (forall s : string, contains tag s = true <-> has_text tag s).
Proof.
  intros L tag sub0 sub1 part _ Hst N Hs Hp. split; [|intros s; apply contains_spec].
  assert (S0 : sub_initial L tag = Some (Rsum (fun s => if contains tag (sb_label s) then sub0 s else 0) (lg_sub L))).
  { unfold sub_initial, matching_sub. rewrite <- Rsum_filter_if. apply osum_some. intros s Hin. apply filter_In in Hin. destruct Hin as (Hin & C). apply contains_spec in C. apply (Hs s Hin C). }
  assert (S1 : sub_final L tag = Some (Rsum (fun s => if contains tag (sb_label s) then sub1 s else 0) (lg_sub L))).
  { unfold sub_final, matching_sub. rewrite <- Rsum_filter_if. apply osum_some. intros s Hin. apply filter_In in Hin. destruct Hin as (Hin & C). apply contains_spec in C. apply (Hs s Hin C). }
  assert (H : forall (v : unit_series -> nat -> option R) t, (t < lg_steps L)%nat ->
    Rsum (fun s => row_mean L (fun u => nan_to_zero (v s u) * fraction_of L (hs_label s) t u)) (matching_hu L tag) =
    Rsum (fun u => lg_area L u / area_sum L * Rsum (fun s => if contains tag (hs_label s) then reported (v s u) * part (hs_label s) t u else 0) (lg_hu L)) (units L)).
  { intros v t Ht. rewrite (Rsum_ext_in _ (fun s => Rsum (fun u => lg_area L u / area_sum L * (reported (v s u) * part (hs_label s) t u)) (units L))).
    - rewrite Rsum_swap. apply Rsum_ext_in. intros u _. rewrite Rsum_scal. f_equal. unfold matching_hu. apply Rsum_filter_if.
    - intros s Hin. unfold matching_hu in Hin. apply filter_In in Hin. destruct Hin as (Hin & C). apply contains_spec in C. rewrite row_mean_eq. apply Rsum_ext_in. intros u Hu.
      unfold units in Hu. apply in_seq in Hu. rewrite (fraction_of_part L (hs_label s) t u (part (hs_label s) t u) N); [reflexivity|]. apply Hp; [exact Hin|exact C|exact Ht|lia]. }
  unfold storage_changes. rewrite S0, S1. cbn [ominus oplus]. f_equal. unfold hu_final, hu_initial, last_step.
  rewrite (H (fun s u => hs_value s (lg_steps L - 1)%nat u) (lg_steps L - 1)%nat) by lia. rewrite (H hs_initial 0%nat) by lia. unfold held. fold (units L). fold (area_sum L). lra.
Qed.
Print Assumptions c40_storage.

(** C40, kinds: the reported changes of water, of snow and of ice are those of the series of the water, snow and ice contents. *)
Theorem c40_water_snow_ice : forall L sub0 sub1 part, 0 < area_sum L -> (0 < lg_steps L)%nat -> clear_names (map fst (lg_covers L)) ->
  (forall s, In s (lg_sub L) -> sb_initial s = Some (sub0 s) /\ sb_value s (lg_steps L - 1) = Some (sub1 s)) ->
  (forall s t u, In s (lg_hu L) -> (t < lg_steps L)%nat -> (u < lg_units L)%nat -> area_part L (hs_label s) t u (part (hs_label s) t u)) ->
  let change tag :=
    held L tag sub1 (fun s u => reported (hs_value s (lg_steps L - 1) u) * part (hs_label s) (lg_steps L - 1)%nat u) -
    held L tag sub0 (fun s u => reported (hs_initial s u) * part (hs_label s) 0%nat u) in
  water_storage_changes L = Some (change ":water_content"%string) /\ snow_storage_changes L = Some (change ":snow_content"%string) /\
  glacier_storage_changes L = Some (change ":ice_content"%string).
Proof.
  intros L sub0 sub1 part H1 H2 H3 H4 H5 change. unfold change.
  split; [|split]; apply c40_storage; auto.
Qed.
Print Assumptions c40_water_snow_ice.

(** The weights of the units add up to 1. *)
Theorem c40_weights : forall L, 0 < area_sum L -> Rsum (fun u => lg_area L u / Rsum (lg_area L) (seq 0 (lg_units L))) (seq 0 (lg_units L)) = 1.
Proof. intros L H. fold (units L) (area_sum L). unfold Rdiv. rewrite Rsum_scal_r. fold (area_sum L). apply Rinv_r. lra. Qed.
Print Assumptions c40_weights.

(** Two units of areas 1 and 3; a glacier on half of the first one and none of the second. *)
Definition glacier_fraction (t u : nat) : option R := match u with O => Some (1 / 2) | _ => None end.
Definition two_units (covers : list (string * (nat -> nat -> option R))) : logger :=
  mkLog 2 2 (fun u => match u with O => 1 | _ => 3 end)
    [mkSub "outlet" (Some 0) (fun t => Some (INR t + 1)); mkSub "lake:water_content" (Some 5) (fun _ => Some 6)]
    [mkHu "glacier_snowpack:sublimation:output" (fun u => Some 0) (fun t u => match u with O => Some 4 | _ => None end);
     mkHu "soil:et:output" (fun u => Some 0) (fun t u => Some 2);
     mkHu "glacier:water_content" (fun u => match u with O => Some 0 | _ => None end) (fun t u => match u with O => Some 8 | _ => None end)]
    covers [] [0; 1]%nat.
Definition weighted : logger := two_units [("ground"%string, fun _ u => match u with O => Some (1 / 2) | _ => Some 1 end); ("glacier"%string, glacier_fraction)].
Lemma weighted_names : clear_names (map fst (lg_covers weighted)).
Proof.
  cbn. split; [repeat constructor; cbn; intuition congruence|]. split.
  - intros c [<-|[<-|[]]]; apply colon_free; cbn; intuition congruence.
  - intros c d [<-|[<-|[]]] [<-|[<-|[]]]; cbn; split; congruence.
Qed.
(** The snowpack sublimates 4 on half of a quarter of the catchment and the soil 2 everywhere, during 2 steps: 2 * (4 / 8 + 2) = 5; the glacier gains
    8 on an eighth of it and the lake 1. *)
Example c40_holds_somewhere : total_outlet weighted = Some 3 /\ total_et weighted = Ok (Some 5) /\ water_storage_changes weighted = Some 2.
Proof.
  repeat split.
  - unfold total_outlet, total_sub, matching_sub, osum. cbn. f_equal. lra.
  - unfold total_et, osum, rows_mean, area_sum, fraction_of, cover_of. cbn. do 2 f_equal. lra.
  - unfold water_storage_changes, storage_changes, sub_final, sub_initial, hu_final, hu_initial, row_mean, area_sum, fraction_of, cover_of, matching_sub, matching_hu, osum. cbn. f_equal. lra.
Qed.
(** Refuted when the fractions are not recorded (the default): the same values give other totals, because the covers count for the whole unit. *)
Theorem c40_fractions_not_recorded_refuted : total_et (two_units []) = Ok (Some 6) /\ water_storage_changes (two_units []) = Some 3.
Proof.
  repeat split.
  - unfold total_et, osum, rows_mean, area_sum, fraction_of, cover_of. cbn. do 2 f_equal. lra.
  - unfold water_storage_changes, storage_changes, sub_final, sub_initial, hu_final, hu_initial, row_mean, area_sum, fraction_of, cover_of, matching_sub, matching_hu, osum. cbn. f_equal. lra.
Qed.
Print Assumptions c40_fractions_not_recorded_refuted.
(** Refuted when a label of the sub-basin contains "outlet": the content of a store "outlet_lake" is added to the discharge. *)
Definition outlet_lake : logger := mkLog 1 1 (fun _ => 1) [mkSub "outlet_lake:water_content" (Some 7) (fun _ => Some 7); mkSub "outlet" (Some 0) (fun _ => Some 1)] [] [] [] [].
Theorem c40_outlet_name_refuted : total_outlet outlet_lake = Some 8.
Proof. unfold total_outlet, total_sub, matching_sub, osum. cbn. f_equal. lra. Qed.
Print Assumptions c40_outlet_name_refuted.
(** Refuted for GetTotalHydroUnits on contents: it looks for ":content" while the labels end with ":water_content" (or snow, ice), so that the fraction
    of the cover is never applied: 8 per step on the whole first unit (weight 1/4) instead of half of it. *)
Theorem c40_contents_ignore_fractions_refuted : total_hydro_units weighted ":water_content" true = Some 4 /\
  Rsum (fun t => Rsum (fun u => lg_area weighted u / area_sum weighted * (nan_to_zero (glacier_fraction t u) * match u with O => 8 | _ => 0 end)) [0; 1]%nat) [0; 1]%nat = 2.
Proof.
  split.
  - unfold total_hydro_units, matching_hu, rows_mean, area_sum. cbn. f_equal. lra.
  - unfold area_sum. cbn. lra.
Qed.
Print Assumptions c40_contents_ignore_fractions_refuted.
