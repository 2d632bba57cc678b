(** Property theorems: unit hydrographs and routing (C17-C20, C52, C53). *)
From Verif Require Import Base BaseFacts Container Processes Routing RoutingSpec RoutingFacts RoutingStores RoutingStores2 RoutingWitness.

(** *** C17 *)
(** For every base time the ordinates are shares of one; there are ceil(X4) and ceil(2 X4) of them, and the share
    released within [k] days is the S-curve of the model description. *)
Theorem c17_shares : forall x4 u,
  shares_of_one (ord1 (recompute x4 u)) /\ shares_of_one (ord2 (recompute x4 u)).
Proof. exact uh_shares. Qed.
Print Assumptions c17_shares.
Theorem c17_shape : forall x4 u, 0 < x4 ->
  x4 <= INR (length (ord1 (recompute x4 u))) < x4 + 1 /\
  2 * x4 <= INR (length (ord2 (recompute x4 u))) < 2 * x4 + 1 /\
  (forall k, (0 < k)%nat -> INR k < x4 ->
     total (firstn k (ord1 (recompute x4 u))) = Rpower (INR k / x4) (5 / 2)) /\
  (forall k, (0 < k)%nat -> INR k < x4 ->
     total (firstn k (ord2 (recompute x4 u))) = 1 / 2 * Rpower (INR k / x4) (5 / 2)) /\
  (forall k, (0 < k)%nat -> x4 <= INR k -> INR k < 2 * x4 ->
     total (firstn k (ord2 (recompute x4 u))) = 1 - 1 / 2 * Rpower (2 - INR k / x4) (5 / 2)).
Proof.
  intros x4 u Hx. unfold recompute; cbn [ord1 ord2]. rewrite base_time_id by exact Hx. rewrite !ordinates_length.
  destruct (ceil_size_bounds x4 Hx) as [A _]. destruct (ceil_size_bounds (2 * x4) ltac:(lra)) as [B _].
  split; [exact A|]. split; [exact B|].
  assert (P : forall k, (0 < k)%nat -> 0 < INR k) by (intros k Hk; apply lt_0_INR; exact Hk).
  split; [|split]; intros k Hk.
  - intros Hlt. specialize (P k Hk). rewrite ordinates_firstn by (apply INR_le; lra).
    unfold sh1. rewrite (proj2 (Rleb_true 0 0)), (proj2 (Rleb_false (INR k) 0)), (proj2 (Rleb_false x4 (INR k))) by lra. lra.
  - intros Hlt. specialize (P k Hk). rewrite ordinates_firstn by (apply INR_le; lra).
    unfold sh2. rewrite (proj2 (Rleb_true 0 0)), (proj2 (Rleb_false (INR k) 0)), (proj2 (Rleb_false (2 * x4) (INR k))), (proj2 (Rltb_true (INR k) x4)) by lra. lra.
  - intros Hge Hlt. specialize (P k Hk). rewrite ordinates_firstn by (apply INR_le; lra).
    unfold sh2. rewrite (proj2 (Rleb_true 0 0)), (proj2 (Rleb_false (INR k) 0)), (proj2 (Rleb_false (2 * x4) (INR k))), (proj2 (Rltb_false (INR k) x4)) by lra. lra.
Qed.
Print Assumptions c17_shape.

(** *** C18 *)
(** Feeding any history to an empty hydrograph, the release of the last step is the convolution of the history with
    the ordinates. *)
Theorem c18_convolution : forall ord xs x, (0 < length ord)%nat ->
  exists s, feed ord (repeat 0 (length ord)) (xs ++ [x]) = Ok s /\ nth 0 s 0 = convolution ord (xs ++ [x]) (length xs).
Proof.
  intros ord xs x Hn. destruct (feed_ok ord (repeat 0 (length ord)) (xs ++ [x])) as (s & Hs & _).
  { rewrite repeat_length; reflexivity. } { rewrite repeat_length; exact Hn. }
  exists s. split; [exact Hs|]. apply feed_release; assumption.
Qed.
Print Assumptions c18_convolution.
(** Water received = water released + water in transit, from any state. *)
Theorem c18_balance : forall ord xs st, shares_of_one ord -> (0 < length ord)%nat -> length st = length ord ->
  exists s released, feed ord st xs = Ok s /\ length released = length xs /\
    in_transit st + total xs = total released + in_transit s /\
    (forall k, (k < length xs)%nat -> exists sk, feed ord st (firstn (S k) xs) = Ok sk /\ nth k released 0 = nth 0 sk 0).
Proof.
  intros ord xs st [_ Ho] Hn Hl. destruct (feed_ok ord st xs) as (s & Hs & _); [lia|lia|].
  destruct (feed_balance ord xs Ho Hn st s Hl Hs) as (rel & A & B & C). exists s, rel. auto.
Qed.
Print Assumptions c18_balance.
(** Once as many dry steps have passed as there are ordinates, nothing is left and nothing more is released. *)
Theorem c18_empties : forall ord st n s, length st = length ord -> (0 < length ord)%nat -> (length ord <= n)%nat ->
  feed ord st (repeat 0 n) = Ok s -> forall y, In y s -> y = 0.
Proof.
  intros ord st n s Hl Hn Hle H y Hy. destruct (in_nth_R s y Hy) as (j & _ & <-).
  rewrite (feed_dry ord st n s ltac:(lia) ltac:(lia) H). apply nth_overflow. lia.
Qed.
Print Assumptions c18_empties.
(** Nothing negative is ever held or released. *)
Theorem c18_nonneg : forall ord xs st s, shares_of_one ord -> length st = length ord -> (0 < length ord)%nat ->
  (forall y, In y st -> 0 <= y) -> (forall x, In x xs -> 0 <= x) -> feed ord st xs = Ok s -> forall y, In y s -> 0 <= y.
Proof.
  intros ord xs. induction xs as [|x xs IH]; intros st s Ho Hl Hn Hst Hx H.
  - injection H as <-. exact Hst.
  - simpl in H. destruct (advance_ok ord st x) as (s1 & E & L & _); [lia|lia|]. rewrite E in H. simpl in H.
    apply (IH s1 s); try assumption; try lia.
    + apply (advance_nonneg ord st x s1); try assumption; try lia; [apply Ho|apply Hx; left; reflexivity].
    + intros y Hy; apply Hx; right; exact Hy.
Qed.
Print Assumptions c18_nonneg.
Example c18_case : shares_of_one (ord2 (fresh (17 / 10))) /\ (0 < length (ord2 (fresh (17 / 10))))%nat /\
  length (st2 (fresh (17 / 10))) = length (ord2 (fresh (17 / 10))).
Proof. destruct (fresh_ok (17 / 10)) as (A & _). pose proof (uh_of_ok _ _ A) as (L1 & L2 & N1 & N2 & S1 & S2). auto. Qed.

(** *** C19 *)
(** Weights, for every MAXBAS. *)
Theorem c19_weights : forall maxbas h, shares_of_one (hb_ord (hbv_recompute maxbas h)) /\
  (1 <= maxbas -> maxbas <= INR (length (hb_ord (hbv_recompute maxbas h))) < maxbas + 1) /\
  (maxbas < 1 -> hb_ord (hbv_recompute maxbas h) = [1]).
Proof.
  intros maxbas h. split; [apply hbv_shares|]. unfold hbv_recompute; cbn [hb_ord]. rewrite ordinates_length.
  unfold hbv_base. split; intros H.
  - rewrite (proj2 (Rltb_false maxbas 1)) by lra. apply ceil_size_bounds. lra.
  - rewrite (proj2 (Rltb_true maxbas 1)) by lra. rewrite (ceil_size_unique 1 1) by (simpl; lra).
    unfold ordinates; cbn [seq map]. unfold cumulative_weight. change (INR 1) with 1. change (INR 0) with 0.
    rewrite (proj2 (Rleb_false 1 0)), (proj2 (Rleb_true 1 1)), (proj2 (Rleb_true 0 0)) by lra. f_equal. lra.
Qed.
Print Assumptions c19_weights.
(** Whatever contents and deliveries a run produces, after every step the schedule adds up to the stored water. *)
Theorem c19_schedule_is_content : forall maxbas h0 l c d, exists h',
  hbv_history (hbv_reset maxbas h0) (l ++ [(c, d)]) = Ok h' /\ total (hb_st h') = c.
Proof.
  intros maxbas h0 l c d.
  assert (Hok : hbv_ok (hbv_reset maxbas h0)).
  { destruct (hbv_recompute_ok maxbas h0) as (A & B & C). unfold hbv_ok, hbv_reset; cbn [hb_ord hb_st]. rewrite map_length. auto. }
  destruct (hbv_history_ok (l ++ [(c, d)]) _ Hok) as (h' & E & _ & _ & T & P). exists h'. split; [exact E|].
  rewrite P, map_app in T. cbn [map fst] in T. rewrite last_last in T.
  assert (Z : total (hb_st (hbv_reset maxbas h0)) = 0).
  { apply total_zeros. unfold hbv_reset; cbn [hb_st]. intros x Hx. apply in_map_iff in Hx. destruct Hx as (? & <- & _). reflexivity. }
  rewrite Z in T. unfold hbv_reset in T; cbn [hb_prev] in T. lra.
Qed.
Print Assumptions c19_schedule_is_content.
(** For a unit that covers the whole catchment (the flux reports all that leaves): the deliveries are the
    convolution of the inflows with the weights, water is conserved. *)
Theorem c19_convolution : forall maxbas h0 c xs, (forall x, In x xs -> 0 <= x) -> c = 0 ->
  exists h' c' ds, hbv_routing 1 (hbv_reset maxbas h0) c xs = Ok (h', c', ds) /\ length ds = length xs /\
  (forall k, (k < length xs)%nat -> nth k ds 0 = convolution (hb_ord (hbv_reset maxbas h0)) xs k) /\
  total xs = c' + total ds.
Proof.
  intros maxbas h0 c xs Hx ->. rewrite hbv_exact_routing.
  assert (Hok : hbv_ok (hbv_reset maxbas h0)).
  { destruct (hbv_recompute_ok maxbas h0) as (A & B & C). unfold hbv_ok, hbv_reset; cbn [hb_ord hb_st]. rewrite map_length. auto. }
  destruct (hbv_exact_ok xs (hbv_reset maxbas h0) 0 Hok) as (h' & c' & ds & E & _ & _ & _ & L & _ & _ & D & B).
  - intros j. unfold hbv_reset; cbn [hb_st]. set (l := hb_st _). clearbody l. revert j. induction l; intros [|j]; simpl; auto.
  - reflexivity.
  - exact Hx.
  - exists h', c', ds. split; [exact E|]. split; [exact L|]. split; [exact D|]. lra.
Qed.
Print Assumptions c19_convolution.
(** For such a unit, after ceil(MAXBAS) - 1 steps without inflow, whatever was delivered, all remaining water is due at once:
    the process asks for the whole content. *)
Theorem c19_all_due_partial : forall h l h' c, hbv_ok h -> total (hb_st h) = hb_prev h ->
  S (length l) = length (hb_ord h) ->
  (forall k, (k < length l)%nat -> fst (nth k l (0, 0)) + snd (nth k l (0, 0)) =
      match k with O => hb_prev h | S k' => fst (nth k' l (0, 0)) end) ->
  hbv_history h l = Ok h' -> hb_prev h' = c -> 0 <= c -> hbv_rate h' 0 = c.
Proof.
  intros h l h' c Hok Ht Hl Hd H Hc Hc0.
  destruct (hbv_history_ok l h Hok) as (h2 & E & Hok2 & Ho2 & T & _). rewrite E in H. injection H as <-.
  assert (Hz : forall j, (0 < j)%nat -> nth j (hb_st h2) 0 = 0).
  { intros j Hj. rewrite (hbv_dry_slots (length l) l h h2 eq_refl Hok Hd E j Hj). apply nth_overflow. destruct Hok. lia. }
  assert (Eh : nth 0 (hb_st h2) 0 = c).
  { rewrite Ht, Hc in T. rewrite total_tl in T.
    assert (Z : total (tl (hb_st h2)) = 0).
    { apply total_zeros. intros x Hx. destruct (in_nth_R _ _ Hx) as (j & _ & <-).
      specialize (Hz (S j) ltac:(lia)). destruct (hb_st h2); [destruct j; reflexivity|]. exact Hz. }
    lra. }
  unfold hbv_rate. rewrite Eh, Rmax_right by lra. lra.
Qed.
Print Assumptions c19_all_due_partial.
(** Missing above: units that cover part of the catchment, for which the claim on timing is false (see C53). *)
Example c19_case : hbv_ok (hbv_fresh 3) /\ total (hb_st (hbv_fresh 3)) = hb_prev (hbv_fresh 3) /\
  (forall k, (k < 2)%nat -> fst (nth k [(0, 0); (0, 0)] (0, 0)) + snd (nth k [(0, 0); (0, 0)] (0, 0)) =
      match k with O => hb_prev (hbv_fresh 3) | S k' => fst (nth k' [(0, 0); (0, 0)] (0, 0)) end).
Proof.
  destruct hbv3 as (A & B & C). split; [apply hbv_recompute_ok|]. rewrite B, C. split; [unfold total; simpl; lra|].
  intros k Hk. destruct k as [|[|k]]; [simpl; lra|simpl; lra|lia].
Qed.

(** *** C53 *)
(** The delivery of an impulse does not depend on the share of the catchment the unit covers: false. A unit with 10 %
    of the catchment, MAXBAS = 3 d: 3/5 of the impulse leave on the second day instead of 5/9. *)
Theorem c53_share_refuted : exists h c ds, hbv_routing (1 / 10) (hbv_fresh 3) 0 [1; 0] = Ok (h, c, ds) /\
  hb_ord (hbv_fresh 3) = [2 / 9; 5 / 9; 2 / 9] /\ ds = [2 / 9; 3 / 5] /\
  nth 1 ds 0 <> convolution (hb_ord (hbv_fresh 3)) [1; 0] 1.
Proof.
  destruct hbv3_share as (h & c & E). destruct hbv3 as (A & _). exists h, c, [2 / 9; 3 / 5].
  split; [exact E|]. split; [exact A|]. split; [reflexivity|]. rewrite A. unfold convolution; cbn [seq Rsum nth Nat.sub]. lra.
Qed.
Print Assumptions c53_share_refuted.

(** *** C20 *)
(** GR4J without gain from the exchange (X2 <= 0): along any run of daily steps the reported content is the water of
    the routing store and of the hydrographs, up to 2e-8 mm per step. *)
Theorem c20_mirror_partial : forall p c g prs c' g',
  uh_of (X4 p) (g_uh g) -> (forall x, In x (st1 (g_uh g) ++ st2 (g_uh g)) -> 0 <= x) -> 0 <= g_r g ->
  0 <= c -> (forall x, In x prs -> 0 <= x) -> X2 p <= 0 ->
  gr4_run 1 p c g prs = Ok (c', g') ->
  Rabs (c' - gr4_water g') <= Rabs (c - gr4_water g) + INR (length prs) * (2 * PRECISION).
Proof.
  intros p c g prs c' g' Hu Hst Hr Hc Hx H2 H. apply (gr4_run_mirror p prs c g c' g'); try assumption.
  split; [exact Hu|]. split; [|exact Hr]. split; intros x Hin; apply Hst, in_or_app; auto.
Qed.
Print Assumptions c20_mirror_partial.
Example c20_case : let p := w4 0 in uh_of (X4 p) (g_uh w4_start) /\
  (forall x, In x (st1 (g_uh w4_start) ++ st2 (g_uh w4_start)) -> 0 <= x) /\ gr4_water w4_start = 0 /\
  gr4_run 1 p 0 w4_start [pr15] = Ok (s15 / 2, w4_day1) /\ 1 < s15.
Proof.
  destruct (fresh_ok (1 / 2)) as (A & B & C). cbv zeta. split; [exact A|]. split; [|split; [|split]].
  - intros x Hx. apply in_app_iff in Hx. destruct Hx as [Hx|Hx]; [apply (proj1 B)|apply (proj2 B)]; exact Hx.
  - unfold gr4_water, w4_start; cbn [g_r g_uh]. rewrite C. lra.
  - cbn [gr4_run]. rewrite (w4_first 0). reflexivity.
  - apply s15_range.
Qed.
(** With a gain (X2 > 0) it is false: the limiter does not see the injected water, the discharge is capped and the
    content runs away from the stores: after two days the content is at least 8 mm, the stores hold at most 1 mm. *)
Theorem c20_gain_refuted : exists p g1 g2 pr c1 c2, X2 p = 5 /\
  gr4_run 1 p 0 (mkG4 (fresh (X4 p)) 0) [pr] = Ok (c1, g1) /\ gr4_water g1 = c1 /\
  gr4_run 1 p 0 (mkG4 (fresh (X4 p)) 0) [pr; 0] = Ok (c2, g2) /\ 8 <= c2 /\ gr4_water g2 <= 1.
Proof.
  destruct w4_second as (g2 & E2 & W2). pose proof w4_F_big.
  exists (w4 5), w4_day1, g2, pr15, (s15 / 2), (2 * w4_F). split; [reflexivity|].
  change (mkG4 (fresh (X4 (w4 5))) 0) with w4_start. cbn [gr4_run]. rewrite (w4_first 5). cbn [bind]. rewrite E2. cbn [bind].
  split; [reflexivity|]. split; [unfold gr4_water, uh_water, in_transit, total; simpl; lra|]. split; [reflexivity|]. split; lra.
Qed.
Print Assumptions c20_gain_refuted.
(** The logged "internal_storage" is not that water: it still counts what the hydrographs have just released. *)
Theorem c20_internal_storage_refuted : exists p g1 pr c1,
  gr4_run 1 p 0 (mkG4 (fresh (X4 p)) 0) [pr] = Ok (c1, g1) /\ gr4_water g1 = c1 /\
  c1 + 1 < gr4_internal_storage g1.
Proof.
  exists (w4 0), w4_day1, pr15, (s15 / 2). change (mkG4 (fresh (X4 (w4 0))) 0) with w4_start.
  cbn [gr4_run]. rewrite (w4_first 0). cbn [bind]. split; [reflexivity|]. split; [unfold gr4_water, uh_water, in_transit, total; simpl; lra|].
  pose proof s15_range. assert (9 / 10 * pr15 = s15) by (unfold pr15; field).
  unfold gr4_internal_storage, w4_day1; simpl. lra.
Qed.
Print Assumptions c20_internal_storage_refuted.
(** GR6J: the gap between the content and the stores changes by exactly the exchanged water, which the container does
    not receive (up to 1e-8 mm per step); it stays closed if X2 = 0. *)
Theorem c20_gr6j_mirror_partial : forall p, Y2 p = 0 -> forall c h prs c' h',
  uh_of (Y4 p) (h_uh h) -> (forall x, In x (st1 (h_uh h) ++ st2 (h_uh h)) -> 0 <= x) -> 0 <= h_r h ->
  (forall x, In x prs -> 0 <= x) -> gr6_run 1 p c h prs = Ok (c', h') ->
  Rabs (c' - gr6_water h') <= Rabs (c - gr6_water h) + INR (length prs) * PRECISION.
Proof.
  intros p H2 c h prs c' h' Hu Hst Hr Hx H. apply (gr6_run_mirror p prs H2 c h c' h'); try assumption.
  split; [exact Hu|]. split; [|exact Hr]. split; intros x Hin; apply Hst, in_or_app; auto.
Qed.
Print Assumptions c20_gr6j_mirror_partial.
Theorem c20_gr6j_exchange_refuted : exists p h c' h' q, Y2 p = 1 /\ gr6_water h = 0 /\
  gr6_step 1 p 0 h 0 = Ok (c', h', q) /\ 1 - PRECISION <= c' - gr6_water h'.
Proof.
  destruct w6_drift as (W & c' & h' & q & E & D). exists w6, w6_start, c', h', q. auto.
Qed.
Print Assumptions c20_gr6j_exchange_refuted.

(** *** C52 *)
(** After SetParameters or Reset the hydrographs are those of the current base time; at a step they are too, except
    (GR4J) if the number of ordinates is ceil(X4) + 1 and (GR6J) if it is ceil(X4). *)
Theorem c52_refresh_partial : forall x4 u,
  uh_of x4 (fresh x4) /\ uh_of x4 (reset_uh x4 u) /\
  (uh_of x4 u \/ Z.of_nat (length (ord1 u)) <> (ceilZ x4 + 1)%Z -> uh_of x4 (gr4_refresh x4 u)) /\
  (uh_of x4 u \/ Z.of_nat (length (ord1 u)) <> ceilZ (base_time x4) -> uh_of x4 (gr6_refresh x4 u)).
Proof.
  intros x4 u. split; [apply fresh_ok|]. split; [apply reset_ok|]. split; intros [H|H].
  - rewrite gr4_refresh_same; assumption.
  - unfold gr4_refresh. rewrite (proj2 (Z.eqb_neq _ _)) by lia. apply uh_of_recompute.
  - rewrite gr6_refresh_same; assumption.
  - unfold gr6_refresh. rewrite (proj2 (Z.eqb_neq _ _)) by lia. apply uh_of_recompute.
Qed.
Print Assumptions c52_refresh_partial.
(** False in general: GR4J goes on with the hydrographs of 2.5 d when the base time becomes 1.5 d, GR6J with those of
    1.2 d when it becomes 1.8 d. *)
Theorem c52_stale_refuted :
  (gr4_refresh (3 / 2) (fresh (5 / 2)) = fresh (5 / 2) /\ ~ uh_of (3 / 2) (fresh (5 / 2))) /\
  (gr6_refresh (9 / 5) (fresh (6 / 5)) = fresh (6 / 5) /\ ~ uh_of (9 / 5) (fresh (6 / 5))).
Proof. split; [exact gr4_stale|exact gr6_stale]. Qed.
Print Assumptions c52_stale_refuted.
(** Shortening the base time loses the water in transit beyond the new length. *)
Theorem c52_truncated_refuted : exists s1 s2,
  feed (ord1 (fresh 3)) (st1 (fresh 3)) [9 / 10] = Ok s1 /\ feed (ord2 (fresh 3)) (st2 (fresh 3)) [1 / 10] = Ok s2 /\
  let u := mkUH (ord1 (fresh 3)) (ord2 (fresh 3)) s1 s2 in
  0 < in_transit (st1 u) /\ in_transit (st1 (gr4_refresh 1 u)) = 0 /\ uh_of 1 (gr4_refresh 1 u).
Proof. exact gr4_truncated. Qed.
Print Assumptions c52_truncated_refuted.
