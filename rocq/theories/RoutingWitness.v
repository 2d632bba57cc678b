(** Concrete routing cases. *)
From Verif Require Import Base BaseFacts Container ContainerFacts Processes ProcessFacts Routing RoutingSpec RoutingFacts RoutingStores RoutingStores2.

Lemma base_time_id x : 0 < x -> base_time x = x.
Proof. intros H. unfold base_time. rewrite (proj2 (Rleb_false x 0)); [reflexivity|lra]. Qed.
Lemma fresh_half : fresh (1 / 2) = mkUH [1] [1] [0] [0].
Proof.
  unfold fresh, recompute. rewrite base_time_id by lra.
  rewrite (ceil_size_unique (1 / 2) 1) by (simpl; lra). rewrite (ceil_size_unique (2 * (1 / 2)) 1) by (simpl; lra).
  unfold ordinates; cbn [seq map]. unfold resize; cbn [firstn app repeat length Nat.sub].
  destruct (sh1_ends (1 / 2) 1) as [A B]; [lra|simpl; lra|]. destruct (sh2_ends (1 / 2) 1) as [C D]; [lra|simpl; lra|].
  rewrite A, C. change (INR 0) with 0. rewrite B, D. replace (1 - 0) with 1 by ring. reflexivity.
Qed.

(** s^4 = 15. *)
Definition s15 : R := Rpower 15 (1 / 4).
Lemma s15_four : s15 * s15 * s15 * s15 = 15.
Proof.
  replace (s15 * s15 * s15 * s15) with (s15 ^ 4) by ring. unfold s15.
  rewrite <- Rpower_pow by apply exp_pos. rewrite Rpower_mult. replace (1 / 4 * INR 4) with 1 by (simpl; lra).
  apply Rpower_1; lra.
Qed.
Lemma s15_range : 1 < s15 < 2.
Proof.
  assert (H := s15_four). assert (0 < s15) by apply exp_pos. split.
  - destruct (Rle_dec s15 1); [|lra]. assert (s15 * s15 <= 1) by nra. nra.
  - destruct (Rle_dec 2 s15); [|lra]. assert (4 <= s15 * s15) by nra. nra.
Qed.
Definition pr15 : R := s15 / (9 / 10).
Lemma Rpower16 : Rpower (1 + 15) (- (1 / 4)) = 1 / 2.
Proof.
  rewrite Rpower_Ropp. replace (1 + 15) with (2 ^ 4) by ring. rewrite <- Rpower_pow by lra. rewrite Rpower_mult.
  replace (INR 4 * (1 / 4)) with 1 by (simpl; lra). rewrite Rpower_1 by lra. lra.
Qed.
Lemma release15 : store_release 1 s15 = s15 / 2.
Proof.
  unfold store_release. rewrite (proj2 (Rltb_true 0 1)) by lra. unfold Rdiv at 1 2 3 4. rewrite Rinv_1, !Rmult_1_r.
  rewrite s15_four. rewrite Rpower16. field.
Qed.
Definition w4 (x2 : R) : gr4_par := mkP4 x2 1 (1 / 2).
Definition w4_start : gr4 := mkG4 (fresh (1 / 2)) 0.
Definition w4_day1 : gr4 := mkG4 (mkUH [1] [1] [s15] [1 / 10 * pr15]) (s15 / 2).

Lemma limit_one_ok c rate : 0 <= rate <= 10000 -> exists r, apply_constraints 1 c 0 None None false [0%nat] [] (fun _ => rate) = Ok r.
Proof.
  intros H. unfold apply_constraints, outgoing_too_high. cbn [existsb].
  rewrite (proj2 (Rltb_false 10000 rate)) by lra. cbn [orb]. eexists; reflexivity.
Qed.
Lemma limit_any_ok an c rate : 0 <= rate <= 10000 -> exists r, apply_constraints 1 c 0 None None an [0%nat] [] (fun _ => rate) = Ok r.
Proof.
  intros H. unfold apply_constraints, outgoing_too_high. cbn [existsb].
  rewrite (proj2 (Rltb_false 10000 rate)) by lra. cbn [orb]. eexists; reflexivity.
Qed.
Lemma finalize_big x : PRECISION < x -> finalize_value false x = x.
Proof.
  intros H. pose proof PRECISION_pos. unfold finalize_value, NearlyZero, LessThan.
  rewrite (proj2 (Rleb_false (Rabs x) PRECISION)) by (rewrite Rabs_right; lra).
  rewrite (proj2 (Rltb_false x (0 - PRECISION))) by lra. reflexivity.
Qed.

Lemma w4_uh s1 s2 : uh_of (1 / 2) (mkUH [1] [1] [s1] [s2]).
Proof.
  assert (H := proj1 (fresh_ok (1 / 2))). rewrite fresh_half in H.
  destruct H as (A & B & _). unfold uh_of in *; cbn [ord1 ord2 st1 st2] in *. auto.
Qed.
Lemma w4_first x2 : gr4_step 1 (w4 x2) 0 w4_start pr15 = Ok (s15 / 2, w4_day1, s15 / 2 + 1 / 10 * pr15).
Proof.
  assert (HP : PRECISION < 1 / 10) by (unfold PRECISION; lra). pose proof PRECISION_pos as HP0.
  pose proof s15_range as Hs. assert (Hpr : 9 / 10 * pr15 = s15) by (unfold pr15; field).
  assert (Hpr2 : s15 < pr15 < 3) by lra.
  unfold gr4_step. unfold LessThanOrEqual. rewrite (proj2 (Rleb_false (0 + pr15) (0 + PRECISION))) by lra.
  unfold gr4_rates. cbn [w4 X2 X3 X4 w4_start g_uh g_r]. rewrite (gr4_refresh_same (1 / 2)) by apply fresh_ok.
  rewrite fresh_half. cbn [ord1 ord2 st1 st2]. cbv zeta. unfold peek. cbn [nth]. rewrite Hpr.
  assert (EF : gr4_exchange (w4 x2) 0 = 0).
  { unfold gr4_exchange. cbn [w4 X3 X2]. rewrite (proj2 (Rltb_true 0 1)) by lra. cbv zeta.
    unfold Rdiv. ring. }
  change (mkP4 x2 1 (1 / 2)) with (w4 x2). rewrite EF.
  rewrite (Rmax_right 0 (0 + (0 + 1 * s15) + 0)) by lra. rewrite (Rmax_right 0 (0 + 1 * (1 / 10 * pr15) + 0)) by lra.
  replace (0 + (0 + 1 * s15) + 0) with s15 by ring. replace (0 + 1 * (1 / 10 * pr15) + 0) with (1 / 10 * pr15) by ring.
  rewrite release15.
  destruct (limit_one_ok (0 + pr15) (s15 / 2 + 1 / 10 * pr15)) as (r & Hr); [lra|]. rewrite Hr.
  apply limit_one in Hr; [|lra|lra]. cbn [bind]. rewrite Hr, Rmin_left by lra.
  rewrite (proj2 (Rltb_false (s15 / 2 + 1 / 10 * pr15) 0)) by lra.
  unfold GreaterThan. rewrite (proj2 (Rltb_true (0 + PRECISION) _)) by lra.
  unfold gr4_finalize, advance; cbn [g_uh ord1 ord2 st1 st2 length Nat.eqb Nat.ltb Nat.leb Nat.sub seq map app last bind nth g_r].
  rewrite EF, Hpr, (Rmax_right 0 (0 + 1 * s15 + 0)) by lra. replace (0 + 1 * s15 + 0) with s15 by ring.
  cbn [w4 X3]. rewrite release15. rewrite finalize_big by lra. unfold w4_day1.
  apply f_equal. apply f_equal2; [apply f_equal2|]; [lra| |lra].
  rewrite !Rmult_1_l. apply f_equal. lra.
Qed.

(** Second day, no rain, gain from the exchange. *)
Definition w4_F : R := gr4_exchange (w4 5) (s15 / 2).
Lemma w4_F_big : 4 <= w4_F.
Proof.
  pose proof s15_range as Hs. unfold w4_F, gr4_exchange. cbn [w4 X2 X3]. rewrite (proj2 (Rltb_true 0 1)) by lra. cbv zeta.
  replace (s15 / 2 / 1) with (s15 / 2) by field. set (y := s15 / 2).
  assert (Hy : 1 / 2 < y < 1) by (unfold y; lra).
  assert (Hy4 : y * y * y * y = 15 / 16). { replace (y * y * y * y) with (s15 * s15 * s15 * s15 / 16) by (unfold y; field). rewrite s15_four. lra. }
  assert (Hsq : y <= sqrt y).
  { rewrite <- (sqrt_Rsqr y) at 1 by lra. apply sqrt_le_1; unfold Rsqr; nra. }
  assert (Hy3 : 0 < y * y * y) by (repeat apply Rmult_lt_0_compat; lra).
  assert (y * y * y * y <= y * y * y * sqrt y) by (apply Rmult_le_compat_l; lra).
  replace (5 * y * y * y * sqrt y) with (5 * (y * y * y * sqrt y)) by ring. lra.
Qed.
Lemma w4_F_small : w4_F <= 5.
Proof.
  pose proof s15_range as Hs. unfold w4_F, gr4_exchange. cbn [w4 X2 X3]. rewrite (proj2 (Rltb_true 0 1)) by lra. cbv zeta.
  replace (s15 / 2 / 1) with (s15 / 2) by field. set (y := s15 / 2).
  assert (Hy : 1 / 2 < y < 1) by (unfold y; lra).
  assert (Hsq : 0 <= sqrt y <= 1). { split; [apply sqrt_pos|]. rewrite <- sqrt_1. apply sqrt_le_1; lra. }
  assert (Hy2 : 0 < y * y <= 1) by nra. assert (Hy3 : 0 < y * y * y <= 1) by nra.
  replace (5 * y * y * y * sqrt y) with (5 * (y * y * y * sqrt y)) by ring. nra.
Qed.
Lemma w4_second : exists g2, gr4_step 1 (w4 5) (s15 / 2) w4_day1 0 = Ok (2 * w4_F, g2, s15 / 2) /\ gr4_water g2 <= 1.
Proof.
  assert (HP : PRECISION < 1 / 10) by (unfold PRECISION; lra). pose proof PRECISION_pos as HP0.
  pose proof s15_range as Hs. pose proof w4_F_big as HF. pose proof w4_F_small as HFs.
  unfold gr4_step. unfold LessThanOrEqual. rewrite (proj2 (Rleb_false (s15 / 2 + 0) (0 + PRECISION))) by lra.
  unfold gr4_rates. cbn [w4 X2 X3 X4 w4_day1 g_uh g_r]. rewrite (gr4_refresh_same (1 / 2)) by apply w4_uh.
  cbn [ord1 ord2 st1 st2]. cbv zeta. unfold peek. cbn [nth].
  change (mkP4 5 1 (1 / 2)) with (w4 5). change (gr4_exchange (w4 5) (s15 / 2)) with w4_F.
  replace (0 + 1 * (9 / 10 * 0)) with 0 by ring. replace (0 + 1 * (1 / 10 * 0)) with 0 by ring.
  set (rp := Rmax 0 (s15 / 2 + 0 + w4_F)). assert (Hrp : rp = s15 / 2 + w4_F) by (unfold rp; rewrite Rmax_right; lra).
  rewrite (Rmax_right 0 (0 + w4_F)) by lra.
  pose proof (store_release_ok 1 rp ltac:(lra)) as HS.
  destruct (limit_one_ok (s15 / 2 + 0) (store_release 1 rp + (0 + w4_F))) as (r & Hr); [lra|]. rewrite Hr.
  apply limit_one in Hr; [|lra|lra]. cbn [bind]. rewrite Hr, Rmin_right by lra.
  rewrite (proj2 (Rltb_false (s15 / 2 + 0) 0)) by lra.
  unfold GreaterThan. rewrite (proj2 (Rltb_true (0 + PRECISION) _)) by lra.
  unfold gr4_finalize, advance; cbn [g_uh ord1 ord2 st1 st2 length Nat.eqb Nat.ltb Nat.leb Nat.sub seq map app last bind nth g_r].
  change (gr4_exchange (w4 5) (s15 / 2)) with w4_F.
  replace (s15 / 2 + 1 * (9 / 10 * 0) + w4_F) with (s15 / 2 + 0 + w4_F) by ring. fold rp.
  rewrite finalize_big by lra. eexists; split.
  - apply f_equal. apply f_equal2; [apply f_equal2|]; [lra|reflexivity|lra].
  - unfold gr4_water, uh_water, in_transit, total; cbn [g_r g_uh st1 st2 tl Rsum].
    pose proof (store_keeps_below 1 rp ltac:(lra) ltac:(lra)) as HK. cbn [w4 X3]. lra.
Qed.

(** GR6J: one dry day from scratch with X2 = 1 and X5 = 1. *)
Definition w6 : gr6_par := mkP6 1 90 (17 / 10) 1 4.
Definition w6_start : gr6 := mkG6 (fresh (17 / 10)) 0 0.
Lemma gr6_step_runs p c h pr : gr6_good p h -> 0 <= pr ->
  snd (gr6_rates p h pr) <= 10000 -> exists c' h' q, gr6_step 1 p c h pr = Ok (c', h', q).
Proof.
  intros (Hu & Hf & Hr) Hpr Hrate. unfold gr6_step.
  destruct (gr6_rates p h pr) as [u rate] eqn:E. cbn [snd] in Hrate.
  assert (Hr0 : 0 <= rate). { unfold gr6_rates in E. injection E as _ <-. apply Rmax_l. }
  assert (Hu' : u = h_uh h). { unfold gr6_rates in E. injection E as <- _. apply gr6_refresh_same, Hu. }
  destruct (limit_any_ok true (c + pr) rate) as (r & ->); [lra|]. cbn [bind]. subst u.
  pose proof (uh_of_ok _ _ Hu) as (L1 & L2 & N1 & N2 & _ & _).
  destruct (peek_advance (ord1 (h_uh h)) (st1 (h_uh h)) (9 / 10 * pr)) as (s1 & A1 & _ & _); [lia|lia|].
  destruct (peek_advance (ord2 (h_uh h)) (st2 (h_uh h)) (1 / 10 * pr)) as (s2 & A2 & _ & _); [lia|lia|].
  unfold gr6_finalize. cbn [h_uh]. rewrite A1, A2. cbn [bind]. eauto.
Qed.
Lemma fresh_peek0 x4 : peek (ord1 (fresh x4)) (st1 (fresh x4)) (9 / 10 * 0) = 0 /\ peek (ord2 (fresh x4)) (st2 (fresh x4)) (1 / 10 * 0) = 0.
Proof.
  unfold peek, fresh, recompute; cbn [ord1 ord2 st1 st2]. rewrite !resize_nil, !nth_repeat0. split; lra.
Qed.
Lemma w6_good : gr6_good w6 w6_start.
Proof. destruct (fresh_ok (17 / 10)) as (A & B & C). split; [exact A|]. split; [exact B|]. cbn; lra. Qed.
Lemma w6_drift : gr6_water w6_start = 0 /\ exists c' h' q, gr6_step 1 w6 0 w6_start 0 = Ok (c', h', q) /\
  1 - PRECISION <= c' - gr6_water h'.
Proof.
  destruct (fresh_ok (17 / 10)) as (A & B & C). destruct (fresh_peek0 (17 / 10)) as (P1 & P2).
  split. { unfold gr6_water, w6_start; cbn [h_r h_rexp h_uh]. rewrite C. lra. }
  assert (EF : gr6_exchange w6 0 = -1).
  { unfold gr6_exchange, w6; cbn [Y2 Y3 Y5]. rewrite (proj2 (Rltb_true 0 90)) by lra. lra. }
  destruct (gr6_step_runs w6 0 w6_start 0 w6_good ltac:(lra)) as (c' & h' & q & E).
  { unfold gr6_rates. cbn [w6 Y4 w6_start h_uh h_r h_rexp]. rewrite (gr6_refresh_same (17 / 10)) by exact A.
    cbv zeta. change (mkP6 1 90 (17 / 10) 1 4) with w6. rewrite P1, P2, EF. cbn [snd Y3 Y6 w6].
    rewrite (Rmax_left 0 (0 + 3 / 5 * 0 + -1)) by lra. rewrite (Rmax_left 0 (0 + -1)) by lra.
    pose proof (store_release_ok 90 0 ltac:(lra)).
    set (e := 0 + 2 / 5 * 0 + -1). pose proof (exponential_close e 4 ltac:(lra)) as Hc. unfold exponential_law in Hc.
    assert (exp (e / 4) <= 1). { rewrite <- exp_0. apply exp_mono. unfold e. lra. }
    assert (exp (-14) <= 1). { rewrite <- exp_0. apply exp_mono. lra. }
    pose proof (exp_pos (e / 4)). pose proof (ln1_bounds (exp (e / 4)) ltac:(lra)).
    apply Rmax_lub; lra. }
  exists c', h', q. split; [exact E|].
  destruct (gr6_step_drift w6 0 w6_start 0 c' h' q w6_good ltac:(lra) E) as (_ & D).
  assert (EX : gr6_exchanged w6 w6_start 0 = -1).
  { unfold gr6_exchanged, w6_start; cbn [h_uh h_r]. cbv zeta. rewrite P1, P2, EF.
    rewrite (Rmax_left 0 (0 + 3 / 5 * 0 + -1)) by lra. rewrite (Rmax_left 0 (0 + -1)) by lra. lra. }
  rewrite EX in D. assert (W : gr6_water w6_start = 0) by (unfold gr6_water, w6_start; cbn [h_r h_rexp h_uh]; rewrite C; lra).
  rewrite W in D. apply Rabs_def2 in D || apply Rabs_le_inv in D || idtac.
  unfold Rabs in D. destruct Rcase_abs in D; lra.
Qed.

(** Stale or truncated hydrographs. *)
Lemma fresh_size x n : 0 < x -> x <= INR n < x + 1 -> length (ord1 (fresh x)) = n.
Proof.
  intros Hx Hn. unfold fresh, recompute; cbn [ord1]. rewrite ordinates_length, base_time_id by lra. apply ceil_size_unique, Hn.
Qed.
Lemma gr4_stale : gr4_refresh (3 / 2) (fresh (5 / 2)) = fresh (5 / 2) /\ ~ uh_of (3 / 2) (fresh (5 / 2)).
Proof.
  assert (L : length (ord1 (fresh (5 / 2))) = 3%nat) by (apply fresh_size; simpl; lra). split.
  - unfold gr4_refresh. rewrite L, (ceilZ_unique (3 / 2) 2) by lra. reflexivity.
  - intros (H & _). assert (E : length (ord1 (fresh (5 / 2))) = 2%nat).
    { rewrite H, ordinates_length, base_time_id by lra. apply ceil_size_unique. simpl. lra. }
    lia.
Qed.
Lemma gr6_stale : gr6_refresh (9 / 5) (fresh (6 / 5)) = fresh (6 / 5) /\ ~ uh_of (9 / 5) (fresh (6 / 5)).
Proof.
  assert (L : length (ord1 (fresh (6 / 5))) = 2%nat) by (apply fresh_size; simpl; lra). split.
  - unfold gr6_refresh. rewrite L, base_time_id by lra. rewrite (ceilZ_unique (9 / 5) 2) by lra. reflexivity.
  - intros (H & _). assert (E := f_equal (fun l => nth 0 l 0) H). cbn beta in E.
    unfold fresh, recompute in E; cbn [ord1] in E. rewrite !base_time_id in E by lra.
    rewrite (ceil_size_unique (6 / 5) 2), (ceil_size_unique (9 / 5) 2) in E by (simpl; lra).
    rewrite !ordinates_nth in E by lia. change (INR 1) with 1 in E. change (INR 0) with 0 in E.
    unfold sh1 in E. rewrite (proj2 (Rleb_true 0 0)) in E by lra. rewrite (proj2 (Rleb_false 1 0)) in E by lra.
    rewrite (proj2 (Rleb_false (6 / 5) 1)) in E by lra. rewrite (proj2 (Rleb_false (9 / 5) 1)) in E by lra.
    assert (Rpower (1 / (9 / 5)) (5 / 2) < Rpower (1 / (6 / 5)) (5 / 2)); [|lra].
    unfold Rpower. apply exp_increasing. apply Rmult_lt_compat_l; [lra|]. apply ln_increasing; lra.
Qed.
(** Three ordinates, a pulse, then a base time of one day: the recomputed buffer lost the water in transit. *)
Lemma gr4_truncated : exists s1 s2,
  feed (ord1 (fresh 3)) (st1 (fresh 3)) [9 / 10] = Ok s1 /\ feed (ord2 (fresh 3)) (st2 (fresh 3)) [1 / 10] = Ok s2 /\
  let u := mkUH (ord1 (fresh 3)) (ord2 (fresh 3)) s1 s2 in
  0 < in_transit (st1 u) /\ in_transit (st1 (gr4_refresh 1 u)) = 0 /\ uh_of 1 (gr4_refresh 1 u).
Proof.
  destruct (fresh_ok 3) as (A & B & C). pose proof (uh_of_ok _ _ A) as (L1 & L2 & N1 & N2 & [S1p S1] & [S2p S2]).
  destruct (peek_advance (ord1 (fresh 3)) (st1 (fresh 3)) (9 / 10)) as (s1 & A1 & P1 & M1); [lia|lia|].
  destruct (peek_advance (ord2 (fresh 3)) (st2 (fresh 3)) (1 / 10)) as (s2 & A2 & P2 & M2); [lia|lia|].
  exists s1, s2. cbn [feed]. rewrite A1, A2. cbn [bind]. split; [reflexivity|]. split; [reflexivity|]. cbv zeta. cbn [st1].
  assert (L : length (ord1 (fresh 3)) = 3%nat) by (apply fresh_size; simpl; lra).
  split; [|].
  - assert (E := advance_total _ _ _ _ (eq_sym L1) ltac:(lia) A1). rewrite total_tl, S1 in E. fold (in_transit s1) in E.
    assert (T0 : in_transit (st1 (fresh 3)) = 0).
    { unfold fresh, recompute; cbn [st1]. apply in_transit_zeros, resize_nil_in. }
    rewrite T0, P1 in E. unfold peek in E.
    assert (Z : nth 1 (st1 (fresh 3)) 0 = 0) by (unfold fresh, recompute; cbn [st1]; rewrite resize_nil; apply nth_repeat0).
    rewrite Z in E. unfold fresh, recompute in E; cbn [ord1] in E. rewrite base_time_id in E by lra.
    rewrite (ceil_size_unique 3 3) in E by (simpl; lra). rewrite ordinates_nth in E by lia.
    change (INR 1) with 1 in E. change (INR 0) with 0 in E.
    unfold sh1 in E. rewrite (proj2 (Rleb_true 0 0)) in E by lra. rewrite (proj2 (Rleb_false 1 0)) in E by lra.
    rewrite (proj2 (Rleb_false 3 1)) in E by lra.
    assert (Rpower (1 / 3) (5 / 2) < 1); [|lra].
    unfold Rpower. assert (Hl := ln_increasing (1 / 3) 1 ltac:(lra) ltac:(lra)). rewrite ln_1 in Hl.
    apply (Rlt_le_trans _ (exp 0)); [apply exp_increasing; nra|rewrite exp_0; lra].
  - unfold gr4_refresh. cbn [ord1]. rewrite L, (ceilZ_unique 1 1) by lra. cbn [Z.eqb Z.add Z.of_nat Pos.of_succ_nat Pos.succ Pos.eqb Pos.add].
    split; [|apply uh_of_recompute].
    unfold recompute; cbn [st1]. rewrite base_time_id by lra. rewrite (ceil_size_unique 1 1) by (simpl; lra).
    unfold in_transit. assert (K := resize_length 1 s1). destruct (resize 1 s1) as [|a [|b l]]; try discriminate. reflexivity.
Qed.

(** HBV: maxbas of three days. *)
Lemma hbv3 : hb_ord (hbv_fresh 3) = [2 / 9; 5 / 9; 2 / 9] /\ hb_st (hbv_fresh 3) = [0; 0; 0] /\ hb_prev (hbv_fresh 3) = 0.
Proof.
  unfold hbv_fresh, hbv_recompute; cbn [hb_ord hb_st hb_prev]. unfold hbv_base. rewrite (proj2 (Rltb_false 3 1)) by lra.
  rewrite (ceil_size_unique 3 3) by (simpl; lra). split; [|split; reflexivity].
  unfold ordinates; cbn [seq map]. unfold cumulative_weight.
  rewrite !(proj2 (Rleb_false (INR _) 0)) by (simpl; lra). change (INR 0) with 0. rewrite (proj2 (Rleb_true 0 0)) by lra.
  rewrite (proj2 (Rleb_false 3 (INR 1))) by (simpl; lra). rewrite (proj2 (Rleb_false 3 (INR 2))) by (simpl; lra).
  rewrite (proj2 (Rleb_true 3 (INR 3))) by (simpl; lra). cbv zeta.
  rewrite (proj2 (Rleb_true (INR 1 / 3) (1 / 2))) by (simpl; lra). rewrite (proj2 (Rleb_false (INR 2 / 3) (1 / 2))) by (simpl; lra).
  change (INR 1) with 1. replace (INR 2) with 2 by (simpl; lra).
  rewrite (proj2 (Rleb_false 2 0)) by lra. rewrite (proj2 (Rleb_false (INR 3) 0)) by (simpl; lra). f_equal; [lra|]. f_equal; [lra|]. f_equal; lra.
Qed.
Lemma hbv3_share : exists h c, hbv_routing (1 / 10) (hbv_fresh 3) 0 [1; 0] = Ok (h, c, [2 / 9; 3 / 5]).
Proof.
  destruct (hbv_fresh 3) as [o s pv la] eqn:E. destruct hbv3 as (A & B & C). rewrite E in *. cbn [hb_ord hb_st hb_prev] in *. subst o s pv.
  assert (R1 : hbv_rate (mkH [2 / 9; 5 / 9; 2 / 9] [0; 0; 0] 0 la) 1 = 2 / 9).
  { unfold hbv_rate; cbn [hb_st hb_ord nth]. rewrite Rmax_left; lra. }
  assert (F1 : hbv_finalize (0 + 1 - 2 / 9) (2 / 9 * (1 / 10)) (mkH [2 / 9; 5 / 9; 2 / 9] [0; 0; 0] 0 la)
               = Ok (mkH [2 / 9; 5 / 9; 2 / 9] [3 / 5; 8 / 45; 0] (0 + 1 - 2 / 9) la)).
  { unfold hbv_finalize, hbv_schedule. cbn [hb_st hb_ord hb_prev hb_last length Nat.eqb orb negb seq map Nat.sub nth app add_head bind].
    apply f_equal. apply (f_equal (fun l => mkH _ l _ _)). f_equal; [lra|]. f_equal; lra. }
  assert (R2 : hbv_rate (mkH [2 / 9; 5 / 9; 2 / 9] [3 / 5; 8 / 45; 0] (0 + 1 - 2 / 9) la) 0 = 3 / 5).
  { unfold hbv_rate; cbn [hb_st hb_ord nth]. rewrite Rmax_right; lra. }
  cbn [hbv_routing]. unfold outlet_amount. rewrite (proj2 (Rltb_true (1 / 10) 1)) by lra.
  rewrite R1, F1. cbn [bind]. rewrite R2.
  unfold hbv_finalize, hbv_schedule. cbn [hb_st hb_ord hb_prev hb_last length Nat.eqb orb negb seq map Nat.sub nth app add_head bind].
  do 2 eexists. reflexivity.
Qed.
