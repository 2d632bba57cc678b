(** GR6J routing brick, HBV transformation function, witnesses. *)
From Verif Require Import Base BaseFacts Container ContainerFacts Processes ProcessFacts Routing RoutingSpec RoutingFacts RoutingStores.

(** ** GR6J *)
Section GR6.
Variables (p : gr6_par).
Definition gr6_good (h : gr6) : Prop := uh_of (Y4 p) (h_uh h) /\ uh_full (h_uh h) /\ 0 <= h_r h.

(** Water exchanged with the outside during the step, as the process computes it. *)
Definition gr6_exchanged (h : gr6) (pr : R) : R :=
  let o1 := peek (ord1 (h_uh h)) (st1 (h_uh h)) (9 / 10 * pr) in
  let o2 := peek (ord2 (h_uh h)) (st2 (h_uh h)) (1 / 10 * pr) in
  let F := gr6_exchange p (h_r h) in
  (Rmax 0 (h_r h + 3 / 5 * o1 + F) - (h_r h + 3 / 5 * o1)) + F + (Rmax 0 (o2 + F) - o2).

Lemma exp_outflow_nonneg x x6 : 0 <= gr6j_exponential_outflow x x6.
Proof.
  destruct (Rle_dec x6 0) as [H|H].
  - unfold gr6j_exponential_outflow. rewrite (proj2 (Rleb_true x6 0) H). apply Rmax_l.
  - apply Rlt_le. apply (exponential_facts x x x6); lra.
Qed.

Lemma gr6_step_drift c h pr c' h' q : gr6_good h -> 0 <= pr ->
  gr6_step 1 p c h pr = Ok (c', h', q) ->
  gr6_good h' /\ Rabs ((c' - gr6_water h') - (c - gr6_water h - gr6_exchanged h pr)) <= PRECISION.
Proof.
  intros (Hu & Hf & Hr) Hpr H. pose proof PRECISION_pos as HP.
  pose proof (uh_of_ok _ _ Hu) as (L1 & L2 & N1 & N2 & [S1p S1] & [S2p S2]).
  unfold gr6_step, gr6_rates in H. rewrite (gr6_refresh_same _ _ Hu) in H. cbv zeta in H.
  unfold gr6_exchanged. cbv zeta.
  set (o1 := peek (ord1 _) _ _) in *. set (o2 := peek (ord2 _) _ _) in *. set (F := gr6_exchange p (h_r h)) in *.
  set (rp := Rmax 0 (h_r h + 3 / 5 * o1 + F)) in *. set (qr := store_release (Y3 p) rp) in *.
  set (xp := h_rexp h + 2 / 5 * o1 + F) in *. set (qx := gr6j_exponential_outflow xp (Y6 p)) in *.
  set (qd := Rmax 0 (o2 + F)) in *.
  assert (HR0 : 0 <= rp) by apply Rmax_l. pose proof (store_release_ok (Y3 p) _ HR0) as HS. fold qr in HS.
  assert (HX : 0 <= qx) by apply exp_outflow_nonneg. assert (HD0 : 0 <= qd) by apply Rmax_l.
  rewrite (Rmax_right 0 (qr + qx + qd)) in H by lra.
  apply bind_ok in H. destruct H as (r & Hr1 & H). apply limit_none in Hr1; [|lra|auto]. rewrite Hr1 in H.
  destruct (Rltb_spec (qr + qx + qd) 0); [lra|].
  destruct (moved_close (qr + qx + qd) ltac:(lra)) as (Hmv & _).
  set (m := if GreaterThan _ _ _ then _ else _) in *.
  destruct (peek_advance (ord1 (h_uh h)) (st1 (h_uh h)) (9 / 10 * pr)) as (s1 & A1 & P1 & M1); [lia|lia|].
  destruct (peek_advance (ord2 (h_uh h)) (st2 (h_uh h)) (1 / 10 * pr)) as (s2 & A2 & P2 & M2); [lia|lia|].
  unfold gr6_finalize in H. cbn [h_uh h_r h_rexp] in H. rewrite A1, A2 in H. cbn [bind] in H. rewrite P1 in H.
  cbv zeta in H. fold o1 in H. fold F in H. fold rp in H. fold qr in H. fold xp in H. fold qx in H.
  assert (H' : (finalize_value true (c + pr - m), mkG6 (mkUH (ord1 (h_uh h)) (ord2 (h_uh h)) s1 s2) (rp - qr) (xp - qx), m) = (c', h', q)) by congruence.
  clear H. assert (Ec : c' = c + pr - m) by (inversion H'; reflexivity).
  assert (Eh : h' = mkG6 (mkUH (ord1 (h_uh h)) (ord2 (h_uh h)) s1 s2) (rp - qr) (xp - qx)) by congruence.
  clear H'. subst c' h'. split.
  - split; [|split].
    + destruct Hu as (U1 & U2 & U3 & U4). unfold uh_of; cbn [h_uh ord1 ord2 st1 st2]. rewrite M1, M2. auto.
    + destruct Hf as [F1 F2]. split; cbn [h_uh st1 st2].
      * eapply (advance_nonneg (ord1 (h_uh h)) (st1 (h_uh h)) (9 / 10 * pr)); try eassumption; try lia; lra.
      * eapply (advance_nonneg (ord2 (h_uh h)) (st2 (h_uh h)) (1 / 10 * pr)); try eassumption; try lia; lra.
    + cbn [h_r]. lra.
  - assert (E1 := advance_total _ _ _ _ (eq_sym L1) ltac:(lia) A1). assert (E2 := advance_total _ _ _ _ (eq_sym L2) ltac:(lia) A2).
    rewrite total_tl in E1, E2. rewrite P1, S1 in E1. rewrite P2, S2 in E2. fold o1 in E1. fold o2 in E2.
    unfold gr6_water, uh_water, in_transit in *; cbn [h_r h_rexp h_uh st1 st2].
    unfold xp. apply Rabs_le. lra.
Qed.

Lemma gr6_exchanged_zero h pr : gr6_good h -> 0 <= pr -> Y2 p = 0 -> gr6_exchanged h pr = 0.
Proof.
  intros (Hu & Hf & Hr) Hpr H2. unfold gr6_exchanged, gr6_exchange. rewrite H2. cbv zeta.
  pose proof (uh_of_ok _ _ Hu) as (L1 & L2 & N1 & N2 & [S1p S1] & [S2p S2]).
  assert (0 <= peek (ord1 (h_uh h)) (st1 (h_uh h)) (9 / 10 * pr)) by (apply peek_nonneg; [assumption|apply Hf|lra]).
  assert (0 <= peek (ord2 (h_uh h)) (st2 (h_uh h)) (1 / 10 * pr)) by (apply peek_nonneg; [assumption|apply Hf|lra]).
  assert (EF : (if Rltb 0 (Y3 p) then 0 * (h_r h / Y3 p - Y5 p) else 0) = 0) by (destruct (Rltb 0 (Y3 p)); lra).
  rewrite EF. rewrite !Rmax_right by lra. lra.
Qed.
Lemma gr6_run_mirror prs : Y2 p = 0 -> forall c h c' h', gr6_good h -> (forall x, In x prs -> 0 <= x) ->
  gr6_run 1 p c h prs = Ok (c', h') ->
  Rabs (c' - gr6_water h') <= Rabs (c - gr6_water h) + INR (length prs) * PRECISION.
Proof.
  intros H2. induction prs as [|x prs IH]; intros c h c' h' Hg Hx H.
  - simpl in H. injection H as <- <-. simpl. lra.
  - simpl in H. apply bind_ok in H. destruct H as (((c1 & g1) & q) & H1 & H).
    assert (Hx0 : 0 <= x) by (apply Hx; left; reflexivity).
    destruct (gr6_step_drift c h x c1 g1 q Hg Hx0 H1) as (Hg1 & Hd).
    rewrite (gr6_exchanged_zero h x Hg Hx0 H2) in Hd.
    specialize (IH c1 g1 c' h' Hg1 ltac:(intros y Hy; apply Hx; right; exact Hy) H).
    cbn [length]. rewrite S_INR.
    assert (Rabs (c1 - gr6_water g1) <= Rabs (c - gr6_water h) + PRECISION); [|lra].
    replace (c1 - gr6_water g1) with ((c1 - gr6_water g1 - (c - gr6_water h - 0)) + (c - gr6_water h)) by ring.
    eapply Rle_trans; [apply Rabs_triang|]. lra.
Qed.
End GR6.

(** ** fresh processes *)
Lemma resize_nil_in n x : In x (resize n []) -> x = 0.
Proof. rewrite resize_nil. apply repeat_spec. Qed.
Lemma total_zeros l : (forall x, In x l -> x = 0) -> total l = 0.
Proof. intros H. apply Rsum_zero. exact H. Qed.
Lemma in_transit_zeros l : (forall x, In x l -> x = 0) -> in_transit l = 0.
Proof. intros H. apply total_zeros. intros x Hx. apply H. destruct l; [destruct Hx|right; exact Hx]. Qed.
Lemma fresh_ok x4 : uh_of x4 (fresh x4) /\ uh_full (fresh x4) /\ uh_water (fresh x4) = 0.
Proof.
  split; [apply uh_of_recompute|]. split.
  - apply recompute_ok. split; cbn; tauto.
  - unfold uh_water, fresh, recompute; cbn [st1 st2]. rewrite !in_transit_zeros by apply resize_nil_in. lra.
Qed.
Lemma reset_ok x4 u : uh_of x4 (reset_uh x4 u) /\ uh_full (reset_uh x4 u) /\ uh_water (reset_uh x4 u) = 0.
Proof.
  assert (Z : forall (l : list R) x, In x (map (fun _ => 0) l) -> x = 0).
  { intros l x Hx. apply in_map_iff in Hx. destruct Hx as (? & <- & _). reflexivity. }
  split; [|split].
  - destruct (uh_of_recompute x4 u) as (A & B & C & D). unfold uh_of, reset_uh; cbn [ord1 ord2 st1 st2].
    rewrite !map_length. auto.
  - unfold uh_full, reset_uh; cbn [st1 st2]. split; intros x Hx; apply Z in Hx; lra.
  - unfold uh_water, reset_uh; cbn [st1 st2]. rewrite !in_transit_zeros by apply Z. lra.
Qed.

(** ** HBV *)
Lemma cw_range m t : 0 < m -> 0 <= cumulative_weight m t <= 1.
Proof.
  intros Hm. unfold cumulative_weight. destruct (Rleb_spec t 0); [lra|]. destruct (Rleb_spec m t); [lra|]. cbv zeta.
  assert (0 < t / m) by (apply Rdiv_lt_0_compat; lra). assert (t / m < 1) by (apply div_lt; lra).
  destruct (Rleb_spec (t / m) (1 / 2)); nra.
Qed.
Lemma cw_mono m : 0 < m -> forall s t, s <= t -> cumulative_weight m s <= cumulative_weight m t.
Proof.
  intros Hm s t Hst. pose proof (cw_range m s Hm) as Rs. pose proof (cw_range m t Hm) as Rt.
  unfold cumulative_weight in *. destruct (Rleb_spec s 0); [lra|]. destruct (Rleb_spec t 0); [lra|].
  destruct (Rleb_spec m t); [destruct (Rleb_spec m s); lra|]. destruct (Rleb_spec m s); [lra|]. cbv zeta in *.
  assert (0 < s / m) by (apply Rdiv_lt_0_compat; lra). assert (t / m < 1) by (apply div_lt; lra).
  assert (s / m <= t / m) by (apply div_le_mono; lra).
  set (x := s / m) in *. set (y := t / m) in *. clearbody x y.
  destruct (Rleb_spec x (1 / 2)); destruct (Rleb_spec y (1 / 2)); nra.
Qed.
Lemma hbv_base_ge1 m : 1 <= hbv_base m.
Proof. unfold hbv_base. destruct (Rltb_spec m 1); lra. Qed.
Lemma hbv_shares m h : shares_of_one (hb_ord (hbv_recompute m h)).
Proof.
  pose proof (hbv_base_ge1 m) as Hb. unfold hbv_recompute; cbn [hb_ord]. split.
  - apply ordinates_nonneg, cw_mono; lra.
  - rewrite ordinates_total. destruct (ceil_size_bounds (hbv_base m) ltac:(lra)) as [[A _] _].
    unfold cumulative_weight. destruct (Rleb_spec (INR (ceil_size (hbv_base m))) 0); [lra|].
    rewrite (proj2 (Rleb_true (hbv_base m) _) A). destruct (Rleb_spec 0 0); lra.
Qed.

Lemma hbv_recompute_ok m h : hbv_ok (hbv_recompute m h).
Proof.
  pose proof (hbv_base_ge1 m). unfold hbv_ok. split; [|split].
  - unfold hbv_recompute; cbn. rewrite resize_length, ordinates_length. reflexivity.
  - unfold hbv_recompute; cbn. rewrite ordinates_length. apply ceil_size_bounds. lra.
  - apply hbv_shares.
Qed.

Lemma schedule_ok ord st i d : length ord = length st -> (0 < length st)%nat ->
  exists st', hbv_schedule ord st i d = Ok st' /\ length st' = length st /\
  (forall j, nth j st' 0 = nth (S j) st 0 + nth (S j) ord 0 * i +
      (if Nat.eqb j 0 then nth 0 st 0 + nth 0 ord 0 * i - d else 0)) /\
  total st' = total st + total ord * i - d.
Proof.
  intros He Hn. unfold hbv_schedule.
  rewrite (proj2 (Nat.eqb_neq _ _)) by lia. rewrite (proj2 (Nat.eqb_eq _ _) He). cbn [orb negb]. cbv zeta.
  set (carry := nth 0 st 0 + nth 0 ord 0 * i - d).
  set (base := map _ _ ++ [0]).
  assert (Hbl : length base = length st).
  { unfold base. rewrite app_length, map_length, seq_length. simpl. lia. }
  assert (Hbn : forall j, nth j base 0 = nth (S j) st 0 + nth (S j) ord 0 * i).
  { intros j. unfold base. destruct (Nat.lt_ge_cases j (length st - 1)) as [Hj|Hj].
    - rewrite app_nth1 by (rewrite map_length, seq_length; exact Hj).
      rewrite (nth_indep _ 0 (nth 1 st 0 + nth 1 ord 0 * i)) by (rewrite map_length, seq_length; exact Hj).
      rewrite (map_nth (fun j => nth (S j) st 0 + nth (S j) ord 0 * i) (seq 0 (length st - 1)) 0%nat), seq_nth by exact Hj. reflexivity.
    - rewrite app_nth2 by (rewrite map_length, seq_length; exact Hj). rewrite map_length, seq_length.
      rewrite (nth_overflow st) by lia. rewrite (nth_overflow ord) by lia.
      destruct (j - (length st - 1))%nat as [|[|k]]; simpl; lra. }
  destruct base as [|b0 base'] eqn:Eb; [simpl in Hbl; lia|]. cbn [add_head].
  eexists; split; [reflexivity|]. split; [exact Hbl|]. split.
  - intros [|j]; [specialize (Hbn 0%nat)|specialize (Hbn (S j))]; cbn [nth] in *; rewrite Hbn; cbn [Nat.eqb]; lra.
  - assert (Et : total (b0 :: base') = total st - nth 0 st 0 + (total ord - nth 0 ord 0) * i).
    { rewrite total_nth. rewrite (Rsum_ext_in _ (fun j => nth (S j) st 0 + nth (S j) ord 0 * i)) by (intros; apply Hbn).
      rewrite Rsum_plus, Rsum_scal_r, Hbl.
      assert (T : forall l : list R, (0 < length l)%nat -> Rsum (fun j => nth (S j) l 0) (seq 0 (length l)) = total l - nth 0 l 0).
      { intros l Hl. destruct l as [|a l]; [simpl in Hl; lia|]. simpl length. rewrite seq_S, Rsum_app. simpl.
        rewrite (nth_overflow l) by lia. rewrite (total_nth (a :: l)). simpl. rewrite <- seq_shift, Rsum_map.
        simpl. lra. }
      rewrite (T st Hn). rewrite <- He. rewrite (T ord) by lia. reflexivity. }
    unfold total in *. cbn [Rsum] in *. unfold carry. lra.
Qed.

Lemma hbv_finalize_ok h content delivered : hbv_ok h ->
  exists h', hbv_finalize content delivered h = Ok h' /\ hbv_ok h' /\ hb_ord h' = hb_ord h /\ hb_prev h' = content /\
  hb_last h' = hb_last h /\
  (forall j, nth j (hb_st h') 0 = nth (S j) (hb_st h) 0 + nth (S j) (hb_ord h) 0 * (content - hb_prev h + delivered) +
      (if Nat.eqb j 0 then nth 0 (hb_st h) 0 + nth 0 (hb_ord h) 0 * (content - hb_prev h + delivered) - delivered else 0)) /\
  total (hb_st h') - content = total (hb_st h) - hb_prev h.
Proof.
  intros (L & N & S). unfold hbv_finalize.
  destruct (schedule_ok (hb_ord h) (hb_st h) (content - hb_prev h + delivered) delivered) as (st' & E & L' & J & T); [lia|lia|].
  rewrite E. cbn [bind]. eexists; split; [reflexivity|]. cbn [hb_ord hb_prev hb_st hb_last].
  split; [unfold hbv_ok; cbn; rewrite L'; auto|]. split; [reflexivity|]. split; [reflexivity|]. split; [reflexivity|].
  split; [exact J|]. rewrite T. destruct S as [_ ->]. lra.
Qed.

Lemma hbv_history_ok l : forall h, hbv_ok h -> exists h', hbv_history h l = Ok h' /\ hbv_ok h' /\
  hb_ord h' = hb_ord h /\ total (hb_st h') - hb_prev h' = total (hb_st h) - hb_prev h /\
  hb_prev h' = last (map fst l) (hb_prev h).
Proof.
  induction l as [|[c d] l IH]; intros h Hh; [exists h; simpl; auto|].
  destruct (hbv_finalize_ok h c d Hh) as (h1 & E & Hok & Ho & Hp & _ & _ & T).
  destruct (IH h1 Hok) as (h2 & E2 & Hok2 & Ho2 & T2 & P2).
  exists h2. simpl hbv_history. rewrite E. cbn [bind]. split; [exact E2|]. split; [exact Hok2|].
  split; [congruence|]. split; [rewrite T2, Hp; exact T|].
  rewrite P2, Hp. cbn [map fst]. destruct (map fst l) as [|a r]; [reflexivity|].
  change (last (c :: a :: r) (hb_prev h)) with (last (a :: r) (hb_prev h)).
  clear. revert a; induction r as [|b r IHr]; intros a; [reflexivity|]. simpl in *. apply IHr.
Qed.

(** Dry steps (nothing enters, the flux reports what left), whatever left: the schedule moves forward. *)
Lemma hbv_dry_slots n : forall l h h', length l = n -> hbv_ok h ->
  (forall k, (k < length l)%nat -> fst (nth k l (0, 0)) + snd (nth k l (0, 0)) =
      match k with O => hb_prev h | S k' => fst (nth k' l (0, 0)) end) ->
  hbv_history h l = Ok h' -> forall j, (0 < j)%nat -> nth j (hb_st h') 0 = nth (j + n) (hb_st h) 0.
Proof.
  induction n as [|n IH]; intros l h h' Hl Hh Hd H j Hj.
  - destruct l; [|discriminate]. simpl in H. injection H as <-. rewrite Nat.add_0_r. reflexivity.
  - destruct l as [|[c d] l]; [discriminate|]. simpl in H.
    destruct (hbv_finalize_ok h c d Hh) as (h1 & E & Hok & Ho & Hp & _ & J & T). rewrite E in H. cbn [bind] in H.
    rewrite (IH l h1 h'); [|simpl in Hl; lia|exact Hok| |exact H|exact Hj].
    + rewrite J. rewrite (proj2 (Nat.eqb_neq (j + n) 0)) by lia.
      assert (D0 := Hd 0%nat ltac:(simpl; lia)). cbn in D0.
      replace (c - hb_prev h + d) with 0 by lra. replace (S (j + n)) with (j + S n)%nat by lia. lra.
    + intros k Hk. specialize (Hd (S k) ltac:(simpl; lia)). cbn [nth fst snd] in Hd. rewrite Hd.
      destruct k; [rewrite Hp; reflexivity|reflexivity].
Qed.

(** One exact step: the inflow [i] enters, what is due leaves, the flux reports it. *)
Lemma hbv_exact_step h c i : hbv_ok h -> (forall j, 0 <= nth j (hb_st h) 0) -> hb_prev h = c -> 0 <= i ->
  exists h', hbv_finalize (c + i - hbv_rate h i) (hbv_rate h i) h = Ok h' /\ hbv_ok h' /\ hb_ord h' = hb_ord h /\
  hb_prev h' = c + i - hbv_rate h i /\
  (forall j, 0 <= nth j (hb_st h') 0) /\
  (forall j, nth j (hb_st h') 0 = nth (S j) (hb_st h) 0 + nth (S j) (hb_ord h) 0 * i).
Proof.
  intros Hh Hn Hp Hi. destruct (hbv_finalize_ok h (c + i - hbv_rate h i) (hbv_rate h i) Hh) as (h' & E & Hok & Ho & Hpv & _ & J & T).
  exists h'. split; [exact E|]. split; [exact Hok|]. split; [exact Ho|]. split; [exact Hpv|].
  assert (JJ : forall j, nth j (hb_st h') 0 = nth (S j) (hb_st h) 0 + nth (S j) (hb_ord h) 0 * i).
  { intros j. rewrite J, Hp. replace (c + i - hbv_rate h i - c + hbv_rate h i) with i by ring.
    destruct (Nat.eqb_spec j 0); [|lra]. unfold hbv_rate. rewrite Rmax_right by apply Hn. subst j. lra. }
  split; [|exact JJ]. intros j. rewrite JJ. specialize (Hn (S j)).
  destruct Hh as (_ & _ & [Hs _]). assert (0 <= nth (S j) (hb_ord h) 0) by (apply nth_nonneg; exact Hs). nra.
Qed.
Fixpoint hbv_exact (h : hbv) (c : R) (is_ : list R) : outcome (hbv * R * list R) :=
  match is_ with
  | [] => Ok (h, c, [])
  | i :: l =>
      let d := hbv_rate h i in
      bind (hbv_finalize (c + i - d) d h) (fun h' =>
      bind (hbv_exact h' (c + i - d) l) (fun '(h2, c2, ds) => Ok (h2, c2, d :: ds)))
  end.
Lemma hbv_exact_routing l : forall h c, hbv_routing 1 h c l = hbv_exact h c l.
Proof.
  induction l as [|i l IH]; intros h c; [reflexivity|]. simpl. unfold outlet_amount.
  rewrite (proj2 (Rltb_false 1 1)) by lra. destruct (hbv_finalize _ _ h); simpl; [rewrite IH|..]; reflexivity.
Qed.
Lemma hbv_exact_app l1 : forall l2 h c, hbv_exact h c (l1 ++ l2) =
  bind (hbv_exact h c l1) (fun '(h1, c1, d1) => bind (hbv_exact h1 c1 l2) (fun '(h2, c2, d2) => Ok (h2, c2, d1 ++ d2))).
Proof.
  induction l1 as [|i l1 IH]; intros l2 h c.
  - simpl. destruct (hbv_exact h c l2) as [[[h2 c2] d2]| |]; reflexivity.
  - simpl. destruct (hbv_finalize _ _ h) as [h'| |]; simpl; [|reflexivity|reflexivity]. rewrite IH.
    destruct (hbv_exact h' _ l1) as [[[h1 c1] d1]| |]; simpl; [|reflexivity|reflexivity].
    destruct (hbv_exact h1 c1 l2) as [[[h2 c2] d2]| |]; reflexivity.
Qed.
(** From an empty schedule, deliveries are the convolution of the inflows with the weights. *)
Lemma hbv_exact_ok xs : forall h c, hbv_ok h -> (forall j, nth j (hb_st h) 0 = 0) -> hb_prev h = c ->
  (forall x, In x xs -> 0 <= x) ->
  exists h' c' ds, hbv_exact h c xs = Ok (h', c', ds) /\ hbv_ok h' /\ hb_ord h' = hb_ord h /\ hb_prev h' = c' /\
  length ds = length xs /\ (forall j, 0 <= nth j (hb_st h') 0) /\
  (forall j, nth j (hb_st h') 0 = Rsum (fun i => nth (j + S i) (hb_ord h) 0 * nth (length xs - 1 - i) xs 0) (seq 0 (length xs))) /\
  (forall k, (k < length xs)%nat -> nth k ds 0 = convolution (hb_ord h) xs k) /\
  c + total xs = c' + total ds.
Proof.
  induction xs as [|x xs IH] using rev_ind; intros h c Hh Hz Hp Hx.
  - exists h, c, []. simpl. repeat (split; [auto; try reflexivity|]).
    + intros j; rewrite Hz; lra.
    + intros; lia.
    + unfold total; simpl; lra.
  - destruct (IH h c Hh Hz Hp) as (h1 & c1 & d1 & E & Hok & Ho & Hpv & Hl & Hnn & Hst & Hd & Hb).
    { intros y Hy. apply Hx, in_or_app; auto. }
    assert (Hx0 : 0 <= x) by (apply Hx, in_or_app; right; left; reflexivity).
    destruct (hbv_exact_step h1 c1 x Hok Hnn Hpv Hx0) as (h2 & E2 & Hok2 & Ho2 & Hp2 & Hnn2 & J2).
    exists h2, (c1 + x - hbv_rate h1 x), (d1 ++ [hbv_rate h1 x]).
    split. { rewrite hbv_exact_app, E. cbn [bind hbv_exact]. rewrite E2. reflexivity. }
    split; [exact Hok2|]. split; [congruence|]. split; [exact Hp2|].
    split; [rewrite !app_length; simpl; lia|]. split; [exact Hnn2|]. split; [|split].
    + intros j. rewrite J2, Hst, Ho. rewrite app_length. simpl length. rewrite Nat.add_1_r.
      change (seq 0 (S (length xs))) with (0%nat :: seq 1 (length xs)). rewrite <- seq_shift.
      cbn [Rsum]. rewrite Rsum_map.
      assert (E0 : nth (S (length xs) - 1 - 0) (xs ++ [x]) 0 = x).
      { rewrite app_nth2 by lia. replace (S (length xs) - 1 - 0 - length xs)%nat with 0%nat by lia. reflexivity. }
      rewrite E0. rewrite Nat.add_1_r.
      rewrite (Rsum_ext_in (fun i => nth (S j + S i) (hb_ord h) 0 * nth (length xs - 1 - i) xs 0)
                (fun i => nth (j + S (S i)) (hb_ord h) 0 * nth (S (length xs) - 1 - S i) (xs ++ [x]) 0)); [lra|].
      intros i Hi. apply in_seq in Hi. rewrite app_nth1 by lia. f_equal; f_equal; lia.
    + intros k Hk. rewrite app_length in Hk. simpl in Hk.
      destruct (Nat.eq_dec k (length xs)) as [->|Hne].
      * rewrite app_nth2 by lia. rewrite Hl, Nat.sub_diag. cbn [nth].
        unfold hbv_rate. rewrite Rmax_right by apply Hnn. rewrite Hst, Ho. unfold convolution.
        cbn [seq Rsum]. rewrite <- seq_shift, Rsum_map. rewrite Nat.sub_0_r, app_nth2, Nat.sub_diag by lia. cbn [nth].
        rewrite (Rsum_ext_in (fun i => nth (0 + S i) (hb_ord h) 0 * nth (length xs - 1 - i) xs 0)
           (fun i => nth (S i) (hb_ord h) 0 * nth (length xs - S i) (xs ++ [x]) 0)); [lra|].
        intros i Hi. apply in_seq in Hi. rewrite app_nth1 by lia. f_equal; f_equal; lia.
      * rewrite app_nth1 by lia. rewrite Hd by lia. unfold convolution. apply Rsum_ext_in.
        intros i Hi. apply in_seq in Hi. rewrite app_nth1 by lia. reflexivity.
    + unfold total in *. rewrite !Rsum_app. simpl. lra.
Qed.
