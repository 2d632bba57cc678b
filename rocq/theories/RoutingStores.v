(** Lemmas about the GR4J and GR6J routing bricks. *)
From Verif Require Import Base BaseFacts Container ContainerFacts Processes ProcessFacts Routing RoutingSpec RoutingFacts.

(** Hydrographs in working order. *)
Definition uh_ok (u : uhs) : Prop :=
  length (st1 u) = length (ord1 u) /\ length (st2 u) = length (ord2 u) /\
  (0 < length (ord1 u))%nat /\ (0 < length (ord2 u))%nat /\
  shares_of_one (ord1 u) /\ shares_of_one (ord2 u).
Definition uh_full (u : uhs) : Prop := (forall x, In x (st1 u) -> 0 <= x) /\ (forall x, In x (st2 u) -> 0 <= x).


Lemma resize_nonneg n l : (forall x, In x l -> 0 <= x) -> forall x, In x (resize n l) -> 0 <= x.
Proof.
  intros H x Hx. unfold resize in Hx. apply in_app_iff in Hx. destruct Hx as [Hx|Hx].
  - apply H. rewrite <- (firstn_skipn n l). apply in_or_app; auto.
  - apply repeat_spec in Hx. lra.
Qed.

Lemma recompute_ok x4 u : uh_ok (recompute x4 u) /\ (uh_full u -> uh_full (recompute x4 u)).
Proof.
  pose proof (base_time_pos x4) as Hb. split.
  - destruct (uh_shares x4 u) as [A B]. unfold uh_ok. repeat split; try apply A; try apply B;
      unfold recompute; cbn [ord1 ord2 st1 st2]; rewrite ?resize_length, ?ordinates_length; try reflexivity;
      apply ceil_size_bounds; lra.
  - intros [A B]. unfold uh_full, recompute; cbn [st1 st2]. split; apply resize_nonneg; assumption.
Qed.
Lemma gr4_refresh_ok x4 u : uh_ok u -> uh_ok (gr4_refresh x4 u) /\ (uh_full u -> uh_full (gr4_refresh x4 u)).
Proof.
  intros H. unfold gr4_refresh. destruct (Z.eqb _ _); [auto|]. apply recompute_ok.
Qed.
(** With an unchanged base time, recomputing changes nothing. *)
Lemma resize_same n l : length l = n -> resize n l = l.
Proof. intros <-. unfold resize. rewrite firstn_all, Nat.sub_diag. simpl. apply app_nil_r. Qed.
Lemma recompute_same x4 u : uh_of x4 u -> recompute x4 u = u.
Proof.
  intros (A & B & C & D). unfold recompute. destruct u as [o1 o2 s1 s2]; cbn in *. subst o1 o2.
  rewrite !ordinates_length in *. rewrite !resize_same by assumption. reflexivity.
Qed.
Lemma uh_of_recompute x4 u : uh_of x4 (recompute x4 u).
Proof. unfold uh_of, recompute; cbn. rewrite !resize_length, !ordinates_length. auto. Qed.
Lemma gr4_refresh_same x4 u : uh_of x4 u -> gr4_refresh x4 u = u.
Proof. intros H. unfold gr4_refresh. destruct (Z.eqb _ _); [reflexivity|apply recompute_same, H]. Qed.
Lemma gr6_refresh_same x4 u : uh_of x4 u -> gr6_refresh x4 u = u.
Proof. intros H. unfold gr6_refresh. destruct (Z.eqb _ _); [reflexivity|apply recompute_same, H]. Qed.
Lemma uh_of_ok x4 u : uh_of x4 u -> uh_ok u.
Proof. intros H. rewrite <- (recompute_same x4 u H). apply recompute_ok. Qed.

Lemma peek_advance ord st x : length ord = length st -> (0 < length st)%nat ->
  exists st', advance ord st x = Ok st' /\ nth 0 st' 0 = peek ord st x /\ length st' = length st.
Proof.
  intros He Hn. destruct (advance_ok ord st x He Hn) as (s & Hs & Hl & Hj). exists s. rewrite Hj. auto.
Qed.

(** ** stores *)
Lemma Rpower_neg_unit x e : 1 <= x -> 0 <= e -> 0 < Rpower x (- e) <= 1.
Proof.
  intros Hx He. rewrite Rpower_Ropp. assert (1 <= Rpower x e).
  { rewrite <- (Rpower_O x) by lra. apply Rle_Rpower; lra. }
  split; [apply Rinv_0_lt_compat; lra|]. rewrite <- Rinv_1. apply Rinv_le_contravar; lra.
Qed.
Lemma fourth_nonneg x : 0 <= x * x * x * x.
Proof. replace (x * x * x * x) with ((x * x) * (x * x)) by ring. apply Rle_0_sqr || nra. Qed.
Lemma store_release_ok x3 r : 0 <= r -> 0 <= store_release x3 r <= r.
Proof.
  intros Hr. unfold store_release.
  set (rr4 := if Rltb 0 x3 then _ else _).
  assert (0 <= rr4) by (unfold rr4; destruct (Rltb 0 x3); [apply fourth_nonneg|lra]).
  destruct (Rpower_neg_unit (1 + rr4) (1 / 4)); [lra|lra|]. nra.
Qed.
Lemma store_keeps_below x3 r : 0 < x3 -> 0 < r -> r - store_release x3 r <= x3.
Proof.
  intros H3 Hr. unfold store_release. rewrite (proj2 (Rltb_true 0 x3) H3).
  set (x := r / x3). assert (Hx : 0 < x) by (apply Rdiv_lt_0_compat; lra).
  assert (Er : r = x * x3) by (unfold x; field; lra). clearbody x.
  assert (Hp : 0 < x * x * x * x) by (repeat apply Rmult_lt_0_compat; assumption).
  assert (E4 : Rpower (x * x * x * x) (1 / 4) = x).
  { replace (x * x * x * x) with (x ^ 4) by ring. rewrite <- Rpower_pow by assumption.
    rewrite Rpower_mult. replace (INR 4 * (1 / 4)) with 1 by (simpl; lra). apply Rpower_1; assumption. }
  assert (Hle : x <= Rpower (1 + x * x * x * x) (1 / 4)).
  { rewrite <- E4 at 1. apply Rle_Rpower_l; lra. }
  rewrite Rpower_Ropp. set (P := Rpower (1 + x * x * x * x) (1 / 4)) in *.
  replace (r - r * (1 - / P)) with (x3 * (x / P)); [|rewrite Er; field; lra].
  assert (x / P <= 1) by (apply div_le; lra). nra.
Qed.

(** ** the limiter on a single outflow, daily step *)
Lemma limit_one c rate r : 0 <= rate -> PRECISION < c ->
  apply_constraints 1 c 0 None None false [0%nat] [] (fun _ => rate) = Ok r -> r 0%nat = Rmin rate c.
Proof.
  intros Hr Hc. pose proof PRECISION_pos. pose proof EPSILON_D_lt. pose proof EPSILON_D_pos. unfold apply_constraints, outgoing_too_high.
  cbn [existsb]. destruct (Rltb 10000 rate || false); [discriminate|].
  set (rr := clamp_rates _ _). assert (Hrr : rr 0%nat = rate).
  { unfold rr. rewrite (clamp_out _ []) by (simpl; tauto). apply clamp_nonneg. exact Hr. }
  cbn [Rsum]. rewrite Hrr. cbn [negb andb].
  destruct (Rltb_spec (0 - (rate + 0)) 0); cbn [andb].
  2:{ intros E; injection E as <-. rewrite Hrr. rewrite Rmin_left; lra. }
  destruct (Rltb_spec (c + 0 + (0 - (rate + 0)) * 1) 0); intros E; injection E as <-.
  2:{ rewrite Hrr, Rmin_left; lra. }
  unfold limit_outgoing. cbn [mem existsb Nat.eqb orb]. rewrite Hrr.
  unfold NearlyZero. rewrite (proj2 (Rleb_false (Rabs rate) EPSILON_D)).
  2:{ rewrite Rabs_right; lra. }
  unfold NearlyEqual. rewrite (proj2 (Rleb_false _ PRECISION)).
  2:{ rewrite Rabs_right; lra. }
  rewrite Rmin_right by lra. replace (rate / (rate + 0)) with 1 by (field; lra). rewrite Rabs_R1. lra.
Qed.
Lemma limit_none an c rate r : 0 <= rate -> an = true \/ rate = 0 ->
  apply_constraints 1 c 0 None None an [0%nat] [] (fun _ => rate) = Ok r -> r 0%nat = rate.
Proof.
  intros Hr Han. unfold apply_constraints, outgoing_too_high. cbn [existsb].
  destruct (Rltb 10000 rate || false); [discriminate|].
  set (rr := clamp_rates _ _). assert (Hrr : rr 0%nat = rate).
  { unfold rr. rewrite (clamp_out _ []) by (simpl; tauto). apply clamp_nonneg. exact Hr. }
  cbn [Rsum]. rewrite Hrr. destruct an; cbn [negb andb]; [intros E; injection E as <-; exact Hrr|].
  destruct Han as [Han| ->]; [discriminate|].
  destruct (Rltb_spec (0 - (0 + 0)) 0); [lra|]. cbn [andb]. intros E; injection E as <-. exact Hrr.
Qed.

Lemma moved_close q : 0 <= q -> let m := if GreaterThan q 0 PRECISION then q * 1 else 0 in q - PRECISION <= m <= q /\ 0 <= m.
Proof.
  intros Hq. pose proof PRECISION_pos. cbv zeta. unfold GreaterThan. destruct (Rltb_spec (0 + PRECISION) q); lra.
Qed.
Lemma finalize_close x y : 0 <= y -> Rabs (finalize_value false x - y) <= Rabs (x - y) + PRECISION /\
  0 <= finalize_value false x.
Proof.
  intros Hy. pose proof PRECISION_pos. unfold finalize_value, NearlyZero, LessThan.
  destruct (Rleb_spec (Rabs x) PRECISION).
  - split; [|lra]. unfold Rabs in *. repeat destruct Rcase_abs; lra.
  - destruct (Rltb_spec x (0 - PRECISION)).
    + split; [|lra]. unfold Rabs in *. repeat destruct Rcase_abs; lra.
    + split; [lra|]. unfold Rabs in *. repeat destruct Rcase_abs; lra.
Qed.

Section GR4.
Variables (p : gr4_par).


Lemma gr4_finalize_ok g pr : uh_ok (g_uh g) ->
  exists g', gr4_finalize p g pr = Ok g' /\ ord1 (g_uh g') = ord1 (g_uh g) /\ ord2 (g_uh g') = ord2 (g_uh g) /\
    length (st1 (g_uh g')) = length (st1 (g_uh g)) /\ length (st2 (g_uh g')) = length (st2 (g_uh g)) /\
    let o1 := peek (ord1 (g_uh g)) (st1 (g_uh g)) (9 / 10 * pr) in
    let o2 := peek (ord2 (g_uh g)) (st2 (g_uh g)) (1 / 10 * pr) in
    let rp := Rmax 0 (g_r g + o1 + gr4_exchange p (g_r g)) in
    g_r g' = rp - store_release (X3 p) rp /\
    uh_water (g_uh g') = uh_water (g_uh g) + pr - o1 - o2 /\
    (uh_full (g_uh g) -> 0 <= pr -> uh_full (g_uh g')).
Proof.
  intros (L1 & L2 & N1 & N2 & [S1p S1] & [S2p S2]).
  destruct (peek_advance (ord1 (g_uh g)) (st1 (g_uh g)) (9 / 10 * pr)) as (s1 & A1 & P1 & M1); [lia|lia|].
  destruct (peek_advance (ord2 (g_uh g)) (st2 (g_uh g)) (1 / 10 * pr)) as (s2 & A2 & P2 & M2); [lia|lia|].
  unfold gr4_finalize. rewrite A1, A2. cbn [bind]. eexists; split; [reflexivity|].
  cbn [g_uh g_r ord1 ord2 st1 st2]. rewrite P1. cbv zeta.
  split; [reflexivity|]. split; [reflexivity|]. split; [exact M1|]. split; [exact M2|]. split; [reflexivity|]. split.
  - assert (E1 := advance_total _ _ _ _ (eq_sym L1) ltac:(lia) A1). assert (E2 := advance_total _ _ _ _ (eq_sym L2) ltac:(lia) A2).
    rewrite total_tl in E1, E2. rewrite P1, S1 in E1. rewrite P2, S2 in E2.
    unfold uh_water, in_transit in *; cbn [st1 st2]. lra.
  - intros [F1 F2] Hpr. split; cbn [st1 st2].
    + eapply (advance_nonneg (ord1 (g_uh g)) (st1 (g_uh g)) (9 / 10 * pr)); try eassumption; try lia; lra.
    + eapply (advance_nonneg (ord2 (g_uh g)) (st2 (g_uh g)) (1 / 10 * pr)); try eassumption; try lia; lra.
Qed.

Lemma peek_nonneg ord st x : (forall y, In y ord -> 0 <= y) -> (forall y, In y st -> 0 <= y) -> 0 <= x -> 0 <= peek ord st x.
Proof.
  intros A B Hx. unfold peek. assert (0 <= nth 1 st 0) by (apply nth_nonneg; exact B).
  assert (0 <= nth 0 ord 0) by (apply nth_nonneg; exact A). nra.
Qed.
Lemma exchange_sign r : 0 <= r -> X2 p <= 0 -> gr4_exchange p r <= 0.
Proof.
  intros Hr H2. unfold gr4_exchange. destruct (Rltb_spec 0 (X3 p)); [|lra]. cbv zeta.
  assert (0 <= r / X3 p) by (apply Rle_mult_inv_pos; lra). pose proof (sqrt_pos (r / X3 p)).
  set (s := sqrt (r / X3 p)) in *. set (x := r / X3 p) in *. clearbody s x.
  replace (X2 p * x * x * x * s) with (- ((- X2 p) * (x * x * x * s))) by ring.
  assert (0 <= (- X2 p) * (x * x * x * s)); [|lra].
  apply Rmult_le_pos; [lra|]. repeat apply Rmult_le_pos; assumption.
Qed.

(** Invariant of a GR4J routing brick with a fixed base time. *)
Definition gr4_good (g : gr4) : Prop := uh_of (X4 p) (g_uh g) /\ uh_full (g_uh g) /\ 0 <= g_r g.

Lemma uh_water_nonneg u : uh_full u -> 0 <= uh_water u.
Proof.
  intros [A B]. unfold uh_water, in_transit.
  assert (forall l, (forall x : R, In x l -> 0 <= x) -> 0 <= total (tl l)).
  { intros l H. apply total_nonneg. intros x Hx. apply H. destruct l; [destruct Hx|right; exact Hx]. }
  assert (0 <= total (tl (st1 u))) by auto. assert (0 <= total (tl (st2 u))) by auto. lra.
Qed.

Lemma gr4_step_mirror c g pr c' g' q : gr4_good g -> 0 <= c -> 0 <= pr -> X2 p <= 0 ->
  gr4_step 1 p c g pr = Ok (c', g', q) ->
  gr4_good g' /\ 0 <= c' /\ Rabs (c' - gr4_water g') <= Rabs (c - gr4_water g) + 2 * PRECISION.
Proof.
  intros (Hu & Hf & Hr) Hc Hpr H2 H. pose proof PRECISION_pos as HP.
  pose proof (uh_of_ok _ _ Hu) as Hok. unfold gr4_step in H.
  assert (Hrates : forall uu, gr4_finalize p (mkG4 (g_uh g) (g_r g)) pr = Ok uu -> gr4_good uu /\
    let o1 := peek (ord1 (g_uh g)) (st1 (g_uh g)) (9 / 10 * pr) in
    let o2 := peek (ord2 (g_uh g)) (st2 (g_uh g)) (1 / 10 * pr) in
    let rp := Rmax 0 (g_r g + o1 + gr4_exchange p (g_r g)) in
    gr4_water uu = g_r g + uh_water (g_uh g) + pr - o1 - o2 - g_r g + rp - store_release (X3 p) rp).
  { intros uu E. destruct (gr4_finalize_ok (mkG4 (g_uh g) (g_r g)) pr Hok) as (g1 & E1 & O1 & O2 & M1 & M2 & Rr & W & F).
    rewrite E1 in E. injection E as <-. cbn [g_uh g_r] in *. split.
    - split; [|split].
      + destruct Hu as (U1 & U2 & U3 & U4). unfold uh_of. rewrite O1, O2, M1, M2. auto.
      + apply F; assumption.
      + rewrite Rr. set (rp := Rmax 0 _). assert (0 <= rp) by apply Rmax_l. pose proof (store_release_ok (X3 p) rp ltac:(assumption)). lra.
    - cbv zeta. unfold gr4_water. rewrite Rr, W. lra. }
  assert (Hpe1 : 0 <= peek (ord1 (g_uh g)) (st1 (g_uh g)) (9 / 10 * pr)).
  { apply peek_nonneg; [apply Hok|apply Hf|lra]. }
  assert (Hpe2 : 0 <= peek (ord2 (g_uh g)) (st2 (g_uh g)) (1 / 10 * pr)).
  { apply peek_nonneg; [apply Hok|apply Hf|lra]. }
  assert (HF := exchange_sign (g_r g) Hr H2).
  assert (Hw : 0 <= gr4_water g) by (unfold gr4_water; pose proof (uh_water_nonneg _ Hf); lra).
  destruct (LessThanOrEqual (c + pr) 0 PRECISION) eqn:Hle.
  - unfold LessThanOrEqual in Hle. apply Rleb_true in Hle.
    apply bind_ok in H. destruct H as (r & Hr1 & H). apply limit_none in Hr1; [|lra|auto]. rewrite Hr1 in H.
    apply bind_ok in H. destruct H as (uu & Hfin & H).
    destruct (Hrates uu Hfin) as (Hg & Hwat). injection H as <- <- <-.
    destruct (Rltb_spec 0 0); [lra|]. unfold GreaterThan. destruct (Rltb_spec (0 + PRECISION) 0); [lra|].
    split; [exact Hg|].
    cbv zeta in Hwat. set (o1 := peek _ _ _) in *. set (o2 := peek (ord2 _) _ _) in *. set (F := gr4_exchange p (g_r g)) in *.
    assert (HR0 : 0 <= Rmax 0 (g_r g + o1 + F)) by apply Rmax_l.
    assert (HR1 : Rmax 0 (g_r g + o1 + F) <= g_r g + o1) by (apply Rmax_lub; lra).
    pose proof (store_release_ok (X3 p) _ HR0) as HS.
    assert (Hw' : 0 <= gr4_water uu). { destruct Hg as (_ & Hf' & Hr'). unfold gr4_water. pose proof (uh_water_nonneg _ Hf'). lra. }
    assert (Hup : gr4_water uu <= gr4_water g + pr).
    { unfold gr4_water at 2. lra. }
    destruct (finalize_close (c + pr + (- 0 + 0 * 1)) (gr4_water uu) Hw') as (Hfc & Hnn).
    split; [exact Hnn|].
    assert (Hfv : finalize_value false (c + pr + (- 0 + 0 * 1)) = 0).
    { unfold finalize_value, NearlyZero. rewrite (proj2 (Rleb_true _ PRECISION)); [reflexivity|]. rewrite Rabs_right; lra. }
    change (Rabs (finalize_value false (c + pr + (- 0 + 0 * 1)) - gr4_water uu) <= Rabs (c - gr4_water g) + 2 * PRECISION).
    rewrite Hfv in *. unfold Rabs. repeat destruct Rcase_abs; lra.
  - unfold LessThanOrEqual in Hle. apply Rleb_false in Hle.
    unfold gr4_rates in H. rewrite (gr4_refresh_same _ _ Hu) in H. cbv zeta in H.
    set (o1 := peek (ord1 _) _ _) in *. set (o2 := peek (ord2 _) _ _) in *. set (F := gr4_exchange p (g_r g)) in *.
    set (rp := Rmax 0 (g_r g + o1 + F)) in *. set (qr := store_release (X3 p) rp) in *. set (qd := Rmax 0 (o2 + F)) in *.
    assert (HR0 : 0 <= rp) by apply Rmax_l. assert (HR1 : rp <= g_r g + o1) by (apply Rmax_lub; lra).
    pose proof (store_release_ok (X3 p) _ HR0) as HS. fold qr in HS.
    assert (HD0 : 0 <= qd) by apply Rmax_l. assert (HD1 : qd <= o2) by (apply Rmax_lub; lra).
    apply bind_ok in H. destruct H as (r & Hr1 & H). apply limit_one in Hr1; [|lra|lra]. rewrite Hr1 in H.
    apply bind_ok in H. destruct H as (uu & Hfin & H).
    destruct (Hrates uu Hfin) as (Hg & Hwat). cbv zeta in Hwat. fold o1 o2 F rp qr in Hwat.
    assert (Hw' : 0 <= gr4_water uu). { destruct Hg as (_ & Hf' & Hr'). unfold gr4_water. pose proof (uh_water_nonneg _ Hf'). lra. }
    assert (Hm0 : 0 <= Rmin (qr + qd) (c + pr)) by (apply Rmin_glb; lra).
    destruct (Rltb_spec (Rmin (qr + qd) (c + pr)) 0); [lra|].
    destruct (moved_close _ Hm0) as (Hmv & Hmv0). injection H as <- <- <-.
    set (m := if GreaterThan _ _ _ then _ else _) in *.
    split; [exact Hg|].
    destruct (finalize_close (c + pr + (- m + (rp - (g_r g + o1) + (qd - o2)) * 1)) (gr4_water uu) Hw') as (Hfc & Hnn).
    split; [exact Hnn|].
    assert (Hwg : gr4_water g = g_r g + uh_water (g_uh g)) by reflexivity.
    destruct (Rle_dec (qr + qd) (c + pr)) as [Hcap|Hcap].
    + rewrite Rmin_left in Hmv by exact Hcap.
      eapply Rle_trans; [exact Hfc|]. unfold Rabs. repeat destruct Rcase_abs; lra.
    + assert (Hmc : m = c + pr).
      { subst m. rewrite Rmin_right by lra. unfold GreaterThan. rewrite (proj2 (Rltb_true (0 + PRECISION) (c + pr))) by lra. lra. }
      assert (Hlow : finalize_value false (c + pr + (- m + (rp - (g_r g + o1) + (qd - o2)) * 1)) = 0).
      { rewrite Hmc. unfold finalize_value, NearlyZero, LessThan. destruct (Rleb_spec (Rabs (c + pr + (- (c + pr) + (rp - (g_r g + o1) + (qd - o2)) * 1))) PRECISION) as [_|Hbig]; [reflexivity|].
        rewrite (proj2 (Rltb_true _ (0 - PRECISION))); [reflexivity|]. rewrite Rabs_left1 in Hbig; lra. }
      change (Rabs (finalize_value false (c + pr + (- m + (rp - (g_r g + o1) + (qd - o2)) * 1)) - gr4_water uu) <= Rabs (c - gr4_water g) + 2 * PRECISION).
      rewrite Hlow in *. rewrite Rminus_0_l, Rabs_Ropp, (Rabs_right (gr4_water uu)) by lra.
      unfold Rabs; destruct Rcase_abs; lra.
Qed.

Lemma gr4_run_mirror prs : forall c g c' g', gr4_good g -> 0 <= c -> (forall x, In x prs -> 0 <= x) -> X2 p <= 0 ->
  gr4_run 1 p c g prs = Ok (c', g') ->
  Rabs (c' - gr4_water g') <= Rabs (c - gr4_water g) + INR (length prs) * (2 * PRECISION).
Proof.
  induction prs as [|x prs IH]; intros c g c' g' Hg Hc Hx H2 H.
  - simpl in H. injection H as <- <-. simpl. lra.
  - simpl in H. apply bind_ok in H. destruct H as (((c1 & g1) & q) & H1 & H).
    destruct (gr4_step_mirror c g x c1 g1 q Hg Hc ltac:(apply Hx; left; reflexivity) H2 H1) as (Hg1 & Hc1 & Hd).
    specialize (IH c1 g1 c' g' Hg1 Hc1 ltac:(intros y Hy; apply Hx; right; exact Hy) H2 H).
    cbn [length]. rewrite S_INR. lra.
Qed.
End GR4.
