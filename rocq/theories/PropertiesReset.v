(** Property theorems: running again after a reset (C36). *)
From Coq Require Import ZArith Reals Lra Lia List.
From Verif Require Import Base BaseFacts Container Lateral Processes Reset ResetSpec ResetFacts Clock TimeSeries Actions ModelRun RunSpec ClockFacts ModelRunFacts SupplyFacts
  RerunFacts RunMoreFacts ResetRun PropertiesRun.
Open Scope R_scope.

Lemma same_memory_refl m : same_memory m m.
Proof. destruct m; cbn; auto. Qed.
Lemma same_processes_refl l : Forall2 same_process l l.
Proof. induction l; constructor; [split; [reflexivity|apply same_memory_refl]|assumption]. Qed.
Lemma same_container_refl c : same_container c c.
Proof. repeat split. Qed.
Lemma same_brick_refl b : same_brick b b.
Proof. destruct b; constructor; auto using same_container_refl, same_processes_refl. Qed.
Lemma same_bricks_refl l : Forall2 same_brick l l.
Proof. induction l; constructor; auto using same_brick_refl. Qed.
Lemma same_basin_refl b : same_basin b b.
Proof. split; [apply same_bricks_refl|]. induction (ba_units b); constructor; auto using same_bricks_refl. Qed.

Section Setting.
Context {U V A Row : Type} (E : engine basin_state U V A Row) (T : timer) (dt : R) (spinup : nat) (m r : model basin_state U V A Row).
(** A model ready to run, with usable forcing and a computation of its own. *)
Definition first_run : Prop :=
  timer_valid T dt = true /\ fresh_model T m /\ length (m_rows m) = Z.to_nat (step_count T dt) /\ (forall s, In s (m_series m) -> usable T dt s) /\
  (spinup <= Z.to_nat (step_count T dt))%nat /\ m_manager m = reset_manager (m_manager m) /\ basin_ready (m_phys m) /\
  keeps_frame E dt (m_phys m) /\ (forall p, e_reset E p = reset_basin p) /\ (forall d u, e_update E d u = u) /\ run E T dt spinup m (Ok r).
End Setting.

Lemma setting_facts {U V A Row : Type} (E : engine basin_state U V A Row) T dt spinup m r : first_run E T dt spinup m r ->
  same_basin (m_phys m) (m_phys r) /\ m_params r = m_params m /\ exists forcing m1 n, (spinup <= n)%nat /\ (0 < n)%nat /\ fresh_model T m /\ init_series m = Ok m1 /\
    supplied dt forcing (m_series m1) (t_start T) n /\ fills_period (t_start T) (t_end T) dt n /\ length (m_rows m) = n.
Proof.
  intros (Hv & Hfr & Hl & Hu & Hk & Hg & Hb & (K1 & K2 & K3 & K4 & K5) & He & Hp & Hr).
  pose proof (run_keeps E T dt (same_basin (m_phys m)) K1 K2 K3 K4 K5 Hp spinup m r Hr (same_basin_refl _)) as (S1 & S2). split; [exact S1|]. split; [exact S2|].
  apply timer_facts in Hv. destruct Hv as (H1 & H2 & H3). assert (HT : t_start T <= t_end T) by lra. pose proof (count_fills T dt HT H2) as F.
  set (n := Z.to_nat (step_count T dt)) in *. pose proof (forcing_of_spec T dt (m_series m) n H2 HT Hu (proj1 F)) as FF.
  destruct (series_supplied T dt H2 m (forcing_of dt (m_series m)) n (proj1 Hfr) HT Hu (proj1 F) (count_positive T dt HT H2) FF) as (m1 & Hi & Hs).
  exists (forcing_of dt (m_series m)), m1, n. split; [exact Hk|]. split; [unfold n; pose proof (count_positive T dt HT H2); lia|].
  split; [exact Hfr|]. split; [exact Hi|]. split; [exact Hs|]. split; [exact F|exact Hl].
Qed.

(** *** C36 *)
(** Without snowpack: after Reset, the second run gives the same initial values, the same rows and the same final state, whatever the
    computation, the dated actions, the recurring actions, the forcing and the spin-up. *)
Theorem c36_rerun_partial : forall (U V A Row : Type) (E : engine basin_state U V A Row) T dt spinup m r, first_run E T dt spinup m r -> no_snowpack (m_phys m) ->
  exists r2, run E T dt spinup (ModelRun.reset E T r) (Ok r2) /\ m_rows r2 = m_rows r /\ m_initial r2 = m_initial r /\ m_phys r2 = m_phys r /\ m_params r2 = m_params r.
Proof.
  intros U V A Row E T dt k m r H N. destruct (setting_facts E T dt k m r H) as (S1 & S2 & f & m1 & n & A1 & A2 & A3 & A4 & A5 & A6 & A7).
  destruct H as (_ & _ & _ & _ & _ & Hg & Hb & _ & He & _ & Hr).
  destruct (rerun E T dt f k n m m1 r A1 A3 A4 A5 A6 A7 Hg Hr) as (r2 & R1 & R2 & R3 & R4 & R5); [rewrite He; apply basin_restored; assumption|exact S2|].
  exists r2. auto.
Qed.
Print Assumptions c36_rerun_partial.
(** With snowpacks: the same holds of rows and final state when a step computed from two basins that differ only in what the processes of
    snowpacks hold gives the same result; for instance when these processes have no memory and nothing reads their fluxes before they
    are computed again (no lateral redistribution). *)
Theorem c36_rerun_with_snow_partial : forall (U V A Row : Type) (E : engine basin_state U V A Row) T dt spinup m r, first_run E T dt spinup m r ->
  (forall a b, basin_except_snow a b -> forall d u v, e_process E dt d u v a = e_process E dt d u v b) ->
  exists r2, run E T dt spinup (ModelRun.reset E T r) (Ok r2) /\ m_rows r2 = m_rows r /\ m_phys r2 = m_phys r /\ m_params r2 = m_params r.
Proof.
  intros U V A Row E T dt k m r H N. destruct (setting_facts E T dt k m r H) as (S1 & S2 & f & m1 & n & A1 & A2 & A3 & A4 & A5 & A6 & A7).
  destruct H as (_ & _ & _ & _ & _ & Hg & Hb & _ & He & _ & Hr).
  destruct (rerun_same_steps E T dt f k n m m1 r A1 A2 A3 A4 A5 A6 A7 Hg Hr S2) as (r2 & R1 & R2 & R3 & R4); [|exists r2; auto].
  intros d u v. rewrite He. apply N. apply basin_restored_but_snow; assumption.
Qed.
Print Assumptions c36_rerun_with_snow_partial.

(** A model with a store that receives the rain and loses a tenth of its water. *)
Definition store0 : container := mkC 20 0 0 20 false false.
Definition tenth (b : basin_state) (v : list R) : basin_state :=
  match ba_bricks b with
  | [PlainBrick w [mkPr [o] NoMemory]] =>
      let x := c_content w + fold_right Rplus 0 v in
      mkBa [PlainBrick (mkC (9 / 10 * x) (c_dyn w) (c_stat w) (c_init w) (c_infinite w) (c_allowneg w)) [mkPr [x / 10] NoMemory]] (ba_units b)
  | _ => b
  end.
Definition row_of (b : basin_state) : R :=
  match ba_bricks b with [PlainBrick w _] => c_content w | [SnowBrick _ s _] => c_content s | _ => 0 end.
Definition tank : engine basin_state unit R unit R :=
  mkE (fun _ _ _ v p => Ok (tenth p v)) (fun _ p => Ok p) (fun _ p => Ok p) (fun _ u => u) row_of (fun p => p) (fun p => p) reset_basin.
Definition tank_basin : basin_state := mkBa [PlainBrick store0 [mkPr [0] NoMemory]] [].
Definition tank_model : model basin_state unit R unit R := mkMod 10 [rain] new_manager tt true [None; None; None] 0 None tank_basin.
Lemma tank_frame v p : same_basin tank_basin p -> same_basin tank_basin (tenth p v).
Proof.
  intros (H1 & H2). inversion H1 as [|? b ? l Hb Hl]; subst. inversion Hb as [? ? w' p' Hw Hp| | |]; subst. inversion Hl as [Hn|]; subst.
  inversion Hp as [|? q ? l2 Hq Hl2]; subst. inversion Hl2; subst. destruct q as [o mm]. destruct Hq as (L & M). cbn in L, M. destruct mm; try contradiction.
  destruct o as [|o [|? ?]]; cbn in L; try discriminate. unfold tenth. destruct p as [bs us]. cbn in *. subst bs. split; cbn; [|exact H2].
  constructor; [|constructor]. constructor; [|constructor; [split; cbn; auto|constructor]]. destruct Hw as (W1 & W2 & W3). repeat split; cbn in *; assumption.
Qed.
Example c36_holds_somewhere : exists r, first_run tank T3 1 1 tank_model r /\ no_snowpack (m_phys tank_model) /\ exists x, m_rows r = [Some (10, x); Some (11, 9 / 10 * (x + 3)); Some (12, 9 / 10 * (9 / 10 * (x + 3) + 4))].
Proof.
  assert (Hv : timer_valid T3 1 = true) by exact T3_valid.
  assert (Hu : forall s, In s (m_series tank_model) -> usable T3 1 s) by (intros s [<-|[]]; exact rain_usable).
  assert (Hfr : fresh_model T3 tank_model) by (repeat split).
  destruct (c35_spin_up _ _ _ _ _ tank T3 1 1 tank_model Hv Hfr Hu ltac:(rewrite T3_count; lia)) as (f & Hf & Hw).
  set (p1 := tenth tank_basin (f 10)).
  assert (E0 : t_start T3 + INR 0 * 1 = 10) by (cbn; lra).
  specialize (Hw p1). unfold period_dates in Hw. cbn [seq map] in Hw. rewrite E0 in Hw. cbn [warm_up tank e_process bind e_forget_updates tank_model m_params m_phys] in Hw.
  specialize (Hw eq_refl).
  assert (Hfr1 : fresh_model T3 (set_phys tank_model p1)) by (repeat split).
  pose proof (c34_forcing_of_the_dates _ _ _ _ _ tank T3 1 (set_phys tank_model p1) Hv Hfr1) as K. rewrite T3_count in K. specialize (K eq_refl Hu). cbn zeta in K.
  destruct K as (g & Hgf & K). unfold period_dates in K, Hgf.
  change (Z.to_nat 3) with 3%nat in *. cbn [seq map] in K, Hgf.
  assert (V0 : forall i d x, In d [10; 11; 12] -> d = 9 + INR i -> nth_error [1; 2; 3; 4; 5] i = Some x -> g d = [x]).
  { intros i d x Hd Ed Hx. assert (Hin : In d [t_start T3 + INR 0 * 1; t_start T3 + INR 1 * 1; t_start T3 + INR 2 * 1]).
    { cbn in Hd |- *. destruct Hd as [<-|[<-|[<-|[]]]]; [left|right; left|right; right; left]; lra. }
    specialize (Hgf d Hin). inversion Hgf as [|? v ? l (j & Hj & Hjd) Hl]; subst. inversion Hl; subst. unfold date_of in Hjd. cbn [rain s_start s_step s_unit unit_days] in Hjd. cbn [rain s_values] in Hj.
    assert (j = i). { apply (index_unique 1 ltac:(lra) 9 (9 + INR i)); [rewrite !S_INR in *; lra|rewrite !S_INR; lra]. }
    subst j. rewrite Hx in Hj. injection Hj as ->. reflexivity. }
  replace (t_start T3 + INR 0 * 1) with 10 in K by (cbn; lra). replace (t_start T3 + INR 1 * 1) with 11 in K by (cbn; lra). replace (t_start T3 + INR 2 * 1) with 12 in K by (cbn; lra).
  pose proof (V0 1%nat 10 2 ltac:(left; reflexivity) ltac:(cbn; lra) eq_refl) as V1.
  pose proof (V0 2%nat 11 3 ltac:(right; left; reflexivity) ltac:(cbn; lra) eq_refl) as V2.
  pose proof (V0 3%nat 12 4 ltac:(right; right; left; reflexivity) ltac:(cbn; lra) eq_refl) as V3.
  cbn [spec_run tank e_process e_recurring e_row e_forget_updates e_update set_phys tank_model m_phys m_params m_manager bind] in K. rewrite V1, V2, V3 in K.
  unfold p1, tank_basin, tenth in K. cbn [ba_bricks ba_units] in K.
  change (date_update (10 + 1) (@new_manager unit)) with (Ok (@nil (R * (R * unit)), @new_manager unit)) in K.
  cbn [bind apply_all] in K.
  change (date_update (11 + 1) (@new_manager unit)) with (Ok (@nil (R * (R * unit)), @new_manager unit)) in K. cbn [bind apply_all] in K.
  change (date_update (12 + 1) (@new_manager unit)) with (Ok (@nil (R * (R * unit)), @new_manager unit)) in K. cbn [bind apply_all ba_bricks row_of c_content c_dyn c_stat c_init c_infinite c_allowneg store0 fold_right] in K.
  destruct K as (r & R1 & R2 & _). exists r. split; [|split].
  - split; [exact Hv|]. split; [exact Hfr|]. split; [rewrite T3_count; reflexivity|]. split; [exact Hu|]. split; [rewrite T3_count; lia|]. split; [reflexivity|].
    split; [split; cbn; [|constructor]; repeat constructor; cbn; intuition|]. split.
    + split; [|split; [intros d p p' Hp [= <-]; exact Hp|split; [intros x p p' Hp [= <-]; exact Hp|split; intros p Hp; exact Hp]]].
      intros d u v p p' Hp [= <-]. apply tank_frame. exact Hp.
    + split; [reflexivity|]. split; [reflexivity|]. apply Hw. exact R1.
  - split; cbn; repeat constructor.
  - eexists. rewrite R2. cbn [map]. repeat f_equal; lra.
Qed.

(** Refuted with the CemaNeige melt: its cold content is not reset.  Two days, warm (5 degrees) then cold (-10): in the first run the first
    day melts 5 mm; after Reset, the same day does not melt. *)
Definition snow0 : container := mkC 100 0 0 100 false false.
Definition water0 : container := mkC 0 0 0 0 false false.
Definition cema_step (b : basin_state) (v : list R) : basin_state :=
  match ba_bricks b, v with
  | [SnowBrick w s [mkPr [o] (ColdContent c)]], [t] =>
      let '(c', melt) := melt_cemaneige (9 / 10) 1 0 100 (c_content s) c t in
      mkBa [SnowBrick w (mkC (c_content s - melt) (c_dyn s) (c_stat s) (c_init s) (c_infinite s) (c_allowneg s)) [mkPr [melt] (ColdContent c')]] (ba_units b)
  | _, _ => b
  end.
Definition cema : engine basin_state unit R unit R :=
  mkE (fun _ _ _ v p => Ok (cema_step p v)) (fun _ p => Ok p) (fun _ p => Ok p) (fun _ u => u) row_of (fun p => p) (fun p => p) reset_basin.
Definition pack (swe melt cold : R) : basin_state :=
  mkBa [SnowBrick water0 (mkC swe 0 0 100 false false) [mkPr [melt] (ColdContent cold)]] [].
Definition T2 : timer := mkT 10 11 1 Day.
Definition temps : series R := mkS 10 11 1 Day [5; -10] 0.
Definition cema_model : model basin_state unit R unit R := mkMod 10 [temps] new_manager tt true [None; None] 0 None (pack 100 0 0).

Lemma cema_at swe o c t c' melt : melt_cemaneige (9 / 10) 1 0 100 swe c t = (c', melt) -> cema_step (pack swe o c) [t] = pack (swe - melt) melt c'.
Proof. intros H. unfold cema_step, pack. cbn [ba_bricks c_content]. rewrite H. reflexivity. Qed.
Lemma cema_sim c v rows k i p d o : nth_error [5; -10] c = Some v -> nth_error rows k = Some o ->
  sim_step cema 1 (mkMod d [with_cursor temps (Z.of_nat c)] new_manager tt true rows k i p) =
  Ok (mkMod (d + 1) [with_cursor temps (Z.of_nat (S c))] new_manager tt true (firstn k rows ++ Some (d, row_of (cema_step p [v])) :: skipn (S k) rows) (S k) i (cema_step p [v])).
Proof.
  intros Hc Hr. assert (Hc2 : (c < 2)%nat) by (change 2%nat with (length [5; -10]); apply nth_error_Some; congruence).
  unfold sim_step, process. cbn [m_series map_outcome]. rewrite (current_at temps c v Hc). cbn [bind m_date m_params m_phys cema e_process].
  unfold record_row. cbn [set_phys m_rows m_row]. rewrite Hr. cbn [bind]. unfold increment_time. cbn [m_attached set_phys m_date m_series m_manager m_params m_rows m_row m_initial m_phys cema e_recurring bind e_row].
  change (date_update (d + 1) (@new_manager unit)) with (Ok (@nil (R * (R * unit)), @new_manager unit)). cbn [bind apply_all e_update].
  unfold update_forcing, next_row. cbn [m_series map_outcome]. unfold advance. cbn [with_cursor s_values s_cursor temps length].
  rewrite (proj2 (Z.leb_gt _ _)) by lia. replace (Z.of_nat c + 1)%Z with (Z.of_nat (S c)) by lia. reflexivity.
Qed.
Lemma cema_two_days rows i p (s : series R) : length rows = 2%nat -> with_cursor s 0 = temps -> exists i',
  run cema T2 1 0 (mkMod 10 [s] new_manager tt true rows 0 i p)
    (Ok (mkMod (10 + 1 + 1) [with_cursor temps 2] new_manager tt true
      [Some (10, row_of (cema_step p [5])); Some (10 + 1, row_of (cema_step (cema_step p [5]) [-10]))] 2 i' (cema_step (cema_step p [5]) [-10]))).
Proof.
  intros Hl Hs. destruct rows as [|x [|y [|? ?]]]; try discriminate. eexists.
  eapply (run_ok _ _ _ _ _ (mkMod 10 [with_cursor temps (Z.of_nat 0)] new_manager tt true [x; y] 0 i p)).
  - unfold init_series. cbn [m_series m_date map_outcome]. destruct s as [a b c d e f]. cbn in Hs. injection Hs as -> -> -> -> ->.
    rewrite (set_cursor_day (mkS 10 11 1 Day [5; -10] f) 10 0 eq_refl) by (cbn; lra). reflexivity.
  - reflexivity.
  - unfold save_initial. cbn [m_date m_series m_manager m_params m_attached m_rows m_row m_initial m_phys].
    assert (O : forall d, d <= 11 -> is_over T2 d = false) by (intros d Hd; unfold is_over; apply Rltb_false; cbn; exact Hd).
    eapply sim_more; [apply O; cbn [m_date]; lra|eapply cema_sim; reflexivity|]. eapply sim_more; [apply O; cbn [m_date]; lra|eapply cema_sim; reflexivity|].
    cbn [firstn skipn app]. apply sim_over. unfold is_over. apply Rltb_true. cbn. lra.
Qed.

Lemma warm_day : melt_cemaneige (9 / 10) 1 0 100 100 0 5 = (0, 5).
Proof.
  unfold melt_cemaneige, accessible. rewrite (proj2 (Rltb_true 0 100)) by lra.
  rewrite (Rmin_left 0) by lra. rewrite (proj2 (Rltb_false 0 0)) by lra. rewrite (proj2 (Rleb_false 5 0)) by lra. cbn [orb]. cbv zeta.
  rewrite (proj2 (Rltb_true 0 (9 / 10 * 100))) by lra. rewrite (Rmin_left 1) by lra. f_equal. lra.
Qed.
Lemma cold_day : melt_cemaneige (9 / 10) 1 0 100 (100 - 5) 0 (-10) = (-1, 0).
Proof.
  unfold melt_cemaneige, accessible. rewrite (proj2 (Rltb_true 0 (100 - 5))) by lra.
  rewrite (Rmin_right 0) by lra. rewrite (proj2 (Rltb_true (9 / 10 * 0 + (1 - 9 / 10) * (-10 - 0)) 0)) by lra. cbn [orb]. f_equal. lra.
Qed.
Lemma warm_day_again : exists c, melt_cemaneige (9 / 10) 1 0 100 100 (-1) 5 = (c, 0).
Proof.
  unfold melt_cemaneige, accessible. rewrite (proj2 (Rltb_true 0 100)) by lra.
  rewrite (Rmin_right 0) by lra. rewrite (proj2 (Rltb_true (9 / 10 * -1 + (1 - 9 / 10) * (5 - 0)) 0)) by lra. cbn [orb]. eauto.
Qed.
Lemma pack_reset swe o c : reset_basin (pack swe o c) = pack 100 o c.
Proof. reflexivity. Qed.
Lemma cema_frame v p : same_basin (pack 100 0 0) p -> same_basin (pack 100 0 0) (cema_step p v).
Proof.
  intros H. assert (H0 := H). destruct H as (H1 & H2). inversion H1 as [|? b ? l Hb Hl]; subst. inversion Hb as [| | |? ? ? w' s' p' Hw Hs Hp]; subst. inversion Hl as [Hn|]; subst.
  inversion Hp as [|? q ? l2 Hq Hl2]; subst. inversion Hl2; subst. destruct q as [o mm]. destruct Hq as (L & M). cbn in L, M. destruct mm as [|c| |]; try contradiction.
  destruct o as [|o [|? ?]]; cbn in L; try discriminate. destruct p as [bs us]. cbn [ba_bricks ba_units] in *. subst bs. unfold cema_step. cbn [ba_bricks ba_units].
  destruct v as [|t [|? ?]]; [exact H0| |exact H0]. destruct (melt_cemaneige _ _ _ _ _ _ _) as [c' melt]. split; cbn [ba_bricks ba_units]; [|exact H2].
  constructor; [|constructor]. constructor; [exact Hw|destruct Hs as (W1 & W2 & W3); repeat split; cbn in *; assumption|constructor; [split; cbn; auto|constructor]].
Qed.
Lemma T2_count : step_count T2 1 = 2%Z.
Proof. unfold step_count, T2. cbn [t_start t_end]. apply c_int_unique; lra. Qed.
Theorem c36_cold_content_refuted : exists r r2, first_run cema T2 1 0 cema_model r /\ run cema T2 1 0 (ModelRun.reset cema T2 r) (Ok r2) /\
  nth_error (m_rows r) 0 = Some (Some (10, 95)) /\ nth_error (m_rows r2) 0 = Some (Some (10, 100)).
Proof.
  destruct (cema_two_days [None; None] None (pack 100 0 0) temps eq_refl eq_refl) as (i1 & R1).
  rewrite (cema_at _ _ _ _ _ _ warm_day), (cema_at _ _ _ _ _ _ cold_day) in R1.
  match type of R1 with run _ _ _ _ _ (Ok ?x) => set (r := x) in R1 end.
  destruct (cema_two_days (m_rows r) (m_initial r) (pack 100 0 (-1)) (with_cursor temps 2) eq_refl eq_refl) as (i2 & R2).
  exists r. eexists. split; [|split; [|split]].
  - split; [unfold timer_valid, T2; cbn [t_start t_end t_step]; rtest; reflexivity|]. split; [repeat split|]. split; [rewrite T2_count; reflexivity|].
    split; [intros s [<-|[]]; unfold usable, well_dated, date_of, T2, temps; cbn; repeat split; try lra; try discriminate; left; reflexivity|].
    split; [lia|]. split; [reflexivity|]. split; [split; cbn; [|constructor]; repeat constructor; cbn; intuition|].
    split; [|split; [reflexivity|split; [reflexivity|exact R1]]].
    split; [|split; [intros d p p' Hp [= <-]; exact Hp|split; [intros x p p' Hp [= <-]; exact Hp|split; intros p Hp; exact Hp]]].
    intros d u v p p' Hp [= <-]. apply cema_frame. exact Hp.
  - exact R2.
  - cbn. do 3 f_equal. lra.
  - destruct warm_day_again as (c & W). cbn [m_rows nth_error]. do 3 f_equal. rewrite (cema_at _ _ _ _ _ _ W). cbn. lra.
Qed.
Print Assumptions c36_cold_content_refuted.

(** The hypothesis of [c36_rerun_with_snow_partial] is met by a snowpack with a degree-day melt. *)
Definition dd_step (v : list R) (b : basin_state) : outcome basin_state :=
  match ba_bricks b, ba_units b with
  | [SnowBrick w s [_]], [] =>
      let melt := Rmin (c_content s) (Rmax 0 (3 * fold_right Rplus 0 v)) in
      Ok (mkBa [SnowBrick w (mkC (c_content s - melt) (c_dyn s) (c_stat s) (c_init s) (c_infinite s) (c_allowneg s)) [mkPr [melt] NoMemory]] [])
  | _, _ => Throw
  end.
Definition degree_day : engine basin_state unit R unit R :=
  mkE (fun _ _ _ v p => dd_step v p) (fun _ p => Ok p) (fun _ p => Ok p) (fun _ u => u) row_of (fun p => p) (fun p => p) reset_basin.
Definition dd_basin : basin_state := mkBa [SnowBrick water0 snow0 [mkPr [0] NoMemory]] [].
Definition dd_model : model basin_state unit R unit R := mkMod 10 [temps] new_manager tt true [None; None] 0 None dd_basin.
Example c36_with_snow_holds_somewhere : exists r, first_run degree_day T2 1 0 dd_model r /\
  (forall a b, basin_except_snow a b -> forall d u v, e_process degree_day 1 d u v a = e_process degree_day 1 d u v b) /\ ~ no_snowpack (m_phys dd_model).
Proof.
  assert (Hv : timer_valid T2 1 = true) by (unfold timer_valid, T2; cbn [t_start t_end t_step]; rtest; reflexivity).
  assert (Hu : forall s, In s (m_series dd_model) -> usable T2 1 s).
  { intros s [<-|[]]; unfold usable, well_dated, date_of, T2, temps; cbn; repeat split; try lra; try discriminate; left; reflexivity. }
  assert (Hfr : fresh_model T2 dd_model) by (repeat split).
  pose proof (c34_forcing_of_the_dates _ _ _ _ _ degree_day T2 1 dd_model Hv Hfr) as K. rewrite T2_count in K. specialize (K eq_refl Hu). cbn zeta in K.
  destruct K as (g & Hg & K). unfold period_dates in K, Hg. change (Z.to_nat 2) with 2%nat in *. cbn [seq map] in K, Hg.
  replace (t_start T2 + INR 0 * 1) with 10 in * by (cbn; lra). replace (t_start T2 + INR 1 * 1) with 11 in * by (cbn; lra).
  cbn [spec_run degree_day e_process e_recurring e_row e_forget_updates e_update dd_model m_phys m_params m_manager bind dd_basin] in K.
  unfold dd_step in K. cbn [ba_bricks ba_units bind] in K.
  change (date_update (10 + 1) (@new_manager unit)) with (Ok (@nil (R * (R * unit)), @new_manager unit)) in K.
  cbn [bind apply_all ba_bricks ba_units] in K.
  change (date_update (11 + 1) (@new_manager unit)) with (Ok (@nil (R * (R * unit)), @new_manager unit)) in K. cbn [bind apply_all ba_bricks ba_units c_content snow0 c_dyn c_stat c_init c_infinite c_allowneg fold_right] in K.
  destruct K as (r & R1 & R2 & R3 & _). exists r. split; [|split].
  - split; [exact Hv|]. split; [exact Hfr|]. split; [rewrite T2_count; reflexivity|]. split; [exact Hu|]. split; [lia|]. split; [reflexivity|].
    split; [split; cbn; [|constructor]; repeat constructor; cbn; intuition|]. split; [|split; [reflexivity|split; [reflexivity|exact R1]]].
    split; [|split; [intros d p p' Hp [= <-]; exact Hp|split; [intros x p p' Hp [= <-]; exact Hp|split; intros p Hp; exact Hp]]].
    intros d u v p p' (H1 & H2) Hq. cbn in Hq. inversion H1 as [|? b ? l Hb Hl]; subst. inversion Hb as [| | |? ? ? w' s' q' Hw Hs Hp]; subst. inversion Hl as [Hn|]; subst.
    inversion H2 as [Hm|]; subst. inversion Hp as [|? q ? l2 Hq2 Hl2]; subst. inversion Hl2; subst. unfold dd_step in Hq. destruct p as [bs us]. cbn [ba_bricks ba_units] in *. subst bs us. injection Hq as <-.
    split; cbn [ba_bricks ba_units]; [|constructor]. constructor; [|constructor]. constructor; [exact Hw|destruct Hs as (W1 & W2 & W3); repeat split; cbn in *; assumption|].
    constructor; [split; cbn; auto|constructor].
  - intros a b (H1 & H2) d u v. cbn. unfold dd_step. destruct a as [a ua], b as [b ub]. cbn [ba_bricks ba_units] in *.
    assert (L : (ua = [] /\ ub = []) \/ (ua <> [] /\ ub <> [])) by (inversion H2; subst; [left; auto|right; split; discriminate]).
    inversion H1 as [|x y a' b' Hx Hl]; subst; [reflexivity|]. destruct Hx as [x|w s p p' Hpp].
    + inversion Hl as [|x2 y2 a2 b2 Hx2 Hl2]; subst; [|destruct x; try reflexivity; destruct procs as [|? [|? ?]]; reflexivity].
      destruct L as [(-> & ->)|(L1 & L2)]; [reflexivity|]. destruct ua, ub; congruence.
    + inversion Hpp as [|? ? ? ? _ Hpl]; subst.
      * inversion Hl; subst; reflexivity.
      * inversion Hpl; subst; inversion Hl; subst; try reflexivity. destruct L as [(-> & ->)|(L1 & L2)]; [reflexivity|]. destruct ua, ub; try congruence.
  - intros (H1 & _). cbn in H1. inversion H1; subst. contradiction.
Qed.
