(** Runs that keep the frame of a sub-basin. *)
From Verif Require Import Base BaseFacts Container Lateral Reset ResetSpec ResetFacts Clock TimeSeries Actions ModelRun RunSpec ClockFacts ModelRunFacts RerunFacts.
Open Scope R_scope.

Section Invariant.
Context {P U V A Row : Type}.
Variable E : engine P U V A Row.
Variable T : timer.
Variable dt : R.
Variable I : P -> Prop.
Notation model := (model P U V A Row).
Hypothesis Hprocess : forall d u v p p', I p -> e_process E dt d u v p = Ok p' -> I p'.
Hypothesis Hrecurring : forall d p p', I p -> e_recurring E d p = Ok p' -> I p'.
Hypothesis Happly : forall x p p', I p -> e_apply E x p = Ok p' -> I p'.
Hypothesis Hfractions : forall p, I p -> I (e_restore_fractions E p).
Hypothesis Hforget : forall p, I p -> I (e_forget_updates E p).
Hypothesis Hparams : forall d u, e_update E d u = u.

Lemma apply_all_keeps l : forall p p', I p -> apply_all E l p = Ok p' -> I p'.
Proof.
  induction l as [|[d [e x]] l IH]; intros p p' H X; cbn [apply_all] in X.
  - injection X as <-. exact H.
  - destruct (e_apply E x p) as [p1| |] eqn:Ea; cbn [bind] in X; try discriminate. apply (IH p1); [exact (Happly _ _ _ H Ea)|exact X].
Qed.
Lemma process_keeps (m m' : model) : I (m_phys m) -> process E dt m = Ok m' -> I (m_phys m') /\ m_params m' = m_params m.
Proof.
  unfold process. destruct (map_outcome current_value (m_series m)) as [v| |]; cbn [bind]; try discriminate.
  destruct (e_process E dt (m_date m) (m_params m) v (m_phys m)) as [p| |] eqn:Ep; cbn [bind]; try discriminate. intros H [= <-]. cbn. split; [exact (Hprocess _ _ _ _ _ H Ep)|reflexivity].
Qed.
Lemma increment_keeps (m m' : model) : I (m_phys m) -> increment_time E dt m = Ok m' -> I (m_phys m') /\ m_params m' = m_params m.
Proof.
  unfold increment_time. destruct (m_attached m).
  - destruct (e_recurring E (m_date m + dt) (m_phys m)) as [p| |] eqn:Er; cbn [bind]; try discriminate.
    destruct (date_update (m_date m + dt) (m_manager m)) as [[due g]| |]; cbn [bind]; try discriminate.
    destruct (apply_all E due p) as [q| |] eqn:Ea; cbn [bind]; try discriminate. intros H [= <-]. cbn.
    split; [exact (apply_all_keeps _ _ _ (Hrecurring _ _ _ H Er) Ea)|apply Hparams].
  - intros H [= <-]. cbn. auto.
Qed.
Lemma forcing_keeps (m m' : model) : I (m_phys m) -> update_forcing E m = Ok m' -> I (m_phys m') /\ m_params m' = m_params m.
Proof. unfold update_forcing. destruct (map_outcome _ (m_series m)); cbn [bind]; try discriminate. intros H [= <-]. cbn. auto. Qed.
Lemma init_keeps (m m' : model) : init_series m = Ok m' -> m_phys m' = m_phys m /\ m_params m' = m_params m.
Proof. unfold init_series. destruct (map_outcome _ (m_series m)); cbn [bind]; try discriminate. intros [= <-]. auto. Qed.
Lemma sim_step_keeps (m m' : model) : I (m_phys m) -> sim_step E dt m = Ok m' -> I (m_phys m') /\ m_params m' = m_params m.
Proof.
  intros H. unfold sim_step. destruct (process E dt m) as [m1| |] eqn:E1; cbn [bind]; try discriminate. destruct (process_keeps _ _ H E1) as (H1 & U1).
  unfold record_row. destruct (nth_error (m_rows m1) (m_row m1)); cbn [bind]; try discriminate.
  destruct (increment_time E dt _) as [m2| |] eqn:E2; cbn [bind]; try discriminate. intros X. apply increment_keeps in E2; [|exact H1]. destruct E2 as (H2 & U2).
  apply forcing_keeps in X; [|exact H2]. destruct X as (H3 & U3). split; [exact H3|]. cbn in *. congruence.
Qed.
Lemma sim_keeps (m : model) o : sim_loop E T dt m o -> forall m', o = Ok m' -> I (m_phys m) -> I (m_phys m') /\ m_params m' = m_params m.
Proof.
  induction 1 as [m Hov|m m1 r Hov Hst Hl IH|m Hov Hst|m Hov Hst]; intros m' Eo H; try discriminate.
  - injection Eo as <-. auto.
  - destruct (sim_step_keeps _ _ H Hst) as (H1 & U1). destruct (IH m' Eo H1). split; congruence.
Qed.
Lemma spinup_steps_keeps k : forall (m m' : model), I (m_phys m) -> spinup_steps E dt k m = Ok m' -> I (m_phys m') /\ m_params m' = m_params m.
Proof.
  induction k as [|k IH]; intros m m' H X; cbn [spinup_steps] in X.
  - injection X as <-. auto.
  - destruct (process E dt m) as [m1| |] eqn:E1; cbn [bind] in X; try discriminate. destruct (process_keeps _ _ H E1) as (H1 & U1).
    destruct (increment_time E dt m1) as [m2| |] eqn:E2; cbn [bind] in X; try discriminate. destruct (increment_keeps _ _ H1 E2) as (H2 & U2).
    destruct (update_forcing E m2) as [m3| |] eqn:E3; cbn [bind] in X; try discriminate. destruct (forcing_keeps _ _ H2 E3) as (H3 & U3).
    destruct (IH _ _ H3 X). split; congruence.
Qed.
Lemma run_keeps k (m m' : model) : run E T dt k m (Ok m') -> I (m_phys m) -> I (m_phys m') /\ m_params m' = m_params m.
Proof.
  intros X H. inversion X as [? m1 m2 ? E1 E2 E3|? e E1 E2|? m1 e E1 E2 E3]; subst; [|exfalso; exact (E2 m' eq_refl)|exfalso; exact (E3 m' eq_refl)].
  destruct (init_keeps _ _ E1) as (P1 & U1).
  assert (K : I (m_phys m2) /\ m_params m2 = m_params m).
  { destruct (0 <? k)%nat; [|injection E2 as <-; rewrite P1; auto]. unfold run_spinup in E2.
    destruct (spinup_steps E dt k (set_attached m1 false)) as [q| |] eqn:Es; cbn [bind] in E2; try discriminate.
    apply spinup_steps_keeps in Es; [|cbn; rewrite P1; exact H]. destruct Es as (H2 & U2). apply init_keeps in E2. destruct E2 as (P3 & U3).
    cbn in *. rewrite P3. split; [apply Hfractions; exact H2|congruence]. }
  destruct K as (K1 & K2). destruct (sim_keeps _ _ E3 m' eq_refl K1) as (K3 & K4). split; [exact K3|]. cbn in K4. congruence.
Qed.
End Invariant.

(** Running again when the first computation does not see what the reset leaves behind. *)
Section Rerun.
Context {P U V A Row : Type}.
Variable E : engine P U V A Row.
Variable T : timer.
Variable dt : R.
Variable forcing : R -> list V.
Notation model := (model P U V A Row).

Lemma period_first s n : (0 < n)%nat -> exists l, period_dates s dt n = s + INR 0 * dt :: l.
Proof. intros H. destruct n as [|n]; [lia|]. unfold period_dates. cbn [seq map]. eauto. Qed.
Lemma spec_same dates (p q : P) u (g : manager A) : dates <> [] -> (forall d v, e_process E dt d u v p = e_process E dt d u v q) ->
  spec_run E dt forcing dates p u g = spec_run E dt forcing dates q u g.
Proof. destruct dates as [|d l]; [congruence|]. intros _ H. cbn [spec_run]. rewrite H. reflexivity. Qed.
Lemma warm_same dates (p q : P) u : dates <> [] -> (forall d v, e_process E dt d u v p = e_process E dt d u v q) ->
  warm_up E dt forcing dates u p = warm_up E dt forcing dates u q.
Proof. destruct dates as [|d l]; [congruence|]. intros _ H. cbn [warm_up]. rewrite H. reflexivity. Qed.

Theorem rerun_same_steps k n (m m1 r : model) : (k <= n)%nat -> (0 < n)%nat -> fresh_model T m -> init_series m = Ok m1 -> supplied dt forcing (m_series m1) (t_start T) n ->
  fills_period (t_start T) (t_end T) dt n -> length (m_rows m) = n -> m_manager m = reset_manager (m_manager m) ->
  run E T dt k m (Ok r) -> m_params r = m_params m ->
  (forall d u v, e_process E dt d u v (e_reset E (m_phys r)) = e_process E dt d u v (m_phys m)) ->
  exists r2, run E T dt k (ModelRun.reset E T r) (Ok r2) /\ m_rows r2 = m_rows r /\ m_phys r2 = m_phys r /\ m_params r2 = m_params r.
Proof.
  intros Hk Hn Hfr Hi Hs Hf Hl Hg Hrun Hu Hp. pose proof Hfr as (Hd & Ha & Hrow).
  set (q := ModelRun.reset E T r).
  assert (Hstart : exists p0 pq, run E T dt 0 (set_phys m p0) (Ok r) /\ (forall d u v, e_process E dt d u v pq = e_process E dt d u v p0) /\
    (fresh_model T q -> init_series q = Ok (set_series q (m_series m1)) -> forall z, run E T dt 0 (set_phys q pq) z -> run E T dt k q z)).
  { destruct k as [|k].
    - exists (m_phys m), (m_phys q). split; [destruct m; exact Hrun|]. split; [exact Hp|]. intros _ _ z. destruct q. auto.
    - destruct (run_needs_warm_up E T dt forcing (S k) n m m1 r ltac:(lia) Hfr Hi Hs Hrun) as (p & Hw). exists (e_restore_fractions E p), (e_restore_fractions E p). split; [|split; [reflexivity|]].
      + apply (proj1 (run_spinup_equiv E T dt forcing (S k) n m m1 p ltac:(lia) Hfr Hi Hs Hw (Ok r)) Hrun).
      + intros Hq Hiq z Hz. eapply (proj2 (run_spinup_equiv E T dt forcing (S k) n q _ p ltac:(lia) Hq Hiq Hs _ z)). exact Hz.
        Unshelve. replace (m_params q) with (m_params m) by (symmetry; exact Hu). rewrite <- Hw. apply warm_same; [|intros; apply Hp].
        destruct (period_first (t_start T) (S k) ltac:(lia)) as (l & ->). discriminate. }
  destruct Hstart as (p0 & pq & Hrun0 & Hpq & Hback).
  assert (Hi0 : init_series (set_phys m p0) = Ok (set_phys m1 p0)).
  { unfold init_series in *. cbn [set_phys m_date m_series] in *. destruct (map_outcome _ (m_series m)); cbn [bind] in *; try discriminate. injection Hi as <-. reflexivity. }
  pose proof (run_spec_thm E T dt forcing n (set_phys m p0) (set_phys m1 p0)) as S1. cbn [set_phys m_series m_rows m_phys m_params m_manager] in S1.
  specialize (S1 (conj Hd (conj Ha Hrow)) Hi0 Hs Hf Hl).
  destruct (spec_run E dt forcing (period_dates (t_start T) dt n) p0 (m_params m) (m_manager m)) as [[[[rows p'] u'] g']| |] eqn:Esp.
  2: { pose proof (run_deterministic E T dt _ _ _ _ Hrun0 S1). discriminate. }
  2: { pose proof (run_deterministic E T dt _ _ _ _ Hrun0 S1). discriminate. }
  destruct S1 as (r' & R1 & I1 & I2 & I3 & I4 & I5 & I6 & I7 & I8).
  pose proof (run_deterministic E T dt _ _ _ _ Hrun0 R1) as Er. injection Er as <-.
  destruct (spec_static E dt forcing _ _ _ _ _ _ _ _ Esp) as (G1 & G2).
  assert (Hser : map_outcome (fun s => bind (set_cursor (t_start T) s) (fun '(ok, s') => if ok : bool then Ok s' else Throw)) (m_series r) = Ok (m_series m1)).
  { rewrite <- Hd. apply (init_again m m1 n (m_series r) Hi). exact I8. }
  assert (Hq : fresh_model T q) by (split; [reflexivity|split; [exact I7|reflexivity]]).
  assert (Hiq : init_series q = Ok (set_series q (m_series m1))).
  { unfold init_series, q. cbn [ModelRun.reset m_date m_series]. rewrite Hser. reflexivity. }
  assert (Hqg : m_manager q = m_manager m).
  { unfold q. cbn [ModelRun.reset m_manager]. rewrite Hg. unfold reset_manager. rewrite I3, G1, G2. reflexivity. }
  assert (Hiq0 : init_series (set_phys q pq) = Ok (set_phys (set_series q (m_series m1)) pq)).
  { unfold init_series in *. cbn [set_phys m_date m_series] in *. unfold q. cbn [ModelRun.reset m_date m_series]. rewrite Hser. reflexivity. }
  pose proof (run_spec_thm E T dt forcing n (set_phys q pq) _ (conj eq_refl (conj I7 eq_refl)) Hiq0 Hs Hf) as S2.
  cbn [set_phys m_rows m_phys m_params m_manager] in S2. rewrite Hqg in S2.
  replace (m_params q) with (m_params m) in S2 by (symmetry; exact Hu).
  rewrite (spec_same _ pq p0) in S2; [|destruct (period_first (t_start T) n Hn) as (l & ->); discriminate|intros; apply Hpq]. rewrite Esp in S2.
  destruct S2 as (r2 & R2 & J1 & J2 & J3 & J4 & J5 & J6 & _).
  { unfold q. cbn [ModelRun.reset m_rows]. rewrite I4, map_length. pose proof (f_equal (@length _) I5) as L. rewrite map_length in L. rewrite L.
    unfold period_dates. rewrite map_length, seq_length. reflexivity. }
  exists r2. split; [|split; [congruence|split; [congruence|congruence]]].
  apply Hback; auto.
Qed.
End Rerun.

(** Two basins that differ only in what the processes of snowpacks remember. *)
Lemma same_processes_sym a b : Forall2 same_process a b -> Forall2 same_process b a.
Proof.
  induction 1 as [|x y a b (H1 & H2) Hl IH]; constructor; [|exact IH]. split; [auto|]. destruct (pr_memory x), (pr_memory y); cbn in *; auto. destruct H2; auto.
Qed.
Lemma brick_restored_but_snow a b : same_brick a b -> brick_ready a -> except_snow_processes (reset_brick b) a.
Proof.
  intros H R. destruct H; inversion R; subst; cbn.
  - rewrite (container_restored w w'), (processes_restored p p') by assumption. constructor.
  - rewrite (container_restored w w'), (processes_restored p p') by assumption. constructor.
  - rewrite (container_restored w w'), (container_restored i i'), (processes_restored p p') by assumption. constructor.
  - rewrite (container_restored w w'), (container_restored s s') by assumption. apply except_snow. apply same_processes_sym. assumption.
Qed.
Lemma bricks_restored_but_snow a b : Forall2 same_brick a b -> Forall brick_ready a -> Forall2 except_snow_processes (map reset_brick b) a.
Proof. induction 1 as [|x y a b Hx Hl IH]; intros H; cbn; constructor; inversion H; subst; [apply brick_restored_but_snow; assumption|auto]. Qed.
Lemma basin_restored_but_snow a b : same_basin a b -> basin_ready a -> basin_except_snow (reset_basin b) a.
Proof.
  destruct a as [x y], b as [x' y']. intros (H1 & H2) (R1 & R2). cbn [ba_bricks ba_units] in *. split; cbn [reset_basin ba_bricks ba_units].
  - apply bricks_restored_but_snow; assumption.
  - clear H1 R1. induction H2 as [|u v y y' Hu Hl IH]; cbn; constructor; inversion R2; subst; [apply bricks_restored_but_snow; assumption|auto].
Qed.
