(** Lemmas about the run of a model. *)
From Coq Require Import Sorted.
From Verif Require Import Base BaseFacts Clock TimeSeries Actions ModelRun RunSpec ClockFacts.
Open Scope R_scope.

Section Facts.
Context {P U V A Row : Type}.
Variable E : engine P U V A Row.
Variable T : timer.
Variable dt : R.
Notation model := (model P U V A Row).

Lemma sim_deterministic (m : model) r : sim_loop E T dt m r -> forall r', sim_loop E T dt m r' -> r = r'.
Proof.
  induction 1 as [m H|m m1 r H H1 H2 IH|m H H1|m H H1]; intros r' H'; inversion H'; subst; try congruence.
  apply IH. replace m1 with m2 by congruence. assumption.
Qed.
Lemma run_deterministic k (m : model) r r' : run E T dt k m r -> run E T dt k m r' -> r = r'.
Proof.
  intros H H'. inversion H as [? m1 m2 ? A1 A2 A3|? e A1 A2|? m1 e A1 A2 A3]; inversion H' as [? n1 n2 ? B1 B2 B3|? f B1 B2|? n1 f B1 B2 B3]; subst.
  - rewrite A1 in B1. injection B1 as <-. rewrite A2 in B2. injection B2 as <-. eapply sim_deterministic; eassumption.
  - exfalso. eapply B2. exact A1.
  - rewrite A1 in B1. injection B1 as <-. exfalso. eapply B3. exact A2.
  - exfalso. eapply A2. exact B1.
  - reflexivity.
  - exfalso. eapply A2. exact B1.
  - rewrite A1 in B1. injection B1 as <-. exfalso. eapply A3. exact B2.
  - exfalso. eapply B2. exact A1.
  - rewrite A1 in B1. injection B1 as <-. reflexivity.
Qed.

(** *** Forcing cursors *)
Definition shift (i : nat) (s : series V) : series V := with_cursor s (s_cursor s + Z.of_nat i)%Z.
Lemma shift_shift i j s : shift i (shift j s) = shift (j + i) s.
Proof. unfold shift, with_cursor. cbn. f_equal. lia. Qed.
Lemma shift_0 s : shift 0 s = s.
Proof. unfold shift, with_cursor. destruct s; cbn. f_equal. lia. Qed.

Variable forcing : R -> list V.
(** The next [n] steps from date [d] read the given forcing. *)
Definition supplied (l : list (series V)) (d : R) (n : nat) : Prop :=
  (forall i, (i < n)%nat -> map_outcome current_value (map (shift i) l) = Ok (forcing (d + INR i * dt))) /\
  (forall s, In s l -> (s_cursor s + Z.of_nat n <= Z.of_nat (length (s_values s)))%Z).

Lemma supplied_next l d n : supplied l d (S n) -> supplied (map (shift 1) l) (d + dt) n.
Proof.
  intros (H1 & H2). split.
  - intros i Hi. specialize (H1 (S i) ltac:(lia)). rewrite S_INR in H1. replace (d + dt + INR i * dt) with (d + (INR i + 1) * dt) by lra.
    rewrite <- H1. rewrite map_map. f_equal. apply map_ext. intros s. rewrite shift_shift. reflexivity.
  - intros s Hs. apply in_map_iff in Hs. destruct Hs as (s0 & <- & Hs). specialize (H2 s0 Hs). cbn. lia.
Qed.
Lemma supplied_advance l d n : supplied l d (S n) ->
  map_outcome (fun s => let '(ok, s') := advance s in if ok : bool then Ok s' else Throw) l = Ok (map (shift 1) l).
Proof.
  intros (_ & H). induction l as [|s l IH]; [reflexivity|]. cbn [map_outcome map].
  unfold advance at 1. rewrite (proj2 (Z.leb_gt _ _)).
  - cbn [bind]. rewrite IH by (intros; apply H; right; assumption). reflexivity.
  - specialize (H s (or_introl eq_refl)). lia.
Qed.
Lemma supplied_read l d n : supplied l d (S n) -> map_outcome current_value l = Ok (forcing d).
Proof.
  intros (H & _). specialize (H 0%nat ltac:(lia)). cbn [INR] in H. replace (d + 0 * dt) with d in H by lra. rewrite <- H.
  f_equal. rewrite <- (map_id l) at 1. apply map_ext. intros; symmetry; apply shift_0.
Qed.
Lemma supplied_less l d n k : (k <= n)%nat -> supplied l d n -> supplied l d k.
Proof. intros Hk (H1 & H2). split; [intros i Hi; apply H1; lia|]. intros s Hs. specialize (H2 s Hs). lia. Qed.

(** *** The loop *)
Lemma loop_spec n : forall (m : model), fills_period (m_date m) (t_end T) dt n -> supplied (m_series m) (m_date m) n ->
  (m_row m + n = length (m_rows m))%nat -> m_attached m = true ->
  match spec_run E dt forcing (period_dates (m_date m) dt n) (m_phys m) (m_params m) (m_manager m) with
  | Ok (rows, p, u, g) => exists m', sim_loop E T dt m (Ok m') /\ m_phys m' = p /\ m_params m' = u /\ m_manager m' = g /\
      m_rows m' = firstn (m_row m) (m_rows m) ++ map Some rows /\ map fst rows = period_dates (m_date m) dt n /\
      m_initial m' = m_initial m /\ m_attached m' = true /\ m_series m' = map (shift n) (m_series m) /\ m_row m' = length (m_rows m')
  | Throw => sim_loop E T dt m Throw
  | UB => sim_loop E T dt m UB
  end.
Proof.
  induction n as [|n IH]; intros m Hf Hs Hr Ha.
  - unfold period_dates. cbn [seq map spec_run]. exists m. split; [constructor; unfold is_over; apply Rltb_true; destruct Hf as [_ Hf]; cbn in Hf; lra|].
    repeat split; auto.
    + cbn [map]. rewrite app_nil_r, firstn_all2 by lia. reflexivity.
    + rewrite <- (map_id (m_series m)) at 1. apply map_ext. intros; symmetry; apply shift_0.
    + lia.
  - rewrite period_S. cbn [spec_run].
    assert (Hov : is_over T (m_date m) = false).
    { unfold is_over. apply Rltb_false. destruct Hf as [Hf _]. specialize (Hf 0%nat ltac:(lia)). cbn in Hf. lra. }
    assert (Hp : process E dt m = bind (e_process E dt (m_date m) (m_params m) (forcing (m_date m)) (m_phys m)) (fun p => Ok (set_phys m p))).
    { unfold process. rewrite (supplied_read _ _ _ Hs). reflexivity. }
    destruct (e_process E dt (m_date m) (m_params m) (forcing (m_date m)) (m_phys m)) as [p1| |] eqn:Ep; cbn [bind] in Hp |- *.
    2: { apply sim_throw; [exact Hov|]. unfold sim_step. rewrite Hp. reflexivity. }
    2: { apply sim_ub; [exact Hov|]. unfold sim_step. rewrite Hp. reflexivity. }
    assert (Hrow : exists rows1, record_row E (set_phys m p1) = Ok (mkMod (m_date m) (m_series m) (m_manager m) (m_params m) (m_attached m) rows1 (m_row m) (m_initial m) p1) /\
       firstn (S (m_row m)) rows1 = firstn (m_row m) (m_rows m) ++ [Some (m_date m, e_row E p1)] /\ length rows1 = length (m_rows m)).
    { unfold record_row. cbn [set_phys m_rows m_row]. destruct (nth_error (m_rows m) (m_row m)) eqn:En; [|apply nth_error_None in En; lia].
      eexists. split; [reflexivity|]. split.
      - rewrite firstn_app, firstn_firstn, firstn_length. replace (Nat.min (S (m_row m)) (m_row m)) with (m_row m) by lia.
        replace (S (m_row m) - Nat.min (m_row m) (length (m_rows m)))%nat with 1%nat by lia. reflexivity.
      - rewrite app_length, firstn_length. cbn [length]. rewrite skipn_length. lia. }
    destruct Hrow as (rows1 & Hrow & Hfirst & Hlen).
    assert (Hstep : sim_step E dt m = bind (e_recurring E (m_date m + dt) p1) (fun p2 => bind (date_update (m_date m + dt) (m_manager m)) (fun '(due, g') =>
       bind (apply_all E due p2) (fun p3 => Ok (mkMod (m_date m + dt) (map (shift 1) (m_series m)) g' (e_update E (m_date m + dt) (m_params m)) true rows1 (S (m_row m)) (m_initial m) (e_forget_updates E p3)))))).
    { unfold sim_step. rewrite Hp. cbn [bind]. rewrite Hrow. cbn [bind]. unfold increment_time. cbn [m_attached m_date m_phys m_manager m_params m_series m_rows m_row m_initial]. rewrite Ha.
      destruct (e_recurring E (m_date m + dt) p1) as [p2| |]; [|reflexivity|reflexivity]. cbn [bind].
      destruct (date_update (m_date m + dt) (m_manager m)) as [[due g']| |]; [|reflexivity|reflexivity]. cbn [bind].
      destruct (apply_all E due p2) as [p3| |]; [|reflexivity|reflexivity]. cbn [bind]. unfold update_forcing, next_row. cbn [m_series].
      rewrite (supplied_advance _ _ _ Hs). reflexivity. }
    destruct (e_recurring E (m_date m + dt) p1) as [p2| |]; cbn [bind] in Hstep |- *; [|apply sim_throw; assumption|apply sim_ub; assumption].
    destruct (date_update (m_date m + dt) (m_manager m)) as [[due g']| |]; cbn [bind] in Hstep |- *; [|apply sim_throw; assumption|apply sim_ub; assumption].
    destruct (apply_all E due p2) as [p3| |]; cbn [bind] in Hstep |- *; [|apply sim_throw; assumption|apply sim_ub; assumption].
    match type of Hstep with _ = Ok ?x => set (m1 := x) in * end.
    specialize (IH m1). cbn [m1 m_date m_series m_row m_rows m_attached m_phys m_params m_manager m_initial] in IH.
    assert (I := IH).
    assert (Hf1 : fills_period (m_date m + dt) (t_end T) dt n).
    { destruct Hf as [F1 F2]. split.
      - intros i Hi. specialize (F1 (S i) ltac:(lia)). rewrite S_INR in F1. lra.
      - rewrite S_INR in F2. lra. }
    specialize (I Hf1 (supplied_next _ _ _ Hs) ltac:(lia) eq_refl).
    destruct (spec_run E dt forcing (period_dates (m_date m + dt) dt n) (e_forget_updates E p3) (e_update E (m_date m + dt) (m_params m)) g') as [[[[rows p] u] g]| |]; cbn [bind].
    + destruct I as (m' & L & I1 & I2 & I3 & I4 & I5 & I6 & I7 & I8 & I9). exists m'.
      split; [eapply sim_more; eauto|]. repeat split; auto.
      * rewrite I4, Hfirst, <- app_assoc. reflexivity.
      * cbn. f_equal. exact I5.
      * rewrite I8, map_map. apply map_ext. intros s. rewrite shift_shift. reflexivity.
    + eapply sim_more; eauto.
    + eapply sim_more; eauto.
Qed.

(** *** The spin-up *)
Lemma spinup_spec k : forall (m : model), m_attached m = false -> supplied (m_series m) (m_date m) k ->
  spinup_steps E dt k m = bind (warm_up E dt forcing (period_dates (m_date m) dt k) (m_params m) (m_phys m)) (fun p =>
    Ok (mkMod (m_date m + INR k * dt) (map (shift k) (m_series m)) (m_manager m) (m_params m) false (m_rows m) (m_row m) (m_initial m) p)).
Proof.
  induction k as [|k IH]; intros m Ha Hs.
  - unfold period_dates. cbn [seq map spinup_steps warm_up bind INR]. destruct m as [d l g u a rw r i p]. cbn in *. subst a.
    replace (d + 0 * dt) with d by lra. replace (map (shift 0) l) with l; [reflexivity|]. rewrite <- (map_id l) at 1. apply map_ext. intros; symmetry; apply shift_0.
  - rewrite period_S. cbn [spinup_steps warm_up]. unfold process. rewrite (supplied_read _ _ _ Hs). cbn [bind].
    destruct (e_process E dt (m_date m) (m_params m) (forcing (m_date m)) (m_phys m)) as [p1| |]; [|reflexivity|reflexivity]. cbn [bind].
    unfold increment_time. cbn [set_phys m_attached]. rewrite Ha. cbn [bind]. unfold update_forcing. cbn [set_date set_phys m_series].
    rewrite (supplied_advance _ _ _ Hs). cbn [bind]. rewrite IH.
    + cbn [set_phys set_series set_date m_date m_series m_params m_phys m_manager m_rows m_row m_initial].
      destruct (warm_up E dt forcing (period_dates (m_date m + dt) dt k) (m_params m) (e_forget_updates E p1)); [|reflexivity|reflexivity]. cbn [bind].
      rewrite S_INR. replace (m_date m + dt + INR k * dt) with (m_date m + (INR k + 1) * dt) by lra. rewrite map_map.
      do 2 f_equal. apply map_ext. intros s. rewrite shift_shift. reflexivity.
    + cbn. exact Ha.
    + cbn. apply supplied_next in Hs. exact Hs.
Qed.

Lemma set_cursor_again d (s : series V) i s' : set_cursor d s = Ok (true, s') -> set_cursor d (shift i s') = Ok (true, s').
Proof.
  unfold set_cursor. destruct (Rltb d (s_start s)) eqn:E1; [discriminate|]. destruct (Rltb (s_end s) d) eqn:E2; [discriminate|]. cbv zeta.
  destruct (s_unit s) eqn:Eu; intros H; try discriminate; injection H as <-; cbn; rewrite E1, E2, Eu; reflexivity.
Qed.
Lemma init_again (m m1 : model) k l : init_series m = Ok m1 -> l = map (shift k) (m_series m1) ->
  map_outcome (fun s => bind (set_cursor (m_date m) s) (fun '(ok, s') => if ok : bool then Ok s' else Throw)) l = Ok (m_series m1).
Proof.
  unfold init_series. intros H ->. destruct m as [d ls g u a rw r i p]. cbn [m_date m_series] in *.
  assert (K : forall l l1, map_outcome (fun s => bind (set_cursor d s) (fun '(ok, s') => if ok : bool then Ok s' else Throw)) l = Ok l1 ->
     map_outcome (fun s => bind (set_cursor d s) (fun '(ok, s') => if ok : bool then Ok s' else Throw)) (map (shift k) l1) = Ok l1).
  { induction l as [|s l IH]; cbn [map_outcome]; intros l1 X; [injection X as <-; reflexivity|].
    destruct (set_cursor d s) as [[[|] s']| |] eqn:Es; cbn [bind] in X; try discriminate.
    destruct (map_outcome (fun s => bind (set_cursor d s) (fun '(ok, s') => if ok : bool then Ok s' else Throw)) l) as [l2| |] eqn:El; cbn [bind] in X; try discriminate.
    injection X as <-. cbn [map map_outcome]. rewrite (set_cursor_again d s k s' Es). cbn [bind]. rewrite (IH _ eq_refl). reflexivity. }
  destruct (map_outcome (fun s => bind (set_cursor d s) (fun '(ok, s') => if ok : bool then Ok s' else Throw)) ls) as [l1| |] eqn:El; cbn [bind] in H; try discriminate.
  injection H as <-. cbn [set_series m_series]. apply (K ls l1 El).
Qed.

Lemma run_spinup_spec k (m m1 : model) : init_series m = Ok m1 -> m_date m = t_start T -> m_attached m = true -> supplied (m_series m1) (m_date m1) k ->
  run_spinup E T dt k m1 = bind (warm_up E dt forcing (period_dates (t_start T) dt k) (m_params m) (m_phys m)) (fun p =>
    Ok (set_phys m1 (e_restore_fractions E p))).
Proof.
  intros H Hd Ha Hs. assert (Em : m1 = set_series m (m_series m1)).
  { unfold init_series in H. destruct (map_outcome _ (m_series m)); cbn [bind] in H; try discriminate. injection H as <-. destruct m; reflexivity. }
  assert (Hd1 : m_date m1 = t_start T) by (rewrite Em; destruct m; cbn in *; exact Hd).
  unfold run_spinup. rewrite spinup_spec.
  - cbn [set_attached m_date m_params m_phys m_series m_manager m_rows m_row m_initial].
    rewrite Hd1. replace (m_params m1) with (m_params m) by (rewrite Em; destruct m; reflexivity). replace (m_phys m1) with (m_phys m) by (rewrite Em; destruct m; reflexivity).
    destruct (warm_up E dt forcing (period_dates (t_start T) dt k) (m_params m) (m_phys m)) as [p| |]; cbn [bind]; [|reflexivity|reflexivity].
    unfold init_series. cbn [set_phys set_date m_series m_date set_attached]. rewrite <- Hd, (init_again m m1 k _ H eq_refl). cbn [bind].
    f_equal. unfold set_series, set_phys. cbn. rewrite Em. destruct m; cbn in *. subst. reflexivity.
  - reflexivity.
  - cbn. exact Hs.
Qed.

(** *** A whole run without spin-up *)
Definition fresh_model (m : model) : Prop := m_date m = t_start T /\ m_attached m = true /\ m_row m = 0%nat.

Lemma run_spec_thm n (m m1 : model) : fresh_model m -> init_series m = Ok m1 -> supplied (m_series m1) (t_start T) n ->
  fills_period (t_start T) (t_end T) dt n -> length (m_rows m) = n ->
  match spec_run E dt forcing (period_dates (t_start T) dt n) (m_phys m) (m_params m) (m_manager m) with
  | Ok (rows, p, u, g) => exists m', run E T dt 0 m (Ok m') /\ m_phys m' = p /\ m_params m' = u /\ m_manager m' = g /\
      m_rows m' = map Some rows /\ map fst rows = period_dates (t_start T) dt n /\ m_initial m' = Some (e_row E (m_phys m)) /\
      m_attached m' = true /\ m_series m' = map (shift n) (m_series m1)
  | Throw => run E T dt 0 m Throw
  | UB => run E T dt 0 m UB
  end.
Proof.
  intros (Hd & Ha & Hr) Hi Hs Hf Hl.
  assert (Em : m1 = set_series m (m_series m1)).
  { unfold init_series in Hi. destruct (map_outcome _ (m_series m)); cbn [bind] in Hi; try discriminate. injection Hi as <-. destruct m; reflexivity. }
  pose proof (loop_spec n (save_initial E m1)) as L.
  replace (m_date (save_initial E m1)) with (t_start T) in L by (rewrite Em; destruct m; cbn in *; congruence).
  replace (m_phys (save_initial E m1)) with (m_phys m) in L by (rewrite Em; destruct m; reflexivity).
  replace (m_params (save_initial E m1)) with (m_params m) in L by (rewrite Em; destruct m; reflexivity).
  replace (m_manager (save_initial E m1)) with (m_manager m) in L by (rewrite Em; destruct m; reflexivity).
  replace (m_row (save_initial E m1)) with 0%nat in L by (rewrite Em; destruct m; cbn in *; congruence).
  replace (m_attached (save_initial E m1)) with true in L by (rewrite Em; destruct m; cbn in *; congruence).
  replace (m_rows (save_initial E m1)) with (m_rows m) in L by (rewrite Em; destruct m; reflexivity).
  replace (m_initial (save_initial E m1)) with (Some (e_row E (m_phys m))) in L by (rewrite Em; destruct m; reflexivity).
  replace (m_series (save_initial E m1)) with (m_series m1) in L by reflexivity.
  specialize (L Hf Hs ltac:(lia) eq_refl).
  destruct (spec_run E dt forcing (period_dates (t_start T) dt n) (m_phys m) (m_params m) (m_manager m)) as [[[[rows p] u] g]| |].
  - destruct L as (m' & L & I1 & I2 & I3 & I4 & I5 & I6 & I7 & I8 & I9). exists m'.
    split; [eapply run_ok; [exact Hi|reflexivity|exact L]|]. repeat split; auto.
  - eapply run_ok; [exact Hi|reflexivity|exact L].
  - eapply run_ok; [exact Hi|reflexivity|exact L].
Qed.

(** With a spin-up, the run is the one that starts from the warmed-up stores. *)
Lemma run_spinup_equiv k n (m m1 : model) p : (0 < k <= n)%nat -> fresh_model m -> init_series m = Ok m1 -> supplied (m_series m1) (t_start T) n ->
  warm_up E dt forcing (period_dates (t_start T) dt k) (m_params m) (m_phys m) = Ok p ->
  forall r, run E T dt k m r <-> run E T dt 0 (set_phys m (e_restore_fractions E p)) r.
Proof.
  intros Hk (Hd & Ha & Hr) Hi Hs Hw r.
  assert (Em : m1 = set_series m (m_series m1)).
  { unfold init_series in Hi. destruct (map_outcome _ (m_series m)); cbn [bind] in Hi; try discriminate. injection Hi as <-. destruct m; reflexivity. }
  assert (Hd1 : m_date m1 = t_start T) by (rewrite Em; destruct m; cbn in *; exact Hd).
  assert (R := run_spinup_spec k m m1 Hi Hd Ha). rewrite Hd1 in R. specialize (R (supplied_less _ _ n k (proj2 Hk) Hs)). rewrite Hw in R. cbn [bind] in R.
  assert (Hi' : init_series (set_phys m (e_restore_fractions E p)) = Ok (set_phys m1 (e_restore_fractions E p))).
  { unfold init_series in *. cbn [set_phys m_date m_series] in *. destruct (map_outcome _ (m_series m)); cbn [bind] in *; try discriminate. injection Hi as <-. reflexivity. }
  split; intros X; inversion X as [? q1 q2 ? X1 X2 X3|? e X1 X2|? q1 e X1 X2 X3]; subst.
  - rewrite Hi in X1. injection X1 as <-. replace (0 <? k)%nat with true in X2 by (symmetry; apply Nat.ltb_lt; lia). rewrite R in X2. injection X2 as <-.
    eapply run_ok; [exact Hi'|reflexivity|exact X3].
  - exfalso. eapply X2. exact Hi.
  - rewrite Hi in X1. injection X1 as <-. replace (0 <? k)%nat with true in X3 by (symmetry; apply Nat.ltb_lt; lia). exfalso. eapply X3. exact R.
  - rewrite Hi' in X1. injection X1 as <-. cbn in X2. injection X2 as <-. eapply run_ok; [exact Hi| |exact X3].
    replace (0 <? k)%nat with true by (symmetry; apply Nat.ltb_lt; lia). exact R.
  - exfalso. eapply X2. exact Hi'.
  - rewrite Hi' in X1. injection X1 as <-. exfalso. eapply X3. reflexivity.
Qed.

End Facts.
