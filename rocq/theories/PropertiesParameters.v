(** Property theorems: time-varying parameters (C37). *)
From Coq Require Import ZArith Reals Lra Lia List Sorted.
From Verif Require Import Base BaseFacts Clock ClockFacts TimeSeries RunMoreFacts Actions ModelRun RunSpec ModelRunFacts PropertiesRun Search Calendar Parameters ParametersSpec CalendarFacts PropertiesCalendar ParametersFacts.
Open Scope R_scope.

(** The parameters of the user: a schedule, the modifier made for it and the initial value of each; and the updater they are added to. *)
Definition user_parameter := (schedule * modifier * R)%type.
Definition updater_of (us : list user_parameter) : updater := fold_left (fun up (u : user_parameter) => add_parameter (mkPar (snd u) (snd (fst u))) up) us new_updater.
Definition all_accepted (us : list user_parameter) : Prop := Forall (fun u : user_parameter => accepted (fst (fst u)) (snd (fst u))) us.
(** The value of a parameter is the one in use after some dates. *)
Definition uses (dates : list R) (u : user_parameter) (v : R) : Prop := in_use (fst (fst u)) (snd u) dates v.

Lemma updater_of_gen us : forall up, fold_left (fun up (u : user_parameter) => add_parameter (mkPar (snd u) (snd (fst u))) up) us up =
  mkUp (match us with [] => up_active up | _ => true end) (up_previous up) (up_parameters up ++ map (fun u : user_parameter => mkPar (snd u) (snd (fst u))) us).
Proof.
  induction us as [|[[s m] v] us IH]; intros up; cbn [fold_left map]; [rewrite app_nil_r; destruct up; reflexivity|]. rewrite IH. cbn. rewrite <- app_assoc.
  destruct us; reflexivity.
Qed.
Lemma updater_of_eq us : us <> [] -> updater_of us = mkUp true 0 (map (fun u : user_parameter => mkPar (snd u) (snd (fst u))) us).
Proof. intros H. unfold updater_of. rewrite updater_of_gen. destruct us; [congruence|reflexivity]. Qed.
Lemma follows_start us : all_accepted us -> Forall2 (follows []) (map (fun u : user_parameter => (fst (fst u), snd u)) us) (map (fun u : user_parameter => mkPar (snd u) (snd (fst u))) us).
Proof. induction 1 as [|[[s m] v] us A F IH]; cbn [map]; constructor; [split; [exact A|constructor]|exact IH]. Qed.
Lemma follows_uses dates us : forall ps, Forall2 (follows dates) (map (fun u : user_parameter => (fst (fst u), snd u)) us) ps -> Forall2 (uses dates) us (map par_value ps).
Proof.
  induction us as [|[[s m] v] us IH]; intros ps H; cbn [map] in H; inversion H as [|? p ? ps' (_ & Hp) Hps]; subst; cbn [map]; constructor; [exact Hp|apply IH; exact Hps].
Qed.
Lemma year0 : ct_year (from_mjd 0) = 1858%Z.
Proof. rewrite (proj2 c39_day_of_year_before_refuted). reflexivity. Qed.
Lemma updates_follow us dates : us <> [] -> all_accepted us -> match dates with [] => True | d :: _ => ct_year (from_mjd d) <> 1858%Z end ->
  exists up, updater_dates dates (updater_of us) = Ok up /\ Forall2 (uses dates) us (map par_value (up_parameters up)).
Proof.
  intros Hn A H. rewrite updater_of_eq by exact Hn.
  destruct (updater_dates_follow (map (fun u : user_parameter => (fst (fst u), snd u)) us) dates [] (mkUp true 0 (map (fun u : user_parameter => mkPar (snd u) (snd (fst u))) us)) eq_refl) as (up & E & F).
  - cbn [up_parameters]. apply follows_start. exact A.
  - right. cbn [up_previous]. rewrite year0. destruct dates; [exact I|congruence].
  - exists up. split; [exact E|apply follows_uses; exact F].
Qed.

(** C37.  After the updater was given some dates, each parameter has the value of the last of them for which its schedule has one (or its initial
    value), this value is unique, and nothing out of bounds is read.  The first date must not be in 1858, the year of the internal day 0. *)
Theorem c37_value_of_the_last_date : forall us dates, all_accepted us -> match dates with [] => True | d :: _ => ct_year (from_mjd d) <> 1858%Z end ->
  exists up, updater_dates dates (updater_of us) = Ok up /\ Forall2 (uses dates) us (map par_value (up_parameters up)) /\
    forall vs, Forall2 (uses dates) us vs -> vs = map par_value (up_parameters up).
Proof.
  intros us dates A H.
  assert (G : exists up, updater_dates dates (updater_of us) = Ok up /\ Forall2 (uses dates) us (map par_value (up_parameters up))).
  { destruct us as [|u us]; [|apply updates_follow; [discriminate|exact A|exact H]]. exists new_updater. split; [|constructor]. clear. induction dates; [reflexivity|exact IHdates]. }
  destruct G as (up & E & F). exists up. split; [exact E|]. split; [exact F|]. clear E. revert F. generalize (map par_value (up_parameters up)). clear up H.
  induction A as [|[[s m] v0] us Ha A IH]; intros l F vs G; inversion F as [|? x ? l' Hx Hl]; inversion G as [|? y ? m' Hy Hm]; subst; [reflexivity|].
  f_equal; [|apply IH; assumption]. cbn in Hx, Hy. clear - Ha Hx Hy. revert y Hy. induction Hx as [|dates d v Hs|dates d v Hs Hu IHu]; intros y Hy.
  - inversion Hy as [E|? ? ? ? E|? ? ? ? ? E]; [reflexivity| |]; destruct dates; discriminate.
  - inversion Hy as [E|dates' d' ? Hs' E|dates' d' ? Hs' ? E]; [destruct dates; discriminate| |]; apply app_inj_tail in E; destruct E as (-> & ->); [exact (specified_unique _ _ _ _ _ Ha Hs' Hs)|destruct (Hs' v Hs)].
  - inversion Hy as [E|dates' d' ? Hs' E|dates' d' ? Hs' ? E]; [destruct dates; discriminate| |]; apply app_inj_tail in E; destruct E as (-> & ->); [destruct (Hs y Hs')|apply IHu; assumption].
Qed.
Print Assumptions c37_value_of_the_last_date.

(** C37 for a run whose rows show the values of the parameters used by the step: the row of each step shows the values in use after the dates of the
    steps from the second one to this one.  The date of the first step is never looked at. *)
Definition later_dates (T : timer) (dt : R) (k : nat) : list R := map (fun i => t_start T + INR i * dt) (seq 1 k).
Definition shows_parameters {P V A} (E : engine P updater V A (list R)) : Prop :=
  (forall d u u', updater_date d u = Ok u' -> e_update E d u = u') /\
  (forall dt d u v p p', e_process E dt d u v p = Ok p' -> e_row E p' = map par_value (up_parameters u)).

Lemma updater_dates_app a b u : updater_dates (a ++ b) u = bind (updater_dates a u) (updater_dates b).
Proof. revert u. induction a as [|d a IH]; intros u; [reflexivity|]. cbn. destruct (updater_date d u); cbn; [apply IH|reflexivity|reflexivity]. Qed.

Lemma spec_run_shows {P V A} (E : engine P updater V A (list R)) T dt forcing us : shows_parameters E -> us <> [] -> all_accepted us ->
  ct_year (from_mjd (t_start T + dt)) <> 1858%Z ->
  forall n j up p g rows p' u' g', updater_dates (later_dates T dt j) (updater_of us) = Ok up ->
  spec_run E dt forcing (map (fun i => t_start T + INR i * dt) (seq j n)) p up g = Ok (rows, p', u', g') ->
  forall i d row, nth_error rows i = Some (d, row) -> d = t_start T + INR (j + i) * dt /\ Forall2 (uses (later_dates T dt (j + i))) us row.
Proof.
  intros (HE1 & HE2) Hn Ac Hy. induction n as [|n IH]; intros j up p g rows p' u' g' Hup Hr i d row Hi; cbn [seq map spec_run] in Hr.
  { injection Hr as <- <- <- <-. destruct i; discriminate. }
  destruct (e_process E dt _ up (forcing _) p) as [p1| |] eqn:Ep; cbn [bind] in Hr; try discriminate.
  destruct (e_recurring E _ p1) as [p2| |]; cbn [bind] in Hr; try discriminate.
  destruct (date_update _ g) as [[due g1]| |]; cbn [bind] in Hr; try discriminate.
  destruct (apply_all E due p2) as [p3| |]; cbn [bind] in Hr; try discriminate.
  destruct (spec_run E dt forcing _ _ _ g1) as [[[[rs q] uq] gq]| |] eqn:Es; cbn [bind] in Hr; try discriminate. injection Hr as <- <- <- <-.
  assert (Hfirst : forall k, match later_dates T dt k with [] => True | d0 :: _ => ct_year (from_mjd d0) <> 1858%Z end).
  { intros [|k]; [exact I|]. cbn [later_dates seq map]. unfold later_dates. cbn [seq map INR]. replace (t_start T + 1 * dt) with (t_start T + dt) by lra. exact Hy. }
  destruct i as [|i].
  - cbn in Hi. injection Hi as <- <-. rewrite Nat.add_0_r. split; [reflexivity|]. rewrite (HE2 _ _ _ _ _ _ Ep).
    destruct (updates_follow us (later_dates T dt j) Hn Ac (Hfirst j)) as (up1 & E1 & F1). rewrite Hup in E1. injection E1 as ->. exact F1.
  - cbn in Hi. replace (j + S i)%nat with (S j + i)%nat by lia. eapply IH; [|exact Es|exact Hi].
    assert (El : later_dates T dt (S j) = later_dates T dt j ++ [t_start T + INR j * dt + dt]).
    { unfold later_dates. rewrite seq_S, map_app. cbn [map]. do 2 f_equal. replace (1 + j)%nat with (S j) by lia. rewrite S_INR. lra. }
    destruct (updates_follow us (later_dates T dt (S j)) Hn Ac (Hfirst (S j))) as (up1 & E1 & _). rewrite E1. f_equal.
    rewrite El, updater_dates_app, Hup in E1. cbn [bind updater_dates] in E1. destruct (updater_date _ up) as [u2| |] eqn:Eu; cbn [bind] in E1; try discriminate.
    injection E1 as <-. symmetry. apply HE1. exact Eu.
Qed.

Theorem c37_in_a_run : forall (P V A : Type) (E : engine P updater V A (list R)) T dt (m m' : model P updater V A (list R)) us,
  shows_parameters E -> us <> [] -> all_accepted us -> ct_year (from_mjd (t_start T + dt)) <> 1858%Z ->
  timer_valid T dt = true -> fresh_model T m -> length (m_rows m) = Z.to_nat (step_count T dt) -> (forall s, In s (m_series m) -> usable T dt s) ->
  m_params m = updater_of us -> run E T dt 0 m (Ok m') ->
  length (m_rows m') = Z.to_nat (step_count T dt) /\
  forall k d row, nth_error (m_rows m') k = Some (Some (d, row)) -> d = t_start T + INR k * dt /\ Forall2 (uses (later_dates T dt k)) us row.
Proof.
  intros P V A E T dt m m' us HE Hn Ac Hy Hv Hfr Hl Hu Hp Hr. pose proof (c34_forcing_of_the_dates P updater V A (list R) E T dt m Hv Hfr Hl Hu) as K. cbv zeta in K.
  destruct K as (f & _ & K). destruct (spec_run E dt f _ _ _ _) as [[[[rows p] u] g]| |] eqn:Es.
  2: { pose proof (run_deterministic E T dt _ _ _ _ Hr K). discriminate. }
  2: { pose proof (run_deterministic E T dt _ _ _ _ Hr K). discriminate. }
  destruct K as (m2 & R1 & R2 & _). pose proof (run_deterministic E T dt _ _ _ _ Hr R1) as X. injection X as <-. rewrite R2. split.
  - rewrite map_length. clear - Es. unfold period_dates in Es. revert Es. generalize (Z.to_nat (step_count T dt)) as n. generalize 0%nat as j. intros j n. revert j rows p u g.
    generalize (m_phys m), (m_params m), (m_manager m). intros p0 u0 g0. revert p0 u0 g0. intros p0 u0 g0.
    enough (H : forall n j p0 u0 g0 rows p u g, spec_run E dt f (map (fun i => t_start T + INR i * dt) (seq j n)) p0 u0 g0 = Ok (rows, p, u, g) -> length rows = n) by (intros; eapply H; eassumption).
    clear. induction n as [|n IH]; intros j p0 u0 g0 rows p u g Es; cbn [seq map spec_run] in Es; [injection Es as <- <- <- <-; reflexivity|].
    destruct (e_process E dt _ u0 (f _) p0) as [p1| |]; cbn [bind] in Es; try discriminate. destruct (e_recurring E _ p1) as [p2| |]; cbn [bind] in Es; try discriminate.
    destruct (date_update _ g0) as [[due g1]| |]; cbn [bind] in Es; try discriminate. destruct (apply_all E due p2) as [p3| |]; cbn [bind] in Es; try discriminate.
    destruct (spec_run E dt f _ _ _ g1) as [[[[rs q] uq] gq]| |] eqn:E2; cbn [bind] in Es; try discriminate. injection Es as <- <- <- <-. cbn. f_equal. eapply IH. exact E2.
  - intros k d row Hk. rewrite nth_error_map in Hk. destruct (nth_error rows k) as [[d1 r1]|] eqn:Ek; [|discriminate]. cbn in Hk. injection Hk as -> ->.
    rewrite Hp in Es. exact (spec_run_shows E T dt f us HE Hn Ac Hy _ 0 (updater_of us) _ _ _ _ _ _ eq_refl Es k d row Ek).
Qed.
Print Assumptions c37_in_a_run.

(** A daily run of three days from MJD 10 (1858-11-27; the second day too) would be in 1858; take one in 2024. *)
Definition T24 : timer := mkT 60370 60372 1 Day.
Definition rain24 : series R := mkS 60370 60372 1 Day [0; 0; 0] 0.
Definition probe : engine (list R) updater R unit (list R) :=
  mkE (fun _ _ u _ _ => Ok (map par_value (up_parameters u))) (fun _ p => Ok p) (fun _ p => Ok p)
      (fun d u => match updater_date d u with Ok u' => u' | _ => u end) (fun p => p) (fun p => p) (fun p => p) (fun p => p).
Definition always5 : schedule := EachMonth (repeat (Some 5) 12).
Definition always5_parameter : user_parameter := (always5, Monthly (repeat (Some 5) 12), 1).
Definition probe_model : model (list R) updater R unit (list R) := mkMod 60370 [rain24] new_manager (updater_of [always5_parameter]) true [None; None; None] 0 None [].

Lemma always5_specified d : specified always5 d 5.
Proof.
  cbn [specified always5]. pose proof (months_valid d) as M. split; [lia|]. set (k := Z.to_nat _). assert (H : (k < 12)%nat) by (unfold k; lia). clearbody k.
  do 12 (destruct k; [reflexivity|]). lia.
Qed.
Lemma always5_accepted : all_accepted [always5_parameter].
Proof. repeat constructor. Qed.
Lemma spec_run_total {P V A} (E : engine P updater V A (list R)) dt f :
  (forall dt d u v p, exists p', e_process E dt d u v p = Ok p') -> (forall d p, exists p', e_recurring E d p = Ok p') ->
  forall dates p u, exists r, spec_run E dt f dates p u new_manager = Ok r.
Proof.
  intros H1 H2. induction dates as [|d dates IH]; intros p u; [eexists; reflexivity|]. cbn [spec_run]. destruct (H1 dt d u (f d) p) as (p1 & ->). cbn [bind].
  destruct (H2 (d + dt) p1) as (p2 & ->). cbn [bind].
  assert (Hd : date_update (d + dt) (@new_manager A) = Ok ([], new_manager)) by reflexivity. rewrite Hd. cbn [bind apply_all].
  destruct (IH (e_forget_updates E p2) (e_update E (d + dt) u)) as ([[[rs q] uq] gq] & ->). eexists. reflexivity.
Qed.
Lemma year24 : ct_year (from_mjd (60370 + 1)) = 2024%Z.
Proof. unfold from_mjd, mjd_to_seconds. replace ((60370 + 1 - 40587) * 86400) with (IZR 1709337600) by lra. rewrite c_round_int. vm_compute. reflexivity. Qed.

(** Refuted for the first step: the value of every month is 5, yet the first step uses the initial value 1; the following steps use 5. *)
Theorem c37_first_step_refuted : (forall d, specified always5 d 5) /\ exists m', run probe T24 1 0 probe_model (Ok m') /\
  m_rows m' = [Some (60370, [1]); Some (60371, [5]); Some (60372, [5])].
Proof.
  split; [exact always5_specified|].
  assert (Hv : timer_valid T24 1 = true) by (unfold timer_valid, T24; cbn [t_start t_end t_step]; rtest; reflexivity).
  assert (Hc : step_count T24 1 = 3%Z) by (unfold step_count, T24; cbn [t_start t_end]; apply c_int_unique; lra).
  assert (Hu : forall s, In s (m_series probe_model) -> usable T24 1 s).
  { intros s [<-|[]]. unfold usable, well_dated, date_of, T24, rain24. cbn. repeat split; try lra; try discriminate. left; reflexivity. }
  assert (Hfr : fresh_model T24 probe_model) by (repeat split).
  pose proof (c34_forcing_of_the_dates _ _ _ _ _ probe T24 1 probe_model Hv Hfr) as K. rewrite Hc in K. specialize (K eq_refl Hu). cbv zeta in K. destruct K as (f & _ & K).
  destruct (spec_run_total probe 1 f ltac:(intros; eexists; reflexivity) ltac:(intros; eexists; reflexivity) (period_dates (t_start T24) 1 (Z.to_nat 3)) (m_phys probe_model) (m_params probe_model)) as ([[[rows p] u] g] & Er).
  change (m_manager probe_model) with (@new_manager unit) in K. rewrite Er in K. destruct K as (m' & R1 & R2 & _). exists m'. split; [exact R1|].
  assert (HE : shows_parameters probe).
  { split; [intros d u0 u1 H; cbn; rewrite H; reflexivity|]. intros ? ? ? ? ? ? [= <-]. reflexivity. }
  destruct (c37_in_a_run _ _ _ probe T24 1 probe_model m' [always5_parameter] HE ltac:(discriminate) always5_accepted ltac:(cbn [T24 t_start]; rewrite year24; discriminate) Hv Hfr) as (L & S1);
    [rewrite Hc; reflexivity|exact Hu|reflexivity|exact R1|].
  rewrite Hc in L. rewrite R2 in L, S1 |- *. rewrite map_length in L.
  destruct rows as [|[d0 r0] [|[d1 r1] [|[d2 r2] [|]]]]; try discriminate L. cbn [map] in S1 |- *.
  assert (Use : forall k v, in_use always5 1 (later_dates T24 1 k) v -> v = match k with O => 1 | _ => 5 end).
  { intros k v H. inversion H as [E|l' d' v' Hs E|l' d' v' Hs Hu' E].
    - destruct k; [reflexivity|discriminate].
    - destruct k; [destruct l'; discriminate E|]. exact (specified_unique always5 (Monthly (repeat (Some 5) 12)) d' v 5 eq_refl Hs (always5_specified d')).
    - destruct (Hs 5 (always5_specified d')). }
  assert (Row : forall k d r, nth_error [Some (d0, r0); Some (d1, r1); Some (d2, r2)] k = Some (Some (d, r)) -> d = t_start T24 + INR k * 1 /\ r = [match k with O => 1 | _ => 5 end]).
  { intros k d r Hk. destruct (S1 k d r Hk) as (Hd & F). split; [exact Hd|]. inversion F as [|? x ? l Hx Hl]; subst. inversion Hl; subst. f_equal. exact (Use k x Hx). }
  destruct (Row 0%nat d0 r0 eq_refl) as (-> & ->). destruct (Row 1%nat d1 r1 eq_refl) as (-> & ->). destruct (Row 2%nat d2 r2 eq_refl) as (-> & ->).
  cbn [T24 t_start INR]. repeat match goal with |- _ :: _ = _ :: _ => apply f_equal2 | |- Some _ = Some _ => apply f_equal | |- (_, _) = (_, _) => apply f_equal2 | _ => lra || reflexivity end.
Qed.
Print Assumptions c37_first_step_refuted.

(** Refuted for dated values whose dates are not in increasing order: they are accepted, but the value for a date may be ignored. *)
Theorem c37_unsorted_dates_refuted : exists m, set_dated [1; 3; 2] [Some 5; Some 6; Some 7] = (true, m) /\ update_value m 2 = Ok None.
Proof.
  eexists. split; [reflexivity|]. cbn [update_value find_value length nth Nat.sub lower_bound Nat.eqb Nat.div2 Nat.add].
  rewrite (proj2 (Rltb_true 1 2)) by lra. rewrite (proj2 (Rltb_false 3 2)) by lra. cbn [lower_bound Nat.eqb Nat.div2 Nat.add nth].
  cbn [lower_bound Nat.eqb Nat.sub Nat.add Nat.ltb Nat.leb nth andb].
  unfold NearlyEqual. rewrite (proj2 (Rleb_false (Rabs (2 - 3)) 0)) by (rewrite Rabs_left; lra). rewrite (proj2 (Rleb_false (Rabs (2 - 1)) 0)) by (rewrite Rabs_right; lra).
  cbn [andb]. rewrite (proj2 (Rltb_false 2 1)) by lra. rewrite (proj2 (Rltb_false 2 2)) by lra. reflexivity.
Qed.
Print Assumptions c37_unsorted_dates_refuted.
