(** More facts on runs: rows, values for a date, accepted series. *)
From Verif Require Import Base BaseFacts Clock TimeSeries Actions ModelRun RunSpec ClockFacts ModelRunFacts SupplyFacts.
Open Scope R_scope.

Section Rows.
Context {P U V A Row : Type}.
Variable E : engine P U V A Row.
Variable T : timer.
Variable dt : R.
Notation model := (model P U V A Row).

Lemma step_rows (m m1 : model) : sim_step E dt m = Ok m1 ->
  m_date m1 = m_date m + dt /\ m_row m1 = S (m_row m) /\ (m_row m < length (m_rows m))%nat /\
  exists x, m_rows m1 = firstn (m_row m) (m_rows m) ++ Some (m_date m, x) :: skipn (S (m_row m)) (m_rows m).
Proof.
  unfold sim_step, process. destruct (map_outcome current_value (m_series m)) as [v| |]; cbn [bind]; try discriminate.
  destruct (e_process E dt (m_date m) (m_params m) v (m_phys m)) as [p| |]; cbn [bind]; try discriminate.
  unfold record_row. cbn [set_phys m_rows m_row]. destruct (nth_error (m_rows m) (m_row m)) eqn:En; cbn [bind]; try discriminate.
  unfold increment_time. cbn [set_phys m_rows m_row m_date m_attached m_phys m_manager m_params m_series m_initial].
  assert (L : (m_row m < length (m_rows m))%nat) by (apply nth_error_Some; congruence).
  destruct (m_attached m).
  - destruct (e_recurring E (m_date m + dt) p) as [p2| |]; cbn [bind]; try discriminate.
    destruct (date_update (m_date m + dt) (m_manager m)) as [[due g]| |]; cbn [bind]; try discriminate.
    destruct (apply_all E due p2) as [p3| |]; cbn [bind]; try discriminate.
    unfold update_forcing, next_row. cbn [m_series]. destruct (map_outcome _ (m_series m)); cbn [bind]; try discriminate.
    intros [= <-]. cbn. eauto.
  - cbn [bind]. unfold update_forcing, next_row, set_date. cbn [m_series]. destruct (map_outcome _ (m_series m)); cbn [bind]; try discriminate.
    intros [= <-]. cbn. eauto.
Qed.

Lemma sim_rows (m : model) o : sim_loop E T dt m o -> forall m', o = Ok m' -> forall n, fills_period (m_date m) (t_end T) dt n -> (m_row m + n = length (m_rows m))%nat ->
  exists rows, m_rows m' = firstn (m_row m) (m_rows m) ++ map Some rows /\ map fst rows = period_dates (m_date m) dt n.
Proof.
  induction 1 as [m Hov|m m1 r Hov Hst Hl IH|m Hov Hst|m Hov Hst]; intros m' Eo n Hf Hn; try discriminate.
  - injection Eo as <-. destruct n as [|n].
    + exists []. rewrite firstn_all2 by lia. cbn. rewrite app_nil_r. auto.
    + exfalso. destruct Hf as [Hf _]. specialize (Hf 0%nat ltac:(lia)). cbn in Hf. unfold is_over in Hov. apply Rltb_true in Hov. lra.
  - destruct n as [|n].
    { exfalso. destruct Hf as [_ Hf]. cbn in Hf. unfold is_over in Hov. apply Rltb_false in Hov. lra. }
    destruct (step_rows m m1 Hst) as (D1 & R1 & L1 & x & X).
    assert (Hlen : length (m_rows m1) = length (m_rows m)).
    { rewrite X, app_length, firstn_length. cbn [length]. rewrite skipn_length. lia. }
    destruct (IH m' Eo n) as (rows & Y1 & Y2).
    + rewrite D1. destruct Hf as [F1 F2]. split.
      * intros i Hi. specialize (F1 (S i) ltac:(lia)). rewrite S_INR in F1. lra.
      * rewrite S_INR in F2. lra.
    + lia.
    + exists ((m_date m, x) :: rows). split.
      * rewrite Y1, R1, X. rewrite firstn_app, firstn_firstn, firstn_length. replace (Nat.min (S (m_row m)) (m_row m)) with (m_row m) by lia.
        replace (S (m_row m) - Nat.min (m_row m) (length (m_rows m)))%nat with 1%nat by lia. cbn [firstn map]. rewrite <- app_assoc. reflexivity.
      * rewrite period_S. cbn. rewrite Y2, D1. reflexivity.
Qed.

Lemma spinup_keeps k : forall (m m1 : model), spinup_steps E dt k m = Ok m1 -> m_row m1 = m_row m /\ m_rows m1 = m_rows m.
Proof.
  induction k as [|k IH]; intros m m1 H; cbn [spinup_steps] in H.
  - injection H as <-. auto.
  - unfold process in H. destruct (map_outcome current_value (m_series m)) as [v| |]; cbn [bind] in H; try discriminate.
    destruct (e_process E dt (m_date m) (m_params m) v (m_phys m)) as [p| |]; cbn [bind] in H; try discriminate.
    assert (K : forall m2, increment_time E dt (set_phys m p) = Ok m2 -> m_row m2 = m_row m /\ m_rows m2 = m_rows m).
    { intros m2. unfold increment_time. cbn [set_phys m_rows m_row m_date m_attached m_phys m_manager m_params m_series m_initial]. destruct (m_attached m).
      - destruct (e_recurring E (m_date m + dt) p) as [p2| |]; cbn [bind]; try discriminate.
        destruct (date_update (m_date m + dt) (m_manager m)) as [[due g]| |]; cbn [bind]; try discriminate.
        destruct (apply_all E due p2) as [p3| |]; cbn [bind]; try discriminate. intros [= <-]. auto.
      - intros [= <-]. auto. }
    destruct (increment_time E dt (set_phys m p)) as [m2| |]; cbn [bind] in H; try discriminate. specialize (K m2 eq_refl).
    unfold update_forcing in H. destruct (map_outcome _ (m_series m2)); cbn [bind] in H; try discriminate.
    apply IH in H. cbn [set_phys set_series m_row m_rows] in H. destruct H, K. split; congruence.
Qed.

Lemma init_keeps (m m1 : model) : init_series m = Ok m1 -> m_row m1 = m_row m /\ m_rows m1 = m_rows m /\ m_date m1 = m_date m.
Proof. unfold init_series. destruct (map_outcome _ (m_series m)); cbn [bind]; try discriminate. intros [= <-]. auto. Qed.

Lemma run_rows k n (m m' : model) : m_date m = t_start T -> m_row m = 0%nat -> length (m_rows m) = n -> fills_period (t_start T) (t_end T) dt n ->
  run E T dt k m (Ok m') -> exists rows, m_rows m' = map Some rows /\ map fst rows = period_dates (t_start T) dt n.
Proof.
  intros Hd Hr Hn Hf H. inversion H as [? m1 m2 ? A1 A2 A3|? e A1 A2|? m1 e A1 A2 A3]; subst.
  2: { exfalso. exact (A2 m' eq_refl). }
  2: { exfalso. exact (A3 m' eq_refl). }
  destruct (init_keeps _ _ A1) as (R1 & R2 & R3).
  assert (K : m_row m2 = 0%nat /\ m_rows m2 = m_rows m /\ m_date m2 = t_start T).
  { destruct (0 <? k)%nat.
    - unfold run_spinup in A2. destruct (spinup_steps E dt k (set_attached m1 false)) as [m3| |] eqn:Es; cbn [bind] in A2; try discriminate.
      apply spinup_keeps in Es. apply init_keeps in A2. cbn [set_attached set_date set_phys m_row m_rows m_date] in *. destruct Es as (E1 & E2), A2 as (B1 & B2 & B3). repeat split; congruence.
    - injection A2 as <-. repeat split; congruence. }
  destruct K as (K1 & K2 & K3).
  destruct (sim_rows _ _ A3 m' eq_refl (length (m_rows m))) as (rows & Y1 & Y2).
  - cbn. rewrite K3. exact Hf.
  - cbn. rewrite K1, K2. reflexivity.
  - cbn in Y1, Y2. rewrite K1 in Y1. rewrite K3 in Y2. exists rows. split; [exact Y1|exact Y2].
Qed.
End Rows.

Section Values.
Context {V : Type}.

Lemma cover_index (s : series V) c : well_dated s -> 0 < IZR (s_step s) * unit_days (s_unit s) -> date_of s c <= s_end s -> (c < length (s_values s))%nat.
Proof.
  intros (Hne & Hend) Hp Hc. assert (L : (0 < length (s_values s))%nat) by (destruct (s_values s); [contradiction|cbn; lia]).
  destruct (Nat.lt_ge_cases c (length (s_values s))) as [X|X]; [exact X|]. exfalso. rewrite Hend in Hc. unfold date_of in Hc.
  assert (INR (length (s_values s) - 1) + 1 <= INR c) by (rewrite <- S_INR; apply le_INR; lia).
  set (w := IZR (s_step s) * unit_days (s_unit s)) in *. assert (INR (length (s_values s) - 1) * w + w <= INR c * w) by nra. lra.
Qed.

(** Days: the value in force. *)
Lemma value_day (s : series V) date : well_dated s -> s_step s = 1%Z -> s_unit s = Day -> s_start s <= date <= s_end s ->
  exists v, in_force s date v /\ value_for date s = Ok v.
Proof.
  intros W Hs Hu Hd. set (c := c_int (date - s_start s)). pose proof (c_int_spec (date - s_start s) ltac:(lra)) as C. pose proof (c_int_nonneg (date - s_start s) ltac:(lra)) as C0. fold c in C, C0.
  assert (D : forall i, date_of s i = s_start s + INR i) by (intros i; unfold date_of; rewrite Hs, Hu; cbn [unit_days]; lra).
  assert (Ic : INR (Z.to_nat c) = IZR c) by (rewrite INR_IZR_INZ, Z2Nat.id; auto).
  assert (L : (Z.to_nat c < length (s_values s))%nat) by (apply cover_index; [exact W|rewrite Hs, Hu; cbn; lra|rewrite D, Ic; lra]).
  destruct (nth_error (s_values s) (Z.to_nat c)) as [v|] eqn:En; [|apply nth_error_None in En; lia].
  exists v. split.
  - exists (Z.to_nat c). split; [exact En|]. rewrite !D, S_INR, Ic. lra.
  - unfold value_for. rewrite (set_cursor_day s date c Hu) by lra. cbn [bind]. rewrite <- (Z2Nat.id c C0). apply current_at. exact En.
Qed.

(** Hours and minutes: the value at the beginning of the day counted from the start of the series. *)
Definition per_day (u : time_unit) : nat := match u with Day => 1 | Hour => 24 | Minute => Z.to_nat 1440 | _ => 0 end.
Lemma value_subday (s : series V) date (k : nat) : well_dated s -> s_step s = 1%Z -> s_unit s = Hour \/ s_unit s = Minute ->
  INR k <= date - s_start s < INR k + 1 -> date <= s_end s ->
  value_for date s = match nth_error (s_values s) (k * per_day (s_unit s)) with Some v => Ok v | None => UB end /\ (k * per_day (s_unit s) < length (s_values s))%nat.
Proof.
  intros W Hs Hu Hk He. pose proof (pos_INR k) as K0.
  assert (N : (k * per_day (s_unit s) < length (s_values s))%nat).
  { apply cover_index; [exact W|rewrite Hs; destruct Hu as [-> | ->]; cbn; lra|]. unfold date_of. rewrite Hs, mult_INR.
    destruct Hu as [-> | ->]; cbn [per_day unit_days]; [replace (INR 24) with 24 by (cbn; lra)|rewrite (INR_IZR_INZ (Z.to_nat 1440)), Z2Nat.id by lia]; lra. }
  split; [|exact N]. unfold value_for. rewrite INR_IZR_INZ in Hk, K0.
  destruct (nth_error (s_values s) (k * per_day (s_unit s))) as [v|] eqn:En; [|apply nth_error_None in En; lia].
  destruct Hu as [Hu|Hu]; rewrite Hu in *; cbn [per_day] in *.
  - rewrite (set_cursor_hour s date (Z.of_nat k) Hu) by lra. cbn [bind]. replace (Z.of_nat k * 24)%Z with (Z.of_nat (k * 24)) by lia. apply current_at. exact En.
  - rewrite (set_cursor_minute s date (Z.of_nat k) Hu) by lra. cbn [bind]. replace (Z.of_nat k * 1440)%Z with (Z.of_nat (k * Z.to_nat 1440)) by lia. apply current_at. exact En.
Qed.
End Values.

(** *** Time axis *)
Definition uniform_axis (t0 h : R) (n : nat) : list R := map (fun i => t0 + INR i * h) (seq 0 n).
Lemma axis_two t0 h n : (2 <= n)%nat -> exists l, uniform_axis t0 h n = t0 :: (t0 + h) :: l /\ last (uniform_axis t0 h n) 0 = t0 + INR (n - 1) * h.
Proof.
  intros H. destruct n as [|[|n]]; try lia. unfold uniform_axis. cbn [seq map]. eexists. split.
  - f_equal; [cbn; lra|]. f_equal. cbn; lra.
  - change (t0 + INR 0 * h :: t0 + INR 1 * h :: map (fun i => t0 + INR i * h) (seq 2 n)) with (map (fun i => t0 + INR i * h) (seq 0 (S (S n)))).
    rewrite seq_S, map_app. cbn [map]. rewrite last_last. reflexivity.
Qed.

Lemma c_round_int z : c_round (IZR z) = z.
Proof.
  unfold c_round. destruct (Rleb_spec 0 (IZR z)).
  - assert (up (IZR z + 1 / 2) = z + 1)%Z; [|lia]. symmetry. apply tech_up; rewrite plus_IZR; lra.
  - assert (up (1 / 2 - IZR z) = - z + 1)%Z; [|lia]. symmetry. apply tech_up; rewrite plus_IZR, opp_IZR; lra.
Qed.
Lemma extract_days n : (1 <= n)%Z -> extract_time_step (IZR n) = (n, Day).
Proof.
  intros H. unfold extract_time_step. destruct (Reqb_cases (IZR n) 1) as [(E1 & ->)|(E1 & ->)].
  - apply eq_IZR in E1. subst. reflexivity.
  - assert (1 < n)%Z. { assert (n <> 1)%Z by (intros ->; lra). lia. } rewrite (proj2 (Rltb_true 1 (IZR n))) by (apply IZR_lt; assumption). rewrite c_round_int. reflexivity.
Qed.
Lemma extract_hours n : (0 <= n <= 23)%Z -> extract_time_step (IZR n / 24) = (n, Hour).
Proof.
  intros H. assert (IZR n <= 23) by (apply IZR_le; lia). unfold extract_time_step. destruct (Reqb_cases (IZR n / 24) 1) as [(E1 & ->)|(E1 & ->)]; [lra|].
  rewrite (proj2 (Rltb_false 1 (IZR n / 24))) by lra. replace (IZR n / 24 * 24) with (IZR n) by lra. rewrite c_round_int. reflexivity.
Qed.
Lemma extract_unit x n u : extract_time_step x = (n, u) -> u = Day \/ u = Hour.
Proof. unfold extract_time_step. destruct (Reqb x 1), (Rltb 1 x); intros [= <- <-]; auto. Qed.

Lemma create_dates {V} t0 h n (values : list V) s : (2 <= n)%nat -> create_series (uniform_axis t0 h n) values = Ok s ->
  s_values s = values /\ length values = n /\ s_start s = t0 /\ s_end s = t0 + INR (n - 1) * h /\ IZR (s_step s) * unit_days (s_unit s) = h /\ (s_unit s = Day \/ s_unit s = Hour) /\ s_cursor s = 0%Z.
Proof.
  intros Hn. destruct (axis_two t0 h n Hn) as (l & El & La). unfold create_series. rewrite La.
  assert (Len : length (uniform_axis t0 h n) = n) by (unfold uniform_axis; rewrite map_length, seq_length; reflexivity). rewrite Len, El.
  replace (t0 + h - t0) with h by lra. destruct (extract_time_step h) as [step u] eqn:Ex. apply extract_unit in Ex.
  destruct (Nat.eqb (length values) n) eqn:Eq; cbn [negb]; [|discriminate]. apply Nat.eqb_eq in Eq.
  unfold set_values. cbn [s_start s_end s_step s_unit s_cursor].
  match goal with |- context [Reqb ?a ?b] => destruct (Reqb_cases a b) as [(E1 & ->)|(E1 & ->)] end; [|discriminate].
  intros [= <-]. cbn. repeat split; auto. rewrite Eq in E1.
  assert (IN : INR (n - 1) = IZR (Z.of_nat n - 1)) by (rewrite INR_IZR_INZ; f_equal; lia).
  assert (N0 : 1 <= IZR (Z.of_nat n - 1)) by (apply (IZR_le 1); lia). rewrite IN in E1.
  apply Rmult_eq_reg_l with (IZR (Z.of_nat n - 1)); [|lra]. destruct Ex as [-> | ->]; cbn [increment_date unit_days] in *; rewrite mult_IZR in E1; lra.
Qed.

Lemma create_accepts {V} t0 h n (values : list V) step u : (2 <= n)%nat -> length values = n -> extract_time_step h = (step, u) -> IZR step * unit_days u = h ->
  create_series (uniform_axis t0 h n) values = Ok (mkS t0 (t0 + INR (n - 1) * h) step u values 0).
Proof.
  intros Hn Hl Ex Hh. destruct (axis_two t0 h n Hn) as (l & El & La). unfold create_series. rewrite La.
  assert (Len : length (uniform_axis t0 h n) = n) by (unfold uniform_axis; rewrite map_length, seq_length; reflexivity). rewrite Len, El.
  replace (t0 + h - t0) with h by lra. rewrite Ex.
  rewrite Hl, Nat.eqb_refl. cbn [negb]. unfold set_values. cbn [s_start s_end s_step s_unit s_cursor]. rewrite Hl.
  assert (IN : INR (n - 1) = IZR (Z.of_nat n - 1)) by (rewrite INR_IZR_INZ; f_equal; lia).
  match goal with |- context [Reqb ?a ?b] => destruct (Reqb_cases a b) as [(E1 & ->)|(E1 & ->)] end; [reflexivity|].
  exfalso. apply E1. rewrite IN. apply extract_unit in Ex. rewrite <- Hh. destruct Ex as [-> | ->]; cbn [increment_date unit_days]; rewrite mult_IZR; lra.
Qed.

(** *** Acceptance *)
Lemma add_series_spec {V} T l (f : forcing_series V) l' : add_series T l f = (true, l') <->
  l' = l ++ [f] /\ forcing_valid f = true /\ (forall g, In g l -> fs_type g <> fs_type f) /\
  exists id s rest, fs_data f = (id, s) :: rest /\ s_start s <= t_start T /\ t_end T <= s_end s.
Proof.
  unfold add_series. destruct (forcing_valid f); cbn [negb]; [|split; [discriminate|intros (_ & H & _); discriminate]].
  destruct (existsb (fun g => Nat.eqb (fs_type g) (fs_type f)) l) eqn:Ee.
  - split; [discriminate|]. intros (_ & _ & H & _). apply existsb_exists in Ee. destruct Ee as (g & Hg & Hq). apply Nat.eqb_eq in Hq. exfalso. exact (H g Hg Hq).
  - assert (NT : forall g, In g l -> fs_type g <> fs_type f).
    { intros g Hg Hq. assert (X : existsb (fun g => Nat.eqb (fs_type g) (fs_type f)) l = true); [|congruence]. apply existsb_exists. exists g. split; [exact Hg|]. apply Nat.eqb_eq. exact Hq. }
    unfold forcing_start, forcing_end. destruct (fs_data f) as [|[id s] rest].
    + split; [discriminate|]. intros (_ & _ & _ & i & s & r & X & _). discriminate.
    + cbn [snd]. destruct (Rltb (t_start T) (s_start s)) eqn:E1; [|destruct (Rltb (s_end s) (t_end T)) eqn:E2].
      * apply Rltb_true in E1. split; [discriminate|]. intros (_ & _ & _ & i & s' & r & [= <- <- <-] & X & _). lra.
      * apply Rltb_true in E2. split; [discriminate|]. intros (_ & _ & _ & i & s' & r & [= <- <- <-] & _ & X). lra.
      * apply Rltb_false in E1. apply Rltb_false in E2. split.
        -- intros [= <-]. repeat split; auto. exists id, s, rest. repeat split; auto; lra.
        -- intros (-> & _). reflexivity.
Qed.
Lemma add_series_refused {V} T l (f : forcing_series V) l' : add_series T l f = (false, l') -> l' = l.
Proof.
  unfold add_series. destruct (negb (forcing_valid f)); [congruence|]. destruct (existsb _ l); [congruence|]. destruct (forcing_start f), (forcing_end f); try congruence.
  destruct (Rltb (t_start T) r); [congruence|]. destruct (Rltb r0 (t_end T)); congruence.
Qed.

(** *** The forcing of a period *)
Definition forcing_of {V} (dt : R) (l : list (series V)) (d : R) : list V :=
  concat (map (fun s => match nth_error (s_values s) (Z.to_nat (c_int ((d - s_start s) / dt))) with Some v => [v] | None => [] end) l).
Lemma forcing_of_spec {V} T dt (l : list (series V)) n : 0 < dt -> t_start T <= t_end T -> (forall s, In s l -> usable T dt s) ->
  (forall i, (i < n)%nat -> t_start T + INR i * dt <= t_end T) ->
  forall i, (i < n)%nat -> Forall2 (fun s v => in_force s (t_start T + INR i * dt) v) l (forcing_of dt l (t_start T + INR i * dt)).
Proof.
  intros Hdt HT Hu Hn i Hi. induction l as [|s l IH]; [constructor|]. unfold forcing_of in *. cbn [map concat].
  pose proof (Hu s (or_introl eq_refl)) as Us. destruct (usable_positioned T dt Hdt s Us HT) as (c & _ & Hc).
  destruct (usable_supplies T dt Hdt s c n Us Hc Hn) as (_ & _ & K). destruct (K i Hi) as (v & j & Hj & Hd).
  destruct Us as (_ & H1 & H2 & _). rewrite !(date_of_usable dt s H1 H2) in Hd.
  assert (Ej : c_int ((t_start T + INR i * dt - s_start s) / dt) = Z.of_nat j).
  { rewrite S_INR in Hd. assert (X : INR j <= (t_start T + INR i * dt - s_start s) / dt < INR j + 1).
    { split; [apply Rmult_le_reg_r with dt|apply Rmult_lt_reg_r with dt]; auto; unfold Rdiv; rewrite ?Rmult_assoc, Rinv_l, ?Rmult_1_r by lra; lra. }
    pose proof (pos_INR j). apply c_int_unique; rewrite <- ?INR_IZR_INZ; lra. }
  rewrite Ej, Nat2Z.id, Hj. constructor; [exists j; rewrite !(date_of_usable dt s H1 H2); split; [exact Hj|exact Hd]|].
  apply IH. intros; apply Hu; right; assumption.
Qed.

Lemma timer_facts T dt : timer_valid T dt = true -> 0 < t_start T <= t_end T /\ 0 < dt /\ (0 < t_step T)%Z.
Proof.
  unfold timer_valid. rewrite !Bool.andb_true_iff. intros ((((H1 & H2) & H3) & H4) & H5).
  apply Rltb_true in H1, H5. apply Rleb_true in H3. apply Z.ltb_lt in H4. split; [lra|split; [lra|exact H4]].
Qed.
