(** Series suited to the period supply the run with the values in force. *)
From Verif Require Import Base BaseFacts Clock TimeSeries Actions ModelRun RunSpec ClockFacts ModelRunFacts.
Open Scope R_scope.

Section Supply.
Context {V : Type}.
Variable T : timer.
Variable dt : R.
Hypothesis Hdt : 0 < dt.

Lemma date_of_usable (s : series V) : s_step s = 1%Z -> dt = unit_days (s_unit s) -> forall i, date_of s i = s_start s + INR i * dt.
Proof. intros H1 H2 i. unfold date_of. rewrite H1, <- H2. lra. Qed.

Lemma usable_positioned (s : series V) : usable T dt s -> t_start T <= t_end T ->
  exists c, set_cursor (t_start T) s = Ok (true, with_cursor s (Z.of_nat c)) /\ date_of s c <= t_start T < date_of s (S c).
Proof.
  intros ((Hne & Hend) & H1 & H2 & H3 & H4 & H5) HT. pose proof (date_of_usable s H1 H2) as D.
  assert (H0 : 0 <= t_start T - s_start s) by lra. assert (H6 : t_start T <= s_end s) by lra.
  destruct H5 as [Hu|(Hu & k & Hk)].
  - set (c := c_int (t_start T - s_start s)). pose proof (c_int_spec _ H0) as S. pose proof (c_int_nonneg _ H0) as N. fold c in S, N.
    exists (Z.to_nat c). rewrite Z2Nat.id by exact N. split; [apply set_cursor_day; auto|].
    rewrite !D, S_INR, INR_IZR_INZ, Z2Nat.id by exact N. rewrite Hu in H2. cbn in H2. subst dt. lra.
  - assert (Hk0 : (0 <= k)%Z) by (apply le_IZR; lra).
    destruct Hu as [Hu|Hu]; rewrite Hu in H2; cbn in H2.
    + exists (Z.to_nat (k * 24)). rewrite Z2Nat.id by lia. split; [apply set_cursor_hour; auto; lra|].
      rewrite !D, S_INR, INR_IZR_INZ, Z2Nat.id by lia. rewrite mult_IZR. subst dt. lra.
    + exists (Z.to_nat (k * 1440)). rewrite Z2Nat.id by lia. split; [apply set_cursor_minute; auto; lra|].
      rewrite !D, S_INR, INR_IZR_INZ, Z2Nat.id by lia. rewrite mult_IZR. subst dt. lra.
Qed.

(** The index of the value in force is the only one. *)
Lemma index_unique a d i j : a + INR i * dt <= d < a + INR (S i) * dt -> a + INR j * dt <= d < a + INR (S j) * dt -> i = j.
Proof.
  intros H1 H2. rewrite S_INR in *. destruct (Nat.lt_trichotomy i j) as [L|[L|L]]; [|exact L|].
  - assert (INR i + 1 <= INR j) by (rewrite <- S_INR; apply le_INR; lia). assert ((INR i + 1) * dt <= INR j * dt) by (apply Rmult_le_compat_r; lra). lra.
  - assert (INR j + 1 <= INR i) by (rewrite <- S_INR; apply le_INR; lia). assert ((INR j + 1) * dt <= INR i * dt) by (apply Rmult_le_compat_r; lra). lra.
Qed.

Lemma usable_supplies (s : series V) c n : usable T dt s -> date_of s c <= t_start T < date_of s (S c) ->
  (forall i, (i < n)%nat -> t_start T + INR i * dt <= t_end T) ->
  (c + n <= length (s_values s) \/ n = 0)%nat /\
  (forall i v, (i < n)%nat -> in_force s (t_start T + INR i * dt) v -> nth_error (s_values s) (c + i) = Some v) /\
  (forall i, (i < n)%nat -> exists v, in_force s (t_start T + INR i * dt) v).
Proof.
  intros ((Hne & Hend) & H1 & H2 & H3 & H4 & H5) Hc Hn. pose proof (date_of_usable s H1 H2) as D.
  assert (Hlen : forall i, (i < n)%nat -> (c + i < length (s_values s))%nat).
  { intros i Hi. specialize (Hn i Hi). assert (L : (0 < length (s_values s))%nat) by (destruct (s_values s); [contradiction|cbn; lia]).
    destruct (Nat.lt_ge_cases (c + i) (length (s_values s))) as [X|X]; [exact X|]. exfalso.
    rewrite Hend, D in H4. rewrite D in Hc. assert (INR (length (s_values s) - 1) + 1 <= INR c + INR i) by (rewrite <- S_INR, <- plus_INR; apply le_INR; lia).
    assert (INR (length (s_values s) - 1) * dt + dt <= INR c * dt + INR i * dt).
    { replace (INR (length (s_values s) - 1) * dt + dt) with ((INR (length (s_values s) - 1) + 1) * dt) by lra.
      replace (INR c * dt + INR i * dt) with ((INR c + INR i) * dt) by lra. apply Rmult_le_compat_r; lra. }
    lra. }
  split; [|split].
  - destruct n as [|n]; [right; reflexivity|left]. specialize (Hlen n ltac:(lia)). lia.
  - intros i v Hi (j & Hj & Hd). replace (c + i)%nat with j; [exact Hj|]. rewrite !D in *.
    apply (index_unique (s_start s) (t_start T + INR i * dt)); [exact Hd|]. rewrite !S_INR, plus_INR in *. lra.
  - intros i Hi. specialize (Hlen i Hi). destruct (nth_error (s_values s) (c + i)) as [v|] eqn:E; [|apply nth_error_None in E; lia].
    exists v, (c + i)%nat. split; [exact E|]. rewrite !D in *. rewrite ?S_INR, ?plus_INR in *. lra.
Qed.

Lemma map_outcome_positions (l : list (series V)) : (forall s, In s l -> usable T dt s) -> t_start T <= t_end T ->
  exists cs, length cs = length l /\
    map_outcome (fun s => bind (set_cursor (t_start T) s) (fun '(ok, s') => if ok : bool then Ok s' else Throw)) l =
      Ok (map (fun '(s, c) => with_cursor s (Z.of_nat c)) (combine l cs)) /\
    Forall2 (fun s c => date_of s c <= t_start T < date_of s (S c)) l cs.
Proof.
  induction l as [|s l IH]; intros H HT.
  - exists []. repeat split. constructor.
  - destruct (usable_positioned s (H s (or_introl eq_refl)) HT) as (c & E & Hc).
    destruct IH as (cs & I1 & I2 & I3); [intros; apply H; right; assumption|exact HT|].
    exists (c :: cs). split; [cbn; congruence|]. split; [|constructor; assumption].
    cbn [map_outcome combine map]. rewrite E. cbn [bind]. rewrite I2. reflexivity.
Qed.

Lemma series_supplied {P U A Row} (m : model P U V A Row) forcing n :
  m_date m = t_start T -> t_start T <= t_end T -> (forall s, In s (m_series m) -> usable T dt s) ->
  (forall i, (i < n)%nat -> t_start T + INR i * dt <= t_end T) -> (0 < n)%nat ->
  (forall i, (i < n)%nat -> Forall2 (fun s v => in_force s (t_start T + INR i * dt) v) (m_series m) (forcing (t_start T + INR i * dt))) ->
  exists m1, init_series m = Ok m1 /\ supplied dt forcing (m_series m1) (t_start T) n.
Proof.
  intros Hd HT Hu Hn Hpos Hf. destruct (map_outcome_positions (m_series m) Hu HT) as (cs & Hlen & E & Hcs).
  unfold init_series. rewrite Hd, E. cbn [bind]. eexists. split; [reflexivity|]. cbn [set_series m_series]. clear E.
  split.
  - intros i Hi. specialize (Hf i Hi).
    assert (K : forall s c v, In s (m_series m) -> date_of s c <= t_start T < date_of s (S c) -> in_force s (t_start T + INR i * dt) v -> nth_error (s_values s) (c + i) = Some v).
    { intros s c v Hs Hc Hv. destruct (usable_supplies s c n (Hu s Hs) Hc Hn) as (_ & K & _). apply (K i v Hi Hv). }
    clear Hu. revert cs Hlen Hcs. induction Hf as [|s v l fv Hv Hf IH]; intros cs Hlen Hcs.
    + reflexivity.
    + inversion Hcs as [|? c ? cs' Hc Hcs']; subst. cbn [combine map map_outcome].
      assert (Es : shift i (with_cursor s (Z.of_nat c)) = with_cursor s (Z.of_nat (c + i))) by (unfold shift, with_cursor; cbn; f_equal; lia).
      rewrite Es, (current_at s (c + i) v) by (apply K; [left; reflexivity|exact Hc|exact Hv]). cbn [bind].
      rewrite IH; [reflexivity|intros; apply K; auto; right; assumption|cbn in Hlen; congruence|exact Hcs'].
  - intros s Hs. apply in_map_iff in Hs. destruct Hs as ([s0 c] & <- & Hin). cbn [with_cursor s_cursor s_values].
    assert (Hb : In s0 (m_series m) /\ date_of s0 c <= t_start T < date_of s0 (S c)).
    { clear - Hcs Hin. revert Hin. induction Hcs as [|a b l l' Hab Hl IH]; cbn; [contradiction|]. intros [[= <- <-]|Hin]; [auto|]. destruct (IH Hin); auto. }
    destruct Hb as (Hb1 & Hb2). destruct (usable_supplies s0 c n (Hu s0 Hb1) Hb2 Hn) as ([K|K] & _); [|lia]. rewrite <- Nat2Z.inj_add. apply inj_le. exact K.
Qed.

(** Values in force exist at every date of the period. *)
Lemma forcing_exists (l : list (series V)) d : (forall s, In s l -> exists v, in_force s d v) -> exists vs, Forall2 (fun s v => in_force s d v) l vs.
Proof.
  induction l as [|s l IH]; intros H; [exists []; constructor|].
  destruct (H s (or_introl eq_refl)) as (v & Hv). destruct IH as (vs & Hvs); [intros; apply H; right; assumption|]. exists (v :: vs). constructor; assumption.
Qed.
End Supply.
