(** Running again after a reset. *)
From Verif Require Import Base BaseFacts Clock TimeSeries Actions ModelRun RunSpec ClockFacts ModelRunFacts.
Open Scope R_scope.

Lemma fire_static {A} d : forall l (m : manager A) log m', fire d l m = Ok (log, m') -> m_actions m' = m_actions m /\ m_sched m' = m_sched m.
Proof.
  induction l as [|[dd a] l IH]; intros m log m' H; cbn [fire] in H.
  - injection H as <- <-. auto.
  - destruct (Rleb dd d); [|injection H as <- <-; auto].
    destruct (nth_error (m_actions m) a) as [ch|]; [|discriminate]. destruct (nth_error ch (m_cursors m a)) as [x|]; [|discriminate].
    destruct (fire d l _) as [[l1 m1]| |] eqn:E; cbn [bind] in H; try discriminate. injection H as <- <-. apply IH in E. exact E.
Qed.

Section Rerun.
Context {P U V A Row : Type}.
Variable E : engine P U V A Row.
Variable T : timer.
Variable dt : R.
Variable forcing : R -> list V.
Notation model := (model P U V A Row).

Lemma spec_static dates : forall p u (g : manager A) rows p' u' g', spec_run E dt forcing dates p u g = Ok (rows, p', u', g') ->
  m_actions g' = m_actions g /\ m_sched g' = m_sched g.
Proof.
  induction dates as [|d l IH]; intros p u g rows p' u' g' H; cbn [spec_run] in H.
  - injection H as <- <- <- <-. auto.
  - destruct (e_process E dt d u (forcing d) p) as [p1| |]; cbn [bind] in H; try discriminate.
    destruct (e_recurring E (d + dt) p1) as [p2| |]; cbn [bind] in H; try discriminate.
    destruct (date_update (d + dt) g) as [[due g1]| |] eqn:Eu; cbn [bind] in H; try discriminate.
    destruct (apply_all E due p2) as [p3| |]; cbn [bind] in H; try discriminate.
    destruct (spec_run E dt forcing l (e_forget_updates E p3) (e_update E (d + dt) u) g1) as [[[[r1 q1] u1] g2]| |] eqn:Es; cbn [bind] in H; try discriminate.
    injection H as <- <- <- <-. apply IH in Es. unfold date_update in Eu. apply fire_static in Eu. destruct Es, Eu. split; congruence.
Qed.

(** A run with spin-up whose warm-up fails does not succeed. *)
Lemma run_needs_warm_up k n (m m1 : model) r : (0 < k <= n)%nat -> fresh_model T m -> init_series m = Ok m1 -> supplied dt forcing (m_series m1) (t_start T) n ->
  run E T dt k m (Ok r) -> exists p, warm_up E dt forcing (period_dates (t_start T) dt k) (m_params m) (m_phys m) = Ok p.
Proof.
  intros Hk (Hd & Ha & Hr) Hi Hs X.
  assert (Em : m1 = set_series m (m_series m1)).
  { unfold init_series in Hi. destruct (map_outcome _ (m_series m)); cbn [bind] in Hi; try discriminate. injection Hi as <-. destruct m; reflexivity. }
  assert (Hd1 : m_date m1 = t_start T) by (rewrite Em; destruct m; cbn in *; exact Hd).
  assert (R := run_spinup_spec E T dt forcing k m m1 Hi Hd Ha). rewrite Hd1 in R. specialize (R (supplied_less _ _ _ _ n k (proj2 Hk) Hs)).
  destruct (warm_up E dt forcing (period_dates (t_start T) dt k) (m_params m) (m_phys m)) as [p| |]; [eauto| |]; exfalso; cbn [bind] in R;
  (inversion X as [? q1 q2 ? X1 X2 X3|? e X1 X2|? q1 e X1 X2 X3]; subst;
   [ rewrite Hi in X1; injection X1 as <-; replace (0 <? k)%nat with true in X2 by (symmetry; apply Nat.ltb_lt; lia); rewrite R in X2; discriminate
   | exact (X2 r eq_refl)
   | exact (X3 r eq_refl) ]).
Qed.

Theorem rerun k n (m m1 r : model) : (k <= n)%nat -> fresh_model T m -> init_series m = Ok m1 -> supplied dt forcing (m_series m1) (t_start T) n ->
  fills_period (t_start T) (t_end T) dt n -> length (m_rows m) = n -> m_manager m = reset_manager (m_manager m) ->
  run E T dt k m (Ok r) -> e_reset E (m_phys r) = m_phys m -> m_params r = m_params m ->
  exists r2, run E T dt k (reset E T r) (Ok r2) /\ m_rows r2 = m_rows r /\ m_phys r2 = m_phys r /\ m_initial r2 = m_initial r /\ m_params r2 = m_params r.
Proof.
  intros Hk Hfr Hi Hs Hf Hl Hg Hrun Hp Hu. pose proof Hfr as (Hd & Ha & Hrow).
  (* the start of the real run: [p0] are the stores at its beginning *)
  assert (Hstart : exists p0, (run E T dt 0 (set_phys m p0) (Ok r)) /\
    (forall q : model, fresh_model T q -> init_series q = Ok (set_series q (m_series m1)) -> m_params q = m_params m -> m_phys q = m_phys m ->
      forall z, run E T dt 0 (set_phys q p0) z -> run E T dt k q z)).
  { destruct k as [|k].
    - exists (m_phys m). split; [destruct m; exact Hrun|]. intros q _ _ _ Hq z. rewrite <- Hq. destruct q. auto.
    - destruct (run_needs_warm_up (S k) n m m1 r ltac:(lia) Hfr Hi Hs Hrun) as (p & Hw). exists (e_restore_fractions E p). split.
      + apply (proj1 (run_spinup_equiv E T dt forcing (S k) n m m1 p ltac:(lia) Hfr Hi Hs Hw (Ok r)) Hrun).
      + intros q Hq Hiq Hqu Hqp z Hz. eapply (proj2 (run_spinup_equiv E T dt forcing (S k) n q _ p ltac:(lia) Hq Hiq Hs ltac:(rewrite Hqu, Hqp; exact Hw) z)). exact Hz. }
  destruct Hstart as (p0 & Hrun0 & Hback).
  assert (Hi0 : init_series (set_phys m p0) = Ok (set_phys m1 p0)).
  { unfold init_series in *. cbn [set_phys m_date m_series] in *. destruct (map_outcome _ (m_series m)); cbn [bind] in *; try discriminate. injection Hi as <-. reflexivity. }
  pose proof (run_spec_thm E T dt forcing n (set_phys m p0) (set_phys m1 p0)) as S1. cbn [set_phys m_series m_rows m_phys m_params m_manager] in S1.
  specialize (S1 (conj Hd (conj Ha Hrow)) Hi0 Hs Hf Hl).
  destruct (spec_run E dt forcing (period_dates (t_start T) dt n) p0 (m_params m) (m_manager m)) as [[[[rows p'] u'] g']| |] eqn:Esp.
  2: { pose proof (run_deterministic E T dt _ _ _ _ Hrun0 S1). discriminate. }
  2: { pose proof (run_deterministic E T dt _ _ _ _ Hrun0 S1). discriminate. }
  destruct S1 as (r' & R1 & I1 & I2 & I3 & I4 & I5 & I6 & I7 & I8).
  pose proof (run_deterministic E T dt _ _ _ _ Hrun0 R1) as Er. injection Er as <-.
  destruct (spec_static _ _ _ _ _ _ _ _ Esp) as (G1 & G2).
  assert (Hser : map_outcome (fun s => bind (set_cursor (t_start T) s) (fun '(ok, s') => if ok : bool then Ok s' else Throw)) (m_series r) = Ok (m_series m1)).
  { rewrite <- Hd. apply (init_again m m1 n (m_series r) Hi). exact I8. }
  set (q := reset E T r). assert (Hq : fresh_model T q) by (split; [reflexivity|split; [exact I7|reflexivity]]).
  assert (Hiq : init_series q = Ok (set_series q (m_series m1))).
  { unfold init_series, q. cbn [reset m_date m_series]. rewrite Hser. reflexivity. }
  assert (Hqg : m_manager q = m_manager m).
  { unfold q. cbn [reset m_manager]. rewrite Hg. unfold reset_manager. rewrite I3, G1, G2. reflexivity. }
  assert (Hiq0 : init_series (set_phys q p0) = Ok (set_phys (set_series q (m_series m1)) p0)).
  { unfold init_series in *. cbn [set_phys m_date m_series] in *. unfold q. cbn [reset m_date m_series]. rewrite Hser. reflexivity. }
  pose proof (run_spec_thm E T dt forcing n (set_phys q p0) _ (conj eq_refl (conj I7 eq_refl)) Hiq0 Hs Hf) as S2.
  cbn [set_phys m_rows m_phys m_params m_manager] in S2. rewrite Hqg in S2.
  replace (m_params q) with (m_params m) in S2 by (symmetry; exact Hu). rewrite Esp in S2.
  destruct S2 as (r2 & R2 & J1 & J2 & J3 & J4 & J5 & J6 & _).
  { unfold q. cbn [reset m_rows]. rewrite I4, map_length. pose proof (f_equal (@length _) I5) as L. rewrite map_length in L. rewrite L.
    unfold period_dates. rewrite map_length, seq_length. reflexivity. }
  exists r2. split; [|split; [congruence|split; [congruence|split; [congruence|congruence]]]].
  apply Hback; auto.
Qed.
End Rerun.
