(** Property theorems: dated actions in a run (C29). *)
From Coq Require Import ZArith Reals Lra Lia List Sorted.
From Verif Require Import Base BaseFacts Clock TimeSeries Actions ActionsSpec ActionsFacts ModelRun RunSpec ClockFacts ModelRunFacts SupplyFacts RunMoreFacts PropertiesRun.
Open Scope R_scope.

(** In a run: actions are looked at only after a row, for the date of the next one.  The first row never depends on the registered actions. *)
Theorem c29_first_row_without_actions_refuted : forall (P U V A Row : Type) (E : engine P U V A Row) T dt (m m' : model P U V A Row),
  timer_valid T dt = true -> fresh_model T m -> length (m_rows m) = Z.to_nat (step_count T dt) -> (forall s, In s (m_series m) -> usable T dt s) ->
  run E T dt 0 m (Ok m') ->
  exists v p, Forall2 (fun s x => in_force s (t_start T) x) (m_series m) v /\ e_process E dt (t_start T) (m_params m) v (m_phys m) = Ok p /\
    nth_error (m_rows m') 0 = Some (Some (t_start T, e_row E p)).
Proof.
  intros P U V A Row E T dt m m' Hv Hfr Hl Hu Hr. pose proof (c34_forcing_of_the_dates P U V A Row E T dt m Hv Hfr Hl Hu) as K. cbv zeta in K.
  destruct K as (f & Hf & K). apply timer_facts in Hv. destruct Hv as (H1 & H2 & H3). pose proof (count_positive T dt ltac:(lra) H2) as C.
  destruct (Z.to_nat (step_count T dt)) as [|n] eqn:En; [lia|]. unfold period_dates in K, Hf. cbn [seq map] in K, Hf.
  replace (t_start T + INR 0 * dt) with (t_start T) in * by (cbn; lra). specialize (Hf (t_start T) ltac:(left; reflexivity)). exists (f (t_start T)).
  cbn [spec_run] in K. destruct (e_process E dt (t_start T) (m_params m) (f (t_start T)) (m_phys m)) as [p| |] eqn:Ep; cbn [bind] in K.
  2: { pose proof (run_deterministic E T dt _ _ _ _ Hr K). discriminate. }
  2: { pose proof (run_deterministic E T dt _ _ _ _ Hr K). discriminate. }
  exists p. split; [exact Hf|]. split; [reflexivity|].
  destruct (bind (e_recurring E (t_start T + dt) p) _) as [[[[rows p'] u'] g']| |] eqn:Eb.
  - destruct K as (m2 & R1 & R2 & _). pose proof (run_deterministic E T dt _ _ _ _ Hr R1) as X. injection X as <-. rewrite R2. cbn [map].
    destruct (e_recurring E (t_start T + dt) p); cbn [bind] in Eb; try discriminate. destruct (date_update _ _) as [[due g]| |]; cbn [bind] in Eb; try discriminate.
    destruct (apply_all E due a) as [p3| |]; cbn [bind] in Eb; try discriminate. destruct (spec_run _ _ _ _ _ _ _) as [[[[r1 q1] u1] g1]| |]; cbn [bind] in Eb; try discriminate.
    injection Eb as <- <- <- <-. reflexivity.
  - pose proof (run_deterministic E T dt _ _ _ _ Hr K). discriminate.
  - pose proof (run_deterministic E T dt _ _ _ _ Hr K). discriminate.
Qed.
Print Assumptions c29_first_row_without_actions_refuted.

(** An action dated the first day of the period, adding 100 to the store, takes effect on the second day only. *)
Definition adder_actions : engine R unit R R R :=
  mkE (fun _ _ _ v p => Ok (p + fold_right Rplus 0 v)) (fun _ p => Ok p) (fun x p => Ok (p + x)) (fun _ u => u) (fun p => p) (fun p => p) (fun p => p) (fun _ => 0).
Definition first_day_action (g : manager R) : model R unit R R R := mkMod 10 [rain] g tt true [None; None; None] 0 None 0.
Example c29_start_somewhere : exists g m', register [[(10, 100)]] new_manager = Ok g /\ run adder_actions T3 1 0 (first_day_action g) (Ok m') /\
  m_rows m' = [Some (10, 2); Some (11, 2 + 100 + 3); Some (12, 2 + 100 + 3 + 4)].
Proof.
  set (g := mkM [[(10, 100)]] (fun _ => 0%nat) [(10, 0%nat)] 0).
  assert (L1 : exists g1, date_update (10 + 1) g = Ok ([(10 + 1, (10, 100))], g1) /\ forall d, date_update d g1 = Ok ([], g1)).
  { eexists. split; [unfold date_update, g; cbn -[Rleb upd]; rewrite (proj2 (Rleb_true 10 (10 + 1))) by lra; cbn -[Rleb upd]; reflexivity|]. intros d. reflexivity. }
  destruct L1 as (g1 & L1 & L2).
  assert (Hu : forall s, In s (m_series (first_day_action g)) -> usable T3 1 s) by (intros s [<-|[]]; exact rain_usable).
  assert (Hfr : fresh_model T3 (first_day_action g)) by (repeat split).
  pose proof (c34_forcing_of_the_dates _ _ _ _ _ adder_actions T3 1 (first_day_action g) T3_valid Hfr) as K. rewrite T3_count in K. specialize (K eq_refl Hu). cbn zeta in K.
  destruct K as (f & Hf & K). unfold period_dates in K, Hf. change (Z.to_nat 3) with 3%nat in *. cbn [seq map] in K, Hf.
  assert (V0 : forall i d x, In d [10; 11; 12] -> d = 9 + INR i -> nth_error [1; 2; 3; 4; 5] i = Some x -> f d = [x]).
  { intros i d x Hd Ed Hx. assert (Hin : In d [t_start T3 + INR 0 * 1; t_start T3 + INR 1 * 1; t_start T3 + INR 2 * 1]).
    { cbn in Hd |- *. destruct Hd as [<-|[<-|[<-|[]]]]; [left|right; left|right; right; left]; lra. }
    specialize (Hf d Hin). inversion Hf as [|? v ? l (j & Hj & Hjd) Hl]; subst. inversion Hl; subst. unfold date_of in Hjd. cbn [rain s_start s_step s_unit unit_days] in Hjd. cbn [rain s_values] in Hj.
    assert (j = i). { apply (index_unique 1 ltac:(lra) 9 (9 + INR i)); [rewrite !S_INR in *; lra|rewrite !S_INR; lra]. }
    subst j. rewrite Hx in Hj. injection Hj as ->. reflexivity. }
  replace (t_start T3 + INR 0 * 1) with 10 in K by (cbn; lra). replace (t_start T3 + INR 1 * 1) with 11 in K by (cbn; lra). replace (t_start T3 + INR 2 * 1) with 12 in K by (cbn; lra).
  pose proof (V0 1%nat 10 2 ltac:(left; reflexivity) ltac:(cbn; lra) eq_refl) as V1.
  pose proof (V0 2%nat 11 3 ltac:(right; left; reflexivity) ltac:(cbn; lra) eq_refl) as V2.
  pose proof (V0 3%nat 12 4 ltac:(right; right; left; reflexivity) ltac:(cbn; lra) eq_refl) as V3.
  cbn [spec_run adder_actions e_process e_recurring e_apply e_row e_forget_updates e_update first_day_action m_phys m_params m_manager bind] in K. rewrite V1, V2, V3, L1 in K.
  cbn [bind apply_all e_apply] in K. rewrite L2 in K. cbn [bind apply_all] in K. rewrite L2 in K. cbn [bind apply_all map fold_right] in K.
  destruct K as (m' & R1 & R2 & _). exists g, m'. split; [reflexivity|]. split; [exact R1|]. rewrite R2. cbn [map].
  repeat match goal with |- _ :: _ = _ :: _ => apply f_equal2 | |- Some _ = Some _ => apply f_equal | |- (_, _) = (_, _) => apply f_equal2 | _ => lra || reflexivity end.
Qed.
