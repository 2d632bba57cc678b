(** Concrete networks: cases that meet the hypotheses of the theorems, and counterexamples. *)
From Verif Require Import NetworkTools.

Lemma final_amount N dt e r s k : well_formed N -> In k (conn_ids N) ->
  s_amount (finalize_step N (apply_rates N dt e r s)) k = delivered N dt r k.
Proof.
  intros Hwf Hk. destruct (apply_rates_effect N dt e r s Hwf) as (_ & _ & _ & H). apply H, Hk.
Qed.
Ltac eval_amount :=
  rewrite final_amount by (first [well_formed_tac | cbn; tauto]);
  unfold delivered, applied, weighted; rcbn; rdecs; rtests; try num.
Tactic Notation "settle" constr(v) "by" tactic3(t) := rewrite (sweep_cons _ _ _ _ _ _ _ (vec v)) by t.

(** ** A two-storage catchment: soil (capacity 20, overflow) feeding groundwater. *)
Definition demo_net : net := mkNet [mkBrick (Some 20) false; mkBrick None false]
  [mkConn 0 (ToStore 1) Regular 1 false; mkConn 0 ToOutlet Regular 1 true;
   mkConn 1 ToOutlet Regular 1 false].
Definition demo_state : state := mkState (vec [18;5]) (vec []) (vec []) (vec []).
Definition demo_ext : external := mkExt (vec [7]) (vec []) (vec []).
Definition demo_law : law := fun _ => vec [2;0;6].

Lemma demo_wf : well_formed demo_net. Proof. well_formed_tac. Qed.
Lemma demo_forward : forward demo_net.
Proof.
  intros c b H E; cbn in H. repeat (destruct H as [<-|H]; [cbn in *; try discriminate; injection E as <-; lia|]).
  destruct H.
Qed.
Lemma demo_plain : plain demo_net.
Proof.
  intros c b H E; cbn in H. repeat (destruct H as [<-|H]; [cbn in *; try discriminate; split; reflexivity|]).
  destruct H.
Qed.
Lemma demo_caps : sound_caps demo_net.
Proof.
  intros b c H E; cbn in H. repeat (destruct H as [<-|H]; [cbn in E; try discriminate; injection E as <-; lra|]).
  destruct H.
Qed.
Lemma vec_nonneg l k : Forall (fun x => 0 <= x) l -> 0 <= vec l k.
Proof.
  intros H. unfold vec. revert k. induction H as [|x l Hx H IH]; intros [|k]; cbn; try lra. apply IH.
Qed.
Ltac vnn := apply vec_nonneg; repeat constructor; lra.
Lemma demo_ext_ok : nonneg_external demo_ext.
Proof. intros b; cbn [demo_ext e_seen e_hidden e_inst]; repeat split; vnn. Qed.
Lemma demo_committed : committed demo_state.
Proof. intros b; cbn; unfold vec; destruct b; auto. Qed.
Lemma demo_pos b : solid demo_net b -> 0 <= s_content demo_state b.
Proof. intros _. cbn [demo_state s_content]. vnn. Qed.

Lemma demo_rates : null_overflow demo_net (evaluate demo_net demo_law (deposit demo_ext demo_state)) = vec [2;0;6].
Proof. eval_rates 3%nat. Qed.
Lemma demo_enforce : enforce demo_net 1 demo_ext (deposit demo_ext demo_state) (vec [2;0;6]) = Ok (vec [2;3;6]).
Proof.
  unfold enforce. rewrite (enforce_go _ _ _ _ _ _ (vec [2;3;6])); [apply enforce_stop| |eval_stable];
    cbn [brick_ids seq length n_bricks demo_net]; try eval_stable.
  - settle [2;3;6] by (eval_constrain 3%nat). settle [2;3;6] by (eval_constrain 3%nat). reflexivity.
  - settle [2;3;6] by (eval_constrain 3%nat). settle [2;3;6] by (eval_constrain 3%nat). reflexivity.
Qed.
Definition demo_after : state := finalize_step demo_net (apply_rates demo_net 1 demo_ext (vec [2;3;6]) (deposit demo_ext demo_state)).
Lemma demo_euler : euler_step demo_net 1 demo_ext demo_law demo_state = Ok demo_after.
Proof. unfold euler_step. rewrite demo_rates, demo_enforce. reflexivity. Qed.
Lemma demo_after_contents : s_content demo_after 0%nat = 20 /\ s_content demo_after 1%nat = 1.
Proof. split; unfold demo_after; eval_content. Qed.
Lemma demo_after_overflow : s_amount demo_after 1%nat = 3.
Proof. unfold demo_after; eval_amount. Qed.

(** ** Oscillating sweeps: an upper store with an overflow percolates into a full store without overflow. *)
Definition osc_net : net := mkNet [mkBrick (Some 10) false; mkBrick (Some 8) false]
  [mkConn 0 (ToStore 1) Regular 1 false; mkConn 0 ToOutlet Regular 1 true].
Definition osc_state : state := mkState (vec [10;8]) (vec []) (vec []) (vec []).
Definition osc_ext : external := mkExt (vec [5]) (vec []) (vec []).
Definition osc_law : law := fun _ => vec [3;0].
Lemma osc_rates : null_overflow osc_net (evaluate osc_net osc_law (deposit osc_ext osc_state)) = vec [3;0].
Proof. eval_rates 2%nat. Qed.
Lemma osc_first : sweep osc_net 1 osc_ext (deposit osc_ext osc_state) (brick_ids osc_net) (vec [3;0]) = Ok (vec [0;2]).
Proof.
  cbn [brick_ids seq length n_bricks osc_net].
  settle [3;2] by (eval_constrain 2%nat). settle [0;2] by (eval_constrain 2%nat). reflexivity.
Qed.
Lemma osc_even : sweep osc_net 1 osc_ext (deposit osc_ext osc_state) (brick_ids osc_net) (vec [0;2]) = Ok (vec [0;3]).
Proof.
  cbn [brick_ids seq length n_bricks osc_net].
  settle [0;3] by (eval_constrain 2%nat). settle [0;3] by (eval_constrain 2%nat). reflexivity.
Qed.
Lemma osc_odd : sweep osc_net 1 osc_ext (deposit osc_ext osc_state) (brick_ids osc_net) (vec [0;3]) = Ok (vec [0;2]).
Proof.
  cbn [brick_ids seq length n_bricks osc_net].
  settle [0;2] by (eval_constrain 2%nat). settle [0;2] by (eval_constrain 2%nat). reflexivity.
Qed.
Lemma osc_enforce : enforce osc_net 1 osc_ext (deposit osc_ext osc_state) (vec [3;0]) = Ok (vec [0;3]).
Proof.
  unfold enforce.
  rewrite (enforce_go _ _ _ _ _ _ _ osc_first) by eval_stable.
  do 4 (rewrite (enforce_go _ _ _ _ _ _ _ osc_even) by eval_stable;
        rewrite (enforce_go _ _ _ _ _ _ _ osc_odd) by eval_stable).
  rewrite (enforce_go _ _ _ _ _ _ _ osc_even) by eval_stable. reflexivity.
Qed.
Definition osc_after : state := finalize_step osc_net (apply_rates osc_net 1 osc_ext (vec [0;3]) (deposit osc_ext osc_state)).
Lemma osc_euler : euler_step osc_net 1 osc_ext osc_law osc_state = Ok osc_after.
Proof. unfold euler_step. rewrite osc_rates, osc_enforce. reflexivity. Qed.
Lemma osc_content : s_content osc_after 0%nat = 12.
Proof. unfold osc_after; eval_content. Qed.
Lemma osc_wf : well_formed osc_net. Proof. well_formed_tac. Qed.
Lemma osc_forward : forward osc_net.
Proof.
  intros c b H E; cbn in H. repeat (destruct H as [<-|H]; [cbn in *; try discriminate; injection E as <-; lia|]).
  destruct H.
Qed.
Lemma osc_plain : plain osc_net.
Proof.
  intros c b H E; cbn in H. repeat (destruct H as [<-|H]; [cbn in *; try discriminate; split; reflexivity|]).
  destruct H.
Qed.
Lemma osc_caps : sound_caps osc_net.
Proof.
  intros b c H E; cbn in H. repeat (destruct H as [<-|H]; [cbn in E; try discriminate; injection E as <-; lra|]).
  destruct H.
Qed.
Lemma osc_ext_ok : nonneg_external osc_ext.
Proof. intros b; cbn [osc_ext e_seen e_hidden e_inst]; repeat split; vnn. Qed.
Lemma osc_committed : committed osc_state.
Proof. intros b; cbn; unfold vec; destruct b; auto. Qed.

(** ** Hidden inflow: a directly computed cover infiltrates into a capped store (GSM-Socont). *)
Definition hid_net : net := mkNet [mkBrick (Some 200) false] [mkConn 0 ToOutlet Regular 1 true].
Definition hid_state : state := mkState (vec [150]) (vec []) (vec []) (vec []).
Definition hid_ext : external := mkExt (vec []) (vec [100]) (vec []).
Definition hid_law : law := fun _ => vec [].
Lemma hid_rates : null_overflow hid_net (evaluate hid_net hid_law (deposit hid_ext hid_state)) = vec [].
Proof. eval_rates 1%nat. Qed.
Lemma hid_enforce : enforce hid_net 1 hid_ext (deposit hid_ext hid_state) (vec []) = Ok (vec []).
Proof.
  unfold enforce. apply enforce_stop; [|eval_stable]. cbn [brick_ids seq length n_bricks hid_net].
  settle (@nil R) by (eval_constrain 1%nat). reflexivity.
Qed.
Definition hid_after : state := finalize_step hid_net (apply_rates hid_net 1 hid_ext (vec []) (deposit hid_ext hid_state)).
Lemma hid_euler : euler_step hid_net 1 hid_ext hid_law hid_state = Ok hid_after.
Proof. unfold euler_step. rewrite hid_rates, hid_enforce. reflexivity. Qed.
Lemma hid_content : s_content hid_after 0%nat = 250.
Proof. unfold hid_after; eval_content. Qed.

(** ** Backward connection: the lower store is declared before the upper one. *)
Definition back_net : net := mkNet [mkBrick None false; mkBrick None false]
  [mkConn 1 (ToStore 0) Regular 1 false].
Definition back_state : state := mkState (vec [0;10]) (vec []) (vec []) (vec []).
Definition no_ext : external := mkExt (vec []) (vec []) (vec []).
(** linear reservoir, 0.5 per day *)
Definition back_law : law := fun s k => match k with O => content_changes s 1 / 2 | _ => 0 end.
Lemma back_rates : null_overflow back_net (evaluate back_net back_law (deposit no_ext back_state)) = vec [5].
Proof.
  eval_rates 1%nat. unfold content_changes; rcbn; num.
Qed.
Lemma back_fix (s : state) (x : R) : 0 < x -> s_content s 1%nat = 10 -> s_dyn s 1%nat = 0 -> x <= 9 ->
  enforce back_net 1 no_ext s (vec [x]) = Ok (vec [x]).
Proof.
  intros Hx Hs Hd H9. unfold enforce. apply enforce_stop.
  - cbn [brick_ids seq length n_bricks back_net].
    rewrite (sweep_cons _ _ _ _ _ _ _ (vec [x])).
    2:{ unfold constrain_brick, apply_constraints; rcbn; unfold clamp_rates, inputs_static; rcbn.
        rtests. f_equal. extensionality k. destruct k; rcbn; rtests; reflexivity. }
    rewrite (sweep_cons _ _ _ _ _ _ _ (vec [x])); [reflexivity|].
    unfold constrain_brick, apply_constraints; rcbn; unfold clamp_rates, inputs_static; rcbn.
    rewrite Hs, Hd. rtests.
    f_equal. extensionality k. destruct k as [|k]; rcbn; rtests; reflexivity.
  - unfold stable; rcbn. rewrite Rminus_diag_eq, Rabs_R0 by reflexivity. rtests. reflexivity.
Qed.
Definition back_trial : state := apply_rates back_net 1 no_ext (vec [5]) (deposit no_ext back_state).
Lemma back_wf : well_formed back_net. Proof. well_formed_tac. Qed.
Lemma back_trial_content b : s_content back_trial b = s_content back_state b.
Proof. unfold back_trial. destruct (apply_rates_effect back_net 1 no_ext (vec [5]) (deposit no_ext back_state) back_wf) as (H&_). apply H. Qed.
Lemma back_trial_dyn1 : s_dyn back_trial 1%nat = -5.
Proof.
  unfold back_trial. destruct (apply_rates_effect back_net 1 no_ext (vec [5]) (deposit no_ext back_state) back_wf) as (_&H&_&_).
  rewrite H by (cbn; tauto). unfold early, delivered, applied, weighted. rcbn. rdecs. rtests. num.
Qed.
Lemma back_trial_stat1 : s_stat back_trial 1%nat = 0.
Proof.
  unfold back_trial. destruct (apply_rates_effect back_net 1 no_ext (vec [5]) (deposit no_ext back_state) back_wf) as (_&_&H&_).
  rewrite H. rcbn. num.
Qed.
Lemma back_trial_stat0 : s_stat back_trial 0%nat = 0.
Proof.
  unfold back_trial. destruct (apply_rates_effect back_net 1 no_ext (vec [5]) (deposit no_ext back_state) back_wf) as (_&_&H&_).
  rewrite H. rcbn. num.
Qed.
Lemma back_trial_amount : s_amount back_trial 0%nat = 5.
Proof.
  unfold back_trial. destruct (apply_rates_effect back_net 1 no_ext (vec [5]) (deposit no_ext back_state) back_wf) as (_&_&_&H).
  rewrite H by (cbn; tauto). unfold early, delivered, applied, weighted. rcbn. rdecs. rtests. num.
Qed.
Opaque back_trial.
Lemma back_comb : null_overflow back_net (fun k => (vec [5] k + evaluate back_net back_law back_trial k) / 2) = vec [15/4].
Proof.
  extensionality k. destruct k as [|k]; unfold null_overflow, evaluate, LessThanOrEqual; rcbn.
  - unfold content_changes. rewrite back_trial_content, back_trial_dyn1, back_trial_stat1. rcbn. rtests. num.
  - destruct k; rcbn; destruct (Rleb (content_changes back_trial 0) (0 + PRECISION)); rcbn; lra.
Qed.
Definition back_after : state := finalize_step back_net (apply_rates back_net 1 no_ext (vec [15/4]) (reset_state back_trial)).
Lemma back_heun : heun_step back_net 1 no_ext back_law back_law back_state = Ok back_after.
Proof.
  unfold heun_step. rewrite back_rates. rewrite (back_fix _ 5) by first [lra|reflexivity]. cbn [bind].
  unfold constrain_rates. change (apply_rates back_net 1 no_ext (vec [5]) (deposit no_ext back_state)) with back_trial. rewrite back_comb.
  rewrite (back_fix _ (15/4)); [reflexivity|lra| |reflexivity|lra].
  cbn [reset_state s_content]. rewrite back_trial_content. reflexivity.
Qed.
Lemma back_contents : s_content back_after 0%nat = 5 /\ s_content back_after 1%nat = 25/4 /\ s_amount back_after 0%nat = 15/4.
Proof.
  split; [|split].
  - unfold back_after. rewrite content_after by (first [well_formed_tac | cbn; tauto]).
    unfold early, delivered, applied, weighted; rcbn. rewrite back_trial_content, back_trial_stat0, back_trial_amount; rcbn; rtests.
    unfold finalize_value, NearlyZero, LessThan; rcbn; rtests; num.
  - unfold back_after. rewrite content_after by (first [well_formed_tac | cbn; tauto]).
    unfold early, delivered, applied, weighted; rcbn. rewrite back_trial_content, back_trial_stat1. rcbn. rdecs; rtests.
    unfold finalize_value, NearlyZero, LessThan; rcbn; rtests; num.
  - unfold back_after. eval_amount.
Qed.

(** ** Instantaneous connection with the Heun solver *)
Definition inst_net : net := mkNet [mkBrick None false; mkBrick None false]
  [mkConn 0 (ToStore 1) Instant 1 false].
Definition inst_state : state := mkState (vec [10;0]) (vec []) (vec []) (vec []).
Definition inst_law : law := fun _ => vec [4].
Lemma inst_wf : well_formed inst_net. Proof. well_formed_tac. Qed.
Lemma inst_forward : forward inst_net.
Proof.
  intros c b H E; cbn in H. repeat (destruct H as [<-|H]; [cbn in *; try discriminate; injection E as <-; lia|]).
  destruct H.
Qed.
Lemma inst_rates : null_overflow inst_net (evaluate inst_net inst_law (deposit no_ext inst_state)) = vec [4].
Proof. eval_rates 1%nat. Qed.
Lemma inst_fix (s : state) : s_content s 0%nat = 10 -> s_dyn s 0%nat = 0 ->
  enforce inst_net 1 no_ext s (vec [4]) = Ok (vec [4]).
Proof.
  intros Hs Hd. unfold enforce. apply enforce_stop; [|eval_stable].
  cbn [brick_ids seq length n_bricks inst_net].
  rewrite (sweep_cons _ _ _ _ _ _ _ (vec [4])).
  2:{ unfold constrain_brick, apply_constraints; rcbn; unfold clamp_rates, inputs_static; rcbn.
      rewrite Hs, Hd. rtests. f_equal. extensionality k. destruct k; rcbn; rtests; reflexivity. }
  rewrite (sweep_cons _ _ _ _ _ _ _ (vec [4])); [reflexivity|].
  unfold constrain_brick, apply_constraints; rcbn; unfold clamp_rates, inputs_static; rcbn.
  rtests. f_equal.
Qed.
Definition inst_trial : state := apply_rates inst_net 1 no_ext (vec [4]) (deposit no_ext inst_state).
Lemma inst_trial_content b : s_content inst_trial b = s_content inst_state b.
Proof. unfold inst_trial. destruct (apply_rates_effect inst_net 1 no_ext (vec [4]) (deposit no_ext inst_state) inst_wf) as (H&_). apply H. Qed.
Lemma inst_trial_dyn0 : s_dyn inst_trial 0%nat = -4.
Proof.
  unfold inst_trial. destruct (apply_rates_effect inst_net 1 no_ext (vec [4]) (deposit no_ext inst_state) inst_wf) as (_&H&_&_).
  rewrite H by (cbn; tauto). unfold early, delivered, applied, weighted. rcbn. rdecs. rtests. num.
Qed.
Lemma inst_trial_stat : s_stat inst_trial 0%nat = 0 /\ s_stat inst_trial 1%nat = 4.
Proof.
  unfold inst_trial. destruct (apply_rates_effect inst_net 1 no_ext (vec [4]) (deposit no_ext inst_state) inst_wf) as (_&_&H&_).
  rewrite !H. unfold early, delivered, applied, weighted. rcbn. rdecs; rtests. split; num.
Qed.
Opaque inst_trial.
Lemma inst_comb : null_overflow inst_net (fun k => (vec [4] k + evaluate inst_net inst_law inst_trial k) / 2) = vec [4].
Proof.
  extensionality k. destruct k as [|k]; unfold null_overflow, evaluate, LessThanOrEqual; rcbn.
  - unfold content_changes. rewrite inst_trial_content, inst_trial_dyn0, (proj1 inst_trial_stat). rcbn. rtests. num.
  - destruct k; rcbn; destruct (Rleb (content_changes inst_trial 0) (0 + PRECISION)); rcbn; lra.
Qed.
Definition inst_after : state := finalize_step inst_net (apply_rates inst_net 1 no_ext (vec [4]) (reset_state inst_trial)).
Lemma inst_heun : heun_step inst_net 1 no_ext inst_law inst_law inst_state = Ok inst_after.
Proof.
  unfold heun_step. rewrite inst_rates. rewrite inst_fix by first [lra|reflexivity]. cbn [bind].
  unfold constrain_rates. change (apply_rates inst_net 1 no_ext (vec [4]) (deposit no_ext inst_state)) with inst_trial.
  rewrite inst_comb.
  rewrite inst_fix; [reflexivity| |reflexivity].
  cbn [reset_state s_content]. rewrite inst_trial_content. reflexivity.
Qed.
Lemma inst_contents : s_content inst_after 0%nat = 6 /\ s_content inst_after 1%nat = 8 /\ s_amount inst_after 0%nat = 4.
Proof.
  split; [|split].
  - unfold inst_after. rewrite content_after by (first [well_formed_tac | cbn; tauto]).
    unfold early, delivered, applied, weighted; rcbn. rewrite inst_trial_content, (proj1 inst_trial_stat); rcbn; rdecs; rtests.
    unfold finalize_value, NearlyZero, LessThan; rcbn; rtests; num.
  - unfold inst_after. rewrite content_after by (first [well_formed_tac | cbn; tauto]).
    unfold early, delivered, applied, weighted; rcbn. rewrite inst_trial_content, (proj2 inst_trial_stat). rcbn. rdecs; rtests.
    unfold finalize_value, NearlyZero, LessThan; rcbn; rtests; num.
  - unfold inst_after. eval_amount.
Qed.

(** ** Static hand-off from a hydro unit storage to a sub-basin storage *)
Definition hand_net : net := mkNet [mkBrick None false; mkBrick None false]
  [mkConn 0 (ToStore 1) Static 1 false; mkConn 1 ToOutlet Regular 1 false].
Definition hand_state : state := mkState (vec [10;13]) (vec []) (vec []) (vec []).
Definition hand_law : law := fun s k => match k with O => content_changes s 0 | 1%nat => 12 | _ => 0 end.
Lemma hand_wf : well_formed hand_net. Proof. well_formed_tac. Qed.
Lemma hand_forward : forward hand_net.
Proof.
  intros c b H E; cbn in H. repeat (destruct H as [<-|H]; [cbn in *; try discriminate; injection E as <-; lia|]).
  destruct H.
Qed.
Lemma hand_rates1 : null_overflow hand_net (evaluate hand_net hand_law (deposit no_ext hand_state)) = vec [10;12].
Proof. eval_rates 2%nat. unfold content_changes; rcbn; num. Qed.
Lemma hand_enforce1 : enforce hand_net 1 no_ext (deposit no_ext hand_state) (vec [10;12]) = Ok (vec [10;12]).
Proof.
  apply enforce_stop; [|eval_stable]. cbn [brick_ids seq length n_bricks hand_net].
  settle [10;12] by (eval_constrain 2%nat). settle [10;12] by (eval_constrain 2%nat). reflexivity.
Qed.
Definition hand_mid : state := finalize_step hand_net (apply_rates hand_net 1 no_ext (vec [10;12]) (deposit no_ext hand_state)).
Lemma hand_euler1 : euler_step hand_net 1 no_ext hand_law hand_state = Ok hand_mid.
Proof. unfold euler_step. rewrite hand_rates1, hand_enforce1. reflexivity. Qed.
Lemma hand_mid_contents : s_content hand_mid 0%nat = 0 /\ s_content hand_mid 1%nat = 11.
Proof. split; unfold hand_mid; eval_content. Qed.
Lemma hand_mid_amounts : s_amount hand_mid 0%nat = 10 /\ s_amount hand_mid 1%nat = 12.
Proof. split; unfold hand_mid; eval_amount. Qed.
Lemma hand_mid_dyn b : s_dyn hand_mid b = 0. Proof. reflexivity. Qed.
Lemma hand_mid_stat b : s_stat hand_mid b = 0. Proof. reflexivity. Qed.
Opaque hand_mid.
Ltac hand_rw := rewrite ?(proj1 hand_mid_contents), ?(proj2 hand_mid_contents), ?hand_mid_dyn, ?hand_mid_stat,
  ?(proj1 hand_mid_amounts).
Lemma hand_rates2 : null_overflow hand_net (evaluate hand_net hand_law (deposit no_ext hand_mid)) = vec [0;12].
Proof.
  extensionality k. unfold null_overflow, evaluate, LessThanOrEqual, content_changes.
  destruct k as [|[|k]]; rcbn.
  - hand_rw. rtests. reflexivity.
  - hand_rw. rtests. reflexivity.
  - destruct k; rcbn; hand_rw; rtests; reflexivity.
Qed.
Lemma hand_enforce2 : enforce hand_net 1 no_ext (deposit no_ext hand_mid) (vec [0;12]) = Ok (vec [0;12]).
Proof.
  apply enforce_stop; [|eval_stable]. cbn [brick_ids seq length n_bricks hand_net].
  rewrite (sweep_cons _ _ _ _ _ _ _ (vec [0;12])).
  2:{ unfold constrain_brick, apply_constraints; rcbn; unfold clamp_rates, inputs_static; rcbn.
      hand_rw. rtests. f_equal. extensionality k. destruct k; rcbn; rtests; reflexivity. }
  rewrite (sweep_cons _ _ _ _ _ _ _ (vec [0;12])); [reflexivity|].
  unfold constrain_brick, apply_constraints; rcbn; unfold clamp_rates, inputs_static; rcbn.
  hand_rw. rtests. f_equal. extensionality k. destruct k as [|[|k]]; rcbn; rtests; reflexivity.
Qed.
Definition hand_after : state := finalize_step hand_net (apply_rates hand_net 1 no_ext (vec [0;12]) (deposit no_ext hand_mid)).
Lemma hand_euler2 : euler_step hand_net 1 no_ext hand_law hand_mid = Ok hand_after.
Proof. unfold euler_step. rewrite hand_rates2, hand_enforce2. reflexivity. Qed.
Lemma hand_after_amounts : s_amount hand_after 0%nat = 0 /\ s_amount hand_after 1%nat = 12.
Proof. split; unfold hand_after; eval_amount. Qed.
Lemma hand_after_contents : s_content hand_after 0%nat = 0 /\ s_content hand_after 1%nat = 0.
Proof.
  split; unfold hand_after; rewrite content_after by (first [well_formed_tac | cbn; tauto]);
  unfold early, delivered, applied, weighted; rcbn; hand_rw; rdecs; rtests;
  unfold finalize_value, NearlyZero, LessThan; rcbn; rtests; num.
Qed.
