(** Concrete directly computed bricks. *)
From Verif Require Import WitnessTools Container ContainerFacts Direct DirectSpec DirectFacts DirectSafe Processes.

Definition dummy_cont : container := mkC 0 0 0 0 false false.
Definition cvec (l : list container) : nat -> container := fun c => nth c l dummy_cont.
Definition store (x : R) : container := mkC x 0 0 0 false false.

Ltac rcbn2 := cbn -[Rltb Rleb Reqb Rabs Rplus Rmult Rminus Rdiv Rinv Ropp Rmax Rmin EPSILON_D EPSILON_F PRECISION IZR].
Ltac dindex n k :=
  lazymatch n with
  | O => destruct k; reflexivity
  | S ?m => destruct k as [|k]; [rcbn2; rtests; try reflexivity; try num; try (f_equal; num)|dindex m k]
  end.
Ltac deval := repeat (rcbn2; rtests).
Ltac dlimit n := unfold apply_constraints, outgoing_too_high, clamp_rates; rcbn2; rtests;
  f_equal; unfold limit_outgoing, limit_incoming, NearlyZero, NearlyEqual, upd; rcbn2;
  let k := fresh "k" in extensionality k; dindex n k.

(** A land cover with one percolation at a constant rate (ProcessPercolationConstant) fed by rain. *)
Definition perc_brick : dbrick := mkDB [mkDC Outside 1] [mkDP 0 [0%nat]] [0%nat] (fun _ => None) (fun _ => None) (fun _ => false).
Definition perc_inputs : dinputs := mkDI (vec [10]) (vec []) (vec []) (fun _ => false).
Definition perc_law : dlaw := fun _ => vec [50].
Definition perc_state : dstate := mkDS (cvec [store 0]) (vec []) (vec []).

Lemma perc_limited : dconstrain perc_brick 1 perc_inputs (take_inputs perc_brick perc_inputs perc_state) 0
  (requested perc_brick perc_law (take_inputs perc_brick perc_inputs perc_state) (mkDP 0 [0%nat])) = Ok (vec [20]).
Proof.
  unfold dconstrain, requested, take_inputs, dinputs_static, LessThanOrEqual. rcbn2. dlimit 1%nat.
Qed.
Lemma cont_eq a b c d e f : a = b -> c = d -> e = f -> mkC a c e 0 false false = mkC b d f 0 false false.
Proof. congruence. Qed.
Ltac cindex n k :=
  lazymatch n with
  | O => destruct k; reflexivity
  | S ?m => destruct k as [|k]; [rcbn2; rtests; try reflexivity; try (apply cont_eq; num)|cindex m k]
  end.
(** Components of a state after the outputs of a process were applied. *)
Ltac dapply nc nk :=
  unfold apply_dconn, dweighted, GreaterThan, updc, upd, sub_dyn, add_stat, dconn_at; rcbn2; rtests;
  f_equal; let k := fresh "k" in extensionality k;
  first [ solve [cindex nc k] | solve [dindex nk k] ].

Lemma perc_step : exists s', direct_step perc_brick 1 perc_inputs perc_law perc_state = Ok s' /\
  c_content (ds_cont s' 0%nat) = 0 /\ ds_amount s' 0%nat = 20.
Proof.
  unfold direct_step. cbn [dprocesses db_procs perc_brick]. unfold dprocess. fold perc_brick.
  cbn [p_cont p_conns]. rewrite perc_limited. cbn [bind]. eexists. split; [reflexivity|].
  cbn [fold_left ds_cont ds_amount perc_brick db_conts mem existsb Nat.eqb orb]. unfold apply_dconn, dweighted, GreaterThan, updc, upd, sub_dyn, add_stat, dconn_at.
  rcbn2. rtests. rcbn2. split; [|num].
  unfold finalize, finalize_value, NearlyZero, LessThan, add_dyn. rcbn2. rtests. rcbn2. rtests. reflexivity.
Qed.

(** The HBV snowpack: melt into the retained water, drainage above the holding capacity, refreezing into the
    snow (SettingsModel.cpp:574-640, in this order).  Container 0 is the water, container 1 the snow. *)
Definition hbv_snowpack : dbrick := mkDB [mkDC (Inside 0) 1; mkDC Outside 1; mkDC (Inside 1) 1]
  [mkDP 1 [0%nat]; mkDP 0 [1%nat]; mkDP 0 [2%nat]] [0%nat; 1%nat]
  (fun _ => None) (fun _ => None) (Nat.eqb 1).
Definition no_input : dinputs := mkDI (vec []) (vec []) (vec []) (fun _ => false).
Definition hbv_snow_law (dt t : R) : dlaw := fun conts k =>
  match k with
  | 0%nat => melt_degree_day (accessible (level (conts 1%nat))) 3 0 t
  | 1%nat => outflow_snow_holding (Some (level (conts 1%nat))) (Some dt) (1/10) (level (conts 0%nat))
  | _ => refreeze_degree_day (Some (3, 0)) (5/100) t
  end.
Definition snow_day0 : dstate := mkDS (cvec [store 1; store 10]) (vec []) (vec []).
Definition snow_day1 : dstate := mkDS (cvec [store 0; store 11]) (vec []) (vec [0;0;1]).

Ltac dlaws := unfold dconstrain, requested, dinputs_static, LessThanOrEqual, hbv_snow_law, melt_degree_day, accessible, level,
  outflow_snow_holding, refreeze_degree_day, blocked_rates.

(** A cold day: 1 mm of retained water refreezes. *)
Definition w (x d s : R) : container := mkC x d s 0 false false.

(** One process of the snowpack: its limited rates, then the state it leaves. *)
Ltac sproc r conts amts :=
  unfold dprocess at 1; cbn [p_cont p_conns];
  match goal with |- context[dconstrain hbv_snowpack 1 no_input ?s ?c ?rr] =>
    replace (dconstrain hbv_snowpack 1 no_input s c rr) with (Ok (vec r)) by (symmetry; dlaws; rcbn2; rtests; dlimit 3%nat)
  end;
  cbn [bind];
  match goal with |- context[fold_left ?f ?l ?s] =>
    replace (fold_left f l s) with (mkDS (cvec conts) (vec []) (vec amts)) by (symmetry; dapply 2%nat 3%nat)
  end;
  cbn [bind].
Lemma snow_cold : direct_step hbv_snowpack 1 no_input (hbv_snow_law 1 (-10)) snow_day0 = Ok snow_day1.
Proof.
  unfold direct_step.
  replace (take_inputs hbv_snowpack no_input snow_day0) with (mkDS (cvec [w 1 0 0; w 10 0 0]) (vec []) (vec [])).
  2:{ unfold take_inputs, add_dyn, add_stat. f_equal; extensionality k; [cindex 2%nat k|dindex 0%nat k]. }
  cbn [db_procs hbv_snowpack dprocesses]. fold hbv_snowpack.
  sproc ([] : list R) [w 1 0 0; w 10 0 0] ([] : list R).
  sproc ([] : list R) [w 1 0 0; w 10 0 0] ([] : list R).
  sproc [0;0;1] [w 1 (-1) 0; w 10 0 1] [0;0;1].
  f_equal. unfold snow_day1. f_equal. extensionality k.
  unfold finalize, finalize_value, NearlyZero, LessThan. cindex 2%nat k.
Qed.

(** The next day is warm: the limiter counts the refrozen millimetre a second time. *)
Lemma snow_warm : exists s', direct_step hbv_snowpack 1 no_input (hbv_snow_law 1 10) snow_day1 = Ok s' /\
  c_content (ds_cont s' 0%nat) = 0 /\ c_content (ds_cont s' 1%nat) = 0 /\ ds_amount s' 1%nat = 12.
Proof.
  unfold direct_step.
  replace (take_inputs hbv_snowpack no_input snow_day1) with (mkDS (cvec [w 0 0 0; w 11 0 0]) (vec []) (vec [0;0;1])).
  2:{ unfold take_inputs, add_dyn, add_stat. f_equal; extensionality k; [cindex 2%nat k|dindex 0%nat k]. }
  cbn [db_procs hbv_snowpack dprocesses]. fold hbv_snowpack.
  sproc [12] [w 0 0 12; w 11 (-12) 0] [12;0;1].
  sproc [0;12] [w 0 (-12) 12; w 11 (-12) 0] [12;12;1].
  sproc ([] : list R) [w 0 (-12) 12; w 11 (-12) 0] [12;12;0].
  eexists. split; [reflexivity|]. cbn [ds_cont ds_amount].
  unfold finalize, finalize_value, NearlyZero, LessThan. rcbn2. rtests. rcbn2. repeat split; num.
Qed.

(** Consistency of the witness bricks. *)
Ltac dvalid_tac :=
  constructor;
  [ let p := fresh in let H := fresh in intros p H; cbn in H; repeat (destruct H as [<-|H]; [cbn; tauto|]); destruct H
  | cbn; repeat constructor; cbn; intuition lia
  | let k := fresh in intros k; cbn; lia
  | let k := fresh in let c := fresh in let H := fresh in intros k c H; cbn in H;
    repeat (destruct k as [|k]; [cbn in H; try discriminate; injection H as <-; cbn; tauto|]); destruct k; discriminate
  | intros; discriminate
  | intros; discriminate ].
Lemma hbv_snowpack_valid : dvalid hbv_snowpack.
Proof. dvalid_tac. Qed.
Lemma perc_valid : dvalid perc_brick.
Proof. dvalid_tac. Qed.
