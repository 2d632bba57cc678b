(** A small catchment: two snowpacks (the upper one sheds snow on the lower one), a glacier cover with its ice, a ground cover,
    and one storage.  Upper unit 40 %, lower unit 60 % of the area. *)
From Verif Require Import WitnessTools Container ContainerFacts Direct DirectSpec DirectFacts DirectSafe DirectWitness
  Network NetworkSpec NetworkTools NetworkWitness Catchment CatchmentSpec CatchmentFacts.

Definition no_cap : nat -> option R := fun _ => None.
Definition no_ov : nat -> option nat := fun _ => None.
Definition upper_snow : dnode := mkNode (mkDB [mkDC Outside 1; mkDC OutsideInstant (2/3)] [mkDP 1 [0%nat]; mkDP 1 [1%nat]] [1%nat] no_cap no_ov (Nat.eqb 1))
  false (fun k => match k with O => InDirect 2 0 | _ => InDirect 1 1 end) (fun _ => false).
Definition lower_snow : dnode := mkNode (mkDB [mkDC Outside 1] [mkDP 1 [0%nat]] [1%nat] no_cap no_ov (Nat.eqb 1))
  false (fun _ => InDirect 3 0) (fun _ => false).
Definition glacier : dnode := mkNode (mkDB [mkDC Outside (2/5); mkDC Outside (2/5)] [mkDP 0 [0%nat]; mkDP 1 [1%nat]] [0%nat; 1%nat] no_cap no_ov (fun _ => false))
  false (fun _ => AtOutlet) (fun _ => true).
Definition ground : dnode := mkNode (mkDB [mkDC Outside (3/5)] [mkDP 0 [0%nat]] [0%nat] no_cap no_ov (fun _ => false))
  false (fun _ => InStorage 0) (fun _ => false).
Definition one_store : net := mkNet [mkBrick None false] [mkConn 0 ToOutlet Regular 1 false].
Definition valley : catchment := mkCatch [upper_snow; lower_snow; glacier; ground] one_store.
Definition valley_W : nat -> R := vec [2/5; 3/5; 2/5; 3/5].
Definition valley_w : nat -> R := vec [1].

Definition ice_block : container := mkC 0 0 0 0 true false.
Definition dummy_ds : dstate := mkDS (cvec []) (vec []) (vec []).
Definition gvec (l : list dstate) : nat -> dstate := fun i => nth i l dummy_ds.
Definition valley_start : cstate := mkCS
  (gvec [mkDS (cvec [store 0; store 10]) (vec []) (vec []); mkDS (cvec [store 0; store 10]) (vec []) (vec []);
         mkDS (cvec [store 0; ice_block]) (vec []) (vec []); mkDS (cvec [store 0]) (vec []) (vec [])])
  (mkState (vec [10]) (vec []) (vec []) (vec [])).
(** 3 mm of rain, 2 mm of snow; the upper snowpack melts 3 mm and sheds 3 mm, the lower one melts 4 mm, the ice 5 mm; the covers
    release all their water; the storage gives 1 mm. *)
Definition valley_law (i : nat) : dlaw := fun conts k =>
  match i with
  | 0%nat => 3
  | 1%nat => 4
  | 2%nat => match k with O => level (conts 0%nat) | _ => 5 end
  | _ => level (conts 0%nat)
  end.
Definition valley_input : cinput := mkCI (fun i c => vec [vec [0;2] c; vec [0;2] c; vec [3] c; vec [3] c] i) (vec []) (fun _ _ => false) valley_law.
Definition store_law : law := fun _ => vec [1].
Definition valley_ext : external := mkExt (vec []) (vec [21/5]) (vec []).
Definition store_after : state := finalize_step one_store (apply_rates one_store 1 valley_ext (vec [1]) (deposit valley_ext (g_net valley_start))).
Definition valley_end : cstate := mkCS
  (gvec [mkDS (cvec [store 0; store 6]) (vec []) (vec [3;2]); mkDS (cvec [store 0; store 10]) (vec []) (vec [4]);
         mkDS (cvec [store 0; ice_block]) (vec []) (vec [12/5;2]); mkDS (cvec [store 0]) (vec []) (vec [21/5])])
  store_after.

Ltac small k := do 4 (destruct k as [|k]; [|]).
Lemma valley_sound : sound valley valley_W valley_w.
Proof.
  assert (HI : forall i, (i < 4)%nat -> i = 0%nat \/ i = 1%nat \/ i = 2%nat \/ i = 3%nat) by lia.
  constructor.
  - intros i Hi. cbn in Hi. destruct (HI i Hi) as [->|[->|[->| ->]]]; (split; [cbn; dvalid_tac|cbn; repeat constructor; cbn; intuition lia]).
  - intros i. unfold valley_W. apply vec_nonneg. repeat constructor; lra.
  - intros i Hi. cbn in Hi. destruct (HI i Hi) as [->|[->|[->| ->]]]; discriminate.
  - intros i k c Hi Hk H. cbn in Hi. destruct (HI i Hi) as [->|[->|[->| ->]]]; cbn in Hk, H; unfold conn_of, dconn_at in H; cbn in H;
      destruct k as [|[|k]]; cbn in H; try discriminate; lia.
  - intros i k Hi Hk Ho. cbn in Hi. destruct (HI i Hi) as [->|[->|[->| ->]]]; cbn in Hk;
      destruct k as [|[|k]]; try lia; unfold conn_of, dconn_at, valley_W, valley_w, vec; cbn; repeat split; try discriminate; try lra; try lia; auto.
  - well_formed_tac.
  - intros c b H E; cbn in H. destruct H as [<-|[]]. discriminate.
  - intros c b H E; cbn in H. destruct H as [<-|[]]. discriminate.
  - intros b c H E; cbn in H. destruct H as [<-|[]]. discriminate.
  - split.
    + intros b. unfold valley_w. apply vec_nonneg. repeat constructor; lra.
    + intros c H; cbn in H. destruct H as [<-|[]]. cbn. lra.
Qed.

Lemma valley_fresh : fresh valley valley_start.
Proof.
  assert (HI : forall i, (i < 4)%nat -> i = 0%nat \/ i = 1%nat \/ i = 2%nat \/ i = 3%nat) by lia.
  split; [|split; [|split]].
  - intros i k. cbn. do 4 (destruct i as [|i]; [destruct k; reflexivity|]). destruct i; destruct k; reflexivity.
  - intros i c Hi Hc Hice. cbn in Hi. destruct (HI i Hi) as [->|[->|[->| ->]]]; cbn in Hc; destruct Hc as [<-|Hc]; try (destruct Hc as [<-|[]]); try destruct Hc;
      cbn in *; try discriminate; repeat split; lra.
  - intros b. cbn. unfold vec. destruct b; split; reflexivity.
  - intros b _. cbn [valley_start g_net s_content]. apply vec_nonneg. repeat constructor; lra.
Qed.

Lemma valley_guarded : guarded valley 1 valley_start valley_input.
Proof.
  assert (HI : forall i, (i < 4)%nat -> i = 0%nat \/ i = 1%nat \/ i = 2%nat \/ i = 3%nat) by lia.
  intros j c Hj _ Hc Hice. cbn in Hj. destruct (HI j Hj) as [->|[->|[->| ->]]]; cbn in Hc.
  - destruct Hc as [<-|[]]. right. split; [left; reflexivity|]. intros l1 p l2 _ _ k _. cbn. unfold dconn_at; cbn. destruct k as [|[|[|k]]]; discriminate.
  - destruct Hc as [<-|[]]. right. split; [left; reflexivity|]. intros l1 p l2 _ _ k _. cbn. unfold dconn_at; cbn. destruct k as [|[|[|k]]]; discriminate.
  - destruct Hc as [<-|[<-|[]]]; [|discriminate]. left. split; [reflexivity|]. intros conts p Hp Hpc. cbn in Hp.
    destruct Hp as [<-|[<-|[]]]; [|discriminate]. cbn -[Rmax level]. lra.
  - destruct Hc as [<-|[]]. left. split; [reflexivity|]. intros conts p Hp Hpc. cbn in Hp.
    destruct Hp as [<-|[]]. cbn -[Rmax level]. lra.
Qed.
Lemma valley_nonneg : nonneg_input valley_input.
Proof.
  split.
  - intros i c. cbn [valley_input in_direct]. apply vec_nonneg. repeat (apply Forall_cons; [apply vec_nonneg; repeat constructor; lra|]). apply Forall_nil.
  - intros b. cbn. unfold vec. destruct b; lra.
Qed.

(** Evaluation of the turn of a brick. *)
Ltac inputs_are f p i :=
  match goal with |- context[node_inputs ?C ?inp ?g ?j] =>
    replace (node_inputs C inp g j) with (mkDI (vec f) (vec p) (vec i) (fun _ => false))
      by (unfold node_inputs, arrives, from_node; symmetry; apply f_equal4; [| | |reflexivity];
          let c := fresh "c" in extensionality c; do 3 (destruct c as [|c]; [rcbn2; try reflexivity; num|]); rcbn2; try (destruct c); num)
  end.
Lemma f_equal4 (a a' b b' c c' : nat -> R) (d d' : nat -> bool) : a = a' -> b = b' -> c = c' -> d = d' -> mkDI a b c d = mkDI a' b' c' d'.
Proof. congruence. Qed.
Ltac vlaws := unfold dconstrain, requested, dinputs_static, LessThanOrEqual, valley_input, valley_law, level, blocked_rates.
Ltac vproc r conts amts :=
  unfold dprocess at 1; cbn [p_cont p_conns];
  match goal with |- context[dconstrain ?B 1 ?i ?s ?c ?rr] =>
    replace (dconstrain B 1 i s c rr) with (Ok (vec r))
      by (symmetry; vlaws; rcbn2; rtests; rcbn2; rtests; first [dlimit 3%nat | (f_equal; let k := fresh "k" in extensionality k; dindex 3%nat k)])
  end;
  cbn [bind];
  match goal with |- context[fold_left ?f ?l ?s] =>
    replace (fold_left f l s) with (mkDS (cvec conts) (vec []) (vec amts)) by (symmetry; dapply 2%nat 3%nat)
  end;
  cbn [bind].
Ltac vtake conts amts :=
  match goal with |- context[take_inputs ?B ?i ?s] =>
    replace (take_inputs B i s) with (mkDS (cvec conts) (vec []) (vec amts))
      by (symmetry; unfold take_inputs, add_dyn, add_stat; f_equal; let k := fresh "k" in extensionality k; first [solve [cindex 2%nat k]|solve [dindex 3%nat k]])
  end.
Ltac vfinal conts :=
  match goal with |- context[mkDS (fun c => if mem c ?l then finalize (ds_cont ?s c) else ds_cont ?s c) ?r ?a] =>
    replace (fun c => if mem c l then finalize (ds_cont s c) else ds_cont s c) with (cvec conts)
      by (symmetry; unfold finalize, finalize_value, NearlyZero, LessThan; let k := fresh "k" in extensionality k; cindex 2%nat k)
  end.
(** The bricks after the turn of one of them. *)
Ltac vdep := let c := fresh "c" in f_equal; extensionality c; do 3 (destruct c as [|c]; [rcbn2; try reflexivity; apply cont_eq; num|]); rcbn2; first [reflexivity | destruct c; rcbn2; apply cont_eq; num].
Ltac vdeposit :=
  cbn [bind]; f_equal; let i := fresh "i" in extensionality i; unfold deposit_now, from_node, upd, add_stat;
  do 4 (destruct i as [|i]; [rcbn2; vdep|]); destruct i; rcbn2; unfold dummy_ds; rcbn2; vdep.
Lemma turn0 : node_step valley 1 valley_input (g_direct valley_start) 0 = Ok (gvec [
   mkDS (cvec [store 0; store 6]) (vec []) (vec [3;2]); mkDS (cvec [store 0; w 10 0 2]) (vec []) (vec []);
   mkDS (cvec [store 0; ice_block]) (vec []) (vec []); mkDS (cvec [store 0]) (vec []) (vec [])]).
Proof.
  unfold node_step. cbn [node_at nth ct_nodes valley nd_null upper_snow nd_brick].
  inputs_are [0;2] ([] : list R) ([] : list R).
  unfold direct_step. cbn [db_procs dprocesses].
  vtake [w 0 0 0; w 10 0 2] ([] : list R).
  vproc [3] [w 0 0 0; w 10 (-3) 2] [3].
  vproc [0;3] [w 0 0 0; w 10 (-6) 2] [3;2].
  cbn [ds_rate ds_amount db_conts].
  vfinal [store 0; store 6]. vdeposit.
Qed.
Lemma turn1 : node_step valley 1 valley_input (gvec [
   mkDS (cvec [store 0; store 6]) (vec []) (vec [3;2]); mkDS (cvec [store 0; w 10 0 2]) (vec []) (vec []);
   mkDS (cvec [store 0; ice_block]) (vec []) (vec []); mkDS (cvec [store 0]) (vec []) (vec [])]) 1 = Ok (gvec [
   mkDS (cvec [store 0; store 6]) (vec []) (vec [3;2]); mkDS (cvec [store 0; store 10]) (vec []) (vec [4]);
   mkDS (cvec [store 0; ice_block]) (vec []) (vec []); mkDS (cvec [store 0]) (vec []) (vec [])]).
Proof.
  unfold node_step. cbn [node_at nth ct_nodes valley nd_null lower_snow nd_brick].
  inputs_are [0;2] ([] : list R) [0;2].
  unfold direct_step. cbn [db_procs dprocesses].
  vtake [w 0 0 0; w 10 0 4] ([] : list R).
  vproc [4] [w 0 0 0; w 10 (-4) 4] [4].
  cbn [ds_rate ds_amount db_conts].
  vfinal [store 0; store 10]. vdeposit.
Qed.
Lemma turn2 : node_step valley 1 valley_input (gvec [
   mkDS (cvec [store 0; store 6]) (vec []) (vec [3;2]); mkDS (cvec [store 0; store 10]) (vec []) (vec [4]);
   mkDS (cvec [store 0; ice_block]) (vec []) (vec []); mkDS (cvec [store 0]) (vec []) (vec [])]) 2 = Ok (gvec [
   mkDS (cvec [store 0; store 6]) (vec []) (vec [3;2]); mkDS (cvec [store 0; store 10]) (vec []) (vec [4]);
   mkDS (cvec [store 0; ice_block]) (vec []) (vec [12/5;2]); mkDS (cvec [store 0]) (vec []) (vec [])]).
Proof.
  unfold node_step. cbn [node_at nth ct_nodes valley nd_null glacier nd_brick].
  inputs_are [3] [3] ([] : list R).
  unfold direct_step. cbn [db_procs dprocesses].
  vtake [w 0 6 0; ice_block] ([] : list R).
  vproc [6] [w 0 0 0; ice_block] [12/5].
  vproc [0;5] [w 0 0 0; ice_block] [12/5;2].
  cbn [ds_rate ds_amount db_conts].
  vfinal [store 0; ice_block]. vdeposit.
Qed.
Lemma turn3 : node_step valley 1 valley_input (gvec [
   mkDS (cvec [store 0; store 6]) (vec []) (vec [3;2]); mkDS (cvec [store 0; store 10]) (vec []) (vec [4]);
   mkDS (cvec [store 0; ice_block]) (vec []) (vec [12/5;2]); mkDS (cvec [store 0]) (vec []) (vec [])]) 3 = Ok (g_direct valley_end).
Proof.
  unfold node_step. cbn [node_at nth ct_nodes valley nd_null ground nd_brick].
  inputs_are [3] [4] ([] : list R).
  unfold direct_step. cbn [db_procs dprocesses].
  vtake [w 0 7 0] ([] : list R).
  vproc [7] [w 0 0 0] [21/5].
  cbn [ds_rate ds_amount db_conts].
  vfinal [store 0]. vdeposit.
Qed.

Lemma valley_solver_inputs : solver_inputs valley valley_input (g_direct valley_end) = valley_ext.
Proof.
  unfold solver_inputs, valley_ext. f_equal; extensionality b; unfold arrives, from_node;
    do 2 (destruct b as [|b]; [rcbn2; num|]); rcbn2; try (destruct b); num.
Qed.
Lemma store_rates : null_overflow one_store (evaluate one_store store_law (deposit valley_ext (g_net valley_start))) = vec [1].
Proof. eval_rates 1%nat. Qed.
Lemma store_enforce : enforce one_store 1 valley_ext (deposit valley_ext (g_net valley_start)) (vec [1]) = Ok (vec [1]).
Proof.
  unfold enforce. apply enforce_stop; [|eval_stable]. cbn [brick_ids seq length n_bricks one_store]. settle [1] by (eval_constrain 1%nat). reflexivity.
Qed.
Lemma store_euler : euler_step one_store 1 valley_ext store_law (g_net valley_start) = Ok (g_net valley_end).
Proof.
  unfold euler_step. rewrite store_rates, store_enforce. reflexivity.
Qed.
Lemma store_content : s_content store_after 0%nat = 66/5.
Proof. unfold store_after; eval_content. Qed.
Lemma store_amount : s_amount store_after 0%nat = 1.
Proof. unfold store_after; eval_amount. Qed.

Lemma valley_step : catchment_step valley 1 valley_input (fun e s => euler_step one_store 1 e store_law s) valley_start = Ok valley_end.
Proof.
  unfold catchment_step. cbn [node_count length ct_nodes valley direct_phase]. fold valley.
  change (direct_phase valley 1 valley_input (g_direct valley_start) 4) with
    (bind (bind (bind (bind (Ok (g_direct valley_start)) (fun g => node_step valley 1 valley_input g 0)) (fun g => node_step valley 1 valley_input g 1))
       (fun g => node_step valley 1 valley_input g 2)) (fun g => node_step valley 1 valley_input g 3)).
  cbn [bind]. rewrite turn0. cbn [bind]. rewrite turn1. cbn [bind]. rewrite turn2. cbn [bind]. rewrite turn3. cbn [bind].
  rewrite valley_solver_inputs, store_euler. reflexivity.
Qed.
