(** Property theorems: the names of the processes (C66). *)
From Verif Require Import Base BaseFacts Container Direct Network Topology Catchment Build AliasSpec AliasFacts NetworkSpec WitnessTools ProgressFacts.
From Coq Require Import FunctionalExtensionality.
Open Scope R_scope.

(** *** C66 *)
(** Declaring processes under another of their names gives the same catchment: the same bricks, containers, connections, weights and refusals. *)
Theorem c66_aliases_equivalent : forall rn M, (forall p, same_process (pr_type p) (rn p)) -> build (rename rn M) = build M.
Proof. intros rn M H. exact (r_build rn H M). Qed.
Print Assumptions c66_aliases_equivalent.

Definition new_names (p : process) : string :=
  if String.eqb (pr_type p) "outflow:percolation" then "percolation:constant"
  else if String.eqb (pr_type p) "transform:snow_ice_swat" then "transformation:snow_ice_swat" else pr_type p.
Definition old_tank : domain :=
  mkDom [mkUnit 10 (mkStr [mkBs "ice" "glacier" "" false None []; mkBs "ice_snowpack" "snowpack" "ice" false None [mkPr "swat" "transform:snow_ice_swat" [mkOut "ice" Ice true false]]]
                      [] [0%nat] [1%nat] []) (fun _ => 1) []]
    [mkBs "tank" "storage" "" false None [mkPr "deep" "outflow:percolation" [mkOut "outlet" Water false false]]].
Example c66_case : (forall p, same_process (pr_type p) (new_names p)) /\ rename new_names old_tank <> old_tank /\ exists C, build old_tank = Ok C.
Proof.
  split.
  - intros [n t o]. unfold new_names. cbn [pr_type]. destruct (String.eqb_spec t "outflow:percolation") as [->|_]; [apply same_percolation|].
    destruct (String.eqb_spec t "transform:snow_ice_swat") as [->|_]; [apply same_ice_swat|apply same_refl].
  - split; [discriminate|]. eexists. reflexivity.
Qed.

(** ... but not for the overflow.  Declared as "outflow:overflow", the name its alias "overflow" stands for, the same process is created but the storage does not
    know that it is its overflow: a storage above its capacity, that overflows when declared with the alias, aborts the run. *)
Definition tank (type : string) : domain := mkDom [] [mkBs "tank" "storage" "" false (Some 100) [mkPr "overflow" type [mkOut "outlet" Water false false]]].
Definition above : state := mkState (vec [120]) (vec []) (vec []) (vec []).
Definition calm_day : external := mkExt (fun _ => 0) (fun _ => 0) (fun _ => 0).
Theorem c66_overflow_refuted : exists C C',
  resolve_alias "overflow" = "outflow:overflow" /\
  build (tank "overflow") = Ok C /\ build (tank "outflow:overflow") = Ok C' /\
  (exists s', euler_step (ct_net C) 1 calm_day (fun _ _ => 0) above = Ok s') /\
  euler_step (ct_net C') 1 calm_day (fun _ _ => 0) above = Throw.
Proof.
  eexists. eexists. split; [reflexivity|]. split; [reflexivity|]. split; [reflexivity|]. split.
  - match goal with |- exists s', euler_step ?N _ _ _ _ = _ => set (N0 := N) end.
    destruct (euler_pass N0 1 calm_day Rlt_0_1 (fun _ => 20)) with (f := fun (_ : state) (_ : nat) => 0) (s := above) as (s' & E).
    + intros; lra.
    + intros; lra.
    + intros b c Hb Hc. cbn in Hb. assert (b = 0%nat) as -> by lia. exists 0%nat. split; [reflexivity|].
      cbn in Hc. injection Hc as <-. unfold inputs_static. cbn. lra.
    + exists s'. exact E.
  - set (N0 := mkNet [mkBrick (Some 100) false] [mkConn 0 Network.ToOutlet Regular 1 false]).
    match goal with |- euler_step ?N _ _ _ _ = _ => change N with N0 end.
    assert (E1 : sweep N0 1 calm_day (deposit calm_day above) (brick_ids N0) (fun _ => 0) = Throw).
    { cbn [brick_ids N0 n_bricks length seq sweep]. unfold constrain_brick, apply_constraints. rewrite too_high_false by (intros; lra).
      replace (outs N0 0) with [0%nat] by reflexivity. replace (ins N0 0) with (@nil nat) by reflexivity. replace (overflow_of N0 0) with (@None nat) by reflexivity.
      replace (clamp_rates (clamp_rates (fun _ : nat => 0) [0%nat]) []) with (fun _ : nat => 0).
      2:{ extensionality k. unfold clamp_rates, Rltb. cbn [mem existsb]. destruct (Nat.eqb k 0 || false)%bool; [destruct (Rlt_dec 0 0); lra|reflexivity]. }
      replace (inputs_static N0 calm_day (deposit calm_day above) 0) with 0 by (unfold inputs_static; cbn; lra).
      cbn [Rsum b_cap brick_at nth N0 n_bricks b_allowneg deposit s_content s_dyn above vec]. unfold Rltb.
      destruct (Rlt_dec (0 - (0 + 0)) 0) as [K|_]; [lra|]. cbn [negb andb].
      repeat match goal with |- context[Rlt_dec ?a ?b] => destruct (Rlt_dec a b) as [_|K]; [|exfalso; apply K; lra] end. reflexivity. }
    unfold euler_step, enforce. cbn [enforce_n].
    replace (null_overflow N0 (evaluate N0 (fun _ _ : _ => 0) (deposit calm_day above))) with (fun _ : nat => 0); [rewrite E1; reflexivity|].
    extensionality k. unfold null_overflow, evaluate. destruct (k_overflow _); [reflexivity|]. destruct (LessThanOrEqual _ _ _); reflexivity.
Qed.
Print Assumptions c66_overflow_refuted.
