(** A day of the Socont catchment of DeclareWitness.v: 5 mm of rain and 2 mm of snow everywhere, 10 mm of snow on the ground at the start. *)
From Verif Require Import Base BaseFacts Container Direct DirectSpec Network NetworkSpec Topology Catchment CatchmentSpec Build BuildSpec BuildFacts BuildSound
  StructureSpec StructureFacts DeclareSpec DeclareFacts RainFacts DeclareWitness ProgressFacts PropertiesProgress.
Open Scope list_scope.

Notation M := socont_domain.
Definition C : catchment := assembled M.
(** The container that an output of a directly computed brick empties: snow for the snowpacks and ice for the second output of the glacier. *)
Definition emptied (i k : nat) : nat := match i with 0%nat | 2%nat | 3%nat => 1%nat | 5%nat => k | _ => 0%nat end.
Definition day_law (i : nat) : dlaw := fun conts k => Rmin 10000 (Rmax 0 (level (conts (emptied i k)))).
Definition day : weather := mkWeather (fun _ => 5) (fun _ => 2) (fun _ _ => false) day_law.
Definition box (x : R) : container := mkC x 0 0 0 false false.
Definition ice : container := mkC 0 0 0 0 true false.
Definition day_start : cstate :=
  mkCS (fun i => mkDS (fun c => match i, c with
                               | 0%nat, 1%nat | 2%nat, 1%nat | 3%nat, 1%nat => box 10
                               | 5%nat, 1%nat => ice
                               | _, _ => box 0 end) (fun _ => 0) (fun _ => 0))
       (mkState (fun _ => 0) (fun _ => 0) (fun _ => 0) (fun _ => 0)).

Lemma six i : (i < node_count C)%nat -> In i [0%nat; 1%nat; 2%nat; 3%nat; 4%nat; 5%nat].
Proof. assert (E : node_count C = 6%nat) by (vm_compute; reflexivity). rewrite E. cbn. lia. Qed.
Ltac cases_six H := apply six in H; cbn [In] in H; repeat (destruct H as [<-|H]); [| | | | | |destruct H].

Lemma day_fresh : fresh C day_start.
Proof.
  split; [reflexivity|]. split; [|split].
  - intros i c Hi Hc Hice. unfold is_ice in Hice. cbn [day_start g_direct ds_cont] in *. do 6 (destruct i as [|i]; [destruct c as [|[|c]]; cbn in *; try discriminate; repeat split; lra|]). destruct c; cbn; repeat split; lra.
  - intros b. cbn. auto.
  - intros b _. cbn. lra.
Qed.
Lemma day_ice : ice_in_glaciers M day_start.
Proof.
  intros i u b c E H. unfold is_ice in H. cbn [day_start g_direct ds_cont] in H.
  do 5 (destruct i as [|i]; [destruct c as [|[|c]]; discriminate H|]). destruct i as [|i]; [|destruct c; discriminate H].
  destruct c as [|[|c]]; try discriminate H. split; [reflexivity|]. assert (E' : option_map (fun x => bs_type (snd x)) (nth_error (direct_items M) 5) = Some "glacier"%string) by (vm_compute; reflexivity).
  rewrite E in E'. cbn in E'. injection E' as ->. reflexivity.
Qed.
Lemma day_wet : wet M day.
Proof. intros u _. cbn. lra. Qed.
Lemma day_caps i c : (i < node_count C)%nat -> db_cap (nd_brick (node_at C i)) c = None.
Proof. intros Hi. destruct c; [|reflexivity || (cases_six Hi; reflexivity)]. cases_six Hi; vm_compute; reflexivity. Qed.
Lemma day_procs i : (i < node_count C)%nat -> forall p, In p (db_procs (nd_brick (node_at C i))) -> exists k, p_conns p = [k] /\ emptied i k = p_cont p.
Proof.
  intros Hi p Hp. cases_six Hi; (match type of Hp with In _ ?l => let l' := eval vm_compute in l in change (In p l') in Hp end);
    cbn [In] in Hp; repeat (destruct Hp as [<-|Hp]; [eexists; split; reflexivity|]); destruct Hp.
Qed.
Lemma day_guarded : guarded C 1 day_start (input_of M day).
Proof.
  intros j c Hj _ Hc _ B. left. split; [apply day_caps, Hj|]. intros conts p Hp Hpc. destruct (day_procs j Hj p Hp) as (k&->&Ek). cbn [Rsum input_of precipitation in_law wt_laws day].
  unfold day_law. rewrite Ek, Hpc. generalize (level (conts c)) as x. intros x. unfold Rmax, Rmin. repeat destruct (Rle_dec _ _); lra.
Qed.
(** The outflows of the storages: a tenth of their content, at most 1000 mm per day; the atmosphere and the overflow get nothing. *)
Definition day_storages : law := fun s k => Rmin 1000 (Rmax 0 (s_content s (k_src (conn_at (ct_net C) k)) / 10)).
Lemma arrives_none g w p : forallb (fun i => forallb (fun k => negb (delivers (node_at C i) w p k)) (seq 0 (out_count C i))) (seq 0 (node_count C)) = true -> arrives C g w p = 0.
Proof.
  intros H. unfold arrives. apply Rsum_zero. intros i Hi. rewrite forallb_forall in H. specialize (H i Hi). unfold from_node. apply Rsum_zero. intros k Hk.
  rewrite forallb_forall in H. specialize (H k Hk). apply negb_true_iff in H. rewrite H. reflexivity.
Qed.
(** The overflows of the storages with a capacity have room, whatever the weather. *)
Lemma day_room x g b c : direct_phase C 1 (input_of M x) (g_direct day_start) (node_count C) = Ok g -> (b < length (n_bricks (ct_net C)))%nat -> b_cap (brick_at (ct_net C) b) = Some c ->
  exists k, overflow_of (ct_net C) b = Some k /\
    (s_content (g_net day_start) b + s_dyn (g_net day_start) b + inputs_static (ct_net C) (solver_inputs C (input_of M x) g) (g_net day_start) b - c) / 1
    + Rsum (fun k => if k_overflow (conn_at (ct_net C) k) then 10000 else 1000) (ins (ct_net C) b) <= (if k_overflow (conn_at (ct_net C) k) then 10000 else 1000).
Proof.
  intros _ Hb Hc.
  assert (Hb' : b = 0%nat \/ b = 3%nat).
  { revert Hb Hc. assert (E : length (n_bricks (ct_net C)) = 8%nat) by (vm_compute; reflexivity). rewrite E. intros Hb.
    do 8 (destruct b as [|b]; [intros Hc; first [left; reflexivity|right; reflexivity|discriminate Hc]|]). lia. }
  assert (Hc' : c = 200) by (destruct Hb' as [-> | ->]; vm_compute in Hc; injection Hc as <-; lra). subst c.
  assert (E0 : forall b, b = 0%nat \/ b = 3%nat -> inputs_static (ct_net C) (solver_inputs C (input_of M x) g) (g_net day_start) b = 0).
  { intros b' Hb2. unfold inputs_static, solver_inputs. cbn [e_seen e_inst]. rewrite (net_dry ice_free unit_variant M socont_units), !arrives_none.
    - rewrite Rsum_zero; [lra|]. reflexivity.
    - destruct Hb2 as [-> | ->]; vm_compute; reflexivity.
    - destruct Hb2 as [-> | ->]; vm_compute; reflexivity. }
  rewrite (E0 b Hb'). assert (Ei : ins (ct_net C) b = []) by (destruct Hb' as [-> | ->]; vm_compute; reflexivity). rewrite Ei. cbn [Rsum day_start g_net s_content s_dyn].
  destruct Hb' as [-> | ->].
  + exists 2%nat. split; [vm_compute; reflexivity|]. replace (k_overflow (conn_at (ct_net C) 2)) with true by (vm_compute; reflexivity). lra.
  + exists 8%nat. split; [vm_compute; reflexivity|]. replace (k_overflow (conn_at (ct_net C) 8)) with true by (vm_compute; reflexivity). lra.
Qed.
Lemma day_step : exists G', catchment_step C 1 (input_of M day) (fun e s => euler_step (ct_net C) 1 e day_storages s) day_start = Ok G'.
Proof.
  apply (c64_overflow_step C 1 (input_of M day) day_storages day_start (fun k => if k_overflow (conn_at (ct_net C) k) then 10000 else 1000)).
  - lra.
  - exact day_caps.
  - intros i conts k. cbn [input_of precipitation in_law wt_laws day]. apply Rmin_l.
  - intros k. destruct (k_overflow _); lra.
  - intros s k. unfold day_storages. destruct (k_overflow _); (eapply Rle_trans; [apply Rmin_l|lra]).
  - exact (day_room day).
Qed.
