(** Property theorems: water balance of a whole catchment (C59). *)
From Verif Require Import WitnessTools Container Direct DirectSpec DirectWitness Network NetworkSpec NetworkTools NetworkWitness
  Catchment CatchmentSpec CatchmentFacts CatchmentWitness.

(** *** C59 *)
(** Over any number of steps, with any of the solvers and any process laws, the water in the catchment changes by what fell, plus what the
    ice gave, minus what became ice, minus what left at the outlet and to the atmosphere, as reported; within the tolerance of each step. *)
Theorem c59_catchment_balance : forall C W w dt, 0 < dt -> sound C W w ->
  forall l G, fresh C G -> (forall inp G', In (inp, G') l -> nonneg_input inp /\ guarded C dt G inp) -> crun C dt G l ->
  Rabs (in_catchment C W w (cfinal G l)
        - (in_catchment C W w G + Rsum (fun x => fallen C W w G (fst x)) l
           + Rsum (fun x => from_ice C W w (snd x)) l - Rsum (fun x => into_ice C W w (snd x)) l
           - Rsum (fun x => discharge C (snd x)) l - Rsum (fun x => evaporated C W w (snd x)) l))
  <= INR (length l) * catchment_tolerance C W w dt.
Proof.
  intros C W w dt Hdt HC l G Hf Hin Hrun. exact (proj2 (crun_inv C W w dt Hdt HC l G (fresh_good C G Hf) Hin Hrun)).
Qed.
Print Assumptions c59_catchment_balance.

(** The same in terms of the precipitation of the hydro units: what falls is the precipitation of each unit times its share of the area. *)
Theorem c59_precipitation_balance : forall C W w dt, 0 < dt -> sound C W w ->
  forall units A covers packs l G, fresh C G -> watered C W units A covers packs G ->
  forall precipitation : cinput -> nat -> R,
  (forall inp G', In (inp, G') l -> nonneg_input inp /\ guarded C dt G inp /\
     exists rain snow, rain_and_snow units covers packs rain snow inp /\ forall u, rain u + snow u = precipitation inp u) ->
  crun C dt G l ->
  Rabs (in_catchment C W w (cfinal G l)
        - (in_catchment C W w G + Rsum (fun x => Rsum (fun u => A u * precipitation (fst x) u) units) l
           + Rsum (fun x => from_ice C W w (snd x)) l - Rsum (fun x => into_ice C W w (snd x)) l
           - Rsum (fun x => discharge C (snd x)) l - Rsum (fun x => evaporated C W w (snd x)) l))
  <= INR (length l) * catchment_tolerance C W w dt.
Proof.
  intros C W w dt Hdt HC units A covers packs l G Hf Hw P Hin Hrun.
  replace (Rsum (fun x => Rsum (fun u => A u * P (fst x) u) units) l) with (Rsum (fun x => fallen C W w G (fst x)) l).
  - apply (c59_catchment_balance C W w dt Hdt HC l G Hf); [|exact Hrun]. intros inp G' Hx. destruct (Hin inp G' Hx) as (A1&A2&_). auto.
  - apply Rsum_ext_in. intros [inp G'] Hx. destruct (Hin inp G' Hx) as (_&_&rain&snow&Hr&Hs). cbn [fst].
    rewrite (fallen_precip C W w units A covers packs G rain snow inp HC Hw Hr). apply Rsum_ext_in. intros u _. rewrite Hs. reflexivity.
Qed.
Print Assumptions c59_precipitation_balance.

(** No storage of the catchment, directly computed or solved, is ever negative. *)
Theorem c59_nonnegative : forall C W w dt, 0 < dt -> sound C W w ->
  forall l G, fresh C G -> (forall inp G', In (inp, G') l -> nonneg_input inp /\ guarded C dt G inp) -> crun C dt G l ->
  forall inp G', In (inp, G') l ->
  (forall i c, (i < node_count C)%nat -> nd_null (node_at C i) = false -> In c (conts_of C i) -> is_ice G i c = false ->
     0 <= c_content (ds_cont (g_direct G' i) c) + c_dyn (ds_cont (g_direct G' i) c) + c_stat (ds_cont (g_direct G' i) c)) /\
  (forall b, solid (ct_net C) b -> 0 <= s_content (g_net G') b).
Proof.
  intros C W w dt Hdt HC l G Hf Hin Hrun inp G' Hx.
  destruct (proj1 (crun_inv C W w dt Hdt HC l G (fresh_good C G Hf) Hin Hrun) inp G' Hx) as ([Hr _ Hp]&Hi). split; [|exact Hp].
  intros i c H1 H2 H3 H4. apply (rg_level _ _ Hr i c). repeat split; auto. rewrite (Hi i c). exact H4.
Qed.
Print Assumptions c59_nonnegative.

(** What the solver receives from the directly computed bricks: for each storage, the amounts these bricks gave in the same step through their
    outputs towards it; the water of the forcing and of the static outputs is seen by the limiter, that of the plain outputs is not. *)
Definition given_to (C : catchment) (G : cstate) (b : nat) (kind : dconn -> bool -> bool) : R :=
  Rsum (fun i => Rsum (fun k => match nd_to (node_at C i) k with
                               | InStorage b' => if (b' =? b)%nat && kind (dconn_at (nd_brick (node_at C i)) k) (nd_static (node_at C i) k)
                                                 then ds_amount (g_direct G i) k else 0
                               | _ => 0 end) (seq 0 (length (db_conns (nd_brick (node_at C i)))))) (seq 0 (length (ct_nodes C))).
Theorem c59_solver_receives : forall C dt inp solve G G', catchment_step C dt inp solve G = Ok G' ->
  exists e, solve e (g_net G) = Ok (g_net G') /\ forall b,
    e_seen e b = in_net inp b + given_to C G' b (fun c static => match d_tgt c with Outside => static | _ => false end) /\
    e_hidden e b = given_to C G' b (fun c static => match d_tgt c with Outside => negb static | _ => false end) /\
    e_inst e b = given_to C G' b (fun c _ => match d_tgt c with OutsideInstant => true | _ => false end).
Proof.
  intros C dt inp solve G G' H. unfold catchment_step in H. destruct (direct_phase _ _ _ _ _) as [g'| |] eqn:Ed; try discriminate. cbn [bind] in H.
  destruct (solve (solver_inputs C inp g') (g_net G)) as [s| |] eqn:Es; try discriminate. cbn [bind] in H. injection H as <-. cbn [g_direct g_net].
  exists (solver_inputs C inp g'). split; [exact Es|]. intros b. cbn [solver_inputs e_seen e_hidden e_inst]. unfold arrives, from_node, given_to, node_count, out_count. cbn [g_direct].
  assert (Q : forall wy kind, (forall i k, (match way_of (node_at C i) k with Some x => way_eqb x wy | None => false end) = kind (dconn_at (nd_brick (node_at C i)) k) (nd_static (node_at C i) k)) ->
    Rsum (fun i => Rsum (fun k => if delivers (node_at C i) wy (InStorage b) k then ds_amount (g' i) k else 0) (seq 0 (length (db_conns (nd_brick (node_at C i)))))) (seq 0 (length (ct_nodes C))) =
    Rsum (fun i => Rsum (fun k => match nd_to (node_at C i) k with InStorage b' => if (b' =? b)%nat && kind (dconn_at (nd_brick (node_at C i)) k) (nd_static (node_at C i) k) then ds_amount (g' i) k else 0 | _ => 0 end)
      (seq 0 (length (db_conns (nd_brick (node_at C i)))))) (seq 0 (length (ct_nodes C)))).
  { intros wy kind Hk. apply Rsum_ext_in. intros i _. apply Rsum_ext_in. intros k _. unfold delivers. rewrite <- (Hk i k). destruct (way_of (node_at C i) k); destruct (nd_to (node_at C i) k); cbn [place_eqb];
      rewrite ?andb_false_r, ?andb_false_l; try reflexivity. rewrite andb_comm. reflexivity. }
  rewrite (Q AsStatic (fun c static => match d_tgt c with Outside => static | _ => false end)) by (intros i k; unfold way_of; destruct (d_tgt _); try reflexivity; destruct (nd_static _ _); reflexivity).
  rewrite (Q Plain (fun c static => match d_tgt c with Outside => negb static | _ => false end)) by (intros i k; unfold way_of; destruct (d_tgt _); try reflexivity; destruct (nd_static _ _); reflexivity).
  rewrite (Q Now (fun c _ => match d_tgt c with OutsideInstant => true | _ => false end)) by (intros i k; unfold way_of; destruct (d_tgt _); try reflexivity; destruct (nd_static _ _); reflexivity).
  split; [reflexivity|split; reflexivity].
Qed.
Print Assumptions c59_solver_receives.

(** A valley with two snowpacks, a glacier, a ground cover and a storage, over one day: 3 mm of rain and 2 mm of snow, snow shed from
    the upper to the lower unit, 2 mm given by the ice; 20 mm become 21.6 mm and 5.4 mm leave. *)
Example c59_case : sound valley valley_W valley_w /\ fresh valley valley_start /\ nonneg_input valley_input /\
  guarded valley 1 valley_start valley_input /\ crun valley 1 valley_start [(valley_input, valley_end)] /\
  in_catchment valley valley_W valley_w valley_start = 20 /\ fallen valley valley_W valley_w valley_start valley_input = 5 /\
  from_ice valley valley_W valley_w valley_end = 2 /\ into_ice valley valley_W valley_w valley_end = 0 /\
  discharge valley valley_end = 27/5 /\ evaporated valley valley_W valley_w valley_end = 0 /\
  in_catchment valley valley_W valley_w valley_end = 108/5.
Proof.
  split; [exact valley_sound|]. split; [exact valley_fresh|]. split; [exact valley_nonneg|]. split; [exact valley_guarded|].
  split.
  { split; [|exact I]. exists (fun e s => euler_step one_store 1 e store_law s). split; [|exact valley_step].
    intros e s s' H. exact (by_euler _ _ _ _ _ _ H). }
  split; [|split; [|split; [|split; [|split; [|split]]]]].
  - unfold in_catchment, stored, level, valley_W, valley_w, vec. cbn. lra.
  - unfold fallen, valley_W, valley_w, vec. cbn. lra.
  - unfold from_ice, volume, valley_W, valley_w, vec. cbn. lra.
  - unfold into_ice, volume, valley_W, valley_w, vec. cbn. lra.
  - unfold discharge. cbn [ct_net valley conn_ids one_store n_conns length seq Rsum g_net valley_end k_tgt conn_at nth]. rewrite store_amount. cbn. lra.
  - unfold evaporated. cbn [ct_net valley conn_ids one_store n_conns length seq Rsum g_net valley_end k_tgt conn_at nth]. cbn. lra.
  - unfold in_catchment, stored. cbn [ct_net valley brick_ids one_store n_bricks length seq Rsum g_net valley_end]. rewrite store_content. unfold valley_W, valley_w, vec, level. cbn. lra.
Qed.
(** Its units: 40 % with the upper snowpack and the glacier, 60 % with the lower snowpack and the ground. *)
Example c59_case_units :
  watered valley valley_W [0%nat; 1%nat] (vec [2/5; 3/5]) (fun u => nth u [[2%nat]; [3%nat]] []) (fun u => nth u [[0%nat]; [1%nat]] []) valley_start /\
  rain_and_snow [0%nat; 1%nat] (fun u => nth u [[2%nat]; [3%nat]] []) (fun u => nth u [[0%nat]; [1%nat]] []) (fun _ => 3) (fun _ => 2) valley_input.
Proof.
  split.
  - constructor; intros u; intros; cbn in *; repeat match goal with H : _ \/ _ |- _ => destruct H as [<-|H] | H : False |- _ => destruct H end; cbn in *;
      repeat match goal with H : _ \/ _ |- _ => destruct H as [<-|H] | H : False |- _ => destruct H end;
      unfold valley_W, vec; cbn; first [split; [repeat constructor; cbn; tauto|lra] | repeat split; auto; lia].
  - split.
    + intros i c. cbn [valley_input in_direct]. unfold vec. destruct c as [|[|c]]; do 4 (destruct i as [|i]; [cbn; try lra; destruct c; cbn; lra|]); cbn; destruct i; cbn; lra.
    + intros b. cbn. unfold vec. destruct b; reflexivity.
Qed.
