(** C65: with the formulas of its processes a declared model keeps its balance, for steps of a day or less. *)
From Verif Require Import Base BaseFacts WitnessTools Container ContainerFacts Direct DirectSpec DirectFacts DirectWitness Network NetworkSpec Topology Catchment CatchmentSpec Build BuildSpec BuildFacts BuildSound
  StructureSpec StructureFacts DeclareSpec DeclareFacts RainFacts Processes LawSpec LawFacts PropertiesBuild DeclareWitness ProgressFacts PropertiesProgress RunWitness PropertiesDirect.
Open Scope list_scope.

Theorem c65_formulas_balance : forall primary V M C dt, good_units primary V M -> (forall u, (u < length (dm_units M))%nat -> calm (V u)) -> build M = Ok C -> 0 < dt <= 1 ->
  forall l G, fresh C G -> ice_in_glaciers M G ->
  (forall x G', In (x, G') l -> wet M x /\ by_formulas M C dt (wt_laws x)) ->
  crun C dt G (map (fun x => (input_of M (fst x), snd x)) l) ->
  let W := direct_share M in let w := solved_share M in
  Rabs (in_catchment C W w (cfinal G (map (fun x => (input_of M (fst x), snd x)) l))
        - (in_catchment C W w G + Rsum (fun x => precipitated V M (fst x)) l
           + Rsum (fun x => from_ice C W w (snd x)) l - Rsum (fun x => into_ice C W w (snd x)) l
           - Rsum (fun x => discharge C (snd x)) l - Rsum (fun x => evaporated C W w (snd x)) l))
  <= INR (length l) * catchment_tolerance C W w dt.
Proof.
  intros primary V M C dt HU HC HB Hdt l G Hf Hice Hin Hrun. apply (c63_model_balance primary V M C dt HU HB (proj1 Hdt) l G Hf Hice); [|exact Hrun].
  intros x G' Hx. destruct (Hin x G' Hx) as [A1 A2]. split; [exact A1|]. rewrite (build_ok M (model_in_order primary V M HU)) in HB. injection HB as <-.
  exact (formulas_guarded primary V M HU HC dt G x Hdt A2).
Qed.
Print Assumptions c65_formulas_balance.
Theorem c65_formulas_nonnegative : forall primary V M C dt, good_units primary V M -> (forall u, (u < length (dm_units M))%nat -> calm (V u)) -> build M = Ok C -> 0 < dt <= 1 ->
  forall l G, fresh C G ->
  (forall x G', In (x, G') l -> wet M x /\ by_formulas M C dt (wt_laws x)) ->
  crun C dt G (map (fun x => (input_of M (fst x), snd x)) l) ->
  forall x G', In (x, G') l ->
  (forall i c, (i < node_count C)%nat -> nd_null (node_at C i) = false -> In c (conts_of C i) -> is_ice G i c = false ->
     0 <= c_content (ds_cont (g_direct G' i) c) + c_dyn (ds_cont (g_direct G' i) c) + c_stat (ds_cont (g_direct G' i) c)) /\
  (forall b, solid (ct_net C) b -> 0 <= s_content (g_net G') b).
Proof.
  intros primary V M C dt HU HC HB Hdt l G Hf Hin Hrun. apply (c63_model_nonnegative primary V M C dt HU HB (proj1 Hdt) l G Hf); [|exact Hrun].
  intros x G' Hx. destruct (Hin x G' Hx) as [A1 A2]. split; [exact A1|]. rewrite (build_ok M (model_in_order primary V M HU)) in HB. injection HB as <-.
  exact (formulas_guarded primary V M HU HC dt G x Hdt A2).
Qed.
Print Assumptions c65_formulas_nonnegative.

(** The Socont catchment with a glacier: infiltration, rest, melt and direct outflow with their formulas (no rate above 10000 mm/d). *)
Definition formula_law (i : nat) : dlaw := fun conts k => Rmin 10000
  (match i, k with
   | 0%nat, _ | 2%nat, _ | 3%nat, _ => melt_degree_day (accessible (level (conts 1%nat))) 3 0 2
   | 5%nat, 0%nat => outflow_direct (level (conts 0%nat))
   | 5%nat, _ => melt_degree_day true 6 0 2
   | _, 0%nat => level (conts 0%nat) * (1 - Rmax 0 (Rmin 1 (50 / 200)) * Rmax 0 (Rmin 1 (50 / 200)))
   | _, _ => outflow_rest false [] (level (conts 0%nat))
   end).
Definition formula_day : weather := mkWeather (fun _ => 5) (fun _ => 2) (fun _ _ => false) formula_law.
Lemma socont_calm u : calm (unit_variant u).
Proof.
  assert (K : forall v, v = ice_free \/ v = glaciered -> calm v).
  { intros v Hv. constructor.
    - destruct Hv as [-> | ->]; reflexivity.
    - intros out rain E. destruct Hv as [-> | ->]; discriminate E.
    - intros p Hp Hk. destruct Hv as [-> | ->]; each_in Hp; try discriminate Hk; (split; [reflexivity|]); intros q Hq; each_in Hq; unfold gentle; cbn; tauto.
    - intros p Hp Hk Hd. destruct Hv as [-> | ->]; each_in Hp; discriminate Hd. }
  destruct u; apply K; [left|right]; reflexivity.
Qed.
Lemma socont_formulas : by_formulas socont_domain C 1 formula_law.
Proof.
  intros i u b Hi.
  assert (E : map (fun x => (map pr_type (bs_processes (snd x)), db_procs (nd_brick (build_node socont_domain x)))) (direct_items socont_domain) =
    [(["melt:degree_day"], [mkDP 1 [0%nat]]); (["infiltration:socont"; "outflow:rest"], [mkDP 0 [0%nat]; mkDP 0 [1%nat]]); (["melt:degree_day"], [mkDP 1 [0%nat]]);
     (["melt:degree_day"], [mkDP 1 [0%nat]]); (["infiltration:socont"; "outflow:rest"], [mkDP 0 [0%nat]; mkDP 0 [1%nat]]); (["outflow:direct"; "melt:degree_day"], [mkDP 0 [0%nat]; mkDP 1 [1%nat]])]%string)
    by (vm_compute; reflexivity).
  pose proof (map_nth_error (fun x => (map pr_type (bs_processes (snd x)), db_procs (nd_brick (build_node socont_domain x)))) i _ Hi) as Ei. rewrite E in Ei. clear E.
  unfold C. rewrite (assembled_node socont_domain i _ Hi). cbn [snd] in Ei. set (D := db_procs (nd_brick (build_node socont_domain (u, b)))) in *. clearbody D.
  assert (Hm : ~ gentle "melt:degree_day") by (unfold gentle; cbn; intuition discriminate).
  assert (Hinf : forall k conts, k = 0%nat -> forall i', i' = 1%nat \/ i' = 4%nat -> exists r, asks 1 "infiltration:socont" (level (conts 0%nat)) r /\ formula_law i' conts k <= r).
  { intros k conts -> i' Hi'. exists (level (conts 0%nat) * (1 - Rmax 0 (Rmin 1 (50 / 200)) * Rmax 0 (Rmin 1 (50 / 200)))). split.
    - apply (asks_infiltration 1 (Some 200) 50). unfold infiltration_socont, filling_ratio. destruct (Rleb 200 0) eqn:Z; [apply Rleb_true in Z; lra|].
      destruct (Reqb 200 0) eqn:Z'; [apply Reqb_true in Z'; lra|]. reflexivity.
    - unfold formula_law. destruct Hi' as [-> | ->]; apply Rmin_r. }
  assert (Hrest : forall conts i', i' = 1%nat \/ i' = 4%nat -> exists r, asks 1 "outflow:rest" (level (conts 0%nat)) r /\ formula_law i' conts 1%nat <= r).
  { intros conts i' Hi'. exists (outflow_rest false [] (level (conts 0%nat))). split; [constructor|]. unfold formula_law. destruct Hi' as [-> | ->]; apply Rmin_r. }
  assert (Hdir : forall conts, exists r, asks 1 "outflow:direct" (level (conts 0%nat)) r /\ formula_law 5%nat conts 0%nat <= r).
  { intros conts. exists (outflow_direct (level (conts 0%nat))). split; [constructor|apply Rmin_r]. }
  do 6 (destruct i as [|i]; [cbn [nth_error] in Ei; injection Ei as E1 E2; rewrite <- E2;
    destruct (bs_processes b) as [|p1 [|p2 [|p3 l]]]; cbn [map] in E1; try discriminate E1; injection E1; intros;
    repeat (apply Forall2_cons; [unfold follows; intros Hmod|]); try apply Forall2_nil; repeat match goal with E : _ = pr_type _ |- _ => rewrite <- E in *; clear E end; cbn [pr_type] in *; try contradiction;
    (split; [cbn; lia|]); intros conts k Hk; cbn [p_conns In] in Hk; destruct Hk as [<-|[]]; cbn [p_cont]; auto|]).
  destruct i; discriminate Ei.
Qed.
Lemma formula_step : exists G', catchment_step C 1 (input_of socont_domain formula_day) (fun e s => euler_step (ct_net C) 1 e day_storages s) day_start = Ok G'.
Proof.
  destruct (c64_overflow_step C 1 (input_of socont_domain formula_day) day_storages day_start (fun k => if k_overflow (conn_at (ct_net C) k) then 10000 else 1000)) as (G'&E); eauto.
  - lra.
  - exact day_caps.
  - intros i conts k. cbn [input_of precipitation in_law wt_laws formula_day]. apply Rmin_l.
  - intros k. destruct (k_overflow _); lra.
  - intros s k. unfold day_storages. destruct (k_overflow _); (eapply Rle_trans; [apply Rmin_l|lra]).
  - exact (day_room formula_day).
Qed.
Example c65_case : good_units ice_free unit_variant socont_domain /\ (forall u, calm (unit_variant u)) /\ build socont_domain = Ok C /\ fresh C day_start /\ ice_in_glaciers socont_domain day_start /\
  wet socont_domain formula_day /\ by_formulas socont_domain C 1 (wt_laws formula_day) /\ exists G', crun C 1 day_start [(input_of socont_domain formula_day, G')].
Proof.
  pose proof socont_units as HU. split; [exact HU|]. split; [exact socont_calm|]. split; [exact (build_ok _ (model_in_order _ _ _ HU))|]. split; [exact day_fresh|]. split; [exact day_ice|].
  split; [intros u _; cbn; lra|]. split; [exact socont_formulas|].
  destruct formula_step as (G'&E). exists G'. split; [|exact I]. exists (fun e s => euler_step (ct_net C) 1 e day_storages s). split; [|exact E].
  intros e s s' H. exact (by_euler _ _ _ _ _ _ H).
Qed.

(** False for longer steps: over a week, 10 mm of rain on an empty cover drained by a rest outflow give 20 mm of runoff. *)
Definition rest_law : dlaw := fun conts k => outflow_rest false [] (level (conts 0%nat)).
Theorem c65_weekly_refuted : exists inp s s', dvalid perc_brick /\ length (db_conns perc_brick) = 1%nat /\ direct_step perc_brick 7 inp rest_law s = Ok s' /\
  (forall conts k, asks 7 "outflow:rest" (level (conts 0%nat)) (rest_law conts k)) /\
  level (ds_cont s 0%nat) = 0 /\ i_forced inp 0%nat = 10 /\ i_plain inp 0%nat = 0 /\ i_inst inp 0%nat = 0 /\
  level (ds_cont s' 0%nat) = 0 /\ ds_amount s' 0%nat = 20.
Proof.
  assert (E : exists s', direct_step perc_brick 7 perc_inputs rest_law perc_state = Ok s' /\ c_content (ds_cont s' 0%nat) = 0 /\ ds_amount s' 0%nat = 20).
  { unfold direct_step. cbn [dprocesses db_procs perc_brick]. unfold dprocess. fold perc_brick. cbn [p_cont p_conns].
    match goal with |- context[dconstrain ?B ?d ?i ?s ?c ?r] => replace (dconstrain B d i s c r) with (Ok (vec [20 / 7])) end.
    2:{ symmetry. unfold dconstrain, requested, take_inputs, dinputs_static, LessThanOrEqual, rest_law, outflow_rest, level. rcbn2.
        replace (Rmax (0 + (0 + (10 + 0)) + 0) 0) with 10 by (rewrite Rmax_left; lra). dlimit 1%nat. }
    cbn [bind]. eexists. split; [reflexivity|].
    cbn [fold_left ds_cont ds_amount perc_brick db_conts mem existsb Nat.eqb orb]. unfold apply_dconn, dweighted, GreaterThan, updc, upd, sub_dyn, add_stat, dconn_at.
    rcbn2. rtests. rcbn2. split; [|num].
    unfold finalize, finalize_value, NearlyZero, LessThan, add_dyn. rcbn2. rtests. rcbn2. rtests. reflexivity. }
  destruct E as (s'&H&A&B). exists perc_inputs, perc_state, s'. split; [exact perc_valid|]. split; [reflexivity|]. split; [exact H|]. split; [intros; constructor|].
  assert (Z : level (ds_cont s' 0%nat) = 0).
  { assert (H7 : 0 < 7) by lra. destruct (c05_books _ _ _ _ _ _ perc_valid H7 H) as (r & _ & _ & D).
    destruct (D 0%nat) as (P & _); [cbn; tauto|reflexivity|]. unfold dpending in P. unfold level. lra. }
  repeat split; try exact Z; try exact B; unfold level; cbn; lra.
Qed.
Print Assumptions c65_weekly_refuted.
