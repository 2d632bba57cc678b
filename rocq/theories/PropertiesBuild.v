(** C60-C63: from the declaration of a model to the water balance of the catchment that is built from it. *)
From Verif Require Import Base BaseFacts Container Direct DirectSpec Network NetworkSpec Topology Catchment CatchmentSpec CatchmentFacts PropertiesCatchment Build BuildSpec BuildFacts BuildSound
  StructureSpec StructureFacts PartsFacts DeclareSpec DeclareFacts RainFacts DeclareWitness ProgressFacts PropertiesProgress RunWitness.
Open Scope list_scope.

(** ** C61: the declaration gives the expected structure *)
Theorem c61_declared_structure : forall covers o parts, good_model covers o parts -> declare_model covers o parts = Ok (add_parts parts (base o covers)).
Proof. exact model_declared. Qed.
Print Assumptions c61_declared_structure.
(** Its bricks have distinct names: the canopies, the snowpacks, the land covers with the processes of their entries, the storages of the other entries. *)
Theorem c61_bricks : forall covers o parts st, good_model covers o parts -> declare_model covers o parts = Ok st ->
  NoDup (map bs_name (created st)) /\
  map bs_name (created st) = map (fun c => canopy_of (fst c)) (filter (has_canopy o) covers) ++ (if op_snow o then map (fun c => pack_of (fst c)) covers else [])
    ++ map fst covers ++ map pt_key (filter (fun p => match pt_kind p with UnitPart => true | _ => false end) parts) /\
  map bs_name (st_basin st) = map pt_key (filter (fun p => match pt_kind p with BasinPart => true | _ => false end) parts).
Proof.
  intros covers o parts st HG H. rewrite (model_declared _ _ _ HG) in H. injection H as <-. split; [exact (created_names _ _ _ HG)|]. split.
  - rewrite (created_eq _ _ _ HG), !map_app. unfold canopies, packs, storages. rewrite <- !app_assoc. f_equal; [rewrite map_map; reflexivity|]. f_equal; [destruct (op_snow o); [rewrite map_map|]; reflexivity|].
    f_equal; rewrite map_map; apply map_ext; [|reflexivity]. intros c. apply (dressed_attrs parts c).
  - rewrite basin_shape, map_app, map_map. reflexivity.
Qed.
Print Assumptions c61_bricks.

(** The covers of the types ground, generic land cover, open, forest and lake are generic covers, any other type is kept. *)
Theorem c61_cover_types : forall covers o parts st, good_model covers o parts -> declare_model covers o parts = Ok st ->
  forall c, In c covers -> exists b, In b (created st) /\ bs_name b = fst c /\
    ((snd c = "ground" \/ snd c = "generic_land_cover" \/ snd c = "open" \/ snd c = "forest" \/ snd c = "lake")%string -> bs_type b = "generic_land_cover"%string) /\
    ((snd c <> "ground" /\ snd c <> "generic_land_cover" /\ snd c <> "open" /\ snd c <> "forest" /\ snd c <> "lake")%string -> bs_type b = snd c).
Proof.
  intros covers o parts st HG H c Hc. rewrite (model_declared _ _ _ HG) in H. injection H as <-. exists (dressed parts c).
  destruct (dressed_attrs parts c) as (N & Ty). split; [rewrite (created_eq _ _ _ HG); apply in_or_app; right; apply in_or_app; left; apply in_map; exact Hc|]. split; [exact N|]. rewrite Ty.
  unfold brick_type_of, in_list, generic_names. cbn [existsb]. split.
  - intros [->|[->|[->|[->| ->]]]]; reflexivity.
  - intros (A1 & A2 & A3 & A4 & A5). apply String.eqb_neq in A1, A2, A3, A4, A5. rewrite A1, A2, A3, A4, A5. reflexivity.
Qed.
Print Assumptions c61_cover_types.

(** Socont with a glacier: open ground and glacier, each with its snowpack, three storages in the unit and two in the sub-basin. *)
Example c61_case : good_variant glaciered /\ exists st, declared glaciered = Ok st /\
  map bs_name (created st) = ["open_snowpack"; "glacier_snowpack"; "open"; "glacier"; "slow_reservoir"; "slow_reservoir_2"; "surface_runoff"]%string /\
  map bs_name (st_basin st) = ["glacier_area_rain_snowmelt_storage"; "glacier_area_icemelt_storage"]%string.
Proof.
  pose proof (variant_good glaciered (or_intror eq_refl)) as G. split; [exact G|]. exists (structure_of glaciered). split; [exact (model_declared _ _ _ G)|]. split; vm_compute; reflexivity.
Qed.

(** ** C60: the precipitation of a unit reaches every land cover, once *)
Theorem c60_rain_and_snow : forall covers o parts st, good_model covers o parts -> declare_model covers o parts = Ok st ->
  forall rain snow b, In b (created st) ->
  (received st rain snow b 0 = if existsb (fun c => String.eqb (bs_name b) (rain_receiver o c)) covers then rain else 0) /\
  (received st rain snow b 1 = if (op_snow o && existsb (fun c => String.eqb (bs_name b) (pack_of (fst c))) covers)%bool then snow else 0) /\
  (forall k, (2 <= k)%nat -> received st rain snow b k = 0).
Proof.
  intros covers o parts st HG H rain snow b Hb. rewrite (model_declared _ _ _ HG) in H. injection H as <-. split; [|split].
  - destruct (existsb _ _) eqn:E.
    + apply existsb_exists in E as (c&Hc&E). apply String.eqb_eq in E. exact (received_rain _ _ _ HG rain snow c b Hc Hb E).
    + apply (received_no_rain _ _ _ HG); [exact Hb|]. intros c Hc K. apply String.eqb_eq in K.
      assert (existsb (fun c => String.eqb (bs_name b) (rain_receiver o c)) covers = true) by (apply existsb_exists; eauto). congruence.
  - destruct (op_snow o) eqn:Es; cbn [andb].
    + destruct (existsb _ _) eqn:E.
      * apply existsb_exists in E as (c&Hc&E). apply String.eqb_eq in E. exact (received_snow _ _ _ HG rain snow c b Es Hc Hb E).
      * rewrite (received_eq _ _ _ HG rain snow b 1 Hb), Es. cbn [Nat.eqb andb]. rewrite Rsum_zero; [lra|]. intros c Hc. destruct (String.eqb (pack_of (fst c)) (bs_name b)) eqn:K; [|reflexivity].
        assert (existsb (fun c => String.eqb (bs_name b) (pack_of (fst c))) covers = true) by (apply existsb_exists; exists c; split; [exact Hc|]; rewrite String.eqb_sym; exact K). congruence.
    + rewrite (received_eq _ _ _ HG rain snow b 1 Hb), Es. cbn [Nat.eqb andb]. lra.
  - intros k Hk. apply (received_no_snow _ _ _ HG); [exact Hb|lia|lia].
Qed.
Print Assumptions c60_rain_and_snow.
(** Every land cover has exactly one brick that takes its rain and, with snow, exactly one that takes its snow; they are on this cover. *)
Theorem c60_receivers : forall covers o parts st, good_model covers o parts -> declare_model covers o parts = Ok st ->
  forall c, In c covers ->
  (exists! b, In b (created st) /\ bs_name b = rain_receiver o c) /\
  (op_snow o = true -> exists! b, In b (created st) /\ bs_name b = pack_of (fst c)) /\
  (forall b, In b (created st) -> bs_name b = rain_receiver o c \/ (op_snow o = true /\ bs_name b = pack_of (fst c)) -> bs_name b = fst c \/ bs_parent b = fst c) /\
  (forall c', In c' covers -> rain_receiver o c' = rain_receiver o c -> c' = c).
Proof.
  intros covers o parts st HG H c Hc. rewrite (model_declared _ _ _ HG) in H. injection H as <-.
  assert (K : forall n, (exists b, In b (created (add_parts parts (base o covers))) /\ bs_name b = n) -> exists! b, In b (created (add_parts parts (base o covers))) /\ bs_name b = n).
  { intros n (b&B1&B2). exists b. split; [auto|]. intros b' (B1'&B2'). apply (named _ _ _ HG b b' B1 B1'). congruence. }
  assert (KP : op_snow o = true -> In (pack_brick c (pack_processes o c)) (created (add_parts parts (base o covers)))).
  { intros Es. apply (created_member _ _ _ HG). exact (is_pack _ _ _ _ c Hc Es eq_refl). }
  split; [|split; [|split]].
  - apply K. destruct (receiver_member _ _ _ HG c Hc) as (b&B1&B2&_). eauto.
  - intros Es. apply K. eauto.
  - intros b Hb [E|[Es E]].
    + destruct (receiver_member _ _ _ HG c Hc) as (d&D1&D2&_&D4). rewrite <- D2 in E. rewrite (named _ _ _ HG b d Hb D1 E). destruct D4 as [[D4 _]|[_ D4]]; auto.
    + rewrite (named _ _ _ HG b _ Hb (KP Es) E). right. reflexivity.
  - intros c' Hc' E. pose proof (receivers_distinct _ _ _ HG c' c Hc' Hc E) as E'. pose proof (gn_distinct _ (gm_names _ _ _ HG)) as N.
    apply In_nth_error in Hc as [i Hi]. apply In_nth_error in Hc' as [j Hj]. assert (j = i); [|congruence].
    apply (proj1 (NoDup_nth_error _) N); [rewrite map_length; apply nth_error_Some; congruence|]. rewrite (map_nth_error fst _ _ Hi), (map_nth_error fst _ _ Hj). congruence.
Qed.
Print Assumptions c60_receivers.

(** In Socont the rain falls on the covers and the snow on the snowpacks. *)
Example c60_case : exists st, declared glaciered = Ok st /\
  map (fun b => (received st 5 2 b 0, received st 5 2 b 1)) (created st) = [(0, 2); (0, 2); (5, 0); (5, 0); (0, 0); (0, 0); (0, 0)].
Proof.
  pose proof (variant_good glaciered (or_intror eq_refl)) as G. exists (structure_of glaciered). split; [exact (model_declared _ _ _ G)|].
  assert (K : forall b, In b (created (structure_of glaciered)) -> (received (structure_of glaciered) 5 2 b 0, received (structure_of glaciered) 5 2 b 1) =
    (if existsb (fun c => String.eqb (bs_name b) (rain_receiver socont_options c)) (v_covers glaciered) then 5 else 0,
     if (op_snow socont_options && existsb (fun c => String.eqb (bs_name b) (pack_of (fst c))) (v_covers glaciered))%bool then 2 else 0)).
  { intros b Hb. destruct (c60_rain_and_snow _ _ _ _ G (model_declared _ _ _ G) 5 2 b Hb) as (E1&E2&_). apply f_equal2; [exact E1|exact E2]. }
  rewrite (map_ext_in _ _ _ K). assert (Eb : map bs_name (created (structure_of glaciered)) = ["open_snowpack"; "glacier_snowpack"; "open"; "glacier"; "slow_reservoir"; "slow_reservoir_2"; "surface_runoff"]%string) by (vm_compute; reflexivity).
  transitivity (map (fun n => (if existsb (fun c => String.eqb n (rain_receiver socont_options c)) (v_covers glaciered) then 5 else 0,
     if (op_snow socont_options && existsb (fun c => String.eqb n (pack_of (fst c))) (v_covers glaciered))%bool then 2 else 0)) (map bs_name (created (structure_of glaciered)))).
  - rewrite map_map. reflexivity.
  - rewrite Eb. reflexivity.
Qed.
(** The land covers must be declared after the splitters: declared before, they all succeed and get no rain. *)
Theorem c60_covers_first_refuted :
  ~ (forall cover st rain, bind (add_land_cover cover "generic_land_cover" new_editor) (gen_precipitation false "") = Ok st ->
       exists b, In b (created (ed_str st)) /\ received (ed_str st) rain 0 b 0 = rain).
Proof.
  intros H. destruct (H "open"%string (mkEd (mkStr [new_brick "open" "generic_land_cover"] [] [0%nat] [] [mkSs "rain" "rain" [mkOut "rain_splitter" Water false false]; mkSs "rain_splitter" "multi_fluxes" []])
      (UnitSel 0) None (Some 1%nat)) 5 eq_refl) as (b&Hb&E).
  cbn in Hb. destruct Hb as [<-|[]]. revert E. unfold received. cbn. lra.
Qed.
Print Assumptions c60_covers_first_refuted.

(** ** C62: a model declared in the order of the flow is built, and the built catchment conserves water *)
Theorem c62_built : forall M, in_flow_order M -> exists C, build M = Ok C /\ sound C (direct_share M) (solved_share M) /\
  node_count C = length (direct_items M) /\ length (n_bricks (ct_net C)) = length (solved_items M).
Proof.
  intros M HM. exists (assembled M). split; [exact (build_ok M HM)|]. split; [exact (assembled_sound M HM)|]. split; [exact (assembled_count M)|]. cbn. rewrite map_length. reflexivity.
Qed.
Print Assumptions c62_built.
(** What a unit gives to a brick of the sub-basin is flagged static or delivered at once; what the sub-basin moves never is static (ModelBuilder.cpp:535-540, :413-425). *)
Theorem c62_flags : forall M C, build M = Ok C ->
  (forall j u b k s d, nth_error (direct_items M) j = Some (u, b) -> (k < length (db_conns (nd_brick (node_at C j))))%nat ->
     nd_to (node_at C j) k = InStorage s -> nth_error (solved_items M) s = Some (None, d) -> nd_static (node_at C j) k = true) /\
  (forall cn, In cn (n_conns (ct_net C)) -> forall u b s d, nth_error (solved_items M) (k_src cn) = Some (Some u, b) -> k_tgt cn = ToStore s ->
     nth_error (solved_items M) s = Some (None, d) -> k_kind cn = Static \/ k_kind cn = Instant) /\
  (forall cn, In cn (n_conns (ct_net C)) -> forall b, nth_error (solved_items M) (k_src cn) = Some (None, b) -> k_kind cn = Regular \/ k_kind cn = Instant).
Proof.
  intros M C HC. unfold build in HC. destruct (negb (all_known M)); [discriminate HC|]. destruct (buildable M); [|discriminate HC]. injection HC as <-. fold (assembled M).
  assert (K : forall u b o bo s d, In bo (unit_outs M u b o) -> bo_place bo = InStorage s -> nth_error (solved_items M) s = Some (None, d) -> bo_static bo = true).
  { intros u b o bo s d H E Hs. unfold unit_outs in H. destruct (String.eqb (o_target o) "outlet"); [destruct H as [<-|[]]; discriminate E|].
    destruct (String.eqb (o_target o) "lateral").
    { unfold lateral_outs in H. apply in_concat in H as (l&Hl&H). apply in_map_iff in Hl as (v&<-&_). apply in_concat in H as (l&Hl&H). apply in_map_iff in Hl as (e&<-&_).
      destruct (direct_index M v (bs_name e)); [|destruct H]. destruct H as [<-|[]]. discriminate E. }
    destruct (has_brick (un_str (unit_at M u)) (o_target o)) as [e|].
    - destruct (is_direct e).
      + destruct (direct_index M u (o_target o)); [|destruct H]. destruct (entry e (o_type o)); [|destruct H]. destruct H as [<-|[]]. discriminate E.
      + destruct (solved_index M (Some u) (o_target o)) as [s'|] eqn:Es; [|destruct H]. destruct H as [<-|[]]. injection E as ->.
        apply index_where_spec in Es as (x&Hx&Tx). rewrite Hs in Hx. injection Hx as <-. discriminate Tx.
    - destruct (solved_index M None (o_target o)); [|destruct H]. destruct H as [<-|[]]. reflexivity. }
  assert (N : forall cn, In cn (n_conns (ct_net (assembled M))) -> exists x p bo, nth_error (solved_items M) (k_src cn) = Some x /\ In p (bs_processes (snd x)) /\
     In bo (process_outs (item_outs M x) p) /\ cn = as_conn (k_src cn) (String.eqb (pr_type p) "overflow") bo).
  { intros cn H. cbn in H. apply (with_index_In M) in H as (i&x&H1&H2). unfold build_conns in H2. apply in_concat in H2 as (l&Hl&H2).
    apply in_map_iff in Hl as (p&<-&Hp). apply in_map_iff in H2 as (bo&<-&Hb). exists x, p, bo. split; [exact H1|]. split; [exact Hp|]. split; [exact Hb|reflexivity]. }
  split; [|split].
  - intros j u b k s d Hj Hk E Hs. rewrite (assembled_node M j _ Hj) in *. rewrite node_outs in Hk. pose proof (out_at M u b k Hk) as H. cbn in E |- *.
    fold (outs_of M u b) in *. set (bo := nth k (outs_of M u b) dummy_out) in *. unfold outs_of, built_outs, built_processes in H. rewrite map_map in H. cbn in H.
    apply in_concat in H as (l&Hl&H). apply in_map_iff in Hl as (p&<-&Hp). apply process_outs_In in H as [[_ ->]|(_&o&_&H)]; [discriminate E|]. exact (K u b o bo s d H E Hs).
  - intros cn Hcn u b s d Hsrc Et Hs. destruct (N cn Hcn) as (x&p&bo&Hx&_&Hbo&E). rewrite Hsrc in Hx. injection Hx as <-. cbn [item_outs fst snd] in Hbo.
    rewrite E in Et |- *. cbn in Et |- *. destruct (bo_place bo) as [j' c'|s'| |] eqn:Ep; try discriminate Et. injection Et as ->.
    apply process_outs_In in Hbo as [[_ ->]|(_&o&_&H)]; [discriminate Ep|]. rewrite (K u b o bo s d H Ep Hs). destruct (bo_tgt bo); auto.
  - intros cn Hcn b Hsrc. destruct (N cn Hcn) as (x&p&bo&Hx&_&Hbo&E). rewrite Hsrc in Hx. injection Hx as <-. cbn [item_outs fst snd] in Hbo. rewrite E. cbn.
    assert (Es : bo_static bo = false). { apply process_outs_In in Hbo as [[_ ->]|(_&o&_&H)]; [reflexivity|]. unfold basin_outs in H.
      destruct (String.eqb (o_target o) "outlet"); [destruct H as [<-|[]]; reflexivity|]. destruct (solved_index M None (o_target o)); [|destruct H]. destruct H as [<-|[]]; reflexivity. }
    rewrite Es. destruct (bo_tgt bo); auto.
Qed.
Print Assumptions c62_flags.
Theorem c62_balance : forall M C dt, in_flow_order M -> build M = Ok C -> 0 < dt ->
  forall l G, fresh C G -> (forall inp G', In (inp, G') l -> nonneg_input inp /\ guarded C dt G inp) -> crun C dt G l ->
  let W := direct_share M in let w := solved_share M in
  Rabs (in_catchment C W w (cfinal G l)
        - (in_catchment C W w G + Rsum (fun x => fallen C W w G (fst x)) l
           + Rsum (fun x => from_ice C W w (snd x)) l - Rsum (fun x => into_ice C W w (snd x)) l
           - Rsum (fun x => discharge C (snd x)) l - Rsum (fun x => evaporated C W w (snd x)) l))
  <= INR (length l) * catchment_tolerance C W w dt.
Proof. intros M C dt HM HC Hdt l G. rewrite (build_ok M HM) in HC. injection HC as <-. exact (c59_catchment_balance _ _ _ dt Hdt (assembled_sound M HM) l G). Qed.
Print Assumptions c62_balance.

(** ** C63: the same for a declared model, from the precipitation of the hydro units *)
Theorem c63_model_built : forall primary V M, good_units primary V M -> exists C, build M = Ok C.
Proof. intros primary V M HU. exists (assembled M). exact (build_ok M (model_in_order primary V M HU)). Qed.
Print Assumptions c63_model_built.
Theorem c63_model_balance : forall primary V M C dt, good_units primary V M -> build M = Ok C -> 0 < dt ->
  forall l G, fresh C G -> ice_in_glaciers M G ->
  (forall x G', In (x, G') l -> wet M x /\ guarded C dt G (input_of M x)) ->
  crun C dt G (map (fun x => (input_of M (fst x), snd x)) l) ->
  let W := direct_share M in let w := solved_share M in
  Rabs (in_catchment C W w (cfinal G (map (fun x => (input_of M (fst x), snd x)) l))
        - (in_catchment C W w G + Rsum (fun x => precipitated V M (fst x)) l
           + Rsum (fun x => from_ice C W w (snd x)) l - Rsum (fun x => into_ice C W w (snd x)) l
           - Rsum (fun x => discharge C (snd x)) l - Rsum (fun x => evaporated C W w (snd x)) l))
  <= INR (length l) * catchment_tolerance C W w dt.
Proof.
  intros primary V M C dt HU HC Hdt l G Hf Hice Hin Hrun W w. pose proof (model_in_order primary V M HU) as HM. rewrite (build_ok M HM) in HC. injection HC as <-.
  assert (K := c59_catchment_balance (assembled M) W w dt Hdt (assembled_sound M HM) (map (fun x => (input_of M (fst x), snd x)) l) G Hf).
  rewrite map_length in K. rewrite !Rsum_map in K. cbn [fst snd] in K.
  rewrite (Rsum_ext_in (fun x => fallen (assembled M) W w G (input_of M (fst x))) (fun x => precipitated V M (fst x))) in K.
  - apply K; [|exact Hrun]. intros inp G' Hx. apply in_map_iff in Hx as ((x&H)&E&Hx). cbn [fst snd] in E. injection E as <- <-. destruct (Hin x H Hx) as [A1 A2].
    split; [exact (input_nonneg primary V M HU x A1)|exact A2].
  - intros x _. exact (fallen_model primary V M HU G (fst x) Hice).
Qed.
Print Assumptions c63_model_balance.
Theorem c63_model_nonnegative : forall primary V M C dt, good_units primary V M -> build M = Ok C -> 0 < dt ->
  forall l G, fresh C G ->
  (forall x G', In (x, G') l -> wet M x /\ guarded C dt G (input_of M x)) ->
  crun C dt G (map (fun x => (input_of M (fst x), snd x)) l) ->
  forall x G', In (x, G') l ->
  (forall i c, (i < node_count C)%nat -> nd_null (node_at C i) = false -> In c (conts_of C i) -> is_ice G i c = false ->
     0 <= c_content (ds_cont (g_direct G' i) c) + c_dyn (ds_cont (g_direct G' i) c) + c_stat (ds_cont (g_direct G' i) c)) /\
  (forall b, solid (ct_net C) b -> 0 <= s_content (g_net G') b).
Proof.
  intros primary V M C dt HU HC Hdt l G Hf Hin Hrun x G' Hx. pose proof (model_in_order primary V M HU) as HM. rewrite (build_ok M HM) in HC. injection HC as <-.
  apply (c59_nonnegative (assembled M) (direct_share M) (solved_share M) dt Hdt (assembled_sound M HM) (map (fun x => (input_of M (fst x), snd x)) l) G Hf) with (inp := input_of M x); [|exact Hrun|].
  - intros inp H Hy. apply in_map_iff in Hy as ((y&H')&E&Hy). cbn [fst snd] in E. injection E as <- <-. destruct (Hin y H' Hy) as [A1 A2]. split; [exact (input_nonneg primary V M HU y A1)|exact A2].
  - apply in_map_iff. exists (x, G'). auto.
Qed.
Print Assumptions c63_model_nonnegative.

(** The Socont catchment over the day of RunWitness.v. *)
Example c63_case : good_units ice_free unit_variant socont_domain /\ build socont_domain = Ok C /\ fresh C day_start /\ ice_in_glaciers socont_domain day_start /\
  wet socont_domain day /\ guarded C 1 day_start (input_of socont_domain day) /\ precipitated unit_variant socont_domain day = 7 /\
  exists G', crun C 1 day_start [(input_of socont_domain day, G')].
Proof.
  pose proof socont_units as HU. split; [exact HU|]. split; [exact (build_ok _ (model_in_order _ _ _ HU))|]. split; [exact day_fresh|]. split; [exact day_ice|].
  split; [exact day_wet|]. split; [exact day_guarded|]. split.
  - unfold precipitated. cbn. unfold total_area. cbn. lra.
  - destruct day_step as (G'&E). exists G'. split; [|exact I]. exists (fun e s => euler_step (ct_net C) 1 e day_storages s). split; [|exact E].
    intros e s s' H. exact (by_euler _ _ _ _ _ _ H).
Qed.
