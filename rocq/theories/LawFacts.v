(** With the formulas of their processes, the directly computed bricks of a declared model never ask for more water than there is. *)
From Verif Require Import Base BaseFacts Container ContainerFacts Direct DirectSpec Network NetworkSpec Topology Catchment CatchmentSpec Build BuildSpec BuildFacts BuildSound
  StructureSpec StructureFacts DeclareSpec DeclareFacts RainFacts Processes LawSpec.
Open Scope list_scope.

(** ** One process *)
Lemma scaled_le dt r x : 0 < dt <= 1 -> r <= Rmax 0 x -> Rmax 0 r * dt <= Rmax 0 x.
Proof.
  intros Hdt H. pose proof (Rmax_l 0 x) as H0. assert (K : 0 <= Rmax 0 r <= Rmax 0 x) by (split; [apply Rmax_l|apply Rmax_lub; assumption]).
  assert (Rmax 0 r * dt <= Rmax 0 r * 1) by (apply Rmult_le_compat_l; lra). lra.
Qed.
Lemma divided_le dt y x : 0 < dt -> y <= Rmax 0 x -> Rmax 0 (y / dt) * dt <= Rmax 0 x.
Proof.
  intros Hdt H. pose proof (Rmax_l 0 x) as H0. destruct (Rle_lt_dec y 0) as [Hy|Hy].
  - rewrite Rmax_left; [lra|]. unfold Rdiv. assert (0 < / dt) by (apply Rinv_0_lt_compat; lra). replace 0 with (0 * / dt) by ring. apply Rmult_le_compat_r; lra.
  - rewrite Rmax_right; [unfold Rdiv; rewrite Rmult_assoc, Rinv_l; lra|]. left. apply Rdiv_lt_0_compat; lra.
Qed.
Lemma share_le x p : 0 <= p -> x * (1 - p) <= Rmax 0 x \/ x < 0 /\ 1 < p.
Proof.
  intros Hp. destruct (Rle_lt_dec 0 x) as [Hx|Hx].
  - left. rewrite Rmax_right by lra. assert (0 <= x * p) by (apply Rmult_le_pos; lra). lra.
  - destruct (Rle_lt_dec p 1) as [H1|H1]; [|auto]. left. rewrite Rmax_left by lra. assert (0 <= (- x) * (1 - p)) by (apply Rmult_le_pos; lra). lra.
Qed.
Lemma filling_range cap content r : filling_ratio cap content = Ok r -> 0 <= r <= 1.
Proof.
  unfold filling_ratio. destruct cap as [c|]; [|discriminate]. destruct (Reqb c 0); [discriminate|]. intros E. injection E as <-. split; [apply Rmax_l|].
  apply Rmax_lub; [lra|apply Rmin_l].
Qed.
Lemma cpow_nonneg x e p : cpow x e = Ok p -> 0 <= p.
Proof.
  unfold cpow. destruct (Rltb 0 x); [intros E; injection E as <-; left; apply exp_pos|]. destruct (Reqb x 0); [|discriminate].
  destruct (Rltb 0 e); [intros E; injection E as <-; lra|]. destruct (Reqb e 0); [intros E; injection E as <-; lra|discriminate].
Qed.
Lemma asks_le dt t x r : 0 < dt <= 1 -> asks dt t x r -> Rmax 0 r * dt <= Rmax 0 x.
Proof.
  intros Hdt [x'|x'|k x' Hk|cap x' Hcap|swe whc x' Hs Hw|cap target x' r' E|cap target beta x' r' E|beta slope area x' r' E|pet x' Hp|pet x' Hp]; clear x r; rename x' into x.
  - apply scaled_le; [exact Hdt|]. unfold outflow_rest. rewrite Rmax_comm. lra.
  - apply scaled_le; [exact Hdt|]. unfold outflow_direct. rewrite Rmax_comm. lra.
  - apply scaled_le; [exact Hdt|]. unfold outflow_linear. destruct (Rle_lt_dec 0 x) as [Hx|Hx].
    + rewrite Rmax_right by lra. assert (k * x <= 1 * x) by (apply Rmult_le_compat_r; lra). lra.
    + rewrite Rmax_left by lra. assert (0 <= k * (- x)) by (apply Rmult_le_pos; lra). lra.
  - unfold outflow_threshold. destruct (Rleb (x - cap) 0); [rewrite Rmax_left by lra; pose proof (Rmax_l 0 x); lra|].
    apply divided_le; [lra|]. pose proof (Rmax_r 0 x). lra.
  - unfold outflow_snow_holding. destruct (Rleb _ 0); [rewrite Rmax_left by lra; pose proof (Rmax_l 0 x); lra|].
    apply divided_le; [lra|]. pose proof (Rmax_r 0 x). assert (0 <= whc * swe) by (apply Rmult_le_pos; assumption). lra.
  - rename r' into r. apply scaled_le; [exact Hdt|]. unfold infiltration_socont in E. destruct cap as [c|]; [|discriminate].
    destruct (Rleb c 0); [injection E as <-; apply Rmax_l|]. destruct (filling_ratio (Some c) target) as [p| |] eqn:F; try discriminate. cbn in E. injection E as <-.
    apply filling_range in F. assert (0 <= p * p <= 1) by nra. destruct (share_le x (p * p)) as [H'|H']; lra.
  - rename r' into r. apply scaled_le; [exact Hdt|]. unfold infiltration_hbv in E. destruct cap as [c|]; [|discriminate].
    destruct (Rleb x 0) eqn:Ex; cbn [orb] in E; [injection E as <-; apply Rmax_l|]. destruct (Rleb c 0); [injection E as <-; apply Rmax_l|].
    destruct (filling_ratio (Some c) target) as [p| |] eqn:F; try discriminate. cbn in E. destruct (cpow (Rmax 0 (Rmin 1 p)) beta) as [y| |] eqn:Ec; try discriminate. cbn in E. injection E as <-.
    apply cpow_nonneg in Ec. apply Rleb_false in Ex. destruct (share_le x y Ec) as [H'|H']; lra.
  - rename r' into r. apply scaled_le; [exact Hdt|]. unfold runoff_socont in E. destruct (cpow slope _) as [y| |]; try discriminate. cbn in E.
    destruct (cpow _ _) as [z| |]; try discriminate. cbn in E. destruct (Reqb area 0); [discriminate|]. injection E as <-. eapply Rle_trans; [apply Rmin_r|apply Rmax_r].
  - apply scaled_le; [exact Hdt|]. cbn. eapply Rle_trans; [apply Rmin_l|apply Rmax_r].
  - unfold et_open_water. destruct (Rltb 0 dt) eqn:Ed; [|apply Rltb_false in Ed; lra].
    set (y := Rmax 0 (x / dt)). assert (Hm : Rmax 0 (Rmin pet y) <= Rmax 0 y). { apply Rmax_lub; [apply Rmax_l|]. eapply Rle_trans; [apply Rmin_r|apply Rmax_r]. }
    apply Rle_trans with (Rmax 0 y * dt); [apply Rmult_le_compat_r; lra|]. assert (Ey : Rmax 0 y = Rmax 0 (x / dt)) by (unfold y; rewrite Rmax_right; [reflexivity|apply Rmax_l]).
    rewrite Ey. apply divided_le; [lra|apply Rmax_r].
Qed.

(** ** Lists *)
Lemma Forall2_and {X Y} (A B : X -> Y -> Prop) l l' : Forall2 A l l' -> Forall2 B l l' -> Forall2 (fun x y => A x y /\ B x y) l l'.
Proof. intros H. induction H as [|x y l l' Hxy _ IH]; intros K; [constructor|]. inversion K; subst. constructor; auto. Qed.
Lemma Forall2_right {X Y} (A : X -> Y -> Prop) l l' y : Forall2 A l l' -> In y l' -> exists x, In x l /\ A x y.
Proof. intros H. induction H as [|x z l l' Hxz _ IH]; intros K; [destruct K|]. destruct K as [<-|K]; [exists x; split; [left; reflexivity|exact Hxz]|]. destruct (IH K) as (x'&H1&H2). exists x'. split; [right; exact H1|exact H2]. Qed.
Lemma number_pairs b outs : forall ps first, Forall2 (fun p q => p_cont q = match process_container b (pr_type p) with Some c => c | None => 0%nat end) ps
  (number (map (fun p => (match process_container b (pr_type p) with Some c => c | None => 0%nat end, process_outs outs p)) ps) first).
Proof. induction ps as [|p ps IH]; intros first; [constructor|]. cbn. constructor; [reflexivity|apply IH]. Qed.

Section Catchment.
Variable primary : variant.
Variable V : nat -> variant.
Variable M : domain.
Hypothesis HU : good_units primary V M.
Local Notation n := (length (dm_units M)).
Local Notation C := (assembled M).
Let HM : in_flow_order M := model_in_order primary V M HU.
Let good u (Hu : (u < n)%nat) := gu_variant _ _ _ HU u Hu.
Let ust u (Hu : (u < n)%nat) : un_str (unit_at M u) = add_parts (v_parts (V u)) (base (v_options (V u)) (v_covers (V u))) := unit_str primary V M HU u Hu.
Local Notation parts u := (v_parts (V u)).
Local Notation member' u := (member (v_covers (V u)) (v_options (V u)) (v_parts (V u))).

Lemma unit_member u b : (u < n)%nat -> In b (created (un_str (unit_at M u))) -> member' u b.
Proof. intros Hu Hb. rewrite (ust u Hu) in Hb. exact (proj1 (created_member _ _ _ (good u Hu) b) Hb). Qed.

Section Asking.
Variable dt : R.
Hypothesis Hdt : 0 < dt <= 1.
Variable laws : nat -> dlaw.
Hypothesis HF : by_formulas M C dt laws.
Lemma within_of j u b c : nth_error (direct_items M) j = Some (u, b) -> (c = 0%nat -> bs_capacity b = None) ->
  (forall p, In p (bs_processes b) -> process_container b (pr_type p) = Some c -> gentle (pr_type p)) -> asks_within (nd_brick (node_at C j)) dt (laws j) c.
Proof.
  intros Hj Hcap Hm. pose proof (HF j u b Hj) as HFj. rewrite (assembled_node M j _ Hj) in *. split; [cbn; destruct c; [apply Hcap; reflexivity|reflexivity]|].
  intros conts q Hq Hc. pose proof (number_pairs b (unit_outs M u b) (bs_processes b) 0) as HN.
  cbn [build_node nd_brick db_procs] in HFj, Hq. unfold built_processes in *. destruct (Forall2_right _ _ _ q (Forall2_and _ _ _ _ HFj HN) Hq) as (p&Hp&Hf&Ec).
  pose proof (nth_error_In _ _ Hj) as Hin. apply (direct_In M) in Hin as (Hu&Hb&_). destruct (uo_process M u (unit_ok M HM u Hu) b p Hb Hp) as (c'&Ec'). rewrite Ec' in Ec. rewrite Hc in Ec. subst c'.
  destruct (Hf (Hm p Hp Ec')) as [Hl Ha]. destruct (p_conns q) as [|k [|k' l]] eqn:Ek; [| |cbn in Hl; lia].
  - cbn. pose proof (Rmax_l 0 (level (conts c))). lra.
  - cbn [Rsum]. destruct (Ha conts k (or_introl eq_refl)) as (r&Hr&Hle). rewrite Hc in Hr. rewrite Rplus_0_r. eapply Rle_trans; [|exact (asks_le dt _ _ _ Hdt Hr)].
    apply Rmult_le_compat_r; [lra|]. apply Rmax_lub; [apply Rmax_l|]. eapply Rle_trans; [exact Hle|apply Rmax_r].
Qed.
End Asking.

(** ** Outputs inside a brick *)
Lemma named_unique u b d : (u < n)%nat -> In b (created (un_str (unit_at M u))) -> In d (created (un_str (unit_at M u))) -> bs_name b = bs_name d -> b = d.
Proof. intros Hu Hb Hd E. pose proof (has_brick_found M HM u b Hu Hb) as H1. pose proof (has_brick_found M HM u d Hu Hd) as H2. rewrite E in H1. congruence. Qed.
Lemma inside_output u b o bo c : (u < n)%nat -> In b (created (un_str (unit_at M u))) -> In bo (unit_outs M u b o) -> bo_tgt bo = Inside c ->
  o_target o = bs_name b /\ entry b (o_type o) = Some c /\ is_direct b = true.
Proof.
  intros Hu Hb H E. unfold unit_outs in H. destruct (String.eqb (o_target o) "outlet"); [destruct H as [<-|[]]; discriminate E|].
  destruct (String.eqb (o_target o) "lateral").
  { unfold lateral_outs in H. apply in_concat in H as (l&Hl&H). apply in_map_iff in Hl as (v&<-&_). apply in_concat in H as (l&Hl&H). apply in_map_iff in Hl as (d&<-&_).
    destruct (direct_index M v (bs_name d)); [|destruct H]. destruct H as [<-|[]]. destruct (o_now o); discriminate E. }
  destruct (has_brick (un_str (unit_at M u)) (o_target o)) as [d|] eqn:Ed.
  - unfold has_brick in Ed. apply find_some in Ed as [Hd Ed]. apply String.eqb_eq in Ed. destruct (is_direct d) eqn:Dd.
    + destruct (direct_index M u (o_target o)); [|destruct H]. destruct (entry d (o_type o)) as [c'|] eqn:Ee; [|destruct H]. destruct H as [<-|[]]. cbn [bo_tgt] in E.
      destruct (o_now o && String.eqb (bs_name d) (bs_name b)) eqn:En; [|destruct (o_now o); discriminate E]. injection E as <-. apply andb_true_iff in En as [_ En]. apply String.eqb_eq in En.
      rewrite (named_unique u d b Hu Hd Hb En) in *. auto.
    + destruct (solved_index _ _ _); [|destruct H]. destruct H as [<-|[]]. destruct (o_now o); discriminate E.
  - destruct (solved_index _ _ _); [|destruct H]. destruct H as [<-|[]]. destruct (o_now o); discriminate E.
Qed.
Lemma inside_component u b o bo c : (u < n)%nat -> In b (created (un_str (unit_at M u))) -> flows M u b o -> In bo (unit_outs M u b o) -> bo_tgt bo = Inside c -> component b.
Proof.
  intros Hu Hb HF H E. destruct (inside_output u b o bo c Hu Hb H E) as (Et&_&Hd). destruct (uo_reserved M u (unit_ok M HM u Hu) b Hb) as [R1 R2].
  destruct HF as [E' _|d Cb _ _ _ _ _ _|Cb _ _ _|Cb E' _ _|d _ Hin Hs E' _ Hl|d _ Hin E' _ Hn|d Hb1 _ _ _ _ _ _ _]; try assumption; try congruence.
  - exfalso. assert (d = b) by (apply (named_unique u); auto; congruence). subst d. destruct (storage_plain b Hs) as (_&_&D). destruct Hl as [Hl _]; [split; [exact Hs|congruence]|]. congruence.
  - exfalso. apply (Hn b Hb). congruence.
  - exfalso. destruct Hb1 as [S1 S2]. destruct (storage_plain b S1) as (_&_&D). congruence.
Qed.
(** An output of a node, from the declaration. *)
Lemma output_from j u b k : nth_error (direct_items M) j = Some (u, b) -> (k < length (db_conns (nd_brick (node_at C j))))%nat ->
  exists p bo, In p (bs_processes b) /\ In bo (process_outs (unit_outs M u b) p) /\ d_tgt (dconn_at (nd_brick (node_at C j)) k) = bo_tgt bo /\
    nd_to (node_at C j) k = bo_place bo /\ nd_static (node_at C j) k = bo_static bo.
Proof.
  intros Hj Hk. rewrite (assembled_node M j _ Hj) in *. rewrite node_outs in Hk. pose proof (out_at M u b k Hk) as H. rewrite (node_conn M u b k Hk).
  set (bo := nth k (outs_of M u b) dummy_out) in *. unfold outs_of, built_outs, built_processes in H. rewrite map_map in H. cbn in H. apply in_concat in H as (l&Hl&H).
  apply in_map_iff in Hl as (p&<-&Hp). exists p, bo. repeat split; auto.
Qed.
Lemma in_conns j u b k : nth_error (direct_items M) j = Some (u, b) -> In k (concat (map p_conns (db_procs (nd_brick (node_at C j))))) -> (k < length (db_conns (nd_brick (node_at C j))))%nat.
Proof.
  intros Hj H. rewrite (assembled_node M j _ Hj) in *. destruct (node_valid M HM j u b Hj) as [Hv _]. apply (dv_range _ Hv). exact H.
Qed.
Lemma no_inside j u b c : nth_error (direct_items M) j = Some (u, b) ->
  (forall p o, In p (bs_processes b) -> to_atmosphere (pr_type p) = false -> In o (pr_outputs p) -> o_target o = bs_name b -> entry b (o_type o) <> Some c) \/ ~ component b ->
  forall l1 p l2, db_procs (nd_brick (node_at C j)) = l1 ++ p :: l2 -> p_cont p = c ->
     forall k, In k (concat (map p_conns (p :: l2))) -> d_tgt (dconn_at (nd_brick (node_at C j)) k) <> Inside c.
Proof.
  intros Hj Hno l1 q l2 Eq _ k Hk E. pose proof (nth_error_In _ _ Hj) as Hin. apply (direct_In M) in Hin as (Hu&Hb&_).
  assert (Hk' : (k < length (db_conns (nd_brick (node_at C j))))%nat). { apply (in_conns j u b k Hj). rewrite Eq, map_app, concat_app. apply in_or_app. right. exact Hk. }
  destruct (output_from j u b k Hj Hk') as (p&bo&Hp&Hbo&Et&_). rewrite E in Et. symmetry in Et. destruct (process_outs_In _ _ _ Hbo) as [[_ ->]|(Ha&o&Ho&Hbo')]; [discriminate Et|].
  destruct Hno as [Hno|Hno].
  - destruct (inside_output u b o bo c Hu Hb Hbo' Et) as (E1&E2&_). exact (Hno p o Hp Ha Ho E1 E2).
  - apply Hno. exact (inside_component u b o bo c Hu Hb (uo_flows M u (unit_ok M HM u Hu) b p o Hb Hp Ha Ho) Hbo' Et).
Qed.

(** ** Static fluxes between directly computed bricks *)
Lemma pack_static o c x y : In x (pack_processes o c) -> In y (pr_outputs x) -> o_static y = false.
Proof.
  intros H. unfold pack_processes in H. apply in_app_or in H as [H|H]; [|apply in_app_or in H as [H|H]; [|apply in_app_or in H as [H|H]; [|apply in_app_or in H as [H|H]]]].
  - unfold melt_processes in H. destruct (op_retention o) as [[out rain]|]; cbn in H; [destruct H as [<-|[<-|[]]]|destruct H as [<-|[]]]; cbn; intros [<-|[]]; reflexivity.
  - apply when_In in H as (t&_&->). cbn. intros [<-|[]]. reflexivity.
  - unfold ice_processes in H. destruct (String.eqb _ _); [|destruct H]. apply when_In in H as (t&_&->). cbn. intros [<-|[]]. reflexivity.
  - apply when_In in H as (t&_&->). cbn. intros [<-|[]]. reflexivity.
  - apply when_In in H as (t&_&->). cbn. intros [].
Qed.
Lemma declared_static q y : In y (pr_outputs (declared_process q)) -> o_static y = true -> static_kind q = true /\ o_now y = pp_now q /\ hd_error (pp_targets q) = Some (o_target y).
Proof.
  unfold declared_process. cbn. destruct (pp_targets q) as [|t r]; [intros []|]. intros [<-|H] E; cbn in *; [auto|]. apply in_map_iff in H as (s&<-&_). discriminate E.
Qed.
Lemma static_output i u b k j c : nth_error (direct_items M) i = Some (u, b) -> (k < out_count C i)%nat -> d_tgt (conn_of C i k) = Outside ->
  nd_static (node_at C i) k = true -> nd_to (node_at C i) k = InDirect j c ->
  c = 0%nat /\ exists d p q, nth_error (direct_items M) j = Some (u, d) /\ In p (parts u) /\ In q (pt_processes p) /\ static_kind q = true /\ pp_now q = false /\
    hd_error (pp_targets q) = Some (bs_name d).
Proof.
  intros Hi Hk Et Es Ep. unfold out_count in Hk. unfold conn_of in Et. destruct (output_from i u b k Hi Hk) as (p&bo&Hp&Hbo&E1&E2&E3). rewrite E1 in Et. rewrite E2 in Ep. rewrite E3 in Es.
  pose proof (nth_error_In _ _ Hi) as Hin. apply (direct_In M) in Hin as (Hu&Hb&_).
  destruct (process_outs_In _ _ _ Hbo) as [[_ ->]|(Ha&o&Ho&Hbo')]; [discriminate Ep|].
  assert (Hout : o_target o <> "outlet"%string). { intros K. unfold unit_outs in Hbo'. rewrite K in Hbo'. cbn in Hbo'. destruct Hbo' as [<-|[]]. discriminate Ep. }
  (* the static flag is that of the output *)
  assert (Eo : o_static o = true).
  { unfold unit_outs in Hbo'. destruct (String.eqb (o_target o) "outlet") eqn:Z; [apply String.eqb_eq in Z; contradiction|]. destruct (String.eqb (o_target o) "lateral").
    { unfold lateral_outs in Hbo'. apply in_concat in Hbo' as (l&Hl&H). apply in_map_iff in Hl as (v&<-&_). apply in_concat in H as (l&Hl&H). apply in_map_iff in Hl as (d&<-&_).
      destruct (direct_index M v (bs_name d)); [|destruct H]. destruct H as [<-|[]]. exact Es. }
    destruct (has_brick _ _) as [d|].
    - destruct (is_direct d).
      + destruct (direct_index _ _ _); [|destruct Hbo']. destruct (entry _ _); [|destruct Hbo']. destruct Hbo' as [<-|[]]. exact Es.
      + destruct (solved_index _ _ _); [|destruct Hbo']. destruct Hbo' as [<-|[]]. discriminate Ep.
    - destruct (solved_index _ _ _); [|destruct Hbo']. destruct Hbo' as [<-|[]]. discriminate Ep. }
  assert (Hq : exists pt q, In pt (parts u) /\ In q (pt_processes pt) /\ p = declared_process q).
  { destruct (unit_member u b Hu Hb) as [cv H1 H2 ->|cv H1 H2 ->|cv H1 ->|pt H1 H2 ->].
    - exfalso. cbn in Hp. destruct Hp as [<-|[<-|[]]]; cbn in Ho; [destruct Ho as [<-|[]]; discriminate Eo|destruct Ho].
    - exfalso. cbn in Hp. rewrite (pack_static _ _ p o Hp Ho) in Eo. discriminate Eo.
    - destruct (cover_process _ _ _ Hp) as (pt&q&Q1&_&_&Q4&Q5). eauto.
    - destruct (store_process _ _ Hp) as (q&Q1&Q2). eauto. }
  destruct Hq as (pt&q&Hpt&Hq&->). destruct (declared_static q o Ho Eo) as (S1&S2&S3). destruct (declared_output q o Ho) as (D1&D2&_).
  assert (Hlat : String.eqb (o_target o) "lateral" = false).
  { apply String.eqb_neq. intros K. rewrite K in D1. destruct (gm_goes _ _ _ (good u Hu) pt q _ Hpt Hq D1 Ha) as [G|d _ G1 G2 G3 _|d _ G1 G2 G3|d _ _ G1 G2 G3 _ _ _ _|d _ G1 G2 G3 _ _]; [discriminate G| | | |];
      (destruct (gm_new _ _ _ (good u Hu) d G1) as [N _]; [rewrite G3; discriminate|]; apply N; rewrite G2; cbn; auto). }
  unfold unit_outs in Hbo'. destruct (String.eqb (o_target o) "outlet") eqn:Z; [apply String.eqb_eq in Z; contradiction|]. rewrite Hlat in Hbo'.
  destruct (has_brick (un_str (unit_at M u)) (o_target o)) as [d|] eqn:Ed.
  2:{ exfalso. destruct (solved_index _ _ _); [|destruct Hbo']. destruct Hbo' as [<-|[]]. discriminate Ep. }
  unfold has_brick in Ed. apply find_some in Ed as [Hd Ed]. apply String.eqb_eq in Ed. destruct (is_direct d) eqn:Dd.
  2:{ exfalso. destruct (solved_index _ _ _); [|destruct Hbo']. destruct Hbo' as [<-|[]]. discriminate Ep. }
  destruct (direct_found M HM u d) as (j'&J1&J2); [apply (direct_In M); auto|]. rewrite <- Ed, J1, D2 in Hbo'. cbn [entry] in Hbo'. destruct Hbo' as [<-|[]]. cbn in Ep. injection Ep as -> <-.
  split; [reflexivity|]. exists d, pt, q. split; [exact J2|]. repeat split; auto.
  - cbn in Et. destruct (o_now o) eqn:En; [|congruence]. exfalso. cbn in Et. destruct (String.eqb _ _); discriminate Et.
  - rewrite Ed. exact S3.
Qed.

(** ** The whole *)
Hypothesis HC : forall u, (u < n)%nat -> calm (V u).
Lemma melt_one b t c : In (resolve_alias t) melt_types -> process_container b t = Some c -> c = 1%nat.
Proof.
  intros H. unfold process_container. cbn in H. destruct H as [<-|[<-|[<-|[]]]]; cbn; (destruct (is_kind KPack b || is_kind KGlacier b); [|discriminate]); intros E; injection E as <-; reflexivity.
Qed.
Lemma other_one b t c : in_list (resolve_alias t) (sublimation_types ++ snow_types ++ lateral_types) = true -> process_container b t = Some c -> c = 1%nat.
Proof.
  intros H. apply in_list_In in H. unfold process_container. cbn in H. repeat (destruct H as [<-|H]; [cbn; destruct (is_kind KPack b); [|discriminate]; intros E; injection E as <-; reflexivity|]). destruct H.
Qed.
Lemma pack_waters u c x : (u < n)%nat -> In x (pack_processes (v_options (V u)) c) -> process_container (pack_brick c (pack_processes (v_options (V u)) c)) (pr_type x) = Some 0%nat ->
  gentle (pr_type x).
Proof.
  intros Hu H E. pose proof (gm_options _ _ _ (good u Hu)) as Ho. pose proof (HC u Hu) as Hc. set (b := pack_brick c (pack_processes (v_options (V u)) c)) in *.
  assert (Hmelt : process_container b (op_melt (v_options (V u))) <> Some 0%nat).
  { pose proof (go_melt _ Ho) as K. apply in_list_In in K. cbn in K. destruct K as [<-|[<-|[<-|[<-|[]]]]]; cbn; discriminate. }
  unfold pack_processes in H. apply in_app_or in H as [H|H]; [|apply in_app_or in H as [H|H]; [|apply in_app_or in H as [H|H]; [|apply in_app_or in H as [H|H]]]].
  - unfold melt_processes in H. destruct (op_retention (v_options (V u))) as [[out rain]|] eqn:Er; cbn in H.
    + destruct H as [<-|[<-|[]]]; cbn [pr_type] in *; [contradiction|]. exact (ca_retention _ Hc out rain Er).
    + destruct H as [<-|[]]. cbn [pr_type] in *. contradiction.
  - apply when_In in H as (t&Ht&_). rewrite (ca_refreeze _ Hc) in Ht. discriminate Ht.
  - exfalso. unfold ice_processes in H. destruct (String.eqb _ _); [|destruct H]. apply when_In in H as (t&Ht&->). cbn [pr_type] in E.
    assert (Ki : in_list (resolve_alias t) (sublimation_types ++ snow_types ++ lateral_types) = true) by (apply (in_list_incl _ _ _ (go_ice _ Ho t Ht)); intros y Hy; cbn in Hy |- *; tauto).
    pose proof (other_one b t 0 Ki E) as K. discriminate K.
  - exfalso. apply when_In in H as (t&Ht&->). cbn [pr_type] in E.
    assert (Ki : in_list (resolve_alias t) (sublimation_types ++ snow_types ++ lateral_types) = true) by (apply (in_list_incl _ _ _ (go_move _ Ho t Ht)); intros y Hy; cbn in Hy |- *; tauto).
    pose proof (other_one b t 0 Ki E) as K. discriminate K.
  - exfalso. apply when_In in H as (t&Ht&->). cbn [pr_type] in E.
    assert (Ki : in_list (resolve_alias t) (sublimation_types ++ snow_types ++ lateral_types) = true) by (apply (in_list_incl _ _ _ (go_sublimation _ Ho t Ht)); intros y Hy; cbn in Hy |- *; tauto).
    pose proof (other_one b t 0 Ki E) as K. discriminate K.
Qed.
Lemma pack_no_snow u c x y : (u < n)%nat -> In x (pack_processes (v_options (V u)) c) -> In y (pr_outputs x) -> o_target y = pack_of (fst c) -> In c (v_covers (V u)) -> o_type y = Water.
Proof.
  intros Hu H Hy E Hin. pose proof (HC u Hu) as Hc. destruct (gn_apart _ (gm_names _ _ _ (good u Hu)) c c Hin Hin) as [A1 _].
  unfold pack_processes in H. apply in_app_or in H as [H|H]; [|apply in_app_or in H as [H|H]; [|apply in_app_or in H as [H|H]; [|apply in_app_or in H as [H|H]]]].
  - unfold melt_processes in H. destruct (op_retention _) as [[out rain]|]; cbn in H; [destruct H as [<-|[<-|[]]]|destruct H as [<-|[]]]; cbn in Hy; destruct Hy as [<-|[]]; reflexivity.
  - apply when_In in H as (t&Ht&_). rewrite (ca_refreeze _ Hc) in Ht. discriminate Ht.
  - unfold ice_processes in H. destruct (String.eqb _ _); [|destruct H]. apply when_In in H as (t&Ht&->). cbn in Hy. destruct Hy as [<-|[]]. cbn in E. contradiction.
  - apply when_In in H as (t&_&->). cbn in Hy. destruct Hy as [<-|[]]. cbn in E. exfalso. apply (component_reserved (fst c) "_snowpack"); [left; reflexivity|]. change (fst c ++ "_snowpack")%string with (pack_of (fst c)). rewrite <- E. right. left. reflexivity.
  - apply when_In in H as (t&_&->). destruct Hy.
Qed.
Theorem formulas_guarded dt G x : 0 < dt <= 1 -> by_formulas M C dt (wt_laws x) -> guarded C dt G (input_of M x).
Proof.
  intros Hdt HF j c Hj _ Hc _ B. destruct (item_at M j Hj) as (u&b&Ej). pose proof (nth_error_In _ _ Ej) as Hin. apply (direct_In M) in Hin as (Hu&Hb&Hd).
  unfold conts_of in Hc. assert (EB : B = nd_brick (node_at C j)) by reflexivity. clearbody B. subst B. rewrite (assembled_node M j _ Ej) in Hc. cbn [build_node nd_brick db_conts] in Hc.
  change (in_law (input_of M x)) with (wt_laws x).
  assert (Hc01 : c = 0%nat \/ (c = 1%nat /\ (is_kind KPack b || is_kind KGlacier b) = true)).
  { unfold containers_of in Hc. destruct (_ || _); cbn in Hc; intuition. }
  assert (Hin0 : forall k, in_direct (input_of M x) j k = received (add_parts (parts u) (base (v_options (V u)) (v_covers (V u)))) (wt_rain x u) (wt_snow x u) b k).
  { intros k. cbn [input_of precipitation in_direct]. rewrite Ej, (ust u Hu). reflexivity. }
  pose proof Hb as Hb'. rewrite (ust u Hu) in Hb'.
  destruct (unit_member u b Hu Hb) as [cv H1 H2 Eb|cv H1 H2 Eb|cv H1 Eb|p H1 H2 Eb].
  - (* canopy *)
    destruct Hc01 as [-> |[-> K]]; [|subst b; discriminate K]. left. apply (within_of dt Hdt (wt_laws x) HF j u b 0 Ej); [subst b; reflexivity|].
    subst b. intros p Hp _. cbn in Hp. destruct Hp as [<-|[<-|[]]]; unfold gentle; cbn; tauto.
  - (* snowpack *)
    destruct Hc01 as [-> |[-> _]].
    + left. apply (within_of dt Hdt (wt_laws x) HF j u b 0 Ej); [subst b; reflexivity|]. subst b. intros p Hp Ec. exact (pack_waters u cv p Hu Hp Ec).
    + right. split; [left; rewrite (assembled_node M j _ Ej); subst b; reflexivity|]. apply (no_inside j u b 1 Ej). left. subst b. intros p y Hp _ Hy Et.
      rewrite (pack_no_snow u cv p y Hu Hp Hy Et H1). discriminate.
  - (* land cover *)
    destruct Hc01 as [-> |[-> K]].
    + left. apply (within_of dt Hdt (wt_laws x) HF j u b 0 Ej).
      * intros _. destruct (bs_capacity b) as [y|] eqn:Ey; [|reflexivity]. exfalso. subst b. unfold dressed in Ey.
        assert (Kc : forall l, incl l (parts u) -> forall d, bs_capacity d = None -> bs_capacity (dress l d) = None).
        { induction l as [|p l IH]; intros Hl d Hd0; [exact Hd0|]. change (dress (p :: l) d) with (dress l (dress1 p d)). apply IH; [intros z Hz; apply Hl; right; exact Hz|].
          unfold dress1. destruct (pt_kind p) eqn:Ek; try exact Hd0. destruct (String.eqb _ _); [|exact Hd0]. cbn. rewrite Hd0. apply (ca_cover _ (HC u Hu) p (Hl p (or_introl eq_refl)) Ek). }
        rewrite (Kc (parts u) (incl_refl _) (cover_brick cv) eq_refl) in Ey. discriminate Ey.
      * subst b. intros p Hp Ec. destruct (cover_process _ _ _ Hp) as (pt&q&Q1&Q2&Q3&Q4&Q5). subst p. cbn [pr_type declared_process] in *.
        destruct (ca_cover _ (HC u Hu) pt Q1 Q2) as [_ Hm]. destruct (Hm q Q4) as [Hq|Hq]; [exact Hq|]. pose proof (melt_one _ _ _ Hq Ec) as K. discriminate K.
    + right. pose proof (cover_kind _ _ _ (good u Hu) cv H1) as Lk. rewrite <- Eb in Lk.
      assert (Kg : kind_of (bs_type b) = Some KGlacier). { apply orb_true_iff in K as [K|K]; apply is_kind_spec in K; [|exact K]. destruct Lk as [Lk|Lk]; congruence. }
      split.
      * right. split; [rewrite Hin0; apply (received_no_snow _ _ _ (good u Hu)); [exact Hb'|discriminate|intros _ Z; congruence]|].
        intros i k Hi Hk Et Es Ep. destruct (item_at M i Hi) as (u'&b'&Ei). destruct (static_output i u' b' k j 1 Ei Hk Et Es Ep) as [Z _]. discriminate Z.
      * apply (no_inside j u b 1 Ej). right. intros Cb. rewrite <- is_component_spec in Cb. rewrite (cover_not_component b Lk) in Cb. discriminate Cb.
  - (* directly computed storage *)
    destruct (store_kind _ _ _ (good u Hu) p H1) as [Sk Sd]; [rewrite H2; discriminate|]. rewrite <- Eb in Sk, Sd. destruct (storage_plain b Sk) as (P1&P2&P3). rewrite P3, Sd in Hd.
    destruct Hc01 as [-> |[-> K]]; [|exfalso; unfold is_kind in K; unfold storage in Sk; rewrite Sk in K; discriminate K].
    destruct (ca_storage _ (HC u Hu) p H1 H2 Hd) as [[Hcap Hm]|Hno].
    + left. apply (within_of dt Hdt (wt_laws x) HF j u b 0 Ej); [subst b; intros _; exact Hcap|]. subst b. intros q Hq _. destruct (store_process _ _ Hq) as (q'&Q1&->). exact (Hm q' Q1).
    + right. split.
      * right. split.
        -- rewrite Hin0. apply (received_no_rain _ _ _ (good u Hu)); [exact Hb'|]. intros c Hc' E. subst b. cbn [bs_name part_brick add_declared new_brick] in E.
           destruct (gm_new _ _ _ (good u Hu) p H1) as [_ N]; [rewrite H2; discriminate|]. destruct (N c Hc') as (N1&N2&N3). change (pt_key p = rain_receiver (v_options (V u)) c) in E.
           unfold rain_receiver in E. destruct (has_canopy _ c); [contradiction|]. destruct (rain_on_packs _); contradiction.
        -- intros i k Hi Hk Et Es Ep. destruct (item_at M i Hi) as (u'&b'&Ei). destruct (static_output i u' b' k j 0 Ei Hk Et Es Ep) as (_&d&pt&q&D1&D2&D3&D4&D5&D6).
           rewrite Ej in D1. injection D1 as -> <-. apply (Hno pt q D2 D3 D4 D5). rewrite D6. subst b. reflexivity.
      * apply (no_inside j u b 0 Ej). right. intros Cb. rewrite <- is_component_spec in Cb. rewrite P2 in Cb. discriminate Cb.
Qed.
End Catchment.
