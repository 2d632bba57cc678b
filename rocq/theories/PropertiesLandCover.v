(** Property theorems: land covers (C23, C24, C25). *)
From Verif Require Import Base BaseFacts LandCover LandCoverSpec LandCoverFacts LandCoverWitness.
Open Scope R_scope.

(** *** C23 *)
(** A change that is accepted leaves a partition of the area (up to the rounding unit 2^-52 the code works with). *)
Theorem c23_accepted : forall u name f u', fractions_ok u -> change_fraction u name f = (true, u') -> fractions_ok u'.
Proof. exact change_ok. Qed.
Print Assumptions c23_accepted.
(** ... and so does any sequence of accepted changes. *)
Theorem c23_accepted_all : forall changes u u', fractions_ok u -> change_all u changes = (true, u') -> fractions_ok u'.
Proof. exact change_all_ok. Qed.
Print Assumptions c23_accepted_all.
(** A refused change leaves the unit as it was.  Missing for the full property: a generic cover must exist (see
    c23_refused_refuted) and the fractions must not already exceed one by a rounding error. *)
Theorem c23_refused_partial : forall u name f u', fractions_ok u -> total_fraction u <= 1 ->
  generic_cover u <> None -> change_fraction u name f = (false, u') -> u' = u.
Proof. exact change_refused. Qed.
Print Assumptions c23_refused_partial.
(** Without a generic cover the refused change stays in place: half lake, half forest, the forest is set to 60 %; the call
    returns false and the covers then make up 110 % of the unit. *)
Theorem c23_refused_refuted : exists u u', fractions_ok u /\ change_fraction u "forest" (3/5) = (false, u') /\
  cv_fraction (hu_cover u 1%nat) = 1/2 /\ cv_fraction (hu_cover u' 1%nat) = 3/5 /\ total_fraction u' = 11/10.
Proof.
  destruct nogen_change as (u' & A & B & C). exists unit_nogen, u'.
  split; [exact nogen_ok|]. split; [exact A|]. split; [reflexivity|]. split; assumption.
Qed.
Print Assumptions c23_refused_refuted.
(** The validation at set-up accepts only fractions within 0.0001 of a partition and repairs them, ... *)
Theorem c23_validated : forall u u', (forall i, (i < hu_count u)%nat -> 0 <= cv_fraction (hu_cover u i) <= 1) ->
  (0 < hu_count u)%nat -> (Z.of_nat (hu_count u) <= 9998)%Z -> validate_fractions u = (true, u') -> fractions_ok u'.
Proof. intros u u' A B C D. exact (validate_ok u u' A C B D). Qed.
Print Assumptions c23_validated.
(** ... but a reset (or the end of a spin-up) brings back the fractions before the repair. *)
Theorem c23_reset_refuted : exists u u', validate_fractions u = (true, u') /\ total_fraction u' = 1 /\
  ~ fractions_ok (restore_initial u').
Proof.
  destruct off_validated as (u' & A & B & C). exists unit_off, u'. split; [exact A|]. split; [exact B|].
  intros [_ D]. rewrite C in D. apply Rabs_bounds in D. pose proof eps_small. lra.
Qed.
Print Assumptions c23_reset_refuted.

Example c23_case : fractions_ok unit2 /\ total_fraction unit2 <= 1 /\ generic_cover unit2 <> None /\
  exists u', change_fraction unit2 "forest" (2/10) = (true, u') /\ cv_fraction (hu_cover u' 0%nat) = 8/10.
Proof.
  split; [exact unit2_ok|]. split; [rewrite unit2_total; lra|]. split; [rewrite unit2_generic; discriminate|]. exact unit2_change.
Qed.

(** *** C24 *)
(** Liquid water: the volume over the unit changes by at most three rounding units (2^-52) times the depths on the two
    covers involved. *)
Theorem c24_water : forall u name f u', fractions_ok u -> stores_nonneg u -> can_take_water u ->
  change_fraction u name f = (true, u') ->
  Rabs (volume water_depth u' - volume water_depth u) <=
    3 * EPSILON_D * (depth_of water_depth u name + generic_depth water_depth u).
Proof.
  intros u n f u' A B C D. apply (change_volume water_depth (fun d r => cv_slot r SelfWater <> None)) with f; try assumption.
  - exact water_rec.
  - exact water_clr.
  - reflexivity.
  - exact water_pos.
  - intros i j _ Hj _. apply C. assumption.
Qed.
Print Assumptions c24_water.
Theorem c24_snow : forall u name f u', fractions_ok u -> stores_nonneg u -> same_snowpacks u ->
  change_fraction u name f = (true, u') ->
  Rabs (volume snow_depth u' - volume snow_depth u) <=
    3 * EPSILON_D * (depth_of snow_depth u name + generic_depth snow_depth u).
Proof.
  intros u n f u' A B C D.
  apply (change_volume snow_depth (fun d r => cv_slot r Snow = None -> cv_slot d Snow = None)) with f; try assumption.
  - exact snow_rec.
  - exact snow_clr.
  - reflexivity.
  - intros v Hv i Hi. apply slot_nonneg; assumption.
  - intros i j Hi Hj _. apply C; assumption.
Qed.
Print Assumptions c24_snow.
(** The rounding units come only from fractions or changes below 2^-52: otherwise both volumes are exactly kept. *)
Theorem c24_exact : forall u name f u' ch g, fractions_ok u -> total_fraction u = 1 ->
  change_fraction u name f = (true, u') -> find_cover u name = Some ch -> generic_cover u = Some g -> g <> ch ->
  let old := cv_fraction (hu_cover u ch) in
  let generic_new := cv_fraction (hu_cover u g) - (f - old) in
  EPSILON_D < Rabs (f - old) -> f = 0 \/ EPSILON_D < f -> generic_new = 0 \/ EPSILON_D < generic_new ->
  (can_take_water u -> volume water_depth u' = volume water_depth u) /\
  (same_snowpacks u -> volume snow_depth u' = volume snow_depth u).
Proof.
  intros u n f u' ch g A T C F G N old gn H1 H2 H3. split; intros Hs.
  - eapply (change_volume_exact water_depth (fun d r => cv_slot r SelfWater <> None)); try eassumption.
    + exact water_rec.
    + exact water_clr.
    + reflexivity.
    + intros i j _ Hj _. apply Hs. assumption.
  - eapply (change_volume_exact snow_depth (fun d r => cv_slot r Snow = None -> cv_slot d Snow = None)); try eassumption.
    + exact snow_rec.
    + exact snow_clr.
    + reflexivity.
    + intros i j Hi Hj _. apply Hs; assumption.
Qed.
Print Assumptions c24_exact.
Theorem c24_nonneg : forall u name f b u', fractions_ok u -> stores_nonneg u -> change_fraction u name f = (b, u') ->
  stores_nonneg u'.
Proof. exact change_nonneg. Qed.
Print Assumptions c24_nonneg.

Example c24_case : fractions_ok unit2 /\ stores_nonneg unit2 /\ can_take_water unit2 /\ same_snowpacks unit2 /\
  volume water_depth unit2 = 111/10 /\ volume snow_depth unit2 = 34 /\
  exists u', change_fraction unit2 "forest" (2/10) = (true, u') /\
    volume water_depth u' = 111/10 /\ volume snow_depth u' = 34.
Proof.
  assert (W : volume water_depth unit2 = 111/10) by (unfold volume, water_depth, slot_depth; cbn; lra).
  assert (S : volume snow_depth unit2 = 34) by (unfold volume, snow_depth, slot_depth; cbn; lra).
  split; [exact unit2_ok|]. split; [exact unit2_nonneg|]. split; [exact unit2_water|]. split; [exact unit2_snow|].
  split; [exact W|]. split; [exact S|]. destruct unit2_change as (u' & A & _). exists u'. split; [exact A|].
  pose proof eps_small as He.
  destruct (c24_exact unit2 "forest" (2/10) u' 1%nat 0%nat unit2_ok unit2_total A unit2_forest unit2_generic ltac:(discriminate))
    as [X Y].
  - change (cv_fraction (hu_cover unit2 1%nat)) with (3/10). rewrite Rabs_left; lra.
  - right. lra.
  - right. change (cv_fraction (hu_cover unit2 1%nat)) with (3/10). change (cv_fraction (hu_cover unit2 0%nat)) with (7/10). lra.
  - rewrite (X unit2_water), (Y unit2_snow). auto.
Qed.

(** *** C25 *)
Lemma delivered_share w x : 0 <= wf_unit w <= 1 -> 0 <= wf_cover w <= 1 -> delivered w x = x * (wf_unit w * wf_cover w).
Proof.
  intros A B. unfold delivered. destruct (Rltb_spec (wf_unit w * wf_cover w) 1) as [H|H]; [reflexivity|].
  replace (wf_unit w * wf_cover w) with 1 by nra. lra.
Qed.
(** Setting the fraction of a cover: each weighted output then delivers its amount times the share of the unit in the basin
    times the fraction of the cover; the other outputs are untouched. *)
Theorem c25_cover : forall c v k w, 0 <= v <= 1 -> nth_error (cv_outputs c) k = Some w -> 0 <= wf_unit w <= 1 ->
  exists w', nth_error (cv_outputs (set_fraction v c)) k = Some w' /\ cv_fraction (set_fraction v c) = v /\
    if wf_weighted w then forall x, delivered w' x = x * (wf_unit w * v) else w' = w.
Proof.
  intros c v k w Hv Hk Hw. cbn. unfold weight_outputs. rewrite nth_error_map, Hk. cbn.
  eexists; split; [reflexivity|]. split; [reflexivity|]. destruct (wf_weighted w) eqn:E; [|reflexivity].
  intros x. apply delivered_share; assumption.
Qed.
Print Assumptions c25_cover.

Lemma follow_set v c : 0 <= v <= 1 -> (forall w, In w (cv_outputs c) -> wf_weighted w = true -> 0 <= wf_unit w <= 1) ->
  forall w, In w (cv_outputs (set_fraction v c)) -> wf_weighted w = true ->
    0 <= wf_unit w <= 1 /\ forall x, carries w (cv_fraction (set_fraction v c)) x.
Proof.
  intros Hv H w Hw E. cbn in Hw. unfold weight_outputs in Hw. apply in_map_iff in Hw. destruct Hw as (w0 & <- & Hw0).
  destruct (wf_weighted w0) eqn:E0; [|congruence]. pose proof (H w0 Hw0 E0) as Hu. cbn. split; [exact Hu|].
  intros x. unfold carries. cbn. apply delivered_share; cbn; assumption.
Qed.
Lemma follow_put u i v : weights_follow u -> 0 <= v <= 1 -> (i < hu_count u)%nat ->
  weights_follow (put_cover u i (set_fraction v (hu_cover u i))).
Proof.
  intros H Hv Hi j w Hj. cbn [put_cover hu_cover hu_count] in *. destruct (Nat.eq_dec j i) as [->|n].
  - rewrite upd_same. apply follow_set; [assumption|]. intros w0 Hw0 E. apply (H i w0 Hi Hw0 E).
  - rewrite upd_other by assumption. apply H. assumption.
Qed.
Lemma follow_slot u r f : weights_follow u -> weights_follow (put_cover u r (set_slot (hu_cover u r) f)).
Proof.
  intros H j w Hj. cbn [put_cover hu_cover hu_count] in *. destruct (Nat.eq_dec j r) as [->|n].
  - rewrite upd_same. apply (H r). assumption.
  - rewrite upd_other by assumption. apply H. assumption.
Qed.
Lemma follow_move u d r a b c s : weights_follow u -> d <> r -> weights_follow (move_strip u d r a b c s).
Proof.
  intros H Hn. unfold move_strip. destruct (NearlyZero b EPSILON_D); [exact H|].
  destruct (NearlyZero c EPSILON_D); [|apply follow_slot; exact H].
  set (v := put_cover u r _). replace (hu_cover u d) with (hu_cover v d).
  - apply follow_slot. apply follow_slot. exact H.
  - unfold v; cbn [put_cover hu_cover]. apply upd_other. exact Hn.
Qed.
Lemma follow_transfer u c a f g x y : weights_follow u -> g <> c -> weights_follow (transfer u c a f g x y).
Proof.
  intros H Hn. unfold transfer. destruct (NearlyZero (f - a) EPSILON_D); [exact H|].
  destruct (Rltb 0 (f - a)); apply follow_move; auto.
Qed.
(** Through accepted or refused changes, the weights of the outputs of all covers of the unit stay those of their covers. *)
Theorem c25_unit : forall u name f b u', fractions_ok u -> weights_follow u -> change_fraction u name f = (b, u') ->
  weights_follow u'.
Proof.
  intros u n f b u' [Hr _] H. unfold change_fraction.
  destruct (Rltb_spec f 0) as [Ha|Ha]; [intros [= <- <-]; exact H|].
  destruct (Rltb_spec 1 f) as [Hb|Hb]; [intros [= <- <-]; exact H|]. cbn [orb].
  destruct (find_cover u n) as [ch|] eqn:F; [|intros [= <- <-]; exact H].
  apply find_some_lt in F. destruct F as [Hch _].
  assert (P : forall v, weights_follow v -> hu_count v = hu_count u ->
     (forall i, cv_fraction (hu_cover v i) = cv_fraction (hu_cover u i)) ->
     fix_total (put_cover v ch (set_fraction f (hu_cover v ch))) = (b, u') -> weights_follow u').
  { intros v Hv Hc Hf. assert (Hcv : (ch < hu_count v)%nat) by lia.
    pose proof (follow_put v ch f Hv (conj Ha Hb) Hcv) as W.
    set (w := put_cover v ch (set_fraction f (hu_cover v ch))) in *.
    assert (R : forall i, (i < hu_count w)%nat -> 0 <= cv_fraction (hu_cover w i) <= 1).
    { apply (set_in_range v ch f); [|auto]. intros j Hj. rewrite Hf. apply Hr. lia. }
    clearbody w. unfold fix_total. destruct (NearlyEqual _ _ _); [intros [= <- <-]; exact W|].
    destruct (generic_cover w) as [g|] eqn:G; [|intros [= <- <-]; exact W]. pose proof (generic_lt _ _ G) as Hg.
    destruct (LessThan _ _ _); [intros [= <- <-]; exact W|].
    destruct (Rltb_spec 0 (cv_fraction (hu_cover w g) - (total_fraction w - 1))) as [Hp|Hp]; intros [= <- <-].
    - apply follow_put; [exact W| |exact Hg]. split; [lra|].
      assert (cv_fraction (hu_cover w g) <= total_fraction w); [|lra].
      unfold total_fraction. apply (Rsum_elem_le (fun i => cv_fraction (hu_cover w i))); [|apply in_seq; lia].
      intros y Hy. apply in_seq in Hy. apply R; lia.
    - apply follow_put; [exact W|lra|exact Hg]. }
  destruct (generic_cover u) as [g|] eqn:G; [|apply P; auto]. pose proof (generic_lt _ _ G) as Hg.
  destruct (Nat.eqb_spec g ch) as [_|Hn]; cbn [negb andb]; [apply P; auto|].
  destruct (1 <? hu_count u)%nat; [|apply P; auto].
  destruct (LessThan _ _ _); [intros [= <- <-]; exact H|].
  apply P.
  - apply follow_transfer; assumption.
  - symmetry. apply (proj1 (transfer_names u ch _ f g _ _)).
  - intros i. apply transfer_fractions.
Qed.
Print Assumptions c25_unit.
Theorem c25_restored : forall u, weights_follow u ->
  (forall i, (i < hu_count u)%nat -> 0 <= cv_initial (hu_cover u i) <= 1) -> weights_follow (restore_initial u).
Proof.
  intros u H Hi i w Hl. cbn in Hl. cbn [restore_initial hu_cover]. apply follow_set; [auto|].
  intros w0 Hw0 E. apply (H i w0 Hl Hw0 E).
Qed.
Print Assumptions c25_restored.

(** A surface component with a single weighted output is treated right ... *)
Theorem c25_component_partial : forall s v w, 0 <= v <= 1 -> 0 <= sc_parent s <= 1 -> 0 <= wf_unit w <= 1 ->
  wf_weighted w = true -> sc_outputs s = [w] ->
  exists w', sc_outputs (set_comp_fraction v s) = [w'] /\ forall x, delivered w' x = x * (wf_unit w * (v * sc_parent s)).
Proof.
  intros s v w Hv Hp Hw E Es. unfold set_comp_fraction; cbn [sc_outputs]. rewrite Es. cbn [comp_outputs]. rewrite E. eexists; split; [reflexivity|]. intros x.
  apply (delivered_share (mkWF true (wf_unit w) (v * sc_parent s))); cbn; [assumption|nra].
Qed.
Print Assumptions c25_component_partial.
(** ... but with two, the second is weighted by the parent's fraction twice: a component covering a whole cover of 50 %
    delivers a half of the amounts of its first output and a quarter of those of its second. *)
Theorem c25_component_refuted : exists s, sc_parent s = 1/2 /\
  sc_outputs s = [mkWF true 1 1; mkWF true 1 1] /\
  map (fun w => delivered w 8) (sc_outputs (set_comp_fraction 1 s)) = [4; 2].
Proof.
  exists (mkComp 1 (1/2) [mkWF true 1 1; mkWF true 1 1]). split; [reflexivity|]. split; [reflexivity|].
  cbn. unfold delivered; cbn. rewrite !(proj2 (Rltb_true _ _)) by lra. repeat f_equal; lra.
Qed.
Print Assumptions c25_component_refuted.
(** ... and the weights of a component are not refreshed when the area of its cover changes. *)
Theorem c25_component_stale_refuted : exists s,
  sc_outputs (parent_changed (4/5) (set_comp_fraction 1 s)) = [mkWF true 1 (1 * (1/2))] /\
  sc_parent (parent_changed (4/5) (set_comp_fraction 1 s)) = 4/5 /\
  map (fun w => delivered w 10) (sc_outputs (parent_changed (4/5) (set_comp_fraction 1 s))) = [5].
Proof.
  exists (mkComp 1 (1/2) [mkWF true 1 1]). split; [reflexivity|]. split; [reflexivity|].
  cbn. unfold delivered; cbn. rewrite !(proj2 (Rltb_true _ _)) by lra. repeat f_equal; lra.
Qed.
Print Assumptions c25_component_stale_refuted.

Example c25_case : weights_follow unit2.
Proof.
  intros i w Hi Hw E. destruct i as [|[|i]]; [| |cbn in Hi; lia].
  - cbn in Hw. destruct Hw as [<-|[<-|[<-|[]]]]; cbn in E; try discriminate; (split; [cbn; lra|]);
      intros x; unfold carries; apply delivered_share; cbn; lra.
  - cbn in Hw. destruct Hw as [<-|[<-|[<-|[]]]]; cbn in E; try discriminate; (split; [cbn; lra|]);
      intros x; unfold carries; apply delivered_share; cbn; lra.
Qed.
