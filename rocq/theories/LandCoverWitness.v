(** Example units. *)
From Verif Require Import Base BaseFacts LandCover LandCoverSpec LandCoverFacts.
Open Scope R_scope.
Local Opaque EPSILON_D PRECISION.

Definition plain_slot (w : R) : role -> option R := fun r => match r with SelfWater => Some w | _ => None end.
Definition snowy_slot (w s sw : R) : role -> option R :=
  fun r => match r with SelfWater => Some w | Snow => Some s | SnowpackWater => Some sw | _ => None end.
Definition canopy_slot (w s sw cw : R) : role -> option R :=
  fun r => match r with SelfWater => Some w | Snow => Some s | SnowpackWater => Some sw | CanopyWater => Some cw | SelfIce => None end.

Definition out1 (f : R) : list wflux := [mkWF true (1/2) f; mkWF false 1 1; mkWF true 1 f].
Definition open_cover (f w s sw : R) : cover := mkCover "open" f f (snowy_slot w s sw) (out1 f).
Definition forest_cover (f w s sw cw : R) : cover := mkCover "forest" f f (canopy_slot w s sw cw) (out1 f).
(** 70 % open ground, 30 % forest with a canopy. *)
Definition unit2 : hunit :=
  mkUnit 2 (fun i => match i with O => open_cover (7/10) 10 40 2 | _ => forest_cover (3/10) 5 20 1 3 end).
(** Two covers, none of them generic. *)
Definition unit_nogen : hunit :=
  mkUnit 2 (fun i => mkCover (match i with O => "lake" | _ => "forest" end) (1/2) (1/2) (plain_slot 0) []).

Lemma eps_small : 0 < EPSILON_D < / 100000000.
Proof. pose proof EPSILON_D_pos. pose proof EPSILON_D_lt. Transparent PRECISION. unfold PRECISION in *. Opaque PRECISION. lra. Qed.

Lemma unit2_total : total_fraction unit2 = 1.
Proof. unfold total_fraction; cbn. lra. Qed.
Lemma unit2_ok : fractions_ok unit2.
Proof.
  split.
  - intros i Hi. destruct i as [|i]; cbn; lra.
  - rewrite unit2_total. rewrite Rminus_diag_eq by reflexivity. rewrite Rabs_R0. pose proof eps_small. lra.
Qed.
Lemma unit2_nonneg : stores_nonneg unit2.
Proof. intros i r x Hi. destruct i as [|i]; destruct r; cbn; try discriminate; intros [= <-]; lra. Qed.
Lemma unit2_water : can_take_water unit2.
Proof. intros i Hi. destruct i; discriminate. Qed.
Lemma unit2_snow : same_snowpacks unit2.
Proof. intros i j Hi Hj. destruct i; discriminate. Qed.
Lemma unit2_names : names_distinct unit2.
Proof. intros i j Hi Hj. cbn in Hi, Hj. destruct i as [|[|i]], j as [|[|j]]; cbn; try discriminate; try lia. Qed.
Lemma unit2_generic : generic_cover unit2 = Some 0%nat. Proof. reflexivity. Qed.
Lemma unit2_forest : find_cover unit2 "forest" = Some 1%nat. Proof. reflexivity. Qed.

(** Cutting 10 % of the unit's forest. *)
Lemma unit2_change : exists u', change_fraction unit2 "forest" (2/10) = (true, u') /\ cv_fraction (hu_cover u' 0%nat) = 8/10.
Proof.
  pose proof eps_small as He. unfold change_fraction.
  rewrite (proj2 (Rltb_false (2/10) 0)) by lra. rewrite (proj2 (Rltb_false 1 (2/10))) by lra. cbn [orb].
  rewrite unit2_forest, unit2_generic. cbn [Nat.eqb negb andb hu_count unit2 Nat.ltb Nat.leb].
  change (cv_fraction (hu_cover unit2 1)) with (3/10). change (cv_fraction (hu_cover unit2 0)) with (7/10).
  unfold LessThan at 1. rewrite (proj2 (Rltb_false _ _)) by lra.
  change {| hu_count := 2; hu_cover := hu_cover unit2 |} with unit2.
  match goal with |- exists u', fix_total (put_cover ?t _ _) = _ /\ _ => set (v := t) end.
  assert (Hn : same_names unit2 v) by apply transfer_names.
  assert (Hf : forall i, cv_fraction (hu_cover v i) = cv_fraction (hu_cover unit2 i)) by (intros i; apply transfer_fractions).
  clearbody v. unfold fix_total.
  assert (Hc : (1 < hu_count v)%nat) by (rewrite <- (proj1 Hn); cbn; lia).
  assert (T : total_fraction (put_cover v 1 (set_fraction (2/10) (hu_cover v 1))) = 9/10).
  { rewrite total_put by assumption. rewrite Hf. rewrite (total_same v unit2 (eq_sym (proj1 Hn)) Hf), unit2_total. cbn. lra. }
  rewrite T. destruct (NearlyEqual_spec (9/10) 1 EPSILON_D) as [B|_]; [exfalso; apply Rabs_bounds in B; lra|].
  assert (G : generic_cover (put_cover v 1 (set_fraction (2/10) (hu_cover v 1))) = Some 0%nat).
  { rewrite <- unit2_generic. symmetry. apply generic_same. eapply same_names_trans; [exact Hn|]. apply same_names_put. reflexivity. }
  rewrite G. cbn [put_cover hu_cover]. rewrite upd_other by discriminate. rewrite Hf.
  change (cv_fraction (hu_cover unit2 0)) with (7/10). unfold LessThan. rewrite (proj2 (Rltb_false _ _)) by lra.
  rewrite (proj2 (Rltb_true _ _)) by lra. eexists; split; [reflexivity|]. cbn. lra.
Qed.

Lemma nogen_ok : fractions_ok unit_nogen.
Proof.
  split.
  - intros i Hi. cbn; lra.
  - unfold total_fraction; cbn. replace (1/2 + (1/2 + 0) - 1) with 0 by lra. rewrite Rabs_R0. pose proof eps_small. lra.
Qed.
Lemma nogen_change : exists u', change_fraction unit_nogen "forest" (3/5) = (false, u') /\
  cv_fraction (hu_cover u' 1%nat) = 3/5 /\ total_fraction u' = 11/10.
Proof.
  pose proof eps_small as He. unfold change_fraction.
  rewrite (proj2 (Rltb_false (3/5) 0)) by lra. rewrite (proj2 (Rltb_false 1 (3/5))) by lra. cbn [orb].
  change (find_cover unit_nogen "forest") with (Some 1%nat). change (generic_cover unit_nogen) with (@None nat). cbv iota beta.
  unfold fix_total. rewrite total_put by (cbn; lia).
  replace (total_fraction unit_nogen) with 1 by (unfold total_fraction; cbn; lra). cbn [set_fraction cv_fraction].
  change (cv_fraction (hu_cover unit_nogen 1)) with (1/2).
  destruct (NearlyEqual_spec (1 - 1/2 + 3/5) 1 EPSILON_D) as [B|_]; [exfalso; apply Rabs_bounds in B; lra|].
  change (generic_cover (put_cover unit_nogen 1 (set_fraction (3/5) (hu_cover unit_nogen 1)))) with (@None nat).
  eexists; split; [reflexivity|]. split; [reflexivity|]. rewrite total_put by (cbn; lia).
  replace (total_fraction unit_nogen) with 1 by (unfold total_fraction; cbn; lra). cbn. lra.
Qed.

(** Fractions 0.5 + 0.5 + 0.00005: repaired at validation, not in the initial state. *)
Definition unit_off : hunit :=
  mkUnit 2 (fun i => match i with
     | O => assign_fraction (1/2 + /20000) (open_cover 0 0 0 0)
     | _ => assign_fraction (1/2) (forest_cover 0 0 0 0 0) end).
Lemma off_validated : exists u', validate_fractions unit_off = (true, u') /\ total_fraction u' = 1 /\
  total_fraction (restore_initial u') = 1 + / 20000.
Proof.
  pose proof eps_small as He. unfold validate_fractions. cbn [unit_off hu_count Nat.eqb].
  replace (total_fraction unit_off) with (1 + / 20000) by (unfold total_fraction; cbn; lra).
  destruct (NearlyEqual_spec (1 + / 20000) 1 EPSILON_D) as [B|_]; [exfalso; apply Rabs_bounds in B; lra|].
  destruct (NearlyEqual_spec (1 + / 20000) 1 TOLERANCE_LOOSE) as [_|B].
  2:{ exfalso. unfold TOLERANCE_LOOSE in B. rewrite Rabs_pos_eq in B; lra. }
  cbn [seq find hu_cover unit_off]. cbn [assign_fraction set_fraction cv_fraction].
  rewrite (proj2 (Rltb_true _ _)) by lra.
  eexists; split; [reflexivity|]. split; [rewrite total_put by (cbn; lia)|]; unfold total_fraction; cbn; lra.
Qed.
