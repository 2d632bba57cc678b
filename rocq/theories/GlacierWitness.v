(** Concrete glaciers: two units of 100 and 200 m2, glaciers on half of the first and a quarter of the second. *)
From Verif Require Import WitnessTools LandCover LandCoverSpec LandCoverFacts GlacierActions GlacierSpec GlacierFacts.
Open Scope R_scope.

Definition ice_slot (i s : R) : role -> option R :=
  fun r => match r with SelfWater => Some 0 | SelfIce => Some i | Snow => Some s | SnowpackWater => Some 0 | CanopyWater => None end.
Definition ground_slot : role -> option R :=
  fun r => match r with SelfWater => Some 0 | SelfIce => None | Snow => Some 0 | SnowpackWater => Some 0 | CanopyWater => None end.
Definition gl_unit (f ice snow : R) : hunit :=
  mkUnit 2 (fun i => match i with O => mkCover "ground" (1 - f) (1 - f) ground_slot [] | _ => mkCover "glacier" f f (ice_slot ice snow) [] end).
(** Unit 7 and unit 9. *)
Definition gl_basin (i7 i9 : R) : gbasin :=
  fun id => if (id =? 7)%nat then mkGU 100 (gl_unit (1/2) i7 30) else mkGU 200 (gl_unit (1/4) i9 10).
Definition gl_table : gtable :=
  mkGT 3 (fun r i => match r, i with 0%nat, _ => 50 | 1%nat, 0%nat => 30 | 1%nat, _ => 40 | _, _ => 0 end)
       (fun r i => match r with 0%nat => 100 | 1%nat => if (i =? 0)%nat then 60 else 40 | _ => 0 end)
       [7%nat; 9%nat] "glacier".

Lemma gl_total f i s : total_fraction (gl_unit f i s) = 1. Proof. unfold total_fraction; cbn. lra. Qed.
Lemma gl_ok f i s : 0 <= f <= 1 -> fractions_ok (gl_unit f i s).
Proof.
  intros Hf. split.
  - intros k Hk. destruct k as [|k]; cbn; lra.
  - rewrite gl_total. rewrite Rminus_diag_eq by reflexivity. rewrite Rabs_R0. left. apply EPSILON_D_pos.
Qed.
Lemma gl_generic f i s : generic_cover (gl_unit f i s) = Some 0%nat. Proof. reflexivity. Qed.
Lemma gl_find f i s : find_cover (gl_unit f i s) "glacier" = Some 1%nat. Proof. reflexivity. Qed.
Lemma gl_ready a c : glaciers_ready gl_table (gl_basin a c).
Proof.
  split; [repeat constructor; cbn; intuition lia|]. intros i Hi. cbn in Hi. destruct Hi as [<-|[<-|[]]]; (split; [cbn; lra|]);
    exists 1%nat; (split; [reflexivity|]); (split; [discriminate|]); cbn; discriminate.
Qed.
Lemma PREC_val : PRECISION = / 100000000. Proof. reflexivity. Qed.
Lemma gl_sane a c : 0 <= a -> 0 <= c -> ice_sane gl_table (gl_basin a c).
Proof.
  intros Ha Hc i Hi. cbn in Hi. rewrite PREC_val. destruct Hi as [<-|[<-|[]]]; cbn; (split; [assumption|right; lra]).
Qed.
Lemma gl_suits a c : table_suits gl_table (gl_basin a c).
Proof.
  split; [cbn; lia|]. split; [unfold row_volume; cbn; lra|]. split; [|split].
  - intros r Hr i Hi. cbn in Hr, Hi. rewrite PREC_val.
    destruct r as [|[|[|r]]]; [| | |lia]; destruct Hi as [<-|[<-|[]]]; cbn; (split; [lra|]);
      first [left; split; reflexivity | right; split; [lra|right; lra]].
  - intros r Hr. cbn in Hr. unfold row_volume. destruct r as [|[|r]]; [| |lia]; cbn; lra.
  - intros r Hr. cbn in Hr. right. intros i Hi. assert (r = 2%nat) by lia. subst r. destruct i; reflexivity.
Qed.
Lemma gl_match a c : extents_match 0 gl_table 0 (gl_basin a c).
Proof. intros i Hi. cbn in Hi. destruct Hi as [<-|[<-|[]]]; cbn; rewrite Rabs_right; lra. Qed.

(** Half of the ice has melted: row 1 applies. *)
Lemma gl_volume a c : 0 <= a -> 0 <= c -> total_ice gl_table (gl_basin a c) = 50 * a + 50 * c.
Proof.
  intros Ha Hc. rewrite total_ice_volume by (apply gl_sane; assumption). unfold glacier_volume. cbn. unfold g_volume, g_fraction, g_ice. cbn. field.
Qed.
Lemma trunc_val x n : INR n <= x < INR n + 1 -> trunc x = n.
Proof.
  intros H. unfold trunc. assert (up x = Z.of_nat n + 1)%Z; [|lia]. symmetry. apply tech_up; rewrite plus_IZR, <- INR_IZR_INZ; lra.
Qed.
Lemma set_areas_ready r : forall cols b, NoDup (map (unit_of gl_table) cols) ->
  (forall i, In i cols -> exists u f, b (unit_of gl_table i) = mkGU (gu_area (b (unit_of gl_table i))) u /\
     fractions_ok u /\ total_fraction u <= 1 /\ find_cover u "glacier" = Some 1%nat /\ generic_cover u = Some 0%nat /\
     check_fraction (gt_area gl_table r i / gu_area (b (unit_of gl_table i))) = Ok f /\ 0 <= f <= 1 /\
     f - cv_fraction (hu_cover u 1%nat) <= cv_fraction (hu_cover u 0%nat)) ->
  exists b', set_areas gl_table r cols b = Ok b'.
Proof.
  induction cols as [|i l IH]; intros b Nd H; cbn [set_areas]; [eexists; reflexivity|].
  inversion Nd as [|x y Hnot Nd']; subst.
  destruct (H i (or_introl eq_refl)) as (u & f & E & A1 & A2 & A3 & A4 & A5 & A6 & A7). rewrite A5. cbn [bind].
  unfold change_in at 1. rewrite E. cbn [gu_covers gu_area]. change (gt_cover gl_table) with "glacier"%string.
  destruct (change_accepted u "glacier" f 1 0 A1 A2 A3 A4 ltac:(lia) A6 A7) as (u' & Eu). rewrite Eu. cbn [bind].
  apply IH; [exact Nd'|]. intros j Hj. rewrite upd_other; [apply H; right; exact Hj|].
  intros X. apply Hnot. rewrite <- X. apply in_map. exact Hj.
Qed.
Lemma spread_ready r we : 0 < row_volume gl_table r \/ (forall i, In i (columns gl_table) -> gt_area gl_table r i = 0) ->
  forall cols b, NoDup (map (unit_of gl_table) cols) -> (forall i, In i cols -> In i (columns gl_table)) ->
  (forall i, In i cols -> gready b "glacier" (unit_of gl_table i)) ->
  exists b', spread_ice gl_table r we cols b = Ok b'.
Proof.
  intros HR. induction cols as [|i l IH]; intros b Nd Hin Hr; cbn [spread_ice]; [eexists; reflexivity|].
  inversion Nd as [|x y Hnot Nd']; subst. pose proof (Hr i (or_introl eq_refl)) as Ri. pose proof Ri as (Ha & c & F & G & S).
  change (gt_cover gl_table) with "glacier"%string. rewrite F.
  assert (X : forall v, exists b1, set_ice b (unit_of gl_table i) c v = Ok b1).
  { intros v. unfold set_ice. destruct (cv_slot _ _); [eexists; reflexivity|contradiction]. }
  assert (Y : forall v b1, set_ice b (unit_of gl_table i) c v = Ok b1 -> exists b', spread_ice gl_table r we l b1 = Ok b').
  { intros v b1 E. apply IH; [exact Nd'|intros; apply Hin; right; assumption|]. intros j Hj.
    destruct (set_ice_effect _ _ _ _ _ _ Ri F E) as (O & _).
    apply (ready_eq gl_table b); [|apply Hr; right; exact Hj]. apply O. intros Z. apply Hnot. rewrite <- Z. apply in_map. exact Hj. }
  destruct (NearlyZero_spec (gt_area gl_table r i) PRECISION) as [Z|Z].
  - destruct (X 0) as (b1 & E). rewrite E. cbn [bind]. eapply Y. exact E.
  - assert (HV : 0 < row_volume gl_table r).
    { destruct HR as [HR|HR]; [exact HR|]. rewrite (HR i) in Z by (apply Hin; left; reflexivity). rewrite Rabs_R0 in Z. pose proof PRECISION_pos. lra. }
    replace (Reqb (row_volume gl_table r) 0) with false by (symmetry; apply Reqb_false; lra).
    destruct (X (we * (gt_volume gl_table r i / row_volume gl_table r) / gt_area gl_table r i)) as (b1 & E). rewrite E. cbn [bind]. eapply Y. exact E.
Qed.

Definition gl_melted : gbasin := gl_basin 1000 800.
Lemma gl_row : table_row gl_table (row_volume gl_table 0 * iceDensity) (total_ice gl_table gl_melted) = 1%nat.
Proof.
  unfold gl_melted. rewrite gl_volume by lra. unfold table_row, row_volume, iceDensity. cbn [gt_rows gl_table Nat.eqb columns gt_units length seq Rsum gt_volume].
  rtests. rewrite Rmax_right by lra. apply trunc_val. simpl INR. lra.
Qed.
Lemma gl_applies : exists b', deltah_apply gl_table (gl_melted, 0%nat) = Ok (b', 1%nat).
Proof.
  unfold deltah_apply. rewrite gl_row. cbn [Nat.eqb]. unfold row_in_table. cbn [gt_rows gl_table Nat.ltb Nat.leb negb]. fold gl_table.
  assert (NdU : NoDup (map (unit_of gl_table) (columns gl_table))) by (cbn; repeat constructor; cbn; intuition lia).
  destruct (set_areas_ready 1 (columns gl_table) gl_melted NdU) as (b1 & E1).
  { intros i Hi. cbn in Hi. destruct Hi as [<-|[<-|[]]].
    - exists (gl_unit (1/2) 1000 30), (3/10). split; [reflexivity|]. split; [apply gl_ok; lra|]. split; [rewrite gl_total; lra|].
      split; [reflexivity|]. split; [reflexivity|]. split; [|cbn; lra].
      cbn. unfold check_fraction, NearlyZero, NearlyEqual. rtests. f_equal. lra.
    - exists (gl_unit (1/4) 800 10), (2/10). split; [reflexivity|]. split; [apply gl_ok; lra|]. split; [rewrite gl_total; lra|].
      split; [reflexivity|]. split; [reflexivity|]. split; [|cbn; lra].
      cbn. unfold check_fraction, NearlyZero, NearlyEqual. rtests. f_equal. lra. }
  rewrite E1. cbn [bind].
  destruct (spread_ready 1 (total_ice gl_table gl_melted)) with (cols := columns gl_table) (b := b1) as (b2 & E2).
  - left. unfold row_volume; cbn; lra.
  - exact NdU.
  - auto.
  - intros i Hi. apply (set_areas_effect gl_table 1 (columns gl_table) gl_melted b1 NdU (proj2 (gl_ready _ _)) E1); exact Hi.
  - rewrite E2. cbn [bind]. eexists; reflexivity.
Qed.

(** Area scaling with the same tables, but row 1 without area for unit 7. *)
Definition gl_gap_table : gtable :=
  mkGT 3 (fun r i => match r with 0%nat => 50 | _ => 0 end) (fun r i => match r with 0%nat => 100 | _ => 0 end) [7%nat; 9%nat] "glacier".
Definition gl_half : gbasin := gl_basin 800 800.
Lemma gl_gap : scaling_apply gl_gap_table (columns gl_gap_table) gl_half = UB.
Proof.
  cbn [columns gl_gap_table gt_units length seq scaling_apply]. fold gl_gap_table. unfold scaling_unit at 1.
  change (unit_of gl_gap_table 0) with 7%nat. change (gt_cover gl_gap_table) with "glacier"%string.
  unfold gl_half at 1 2 3 4 5. unfold gl_basin at 1 2 3 4 5. cbn [Nat.eqb gu_covers gu_area]. rewrite gl_find. cbn [hu_cover gl_unit cv_fraction].
  unfold ice_depth, slot_depth. cbn [cv_slot ice_slot]. unfold NearlyZero. rtests.
  match goal with |- context[table_row gl_gap_table ?a ?v] => replace (table_row gl_gap_table a v) with 1%nat end.
  2:{ symmetry. unfold table_row, iceDensity. cbn [gt_rows gl_gap_table Nat.eqb gt_volume]. rtests. unfold gl_half, gl_basin. cbn [Nat.eqb gu_covers gu_area hu_cover gl_unit cv_fraction cv_slot ice_slot]. rewrite Rmax_right by lra. apply trunc_val. simpl INR. lra. }
  unfold row_in_table. cbn [gt_rows gl_gap_table Nat.ltb Nat.leb negb gt_area].
  unfold gl_half, gl_basin. cbn [Nat.eqb gu_area].
  replace (check_fraction (0 / 100)) with (Ok 0).
  2:{ unfold check_fraction, NearlyZero. rewrite (Rabs_right (0/100)) by lra. rtests. reflexivity. }
  cbn [bind]. unfold change_in at 1. cbn [Nat.eqb gu_covers].
  destruct (change_accepted (gl_unit (1/2) 800 30) "glacier" 0 1 0) as (u' & Eu); try reflexivity; try lia; try (cbn; lra).
  { apply gl_ok; lra. }
  rewrite Eu. cbn [bind]. rtests. cbn [hu_cover gl_unit cv_slot ice_slot]. rtests. reflexivity.
Qed.

Lemma snow_case : exists b', snow_to_ice "glacier" [7%nat; 9%nat] (gl_basin 1000 800) = Ok b' /\
  snow_of (b' 7%nat) "glacier" = 0 /\ ice_of (b' 7%nat) "glacier" = 1030 /\ ice_of (b' 9%nat) "glacier" = 810.
Proof.
  destruct (snow_runs "glacier" [7%nat; 9%nat] (gl_basin 1000 800)) as (b' & E).
  { intros id [<-|[<-|[]]]; [apply (proj2 (gl_ready 1000 800) 0%nat)|apply (proj2 (gl_ready 1000 800) 1%nat)]; cbn; auto. }
  { repeat constructor; cbn; intuition lia. }
  exists b'. split; [exact E|]. destruct (snow_all "glacier" [7%nat; 9%nat] (gl_basin 1000 800) b' ltac:(repeat constructor; cbn; intuition lia) E) as (_ & A).
  destruct (A 7%nat ltac:(cbn; auto)) as (_ & A2 & A3). destruct (A 9%nat ltac:(cbn; auto)) as (_ & B2 & B3).
  assert (G7 : glacier_present (gl_basin 1000 800 7%nat) "glacier") by (unfold glacier_present; cbn; rewrite PREC_val; lra).
  assert (G9 : glacier_present (gl_basin 1000 800 9%nat) "glacier") by (unfold glacier_present; cbn; rewrite PREC_val; lra).
  specialize (A3 G7 ltac:(cbn; lra)). specialize (B3 G9 ltac:(cbn; lra)). rewrite A3 in A2. rewrite B3 in B2.
  change (snow_of (gl_basin 1000 800 7%nat) "glacier") with 30 in A2. change (ice_of (gl_basin 1000 800 7%nat) "glacier") with 1000 in A2.
  change (snow_of (gl_basin 1000 800 9%nat) "glacier") with 10 in B2. change (ice_of (gl_basin 1000 800 9%nat) "glacier") with 800 in B2.
  repeat split; lra.
Qed.
