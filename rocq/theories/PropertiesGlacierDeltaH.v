(** Property theorems: the delta-h tables on pixels and their use (C76, C77). *)
From Verif Require Import Base BaseFacts LandCover LandCoverSpec LandCoverFacts GlacierActions GlacierSpec GlacierFacts GlacierWitness PropertiesGlacier
  GlacierTables GlacierTablesSpec GlacierTablesFacts GlacierTablesLink GlacierDeltaHSpec GlacierDeltaHFacts GlacierDeltaHLink GlacierDeltaHUse.
Open Scope R_scope.

(** *** C76 *)
(** Whatever the change of thickness per level, a table that is made describes the glacier with the surface of its parts lowered more and more,
    by the delta-h law. *)
Theorem c76_rows : forall g n name shape parts E T, raster g -> (0 < n)%nat -> pieces parts -> levels parts E -> dh_pixel_table g n name shape parts = Ok T ->
  exists low unmet, delta_h_table g n name parts low T /\ delta_h_law g n shape parts E low unmet.
Proof. intros g n name shape parts E T Hg Hn Hp HE. exact (pixel_table_ok g n name shape parts E Hg Hn Hp HE T). Qed.
Print Assumptions c76_rows.
(** No assertion of the preparation fails. *)
Theorem c76_never_fails : forall g n name shape parts E, raster g -> (0 < n)%nat -> pieces parts -> levels parts E -> dh_pixel_table g n name shape parts <> Throw.
Proof. intros g n name shape parts E Hg Hn Hp HE. exact (pixel_never_throws g n name shape parts E Hg Hn Hp HE). Qed.
Print Assumptions c76_never_fails.
(** Where the surface sinks at every level, the table is made. *)
Theorem c76_made : forall g n name shape parts E, raster g -> (0 < n)%nat -> pieces parts -> levels parts E ->
  (forall b, (b < length E)%nat -> 0 < shape b) -> exists T, dh_pixel_table g n name shape parts = Ok T.
Proof. intros g n name shape parts E Hg Hn Hp HE. exact (pixel_positive g n name shape parts E Hg Hn Hp HE). Qed.
Print Assumptions c76_made.
(** Where it rises nowhere, row r holds the share 1 - r/n of the initial ice and what could not be melted yet; extents and volumes of the
    units never grow from row to row; the last row is empty. *)
Theorem c76_volumes : forall g n name shape parts E T, raster g -> (0 < n)%nat -> pieces parts -> levels parts E -> dh_pixel_table g n name shape parts = Ok T ->
  (forall b, (b < length E)%nat -> 0 <= shape b) ->
  0 < row_volume T 0 /\ row_volume T n = 0 /\
  exists low unmet, delta_h_table g n name parts low T /\ delta_h_law g n shape parts E low unmet /\
  forall r, (r < n)%nat -> 0 <= unmet r /\ row_volume T r = (1 - INR r / INR n) * row_volume T 0 + unmet r /\
    forall i, In i (columns T) -> 0 <= gt_area T (S r) i <= gt_area T r i /\ 0 <= gt_volume T (S r) i <= gt_volume T r i.
Proof.
  intros g n name shape parts E T Hg Hn Hp HE HT Hs. destruct (c76_rows g n name shape parts E T Hg Hn Hp HE HT) as (low & unmet & A & B).
  split; [exact (first_volume g n name parts low T Hg Hn Hp A)|]. split; [exact (last_row_volume g n name parts low T A)|].
  exists low, unmet. split; [exact A|]. split; [exact B|]. intros r Hr.
  destruct (row_volumes g n name shape parts E low unmet T Hg Hn Hp HE A B Hs r Hr) as (C & D). split; [exact C|]. split; [exact D|].
  intros i Hi. destruct (shrinks g n name parts low T Hg Hn A r i ltac:(lia) Hi) as (X1 & X2 & _).
  assert (0 <= gt_area T (S r) i /\ 0 <= gt_volume T (S r) i).
  { destruct (Nat.eq_dec (S r) n) as [->|En]; [destruct A as (_ & _ & _ & _ & Z & _); destruct (Z i) as (-> & ->); lra|]. destruct (shrinks g n name parts low T Hg Hn A (S r) i ltac:(lia) Hi) as (_ & _ & Y). exact Y. }
  lra.
Qed.
Print Assumptions c76_volumes.
(** Without observed values, glaciers of 5 to 20 km2 with at least two levels always get their table, by their curve. *)
Theorem c76_medium : forall g n name parts E, raster g -> (0 < n)%nat -> pieces parts -> levels parts E -> (2 <= length E)%nat -> 5 <= area_km2 g parts <= 20 ->
  exists T, dh_pixel_default g n name parts = Ok T /\
    exists low unmet, delta_h_table g n name parts low T /\ delta_h_law g n (fun b => curve_medium (drop E b)) parts E low unmet /\
    forall r, (r < n)%nat -> 0 <= unmet r /\ row_volume T r = (1 - INR r / INR n) * row_volume T 0 + unmet r.
Proof.
  intros g n name parts E Hg Hn Hp HE L Ha. rewrite (default_is g n name parts E _ Hg HE L (coefficients_medium _ Ha)).
  change (fun b : nat => dh_shape (- (5 / 100), 19 / 100, 1 / 100, 4%nat) (drop E b)) with (fun b : nat => curve_medium (drop E b)).
  assert (Hs : forall b, (b < length E)%nat -> 0 < curve_medium (drop E b)).
  { intros b Hb. apply curve_medium_pos. destruct HE as (H1 & _). apply (drop_range E b H1 L Hb). }
  destruct (c76_made g n name _ parts E Hg Hn Hp HE Hs) as (T & HT). exists T. split; [exact HT|].
  destruct (c76_volumes g n name _ parts E T Hg Hn Hp HE HT (fun b Hb => Rlt_le _ _ (Hs b Hb))) as (_ & _ & low & unmet & A & B & C). exists low, unmet.
  split; [exact A|]. split; [exact B|]. intros r Hr. destruct (C r Hr) as (C1 & C2 & _). split; assumption.
Qed.
Print Assumptions c76_medium.
(** Below 5 km2 the curve is the square of the relative height, which is 0 for the highest level: once the other levels have no ice left, the
    preparation divides by zero.  For two levels that happens as soon as the upper one holds 2/n of the ice. *)
Theorem c76_small_refuted : forall g n name parts lo hi, raster g -> (2 <= n)%nat -> pieces parts -> levels parts [lo; hi] -> 0 < area_km2 g parts < 5 ->
  2 / INR n * ice_of_parts g parts (fun _ => 0) (seq 0 (length parts)) <= ice_of_parts g parts (fun _ => 0) (at_level parts hi) ->
  dh_pixel_default g n name parts = UB.
Proof.
  intros g n name parts lo hi Hg Hn Hp HE Ha Hi. rewrite (default_is g n name parts [lo; hi] _ Hg HE ltac:(cbn; lia) (coefficients_small _ Ha)).
  change (fun b : nat => dh_shape (- (30 / 100), 60 / 100, 9 / 100, 2%nat) (drop [lo; hi] b)) with (fun b : nat => curve_small (drop [lo; hi] b)).
  set (shape := fun b : nat => curve_small (drop [lo; hi] b)). pose proof HE as (Inc & _).
  destruct (dh_pixel_table g n name shape parts) as [T| |] eqn:HT; [exfalso| |reflexivity].
  - destruct (c76_rows g n name shape parts [lo; hi] T Hg ltac:(lia) Hp HE HT) as (low & unmet & A & B).
    destruct (drop_range [lo; hi] 0 Inc ltac:(cbn; lia) ltac:(cbn; lia)) as (_ & _ & _ & D0). destruct (drop_range [lo; hi] 1 Inc ltac:(cbn; lia) ltac:(cbn; lia)) as (_ & D1 & _).
    apply (two_levels_stuck g n shape parts lo hi low unmet Hg Hp Hn HE); [destruct A as (_ & _ & _ & _ & _ & A0 & _); exact A0|exact B| | |exact Hi].
    + unfold shape. rewrite curve_small_is, D0 by reflexivity. lra.
    + unfold shape. rewrite curve_small_is, D1 by reflexivity. ring.
  - exfalso. exact (c76_never_fails g n name shape parts [lo; hi] Hg ltac:(lia) Hp HE HT).
Qed.
Print Assumptions c76_small_refuted.
(** A glacier on one level: 0/0 in the relative height. *)
Theorem c76_one_level_refuted : forall g n name parts e, raster g -> levels parts [e] -> 0 < area_km2 g parts -> dh_pixel_default g n name parts = UB.
Proof.
  intros g n name parts e Hg HE Ha. unfold dh_pixel_default. rewrite (km2_is g parts Hg). rewrite (count_is_levels g parts [e] HE).
  destruct (Rle_lt_dec (area_km2 g parts) 20) as [L|L]; [destruct (Rle_lt_dec 5 (area_km2 g parts)) as [L'|L']|].
  - rewrite coefficients_medium by lra. reflexivity.
  - rewrite coefficients_small by lra. reflexivity.
  - rewrite coefficients_large by lra. reflexivity.
Qed.
Print Assumptions c76_one_level_refuted.

Definition dp_two : list dh_part := [mkDP 1000 1 [20]; mkDP 2000 2 [10]].
Lemma dp_two_ok : pieces dp_two /\ levels dp_two [1000; 2000].
Proof.
  split; [split; [discriminate|]; split|split].
  - intros q Hq. cbn in Hq. destruct Hq as [<-|[<-|[]]]; cbn; (split; [discriminate|]); intros h [<-|[]]; lra.
  - intros i j Hij. cbn in Hij. destruct i as [|[|i]]; destruct j as [|[|j]]; try lia; cbn; lra.
  - intros i j Hij. cbn in Hij. destruct i as [|[|i]]; destruct j as [|[|j]]; try lia; cbn; lra.
  - intro e. cbn. split.
    + intros [<-|[<-|[]]]; [exists (mkDP 1000 1 [20])|exists (mkDP 2000 2 [10])]; cbn; auto.
    + intros (q & [<-|[<-|[]]] & <-); cbn; auto.
Qed.
Lemma dp_two_levels : at_level dp_two 1000 = [0%nat] /\ at_level dp_two 2000 = [1%nat].
Proof.
  unfold at_level. cbn [dp_two length seq filter part nth dp_elev]. rewrite (proj2 (Reqb_true 1000 1000) eq_refl), (proj2 (Reqb_true 2000 2000) eq_refl).
  rewrite (proj2 (Reqb_false 2000 1000)) by lra. rewrite (proj2 (Reqb_false 1000 2000)) by lra. split; reflexivity.
Qed.
Lemma left_zero px h : 0 < h -> ice_left px [h] 0 = px * h /\ extent_left px [h] 0 = px.
Proof. intro H. unfold ice_left, extent_left. cbn. rewrite Rmax_right by lra. rewrite (proj2 (Rltb_true 0 h)) by lra. cbn. split; ring. Qed.
(** A glacier of 8 km2. *)
Example c76_case : let g := mkG 4000000 100000000 in raster g /\ pieces dp_two /\ levels dp_two [1000; 2000] /\ 5 <= area_km2 g dp_two <= 20 /\
  exists T, dh_pixel_default g 10 "glacier" dp_two = Ok T /\ 0 < row_volume T 3.
Proof.
  cbn zeta. destruct dp_two_ok as (A & B). assert (Hg : raster (mkG 4000000 100000000)) by (split; cbn; lra).
  assert (Ha : 5 <= area_km2 (mkG 4000000 100000000) dp_two <= 20) by (unfold area_km2; cbn; lra).
  split; [exact Hg|]. split; [exact A|]. split; [exact B|]. split; [exact Ha|].
  destruct (c76_medium _ 10 "glacier" dp_two _ Hg ltac:(lia) A B ltac:(cbn; lia) Ha) as (T & HT & low & unmet & D & Q & V). exists T. split; [exact HT|].
  destruct (V 3%nat ltac:(lia)) as (U & ->). pose proof (first_volume _ 10%nat _ _ _ _ Hg ltac:(lia) A D) as V0.
  assert (0 < (1 - INR 3 / INR 10) * row_volume T 0); [|lra]. apply Rmult_lt_0_compat; [|exact V0]. rewrite !INR_IZR_INZ. cbn [Z.of_nat Pos.of_succ_nat Pos.succ]. lra.
Qed.
(** A glacier of 2 km2 with a third of its ice in the upper level, 10 increments. *)
Example c76_small_case : let g := mkG 1000000 100000000 in raster g /\ pieces dp_two /\ levels dp_two [1000; 2000] /\ 0 < area_km2 g dp_two < 5 /\
  2 / INR 10 * ice_of_parts g dp_two (fun _ => 0) (seq 0 (length dp_two)) <= ice_of_parts g dp_two (fun _ => 0) (at_level dp_two 2000).
Proof.
  cbn zeta. destruct dp_two_ok as (A & B). destruct dp_two_levels as (_ & C). split; [split; cbn; lra|]. split; [exact A|]. split; [exact B|]. split; [unfold area_km2; cbn; lra|].
  rewrite C. unfold ice_of_parts. cbn [dp_two length seq Rsum part nth dp_thick g_px]. destruct (left_zero 1000000 20 ltac:(lra)) as (-> & _). destruct (left_zero 1000000 10 ltac:(lra)) as (-> & _). rewrite !INR_IZR_INZ. cbn [Z.of_nat Pos.of_succ_nat Pos.succ]. lra.
Qed.
(** Above 20 km2 the curve is negative for the highest levels; there the code does not thicken the ice but counts the thickening in the scaling
    factor, so more than the n-th part of the ice is taken from the other levels. *)
Theorem c76_large_refuted : exists g parts T, raster g /\ pieces parts /\ levels parts [1000; 2000] /\ 20 < area_km2 g parts /\
  dh_pixel_default g 2 "glacier" parts = Ok T /\ row_volume T 1 < (1 - 1 / 2) * row_volume T 0.
Proof.
  set (g := mkG 15000000 100000000). destruct dp_two_ok as (Hp & HE). destruct dp_two_levels as (A0 & A1). assert (Hg : raster g) by (split; cbn; lra).
  assert (Ha : 20 < area_km2 g dp_two) by (unfold area_km2; cbn; lra).
  set (shape := fun b => curve_large (drop [1000; 2000] b)).
  assert (Sd : (fun b => dh_shape (- (2 / 100), 12 / 100, 0, 6%nat) (drop [1000; 2000] b)) = fun b => (shape b + 0)) by reflexivity.
  assert (D0 : drop [1000; 2000] 0 = 1) by (unfold drop; cbn; field). assert (D1 : drop [1000; 2000] 1 = 0) by (unfold drop; cbn; field).
  assert (S0 : 1 < shape 0%nat + 0 < 2) by (unfold shape; rewrite D0; unfold curve_large; cbn; lra). assert (S1 : - (1/100) < shape 1%nat + 0 < 0) by (unfold shape; rewrite D1; unfold curve_large; cbn; lra).
  set (sh := fun b => shape b + 0) in *. change (shape 0%nat + 0) with (sh 0%nat) in S0. change (shape 1%nat + 0) with (sh 1%nat) in S1.
  destruct (left_zero (g_px g) 20 ltac:(lra)) as (I0 & X0). destruct (left_zero (g_px g) 10 ltac:(lra)) as (I1 & X1).
  assert (Gp : 0 < g_px g) by (cbn; lra). set (a := g_px g) in *.
  destruct (pixel_two g "glacier" sh dp_two [1000; 2000] Hg Hp HE) as (T & HT).
  { cbn [length seq Rsum nth]. rewrite A0, A1. unfold extent_of_parts. cbn [Rsum part dp_two nth dp_thick]. fold a. rewrite X0, X1.
    assert (0 < a * (sh 0%nat + sh 1%nat)) by (apply Rmult_lt_0_compat; lra). lra. }
  exists g, dp_two, T. split; [exact Hg|]. split; [exact Hp|]. split; [exact HE|]. split; [exact Ha|].
  split; [rewrite (default_is g 2 "glacier" dp_two [1000; 2000] _ Hg HE ltac:(cbn; lia) (coefficients_large _ Ha)), Sd; exact HT|].
  destruct (c76_rows g 2 "glacier" sh dp_two [1000; 2000] T Hg ltac:(lia) Hp HE HT) as (low & unmet & A & B).
  rewrite (table_total g 2 "glacier" dp_two low T 1 Hg Hp A ltac:(lia)), (table_total g 2 "glacier" dp_two low T 0 Hg Hp A ltac:(lia)).
  destruct A as (_ & _ & _ & _ & _ & L0 & _). destruct B as (U0 & Law). destruct (Law 0%nat ltac:(lia)) as (_ & melt & M1 & M2 & _). rewrite U0 in M1.
  pose proof (M2 0%nat ltac:(cbn; lia)) as Q0. pose proof (M2 1%nat ltac:(cbn; lia)) as Q1. clear M2. cbn [nth] in Q0, Q1. cbn [length seq Rsum nth] in M1. rewrite A0, A1 in *.
  unfold ice_of_parts, extent_of_parts in *. cbn [Rsum part dp_two nth dp_thick length seq] in Q0, Q1, M1 |- *. rewrite (L0 0%nat) in Q0. rewrite (L0 1%nat) in Q1. rewrite (L0 0%nat), (L0 1%nat) in M1. rewrite (L0 0%nat), (L0 1%nat). change (g_px g) with a in Q0, Q1, M1 |- *. rewrite I0, X0 in Q0. rewrite I1, X1 in Q1. rewrite I0, X0, I1, X1 in M1. rewrite I0, I1.
  cbn [INR] in M1. assert (Mx : melt * (sh 0%nat + sh 1%nat) = 15). { apply Rmult_eq_reg_r with a; [|lra]. replace (melt * (sh 0%nat + sh 1%nat) * a) with (melt * (a * sh 0%nat + (a * sh 1%nat + 0))) by ring. replace (a * sh 0%nat + (a * sh 1%nat + 0)) with ((a + 0) * sh 0%nat + ((a + 0) * sh 1%nat + 0)) by ring. rewrite M1. field. }
  assert (Mp : 0 < melt). { destruct (Rle_dec melt 0) as [N|N]; [|lra]. assert (0 <= - melt * (sh 0%nat + sh 1%nat)) by (apply Rmult_le_pos; lra). lra. }
  assert (N1 : melt * sh 1%nat < 0). { assert (0 < melt * - sh 1%nat) by (apply Rmult_lt_0_compat; lra). lra. }
  rewrite (Rmax_left 0 (melt * sh 1%nat)) in Q1 by lra. rewrite Rmult_0_l, !Rplus_0_r, Rminus_0_r in Q1. rewrite Rmax_right in Q1 by lra.
  assert (N0 : 15 < melt * sh 0%nat) by lra. rewrite (Rmax_right 0 (melt * sh 0%nat)) in Q0 by lra. rewrite !Rplus_0_r in Q0. rewrite !Rplus_0_r. rewrite Q0, Q1.
  assert (a * 15 < a * (melt * sh 0%nat)) by (apply Rmult_lt_compat_l; lra).
  assert (Rmax 0 (a * 20 - melt * sh 0%nat * a) < a * 5) by (apply Rmax_lub_lt; lra). lra.
Qed.
Print Assumptions c76_large_refuted.

(** *** C77 *)
Section Runs.
Variables (d : R) (g : grid) (n : nat) (name : string) (shape : nat -> R) (parts : list dh_part) (E : list R) (T : gtable).
Hypothesis Hd : 0 <= d.
Hypothesis Hg : raster g.
Hypothesis Hn : (0 < n)%nat.
Hypothesis Hp : pieces parts.
Hypothesis HE : levels parts E.
Hypothesis HT : dh_pixel_table g n name shape parts = Ok T.
Hypothesis Hs : forall b, (b < length E)%nat -> 0 <= shape b.
Lemma run_evolves st : delta_h_run d g parts T st -> evolution d T st.
Proof using Hd Hg Hn Hp HE HT Hs.
  destruct (c76_rows g n name shape parts E T Hg Hn Hp HE HT) as (low & unmet & A & B).
  induction 1 as [b H1 H2 H3 H4|b r b' H IH H1 H2 H3|b r b' r' H IH H1].
  - constructor; try assumption. exact (pixel_suits g n name shape parts E low unmet T Hg Hn Hp HE A B Hs b H1).
  - eapply evolution_melt; eassumption.
  - eapply evolution_apply; eassumption.
Qed.
Lemma table_rows : gt_rows T = S n.
Proof using Hg Hn Hp HE HT. destruct (c76_rows g n name shape parts E T Hg Hn Hp HE HT) as (low & unmet & (A & _) & _). exact A. Qed.
End Runs.
(** In every state of a run with such a table, the yearly action never divides by zero and never reads outside the table; the extents are those of
    the last row that was chosen; when the action succeeds, the extents are fractions, no ice is negative, and the ice volume is kept: exactly when
    the row changes, up to the relative error of the initial extents otherwise. *)
Theorem c77_ice_conserved : forall d g n name shape parts E T b last, 0 <= d -> raster g -> (0 < n)%nat -> pieces parts -> levels parts E ->
  dh_pixel_table g n name shape parts = Ok T -> (forall k, (k < length E)%nat -> 0 <= shape k) -> delta_h_run d g parts T (b, last) ->
  deltah_apply T (b, last) <> UB /\ extents_match d T last b /\
  forall b' r, deltah_apply T (b, last) = Ok (b', r) -> (r <= n)%nat /\
    (forall i, In i (columns T) -> 0 <= g_fraction b' name (unit_of T i) <= 1 /\ 0 <= g_ice b' name (unit_of T i)) /\
    Rabs (glacier_volume T b' - glacier_volume T b) <= d * glacier_volume T b /\
    (r <> last -> glacier_volume T b' = glacier_volume T b).
Proof.
  intros d g n name shape parts E T b last Hd Hg Hn Hp HE HT Hs H. pose proof (run_evolves d g n name shape parts E T Hd Hg Hn Hp HE HT Hs _ H) as Ev.
  split; [exact (c26_safe d T b last Hd Ev)|]. split; [exact (c26_extents d T b last Hd Ev)|]. intros b' r Ha.
  destruct (c26_ice_conserved d T b last b' r Hd Ev Ha) as (R1 & R2 & R3 & R4 & R5). rewrite (table_rows g n name shape parts E T Hg Hn Hp HE HT) in R1.
  assert (Nm : gt_cover T = name) by (destruct (c76_rows g n name shape parts E T Hg Hn Hp HE HT) as (low & unmet & (_ & A & _) & _); exact A). rewrite Nm in *.
  split; [lia|]. split; [intros i Hi; split; [apply R2; exact Hi|apply R3; exact Hi]|]. split; assumption.
Qed.
Print Assumptions c77_ice_conserved.
(** The row: the one whose share of the initial ice is the first not below the ice that is left; the last one when no ice is left, the first one when the ice has grown. *)
Theorem c77_row : forall d g n name shape parts E T b last b' r, 0 <= d -> raster g -> (0 < n)%nat -> pieces parts -> levels parts E ->
  dh_pixel_table g n name shape parts = Ok T -> (forall k, (k < length E)%nat -> 0 <= shape k) -> delta_h_run d g parts T (b, last) ->
  deltah_apply T (b, last) = Ok (b', r) -> let V := glacier_volume T b in let V0 := row_volume T 0 * iceDensity in
  0 <= V /\ (V = 0 -> r = n) /\ (0 < V <= V0 -> (r < n)%nat /\ (1 - INR (S r) / INR n) * V0 < V <= (1 - INR r / INR n) * V0) /\ (V0 <= V -> r = 0%nat).
Proof.
  intros d g n name shape parts E T b last b' r Hd Hg Hn Hp HE HT Hs H Ha V V0. pose proof (run_evolves d g n name shape parts E T Hd Hg Hn Hp HE HT Hs _ H) as Ev.
  destruct (evolution_inv T d _ Hd Ev) as (A & B & C & _). cbn [fst] in *. pose proof (table_rows g n name shape parts E T Hg Hn Hp HE HT) as TR.
  assert (V0p : 0 < V0) by (destruct C as (_ & C & _); unfold V0, iceDensity; lra). assert (Np : 0 < INR n) by (apply lt_0_INR; exact Hn).
  assert (Er : r = table_row T V0 V).
  { unfold deltah_apply in Ha. rewrite (total_ice_volume T b B) in Ha. fold V V0 in Ha. destruct (negb _); [discriminate|]. apply bind_ok in Ha. destruct Ha as (b1 & _ & Ha). apply bind_ok in Ha. destruct Ha as (b2 & _ & Ha). congruence. }
  split; [apply volume_nonneg; assumption|]. split; [|split].
  - intro Z. rewrite Er. unfold table_row. rewrite TR. destruct (Nat.eqb_spec (S n) 1); [lia|]. replace (Reqb V0 0) with false by (symmetry; apply Reqb_false; lra). rewrite Z.
    replace ((V0 - 0) / V0) with 1 by (field; lra). rewrite Rmax_right by lra. rewrite S_INR. replace (1 / (1 / (INR n + 1 - 1))) with (INR n) by (field; lra).
    pose proof (trunc_spec (INR n) ltac:(lra)) as (T1 & T2). apply INR_le in T1. rewrite <- S_INR in T2. apply INR_lt in T2. lia.
  - intro HV. rewrite Er. exact (table_row_bracket T V0 V n V0p HV TR Hn).
  - intro HV. rewrite Er. unfold table_row. rewrite TR. destruct (Nat.eqb_spec (S n) 1); [reflexivity|].
    replace (Reqb V0 0) with false by (symmetry; apply Reqb_false; lra).
    rewrite Rmax_left. { unfold Rdiv. rewrite Rmult_0_l. pose proof (trunc_spec 0 (Rle_refl 0)) as X. destruct (trunc 0); [reflexivity|]. rewrite S_INR in X. pose proof (pos_INR n1). lra. }
    unfold Rdiv. rewrite <- (Rmult_0_l (/ V0)). apply Rmult_le_compat_r; [apply Rlt_le, Rinv_0_lt_compat; exact V0p|]. lra.
Qed.
Print Assumptions c77_row.
(** The action is not refused as long as the covers of the units are a partition that leaves room for the initial glacier. *)
Theorem c77_accepted : forall d g n name shape parts E T b last, 0 <= d -> raster g -> (0 < n)%nat -> pieces parts -> levels parts E ->
  dh_pixel_table g n name shape parts = Ok T -> (forall k, (k < length E)%nat -> 0 <= shape k) -> delta_h_run d g parts T (b, last) -> room_for T b ->
  exists b' r, deltah_apply T (b, last) = Ok (b', r).
Proof.
  intros d g n name shape parts E T b last Hd Hg Hn Hp HE HT Hs H Hroom. pose proof (run_evolves d g n name shape parts E T Hd Hg Hn Hp HE HT Hs _ H) as Ev.
  destruct (evolution_inv T d _ Hd Ev) as (A & B & C & _). cbn [fst] in *. apply deltah_accepts; try assumption.
  intros r i Hr Hi. rewrite (table_rows g n name shape parts E T Hg Hn Hp HE HT) in Hr. destruct (c76_rows g n name shape parts E T Hg Hn Hp HE HT) as (low & unmet & D & _).
  apply (below_first g n name parts low T Hg Hn D); [lia|exact Hi].
Qed.
Print Assumptions c77_accepted.
(** The state after the action is added to the model is the start of such a run, with the ice of the glacier. *)
Theorem c77_initialised : forall g n name shape parts E T b b', raster g -> (0 < n)%nat -> pieces parts -> levels parts E ->
  dh_pixel_table g n name shape parts = Ok T -> (forall k, (k < length E)%nat -> 0 <= shape k) ->
  basin_of_pixels g parts b -> glaciers_ready T b -> ice_sane T b -> evolution_init T (columns T) b = Ok b' ->
  delta_h_run (PRECISION / g_px g) g parts T (b', 0%nat) /\
  Rabs (glacier_volume T b' - ice_of_parts g parts (fun _ => 0) (seq 0 (length parts)) * iceDensity) <=
    PRECISION / g_px g * (ice_of_parts g parts (fun _ => 0) (seq 0 (length parts)) * iceDensity).
Proof.
  intros g n name shape parts E T b b' Hg Hn Hp HE HT Hs Hb Hr Hsane Hi. destruct (c76_rows g n name shape parts E T Hg Hn Hp HE HT) as (low & unmet & A & B).
  pose proof (pixel_suits g n name shape parts E low unmet T Hg Hn Hp HE A B Hs b Hb) as Su. pose proof Hg as (Gp & _).
  pose proof (table_total g n name parts low T 0 Hg Hp A Hn) as V0. pose proof A as (_ & _ & _ & Au & _ & A0 & _ & Av).
  assert (Z0 : ice_of_parts g parts (low 0%nat) (seq 0 (length parts)) = ice_of_parts g parts (fun _ => 0) (seq 0 (length parts))) by (unfold ice_of_parts; apply Rsum_ext_in; intros j _; rewrite A0; reflexivity).
  rewrite Z0 in V0. rewrite <- V0.
  destruct (init_start T (g_px g) b b' Gp Hr Hsane Su) as (E1 & E2 & E3 & E4 & E5).
  - intros i Hin. destruct (Av 0%nat i Hn Hin) as (-> & _). assert (Hu : In (unit_of T i) (gt_units T)) by (unfold columns in Hin; apply in_seq in Hin; apply nth_In; lia).
    apply Au in Hu. destruct Hu as (q & Hq & Eq). destruct (In_nth parts q (mkDP 0 0 []) Hq) as (j & Hj & Ej).
    assert (Hin' : In j (of_unit parts (unit_of T i))) by (unfold of_unit; apply filter_In; split; [apply in_seq; lia|apply Nat.eqb_eq; unfold part; rewrite Ej; exact Eq]).
    unfold extent_of_parts. apply Rle_trans with (extent_left (g_px g) (dp_thick (part parts j)) (low 0%nat j)); [|apply (Rsum_elem_le (fun j => extent_left (g_px g) (dp_thick (part parts j)) (low 0%nat j))); [intros; apply extent_left_nonneg; lra|exact Hin']].
    rewrite A0. destruct Hp as (_ & P1 & _). destruct (P1 q Hq) as (Q1 & Q2). unfold part. rewrite Ej. pose proof (start_ice (g_px g) (dp_thick q) Gp Q1 Q2) as Si.
    destruct (extent_bounds (g_px g) (dp_thick q) 0 Gp Si) as (c & Hc & ->). assert (1 <= INR c) by (apply (le_INR 1); lia). rewrite <- (Rmult_1_l (g_px g)) at 1. apply Rmult_le_compat_r; lra.
  - exact Hi.
  - split; [|exact E5]. apply delta_h_starts; try assumption. destruct Hb as (B1 & B2). split; [exact B1|]. intros q Hq. destruct (B2 q Hq) as (N & N1 & N2 & N3). exists N. split; [exact N1|]. split; [exact N2|]. rewrite <- N3.
    destruct Hr as (Nd & Hrd). assert (NdU : NoDup (map (unit_of T) (columns T))) by (rewrite columns_units; exact Nd). destruct (init_effect T (columns T) b b' NdU Hrd Hi) as (_ & Eff).
    assert (Hu : In (dp_unit q) (gt_units T)) by (apply Au; exists q; auto). rewrite <- columns_units in Hu. apply in_map_iff in Hu. destruct Hu as (i & Eu & Hin). rewrite <- Eu. apply (Eff i Hin).
Qed.
Print Assumptions c77_initialised.

(** The glacier of 8 km2 on two units of two pixels; the ice of both is reduced. *)
Definition dh_basin (i1 i2 : R) : gbasin := fun id => if (id =? 1)%nat then mkGU 8000000 (gl_unit (1/2) i1 30) else mkGU 8000000 (gl_unit (1/2) i2 10).
Example c77_case : let g := mkG 4000000 100000000 in exists T b' r, dh_pixel_default g 10 "glacier" dp_two = Ok T /\
  dh_pixel_default g 10 "glacier" dp_two = dh_pixel_table g 10 "glacier" (fun b => curve_medium (drop [1000; 2000] b)) dp_two /\
  delta_h_run 0 g dp_two T (dh_basin 9000 9000, 0%nat) /\ room_for T (dh_basin 9000 9000) /\
  0 < glacier_volume T (dh_basin 9000 9000) /\ deltah_apply T (dh_basin 9000 9000, 0%nat) = Ok (b', r).
Proof.
  cbn zeta. set (g := mkG 4000000 100000000). destruct dp_two_ok as (A & B). assert (Hg : raster g) by (split; cbn; lra).
  assert (Ha : 5 <= area_km2 g dp_two <= 20) by (unfold area_km2; cbn; lra).
  destruct (c76_medium g 10 "glacier" dp_two _ Hg ltac:(lia) A B ltac:(cbn; lia) Ha) as (T & HT & low & unmet & D & _).
  assert (Eq : dh_pixel_default g 10 "glacier" dp_two = dh_pixel_table g 10 "glacier" (fun b => curve_medium (drop [1000; 2000] b)) dp_two)
    by (rewrite (default_is g 10 "glacier" dp_two [1000; 2000] _ Hg B ltac:(cbn; lia) (coefficients_medium _ Ha)); reflexivity).
  assert (HT' := HT). rewrite Eq in HT'.
  assert (TU : gt_units T = [1%nat; 2%nat]). { rewrite Eq in HT. unfold dh_pixel_table in HT. apply bind_ok in HT. destruct HT as (q & _ & HT). injection HT as <-. reflexivity. }
  assert (TC : gt_cover T = "glacier"%string) by (destruct D as (_ & D & _); exact D).
  assert (C : columns T = [0%nat; 1%nat]) by (unfold columns; rewrite TU; reflexivity).
  assert (U0 : unit_of T 0 = 1%nat) by (unfold unit_of; rewrite TU; reflexivity). assert (U1 : unit_of T 1 = 2%nat) by (unfold unit_of; rewrite TU; reflexivity).
  assert (Ar : gt_area T 0 0 = 4000000 /\ gt_area T 0 1 = 4000000).
  { destruct D as (_ & _ & _ & _ & _ & L0 & _ & Dv). destruct (Dv 0%nat 0%nat ltac:(lia) ltac:(rewrite C; cbn; auto)) as (-> & _). destruct (Dv 0%nat 1%nat ltac:(lia) ltac:(rewrite C; cbn; auto)) as (-> & _). rewrite U0, U1.
    unfold extent_of_parts, of_unit. cbn [length dp_two seq filter part nth dp_unit Nat.eqb Rsum dp_thick]. rewrite (L0 0%nat), (L0 1%nat).
    destruct (left_zero (g_px g) 20 ltac:(lra)) as (_ & ->). destruct (left_zero (g_px g) 10 ltac:(lra)) as (_ & ->). cbn. lra. }
  destruct Ar as (Ar0 & Ar1). assert (Pv : PRECISION = / 100000000) by reflexivity.
  assert (Run : delta_h_run 0 g dp_two T (dh_basin 9000 9000, 0%nat)).
  { apply delta_h_starts.
    - split; [rewrite Pv; cbn; lra|]. intros q Hq. exists 2%nat. cbn in Hq. destruct Hq as [<-|[<-|[]]]; cbn; (split; [lra|]); split; lra.
    - split; [rewrite TU; repeat constructor; cbn; intuition lia|]. intros i Hi. rewrite C in Hi. rewrite TC. destruct Hi as [<-|[<-|[]]]; [rewrite U0|rewrite U1]; (split; [cbn; lra|]);
        exists 1%nat; (split; [reflexivity|]); (split; [discriminate|]); cbn; discriminate.
    - intros i Hi. rewrite C in Hi. rewrite TC, Pv. destruct Hi as [<-|[<-|[]]]; [rewrite U0|rewrite U1]; unfold g_ice, g_fraction; cbn; (split; [lra|right; lra]).
    - intros i Hi. rewrite C in Hi. rewrite TC. cbn zeta. destruct Hi as [<-|[<-|[]]]; [rewrite U0, Ar0|rewrite U1, Ar1]; unfold g_fraction; cbn; rewrite Rabs_right; lra. }
  assert (Rm : room_for T (dh_basin 9000 9000)).
  { intros i Hi. rewrite C in Hi. rewrite TC. cbn zeta. destruct Hi as [<-|[<-|[]]]; [rewrite U0|rewrite U1]; (split; [apply gl_ok; lra|]); (split; [cbn [dh_basin Nat.eqb gu_covers]; rewrite gl_total; lra|]);
      exists 1%nat, 0%nat; (split; [reflexivity|]); (split; [reflexivity|]); [rewrite Ar0|rewrite Ar1]; cbn; lra. }
  assert (Hs : forall k, (k < length [1000; 2000])%nat -> 0 <= curve_medium (drop [1000; 2000] k)).
  { intros k Hk. apply Rlt_le, curve_medium_pos. destruct B as (B1 & _). apply (drop_range [1000; 2000] k B1); [cbn; lia|exact Hk]. }
  destruct (c77_accepted 0 g 10 "glacier" _ dp_two [1000; 2000] T (dh_basin 9000 9000) 0 (Rle_refl 0) Hg ltac:(lia) A B HT' Hs Run Rm) as (b' & r & Hb).
  exists T, b', r. split; [exact HT|]. split; [exact Eq|]. split; [exact Run|]. split; [exact Rm|]. split; [|exact Hb].
  unfold glacier_volume. rewrite C, TC. cbn [Rsum]. rewrite U0, U1. unfold g_volume, g_fraction, g_ice. cbn. lra.
Qed.
