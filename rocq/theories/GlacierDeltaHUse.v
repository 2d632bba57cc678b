(** The delta-h tables made on pixels suit the yearly action. *)
From Verif Require Import Base BaseFacts LandCover LandCoverSpec LandCoverFacts GlacierActions GlacierSpec GlacierFacts GlacierTables GlacierTablesSpec GlacierTablesFacts
  GlacierTablesLink GlacierDeltaHSpec GlacierDeltaHFacts GlacierDeltaHLink.
Open Scope R_scope.

(** *** Pixels of some parts *)
Lemma extent_count px th d : 0 < px -> exists c, (c <= length th)%nat /\ extent_left px th d = INR c * px /\ (c = 0%nat -> ice_left px th d = 0).
Proof.
  intro H. exists (length (filter (fun h => Rltb d h) th)). split; [|split].
  - induction th as [|h t IH]; [cbn; lia|]. cbn [filter]. destruct (Rltb d h); cbn [length]; lia.
  - unfold extent_left. ring.
  - intro Z. unfold ice_left. rewrite Rsum_zero; [ring|]. intros h Hh. destruct (Rltb d h) eqn:E.
    + exfalso. assert (In h (filter (fun h => Rltb d h) th)) by (apply filter_In; split; assumption). destruct (filter _ th); [contradiction|discriminate].
    + apply Rltb_false in E. rewrite Rmax_left; lra.
Qed.
Lemma parts_count g parts low l : 0 < g_px g -> exists c, extent_of_parts g parts low l = INR c * g_px g /\
  INR c <= Rsum (fun j => INR (length (dp_thick (part parts j)))) l /\ (c = 0%nat -> ice_of_parts g parts low l = 0).
Proof.
  intro H. unfold extent_of_parts, ice_of_parts. induction l as [|j l (c & A & B & D)]; [exists 0%nat; cbn; split; [ring|split; [lra|reflexivity]]|].
  destruct (extent_count (g_px g) (dp_thick (part parts j)) (low j) H) as (e & E1 & E2 & E3). exists (e + c)%nat. cbn [Rsum]. rewrite A, E2, plus_INR. split; [ring|]. split.
  - apply le_INR in E1. lra.
  - intro Z. rewrite E3, D by lia. ring.
Qed.

(** *** The table suits a basin made of pixels *)
Section Use.
Variables (g : grid) (n : nat) (name : string) (shape : nat -> R) (parts : list dh_part) (E : list R) (low : nat -> nat -> R) (unmet : nat -> R) (T : gtable).
Hypothesis Hg : raster g.
Hypothesis Hn : (0 < n)%nat.
Hypothesis Hp : pieces parts.
Hypothesis HE : levels parts E.
Hypothesis HT : delta_h_table g n name parts low T.
Hypothesis HL : delta_h_law g n shape parts E low unmet.
Hypothesis Hs : forall b, (b < length E)%nat -> 0 <= shape b.

Lemma first_volume : 0 < row_volume T 0.
Proof using Hg Hn Hp HT.
  rewrite (table_total g n name parts low T 0 Hg Hp HT Hn). destruct HT as (_ & _ & _ & _ & _ & L0 & _). destruct Hg as (Gp & _). destruct Hp as (P0 & P1 & _).
  assert (Q : forall j, (j < length parts)%nat -> 0 < ice_left (g_px g) (dp_thick (part parts j)) (low 0%nat j)).
  { intros j Hj. rewrite L0. destruct (P1 (part parts j) (nth_In _ _ Hj)) as (A & B). apply start_ice; assumption. }
  assert (Hl : (0 < length parts)%nat) by (clear - P0; destruct parts; [congruence|cbn; lia]).
  apply Rlt_le_trans with (ice_left (g_px g) (dp_thick (part parts 0)) (low 0%nat 0%nat)); [apply Q; exact Hl|].
  unfold ice_of_parts. apply (Rsum_elem_le (fun j => ice_left (g_px g) (dp_thick (part parts j)) (low 0%nat j))); [|apply in_seq; lia].
  intros j Hj. apply in_seq in Hj. apply Rlt_le, Q. lia.
Qed.
Lemma row_volumes r : (r < n)%nat -> 0 <= unmet r /\ row_volume T r = (1 - INR r / INR n) * row_volume T 0 + unmet r.
Proof.
  intro Hr. destruct (law_totals g n shape parts E low unmet Hg Hn HE HL r Hr) as (A & _ & B). specialize (B Hs).
  rewrite (table_total g n name parts low T r Hg Hp HT Hr), (table_total g n name parts low T 0 Hg Hp HT Hn). split; [exact A|]. lra.
Qed.
Lemma rows_hold_ice r : (r < n)%nat -> 0 < row_volume T r.
Proof.
  intro Hr. destruct (row_volumes r Hr) as (A & ->). pose proof first_volume as V. assert (Np : 0 < INR n) by (apply lt_0_INR; exact Hn).
  assert (0 < (1 - INR r / INR n) * row_volume T 0); [|lra]. apply Rmult_lt_0_compat; [|exact V]. assert (INR r < INR n) by (apply lt_INR; exact Hr).
  assert (INR r / INR n < 1); [|lra]. apply Rmult_lt_reg_r with (INR n); [exact Np|]. unfold Rdiv. rewrite Rmult_assoc, Rinv_l by lra. lra.
Qed.
Lemma last_row_volume : row_volume T n = 0.
Proof. destruct HT as (_ & _ & _ & _ & Z & _). unfold row_volume. apply Rsum_zero. intros i _. apply Z. Qed.
Lemma shrinks r i : (S r <= n)%nat -> In i (columns T) -> gt_area T (S r) i <= gt_area T r i /\ gt_volume T (S r) i <= gt_volume T r i /\ 0 <= gt_area T r i /\ 0 <= gt_volume T r i.
Proof.
  intros Hr Hi. destruct HT as (_ & _ & _ & _ & Z & _ & Lm & Q). destruct Hg as (Gp & _). destruct (Q r i Hr Hi) as (A & B).
  assert (Ap : 0 <= gt_area T r i) by (rewrite A; apply Rsum_nonneg; intros; apply extent_left_nonneg; lra).
  assert (Bp : 0 <= gt_volume T r i) by (rewrite B; apply Rsum_nonneg; intros; apply ice_left_nonneg; lra).
  split; [|split; [|split; assumption]].
  - destruct (Nat.eq_dec (S r) n) as [En|En]; [rewrite En; destruct (Z i) as (-> & _); exact Ap|]. destruct (Q (S r) i ltac:(lia) Hi) as (A' & _). rewrite A, A'.
    apply Rsum_le. intros j Hj. unfold of_unit in Hj. apply filter_In in Hj. destruct Hj as (Hj & _). apply in_seq in Hj. apply extent_left_le; [lra|]. apply Lm; lia.
  - destruct (Nat.eq_dec (S r) n) as [En|En]; [rewrite En; destruct (Z i) as (_ & ->); exact Bp|]. destruct (Q (S r) i ltac:(lia) Hi) as (_ & B'). rewrite B, B'.
    apply Rsum_le. intros j Hj. unfold of_unit in Hj. apply filter_In in Hj. destruct Hj as (Hj & _). apply in_seq in Hj. apply ice_left_le; [lra|]. apply Lm; lia.
Qed.
Lemma below_first r i : (r <= n)%nat -> In i (columns T) -> gt_area T r i <= gt_area T 0 i.
Proof. induction r as [|r IH]; intros Hr Hi; [lra|]. specialize (IH ltac:(lia) Hi). destruct (shrinks r i Hr Hi) as (X & _). lra. Qed.

Lemma row_is_suited b r : basin_of_pixels g parts b -> (r < n)%nat -> row_suits T b r.
Proof.
  intros (Pp & Hb) Hr i Hi A. pose proof HT as (_ & _ & _ & Hu & _ & _ & _ & Q). destruct Hg as (Gp & _). destruct (Q r i Hr Hi) as (Ea & Ev).
  assert (Hin : In (unit_of T i) (gt_units T)) by (unfold columns in Hi; apply in_seq in Hi; apply nth_In; lia).
  apply Hu in Hin. destruct Hin as (q & Hq & Eq). destruct (Hb q Hq) as (N & N1 & N2 & N3). rewrite Eq in N1, N3. fold A in N3.
  destruct (shrinks r i ltac:(lia) Hi) as (_ & _ & _ & Vp). split; [exact Vp|].
  destruct (parts_count g parts (low r) (of_unit parts (unit_of T i)) Gp) as (c & C1 & C2 & C3). rewrite Ea, Ev, C1.
  destruct (Nat.eq_dec c 0) as [->|Cn]; [left; split; [cbn; ring|apply C3; reflexivity]|right].
  assert (C : 1 <= INR c) by (apply (le_INR 1); lia). assert (Nc : INR c <= INR N) by lra. apply INR_le in Nc.
  assert (Np : 0 < INR N) by (apply lt_0_INR; lia). pose proof PRECISION_pos as P0. assert (PV : PRECISION = / 100000000) by reflexivity.
  split. { apply Rlt_le_trans with (g_px g); [exact Pp|]. rewrite <- (Rmult_1_l (g_px g)) at 1. apply Rmult_le_compat_r; lra. }
  rewrite N3. destruct (Nat.eq_dec c N) as [->|Ne]; [left; reflexivity|right]. assert (Lt : INR c + 1 <= INR N) by (rewrite <- S_INR; apply le_INR; lia).
  replace (INR c * g_px g / (INR N * g_px g)) with (INR c / INR N) by (field; lra).
  assert (Inv : PRECISION < / INR N) by (rewrite PV; apply Rinv_lt_contravar; [apply Rmult_lt_0_compat; lra|exact N2]).
  split.
  - apply Rlt_le_trans with (/ INR N); [exact Inv|]. unfold Rdiv. rewrite <- (Rmult_1_l (/ INR N)) at 1. apply Rmult_le_compat_r; [apply Rlt_le, Rinv_0_lt_compat; exact Np|exact C].
  - assert (INR c / INR N <= 1 - / INR N); [|lra]. apply Rmult_le_reg_r with (INR N); [exact Np|]. unfold Rdiv. rewrite Rmult_assoc, Rinv_l, Rmult_minus_distr_r, Rinv_l by lra. lra.
Qed.
Lemma pixel_suits b : basin_of_pixels g parts b -> table_suits T b.
Proof.
  intro Hb. pose proof HT as (Tr & _ & _ & _ & Z & _). split; [lia|]. split; [exact first_volume|]. split; [|split].
  - intros r Hr. destruct (Nat.eq_dec r n) as [->|En]; [|apply row_is_suited; [exact Hb|lia]]. intros i Hi. destruct (Z i) as (-> & ->). cbn. split; [lra|left; split; reflexivity].
  - intros r Hr. apply rows_hold_ice. lia.
  - intros r Hr. right. intros i Hi. assert (r = n) by lia. subst r. apply Z.
Qed.
End Use.

(** *** The action is accepted when there is room *)
Lemma suited_fraction x A : 0 < A -> x = 0 \/ x = A \/ PRECISION < x / A < 1 - PRECISION -> check_fraction (x / A) = Ok (x / A) /\ 0 <= x / A <= 1.
Proof.
  intros Ha H. pose proof PRECISION_pos as P0. pose proof PREC_half as Ph. unfold check_fraction.
  destruct H as [->|[->|H]].
  - unfold Rdiv. rewrite Rmult_0_l. destruct (NearlyZero_spec 0 PRECISION) as [_|Z]; [split; [reflexivity|lra]|rewrite Rabs_R0 in Z; lra].
  - replace (A / A) with 1 by (field; lra). destruct (NearlyZero_spec 1 PRECISION) as [Z|_]; [rewrite Rabs_R1 in Z; lra|].
    destruct (NearlyEqual_spec 1 1 PRECISION) as [_|Z]; [split; [reflexivity|lra]|]. replace (1 - 1) with 0 in Z by ring. rewrite Rabs_R0 in Z. lra.
  - destruct (NearlyZero_spec (x / A) PRECISION) as [Z|_]; [apply Rabs_bounds in Z; lra|].
    destruct (NearlyEqual_spec 1 (x / A) PRECISION) as [Z|_]; [apply Rabs_bounds in Z; lra|].
    rewrite (proj2 (Rltb_false (x / A) 0)) by lra. rewrite (proj2 (Rltb_false 1 (x / A))) by lra. split; [reflexivity|lra].
Qed.
Lemma set_areas_accepts T r : forall cols b, NoDup (map (unit_of T) cols) -> (forall i, In i cols -> gready b (gt_cover T) (unit_of T i)) ->
  (forall i, In i cols -> let A := gu_area (b (unit_of T i)) in gt_area T r i = 0 \/ gt_area T r i = A \/ PRECISION < gt_area T r i / A < 1 - PRECISION) ->
  (forall i, In i cols -> gt_area T r i <= gt_area T 0 i) ->
  (forall i, In i cols -> let id := unit_of T i in let u := gu_covers (b id) in
    fractions_ok u /\ total_fraction u <= 1 /\ exists c gc, find_cover u (gt_cover T) = Some c /\ generic_cover u = Some gc /\
      gt_area T 0 i <= (cv_fraction (hu_cover u c) + cv_fraction (hu_cover u gc)) * gu_area (b id)) ->
  exists b', set_areas T r cols b = Ok b' /\ (forall i, In i cols -> gready b' (gt_cover T) (unit_of T i)) /\
    forall id, (forall i, In i cols -> unit_of T i <> id) -> b' id = b id.
Proof.
  induction cols as [|i l IH]; intros b Nd Hr Ha Hm Hroom; cbn [set_areas]; [exists b; split; [reflexivity|split; [intros i []|reflexivity]]|].
  inversion Nd as [|x y Hnot Nd']; subst. pose proof (Hr i (or_introl eq_refl)) as Gi. pose proof Gi as (Ap & c & Fc & Gc & Sc).
  destruct (suited_fraction _ _ Ap (Ha i (or_introl eq_refl))) as (Ck & Rf). rewrite Ck. cbn [bind].
  destruct (Hroom i (or_introl eq_refl)) as (R1 & R2 & c' & gc & Fc' & Gg & Rm). cbn zeta in *. rewrite Fc in Fc'. injection Fc' as <-.
  assert (Gne : gc <> c) by (intros ->; apply Gc; exact Gg).
  destruct (change_accepted _ (gt_cover T) (gt_area T r i / gu_area (b (unit_of T i))) c gc R1 R2 Fc Gg Gne Rf) as (u' & Hu).
  { specialize (Hm i (or_introl eq_refl)). assert (gt_area T r i / gu_area (b (unit_of T i)) <= cv_fraction (hu_cover (gu_covers (b (unit_of T i))) c) + cv_fraction (hu_cover (gu_covers (b (unit_of T i))) gc)); [|lra].
    apply Rmult_le_reg_r with (gu_area (b (unit_of T i))); [exact Ap|]. unfold Rdiv. rewrite Rmult_assoc, Rinv_l by lra. lra. }
  destruct (change_in b (unit_of T i) (gt_cover T) (gt_area T r i / gu_area (b (unit_of T i)))) as [b1| |] eqn:Ec; [|unfold change_in in Ec; rewrite Hu in Ec; discriminate|unfold change_in in Ec; rewrite Hu in Ec; discriminate].
  cbn [bind]. destruct (change_in_effect _ _ _ _ _ Gi Ec) as (O & G1 & _).
  assert (E1 : forall j, In j l -> b1 (unit_of T j) = b (unit_of T j)).
  { intros j Hj. apply O. intros Ej. apply Hnot. rewrite <- Ej. apply in_map. exact Hj. }
  destruct (IH b1 Nd') as (b' & Hb & H1 & H2).
  - intros j Hj. apply (ready_eq T b b1); [apply E1; exact Hj|apply Hr; right; exact Hj].
  - intros j Hj. cbn zeta. rewrite (E1 j Hj). apply Ha. right. exact Hj.
  - intros j Hj. apply Hm. right. exact Hj.
  - intros j Hj. cbn zeta. rewrite (E1 j Hj). exact (Hroom j (or_intror Hj)).
  - exists b'. split; [exact Hb|]. split.
    + intros j [<-|Hj]; [|apply H1; exact Hj]. apply (ready_eq T b1 b'); [|exact G1]. apply H2. intros j Hj Ej. apply Hnot. rewrite <- Ej. apply in_map. exact Hj.
    + intros id Hid. rewrite H2 by (intros j Hj; apply Hid; right; exact Hj). apply O. intro Ej. apply (Hid i); [left; reflexivity|symmetry; exact Ej].
Qed.
Lemma spread_accepts T r we : forall cols b, NoDup (map (unit_of T) cols) -> (forall i, In i cols -> gready b (gt_cover T) (unit_of T i)) ->
  spread_ice T r we cols b <> Throw.
Proof.
  induction cols as [|i l IH]; intros b Nd Hr; cbn [spread_ice]; [discriminate|]. inversion Nd as [|x y Hnot Nd']; subst.
  pose proof (Hr i (or_introl eq_refl)) as Gi. pose proof Gi as (Ap & c & Fc & Gc & Sc). rewrite Fc.
  assert (K : forall x, exists b1, set_ice b (unit_of T i) c x = Ok b1 /\ spread_ice T r we l b1 <> Throw).
  { intro x. unfold set_ice. destruct (cv_slot _ SelfIce) eqn:Es; [|congruence]. eexists. split; [reflexivity|]. apply IH; [exact Nd'|].
    intros j Hj. apply (ready_eq T b); [|apply Hr; right; exact Hj]. apply upd_other. intros Ej. apply Hnot. rewrite <- Ej. apply in_map. exact Hj. }
  destruct (NearlyZero _ _); [destruct (K 0) as (b1 & -> & H); exact H|]. destruct (Reqb _ 0); [discriminate|]. destruct (K (we * (gt_volume T r i / row_volume T r) / gt_area T r i)) as (b1 & -> & H). exact H.
Qed.
Lemma deltah_accepts T b last : glaciers_ready T b -> ice_sane T b -> table_suits T b -> room_for T b ->
  (forall r i, (r < gt_rows T)%nat -> In i (columns T) -> gt_area T r i <= gt_area T 0 i) -> exists b' r, deltah_apply T (b, last) = Ok (b', r).
Proof.
  intros Hr Hs Ht Hroom Hm. pose proof (deltah_safe T b last Hr Hs Ht) as Su. destruct (deltah_apply T (b, last)) as [(b', r)| |] eqn:Ed; [eauto| |congruence]. exfalso. clear Su.
  unfold deltah_apply in Ed. set (we := total_ice T b) in *. set (r := table_row T (row_volume T 0 * iceDensity) we) in *.
  destruct (row_in_table T r) eqn:Rt; cbn [negb] in Ed; [|discriminate]. unfold row_in_table in Rt. apply Nat.ltb_lt in Rt.
  destruct Hr as (Nd & Hr). assert (NdU : NoDup (map (unit_of T) (columns T))) by (rewrite columns_units; exact Nd).
  assert (K : exists b1, (if (r =? last)%nat then Ok b else set_areas T r (columns T) b) = Ok b1 /\ forall i, In i (columns T) -> gready b1 (gt_cover T) (unit_of T i)).
  { destruct (r =? last)%nat; [exists b; auto|]. destruct (set_areas_accepts T r (columns T) b NdU Hr) as (b1 & E1 & E2 & _).
    - intros i Hi. destruct Ht as (_ & _ & Hrow & _). destruct (Hrow r Rt i Hi) as (_ & [Z|Z]); cbn zeta in *; tauto.
    - intros i Hi. apply Hm; assumption.
    - exact Hroom.
    - exists b1. auto. }
  destruct K as (b1 & E1 & G1). rewrite E1 in Ed. cbn [bind] in Ed. pose proof (spread_accepts T r we (columns T) b1 NdU G1) as Sp.
  destruct (spread_ice T r we (columns T) b1); cbn [bind] in Ed; [discriminate|congruence|discriminate].
Qed.

(** *** The curves *)
Lemma km2_is g parts : raster g -> glacier_km2 g (map (part_line g) parts) = area_km2 g parts.
Proof.
  intros (Gp & Gc). unfold glacier_km2, area_km2, Rdiv. rewrite map_length. rewrite (Rsum_ext_in (line_area g (map (part_line g) parts)) (fun j => INR (length (dp_thick (part parts j))) * (g_px g / g_catchment g))).
  - rewrite Rsum_scal_r. field. lra.
  - intros j Hj. apply in_seq in Hj. unfold line_area. rewrite (p_nth g parts) by lia. unfold part_line, Rdiv. cbn [dl_area]. ring.
Qed.
Lemma drop_range E b : (forall i j, (i < j < length E)%nat -> nth i E 0 < nth j E 0) -> (2 <= length E)%nat -> (b < length E)%nat ->
  0 <= drop E b <= 1 /\ (S b = length E -> drop E b = 0) /\ ((S b < length E)%nat -> 0 < drop E b) /\ (b = 0%nat -> drop E b = 1).
Proof.
  intros H L Hb. unfold drop. assert (El : last E 0 = nth (length E - 1) E 0).
  { clear -L. destruct E as [|e E]; [cbn in L; lia|]. clear L. revert e. induction E as [|f E IH]; intro e; [reflexivity|]. cbn [last length]. replace (S (S (length E)) - 1)%nat with (S (length E)) by lia. cbn [nth]. specialize (IH f). cbn [length] in IH. replace (S (length E) - 1)%nat with (length E) in IH by lia. exact IH. }
  rewrite El. set (top := nth (length E - 1) E 0). assert (T0 : nth 0 E 0 < top) by (apply H; lia).
  assert (Bt : nth b E 0 <= top) by (unfold top; destruct (Nat.eq_dec b (length E - 1)) as [->|]; [lra|apply Rlt_le, H; lia]).
  assert (B0 : nth 0 E 0 <= nth b E 0) by (destruct b; [lra|apply Rlt_le, H; lia]). assert (I : 0 < / (top - nth 0 E 0)) by (apply Rinv_0_lt_compat; lra).
  split; [split|split; [|split]].
  - apply Rmult_le_pos; lra.
  - apply Rmult_le_reg_r with (top - nth 0 E 0); [lra|]. unfold Rdiv. rewrite Rmult_assoc, Rinv_l by lra. lra.
  - intro Z. unfold top. replace (length E - 1)%nat with b by lia. unfold Rdiv. rewrite Rminus_diag_eq by reflexivity. ring.
  - intro Z. apply Rmult_lt_0_compat; [|exact I]. assert (nth b E 0 < top) by (apply H; lia). lra.
  - intros ->. field. lra.
Qed.
Lemma curve_medium_pos x : 0 <= x -> 0 < curve_medium x.
Proof. intro H. unfold curve_medium. assert (0 <= (x - 5/100) ^ 4) by (replace ((x - 5/100)^4) with (((x - 5/100)^2)^2) by ring; apply pow2_ge_0). lra. Qed.
Lemma curve_small_is x : curve_small x = x ^ 2.
Proof. unfold curve_small. field. Qed.
Lemma default_is g n name parts E k : raster g -> levels parts E -> (2 <= length E)%nat -> dh_coefficients (area_km2 g parts) = Ok k ->
  dh_pixel_default g n name parts = dh_pixel_table g n name (fun b => dh_shape k (drop E b)) parts.
Proof.
  intros Hg HE L Hk. unfold dh_pixel_default. rewrite (km2_is g parts Hg), Hk. cbn [bind]. rewrite (count_is_levels g parts E HE). destruct (Nat.leb_spec (length E) 1); [lia|].
  unfold band_shape. rewrite (bands_are_levels g parts E HE). reflexivity.
Qed.
Lemma coefficients_medium a : 5 <= a <= 20 -> dh_coefficients a = Ok (- (5 / 100), 19 / 100, 1 / 100, 4%nat).
Proof. intro H. unfold dh_coefficients. rewrite (proj2 (Rltb_false 20 a)) by lra. rewrite (proj2 (Rleb_true 5 a)) by lra. rewrite (proj2 (Rleb_true a 20)) by lra. reflexivity. Qed.
Lemma coefficients_small a : 0 < a < 5 -> dh_coefficients a = Ok (- (30 / 100), 60 / 100, 9 / 100, 2%nat).
Proof.
  intro H. unfold dh_coefficients. rewrite (proj2 (Rltb_false 20 a)) by lra. rewrite (proj2 (Rleb_false 5 a)) by lra. cbn [andb]. rewrite (proj2 (Rltb_true 0 a)) by lra. rewrite (proj2 (Rltb_true a 5)) by lra. reflexivity.
Qed.
Lemma coefficients_large a : 20 < a -> dh_coefficients a = Ok (- (2 / 100), 12 / 100, 0, 6%nat).
Proof. intro H. unfold dh_coefficients. rewrite (proj2 (Rltb_true 20 a)) by lra. reflexivity. Qed.

(** *** One step (two increments) *)
Lemma pixel_two g name shape parts E : raster g -> pieces parts -> levels parts E ->
  Rsum (fun b => extent_of_parts g parts (fun _ => 0) (at_level parts (nth b E 0)) * shape b) (seq 0 (length E)) <> 0 -> exists T, dh_pixel_table g 2 name shape parts = Ok T.
Proof.
  intros Hg Hp HE Hd. pose proof Hg as (Gp & Gc).
  rewrite (table_is g 2 name shape parts ltac:(lia)).
  set (p := map (part_line g) parts). set (P := length parts). set (th := fun j => dp_thick (part parts j)).
  assert (Th : forall j, (j < P)%nat -> th j <> [] /\ forall h, In h (th j) -> 0 < h) by (intros j Hj; destruct Hp as (_ & H & _); apply H, nth_In; exact Hj).
  assert (Bf : forall j, (j < P)%nat -> (line_band p j < band_count p)%nat) by (intros j Hj; unfold p; rewrite (count_is_levels g parts E HE); apply (part_level g parts Hp E HE j Hj)).
  pose proof (start_ok g Gp Gc P (band_count p) (line_band p) shape th Th) as (S1 & _). set (s0 := dr_start g P (band_count p) (line_band p) th) in *.
  destruct (step_ok g Gp Gc P (band_count p) 2 (line_band p) shape Bf (dr_total P s0) s0 S1) as (_ & B). destruct B as (s' & Es & _).
  - intro Z. apply Hd. unfold demand in Z. unfold p in Z at 1. rewrite (count_is_levels g parts E HE) in Z.
    rewrite (Rsum_ext_in _ (fun b => dr_area_b s0 b * shape b * g_catchment g)); [rewrite Rsum_scal_r, Z; ring|]. intros b Hb. apply in_seq in Hb.
    unfold s0. cbn [dr_start dr_area_b]. unfold p, P. rewrite (parts_at_level g parts Hp E HE b ltac:(lia)). rewrite Rmult_assoc, (Rmult_comm (shape b)), <- Rmult_assoc. f_equal.
    rewrite <- Rsum_scal_r. apply Rsum_ext_in. intros j Hj. unfold at_level in Hj. apply filter_In in Hj. destruct Hj as (Hj & _). apply in_seq in Hj.
    unfold extent_left. fold (th j). destruct (Th j ltac:(unfold P; lia)) as (_ & Q).
    replace (filter (fun h => Rltb 0 h) (th j)) with (th j); [field; lra|]. clear -Q. induction (th j) as [|h t IH]; [reflexivity|]. cbn [filter]. rewrite (proj2 (Rltb_true 0 h)) by (apply Q; left; reflexivity). f_equal. apply IH. intros x Hx. apply Q. right. exact Hx.
  - cbn [Nat.sub dr_rows]. change (fun j => dp_thick (nth j parts {| dp_elev := 0; dp_unit := 0; dp_thick := [] |})) with th. fold P p. fold s0. rewrite Es. cbn [bind]. eauto.
Qed.

(** *** Two levels, the upper one not melting *)
Lemma no_ice_no_extent px th d : 0 < px -> ice_left px th d <= 0 -> extent_left px th d = 0.
Proof.
  intros Hp H. unfold ice_left, extent_left in *. assert (Z : filter (fun h => Rltb d h) th = []); [|rewrite Z; cbn; ring].
  assert (Q : Rsum (fun h => Rmax 0 (h - d)) th <= 0). { destruct (Rle_dec (Rsum (fun h => Rmax 0 (h - d)) th) 0) as [|Hn]; [assumption|]. assert (0 < px * Rsum (fun h => Rmax 0 (h - d)) th) by (apply Rmult_lt_0_compat; lra). lra. }
  clear H. destruct (filter (fun h => Rltb d h) th) as [|h l] eqn:Ef; [reflexivity|exfalso].
  assert (Hin : In h (filter (fun h => Rltb d h) th)) by (rewrite Ef; left; reflexivity). apply filter_In in Hin. destruct Hin as (Hin & Hl). apply Rltb_true in Hl.
  pose proof (Rsum_elem_le (fun h => Rmax 0 (h - d)) th h (fun x _ => Rmax_l _ _) Hin) as X. cbn beta in X. rewrite Rmax_right in X by lra. lra.
Qed.
Lemma no_parts_ice g parts low l : 0 < g_px g -> ice_of_parts g parts low l <= 0 -> extent_of_parts g parts low l = 0.
Proof.
  intros Hp H. unfold extent_of_parts. apply Rsum_zero. intros j Hj. apply no_ice_no_extent; [exact Hp|]. unfold ice_of_parts in H.
  pose proof (Rsum_elem_le (fun j => ice_left (g_px g) (dp_thick (part parts j)) (low j)) l j (fun x _ => ice_left_nonneg _ _ _ (Rlt_le _ _ Hp)) Hj) as X. cbn beta in X. lra.
Qed.
Lemma two_levels_stuck g n shape parts lo hi low unmet : raster g -> pieces parts -> (2 <= n)%nat -> levels parts [lo; hi] -> (forall j, low 0%nat j = 0) ->
  delta_h_law g n shape parts [lo; hi] low unmet -> 0 < shape 0%nat -> shape 1%nat = 0 ->
  let whole := ice_of_parts g parts (fun _ => 0) (seq 0 (length parts)) in
  2 / INR n * whole <= ice_of_parts g parts (fun _ => 0) (at_level parts hi) -> False.
Proof.
  intros Hg Hp Hn HE L0 HL S0 S1 whole Hhi. pose proof Hg as (Gp & Gc). assert (Np : 0 < INR n) by (apply lt_0_INR; lia).
  pose proof (law_totals g n shape parts [lo; hi] low unmet Hg ltac:(lia) HE HL) as Lt. cbn zeta in Lt.
  assert (Z0 : forall l, ice_of_parts g parts (low 0%nat) l = ice_of_parts g parts (fun _ => 0) l) by (intro l; unfold ice_of_parts; apply Rsum_ext_in; intros j _; rewrite L0; reflexivity).
  assert (Wp : 0 < whole).
  { unfold whole. destruct Hp as (P0 & P1 & _). assert (Hl : (0 < length parts)%nat) by (destruct parts; [congruence|cbn; lia]).
    apply Rlt_le_trans with (ice_left (g_px g) (dp_thick (part parts 0)) 0). { destruct (P1 (part parts 0) (nth_In _ _ Hl)) as (A & B). apply start_ice; assumption. }
    unfold ice_of_parts. apply (Rsum_elem_le (fun j => ice_left (g_px g) (dp_thick (part parts j)) 0)); [|apply in_seq; lia]. intros; apply ice_left_nonneg; lra. }
  set (L := fun r => ice_of_parts g parts (low r) (at_level parts lo)). set (X := fun r => extent_of_parts g parts (low r) (at_level parts lo)).
  assert (Xp : forall r, 0 <= X r) by (intro r; apply Rsum_nonneg; intros; apply extent_left_nonneg; lra).
  assert (Lp : forall r, 0 <= L r) by (intro r; apply Rsum_nonneg; intros; apply ice_left_nonneg; lra).
  destruct HL as (U0 & Law). assert (Wn : 0 < whole / INR n) by (apply Rmult_lt_0_compat; [exact Wp|apply Rinv_0_lt_compat; exact Np]).
  assert (Step : forall r, (S r < n)%nat -> 0 < X r /\ L (S r) <= Rmax 0 (L r - whole / INR n)).
  { intros r Hr. destruct (Law r Hr) as (_ & melt & M1 & M2 & _). cbn [length seq Rsum nth] in M1. fold (X r) in M1. rewrite S1, Z0 in M1. fold whole in M1.
    destruct (Lt r ltac:(lia)) as (Un & _). specialize (M2 0%nat ltac:(cbn; lia)). cbn [nth] in M2. fold (L (S r)) (L r) (X r) in M2.
    assert (Eq : melt * shape 0%nat * X r = whole / INR n + unmet r) by lra.
    assert (Xr : 0 < X r) by (destruct (Rle_lt_or_eq_dec _ _ (Xp r)) as [|E]; [assumption|rewrite <- E in Eq; lra]). split; [exact Xr|].
    assert (Mp : 0 <= melt * shape 0%nat). { destruct (Rle_dec 0 (melt * shape 0%nat)) as [|Hneg]; [assumption|]. assert (0 < - (melt * shape 0%nat) * X r) by (apply Rmult_lt_0_compat; lra). lra. }
    rewrite (Rmax_right 0 (melt * shape 0%nat)) in M2 by exact Mp. rewrite M2, Eq. apply Rle_max_compat_l. lra. }
  assert (Sum : L 0%nat = whole - ice_of_parts g parts (fun _ => 0) (at_level parts hi)).
  { unfold L. rewrite Z0. pose proof (level_total parts [lo; hi] (fun j => ice_left (g_px g) (dp_thick (part parts j)) 0) HE) as Q. cbn [length seq Rsum nth] in Q.
    unfold whole, ice_of_parts. lra. }
  assert (Dec : forall r, (r < n)%nat -> L r <= Rmax 0 (L 0%nat - INR r * (whole / INR n))).
  { induction r as [|r IH]; intro Hr; [cbn [INR]; rewrite Rmult_0_l, Rminus_0_r; apply Rmax_r|]. destruct (Step r Hr) as (_ & Q). eapply Rle_trans; [exact Q|]. specialize (IH ltac:(lia)).
    apply Rmax_lub; [apply Rmax_l|]. rewrite S_INR. destruct (Rle_dec 0 (L 0%nat - INR r * (whole / INR n))) as [Y|Y].
    - rewrite Rmax_right in IH by exact Y. eapply Rle_trans; [|apply Rmax_r]. lra.
    - rewrite Rmax_left in IH by lra. eapply Rle_trans; [|apply Rmax_l]. lra. }
  destruct (Step (n - 2)%nat ltac:(lia)) as (Q & _). specialize (Dec (n - 2)%nat ltac:(lia)). rewrite minus_INR in Dec by lia. change (INR 2) with 2 in Dec.
  rewrite Rmax_left in Dec. { assert (X (n - 2)%nat = 0); [|lra]. apply no_parts_ice; [exact Gp|]. exact Dec. }
  rewrite Sum. assert ((INR n - 2) * (whole / INR n) = whole - 2 / INR n * whole) by (field; lra). lra.
Qed.
