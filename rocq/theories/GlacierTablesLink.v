(** Area scaling: from the rows to the table, and to the action that reads it. *)
From Verif Require Import Base BaseFacts LandCover LandCoverSpec LandCoverFacts GlacierActions GlacierSpec GlacierFacts GlacierTables GlacierTablesSpec GlacierTablesFacts.
Open Scope R_scope.

Lemma outcomes_nth {A B} (f : A -> outcome B) : forall l, (forall x, In x l -> exists y, f x = Ok y) ->
  exists q, outcomes f l = Ok q /\ length q = length l /\ forall i dx dy, (i < length l)%nat -> f (nth i l dx) = Ok (nth i q dy).
Proof.
  induction l as [|x l IH]; intro H; [exists []; repeat split; intros; cbn in *; lia|].
  destruct (H x (or_introl eq_refl)) as (y & Hy). destruct IH as (q & Hq & Lq & Nq); [intros z Hz; apply H; right; exact Hz|].
  exists (y :: q). cbn [outcomes]. rewrite Hy. cbn [bind]. rewrite Hq. cbn [bind]. split; [reflexivity|]. split; [cbn; lia|].
  intros i dx dy Hi. destruct i as [|i]; [exact Hy|]. cbn [nth]. apply Nq. cbn in Hi. lia.
Qed.

Lemma above_scaled k lam th : 0 < k -> above lam (map (fun h => h * k) th) = map (fun h => h * k) (above (lam / k) th).
Proof.
  intro Hk. unfold above, px_positive. rewrite map_map. induction th as [|h th IH]; [reflexivity|]. cbn [map filter].
  assert (E : h * k - lam = (h - lam / k) * k) by (field; lra). rewrite E.
  destruct (Rltb 0 (h - lam / k)) eqn:X; [apply Rltb_true in X|apply Rltb_false in X].
  - rewrite (proj2 (Rltb_true 0 ((h - lam / k) * k))) by (apply Rmult_lt_0_compat; assumption). cbn [map]. rewrite IH. reflexivity.
  - rewrite (proj2 (Rltb_false 0 ((h - lam / k) * k))). { exact IH. }
    replace 0 with (0 * k) by ring. apply Rmult_le_compat_r; lra.
Qed.
Lemma above_length d th : length (above d th) = length (filter (fun h => Rltb d h) th).
Proof.
  unfold above, px_positive. induction th as [|h th IH]; [reflexivity|]. cbn [map filter].
  destruct (Rltb d h) eqn:X; [apply Rltb_true in X|apply Rltb_false in X].
  - rewrite (proj2 (Rltb_true 0 (h - d))) by lra. cbn [length]. rewrite IH. reflexivity.
  - rewrite (proj2 (Rltb_false 0 (h - d))) by lra. exact IH.
Qed.
Lemma above_rsum d th : rsum (above d th) = Rsum (fun h => Rmax 0 (h - d)) th.
Proof.
  unfold rsum, above, px_positive. induction th as [|h th IH]; [reflexivity|]. cbn [map filter Rsum].
  destruct (Rltb 0 (h - d)) eqn:X; [apply Rltb_true in X|apply Rltb_false in X].
  - cbn [Rsum]. rewrite IH, Rmax_right by lra. reflexivity.
  - rewrite IH, Rmax_left by lra. ring.
Qed.
Lemma rsum_scaled k l : rsum (map (fun h => h * k) l) = rsum l * k.
Proof. unfold rsum. rewrite Rsum_map. apply Rsum_scal_r. Qed.

Section Column.
Variable g : grid.
Hypothesis Hg : raster g.
Variable th : list R.
Hypothesis Hn : th <> [].
Hypothesis Hp : forall h, In h th -> 0 < h.
Let k := iceDensity.
Let px0 := map (fun h => h * k) th.
Let u := g_px g / g_catchment g.

Lemma k_pos : 0 < k.
Proof. unfold k, iceDensity. lra. Qed.
Lemma start_good : as_good g px0 0 (rsum px0 * u) (as_start g th).
Proof.
  pose proof k_pos as K. destruct Hg as (Gp & Gc). unfold as_good, as_start. cbn [ac_px ac_area ac_we]. fold k px0.
  split; [lra|]. split; [symmetry; apply above_none; intros v Hv; apply in_map_iff in Hv; destruct Hv as (h & <- & Hh); apply Rmult_lt_0_compat; [apply Hp; exact Hh|exact K]|].
  split; [unfold px0; destruct th; [congruence|discriminate]|]. unfold px0. rewrite map_length. split; [unfold Rdiv; ring|].
  split; [|reflexivity]. unfold mean. fold (rsum (map (fun h => h * k) th)). rewrite map_length, rsum_scaled. unfold rsum, Rdiv. ring.
Qed.

Lemma column_ok n : (0 < n)%nat -> exists l, as_column g n th = Ok l /\ length l = S n /\ (forall d, nth n l d = mkAC 0 0 []) /\
  exists lam, lam 0%nat = 0 /\ (forall r, (S r < n)%nat -> lam r <= lam (S r)) /\
    forall r d, (r < n)%nat ->
      ac_area (nth r l d) * g_catchment g = extent_left (g_px g) th (lam r) /\
      ac_we (nth r l d) * (ac_area (nth r l d) * g_catchment g) / iceDensity = ice_left (g_px g) th (lam r) /\
      ice_left (g_px g) th (lam r) = (1 - INR r / INR n) * ice_left (g_px g) th 0.
Proof.
  intro Hn0. pose proof k_pos as K. destruct Hg as (Gp & Gc). pose proof start_good as G0.
  assert (Np : 0 < INR n) by (apply lt_0_INR; assumption).
  assert (Up : 0 < u) by (unfold u; apply Rmult_lt_0_compat; [assumption|apply Rinv_0_lt_compat; assumption]).
  set (M := rsum px0 * u) in *.
  assert (Mp : 0 < M).
  { unfold M. apply Rmult_lt_0_compat; [|exact Up]. unfold px0. rewrite rsum_scaled. apply Rmult_lt_0_compat; [|exact K].
    destruct th as [|h t]; [congruence|]. unfold rsum. cbn [Rsum]. assert (0 <= Rsum (fun v => v) t) by (apply Rsum_nonneg; intros x Hx; apply Rlt_le, Hp; right; exact Hx).
    specialize (Hp h (or_introl eq_refl)). lra. }
  destruct (as_good_area g Gp Gc _ _ _ _ G0) as (_ & Am).
  set (ch := ac_we (as_start g th) * ac_area (as_start g th) / INR n).
  assert (Ech : ch = M / INR n) by (unfold ch; rewrite <- Am; unfold Rdiv; ring).
  assert (Cp : 0 < ch) by (rewrite Ech; apply Rmult_lt_0_compat; [assumption|apply Rinv_0_lt_compat; assumption]).
  assert (En : INR n * ch = M) by (rewrite Ech; field; lra).
  destruct (as_rows_good g Gp Gc px0 ch (Rlt_le _ _ Cp) (n - 1) 0 M _ G0) as (l & El & Ll & lams & L0 & Lm & Lg).
  { rewrite minus_INR by lia. cbn [INR]. lra. }
  exists (l ++ [mkAC 0 0 []]). split.
  { unfold as_column. destruct (Nat.eqb_spec n 0); [lia|]. fold ch. rewrite El. reflexivity. }
  split; [rewrite app_length; cbn; lia|]. split; [intro d; rewrite app_nth2 by lia; replace (n - length l)%nat with 0%nat by lia; reflexivity|].
  exists (fun r => lams r / k). split; [rewrite L0; unfold Rdiv; ring|]. split.
  { intros r Hr. unfold Rdiv. apply Rmult_le_compat_r; [apply Rlt_le, Rinv_0_lt_compat, K|]. apply Lm. lia. }
  assert (E0 : rsum px0 = k * (Rsum (fun h => Rmax 0 (h - 0)) th)).
  { unfold px0. rewrite rsum_scaled, <- above_rsum, above_none by assumption. ring. }
  intros r d Hr. rewrite app_nth1 by lia. specialize (Lg r d ltac:(lia)). destruct (as_good_area g Gp Gc _ _ _ _ Lg) as (_ & Amr).
  destruct Lg as (_ & Lpx & _ & La & Lw & Lmass).
  assert (Epx : ac_px (nth r l d) = map (fun h => h * k) (above (lams r / k) th)) by (rewrite Lpx; apply above_scaled; exact K).
  assert (Es : rsum (ac_px (nth r l d)) = k * Rsum (fun h => Rmax 0 (h - lams r / k)) th) by (rewrite Epx, rsum_scaled, above_rsum; ring).
  assert (Uc : u * g_catchment g = g_px g) by (unfold u; field; lra).
  split; [|split].
  - rewrite La. fold u. rewrite Rmult_assoc, Uc. unfold extent_left. rewrite Epx, map_length, above_length. ring.
  - replace (ac_we (nth r l d) * (ac_area (nth r l d) * g_catchment g) / iceDensity) with (ac_area (nth r l d) * ac_we (nth r l d) * g_catchment g / k) by (unfold Rdiv, k; ring).
    rewrite Amr, <- Lmass. fold u. rewrite Es. unfold ice_left. rewrite <- Uc. field. lra.
  - unfold ice_left. fold u in Lmass. rewrite Es in Lmass. unfold M in Lmass. rewrite E0 in Lmass. rewrite Ech in Lmass. unfold M in Lmass. rewrite E0 in Lmass.
    rewrite <- Uc. set (X := Rsum _ th) in *. set (Y := Rsum (fun h => Rmax 0 (h - 0)) th) in *.
    assert (Q : X * u = (1 - INR r / INR n) * (Y * u)). { apply Rmult_eq_reg_l with k; [|lra]. transitivity (k * X * u); [ring|]. rewrite Lmass. field. lra. }
    transitivity (g_catchment g * (X * u)); [ring|]. rewrite Q. ring.
Qed.
End Column.

(** *** The table *)
Lemma as_table_ok g n name units : raster g -> (0 < n)%nat -> glaciers units ->
  exists T, as_table g n name units = Ok T /\ gt_rows T = S n /\ gt_units T = map fst units /\ gt_cover T = name /\
  forall i, (i < length units)%nat -> let th := thickness_of units i in
    gt_area T n i = 0 /\ gt_volume T n i = 0 /\
    exists lam, lam 0%nat = 0 /\ (forall r, (S r < n)%nat -> lam r <= lam (S r)) /\
      forall r, (r < n)%nat ->
        gt_area T r i = extent_left (g_px g) th (lam r) /\ gt_volume T r i = ice_left (g_px g) th (lam r) /\
        gt_volume T r i = (1 - INR r / INR n) * gt_volume T 0 i.
Proof.
  intros Hg Hn Hu.
  assert (C : forall u, In u units -> exists l, as_column g n (snd u) = Ok l).
  { intros u Hin. destruct (Hu u Hin) as (A & B). destruct (column_ok g Hg (snd u) A B n Hn) as (l & E & _). eauto. }
  destruct (outcomes_nth (fun u => as_column g n (snd u)) units C) as (cols & Ec & Lc & Nc).
  unfold as_table. rewrite Ec. cbn [bind]. eexists. split; [reflexivity|]. cbn [gt_rows gt_units gt_cover gt_area gt_volume].
  split; [reflexivity|]. split; [reflexivity|]. split; [reflexivity|].
  intros i Hi. set (th := thickness_of units i). specialize (Nc i (0%nat, []) [] Hi). change (snd (nth i units (0%nat, []))) with th in Nc.
  assert (Hin : In (nth i units (0%nat, [])) units) by (apply nth_In; exact Hi). destruct (Hu _ Hin) as (A & B).
  destruct (column_ok g Hg th A B n Hn) as (l & E & Ll & Z & lam & L0 & Lm & Lr). rewrite E in Nc. injection Nc as El.
  unfold as_cell_at. rewrite <- El. rewrite Z. cbn [ac_area ac_we]. split; [ring|]. split; [unfold Rdiv; ring|].
  exists lam. split; [exact L0|]. split; [exact Lm|]. intros r Hr. destruct (Lr r (mkAC 0 0 []) Hr) as (R1 & R2 & R3). split; [exact R1|]. split; [exact R2|].
  rewrite R2. destruct (Lr 0%nat (mkAC 0 0 []) Hn) as (_ & Q & _). rewrite Q, L0. exact R3.
Qed.

Lemma extent_bounds px th d : 0 < px -> 0 < ice_left px th d -> exists c, (1 <= c <= length th)%nat /\ extent_left px th d = INR c * px.
Proof.
  intros Hp Hi. exists (length (filter (fun h => Rltb d h) th)). split; [|unfold extent_left; ring].
  split.
  - destruct (filter (fun h => Rltb d h) th) eqn:E; [exfalso|cbn; lia].
    assert (Z : Rsum (fun h => Rmax 0 (h - d)) th = 0).
    { apply Rsum_zero. intros h Hh. rewrite Rmax_left; [reflexivity|]. destruct (Rltb d h) eqn:X; [|apply Rltb_false in X; lra].
      assert (In h (filter (fun h => Rltb d h) th)) by (apply filter_In; auto). rewrite E in H. contradiction. }
    unfold ice_left in Hi. rewrite Z in Hi. lra.
  - clear. induction th as [|h th IH]; [cbn; lia|]. cbn [filter]. destruct (Rltb d h); cbn [length]; lia.
Qed.
Lemma start_ice px th : 0 < px -> th <> [] -> (forall h, In h th -> 0 < h) -> 0 < ice_left px th 0.
Proof.
  intros Hp Hn Hh. unfold ice_left. apply Rmult_lt_0_compat; [exact Hp|]. destruct th as [|h t]; [congruence|]. cbn [Rsum].
  assert (0 <= Rsum (fun h => Rmax 0 (h - 0)) t) by (apply Rsum_nonneg; intros; apply Rmax_l).
  specialize (Hh h (or_introl eq_refl)). rewrite Rmax_right by lra. lra.
Qed.

Section Action.
Variables (g : grid) (n : nat) (name : string) (units : list (nat * list R)) (T : gtable).
Hypothesis Hg : raster g.
Hypothesis Hn : (0 < n)%nat.
Hypothesis Hu : glaciers units.
Hypothesis HT : as_table g n name units = Ok T.

Lemma table_facts : gt_rows T = S n /\ gt_units T = map fst units /\ gt_cover T = name /\
  forall i, (i < length units)%nat -> gt_area T n i = 0 /\ gt_volume T n i = 0 /\ 0 < gt_volume T 0 i /\
    forall r, (r < n)%nat -> gt_volume T r i = (1 - INR r / INR n) * gt_volume T 0 i /\ 0 < gt_volume T r i /\
      exists c, (1 <= c <= length (thickness_of units i))%nat /\ gt_area T r i = INR c * g_px g.
Proof.
  destruct (as_table_ok g n name units Hg Hn Hu) as (T' & E & A & B & C & D). rewrite HT in E. injection E as <-.
  split; [exact A|]. split; [exact B|]. split; [exact C|]. intros i Hi. destruct (D i Hi) as (D1 & D2 & lam & L0 & _ & Lr). cbn zeta in *.
  assert (Hin : In (nth i units (0%nat, [])) units) by (apply nth_In; exact Hi). destruct (Hu _ Hin) as (U1 & U2). destruct Hg as (G1 & G2).
  fold (thickness_of units i) in U1, U2.
  assert (V0 : 0 < gt_volume T 0 i). { destruct (Lr 0%nat Hn) as (_ & Q & _). rewrite Q, L0. apply start_ice; assumption. }
  split; [exact D1|]. split; [exact D2|]. split; [exact V0|]. intros r Hr. destruct (Lr r Hr) as (R1 & R2 & R3). split; [exact R3|].
  assert (Np : 0 < INR n) by (apply lt_0_INR; exact Hn). assert (Rn : INR r < INR n) by (apply lt_INR; exact Hr).
  assert (V : 0 < gt_volume T r i).
  { rewrite R3. apply Rmult_lt_0_compat; [|exact V0]. assert (INR r / INR n < 1); [|lra]. apply Rmult_lt_reg_r with (INR n); [exact Np|]. unfold Rdiv. rewrite Rmult_assoc, Rinv_l by lra. lra. }
  split; [exact V|]. rewrite R1. apply extent_bounds; [exact G1|]. rewrite <- R2. exact V.
Qed.

Lemma columns_length : columns T = seq 0 (length units).
Proof. destruct table_facts as (_ & B & _). unfold columns. rewrite B, map_length. reflexivity. Qed.
Lemma unit_of_fst i : unit_of T i = fst (nth i units (0%nat, [])).
Proof. destruct table_facts as (_ & B & _). unfold unit_of. rewrite B. change 0%nat with (fst (0%nat, @nil R)) at 1. apply map_nth. Qed.

Lemma made_suits b i : units_of_pixels g units b -> In i (columns T) -> column_suits T b i.
Proof.
  intros (Hp & Hb) Hi. rewrite columns_length in Hi. apply in_seq in Hi. destruct table_facts as (A & _ & _ & D).
  assert (Hin : In (nth i units (0%nat, [])) units) by (apply nth_In; lia). destruct (Hb _ Hin) as (N & N1 & N2 & N3). rewrite <- unit_of_fst in N3.
  destruct (D i ltac:(lia)) as (D1 & D2 & D3 & D4). destruct Hg as (G1 & G2).
  unfold column_suits. rewrite A, N3. split; [lia|]. split; [exact D3|].
  assert (L : forall r, (r < n)%nat -> PRECISION < gt_area T r i).
  { intros r Hr. destruct (D4 r Hr) as (_ & _ & c & Hc & ->). assert (1 <= INR c) by (apply (le_INR 1); lia).
    assert (1 * g_px g <= INR c * g_px g) by (apply Rmult_le_compat_r; lra). lra. }
  split.
  - intros r [Hr | ->]; apply L; lia.
  - intros r Hr. destruct (Nat.eq_dec r n) as [->|Hne]; [left; exact D1|right]. destruct (D4 r ltac:(lia)) as (_ & _ & c & Hc & ->).
    change (length (thickness_of units i)) with (length (snd (nth i units (0%nat, [])))) in Hc.
    destruct (Nat.eq_dec c N) as [->|Hd]; [left; reflexivity|right].
    assert (Np : 0 < INR N) by (apply lt_0_INR; lia).
    replace (INR c * g_px g / (INR N * g_px g)) with (INR c / INR N) by (field; split; lra).
    assert (P8 : PRECISION * 100000000 = 1) by (unfold PRECISION; field).
    assert (Pp : 0 < PRECISION) by apply PRECISION_pos.
    assert (PN : PRECISION * INR N < 1) by (rewrite <- P8; apply Rmult_lt_compat_l; assumption).
    assert (C1 : 1 <= INR c) by (apply (le_INR 1); lia). assert (C2 : INR c <= INR N - 1).
    { replace (INR N - 1) with (INR (N - 1)) by (rewrite minus_INR by lia; reflexivity). apply le_INR. lia. }
    split; apply Rmult_lt_reg_r with (INR N); try exact Np; unfold Rdiv; rewrite Rmult_assoc, Rinv_l by lra; lra.
Qed.
End Action.

(** Setting a cover to nothing leaves its ice or takes all of it. *)
Lemma change_zero_ice u nm ok u' c : change_fraction u nm 0 = (ok, u') -> find_cover u nm = Some c -> generic_cover u <> Some c ->
  0 <= cv_fraction (hu_cover u c) ->
  slot_depth (hu_cover u' c) SelfIce = slot_depth (hu_cover u c) SelfIce \/ slot_depth (hu_cover u' c) SelfIce = 0.
Proof.
  intros H F G Hf. unfold change_fraction in H. rewrite (proj2 (Rltb_false 0 0)) in H by lra. rewrite (proj2 (Rltb_false 1 0)) in H by lra. cbn [orb] in H. rewrite F in H.
  assert (Hd : forall v, same_names u v -> fix_total (put_cover v c (set_fraction 0 (hu_cover v c))) = (ok, u') ->
    slot_depth (hu_cover u' c) SelfIce = slot_depth (hu_cover v c) SelfIce).
  { intros v Nv E. destruct (fix_effect _ _ _ E) as (_ & _ & X). rewrite X.
    - cbn [put_cover hu_cover]. rewrite upd_same. reflexivity.
    - rewrite <- (generic_same u). { exact G. }
      eapply same_names_trans; [exact Nv|apply same_names_put; reflexivity]. }
  destruct (generic_cover u) as [gc|] eqn:Eg; [|left; apply (Hd u (same_names_refl u)); exact H].
  destruct (negb (gc =? c)%nat && (1 <? hu_count u)%nat) eqn:En; [|left; apply (Hd u (same_names_refl u)); exact H].
  destruct (LessThan _ _ _); [injection H as _ <-; left; reflexivity|].
  apply Hd in H; [|apply transfer_names]. rewrite H.
  assert (Nc : c <> gc) by (intros ->; apply G; reflexivity).
  unfold transfer. destruct (NearlyZero _ _); [left; reflexivity|]. rewrite (proj2 (Rltb_false _ _)) by lra.
  unfold move_strip. destruct (NearlyZero _ EPSILON_D); [left; reflexivity|]. destruct (NearlyZero 0 EPSILON_D); cbn [put_cover hu_cover].
  - right. rewrite upd_same. unfold slot_depth, cleared, set_slot. cbn [cv_slot]. destruct (cv_slot (hu_cover u c) SelfIce); reflexivity.
  - left. rewrite upd_other by exact Nc. reflexivity.
Qed.

Section Run.
Variable T : gtable.
Let name := gt_cover T.
Lemma scaling_unit_sane i b b' : gready b name (unit_of T i) -> column_suits T b i ->
  let id := unit_of T i in
  0 <= g_ice b name id -> g_fraction b name id = 0 \/ PRECISION < g_fraction b name id <= 1 ->
  scaling_unit T i b = Ok b' ->
  0 <= g_ice b' name id /\ (g_fraction b' name id = 0 \/ PRECISION < g_fraction b' name id <= 1).
Proof.
  intros Hr Hs id Hi Hf H. pose proof PRECISION_pos as HP. pose proof PREC_half as HH.
  pose proof (scaling_unit_effect T i b b' Hr Hs Hi Hf H) as X0. cbn zeta in X0. fold id in X0. change (gt_cover T) with name in X0. destruct X0 as (_ & _ & Ar & V1 & V2 & Fc).
  assert (Hfp : 0 <= g_fraction b name id) by (destruct Hf; lra).
  destruct Hs as (N0 & V0 & HA & HF). cbn zeta in HF. fold id in HF. fold id in Hr. pose proof Hr as (Ha & c & Fn & Gc & Sc).
  assert (F' : g_fraction b' name id = 0 \/ PRECISION < g_fraction b' name id <= 1).
  { destruct Fc as [E|[E|(r & R1 & E)]]; [rewrite E; exact Hf|left; exact E|].
    destruct (HF r R1) as [Z|[Z|Z]]; rewrite <- E in Z.
    - left. apply Rmult_integral in Z. destruct Z; lra.
    - right. assert (g_fraction b' name id = 1) by (apply Rmult_eq_reg_r with (gu_area (b id)); lra). lra.
    - right. replace (g_fraction b' name id * gu_area (b id) / gu_area (b id)) with (g_fraction b' name id) in Z by (field; lra). lra. }
  split; [|exact F'].
  unfold scaling_unit in H. fold id name in H. rewrite Fn in H.
  destruct (NearlyZero (cv_fraction _) PRECISION); [injection H as <-; exact Hi|].
  destruct (NearlyZero _ PRECISION) eqn:Nz.
  - injection H as <-. destruct (change_fraction (gu_covers (b id)) name 0) as [ok u'] eqn:E. cbn [snd].
    assert (X : g_ice (upd b id (mkGU (gu_area (b id)) u')) name id = g_ice b name id \/ g_ice (upd b id (mkGU (gu_area (b id)) u')) name id = 0).
    { assert (Nn : u' = gu_covers (b id) \/ same_names (gu_covers (b id)) u').
      { destruct ok; [right; apply (change_effect _ _ _ _ _ E Fn Gc)|]. destruct (change_false _ _ _ _ _ E Fn Gc) as [->|(Q & _)]; auto. }
      assert (F2 : find_cover u' name = Some c) by (destruct Nn as [->|Nn]; [exact Fn|rewrite <- Fn; symmetry; apply find_cover_same; exact Nn]).
      unfold g_ice. rewrite upd_same. cbn [gu_covers]. rewrite F2, Fn. apply (change_zero_ice _ _ _ _ _ E Fn Gc).
      unfold g_fraction in Hfp. rewrite Fn in Hfp. exact Hfp. }
    destruct X as [->| ->]; lra.
  - set (vol := cv_fraction _ * _ * _) in *.
    destruct (negb _); [discriminate|]. apply bind_ok in H. destruct H as (f & _ & H). apply bind_ok in H. destruct H as (b1 & H1 & H).
    destruct (Reqb _ 0) eqn:E0; [discriminate|]. apply Reqb_false in E0.
    destruct (change_in_effect _ _ _ _ _ Hr H1) as (_ & Rd & _ & _).
    assert (F1 : find_cover (gu_covers (b1 id)) name = Some c).
    { unfold change_in in H1. destruct (change_fraction _ _ _) as [ok u] eqn:E. destruct ok; [|discriminate]. injection H1 as <-.
      rewrite upd_same. cbn [gu_covers]. rewrite <- Fn. symmetry. apply find_cover_same. eapply change_effect; [exact E|exact Fn|exact Gc]. }
    destruct (set_ice_effect _ _ _ _ _ _ Rd F1 H) as (_ & _ & _ & _ & ->).
    assert (Vp : 0 <= vol). { assert (Q : vol = g_volume b name id) by (unfold vol, g_volume, g_fraction, g_ice, ice_depth; rewrite Fn; reflexivity). rewrite Q.
      unfold g_volume. apply Rmult_le_pos; [apply Rmult_le_pos; lra|exact Hi]. }
    set (r := table_row _ _ _) in *. apply Rmult_le_pos; [exact Vp|]. apply Rlt_le, Rinv_0_lt_compat.
    destruct (table_row_spec T (gt_volume T 0 i * iceDensity) vol) as (R1 & _); [unfold iceDensity; lra|exact Vp|exact N0|]. fold r in R1.
    destruct (HF r R1) as [Z|[Z|Z]]; [contradiction|rewrite Z; exact Ha|]. apply Rmult_lt_reg_r with (/ gu_area (b id)); [apply Rinv_0_lt_compat; exact Ha|]. unfold Rdiv in Z. lra.
Qed.

Lemma scaling_unit_safe i b : gready b name (unit_of T i) -> column_suits T b i ->
  let id := unit_of T i in 0 <= g_ice b name id -> g_fraction b name id = 0 \/ PRECISION < g_fraction b name id <= 1 -> scaling_unit T i b <> UB.
Proof.
  intros Hr (N0 & V0 & HA & HF) id Hi Hf. pose proof PRECISION_pos as HP. fold id in Hr. pose proof Hr as (Ha & c & Fn & Gc & Sc).
  unfold scaling_unit. fold id name. rewrite Fn. destruct (NearlyZero (cv_fraction _) PRECISION); [discriminate|].
  set (vol := cv_fraction _ * _ * _). destruct (NearlyZero vol PRECISION) eqn:Nz; [discriminate|].
  assert (Hv : vol = g_volume b name id) by (unfold vol, g_volume, g_fraction, g_ice, ice_depth; rewrite Fn; reflexivity).
  assert (Vp : 0 <= vol) by (rewrite Hv; unfold g_volume; apply Rmult_le_pos; [apply Rmult_le_pos; destruct Hf; lra|exact Hi]).
  assert (Vz : vol <> 0). { intro Z. unfold NearlyZero in Nz. apply Rleb_false in Nz. rewrite Z, Rabs_R0 in Nz. lra. }
  set (r := table_row _ _ _).
  destruct (table_row_spec T (gt_volume T 0 i * iceDensity) vol) as (R1 & R2); [unfold iceDensity; lra|exact Vp|exact N0|]. fold r in R1, R2.
  unfold row_in_table. destruct (Nat.ltb_spec r (gt_rows T)); [|lia]. cbn [negb].
  assert (Har : PRECISION < gt_area T r i).
  { apply HA. destruct (Nat.eq_dec (S r) (gt_rows T)) as [E|E]; [|left; lia]. right. destruct (Nat.eq_dec (gt_rows T) 1); [lia|]. specialize (R2 ltac:(lia) E). lra. }
  assert (Ck : check_fraction (gt_area T r i / gu_area (b id)) <> UB).
  { unfold check_fraction. destruct (NearlyZero (gt_area T r i / gu_area (b id)) PRECISION); [discriminate|].
    destruct (NearlyEqual 1 (gt_area T r i / gu_area (b id)) PRECISION); [discriminate|]. destruct (Rltb _ 0 || Rltb 1 _)%bool; discriminate. }
  destruct (check_fraction _) as [f| |]; cbn [bind]; [|discriminate|congruence].
  unfold change_in; destruct (change_fraction _ _ _) as [[|] u']; cbn [bind]; [|discriminate].
  replace (Reqb (gt_area T r i) 0) with false by (symmetry; apply Reqb_false; lra). unfold set_ice. match goal with |- match ?x with _ => _ end <> UB => destruct x end; discriminate.
Qed.

(** What holds in each unit of a run. *)
Definition unit_fine (b : gbasin) (i : nat) : Prop :=
  let id := unit_of T i in gready b name id /\ column_suits T b i /\ 0 <= g_ice b name id /\ (g_fraction b name id = 0 \/ PRECISION < g_fraction b name id <= 1).
Lemma unit_fine_eq b b' i : b' (unit_of T i) = b (unit_of T i) -> unit_fine b i -> unit_fine b' i.
Proof.
  intros E (A & B & C & D). unfold unit_fine. split; [apply (ready_eq T b b'); assumption|]. unfold column_suits, g_ice, g_fraction in *. rewrite E. auto.
Qed.
Lemma scaling_apply_fine : forall cols b, NoDup (map (unit_of T) cols) -> (forall i, In i cols -> unit_fine b i) ->
  scaling_apply T cols b <> UB /\
  forall b', scaling_apply T cols b = Ok b' -> (forall i, In i cols -> unit_fine b' i) /\ (forall id, ~ In id (map (unit_of T) cols) -> b' id = b id).
Proof.
  induction cols as [|i l IH]; intros b Nd Hf; cbn [scaling_apply].
  - split; [discriminate|]. intros b' H. injection H as <-. split; [intros i []|auto].
  - inversion Nd as [|x y Hnot Nd']; subst. destruct (Hf i (or_introl eq_refl)) as (A1 & A2 & A3 & A4).
    pose proof (scaling_unit_safe i b A1 A2 A3 A4) as Su. destruct (scaling_unit T i b) as [b1| |] eqn:E; cbn [bind]; [|split; discriminate|congruence].
    destruct (scaling_unit_effect T i b b1 A1 A2 A3 A4 E) as (O & Rd & Ar & _). pose proof (scaling_unit_sane i b b1 A1 A2 A3 A4 E) as (S1 & S2).
    assert (E1 : forall j, In j l -> b1 (unit_of T j) = b (unit_of T j)).
    { intros j Hj. apply O. intros Ej. apply Hnot. rewrite <- Ej. apply in_map. exact Hj. }
    destruct (IH b1 Nd') as (I1 & I2).
    { intros j Hj. apply (unit_fine_eq b b1); [apply E1; exact Hj|apply Hf; right; exact Hj]. }
    split; [exact I1|]. intros b' H. destruct (I2 b' H) as (J1 & J2). split.
    + intros j [<-|Hj]; [|apply J1; exact Hj]. apply (unit_fine_eq b1 b'); [apply J2; exact Hnot|].
      split; [exact Rd|]. split; [|split; [exact S1|exact S2]]. unfold column_suits in *. rewrite Ar. exact A2.
    + intros id Hid. cbn in Hid. rewrite J2 by tauto. apply O. intros ->. tauto.
Qed.

(** The row that is applied. *)
Lemma scaling_unit_row i b b' : gready b name (unit_of T i) -> column_suits T b i ->
  let id := unit_of T i in
  0 <= g_ice b name id -> PRECISION < g_fraction b name id <= 1 -> PRECISION < g_volume b name id ->
  scaling_unit T i b = Ok b' ->
  g_fraction b' name id * gu_area (b id) = gt_area T (table_row T (gt_volume T 0 i * iceDensity) (g_volume b name id)) i.
Proof.
  intros Hr (N0 & V0 & HA & HF) id Hi Hf Hv H. cbn zeta in HF. fold id in HF, Hr. pose proof PRECISION_pos as HP. unfold scaling_unit in H. fold id name in H.
  pose proof Hr as (Ha & c & Fc & Gc & Sc). rewrite Fc in H.
  assert (Ef : g_fraction b name id = cv_fraction (hu_cover (gu_covers (b id)) c)) by (unfold g_fraction; rewrite Fc; reflexivity).
  assert (Ei : g_ice b name id = ice_depth (hu_cover (gu_covers (b id)) c)) by (unfold g_ice; rewrite Fc; reflexivity).
  rewrite <- Ef, <- Ei in H. fold (g_volume b name id) in H. set (vol := g_volume b name id) in *.
  destruct (NearlyZero_spec (g_fraction b name id) PRECISION) as [Z|Z]; [rewrite Rabs_right in Z by lra; lra|].
  destruct (NearlyZero_spec vol PRECISION) as [Zv|Zv]; [rewrite Rabs_right in Zv by lra; lra|].
  set (r := table_row T (gt_volume T 0 i * iceDensity) vol) in *.
  destruct (table_row_spec T (gt_volume T 0 i * iceDensity) vol) as (R1 & R2); [unfold iceDensity; lra|lra|exact N0|]. fold r in R1, R2.
  unfold row_in_table in H. destruct (Nat.ltb_spec r (gt_rows T)); [|lia]. cbn [negb] in H.
  assert (Har : PRECISION < gt_area T r i).
  { apply HA. destruct (Nat.eq_dec (S r) (gt_rows T)) as [E|E]; [|left; lia]. right. destruct (Nat.eq_dec (gt_rows T) 1); [lia|].
    specialize (R2 ltac:(lia) E). lra. }
  apply bind_ok in H. destruct H as (f & Hcf & H). apply bind_ok in H. destruct H as (b1 & H1 & H).
  destruct (Reqb (gt_area T r i) 0) eqn:E0; [discriminate|].
  destruct (change_in_effect _ _ _ _ _ Hr H1) as (O & Rd & Ar & Fr).
  assert (F1 : find_cover (gu_covers (b1 id)) name = Some c).
  { unfold change_in in H1. destruct (change_fraction _ _ _) as [ok u] eqn:E. destruct ok; [|discriminate]. injection H1 as <-.
    rewrite upd_same. cbn [gu_covers]. rewrite <- Fc. symmetry. apply find_cover_same. eapply change_effect; [exact E|exact Fc|exact Gc]. }
  destruct (set_ice_effect _ _ _ _ _ _ Rd F1 H) as (O2 & Rd2 & Ar2 & Fr2 & Ic). rewrite Fr2, Fr.
  apply check_fraction_cases in Hcf. set (t := gt_area T r i) in *. set (A := gu_area (b id)) in *. pose proof PREC_half.
  destruct (HF r R1) as [E|[E|E]]; fold t A in E.
  - lra.
  - assert (X : t / A = 1) by (rewrite E; field; lra). rewrite X in Hcf.
    replace (1 - 1) with 0 in Hcf by ring. rewrite Rabs_R0, Rabs_R1 in Hcf.
    destruct Hcf as [(_ & Q)|[(-> & _)|(_ & _ & _ & Q)]]; lra.
  - destruct Hcf as [(_ & Q)|[(_ & Q & _)|(-> & Q & _)]].
    + apply Rabs_bounds in Q. lra.
    + apply Rabs_bounds in Q. lra.
    + field; lra.
Qed.
Lemma scaling_apply_rows : forall cols b b', NoDup (map (unit_of T) cols) -> (forall i, In i cols -> unit_fine b i) ->
  scaling_apply T cols b = Ok b' ->
  forall i, In i cols -> let id := unit_of T i in PRECISION < g_fraction b name id -> PRECISION < g_volume b name id ->
    g_fraction b' name id * gu_area (b id) = gt_area T (table_row T (gt_volume T 0 i * iceDensity) (g_volume b name id)) i.
Proof.
  induction cols as [|i l IH]; intros b b' Nd Hf H; cbn [scaling_apply] in H; [intros i []|].
  inversion Nd as [|x y Hnot Nd']; subst. apply bind_ok in H. destruct H as (b1 & H1 & H).
  destruct (Hf i (or_introl eq_refl)) as (A1 & A2 & A3 & A4).
  pose proof (scaling_unit_effect T i b b1 A1 A2 A3 A4 H1) as (O & Rd & Ar & _). cbn zeta in *.
  assert (E1 : forall j, In j l -> b1 (unit_of T j) = b (unit_of T j)).
  { intros j Hj. apply O. intros E. apply Hnot. rewrite <- E. apply in_map. exact Hj. }
  assert (F1 : forall j, In j l -> unit_fine b1 j).
  { intros j Hj. apply (unit_fine_eq b b1); [apply E1; exact Hj|apply Hf; right; exact Hj]. }
  destruct (scaling_apply_fine l b1 Nd' F1) as (_ & K). destruct (K b' H) as (_ & K2).
  intros j [<-|Hj] Hfr Hvol.
  - assert (E : b' (unit_of T i) = b1 (unit_of T i)) by (apply K2; exact Hnot).
    pose proof (scaling_unit_row i b b1 A1 A2 A3) as Q. cbn zeta in Q. pose proof PRECISION_pos. specialize (Q ltac:(destruct A4; lra) Hvol H1).
    unfold g_fraction at 1. rewrite E. exact Q.
  - specialize (IH b1 b' Nd' F1 H j Hj). cbn zeta in IH. unfold g_volume, g_fraction, g_ice in *. rewrite (E1 j Hj) in IH. exact (IH Hfr Hvol).
Qed.
Lemma table_row_bracket V0 V n : 0 < V0 -> 0 < V <= V0 -> gt_rows T = S n -> (0 < n)%nat ->
  let r := table_row T V0 V in (r < n)%nat /\ (1 - INR (S r) / INR n) * V0 < V <= (1 - INR r / INR n) * V0.
Proof.
  intros H0 HV HR Hn r. assert (Np : 0 < INR n) by (apply lt_0_INR; exact Hn).
  assert (Q : INR r <= (V0 - V) / V0 * INR n < INR r + 1).
  { unfold r, table_row. rewrite HR. destruct (Nat.eqb_spec (S n) 1); [lia|]. replace (Reqb V0 0) with false by (symmetry; apply Reqb_false; lra).
    assert (P : 0 <= (V0 - V) / V0) by (apply Rmult_le_pos; [lra|apply Rlt_le, Rinv_0_lt_compat; lra]).
    rewrite Rmax_right by exact P. rewrite S_INR. replace (INR n + 1 - 1) with (INR n) by ring.
    replace ((V0 - V) / V0 / (1 / INR n)) with ((V0 - V) / V0 * INR n) by (field; lra).
    apply trunc_spec. apply Rmult_le_pos; lra. }
  assert (E : V = (1 - (V0 - V) / V0 * INR n / INR n) * V0) by (field; lra). set (x := (V0 - V) / V0 * INR n) in *.
  assert (Xn : x < INR n). { unfold x. rewrite <- (Rmult_1_l (INR n)) at 2. apply Rmult_lt_compat_r; [exact Np|]. apply Rmult_lt_reg_r with V0; [exact H0|]. unfold Rdiv. rewrite Rmult_assoc, Rinv_l by lra. lra. }
  split; [apply INR_lt; lra|].
  assert (I : 0 < / INR n) by (apply Rinv_0_lt_compat; exact Np). rewrite S_INR.
  split; rewrite E at 1.
  - apply Rmult_lt_compat_r; [exact H0|]. assert (x / INR n < (INR r + 1) / INR n); [|lra]. unfold Rdiv. apply Rmult_lt_compat_r; lra.
  - apply Rmult_le_compat_r; [lra|]. assert (INR r / INR n <= x / INR n); [|lra]. unfold Rdiv. apply Rmult_le_compat_r; lra.
Qed.
End Run.

Lemma scaling_run_inv g n name units T : raster g -> (0 < n)%nat -> glaciers units -> as_table g n name units = Ok T ->
  forall b, scaling_run g units T b -> NoDup (gt_units T) /\ units_of_pixels g units b /\ forall i, In i (columns T) -> unit_fine T b i.
Proof.
  intros Hg Hn Hu HT. induction 1 as [b Hp (Nd & Hr) Hs|b b' Hrun IH Hch (Nd & Hr) Hs|b b' Hrun IH Ha].
  - split; [exact Nd|]. split; [exact Hp|]. intros i Hi. unfold unit_fine. cbn zeta. split; [apply Hr; exact Hi|].
    split; [apply (made_suits g n name units T Hg Hn Hu HT); assumption|]. apply (Hs i Hi).
  - destruct IH as (_ & I1 & I2).
    assert (P : units_of_pixels g units b').
    { destruct I1 as (P1 & P2). split; [exact P1|]. intros u Hin. destruct (P2 u Hin) as (N & A & B & C). exists N. split; [exact A|]. split; [exact B|].
      rewrite <- C. destruct (In_nth units u (0%nat, []) Hin) as (i & Hi & Ei).
      assert (Ci : In i (columns T)) by (rewrite (columns_length g n name units T Hg Hn Hu HT); apply in_seq; lia).
      pose proof (Hch i Ci) as (Q & _). cbn zeta in Q. rewrite (unit_of_fst g n name units T Hg Hn Hu HT), Ei in Q. exact Q. }
    split; [exact Nd|]. split; [exact P|]. intros i Hi. unfold unit_fine. cbn zeta. split; [apply Hr; exact Hi|].
    split; [apply (made_suits g n name units T Hg Hn Hu HT); assumption|]. apply (Hs i Hi).
  - destruct IH as (Nd & I1 & I2).
    destruct (scaling_apply_fine T (columns T) b) as (_ & K); [rewrite columns_units; exact Nd|exact I2|]. destruct (K b' Ha) as (K1 & K2).
    split; [exact Nd|]. split; [|exact K1].
    destruct I1 as (P1 & P2). split; [exact P1|]. intros u Hin. destruct (P2 u Hin) as (N & A & B & C). exists N. split; [exact A|]. split; [exact B|].
    rewrite <- C. destruct (In_nth units u (0%nat, []) Hin) as (i & Hi & Ei).
    assert (Ci : In i (columns T)) by (rewrite (columns_length g n name units T Hg Hn Hu HT); apply in_seq; lia).
    assert (Ej : fst u = unit_of T i) by (rewrite (unit_of_fst g n name units T Hg Hn Hu HT), Ei; reflexivity).
    rewrite Ej. clear - Nd I2 Ha Ci.
    assert (G : forall cols b b', NoDup (map (unit_of T) cols) -> (forall i, In i cols -> unit_fine T b i) -> scaling_apply T cols b = Ok b' ->
      forall id, gu_area (b' id) = gu_area (b id)).
    { clear. induction cols as [|i l IH]; intros b b' Nd Hf H id; cbn [scaling_apply] in H; [injection H as <-; reflexivity|].
      inversion Nd as [|x y Hnot Nd']; subst. apply bind_ok in H. destruct H as (b1 & H1 & H). destruct (Hf i (or_introl eq_refl)) as (A1 & A2 & A3 & A4).
      pose proof (scaling_unit_effect T i b b1 A1 A2 A3 A4 H1) as (O & _ & Ar & _). cbn zeta in *.
      rewrite (IH b1 b' Nd'); [|intros j Hj; apply (unit_fine_eq T b b1); [apply O; intros Ej; apply Hnot; rewrite <- Ej; apply in_map; exact Hj|apply Hf; right; exact Hj]|exact H].
      destruct (Nat.eq_dec id (unit_of T i)) as [->|Hne]; [exact Ar|rewrite O by exact Hne; reflexivity]. }
    apply (G (columns T) b b'); [rewrite columns_units; exact Nd|exact I2|exact Ha].
Qed.

(** The action is accepted when there is room. *)
Lemma scaling_unit_accepts T i b : let id := unit_of T i in let u := gu_covers (b id) in
  unit_fine T b i -> (forall r, (r < gt_rows T)%nat -> gt_area T r i <= gt_area T 0 i) ->
  fractions_ok u -> total_fraction u <= 1 ->
  (exists c gc, find_cover u (gt_cover T) = Some c /\ generic_cover u = Some gc /\
     gt_area T 0 i <= (cv_fraction (hu_cover u c) + cv_fraction (hu_cover u gc)) * gu_area (b id)) ->
  exists b', scaling_unit T i b = Ok b'.
Proof.
  intros id u (Hr & Hs & Hi & Hf) Hm Fo Ft (c & gc & Fc & Gg & Hroom). pose proof (scaling_unit_safe T i b Hr Hs Hi Hf) as Su.
  destruct (scaling_unit T i b) as [b'| |] eqn:E; [eauto| |congruence]. exfalso. clear Su.
  destruct Hs as (N0 & V0 & HA & HF). cbn zeta in HF. unfold scaling_unit in E. fold id u in E, HF. rewrite Fc in E. pose proof PRECISION_pos as HP. pose proof PREC_half as HH.
  fold id in Hr. destruct Hr as (Ha & c' & Fc' & Gc & Sc). fold u in Fc', Gc, Sc. rewrite Fc in Fc'. injection Fc' as <-.
  destruct (NearlyZero (cv_fraction _) PRECISION); [discriminate|]. set (vol := cv_fraction _ * _ * _) in *. destruct (NearlyZero vol PRECISION) eqn:Nz; [discriminate|].
  assert (Hv : vol = g_volume b (gt_cover T) id) by (unfold vol, g_volume, g_fraction, g_ice, ice_depth; fold u; rewrite Fc; reflexivity).
  assert (Vp : 0 <= vol) by (rewrite Hv; unfold g_volume; apply Rmult_le_pos; [apply Rmult_le_pos; [fold id in Hf; destruct Hf; lra|lra]|exact Hi]).
  set (r := table_row _ _ _) in *.
  destruct (table_row_spec T (gt_volume T 0 i * iceDensity) vol) as (R1 & _); [unfold iceDensity; lra|exact Vp|exact N0|]. fold r in R1.
  destruct (negb _); [discriminate|]. set (A := gu_area (b id)) in *.
  assert (Rf : 0 <= gt_area T r i / A <= 1).
  { destruct (HF r R1) as [Z|[Z|Z]]; fold A in Z; [rewrite Z; unfold Rdiv; rewrite Rmult_0_l; lra|rewrite Z; unfold Rdiv; rewrite Rinv_r by lra; lra|lra]. }
  assert (Ck : exists f, check_fraction (gt_area T r i / A) = Ok f /\ f = gt_area T r i / A).
  { unfold check_fraction. destruct (NearlyZero_spec (gt_area T r i / A) PRECISION) as [Z|Z].
    - exists 0. split; [reflexivity|]. rewrite Rabs_right in Z by lra. destruct (HF r R1) as [Q|[Q|Q]]; fold A in Q; [rewrite Q; unfold Rdiv; ring| |lra].
      rewrite Q in Z. unfold Rdiv in Z. rewrite Rinv_r in Z by lra. lra.
    - destruct (NearlyEqual_spec 1 (gt_area T r i / A) PRECISION) as [Y|Y].
      + exists 1. split; [reflexivity|]. apply Rabs_bounds in Y. destruct (HF r R1) as [Q|[Q|Q]]; fold A in Q; [rewrite Q in Y; unfold Rdiv in Y; lra| |lra].
        rewrite Q. unfold Rdiv. rewrite Rinv_r by lra. reflexivity.
      + exists (gt_area T r i / A). split; [|reflexivity].
        assert (L1 : Rltb (gt_area T r i / A) 0 = false) by (apply Rltb_false; lra). assert (L2 : Rltb 1 (gt_area T r i / A) = false) by (apply Rltb_false; lra).
        rewrite L1, L2. reflexivity. }
  destruct Ck as (f & Ef & Ev). rewrite Ef in E. cbn [bind] in E.
  assert (Gne : gc <> c) by (intros ->; apply Gc; exact Gg).
  destruct (change_accepted u (gt_cover T) f c gc Fo Ft Fc Gg Gne) as (u' & Hu).
  { rewrite Ev. exact Rf. }
  { rewrite Ev. specialize (Hm r R1). assert (gt_area T r i / A <= cv_fraction (hu_cover u c) + cv_fraction (hu_cover u gc)); [|lra].
    apply Rmult_le_reg_r with A; [exact Ha|]. unfold Rdiv. rewrite Rmult_assoc, Rinv_l by lra. lra. }
  unfold change_in in E. fold u in E. rewrite Hu in E. cbn [bind] in E.
  destruct (Reqb (gt_area T r i) 0); [discriminate|]. unfold set_ice in E. rewrite upd_same in E. cbn [gu_covers] in E.
  destruct (change_effect _ _ _ _ _ Hu Fc Gc) as (_ & _ & K & _).
  destruct (cv_slot (hu_cover u' c) SelfIce) eqn:Es; [discriminate|]. apply Sc. apply K. exact Es.
Qed.
Lemma scaling_accepts T : forall cols b, NoDup (map (unit_of T) cols) -> (forall i, In i cols -> unit_fine T b i) ->
  (forall i r, In i cols -> (r < gt_rows T)%nat -> gt_area T r i <= gt_area T 0 i) ->
  (forall i, In i cols -> let id := unit_of T i in let u := gu_covers (b id) in
    fractions_ok u /\ total_fraction u <= 1 /\ exists c gc, find_cover u (gt_cover T) = Some c /\ generic_cover u = Some gc /\
      gt_area T 0 i <= (cv_fraction (hu_cover u c) + cv_fraction (hu_cover u gc)) * gu_area (b id)) ->
  exists b', scaling_apply T cols b = Ok b'.
Proof.
  induction cols as [|i l IH]; intros b Nd Hf Hm Hroom; cbn [scaling_apply]; [eauto|]. inversion Nd as [|x y Hnot Nd']; subst.
  destruct (Hroom i (or_introl eq_refl)) as (R1 & R2 & R3). cbn zeta in R1, R2, R3.
  destruct (scaling_unit_accepts T i b (Hf i (or_introl eq_refl)) (fun r => Hm i r (or_introl eq_refl)) R1 R2 R3) as (b1 & E). rewrite E. cbn [bind].
  destruct (Hf i (or_introl eq_refl)) as (A1 & A2 & A3 & A4). pose proof (scaling_unit_effect T i b b1 A1 A2 A3 A4 E) as (O & _). cbn zeta in O.
  assert (E1 : forall j, In j l -> b1 (unit_of T j) = b (unit_of T j)).
  { intros j Hj. apply O. intros Ej. apply Hnot. rewrite <- Ej. apply in_map. exact Hj. }
  apply IH; [exact Nd'| | |].
  - intros j Hj. apply (unit_fine_eq T b b1); [apply E1; exact Hj|apply Hf; right; exact Hj].
  - intros j r Hj. apply Hm. right. exact Hj.
  - intros j Hj. cbn zeta. rewrite (E1 j Hj). exact (Hroom j (or_intror Hj)).
Qed.
