(** Facts about the loading of land cover changes: runs, elevations, glacier masks. *)
From Coq Require Import Permutation.
From Verif Require Import BaseFacts PeriodsFacts CalendarFacts ActionsFacts PropertiesActions LandCoverTableSpec LandCoverTableFacts.
Open Scope R_scope.

Lemma same_row (l : list (Z * list value)) id vals vals' : NoDup (map fst l) -> In (id, vals) l -> In (id, vals') l -> vals = vals'.
Proof.
  induction l as [|(i & v) l IH]; intros N I J; [contradiction|]. simpl in N. inversion N as [|? ? N1 N2]; subst. destruct I as [I|I], J as [J|J].
  - congruence.
  - injection I as -> ->. exfalso. apply N1. apply in_map_iff. exists (id, vals'). auto.
  - injection J as -> ->. exfalso. apply N1. apply in_map_iff. exists (id, vals). auto.
  - apply IH; assumption.
Qed.
Lemma same_column (l : list Z) i j a : StronglySorted Z.lt l -> nth_error l i = Some a -> nth_error l j = Some a -> i = j.
Proof.
  intros S1 A B. destruct (Nat.lt_total i j) as [L|[L|L]]; [pose proof (sorted_nth l i j a a S1 A B L); lia|exact L|pose proof (sorted_nth l j i a a S1 B A L); lia].
Qed.
Lemma run_table u f t cs : well_formed t -> square_metres u f -> register_table u t = Ok cs -> run_follows cs f t.
Proof.
  intros W F E dates last Hs. destruct (c29_dated_actions _ [cs] dates (mjd_of last) Hs) as (m & log & m' & Rg & Rn & Ch & Eo & _). exists m, log, m'. split; [exact Rg|]. split; [exact Rn|].
  intros id y. cbn [concat] in Eo. rewrite app_nil_r in Eo. destruct W as (W1 & W2 & W3).
  assert (Fu : forall d i x x', In (d, (i, x)) cs -> In (d, (i, x')) cs -> x = x').
  { intros d i x x' I J. apply (registered_in _ _ _ _ _ _ _ E F) in I. apply (registered_in _ _ _ _ _ _ _ E F) in J. destruct I as (v & j & dz & a & I1 & I2 & I3 & I4 & I5 & _), J as (v' & j' & dz' & a' & J1 & J2 & J3 & J4 & J5 & _).
    assert (v' = v) as -> by exact (same_row _ _ _ _ W2 J1 I1). assert (dz' = dz) as -> by (apply mjd_inj; congruence). assert (j' = j) as -> by exact (same_column _ _ _ _ W1 J2 I2).
    rewrite J5 in I5. injection I5 as ->. congruence. }
  rewrite (leaves_spec cs (mjd_of last) log id y Ch Eo (fun d => Fu d id)). split.
  - intros (d & I & L & M). apply (registered_in _ _ _ _ _ _ _ E F) in I. destruct I as (v & j & dz & a & I1 & I2 & -> & -> & K). exists a. split; [|reflexivity]. apply (proj1 (last_kept_says t id v last a (conj W1 (conj W2 W3)) I1)). exists j. split; [exact K|]. split; [exists dz; split; [exact I2|apply mjd_le; exact L]|].
    intros k b d Kk Ek Lk. destruct (Nat.le_gt_cases k j) as [|G]; [assumption|]. exfalso. pose proof (sorted_nth _ _ _ _ _ W1 I2 Ek G) as Q.
    assert (mjd_of d <= mjd_of dz) as Q'; [|apply mjd_le in Q'; lia]. apply (M (mjd_of d) (b * f)); [|apply mjd_le; exact Lk]. apply (registered_in _ _ _ _ _ _ _ E F). exists v, k, d, b. auto.
  - intros (x & Sx & ->). pose proof Sx as (v & _ & _ & I1 & _). apply (proj2 (last_kept_says t id v last x (conj W1 (conj W2 W3)) I1)) in Sx. destruct Sx as (j & K & (dz & Ed & Ld) & M). exists (mjd_of dz). split; [|split; [apply mjd_le; exact Ld|]].
    + apply (registered_in _ _ _ _ _ _ _ E F). exists v, j, dz, x. auto.
    + intros d' y' I' L'. apply (registered_in _ _ _ _ _ _ _ E F) in I'. destruct I' as (v' & k & d & b & J1 & J2 & -> & -> & Kk). assert (v' = v) as -> by exact (same_row _ _ _ _ W2 J1 I1). apply mjd_le. apply mjd_le in L'.
      exact (sorted_nth_le _ _ _ _ _ W1 J2 Ed (M k b d Kk J2 L')).
Qed.
Lemma first_kept (vals : list value) x : In (Some x) vals -> exists j y, kept vals j y.
Proof. intro I. apply In_nth_error in I. destruct I as (j & E). destruct (first_of_run vals j x E) as (i & _ & K & _). exists i, x. exact K. Qed.
Lemma no_entry t : well_formed t -> (exists id vals x, In (id, vals) (ct_rows t) /\ In (Some x) vals) -> table_entries (mkTable (ct_dates t) (map (fun r => (fst r, remove_unchanged (snd r))) (ct_rows t))) <> [].
Proof.
  intros (W1 & W2 & W3) (id & vals & x & I & J) E. destruct (first_kept vals x J) as (j & y & K). pose proof (W3 id vals I) as L. destruct (nth_error (ct_dates t) j) as [d|] eqn:Ed.
  - match type of E with table_entries ?t' = _ => assert (In (mjd_of d, (id, y)) (table_entries t')) as X; [|rewrite E in X; contradiction] end. apply table_entries_in. exists (remove_unchanged vals), j, d. simpl. split; [apply in_map_iff; exists (id, vals); auto|]. split; [exact Ed|]. split; [reflexivity|apply remove_nth; exact K].
  - apply nth_error_None in Ed. destruct K as (K & _). assert (j < length vals)%nat by (apply nth_error_Some; congruence). lia.
Qed.
Lemma some_entry t : table_entries (mkTable (ct_dates t) (map (fun r => (fst r, remove_unchanged (snd r))) (ct_rows t))) <> [] -> exists id vals x, In (id, vals) (ct_rows t) /\ In (Some x) vals.
Proof.
  destruct (table_entries _) as [|(d & (id & x)) l] eqn:E; [congruence|]. intros _. assert (I : In (d, (id, x)) (table_entries (mkTable (ct_dates t) (map (fun r => (fst r, remove_unchanged (snd r))) (ct_rows t))))) by (rewrite E; left; reflexivity).
  apply table_entries_in in I. destruct I as (v & j & dz & I1 & _ & _ & I4). simpl in I1. apply in_map_iff in I1. destruct I1 as ((i & vals) & Q & I1). injection Q as <- <-. apply remove_nth in I4. destruct I4 as (I4 & _). exists i, vals, x. split; [exact I1|exact (nth_error_In _ _ I4)].
Qed.

(** ** Elevations *)
Lemma truncate_spec x z : truncate x = z <-> whole_metres x z.
Proof.
  unfold truncate, whole_metres. unfold Rleb. destruct (Rle_dec 0 x) as [P|P].
  - destruct (base_Int_part x) as (B1 & B2). split.
    + intros <-. left. split; [exact P|]. lra.
    + intros [(_ & Q)|(Q & _)]; [|lra]. assert (Int_part x < z + 1)%Z by (apply lt_IZR; rewrite plus_IZR; lra). assert (z < Int_part x + 1)%Z by (apply lt_IZR; rewrite plus_IZR; lra). lia.
  - destruct (base_Int_part (- x)) as (B1 & B2). split.
    + intros <-. right. split; [lra|]. rewrite opp_IZR. lra.
    + intros [(Q & _)|(_ & Q)]; [lra|]. assert (Int_part (- x) < - z + 1)%Z by (apply lt_IZR; rewrite plus_IZR, opp_IZR; lra). assert (- z < Int_part (- x) + 1)%Z by (apply lt_IZR; rewrite plus_IZR, opp_IZR; lra). lia.
Qed.
Lemma match_elevation_ok us x id : match_elevation us x = Ok id -> unit_at us x id.
Proof.
  unfold match_elevation. destruct (find _ us) as [u|] eqn:E; [|discriminate]. intro Q. injection Q as <-. apply find_some in E. destruct E as (I & E). apply Z.eqb_eq in E. exists u, (truncate x). split; [exact I|]. split; [reflexivity|]. split; apply truncate_spec; [exact E|reflexivity].
Qed.
Lemma match_elevation_found us x id : unit_at us x id -> exists id', match_elevation us x = Ok id'.
Proof.
  intros (u & z & I & _ & A & B). unfold match_elevation. destruct (find _ us) as [u'|] eqn:E; [eauto|]. exfalso. pose proof (find_none _ _ E u I) as Q. apply truncate_spec in A, B. simpl in Q. rewrite A, B, Z.eqb_refl in Q. discriminate.
Qed.
Lemma unit_at_unique us x id id' : distinct_elevations us -> unit_at us x id -> unit_at us x id' -> id = id'.
Proof.
  intros (_ & D) (u & z & I & <- & A & B) (u' & z' & I' & <- & A' & B'). f_equal. apply (D u u' z I I' A). replace z with z'; [exact A'|]. apply truncate_spec in B, B'. congruence.
Qed.
Lemma match_rows_ok us rows q : match_rows us rows = Ok q -> Forall2 (fun r r' => unit_at us (fst r) (fst r') /\ snd r' = snd r) rows q.
Proof.
  revert q. induction rows as [|(x & l) rows IH]; intros q E; simpl in E; [injection E as <-; constructor|]. destruct (match_elevation us x) as [id| |] eqn:M; try discriminate. simpl in E. destruct (match_rows us rows) as [q'| |]; try discriminate. injection E as <-. apply match_elevation_ok in M. constructor; [simpl; auto|apply IH; reflexivity].
Qed.
Lemma match_rows_fails us rows : match_rows us rows = Throw <-> exists x l, In (x, l) rows /\ forall id, ~ unit_at us x id.
Proof.
  induction rows as [|(x & l) rows IH]; simpl; [split; [discriminate|intros (? & ? & [] & _)]|].
  destruct (match_elevation us x) as [id| |] eqn:M; simpl.
  - destruct (match_rows us rows) as [q| |] eqn:Q.
    + split; [discriminate|]. intros (x' & l' & [I|I] & N); [injection I as <- <-; exfalso; apply (N id); apply match_elevation_ok; exact M|]. assert (Ok q = Throw) by (apply IH; eauto). discriminate.
    + split; [|reflexivity]. intros _. destruct (proj1 IH eq_refl) as (x' & l' & I & N). eauto.
    + split; [discriminate|]. exfalso. clear -Q. revert Q. induction rows as [|(y & v) rows IH]; simpl; [discriminate|]. unfold match_elevation. destruct (find _ us); [|discriminate]. simpl. destruct (match_rows us rows); try discriminate. exact IH.
  - split; [|reflexivity]. intros _. exists x, l. split; [left; reflexivity|]. intros id U. destruct (match_elevation_found us x id U) as (? & Q). congruence.
  - exfalso. unfold match_elevation in M. destruct (find _ us); discriminate.
Qed.
Lemma zmin_spec l m : zmin l = Some m -> In m l /\ forall x, In x l -> (m <= x)%Z.
Proof.
  destruct l as [|a l]; [discriminate|]. simpl. intro Q. injection Q as <-. assert (G : forall l a, (In (fold_left Z.min l a) l \/ fold_left Z.min l a = a) /\ (fold_left Z.min l a <= a)%Z /\ forall x, In x l -> (fold_left Z.min l a <= x)%Z).
  { clear. induction l as [|b l IH]; intro a; simpl; [split; [auto|]; split; [lia|intros ? []]|]. destruct (IH (Z.min a b)) as (A & B & C). split; [|split; [lia|]].
    - destruct A as [A|A]; [auto|]. destruct (Z.min_spec a b) as [(_ & M)|(_ & M)]; rewrite M in A at 2; auto.
    - intros x [<-|I]; [lia|auto]. }
  destruct (G l a) as (A & B & C). split; [destruct A as [A|A]; [auto|left; auto]|]. intros x [<-|I]; auto.
Qed.
Lemma zmax_spec l m : zmax l = Some m -> In m l /\ forall x, In x l -> (x <= m)%Z.
Proof.
  destruct l as [|a l]; [discriminate|]. simpl. intro Q. injection Q as <-. assert (G : forall l a, (In (fold_left Z.max l a) l \/ fold_left Z.max l a = a) /\ (a <= fold_left Z.max l a)%Z /\ forall x, In x l -> (x <= fold_left Z.max l a)%Z).
  { clear. induction l as [|b l IH]; intro a; simpl; [split; [auto|]; split; [lia|intros ? []]|]. destruct (IH (Z.max a b)) as (A & B & C). split; [|split; [lia|]].
    - destruct A as [A|A]; [auto|]. destruct (Z.max_spec a b) as [(_ & M)|(_ & M)]; rewrite M in A at 2; auto.
    - intros x [<-|I]; [lia|auto]. }
  destruct (G l a) as (A & B & C). split; [destruct A as [A|A]; [auto|left; auto]|]. intros x [<-|I]; auto.
Qed.
Lemma ids_of_units us ids : (forall i, In i ids -> In i (map hu_id us)) -> ids_in_range us ids = true.
Proof.
  intro I. unfold ids_in_range. destruct (zmin ids) as [a|] eqn:A; [|reflexivity]. destruct (zmax ids) as [b|] eqn:B; [|reflexivity]. destruct (zmin (map hu_id us)) as [lo|] eqn:L; [|reflexivity]. destruct (zmax (map hu_id us)) as [hi|] eqn:H; [|reflexivity].
  apply zmin_spec in A, L. apply zmax_spec in B, H. destruct A as (A & _), B as (B & _), L as (_ & L), H as (_ & H). apply I, L in A. apply I, H in B. apply Bool.negb_true_iff, Bool.orb_false_iff. split; apply Z.ltb_ge; assumption.
Qed.
Lemma ids_outside us ids i : In i ids -> (forall j, In j (map hu_id us) -> (i < j)%Z) \/ (forall j, In j (map hu_id us) -> (j < i)%Z) -> us <> [] -> ids_in_range us ids = false.
Proof.
  intros I O N. unfold ids_in_range. destruct ids as [|i0 ids]; [contradiction|]. destruct us as [|u us]; [congruence|]. destruct (zmin (i0 :: ids)) as [a|] eqn:A; [|discriminate]. destruct (zmax (i0 :: ids)) as [b|] eqn:B; [|discriminate].
  destruct (zmin (map hu_id (u :: us))) as [lo|] eqn:L; [|discriminate]. destruct (zmax (map hu_id (u :: us))) as [hi|] eqn:H; [|discriminate].
  apply zmin_spec in A, L. apply zmax_spec in B, H. destruct A as (_ & A), B as (_ & B), L as (L & _), H as (H & _). specialize (A i I). specialize (B i I). apply Bool.negb_false_iff, Bool.orb_true_iff. destruct O as [O|O]; [left; apply O in L|right; apply O in H]; apply Z.ltb_lt; lia.
Qed.

(** ** Interpolation *)
Lemma np_interp_sum x times r1 r2 : length r1 = length times -> length r2 = length times ->
  np_interp x (combine times (map (fun p => fst p + snd p) (combine r1 r2))) = np_interp x (combine times r1) + np_interp x (combine times r2).
Proof.
  revert r1 r2. induction times as [|t times IH]; intros [|a r1] [|b r2] L1 L2; simpl in *; try discriminate; [lra|]. injection L1 as L1. injection L2 as L2. specialize (IH r1 r2 L1 L2).
  destruct times as [|t' times]; [destruct r1, r2; try discriminate; simpl; lra|]. destruct r1 as [|a' r1], r2 as [|b' r2]; try discriminate. cbn [combine map fst snd] in *. cbn [np_interp] in *.
  destruct (x <=? t)%Z; [reflexivity|]. destruct (x <? t')%Z; [|exact IH]. unfold Rdiv. ring.
Qed.
Lemma np_interp_between x times r lo hi : times <> [] -> length r = length times -> (forall v, In v r -> lo <= v <= hi) -> lo <= np_interp x (combine times r) <= hi.
Proof.
  revert r. induction times as [|t times IH]; intros [|a r] N L B; simpl in L; try discriminate; [congruence|]. injection L as L.
  destruct times as [|t' times]; [destruct r; [|discriminate]; simpl; apply B; left; reflexivity|]. destruct r as [|b r]; [discriminate|]. cbn [combine np_interp fst snd].
  assert (Ba : lo <= a <= hi) by (apply B; left; reflexivity). assert (Bb : lo <= b <= hi) by (apply B; right; left; reflexivity).
  destruct (x <=? t)%Z eqn:E; [exact Ba|]. destruct (x <? t')%Z eqn:E'.
  - apply Z.leb_gt in E. apply Z.ltb_lt in E'. assert (0 < IZR (x - t)) as P by (apply IZR_lt; lia). assert (IZR (x - t) <= IZR (t' - t)) as Q by (apply IZR_le; lia).
    assert (0 < IZR (t' - t)) as P' by lra. set (k := IZR (x - t) / IZR (t' - t)). assert (0 <= k <= 1) as K. { unfold k. split; [apply Rlt_le, Rdiv_lt_0_compat; assumption|]. apply Rmult_le_reg_r with (IZR (t' - t)); [assumption|]. unfold Rdiv. rewrite Rmult_assoc, Rinv_l, Rmult_1_r by lra. lra. }
    replace (a + (b - a) / IZR (t' - t) * IZR (x - t)) with (a * (1 - k) + b * k) by (unfold k; field; lra). split; nra.
  - apply (IH (b :: r)); [discriminate|simpl; simpl in L; lia|]. intros v I. apply B. right. exact I.
Qed.
Lemma np_interp_before x t times v r : (x <= t)%Z -> np_interp x (combine (t :: times) (v :: r)) = v.
Proof. intro L. destruct times as [|t' times]; simpl; [reflexivity|]. destruct r; simpl; [reflexivity|]. apply Z.leb_le in L. rewrite L. reflexivity. Qed.
Lemma np_interp_after x l t v : StronglySorted Z.lt (map fst (l ++ [(t, v)])) -> (t <= x)%Z -> np_interp x (l ++ [(t, v)]) = v.
Proof.
  intros S1 L. induction l as [|p l IH]; [reflexivity|]. simpl in S1. inversion S1 as [|? ? S2 F]; subst. rewrite Forall_forall in F. transitivity (np_interp x (l ++ [(t, v)])); [|exact (IH S2)]. destruct l as [|q l]; cbn [app np_interp].
  - simpl in F. assert (fst p < t)%Z by (apply F; left; reflexivity). replace (x <=? fst p)%Z with false by (symmetry; apply Z.leb_gt; lia). simpl. replace (x <? t)%Z with false by (symmetry; apply Z.ltb_ge; lia). reflexivity.
  - assert (fst p < t)%Z by (apply F; rewrite map_app; apply in_or_app; right; left; reflexivity). assert (fst q < t)%Z. { inversion S2 as [|? ? _ F2]; subst. rewrite Forall_forall in F2. apply F2. fold (map (@fst Z R)). rewrite map_app. apply in_or_app. right. left. reflexivity. }
    replace (x <=? fst p)%Z with false by (symmetry; apply Z.leb_gt; lia). replace (x <? fst q)%Z with false by (symmetry; apply Z.ltb_ge; lia). reflexivity.
Qed.
Lemma np_interp_line x l a va b vb : StronglySorted Z.lt (map fst l) -> neighbours l a va b vb -> (a <= x <= b)%Z -> on_line a va b vb x (np_interp x l).
Proof.
  intros S1 (before & after & ->) L. unfold on_line. induction before as [|p before IH].
  - simpl in S1. inversion S1 as [|? ? S2 F]; subst. inversion F as [|? ? F1 _]; subst. assert (IZR (b - a) <> 0) by (apply not_0_IZR; lia). simpl app. cbn [np_interp fst snd].
    destruct (x <=? a)%Z eqn:E; [apply Z.leb_le in E; assert (x = a) as -> by lia; replace (a - a)%Z with 0%Z by lia; simpl; ring|]. destruct (x <? b)%Z eqn:E'.
    + rewrite !minus_IZR in *. field. assumption.
    + apply Z.ltb_ge in E'. assert (x = b) as -> by lia. destruct after as [|q after]; cbn [np_interp fst snd].
      * replace (b - b)%Z with 0%Z by lia. simpl. ring.
      * rewrite Z.leb_refl. replace (b - b)%Z with 0%Z by lia. simpl. ring.
  - simpl in S1. inversion S1 as [|? ? S2 F]; subst. specialize (IH S2). rewrite Forall_forall in F. assert (fst p < a)%Z by (apply F; rewrite map_app; apply in_or_app; right; left; reflexivity).
    destruct before as [|q before]; cbn [app np_interp] in *.
    + replace (x <=? fst p)%Z with false by (symmetry; apply Z.leb_gt; lia). simpl fst. replace (x <? a)%Z with false by (symmetry; apply Z.ltb_ge; lia). exact IH.
    + assert (fst q < a)%Z. { inversion S2 as [|? ? _ F2]; subst. rewrite Forall_forall in F2. apply F2. rewrite map_app. apply in_or_app. right. left. reflexivity. }
      replace (x <=? fst p)%Z with false by (symmetry; apply Z.leb_gt; lia). replace (x <? fst q)%Z with false by (symmetry; apply Z.ltb_ge; lia). exact IH.
Qed.

(** ** The first days of the years *)
Lemma jan_first y : days_from_civil y 1 1 = month_start (12 * y).
Proof. rewrite <- (month_start_of y 1) by lia. f_equal. lia. Qed.
Lemma year_after z y : (y <= (let '(a, _, _) := civil_from_days z in a))%Z <-> (days_from_civil y 1 1 <= z)%Z.
Proof.
  pose proof (civil_valid z) as V. destruct (civil_from_days z) as ((a & m) & d). destruct V as (M & D & <-). rewrite jan_first, dfc_day. rewrite <- (month_start_of a m) by exact M. split; intro L.
  - pose proof (month_start_mono (12 * y) (Z.to_nat (12 * a + (m - 1) - 12 * y))) as Q. rewrite Z2Nat.id in Q by lia. replace (12 * y + (12 * a + (m - 1) - 12 * y))%Z with (12 * a + (m - 1))%Z in Q by lia. lia.
  - destruct (Z_le_gt_dec y a) as [|G]; [assumption|]. exfalso. pose proof (month_start_next (12 * a + (m - 1))) as X. pose proof (month_start_mono (12 * a + (m - 1) + 1) (Z.to_nat (12 * y - (12 * a + (m - 1) + 1)))) as Q. rewrite Z2Nat.id in Q by lia.
    replace (12 * a + (m - 1) + 1 + (12 * y - (12 * a + (m - 1) + 1)))%Z with (12 * y)%Z in Q by lia. replace ((12 * a + (m - 1)) / 12)%Z with a in X by (apply Z.div_unique with (m - 1)%Z; lia). replace ((12 * a + (m - 1)) mod 12 + 1)%Z with m in X by (rewrite <- (Z.mod_unique (12 * a + (m - 1)) 12 a (m - 1)); lia). lia.
Qed.
Lemma DAY_pos : (0 < DAY)%Z.
Proof. reflexivity. Qed.
Lemma new_year_le y t : (new_year y <= t)%Z <-> (y <= year_of t)%Z.
Proof.
  unfold new_year, year_of. rewrite year_after. pose proof DAY_pos. split; intro L; [apply Z.div_le_lower_bound; lia|]. pose proof (Z.mul_div_le t DAY DAY_pos). nia.
Qed.
Lemma year_starts_in a b t : In t (year_starts a b) <-> (exists y, t = new_year y) /\ (a <= t <= b)%Z.
Proof.
  unfold year_starts. rewrite filter_In, in_map_iff. rewrite Bool.andb_true_iff, !Z.leb_le. split.
  - intros ((k & <- & _) & L). split; [eauto|exact L].
  - intros ((y & ->) & L). split; [|exact L]. destruct L as (L1 & L2). apply new_year_le in L2. assert (year_of a <= y)%Z as L3. { pose proof (proj2 (new_year_le (year_of a) a) (Z.le_refl _)) as Q. assert (year_of a <= year_of (new_year y))%Z as Q' by (apply new_year_le; lia).
      destruct (Z_le_gt_dec (year_of a) y) as [|G]; [assumption|]. exfalso. assert (new_year (year_of a) <= new_year y)%Z as X by lia. unfold new_year in X. rewrite !jan_first in X. pose proof (month_start_mono (12 * y) (Z.to_nat (12 * year_of a - 12 * y))) as Y. rewrite Z2Nat.id in Y by lia. replace (12 * y + (12 * year_of a - 12 * y))%Z with (12 * year_of a)%Z in Y by lia. pose proof DAY_pos. nia. }
    exists (Z.to_nat (y - year_of a)). split; [rewrite Z2Nat.id by lia; f_equal; lia|]. apply in_seq. lia.
Qed.
Lemma new_year_lt y y' : (y < y')%Z -> (new_year y < new_year y')%Z.
Proof.
  intro L. unfold new_year. rewrite !jan_first. pose proof (month_start_mono (12 * y) (Z.to_nat (12 * y' - 12 * y))) as Y. rewrite Z2Nat.id in Y by lia. replace (12 * y + (12 * y' - 12 * y))%Z with (12 * y')%Z in Y by lia. pose proof DAY_pos. nia.
Qed.
Lemma sorted_filter (p : Z -> bool) l : StronglySorted Z.lt l -> StronglySorted Z.lt (filter p l).
Proof.
  induction 1 as [|a l H IH F]; simpl; [constructor|]. destruct (p a); [|exact IH]. constructor; [exact IH|]. rewrite Forall_forall in *. intros x I. apply filter_In in I. apply F, I.
Qed.
Lemma year_starts_sorted a b : StronglySorted Z.lt (year_starts a b).
Proof.
  unfold year_starts. apply sorted_filter. generalize (Z.to_nat (year_of b - year_of a + 1)). generalize (year_of a). clear. intros z n. generalize 0%nat. induction n as [|n IH]; intro s; simpl; constructor; [apply IH|].
  rewrite Forall_forall. intros x I. apply in_map_iff in I. destruct I as (k & <- & I). apply in_seq in I. apply new_year_lt. lia.
Qed.
Lemma yearly_times_sorted times : StronglySorted Z.lt (yearly_times times).
Proof. destruct times; [constructor|apply year_starts_sorted]. Qed.
