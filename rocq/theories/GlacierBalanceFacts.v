(** Facts about the mass balance of the glaciers. *)
From Verif Require Import BaseFacts PeriodsFacts PeriodsSpec GlacierBalanceSpec.
Open Scope R_scope.

(** ** Days *)
Lemma filter_below (p : nat -> bool) m : forall n s, (m <= n)%nat -> (forall k, (k < n)%nat -> p (s + k)%nat = (k <? m)%nat) -> length (filter p (seq s n)) = m.
Proof.
  revert p. induction m; intros p n s M H.
  - assert (filter p (seq s n) = []) as ->.
    { clear M. revert s H. induction n; intros s H; [reflexivity|]. simpl. pose proof (H 0%nat ltac:(lia)) as E. rewrite Nat.add_0_r in E. rewrite E. simpl. apply IHn. intros k K. specialize (H (S k) ltac:(lia)). rewrite Nat.add_succ_r in H. simpl in *. exact H. }
    reflexivity.
  - destruct n; [lia|]. simpl. pose proof (H 0%nat ltac:(lia)) as E. rewrite Nat.add_0_r in E. rewrite E. simpl. f_equal. apply IHm; [lia|]. intros k K. specialize (H (S k) ltac:(lia)). rewrite Nat.add_succ_r in H. exact H.
Qed.
Lemma filter_map_length {X Y} (f : X -> Y) p l : length (filter p (map f l)) = length (filter (fun x => p (f x)) l).
Proof. induction l; simpl; [reflexivity|]. destruct (p (f a)); simpl; congruence. Qed.

Open Scope Z_scope.
Definition count (a b : Z) : nat := Z.to_nat ((b - a) / DAY + 1).
Lemma count_pos a b : a <= b -> (0 < count a b)%nat.
Proof. intro H. unfold count. pose proof DAY_pos. assert (0 <= (b - a) / DAY) by (apply Z.div_pos; lia). lia. Qed.
Lemma count_spec a b i : a <= b -> (i < count a b)%nat <-> a + Z.of_nat i * DAY <= b.
Proof.
  intro H. unfold count. pose proof DAY_pos as P. assert (0 <= (b - a) / DAY) by (apply Z.div_pos; lia). split.
  - intro L. assert (Z.of_nat i <= (b - a) / DAY) by lia. pose proof (Z.mul_div_le (b - a) DAY ltac:(lia)). nia.
  - intro L. assert (Z.of_nat i <= (b - a) / DAY); [|lia]. apply Z.div_le_lower_bound; nia.
Qed.
Lemma date_range_count a b : a <= b -> date_range a b = map (fun k => a + Z.of_nat k * DAY) (seq 0 (count a b)).
Proof. intro H. unfold date_range, count. destruct (Z.ltb_spec b a); [lia|reflexivity]. Qed.
Lemma nth_days a n i : (i < n)%nat -> nth i (map (fun k => a + Z.of_nat k * DAY) (seq 0 n)) 0 = a + Z.of_nat i * DAY.
Proof. intro H. pose proof (map_nth_error (fun k => a + Z.of_nat k * DAY) i (seq 0 n) (d := i)) as M. rewrite (nth_error_nth' _ 0%nat) in M by (rewrite seq_length; exact H). rewrite seq_nth in M by exact H. specialize (M eq_refl). apply nth_error_nth. exact M. Qed.
Lemma last_nth {X} (l : list X) d : last l d = nth (pred (length l)) l d.
Proof. induction l as [|x [|y l]]; [reflexivity|reflexivity|]. change (last (x :: y :: l) d) with (last (y :: l) d). rewrite IHl. reflexivity. Qed.
Lemma last_days a b d : a <= b -> last (date_range a b) d = a + Z.of_nat (pred (count a b)) * DAY.
Proof.
  intro H. pose proof (count_pos a b H). rewrite last_nth, date_range_count by exact H. rewrite map_length, seq_length.
  rewrite nth_indep with (d' := 0) by (rewrite map_length, seq_length; lia). apply nth_days. lia.
Qed.
Lemma left_count a n d : a <= d -> d <= a + Z.of_nat (pred n) * DAY -> (0 < n)%nat ->
  length (filter (fun t => t <=? d) (map (fun k => a + Z.of_nat k * DAY) (seq 0 n))) = S (Z.to_nat ((d - a) / DAY)).
Proof.
  intros A D N. pose proof DAY_pos as P. rewrite filter_map_length. assert (0 <= (d - a) / DAY) by (apply Z.div_pos; lia).
  assert ((d - a) / DAY <= Z.of_nat (pred n)). { apply Z.div_le_upper_bound; nia. }
  apply filter_below; [lia|]. intros k K. simpl. pose proof (Z.mul_div_le (d - a) DAY ltac:(lia)). pose proof (Z.mul_succ_div_gt (d - a) DAY ltac:(lia)).
  destruct (Z.leb_spec (a + Z.of_nat k * DAY) d), (Nat.ltb_spec k (S (Z.to_nat ((d - a) / DAY)))); [reflexivity| | |reflexivity]; exfalso; nia.
Qed.
Lemma right_count a n d : a <= d -> d <= a + Z.of_nat (pred n) * DAY -> (0 < n)%nat ->
  length (filter (fun t => t <? d) (map (fun k => a + Z.of_nat k * DAY) (seq 0 n))) = Z.to_nat ((d - a + DAY - 1) / DAY).
Proof.
  intros A D N. pose proof DAY_pos as P. rewrite filter_map_length. assert (0 <= (d - a + DAY - 1) / DAY) by (apply Z.div_pos; lia).
  assert ((d - a + DAY - 1) / DAY < Z.of_nat (S (pred n))). { apply Z.div_lt_upper_bound; nia. }
  apply filter_below; [lia|]. intros k K. simpl. pose proof (Z.mul_div_le (d - a + DAY - 1) DAY ltac:(lia)). pose proof (Z.mul_succ_div_gt (d - a + DAY - 1) DAY ltac:(lia)).
  destruct (Z.ltb_spec (a + Z.of_nat k * DAY) d), (Nat.ltb_spec k (Z.to_nat ((d - a + DAY - 1) / DAY))); [reflexivity| | |reflexivity]; exfalso; nia.
Qed.

Lemma nearest_unique a b d i j : nearest_day a b d i -> nearest_day a b d j -> i = j.
Proof.
  intros (t & Dt & _ & _ & H) (t' & Dt' & _ & _ & H'). pose proof DAY_pos.
  destruct (H _ _ Dt') as (U & V), (H' _ _ Dt) as (U' & V'). assert (Z.abs (t - d) = Z.abs (t' - d)) as E by lia.
  specialize (V E). specialize (V' (eq_sym E)). destruct Dt as (T & _), Dt' as (T' & _). nia.
Qed.
Lemma date_index_spec a b d : a <= b ->
  (exists i, date_index (date_range a b) d = Ok (Some i) /\ nearest_day a b d i) \/ (date_index (date_range a b) d = Ok None /\ forall i, ~ nearest_day a b d i).
Proof.
  intro H. pose proof (count_pos a b H) as N. pose proof DAY_pos as P. set (n := count a b) in *.
  pose proof (last_days a b a H) as La. fold n in La. pose proof (date_range_count a b H) as E. fold n in E.
  unfold date_index. destruct (date_range a b) as [|f r] eqn:Q.
  { exfalso. apply (f_equal (@length _)) in E. rewrite map_length, seq_length in E. simpl in E. lia. }
  assert (f = a) as ->. { destruct n; [lia|]. simpl in E. injection E as -> _. lia. }
  rewrite La, E. destruct ((d <? a) || (a + Z.of_nat (pred n) * DAY <? d))%bool eqn:O.
  - right. split; [reflexivity|]. intros i (t & _ & A & (j & t' & (Tj & Lj) & Dj) & _). apply orb_prop in O. destruct O as [O|O]; apply Z.ltb_lt in O; [lia|].
    subst t'. apply (count_spec a b j H) in Lj. fold n in Lj. nia.
  - left. apply orb_false_elim in O. destruct O as (O1 & O2). apply Z.ltb_ge in O1, O2.
    rewrite left_count, right_count by lia. simpl pred. set (l := Z.to_nat ((d - a) / DAY)). set (u := Z.to_nat ((d - a + DAY - 1) / DAY)).
    assert (Z.of_nat l = (d - a) / DAY) as El by (unfold l; rewrite Z2Nat.id; [reflexivity|]; apply Z.div_pos; lia).
    assert (Z.of_nat u = (d - a + DAY - 1) / DAY) as Eu by (unfold u; rewrite Z2Nat.id; [reflexivity|]; apply Z.div_pos; lia).
    pose proof (Z.mul_div_le (d - a) DAY ltac:(lia)) as l1. pose proof (Z.mul_succ_div_gt (d - a) DAY ltac:(lia)) as l2. rewrite <- El in l1, l2.
    pose proof (Z.mul_div_le (d - a + DAY - 1) DAY ltac:(lia)) as u1. pose proof (Z.mul_succ_div_gt (d - a + DAY - 1) DAY ltac:(lia)) as u2. rewrite <- Eu in u1, u2.
    clearbody l u. clear El Eu.
    assert (l < n)%nat by nia. assert (u < n)%nat by nia. rewrite !nth_days by assumption.
    assert (last_ok : exists j t', day_index a b j t' /\ d <= t'). { exists (pred n), (a + Z.of_nat (pred n) * DAY). split; [|exact O2]. split; [reflexivity|]. apply count_spec; [exact H|]. fold n. lia. }
    assert (forall j, (j < n)%nat -> a + Z.of_nat j * DAY <= b) as In_range by (intros j J; apply count_spec; assumption).
    assert (Z.of_nat u <= Z.of_nat l + 1) as UL by nia. assert (a + Z.of_nat l * DAY <= d) as Ld by lia. assert (d <= a + Z.of_nat u * DAY) as Ud by lia.
    assert (forall j : nat, a + Z.of_nat j * DAY <= a + Z.of_nat l * DAY \/ a + Z.of_nat u * DAY <= a + Z.of_nat j * DAY) as Jc.
    { intro j. assert (Z.of_nat j <= Z.of_nat l \/ Z.of_nat u <= Z.of_nat j) as [J|J] by lia; [left|right]; apply Z.add_le_mono_l, Z.mul_le_mono_nonneg_r; lia. }
    destruct (Z.ltb_spec (d - (a + Z.of_nat l * DAY)) (a + Z.of_nat u * DAY - d)) as [C|C].
    + exists l. split; [reflexivity|]. exists (a + Z.of_nat l * DAY). split; [split; [reflexivity|auto]|]. split; [exact O1|]. split; [exact last_ok|].
      intros j t' (-> & Lj). destruct (Jc j) as [J|J]; (split; [lia|intro; lia]).
    + exists u. split; [reflexivity|]. exists (a + Z.of_nat u * DAY). split; [split; [reflexivity|auto]|]. split; [exact O1|]. split; [exact last_ok|].
      intros j t' (-> & Lj). destruct (Jc j) as [J|J]; (split; [lia|intro; lia]).
Qed.

(** ** Units *)
Open Scope R_scope.
Lemma shown_nan0 g f t : gu_glacier g = true -> nan0 (shown g f t) = f t.
Proof. unfold shown. intros ->. reflexivity. Qed.
Lemma nansum_map (m : nat -> value) l : nansum (map m l) = Rsum (fun t => nan0 (m t)) l.
Proof. unfold nansum. apply Rsum_map. Qed.
Lemma unit_balance_spec g i0 i1 : unit_balance (recorded_unit g) i0 i1 = if gu_glacier g then Some (balance g i0 i1) else None.
Proof.
  unfold unit_balance, recorded_unit, balance, days_after. simpl. rewrite nansum_map. unfold shown. destruct (gu_glacier g); [|reflexivity]. simpl. reflexivity.
Qed.
Lemma present_some l : present (map Some l) = l.
Proof. induction l; simpl; congruence. Qed.
Lemma present_none {X} (l : list X) : present (map (fun _ => None) l) = [].
Proof. induction l; simpl; congruence. Qed.
Lemma glacier_weight_spec g i0 i1 : (i0 <= i1)%nat -> glacier_weight (recorded_unit g) i0 i1 = if gu_glacier g then Some (mean_area g i0 i1) else None.
Proof.
  intro L. unfold glacier_weight, recorded_unit. simpl ur_covers. simpl ur_area. unfold mean_area, days_of, sum_areas. simpl. unfold shown. destruct (gu_glacier g).
  - unfold nanmean. simpl vmul. rewrite <- (map_map (fun x => gu_fraction g x * gu_area g) Some), present_some.
    destruct (map (fun x => gu_fraction g x * gu_area g) (seq i0 (match i0 with 0%nat => S i1 | S l => (i1 - l)%nat end))) eqn:Q.
    + apply (f_equal (@length _)) in Q. rewrite map_length, seq_length in Q. destruct i0; simpl in Q; lia.
    + rewrite <- Q, Rsum_map, map_length. reflexivity.
  - unfold nanmean. simpl. rewrite present_none. reflexivity.
Qed.
Lemma in_band_spec band e : in_band band e = true <-> within_band e band.
Proof.
  split.
  - destruct band as [[[lo|] [hi|]]|]; simpl; try discriminate; [|constructor]. unfold Rleb, Rltb. destruct (Rle_dec lo e), (Rlt_dec e hi); try discriminate. constructor; auto.
  - intro H. inversion H; subst; simpl; [reflexivity|]. unfold Rleb, Rltb. destruct (Rle_dec lo e), (Rlt_dec e hi); try reflexivity; exfalso; lra.
Qed.
Definition pair_of (i0 i1 : nat) (g : glacier_unit) : R * R := (balance g i0 i1, mean_area g i0 i1).
Lemma counts_dec band i0 i1 g : {counts band i0 i1 g} + {~ counts band i0 i1 g}.
Proof.
  unfold counts. destruct (gu_glacier g); [|right; intros (? & _); discriminate]. destruct (Rlt_dec 0 (mean_area g i0 i1)); [|right; intros (_ & ? & _); contradiction].
  destruct (in_band band (gu_elevation g)) eqn:B; [left; apply in_band_spec in B; auto|right; intros (_ & _ & W); apply in_band_spec in W; congruence].
Qed.
Lemma masked_spec band i0 i1 g : (i0 <= i1)%nat -> masked band i0 i1 (recorded_unit g, gu_elevation g) = if counts_dec band i0 i1 g then [pair_of i0 i1 g] else [].
Proof.
  intro L. unfold masked. simpl fst. simpl snd. rewrite unit_balance_spec, glacier_weight_spec by exact L. destruct (counts_dec band i0 i1 g) as [(G & A & W)|N].
  - rewrite G. apply in_band_spec in W. rewrite W. unfold Rltb. destruct (Rlt_dec 0 (mean_area g i0 i1)); [reflexivity|contradiction].
  - destruct (gu_glacier g) eqn:G; [|reflexivity]. unfold Rltb. destruct (Rlt_dec 0 (mean_area g i0 i1)); [|reflexivity]. destruct (in_band band (gu_elevation g)) eqn:B; [|reflexivity].
    exfalso. apply N. repeat split; [exact G|assumption|]. apply in_band_spec. exact B.
Qed.
Lemma chosen_exists {X} (P : X -> Prop) (dec : forall x, {P x} + {~ P x}) l : exists m, chosen P l m.
Proof. induction l as [|x l (m & H)]; [exists []; constructor|]. destruct (dec x); [exists (x :: m)|exists m]; constructor; assumption. Qed.
Lemma chosen_unique {X} (P : X -> Prop) l m m' : chosen P l m -> chosen P l m' -> m = m'.
Proof. intro H. revert m'. induction H; intros m' K; inversion K; subst; try contradiction; [reflexivity|f_equal; auto|auto]. Qed.
Lemma chosen_in {X} (P : X -> Prop) l m x : chosen P l m -> In x m <-> In x l /\ P x.
Proof. intro H. induction H; simpl; [tauto|rewrite IHchosen|rewrite IHchosen]; intuition (subst; auto; contradiction). Qed.
Lemma masked_units band i0 i1 gs sel : (i0 <= i1)%nat -> chosen (counts band i0 i1) gs sel ->
  flat_map (masked band i0 i1) (combine (map recorded_unit gs) (map gu_elevation gs)) = map (pair_of i0 i1) sel.
Proof.
  intros L H. induction H; [reflexivity| |]; cbn [map combine flat_map]; rewrite masked_spec by exact L; destruct (counts_dec band i0 i1 x); try contradiction; simpl; congruence.
Qed.

Lemma lookup_id_in id tab : forall e, NoDup (map fst tab) -> In (id, e) tab -> lookup_id id tab = Some e.
Proof.
  induction tab as [|[i x] tab IH]; intros e N H; [contradiction|]. simpl in *. inversion N; subst. destruct H as [H|H].
  - injection H as -> ->. assert (lookup_id id tab = None) as ->; [|rewrite Z.eqb_refl; reflexivity]. clear -H2. induction tab as [|[j y] tab IH]; [reflexivity|]. simpl in *. rewrite IH by tauto. destruct (Z.eqb_spec j id); [exfalso; apply H2; left; assumption|reflexivity].
  - rewrite (IH e) by assumption. reflexivity.
Qed.
Lemma elevations_spec tab gs : describes tab gs -> elevations tab (map recorded_unit gs) = Ok (map gu_elevation gs).
Proof.
  intros (N & H). induction gs as [|g gs IH]; [reflexivity|]. simpl. rewrite (lookup_id_in _ tab (gu_elevation g)) by (auto; apply H; left; reflexivity). rewrite IH by (intros; apply H; right; assumption). reflexivity.
Qed.

Lemma area_pos band i0 i1 gs sel : chosen (counts band i0 i1) gs sel -> sel <> [] -> 0 < area_of sel i0 i1.
Proof.
  intros H. unfold area_of. induction H as [|x l m (_ & A & _) H IH|]; [congruence| |auto]. intros _. simpl. destruct m as [|y m]; [simpl; lra|].
  specialize (IH ltac:(discriminate)). simpl in *. lra.
Qed.
Lemma balance_for_unique a b gs t B B' : balance_for a b gs t B -> balance_for a b gs t B' -> B = B'.
Proof.
  intros (i0 & i1 & sel & N0 & N1 & L & C & S' & M) (j0 & j1 & sel' & N0' & N1' & L' & C' & S'' & M').
  rewrite <- (nearest_unique _ _ _ _ _ N0 N0') in *. rewrite <- (nearest_unique _ _ _ _ _ N1 N1') in *. rewrite <- (chosen_unique _ _ _ _ C C') in *.
  pose proof (area_pos _ _ _ _ _ C S'). unfold mean_balance in *. apply (Rmult_eq_reg_r (area_of sel i0 i1)); lra.
Qed.
Lemma simulated_target_spec a b gs t : (a <= b)%Z ->
  exists v, simulated_target (date_range a b) (combine (map recorded_unit gs) (map gu_elevation gs)) t = Ok v /\ forall B, v = Some B <-> balance_for a b gs t B.
Proof.
  intro H. unfold simulated_target.
  destruct (date_index_spec a b (tg_t0 t) H) as [(i0 & -> & N0) | (-> & N0)]; simpl bind;
    (destruct (date_index_spec a b (tg_t1 t) H) as [(i1 & -> & N1) | (-> & N1)]; simpl bind);
    try (exists None; split; [reflexivity|]; intro B; split; [discriminate|]; intros (j0 & j1 & sel & M0 & M1 & _); exfalso; first [exact (N0 _ M0)|exact (N1 _ M1)]).
  destruct (Nat.leb_spec i1 i0).
  { exists None; split; [reflexivity|]; intro B; split; [discriminate|]; intros (j0 & j1 & sel & M0 & M1 & L & _).
    rewrite (nearest_unique _ _ _ _ _ M0 N0), (nearest_unique _ _ _ _ _ M1 N1) in L. lia. }
  destruct (chosen_exists (counts (tg_band t) i0 i1) (counts_dec _ i0 i1) gs) as (sel & C).
  rewrite (masked_units _ i0 i1 gs sel) by (auto; lia). destruct sel as [|g sel].
  - exists None; split; [reflexivity|]; intro B; split; [discriminate|]; intros (j0 & j1 & sel' & M0 & M1 & L & C' & S' & _).
    rewrite (nearest_unique _ _ _ _ _ M0 N0), (nearest_unique _ _ _ _ _ M1 N1) in C'. exfalso. apply S'. exact (chosen_unique _ _ _ _ C' C).
  - eexists. split; [reflexivity|]. pose proof (area_pos _ _ _ _ _ C ltac:(discriminate)) as P.
    assert (U : balance_for a b gs t (Rsum (fun p => fst p * snd p) (map (pair_of i0 i1) (g :: sel)) / Rsum snd (map (pair_of i0 i1) (g :: sel)))).
    { exists i0, i1, (g :: sel). split; [exact N0|]. split; [exact N1|]. split; [exact H0|]. split; [exact C|]. split; [discriminate|].
      unfold mean_balance. rewrite !Rsum_map. unfold pair_of. simpl fst. simpl snd. unfold area_of in *. field. simpl in *. lra. }
    intro B. split; [intro E; injection E as <-; exact U|]. intro V. f_equal. exact (balance_for_unique _ _ _ _ _ _ U V).
Qed.
Lemma simulated_targets_spec a b gs l : (a <= b)%Z ->
  exists vs, simulated_targets (date_range a b) (combine (map recorded_unit gs) (map gu_elevation gs)) l = Ok vs /\
    Forall2 (fun t v => forall B, v = Some B <-> balance_for a b gs t B) l vs.
Proof.
  intro H. induction l as [|t l (vs & E & F)]; [exists []; split; [reflexivity|constructor]|]. simpl. destruct (simulated_target_spec a b gs t H) as (v & -> & V). simpl. rewrite E. exists (v :: vs). split; [reflexivity|constructor; assumption].
Qed.
Lemma simulated_spec a b tab gs l : (a <= b)%Z -> describes tab gs ->
  exists vs, simulated (recording_of a b tab gs) l = Ok vs /\ Forall2 (fun t v => forall B, v = Some B <-> balance_for a b gs t B) l vs.
Proof.
  intros H D. destruct l as [|t l]; [exists []; split; [reflexivity|constructor]|]. unfold simulated, recording_of. simpl rc_covers. simpl Nat.eqb. cbn [rc_table rc_units rc_start rc_end].
  rewrite (elevations_spec _ _ D). apply (simulated_targets_spec a b gs (t :: l) H).
Qed.
