(** Lemmas: periods. *)
From Coq Require Import Sorted.
From Verif Require Import BaseFacts CalendarFacts PeriodsSpec.
Open Scope Z_scope.

Lemma DAY_pos : 0 < DAY. Proof. reflexivity. Qed.
(** *** Years *)
Definition civil_base (y : Z) : Z := y / 400 * 146097 + (y mod 400 * 365 + y mod 400 / 4 - y mod 400 / 100).
Lemma base_flat y : civil_base y = 365 * y + y / 4 - y / 100 + y / 400.
Proof.
  unfold civil_base. assert (H : y = 100 * (y / 400) * 4 + y mod 400) by (pose proof (Z_div_mod_eq_full y 400); lia). set (q := y / 400) in *. set (r := y mod 400) in *.
  assert (A : y / 4 = 100 * q + r / 4) by (rewrite H at 1; apply Z.div_add_l; lia).
  assert (B : y / 100 = 4 * q + r / 100) by (replace y with (4 * q * 100 + r) by lia; apply Z.div_add_l; lia). lia.
Qed.
Lemma base_step y : civil_base (y + 1) = civil_base y + 365 + (if is_leap (y + 1) then 1 else 0).
Proof.
  rewrite !base_flat. unfold is_leap. 
  assert (S : forall k, 0 < k -> (y + 1) / k = y / k + (if (y + 1) mod k =? 0 then 1 else 0)).
  { intros k Hk. pose proof (Z_div_mod_eq_full (y + 1) k). pose proof (Z_div_mod_eq_full y k). pose proof (Z.mod_pos_bound (y + 1) k Hk). pose proof (Z.mod_pos_bound y k Hk). destruct (Z.eqb_spec ((y + 1) mod k) 0); nia. }
  rewrite (S 4), (S 100), (S 400) by lia.
  assert (D1 : (y + 1) mod 100 = 0 -> (y + 1) mod 4 = 0) by (intro H; apply Z.mod_divide in H; [|lia]; destruct H as (c & H); rewrite H; replace (c * 100) with (c * 25 * 4) by lia; apply Z_mod_mult).
  assert (D2 : (y + 1) mod 400 = 0 -> (y + 1) mod 100 = 0) by (intro H; apply Z.mod_divide in H; [|lia]; destruct H as (c & H); rewrite H; replace (c * 400) with (c * 4 * 100) by lia; apply Z_mod_mult).
  destruct (Z.eqb_spec ((y + 1) mod 4) 0), (Z.eqb_spec ((y + 1) mod 100) 0), (Z.eqb_spec ((y + 1) mod 400) 0); cbn [andb orb negb]; try lia; exfalso; tauto.
Qed.
Lemma dfc_base y m d : days_from_civil y m d = civil_base (if m <=? 2 then y - 1 else y) + (153 * march_month m + 2) / 5 + d - 1 - 719468.
Proof. unfold days_from_civil, civil_base. lia. Qed.
Lemma base_years y : forall n : nat, 365 * Z.of_nat n <= civil_base (y + Z.of_nat n) - civil_base y <= 366 * Z.of_nat n.
Proof.
  induction n as [|n IH]; [rewrite Z.add_0_r; lia|]. replace (y + Z.of_nat (S n)) with (y + Z.of_nat n + 1) by lia. rewrite base_step. destruct (is_leap _); lia.
Qed.
Lemma years_between y m d n : 0 <= n -> 365 * n <= days_from_civil (y + n) m d - days_from_civil y m d <= 366 * n.
Proof.
  intro H. rewrite !dfc_base. destruct (m <=? 2); [replace (y + n - 1) with (y - 1 + Z.of_nat (Z.to_nat n)) by lia; pose proof (base_years (y - 1) (Z.to_nat n)); lia|replace (y + n) with (y + Z.of_nat (Z.to_nat n)) by lia; pose proof (base_years y (Z.to_nat n)); lia].
Qed.
Lemma years_from_leap y n : 1 <= n -> is_leap y = true -> 365 * n + 1 <= days_from_civil (y + n) 2 29 - days_from_civil y 2 29.
Proof.
  intros H L. rewrite !dfc_base. cbn [Z.leb Z.compare Pos.compare Pos.compare_cont]. replace (y + n - 1) with (y - 1 + 1 + Z.of_nat (Z.to_nat (n - 1))) by lia. pose proof (base_years (y - 1 + 1) (Z.to_nat (n - 1))) as B. rewrite base_step in B. replace (y - 1 + 1) with y in * by lia. rewrite L in B. lia.
Qed.

(** *** Lists of dates *)
Lemma date_range_length a b : a <= b -> length (date_range a b) = Z.to_nat ((b - a) / DAY + 1).
Proof. intro H. unfold date_range. rewrite map_length, seq_length. destruct (Z.ltb_spec b a); [lia|reflexivity]. Qed.
Lemma date_range_nth a b k : a <= b -> (k < Z.to_nat ((b - a) / DAY + 1))%nat -> nth_error (date_range a b) k = Some (a + Z.of_nat k * DAY).
Proof.
  intros H K. unfold date_range. destruct (Z.ltb_spec b a); [lia|]. rewrite nth_error_map. replace (nth_error (seq 0 _) k) with (Some k); [reflexivity|]. symmetry. rewrite (nth_error_nth' _ 0%nat) by (rewrite seq_length; exact K). rewrite seq_nth by exact K. reflexivity.
Qed.
Lemma date_range_in a b t : a <= b -> (In t (date_range a b) <-> a <= t <= b /\ (t - a) mod DAY = 0).
Proof.
  intro H. unfold date_range. destruct (Z.ltb_spec b a); [lia|]. rewrite in_map_iff. pose proof DAY_pos as P. split.
  - intros (k & <- & I). apply in_seq in I. pose proof (Z_div_mod_eq_full (b - a) DAY). pose proof (Z.mod_pos_bound (b - a) DAY P).
    assert (Z.of_nat k <= (b - a) / DAY) by lia. split; [nia|]. replace (a + Z.of_nat k * DAY - a) with (Z.of_nat k * DAY) by lia. apply Z_mod_mult.
  - intros (I & M). exists (Z.to_nat ((t - a) / DAY)). pose proof (Z_div_mod_eq_full (t - a) DAY) as E. assert (0 <= (t - a) / DAY) by (apply Z.div_pos; lia). split; [rewrite Z2Nat.id by lia; lia|].
    apply in_seq. assert ((t - a) / DAY <= (b - a) / DAY) by (apply Z.div_le_mono; lia). lia.
Qed.
Lemma sorted_from a : forall n k, StronglySorted Z.lt (map (fun i => a + Z.of_nat i * DAY) (seq k n)).
Proof.
  induction n as [|n IH]; intro k; cbn [seq map]; [constructor|]. constructor; [apply IH|]. apply Forall_forall. intros t I. apply in_map_iff in I. destruct I as (j & <- & I). apply in_seq in I. pose proof DAY_pos. nia.
Qed.
Lemma date_range_sorted a b : increasing (date_range a b).
Proof. apply sorted_from. Qed.
Lemma sorted_nodup l : increasing l -> NoDup l.
Proof. intro S. induction S as [|x l S IH F]; constructor; [|exact IH]. intro I. rewrite Forall_forall in F. specialize (F x I). lia. Qed.
Lemma sorted_same : forall l m, increasing l -> increasing m -> (forall t, In t l <-> In t m) -> l = m.
Proof.
  induction l as [|x l IH]; intros [|y m] Sl Sm H; [reflexivity|exfalso; apply (H y); left; reflexivity|exfalso; apply (H x); left; reflexivity|].
  inversion Sl as [|? ? Sl1 Fl]; subst. inversion Sm as [|? ? Sm1 Fm]; subst. rewrite Forall_forall in Fl, Fm.
  assert (x = y) as ->.
  { destruct (proj1 (H x) (or_introl eq_refl)) as [->|I]; [reflexivity|]. destruct (proj2 (H y) (or_introl eq_refl)) as [->|J]; [reflexivity|]. specialize (Fm x I). specialize (Fl y J). lia. }
  f_equal. apply IH; [exact Sl1|exact Sm1|]. intro t. split; intro I.
  - destruct (proj1 (H t) (or_intror I)) as [->|J]; [specialize (Fl t I); lia|exact J].
  - destruct (proj2 (H t) (or_intror I)) as [->|J]; [specialize (Fm t I); lia|exact J].
Qed.
Lemma filter_sorted (f : Z -> bool) l : increasing l -> increasing (filter f l).
Proof.
  intro S. induction S as [|x l S IH F]; cbn [filter]; [constructor|]. destruct (f x); [|exact IH]. constructor; [exact IH|]. rewrite Forall_forall in *. intros t I. apply filter_In in I. apply F. exact (proj1 I).
Qed.
(** The dates of a slice. *)
Lemma slice_dates (f : Z -> bool) : forall (time : list Z) (v : list R), length time = length v -> map fst (filter (fun q => f (fst q)) (combine time v)) = filter f time.
Proof. induction time as [|t time IH]; intros [|x v] H; try discriminate; [reflexivity|]. cbn [combine filter fst]. injection H as H. destruct (f t); cbn [map fst]; rewrite (IH v H); reflexivity. Qed.
Lemma slice_nth (f : Z -> bool) (time : list Z) (v : list R) k x t : length time = length v -> nth_error (map snd (filter (fun q => f (fst q)) (combine time v))) k = Some x ->
  nth_error (filter f time) k = Some t -> value_at time v t x.
Proof.
  intros H Hx Ht. rewrite <- (slice_dates f time v H) in Ht. rewrite nth_error_map in Hx, Ht. destruct (nth_error (filter _ _) k) as [(t', x')|] eqn:E; [|discriminate]. injection Hx as ->. injection Ht as ->.
  apply nth_error_In in E. apply filter_In in E. destruct E as (I & _). apply In_nth_error in I. destruct I as (j & J). exists j.
  clear - J. revert v j J. induction time as [|u time IH]; intros [|y v] [|j] J; cbn in *; try discriminate; [injection J as -> ->; auto|apply IH; exact J].
Qed.
(** The last value of a date. *)
Lemma lookup_last_some t : forall times obs x, lookup_last t times obs = Some x -> last_of times obs t x \/ length times <> length obs.
Proof.
  induction times as [|u times IH]; intros [|y obs] x E; cbn [lookup_last] in E; try discriminate. destruct (lookup_last t times obs) as [z|] eqn:L.
  - injection E as ->. destruct (IH obs x L) as [(j & A & B & C)|N]; [left|right; cbn; congruence]. exists (S j). split; [exact A|]. split; [exact B|]. intros [|j'] K; [lia|]. cbn. apply C. lia.
  - destruct (Z.eqb_spec u t) as [->|]; [|discriminate]. injection E as ->. destruct (Nat.eq_dec (length times) (length obs)) as [N|N]; [left|right; cbn; congruence].
    exists 0%nat. split; [reflexivity|]. split; [reflexivity|]. intros [|j'] K; [lia|]. cbn. intro Q. clear IH. revert obs L N j' Q K. induction times as [|u' times IH]; intros [|z obs] L N j' Q K; try discriminate; [destruct j'; discriminate|].
    cbn [lookup_last] in L. destruct (lookup_last t times obs) as [w|] eqn:L2; [discriminate|]. destruct (Z.eqb_spec u' t); [discriminate|]. destruct j' as [|j']; cbn in Q; [congruence|]. injection N as N. apply (IH obs L2 N j' Q). lia.
Qed.
Lemma lookup_last_none t : forall times obs, length times = length obs -> lookup_last t times obs = None -> ~ In t times.
Proof.
  induction times as [|u times IH]; intros [|y obs] N L I; try discriminate; [destruct I|]. cbn [lookup_last] in L. destruct (lookup_last t times obs) eqn:L2; [discriminate|]. destruct (Z.eqb_spec u t); [discriminate|].
  injection N as N. destruct I as [->|I]; [congruence|exact (IH obs N L2 I)].
Qed.
