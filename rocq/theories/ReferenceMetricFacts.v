(** Facts about the reference of a metric. *)
From Verif Require Import BaseFacts CalendarFacts LandCoverTableFacts2 ReferenceMetricSpec.
Open Scope Z_scope.

(** ** Whole numbers in order *)
Lemma between_in a b z : In z (between a b) <-> a <= z <= b.
Proof. unfold between. rewrite in_map_iff. split; [intros (k & <- & I); apply in_seq in I; lia|]. intro L. exists (Z.to_nat (z - a)). split; [lia|]. apply in_seq. lia. Qed.
Lemma between_split a b c : a <= b -> b <= c + 1 -> between a c = between a (b - 1) ++ between b c.
Proof.
  intros L M. unfold between. replace (Z.to_nat (c - a + 1)) with (Z.to_nat (b - 1 - a + 1) + Z.to_nat (c - b + 1))%nat by lia. rewrite seq_app, map_app. f_equal. simpl. replace (Z.to_nat (b - 1 - a + 1)) with (Z.to_nat (b - a)) by lia.
  rewrite <- (Nat.add_0_r (Z.to_nat (b - a))). assert (G : forall n k s, map (fun j => a + Z.of_nat j) (seq (k + s) n) = map (fun j => a + Z.of_nat k + Z.of_nat j) (seq s n)).
  { intros n k. induction n as [|n IH]; intro s; simpl; [reflexivity|]. f_equal; [lia|]. rewrite <- (IH (S s)). f_equal. f_equal. lia. }
  rewrite G. apply map_ext. intro j. lia.
Qed.
Lemma between_nil a b : b < a -> between a b = [].
Proof. intro L. unfold between. replace (Z.to_nat (b - a + 1)) with 0%nat by lia. reflexivity. Qed.
Lemma between_cons a b : a <= b -> between a b = a :: between (a + 1) b.
Proof.
  intro L. rewrite (between_split a (a + 1) b) by lia. replace (a + 1 - 1) with a by lia. unfold between at 1. replace (a - a + 1) with 1 by lia. simpl. f_equal. lia.
Qed.
Lemma between_nodup a b : NoDup (between a b).
Proof. unfold between. apply FinFun.Injective_map_NoDup; [intros x y; lia|apply seq_NoDup]. Qed.
Lemma filter_none {A} (P : A -> bool) l : (forall x, In x l -> P x = false) -> filter P l = [].
Proof. intro H. induction l as [|x l IH]; [reflexivity|]. simpl. rewrite (H x (or_introl eq_refl)). apply IH. intros; apply H; right; assumption. Qed.
Lemma filter_all {A} (P : A -> bool) l : (forall x, In x l -> P x = true) -> filter P l = l.
Proof. intro H. induction l as [|x l IH]; [reflexivity|]. simpl. rewrite (H x (or_introl eq_refl)). f_equal. apply IH. intros; apply H; right; assumption. Qed.
Lemma between_filter a b c d : a <= c -> c <= d + 1 -> d <= b -> filter (fun z => (c <=? z) && (z <=? d))%bool (between a b) = between c d.
Proof.
  intros L1 L2 L3. rewrite (between_split a c b), (between_split c (d + 1) b) by lia. rewrite !filter_app. rewrite (filter_none _ (between a (c - 1))), (filter_none _ (between (d + 1) b)), app_nil_r, filter_all; [replace (d + 1 - 1) with d by lia; reflexivity| | |].
  - intros z I. apply between_in in I. apply Bool.andb_true_iff. split; apply Z.leb_le; lia.
  - intros z I. apply between_in in I. apply Bool.andb_false_iff. right. apply Z.leb_gt. lia.
  - intros z I. apply between_in in I. apply Bool.andb_false_iff. left. apply Z.leb_gt. lia.
Qed.
Lemma filter_blocks {A B} (P : B -> bool) (Q : A -> bool) (f : A -> list B) l : (forall x y, In x l -> In y (f x) -> P y = Q x) -> filter P (flat_map f l) = flat_map f (filter Q l).
Proof.
  intro H. induction l as [|x l IH]; [reflexivity|]. simpl. rewrite filter_app, IH by (intros; apply H; [right|]; assumption). destruct (Q x) eqn:E; simpl.
  - rewrite filter_all; [reflexivity|]. intros y I. rewrite (H x y (or_introl eq_refl) I). exact E.
  - rewrite filter_none; [reflexivity|]. intros y I. rewrite (H x y (or_introl eq_refl) I). exact E.
Qed.

(** ** The days of a year *)
Definition month_days (leap : bool) : list (Z * nat) := map (fun p => if (fst p =? 2) && leap then (2, 29%nat) else p)%bool months.
Definition full_calendar (leap : bool) : list (Z * Z) := flat_map (fun p => map (fun d => (fst p, Z.of_nat d)) (seq 1 (snd p))) (month_days leap).
Lemma month_days_last y p : In p (month_days (is_leap y)) -> 1 <= fst p <= 12 /\ Z.of_nat (snd p) = last_day y (fst p).
Proof. intro I. unfold last_day. destruct (is_leap y); simpl in I; repeat (destruct I as [<-|I]; [simpl; lia|]); destruct I. Qed.
Lemma full_valid y p : In p (full_calendar (is_leap y)) -> 1 <= fst p <= 12 /\ 1 <= snd p <= last_day y (fst p).
Proof. intro I. apply in_flat_map in I. destruct I as (q & J & I). apply in_map_iff in I. destruct I as (d & <- & I). apply in_seq in I. destruct (month_days_last y q J) as (A & B). simpl. lia. Qed.
Lemma calendar_full leap : calendar = filter (fun p => negb ((fst p =? 2) && (snd p =? 29))) (full_calendar leap).
Proof. destruct leap; vm_compute; reflexivity. Qed.
Lemma calendar_in y p : In p calendar <-> (1 <= fst p <= 12 /\ 1 <= snd p <= last_day y (fst p)) /\ p <> (2, 29).
Proof.
  rewrite (calendar_full (is_leap y)), filter_In. destruct p as (m & d). cbn [fst snd]. rewrite Bool.negb_true_iff, Bool.andb_false_iff, !Z.eqb_neq. split.
  - intros (I & N). split; [exact (full_valid y (m, d) I)|]. intro Q. injection Q. lia.
  - intros ((A & B) & N). split; [|destruct (Z.eq_dec m 2); [right; congruence|left; assumption]]. unfold full_calendar. apply in_flat_map.
    assert (J : exists n, In (m, n) (month_days (is_leap y)) /\ Z.of_nat n = last_day y m).
    { assert (m = 1 \/ m = 2 \/ m = 3 \/ m = 4 \/ m = 5 \/ m = 6 \/ m = 7 \/ m = 8 \/ m = 9 \/ m = 10 \/ m = 11 \/ m = 12) as M by lia. unfold last_day. destruct (is_leap y); repeat (destruct M as [->|M]; [eexists; split; [simpl; tauto|reflexivity]|]); subst; eexists; (split; [simpl; tauto|reflexivity]). }
    destruct J as (n & J & E). exists (m, n). split; [exact J|]. simpl. apply in_map_iff. exists (Z.to_nat d). split; [f_equal; lia|]. apply in_seq. lia.
Qed.
Lemma month_block y m n : between (days_from_civil y m 1) (days_from_civil y m 1 + Z.of_nat n - 1) = map (fun d => days_from_civil y m (Z.of_nat d)) (seq 1 n).
Proof. unfold between. replace (Z.to_nat _) with n by lia. rewrite <- seq_shift, map_map. apply map_ext. intro d. rewrite (dfc_day y m (Z.of_nat (S d))). lia. Qed.
Lemma next_first y m : 1 <= m <= 12 -> month_start (12 * y + m) = days_from_civil y m 1 + last_day y m.
Proof. intro M. rewrite <- (month_start_of y m M). replace (12 * y + m) with (12 * y + (m - 1) + 1) by lia. rewrite month_start_next. f_equal. replace ((12 * y + (m - 1)) / 12) with y by (apply Z.div_unique with (m - 1); lia). f_equal. rewrite <- (Z.mod_unique (12 * y + (m - 1)) 12 y (m - 1)); lia. Qed.
Lemma year_end y : days_from_civil y 12 31 = days_from_civil (y + 1) 1 1 - 1.
Proof. pose proof (next_first y 12 ltac:(lia)) as N. rewrite jan_first. replace (12 * (y + 1)) with (12 * y + 12) by lia. rewrite N. rewrite dfc_day. change (last_day y 12) with 31. lia. Qed.
Lemma blocks y l m : (forall i p, nth_error l i = Some p -> fst p = m + Z.of_nat i /\ 1 <= fst p <= 12 /\ Z.of_nat (snd p) = last_day y (fst p)) -> 1 <= m ->
  between (month_start (12 * y + (m - 1))) (month_start (12 * y + (m - 1) + Z.of_nat (length l)) - 1) = map (fun p => days_from_civil y (fst p) (snd p)) (flat_map (fun p => map (fun d => (fst p, Z.of_nat d)) (seq 1 (snd p))) l).
Proof.
  revert m. induction l as [|(k & n) l IH]; intros m H M.
  - simpl length. rewrite Z.add_0_r. rewrite between_nil by lia. reflexivity.
  - destruct (H 0%nat (k, n) eq_refl) as (E & K & N). simpl in E, K, N. assert (Ek : k = m) by lia. clear E. subst k. simpl flat_map. rewrite map_app, map_map. cbn [fst snd]. rewrite <- month_block.
    rewrite (between_split _ (month_start (12 * y + m))).
    + f_equal; [f_equal; [apply month_start_of; exact K|rewrite (next_first y m K); lia]|]. replace (12 * y + m) with (12 * y + (m + 1 - 1)) by lia. rewrite <- (IH (m + 1)); [|intros i p Q; destruct (H (S i) p Q) as (A & B & C); split; [lia|auto]|lia]. f_equal. f_equal. f_equal. cbn [length]. lia.
    + rewrite (next_first y m K), (month_start_of y m K). lia.
    + pose proof (month_start_mono (12 * y + m) (length l)) as Q. cbn [length]. replace (12 * y + (m - 1) + Z.of_nat (S (length l))) with (12 * y + m + Z.of_nat (length l)) by lia. lia.
Qed.
Lemma year_full y : between (days_from_civil y 1 1) (days_from_civil y 12 31) = map (fun p => days_from_civil y (fst p) (snd p)) (full_calendar (is_leap y)).
Proof.
  unfold full_calendar. rewrite <- (blocks y (month_days (is_leap y)) 1); [|intros i p Q; split; [|apply month_days_last; eapply nth_error_In; exact Q]|lia].
  - replace (12 * y + (1 - 1)) with (12 * y) by lia. replace (Z.of_nat (length (month_days (is_leap y)))) with 12 by (unfold month_days; rewrite map_length; reflexivity). rewrite year_end, !jan_first. replace (12 * (y + 1)) with (12 * y + 12) by lia. reflexivity.
  - unfold month_days in Q. destruct (is_leap y); do 12 (destruct i as [|i]; [simpl in Q; injection Q as <-; reflexivity|]); destruct i; discriminate Q.
Qed.
Lemma day_of y p : In p (full_calendar (is_leap y)) -> civil_from_days (days_from_civil y (fst p) (snd p)) = (y, fst p, snd p).
Proof. intro I. destruct (full_valid y p I). apply civil_of_days; assumption. Qed.
Lemma calendar_sub y p : In p calendar -> In p (full_calendar (is_leap y)).
Proof. rewrite (calendar_full (is_leap y)). intro I. apply filter_In in I. tauto. Qed.
Lemma year_days_filter y : filter (fun z => negb (feb29 z)) (between (days_from_civil y 1 1) (days_from_civil y 12 31)) = days_of_year y.
Proof.
  rewrite year_full. unfold days_of_year. rewrite (calendar_full (is_leap y)). assert (H : forall p, In p (full_calendar (is_leap y)) -> feb29 (days_from_civil y (fst p) (snd p)) = ((fst p =? 2) && (snd p =? 29))%bool).
  { intros p I. unfold feb29, month_day. rewrite (day_of y p I). reflexivity. }
  revert H. generalize (full_calendar (is_leap y)). intro l. induction l as [|p l IH]; intro H; [reflexivity|]. simpl. rewrite (H p (or_introl eq_refl)). rewrite IH by (intros q I; apply H; right; exact I). destruct (negb _); reflexivity.
Qed.
Lemma year_in_days y z : In z (days_of_year y) -> year_of_day z = y.
Proof. intro I. apply in_map_iff in I. destruct I as (p & <- & I). unfold year_of_day. rewrite (day_of y p (calendar_sub y p I)). reflexivity. Qed.
Lemma years_split a b : a <= b + 1 -> between (days_from_civil a 1 1) (days_from_civil b 12 31) = flat_map (fun y => between (days_from_civil y 1 1) (days_from_civil y 12 31)) (between a b).
Proof.
  intro L. replace b with (a + Z.of_nat (Z.to_nat (b + 1 - a)) - 1) by lia. generalize (Z.to_nat (b + 1 - a)). clear. intro n. revert a. induction n as [|n IH]; intro a.
  - rewrite (between_nil a) by lia. rewrite between_nil; [reflexivity|]. rewrite year_end. replace (a + Z.of_nat 0 - 1 + 1) with a by lia. lia.
  - rewrite (between_cons a) by lia. cbn [flat_map]. replace (a + Z.of_nat (S n) - 1) with (a + 1 + Z.of_nat n - 1) by lia. rewrite <- IH.
    assert (F : forall k : nat, days_from_civil a 1 1 + 28 * Z.of_nat k <= month_start (12 * a + Z.of_nat k)) by (intro k; rewrite jan_first; apply month_start_mono).
    rewrite (between_split _ (days_from_civil (a + 1) 1 1)); [rewrite (year_end a); reflexivity| |].
    + rewrite (jan_first (a + 1)). pose proof (F 12%nat). replace (12 * (a + 1)) with (12 * a + Z.of_nat 12) by lia. lia.
    + rewrite year_end. rewrite !jan_first. pose proof (month_start_mono (12 * (a + 1)) (12 * n)) as Q. replace (12 * (a + 1 + Z.of_nat n - 1 + 1)) with (12 * (a + 1) + Z.of_nat (12 * n)) by lia. lia.
Qed.
Definition rows (obs : Z -> value) (l : list Z) : list obs_row := map (fun z => mkRow z (obs z)) l.
Lemma filter_rows obs P l : filter (fun r => P (rw_day r)) (rows obs l) = rows obs (filter P l).
Proof. induction l as [|z l IH]; [reflexivity|]. simpl. rewrite IH. destruct (P z); reflexivity. Qed.
Lemma prepared obs a b : a <= b + 1 -> prepare (observed obs a b) = rows obs (flat_map days_of_year (between a b)).
Proof.
  intro L. unfold prepare, observed. change (map (fun z => mkRow z (obs z)) ?l) with (rows obs l). rewrite (filter_rows obs (fun z => negb (feb29 z))). f_equal. rewrite years_split by exact L.
  generalize (between a b). intro l. induction l as [|y l IH]; [reflexivity|]. simpl. rewrite filter_app, IH, year_days_filter. reflexivity.
Qed.

(** ** Years *)
Lemma uniques_block y n r : uniques (repeat y (S n) ++ r) = y :: filter (fun z => negb (z =? y)) (uniques r).
Proof.
  induction n as [|n IH]; [reflexivity|]. change (uniques (repeat y (S (S n)) ++ r)) with (y :: filter (fun z => negb (z =? y)) (uniques (repeat y (S n) ++ r))). rewrite IH. f_equal. simpl. rewrite Z.eqb_refl. simpl.
  generalize (uniques r). intro l. induction l as [|z l IH']; [reflexivity|]. simpl. destruct (z =? y) eqn:E; simpl; [exact IH'|rewrite E; simpl; f_equal; exact IH'].
Qed.
Lemma uniques_years (f : Z -> list Z) ys : NoDup ys -> (forall y, In y ys -> exists n, map year_of_day (f y) = repeat y (S n)) -> uniques (map year_of_day (flat_map f ys)) = ys.
Proof.
  intros N H. induction ys as [|y ys IH]; [reflexivity|]. inversion N as [|? ? N1 N2]; subst. simpl. rewrite map_app. destruct (H y (or_introl eq_refl)) as (n & E). rewrite E, uniques_block. f_equal. rewrite IH; [|exact N2|intros; apply H; right; assumption].
  apply filter_all. intros z I. apply Bool.negb_true_iff, Z.eqb_neq. intros ->. contradiction.
Qed.
Lemma map_const {A} (f : A -> Z) c l : (forall x, In x l -> f x = c) -> map f l = repeat c (length l).
Proof. intro H. induction l as [|x l IH]; [reflexivity|]. simpl. rewrite (H x (or_introl eq_refl)). f_equal. apply IH. intros; apply H; right; assumption. Qed.
Lemma days_len y : length (days_of_year y) = 365%nat.
Proof. unfold days_of_year. rewrite map_length. reflexivity. Qed.
Lemma years_prepared obs ys : NoDup ys -> years_in (rows obs (flat_map days_of_year ys)) = ys.
Proof.
  intro N. unfold years_in, rows. rewrite map_map. simpl. apply uniques_years; [exact N|]. intros y _. exists 364%nat. rewrite (map_const year_of_day y); [rewrite days_len; reflexivity|]. intros z I. exact (year_in_days y z I).
Qed.
Lemma range_years c d : c <= d + 1 -> uniques (map year_of_day (date_range (days_from_civil c 1 1) (days_from_civil d 12 31))) = between c d.
Proof.
  intro L. change (date_range ?a ?b) with (between a b). rewrite years_split by exact L. apply uniques_years; [apply between_nodup|]. intros y _. rewrite year_full, map_map.
  exists (pred (length (full_calendar (is_leap y)))). rewrite (map_const _ y); [|intros p I; unfold year_of_day; rewrite (day_of y p I); reflexivity]. reflexivity.
Qed.
Lemma in_years z y : In z (days_of_year y) -> forall c d, ((days_from_civil c 1 1 <=? z) && (z <=? days_from_civil d 12 31))%bool = ((c <=? y) && (y <=? d))%bool.
Proof.
  intros I c d. apply year_in_days in I. unfold year_of_day in I. rewrite year_end. f_equal; apply Bool.eq_true_iff_eq; rewrite !Z.leb_le.
  - rewrite <- year_after. rewrite <- I. destruct (civil_from_days z) as ((u & m) & k). tauto.
  - pose proof (year_after z (d + 1)) as Q. rewrite <- I. destruct (civil_from_days z) as ((u & m) & k). lia.
Qed.
Lemma compared_rows obs a b start stop c d : compared a b start stop c d -> comparison (rows obs (flat_map days_of_year (between a b))) start stop = (between c d, rows obs (flat_map days_of_year (between c d))).
Proof.
  intros [(-> & -> & -> & ->)|(-> & -> & L1 & L2 & L3)]; unfold comparison; [rewrite years_prepared by apply between_nodup; reflexivity|]. rewrite range_years by lia. f_equal. unfold in_period.
  rewrite (filter_rows obs (fun z => (days_from_civil c 1 1 <=? z) && (z <=? days_from_civil d 12 31))%bool). f_equal. rewrite (filter_blocks _ (fun y => (c <=? y) && (y <=? d))%bool) by (intros y z _ I; apply in_years; exact I). f_equal. apply between_filter; lia.
Qed.
Lemma located obs a b ys : (forall y, In y ys -> a <= y <= b) -> locate (rows obs (flat_map days_of_year (between a b))) ys = Ok (rows obs (flat_map days_of_year ys)).
Proof.
  intro H. induction ys as [|y ys IH]; [reflexivity|]. simpl locate. rewrite IH by (intros; apply H; right; assumption). unfold rows_of_year. rewrite (filter_rows obs (fun z => year_of_day z =? y)).
  rewrite (filter_blocks _ (fun k => (y <=? k) && (k <=? y))%bool).
  2: { intros k z _ I. rewrite (year_in_days k z I). apply Bool.eq_true_iff_eq. rewrite Bool.andb_true_iff, Z.eqb_eq, !Z.leb_le. lia. }
  pose proof (H y (or_introl eq_refl)). rewrite between_filter by lia. rewrite between_cons, between_nil by lia. cbn [flat_map]. rewrite app_nil_r. destruct (rows obs (days_of_year y)) eqn:E; [exfalso; apply (f_equal (@length _)) in E; unfold rows in E; rewrite map_length, days_len in E; discriminate E|].
  rewrite <- E. cbn [bind]. unfold rows. rewrite map_app. reflexivity.
Qed.

(** ** Samples *)
Lemma product_in l n ys : In ys (product l n) <-> length ys = n /\ forall y, In y ys -> In y l.
Proof.
  revert ys. induction n as [|n IH]; intro ys; simpl.
  - split; [intros [<-|[]]; split; [reflexivity|intros y []]|]. intros (E & _). destruct ys; [auto|discriminate E].
  - rewrite in_flat_map. split.
    + intros (y & I & J). apply in_map_iff in J. destruct J as (zs & <- & J). apply IH in J. destruct J as (E & J). split; [simpl; congruence|]. intros k [<-|K]; auto.
    + intros (E & J). destruct ys as [|y ys]; [discriminate E|]. exists y. split; [apply J; left; reflexivity|]. apply in_map. apply IH. split; [simpl in E; congruence|]. intros; apply J; right; assumption.
Qed.
Lemma nodup_app {A} (l r : list A) : NoDup l -> NoDup r -> (forall x, In x l -> ~ In x r) -> NoDup (l ++ r).
Proof. induction l as [|x l IH]; simpl; [auto|]. intros N N' D. inversion N as [|? ? N1 N2]; subst. constructor; [intro I; apply in_app_or in I; destruct I as [I|I]; [contradiction|exact (D x (or_introl eq_refl) I)]|]. apply IH; auto. Qed.
Lemma product_nodup l n : NoDup l -> NoDup (product l n).
Proof.
  intro N. induction n as [|n IH]; [repeat constructor; intros []|]. simpl. generalize dependent (product l n). intros p Np. induction l as [|y l IHl]; [constructor|]. inversion N as [|? ? N1 N2]; subst. simpl. apply nodup_app.
  - apply FinFun.Injective_map_NoDup; [intros u v E; congruence|exact Np].
  - apply IHl. exact N2.
  - intros x I J. apply in_map_iff in I. destruct I as (u & <- & _). apply in_flat_map in J. destruct J as (k & K & J). apply in_map_iff in J. destruct J as (v & E & _). injection E as -> _. contradiction.
Qed.
Lemma excluded_spec ys zs : length ys = length zs -> excluded ys zs = false <-> Forall2 (fun y z => y <> z) ys zs.
Proof.
  unfold excluded. revert zs. induction ys as [|y ys IH]; intros [|z zs] E; try discriminate E; simpl; [split; [constructor|reflexivity]|]. simpl in E. rewrite Bool.orb_false_iff, IH by congruence. rewrite Z.eqb_neq. split.
  - intros (A & B). constructor; [lia|exact B].
  - intro F. inversion F; subst. split; [lia|assumption].
Qed.
Lemma sample_spec a b exclusion zs ys : sample_for a b exclusion zs ys <-> (length ys = length zs /\ forall y, In y ys -> a <= y <= b) /\ (exclusion && excluded ys zs)%bool = false.
Proof.
  unfold sample_for. split.
  - intro F. assert (E : length ys = length zs) by (clear -F; induction F; simpl; congruence). split; [split; [exact E|]|].
    + clear E. induction F as [|y z ys zs (L & _) F IH]; intros k K; [destruct K|]. destruct K as [<-|K]; auto.
    + destruct exclusion; [|reflexivity]. simpl. apply excluded_spec; [exact E|]. clear E. induction F as [|y z ys zs (_ & L) F IH]; constructor; auto.
  - intros ((E & H) & X). destruct exclusion; simpl in X.
    + apply excluded_spec in X; [|exact E]. clear E. induction X as [|y z ys zs N X IH]; constructor; [split; [apply H; left; reflexivity|auto]|]. apply IH. intros; apply H; right; assumption.
    + clear X. revert zs E. induction ys as [|y ys IH]; intros [|z zs] E; try discriminate E; constructor; [split; [apply H; left; reflexivity|discriminate]|]. apply IH; [intros; apply H; right; assumption|simpl in E; congruence].
Qed.
Lemma np_mean_spec l : mean_value l (np_mean l).
Proof.
  assert (T : forall l, (exists xs, l = map (fun x => Some x) xs /\ total l = Some (Rsum (fun x => x) xs)) \/ (In None l /\ total l = None)).
  { clear. induction l as [|[x|] l IH]; [left; exists []; split; reflexivity| |right; split; [left; reflexivity|reflexivity]]. destruct IH as [(xs & -> & E)|(I & E)]; simpl; rewrite E; [left; exists (x :: xs); split; reflexivity|right; split; [right; exact I|reflexivity]]. }
  unfold mean_value, np_mean. destruct l as [|v l]; [right; auto|]. destruct (T (v :: l)) as [(xs & E & Q)|(I & Q)]; rewrite Q; [left|right; auto]. exists xs. split; [exact E|]. split; [intros ->; discriminate E|]. rewrite E, map_length. reflexivity.
Qed.
