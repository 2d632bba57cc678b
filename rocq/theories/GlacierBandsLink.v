(** From the rows on elevation bands to the table of the hydro units. *)
From Verif Require Import Base BaseFacts GlacierActions GlacierSpec GlacierFacts GlacierTables GlacierTablesSpec GlacierTablesFacts GlacierTablesLink GlacierDeltaHFacts GlacierDeltaHLink
  GlacierBandsSpec GlacierBandsFacts.
Open Scope R_scope.

Lemma dh_lines_is profile : with_ice profile -> dh_lines profile = glacier_lines profile.
Proof.
  intros (_ & H). unfold dh_lines, glacier_lines. apply filter_ext_in. intros l Hl. destruct (H l Hl) as (A & _). destruct (Reqb (dl_area l) 0) eqn:E; cbn [negb].
  - apply Reqb_true in E. symmetry. apply Rltb_false. lra.
  - apply Reqb_false in E. symmetry. apply Rltb_true. lra.
Qed.
Lemma single_filter f b k : (b < k)%nat -> Rsum f (filter (fun j => (j =? b)%nat) (seq 0 k)) = f b.
Proof.
  intro Hb. rewrite <- (Rsum_single (f b) b (seq 0 k)); [|apply seq_NoDup|apply in_seq; lia]. induction (seq 0 k) as [|j l IH]; [reflexivity|]. cbn [filter Rsum].
  destruct (Nat.eqb_spec j b) as [->|Hn]; cbn [Rsum]; rewrite IH; [rewrite ?Nat.eqb_refl|]; ring || (destruct (Nat.eqb_spec b j); [congruence|ring]) || idtac.
Qed.

Section Lines.
Variables (g : grid) (p : list dh_line) (E : list R).
Hypothesis Hc : 0 < g_catchment g.
Hypothesis Hp : forall l, In l p -> 0 < dl_area l /\ 0 < dl_thick l.
Hypothesis HE : elevations p E.
Hypothesis Hup : forall i j, (i <= j < length p)%nat -> dl_elev (line p i) <= dl_elev (line p j).
Let cat := g_catchment g.
Let K := iceDensity.
Let m := length E.
Lemma lk_pos : 0 < K. Proof. unfold K, iceDensity. lra. Qed.
Lemma bands_are : elev_bands p = E.
Proof. destruct HE as (H1 & H2). apply increasing_unique; [apply elev_bands_increasing|exact H1|]. intro e. rewrite elev_bands_in, H2. reflexivity. Qed.
Lemma count_is : band_count p = m.
Proof. unfold band_count. rewrite bands_are. reflexivity. Qed.
Lemma elev_at j : (j < length p)%nat -> nth j (map dl_elev p) 0 = dl_elev (line p j).
Proof. intro Hj. change 0 with (dl_elev (mkDL 0 0 0 0)). apply map_nth. Qed.
Lemma line_level j : (j < length p)%nat -> (line_band p j < m)%nat /\ nth (line_band p j) E 0 = dl_elev (line p j).
Proof.
  intro Hj. unfold line_band. destruct (sub_parts p) eqn:Es.
  - rewrite bands_are. apply index_of_nth. destruct HE as (_ & H2). apply H2. exists (line p j). split; [apply nth_In; exact Hj|reflexivity].
  - unfold sub_parts in Es. apply negb_false_iff, Nat.eqb_eq in Es.
    assert (Eq : E = map dl_elev p).
    { rewrite <- bands_are. unfold elev_bands in *. apply sort_sorted.
      - intros i k Hik. rewrite map_length in Hik. rewrite (elev_at i), (elev_at k) by lia. apply Hup. exact Hik.
      - rewrite Es, map_length. reflexivity. }
    unfold m. rewrite Eq, map_length. split; [exact Hj|]. apply elev_at. exact Hj.
Qed.
Lemma level_index j : (j < length p)%nat -> index_of (dl_elev (line p j)) E = line_band p j.
Proof.
  intro Hj. destruct (line_level j Hj) as (A & B). destruct HE as (H1 & H2). apply (increasing_nth_inj E _ _ H1).
  - apply index_of_nth. rewrite <- B. apply nth_In. exact A.
  - exact A.
  - rewrite B. apply index_of_nth. rewrite <- B. apply nth_In. exact A.
Qed.
Lemma lines_at_level b : (b < m)%nat -> lines_of p b = lines_at p (nth b E 0).
Proof.
  intro Hb. unfold lines_of, lines_at. apply filter_ext_in. intros j Hj. apply in_seq in Hj. destruct (line_level j ltac:(lia)) as (A & B). rewrite <- B.
  destruct (Nat.eqb_spec (line_band p j) b) as [->|Hn]; [symmetry; apply Reqb_true; reflexivity|]. symmetry. apply Reqb_false. intro Q. apply Hn.
  destruct HE as (H1 & _). apply (increasing_nth_inj E _ _ H1 A Hb Q).
Qed.
Lemma lines_of_in b j : In j (lines_of p b) <-> (j < length p)%nat /\ line_band p j = b.
Proof. unfold lines_of. rewrite filter_In, in_seq, Nat.eqb_eq. split; intros (A & B); split; (lia || assumption). Qed.
Lemma has_line b : (b < m)%nat -> exists j, In j (lines_of p b).
Proof.
  intro Hb. destruct HE as (H1 & H2). assert (Hin : In (nth b E 0) E) by (apply nth_In; exact Hb). apply H2 in Hin. destruct Hin as (l & Hl & Ee).
  apply (In_nth _ _ (mkDL 0 0 0 0)) in Hl. destruct Hl as (j & Hj & <-). exists j. rewrite (lines_at_level b Hb). unfold lines_at. apply filter_In. split; [apply in_seq; lia|]. apply Reqb_true. exact Ee.
Qed.
Lemma line_pos j : (j < length p)%nat -> 0 < line_area g p j /\ 0 < line_we p j /\ line_area g p j * cat = dl_area (line p j) /\ line_we p j / K = dl_thick (line p j).
Proof.
  intro Hj. destruct (Hp (line p j) (nth_In _ _ Hj)) as (A & B). unfold line_area, line_we. fold (line p j). fold K cat. pose proof lk_pos. fold cat in Hc.
  split; [apply Rmult_lt_0_compat; [exact A|apply Rinv_0_lt_compat; exact Hc]|]. split; [apply Rmult_lt_0_compat; assumption|]. split; field; lra.
Qed.
Lemma level_sum f : Rsum (fun b => Rsum f (lines_of p b)) (seq 0 m) = Rsum f (seq 0 (length p)).
Proof. unfold lines_of. apply (sum_by_key f (line_band p)); [apply seq_NoDup|]. intros j Hj. apply in_seq in Hj. apply in_seq. destruct (line_level j ltac:(lia)). lia. Qed.

(** Row 0 of the bands. *)
Let s0 := db_start g p.
Lemma one_line b : sub_parts p = false -> (b < m)%nat -> (b < length p)%nat /\ lines_of p b = filter (fun j => (j =? b)%nat) (seq 0 (length p)).
Proof.
  intros Es Hb. split.
  - unfold sub_parts in Es. apply negb_false_iff, Nat.eqb_eq in Es. rewrite bands_are in Es. fold m in Es. lia.
  - unfold lines_of, line_band. rewrite Es. reflexivity.
Qed.
Lemma start_band b : (b < m)%nat -> db_area s0 b = Rsum (line_area g p) (lines_of p b) /\ bvol s0 b = Rsum (fun j => line_area g p j * line_we p j) (lines_of p b) /\
  0 < db_area s0 b /\ 0 < db_we s0 b.
Proof.
  intro Hb. assert (Sp : 0 < Rsum (line_area g p) (lines_of p b)).
  { destruct (has_line b Hb) as (j & Hj). pose proof Hj as Hj'. apply lines_of_in in Hj'. apply Rlt_le_trans with (line_area g p j); [apply line_pos; tauto|].
    apply (Rsum_elem_le (line_area g p)); [|exact Hj]. intros x Hx. apply lines_of_in in Hx. apply Rlt_le, line_pos. tauto. }
  assert (Vp : 0 < Rsum (fun j => line_area g p j * line_we p j) (lines_of p b)).
  { destruct (has_line b Hb) as (j & Hj). pose proof Hj as Hj'. apply lines_of_in in Hj'. assert (Q : forall x, In x (lines_of p b) -> 0 < line_area g p x * line_we p x).
    { intros x Hx. apply lines_of_in in Hx. destruct (line_pos x) as (A & B & _); [tauto|]. apply Rmult_lt_0_compat; assumption. }
    apply Rlt_le_trans with (line_area g p j * line_we p j); [apply Q; exact Hj|]. apply (Rsum_elem_le (fun j => line_area g p j * line_we p j)); [|exact Hj]. intros x Hx. apply Rlt_le, Q, Hx. }
  unfold bvol, s0, db_start. destruct (sub_parts p) eqn:Es; cbn [db_area db_we].
  - unfold band_sum. set (A := Rsum (line_area g p) (lines_of p b)) in *. split; [reflexivity|].
    assert (Q : Rsum (fun j => line_we p j * (line_area g p j / A)) (lines_of p b) = Rsum (fun j => line_area g p j * line_we p j) (lines_of p b) * / A).
    { rewrite <- Rsum_scal_r. apply Rsum_ext_in. intros. unfold Rdiv. ring. }
    rewrite Q. split; [field; lra|]. split; [exact Sp|]. apply Rmult_lt_0_compat; [exact Vp|apply Rinv_0_lt_compat; exact Sp].
  - destruct (one_line b Es Hb) as (Hb' & El). rewrite El. rewrite !single_filter by exact Hb'. destruct (line_pos b Hb') as (A & B & _). auto.
Qed.
Lemma start_positive : forall b, (b < m)%nat -> 0 < db_area s0 b /\ 0 < db_we s0 b.
Proof. intros b Hb. destruct (start_band b Hb) as (_ & _ & A). exact A. Qed.
Lemma start_vol b : (b < m)%nat -> 0 < bvol s0 b.
Proof. intro Hb. destruct (start_positive b Hb). apply Rmult_lt_0_compat; assumption. Qed.
Lemma start_mass : total_we g p = bmass m s0.
Proof. unfold total_we, bmass. rewrite <- level_sum. apply Rsum_ext_in. intros b Hb. apply in_seq in Hb. symmetry. apply start_band. lia. Qed.
Lemma start_excess : db_excess s0 = 0.
Proof. unfold s0, db_start. destruct (sub_parts p); reflexivity. Qed.
(** The lines of a row. *)
Lemma lines_row q j : band_ok m q -> (j < length p)%nat -> let b := line_band p j in
  line_area_at g p s0 q j = line_area g p j * (db_area q b / db_area s0 b) /\
  line_we_at g p s0 q j * line_area_at g p s0 q j = line_area g p j * line_we p j * (bvol q b / bvol s0 b).
Proof.
  intros Hq Hj b. destruct (line_level j Hj) as (Hb & _). fold b in Hb. destruct (start_positive b Hb) as (P1 & P2). destruct (line_pos j Hj) as (L1 & L2 & _). unfold line_area_at, line_we_at.
  destruct (sub_parts p) eqn:Es.
  - fold b. destruct (Hq b Hb) as [(Q1 & Q2)|(Q1 & Q2)].
    + rewrite (proj2 (Reqb_false (db_we q b) 0)) by lra. assert (W : 0 < line_we p j * (db_we q b / db_we s0 b)) by (apply Rmult_lt_0_compat; [exact L2|apply Rmult_lt_0_compat; [exact Q2|apply Rinv_0_lt_compat; exact P2]]).
      rewrite (proj2 (Rltb_true _ _) W). rewrite (proj2 (Reqb_false (line_we p j * (db_we q b / db_we s0 b)) 0)) by lra. split; [reflexivity|]. unfold bvol. field. lra.
    + rewrite (proj2 (Reqb_true _ _) Q2). rewrite (proj2 (Rltb_false 0 0)) by lra. rewrite (proj2 (Reqb_true 0 0) eq_refl). unfold bvol, Rdiv. rewrite Q1, Q2. split; ring.
  - assert (Eb : b = j) by (unfold b, line_band; rewrite Es; reflexivity). destruct (one_line b Es Hb) as (Hb' & El). destruct (start_band b Hb) as (S1 & S2 & _). rewrite El in S1, S2. rewrite !single_filter in S1, S2 by exact Hb'.
    rewrite S1, S2, Eb. unfold bvol. split; field; lra.
Qed.
End Lines.

Section Table.
Variables (g : grid) (n : nat) (w : dh_width) (name : string) (shape : nat -> R) (profile : list dh_line) (E : list R).
Hypothesis Hc : 0 < g_catchment g.
Hypothesis Hn : (0 < n)%nat.
Hypothesis Hice : with_ice profile.
Hypothesis Hup : upwards profile.
Let p := glacier_lines profile.
Hypothesis HE : elevations p E.
Hypothesis Hs : forall b, (b < length E)%nat -> 0 <= shape b.
Let m := length E.
Let s0 := db_start g p.
Let cat := g_catchment g.
Let K := iceDensity.
Lemma p_positive l : In l p -> 0 < dl_area l /\ 0 < dl_thick l.
Proof. intro H. unfold p, glacier_lines in H. apply filter_In in H. destruct H as (H1 & H2). apply Rltb_true in H2. destruct Hice as (_ & Q). destruct (Q l H1) as (_ & X). auto. Qed.
Lemma s0_pos : forall b, (b < m)%nat -> 0 < db_area s0 b /\ 0 < db_we s0 b.
Proof. exact (start_positive g p E Hc p_positive HE Hup). Qed.
Lemma s0_vol b : (b < m)%nat -> 0 < bvol s0 b.
Proof. exact (start_vol g p E Hc p_positive HE Hup b). Qed.
Lemma s0_ok : band_ok m s0.
Proof. intros b Hb. left. apply s0_pos. exact Hb. Qed.
Lemma s0_width : width_inv m w s0 s0.
Proof. intros b Hb. pose proof (s0_vol b Hb). destruct w; [exact I| |reflexivity]. unfold Rdiv. rewrite Rinv_r by lra. rewrite sqrt_1. ring. Qed.
Lemma mass_pos : 0 < bmass m s0.
Proof.
  destruct Hice as (Q & _). fold p in Q. assert (H0 : (0 < length p)%nat) by (destruct p; [congruence|cbn; lia]).
  destruct (line_level p E HE Hup 0 H0) as (A & _). fold m in A. apply Rlt_le_trans with (bvol s0 (line_band p 0)); [apply s0_vol; exact A|].
  apply (Rsum_elem_le (bvol s0)); [|apply in_seq; lia]. intros b Hb. apply in_seq in Hb. apply Rlt_le, s0_vol. lia.
Qed.
Definition work : outcome (list dh_band) := db_rows m n w (bmass m s0) shape s0 s0 (n - 1).
Definition made (q : list dh_band) : gtable := lines_table g n name p
        (fun r j => match r with O => line_area g p j | _ => line_area_at g p s0 (nth r q zero_band) j end)
        (fun r j => match r with O => line_we p j | _ => line_we_at g p s0 (nth r q zero_band) j end).
Lemma bands_is : dh_bands_table g n w name shape profile = bind work (fun l => bind (db_finish m w s0 (l ++ [zero_band])) (fun q => Ok (made q))).
Proof.
  unfold dh_bands_table. rewrite (dh_lines_is profile Hice). fold p. rewrite (count_is p E HE). fold m. rewrite (start_mass g p E Hc p_positive HE Hup). fold m s0. destruct (Nat.eqb_spec n 0); [lia|].
  fold work. destruct work; reflexivity.
Qed.
Lemma rows_ok : work <> Throw /\ forall l, work = Ok l -> length l = n /\ nth 0 l zero_band = s0 /\
    (forall r, (r < n)%nat -> band_ok m (nth r l zero_band) /\ width_inv m w s0 (nth r l zero_band) /\ 0 <= db_excess (nth r l zero_band)) /\
    (forall r, (S r < n)%nat -> bstep m n w shape s0 (bmass m s0) (nth r l zero_band) (nth (S r) l zero_band)).
Proof.
  destruct (db_rows_ok m n w shape s0 s0_pos Hs Hn (bmass m s0) (Rlt_le _ _ mass_pos) (n - 1) s0 s0_ok s0_width) as (A & B). { unfold s0. rewrite start_excess. lra. }
  split; [exact A|]. intros l Hl. destruct (B l Hl) as (B1 & B2 & B3 & B4). split; [lia|]. split; [apply B2|]. split; [intros r Hr; apply B3; lia|intros r Hr; apply B4; lia].
Qed.
Lemma rows_made : (forall b, (b < m)%nat -> 0 < shape b) -> exists l, work = Ok l.
Proof.
  intro Hpos. apply (db_rows_exist m n w shape s0 s0_pos Hs Hn (bmass m s0) mass_pos Hpos (n - 1) s0 0 s0_ok s0_width).
  - unfold s0. rewrite start_excess. lra.
  - unfold s0 at 2. rewrite start_excess. cbn [INR]. unfold Rdiv. ring.
  - lia.
Qed.
(** The last change of width. *)
Lemma zero_ok : band_ok m zero_band.
Proof. intros b _. right. split; reflexivity. Qed.
Lemma finish_ok l : work = Ok l -> exists q, db_finish m w s0 (l ++ [zero_band]) = Ok q /\ nth 0 q zero_band = s0 /\
  (forall r, (r < n)%nat -> band_ok m (nth r q zero_band) /\ (forall b, (b < m)%nat -> bvol (nth r q zero_band) b = bvol (nth r l zero_band) b) /\
     (w <> WidthFixed -> nth r q zero_band = nth r l zero_band) /\
     (w = WidthFixed -> forall b, (b < m)%nat -> db_area (nth r q zero_band) b = db_area s0 b * sqrt (bvol (nth r l zero_band) b / bvol s0 b))) /\
  band_ok m (nth n q zero_band) /\ (forall b, (b < m)%nat -> bvol (nth n q zero_band) b = 0).
Proof.
  intro Hl. destruct rows_ok as (_ & R). destruct (R l Hl) as (L & F & R1 & _).
  assert (Nl : forall r, (r < n)%nat -> nth r (l ++ [zero_band]) zero_band = nth r l zero_band) by (intros r Hr; apply app_nth1; lia).
  assert (Nz : nth n (l ++ [zero_band]) zero_band = zero_band) by (rewrite app_nth2 by lia; replace (n - length l)%nat with 0%nat by lia; reflexivity).
  assert (Plain : w <> WidthFixed -> exists q, Ok (l ++ [zero_band])%list = Ok q /\ nth 0 q zero_band = s0 /\
    (forall r, (r < n)%nat -> band_ok m (nth r q zero_band) /\ (forall b, (b < m)%nat -> bvol (nth r q zero_band) b = bvol (nth r l zero_band) b) /\
     (w <> WidthFixed -> nth r q zero_band = nth r l zero_band) /\
     (w = WidthFixed -> forall b, (b < m)%nat -> db_area (nth r q zero_band) b = db_area s0 b * sqrt (bvol (nth r l zero_band) b / bvol s0 b))) /\
    band_ok m (nth n q zero_band) /\ (forall b, (b < m)%nat -> bvol (nth n q zero_band) b = 0)).
  { intro Hw. exists (l ++ [zero_band])%list. split; [reflexivity|]. rewrite (Nl 0%nat Hn). split; [exact F|]. split.
    - intros r Hr. rewrite (Nl r Hr). split; [apply R1; exact Hr|]. split; [reflexivity|]. split; [reflexivity|congruence].
    - rewrite Nz. split; [exact zero_ok|]. intros b _. unfold bvol. cbn. ring. }
  destruct w eqn:Ew; [apply Plain; discriminate|apply Plain; discriminate|]. clear Plain. rewrite <- Ew in *.
  destruct l as [|s l]; [cbn in L; lia|]. cbn [nth] in F. subst s. cbn [app].
  assert (Fin : forall x, In x (l ++ [zero_band])%list -> band_ok m x /\ (forall b, (b < m)%nat -> 0 < db_area x b -> db_area x b = db_area s0 b)).
  { intros x Hx. apply in_app_or in Hx. destruct Hx as [Hx|[<-|[]]]; [|split; [exact zero_ok|cbn; intros; lra]]. apply (In_nth _ _ zero_band) in Hx. destruct Hx as (i & Hi & <-). cbn [length] in L.
    destruct (R1 (S i) ltac:(lia)) as (X1 & X2 & _). cbn [nth] in X1, X2. split; [exact X1|]. intros b Hb. specialize (X2 b Hb). rewrite Ew in X2. exact X2. }
  destruct (outcomes_nth (db_final m s0) (l ++ [zero_band])) as (q & Hq & Lq & Nq).
  { intros x Hx. destruct (Fin x Hx) as (X1 & X2). destruct (db_final_ok m n s0 s0_pos Hn x X1 X2) as (s' & Hs' & _). eauto. }
  exists (s0 :: q). split; [rewrite Ew; cbn [db_finish]; rewrite Hq; reflexivity|]. split; [reflexivity|].
  assert (Row : forall i, (i < length (l ++ [zero_band]))%nat -> band_ok m (nth i q zero_band) /\ forall b, (b < m)%nat -> bvol (nth i q zero_band) b = bvol (nth i (l ++ [zero_band]) zero_band) b /\
     db_area (nth i q zero_band) b = db_area s0 b * sqrt (bvol (nth i (l ++ [zero_band]) zero_band) b / bvol s0 b)).
  { intros i Hi. destruct (Fin _ (nth_In _ zero_band Hi)) as (X1 & X2). destruct (db_final_ok m n s0 s0_pos Hn _ X1 X2) as (s' & Hs' & Y1 & Y2). rewrite (Nq i zero_band zero_band Hi) in Hs'. injection Hs' as <-. auto. }
  rewrite app_length in Row. cbn [length] in Row, L. split.
  - intros r Hr. destruct r as [|r].
    + cbn [nth]. split; [exact s0_ok|]. split; [reflexivity|]. split; [congruence|]. intros _ b Hb. pose proof (s0_vol b Hb). unfold Rdiv. rewrite Rinv_r by lra. rewrite sqrt_1. ring.
    + cbn [nth]. destruct (Row r ltac:(lia)) as (Y1 & Y2). specialize (Nl (S r) Hr). cbn [app nth] in Nl. rewrite Nl in Y2. split; [exact Y1|]. split; [intros b Hb; apply Y2; exact Hb|]. split; [congruence|]. intros _ b Hb. apply Y2. exact Hb.
  - destruct n as [|n']; [lia|]. cbn [nth]. destruct (Row n' ltac:(lia)) as (Y1 & Y2). cbn [app nth] in Nz. split; [exact Y1|]. intros b Hb. destruct (Y2 b Hb) as (-> & _). rewrite Nz. unfold bvol. cbn. ring.
Qed.
Section Made.
Variables (l q : list dh_band).
Hypothesis Hl : work = Ok l.
Hypothesis Hq0 : nth 0 q zero_band = s0.
Hypothesis Hq : forall r, (r < n)%nat -> band_ok m (nth r q zero_band) /\ (forall b, (b < m)%nat -> bvol (nth r q zero_band) b = bvol (nth r l zero_band) b) /\
     (w <> WidthFixed -> nth r q zero_band = nth r l zero_band) /\
     (w = WidthFixed -> forall b, (b < m)%nat -> db_area (nth r q zero_band) b = db_area s0 b * sqrt (bvol (nth r l zero_band) b / bvol s0 b)).
Hypothesis Hqn : band_ok m (nth n q zero_band) /\ (forall b, (b < m)%nat -> bvol (nth n q zero_band) b = 0).
Definition kept_at (r : nat) (e : R) : R := match r with O => 1 | _ => bvol (nth r q zero_band) (index_of e E) / bvol s0 (index_of e E) end.
Definition narrow_at (r : nat) (e : R) : R := match r with O => 1 | _ => db_area (nth r q zero_band) (index_of e E) / db_area s0 (index_of e E) end.
Definition unmet_at (r : nat) : R := db_excess (nth r l zero_band) * cat / K.
Lemma in_E b : (b < m)%nat -> index_of (nth b E 0) E = b.
Proof.
  intro Hb. destruct HE as (H1 & _). destruct (index_of_nth (nth b E 0) E (nth_In _ _ Hb)) as (A & B). apply (increasing_nth_inj E _ _ H1 A Hb B).
Qed.
Lemma kept_band r b : (r < n)%nat -> (b < m)%nat -> kept_at r (nth b E 0) = bvol (nth r l zero_band) b / bvol s0 b.
Proof.
  intros Hr Hb. pose proof (s0_vol b Hb). destruct r as [|r].
  - destruct rows_ok as (_ & R). destruct (R l Hl) as (_ & F & _). rewrite F. cbn. field. lra.
  - cbn [kept_at]. rewrite (in_E b Hb). destruct (Hq (S r) Hr) as (_ & -> & _); [reflexivity|exact Hb].
Qed.
Lemma narrow_band r b : (r < n)%nat -> (b < m)%nat -> narrow_at r (nth b E 0) = db_area (nth r q zero_band) b / db_area s0 b.
Proof.
  intros Hr Hb. destruct (s0_pos b Hb). destruct r as [|r]; [rewrite Hq0; cbn; field; lra|]. cbn [narrow_at]. rewrite (in_E b Hb). reflexivity.
Qed.
Lemma line_has_level x : In x p -> exists b, (b < m)%nat /\ dl_elev x = nth b E 0.
Proof. intro Hx. destruct HE as (_ & H2). assert (H : In (dl_elev x) E) by (apply H2; eauto). apply (In_nth _ _ 0) in H. destruct H as (b & Hb & Eb). exists b. auto. Qed.
Lemma made_values r j : (r < n)%nat -> (j < length p)%nat ->
  match r with O => line_area g p j | _ => line_area_at g p s0 (nth r q zero_band) j end * cat = dl_area (line p j) * narrow_at r (dl_elev (line p j)) /\
  match r with O => line_we p j | _ => line_we_at g p s0 (nth r q zero_band) j end * (match r with O => line_area g p j | _ => line_area_at g p s0 (nth r q zero_band) j end * cat) / K
    = dl_area (line p j) * dl_thick (line p j) * kept_at r (dl_elev (line p j)).
Proof.
  intros Hr Hj. destruct (line_pos g p Hc p_positive j Hj) as (_ & _ & L3 & L4). fold cat in L3. pose proof lk_pos as Kp. fold K in L4, Kp. destruct r as [|r].
  - cbn [kept_at narrow_at]. rewrite L3, <- L4. split; [ring|unfold Rdiv; ring].
  - destruct (Hq (S r) Hr) as (Ok1 & _). destruct (lines_row g p E Hc p_positive HE Hup (nth (S r) q zero_band) j Ok1 Hj) as (A & B). fold s0 in A, B.
    cbn [kept_at narrow_at]. rewrite (level_index p E HE Hup j Hj). rewrite <- Rmult_assoc, B, A, <- L3, <- L4. unfold Rdiv. split; ring.
Qed.
Lemma level_ice r b : (r < n)%nat -> (b < m)%nat -> ice_kept p (kept_at r) (lines_at p (nth b E 0)) = bvol (nth r l zero_band) b * cat / K.
Proof.
  intros Hr Hb. destruct (start_band g p E Hc p_positive HE Hup b Hb) as (_ & V & _). fold s0 in V. rewrite <- (lines_at_level p E HE Hup b Hb). unfold ice_kept.
  pose proof (s0_vol b Hb) as V0. pose proof lk_pos as Kp. fold K in Kp.
  rewrite (Rsum_ext_in _ (fun j => line_area g p j * line_we p j * (bvol (nth r l zero_band) b / bvol s0 b * cat / K))).
  - rewrite Rsum_scal_r, <- V. field. split; lra.
  - intros j Hj. apply (lines_of_in p E) in Hj. destruct Hj as (Hj & Ej). destruct (line_pos g p Hc p_positive j Hj) as (_ & _ & L3 & L4). fold cat in L3. fold K in L4. rewrite <- L3, <- L4.
    destruct (line_level p E HE Hup j Hj) as (_ & <-). rewrite Ej, (kept_band r b Hr Hb). unfold Rdiv. ring.
Qed.
Lemma level_extent f b : (b < m)%nat -> extent_kept p f (lines_at p (nth b E 0)) = f (nth b E 0) * db_area s0 b * cat.
Proof.
  intros Hb. destruct (start_band g p E Hc p_positive HE Hup b Hb) as (V & _). fold s0 in V. rewrite <- (lines_at_level p E HE Hup b Hb). unfold extent_kept.
  rewrite (Rsum_ext_in _ (fun j => line_area g p j * (f (nth b E 0) * cat))).
  - rewrite Rsum_scal_r, <- V. ring.
  - intros j Hj. apply (lines_of_in p E) in Hj. destruct Hj as (Hj & Ej). destruct (line_pos g p Hc p_positive j Hj) as (_ & _ & L3 & _). fold cat in L3. rewrite <- L3.
    destruct (line_level p E HE Hup j Hj) as (_ & <-). rewrite Ej. ring.
Qed.
Lemma work_extent r b : (r < n)%nat -> (b < m)%nat -> in_use w (kept_at r) (narrow_at r) (nth b E 0) * db_area s0 b = db_area (nth r l zero_band) b.
Proof.
  intros Hr Hb. destruct (s0_pos b Hb) as (P1 & P2). pose proof (s0_vol b Hb) as V0. destruct rows_ok as (_ & R). destruct (R l Hl) as (_ & _ & R1 & _). destruct (R1 r Hr) as (W1 & W2 & _).
  destruct (Hq r Hr) as (_ & _ & Q3 & _). specialize (W2 b Hb). unfold in_use.
  assert (Plain : w <> WidthFixed -> narrow_at r (nth b E 0) * db_area s0 b = db_area (nth r l zero_band) b) by (intro Hw; rewrite (narrow_band r b Hr Hb), (Q3 Hw); field; lra).
  pose proof (kept_band r b Hr Hb) as Kb. revert W2 Plain. clear Q3. generalize w. intro v. destruct v; intros W2 Plain; [apply Plain; discriminate|apply Plain; discriminate|]. rewrite Kb. destruct (W1 b Hb) as [(A1 & A2)|(A1 & A2)].
  - rewrite (proj2 (Rltb_true _ _)); [rewrite (W2 A1); ring|]. apply Rmult_lt_0_compat; [apply Rmult_lt_0_compat; assumption|apply Rinv_0_lt_compat; exact V0].
  - unfold bvol at 1. rewrite A1, Rmult_0_l. unfold Rdiv. rewrite Rmult_0_l. rewrite (proj2 (Rltb_false 0 0)) by lra. ring.
Qed.
Lemma total_kept r : (r < n)%nat -> ice_kept p (kept_at r) (seq 0 (length p)) = bmass m (nth r l zero_band) * cat / K.
Proof.
  intro Hr. unfold ice_kept. rewrite <- (level_sum p E HE Hup). fold m. unfold bmass, Rdiv. rewrite <- !Rsum_scal_r. apply Rsum_ext_in. intros b Hb. apply in_seq in Hb.
  rewrite (lines_at_level p E HE Hup b ltac:(fold m; lia)). apply (level_ice r b Hr). lia.
Qed.
Lemma melt_holds : melt_law w n shape p E kept_at narrow_at unmet_at.
Proof.
  destruct rows_ok as (_ & R). destruct (R l Hl) as (L & F & R1 & R2). pose proof lk_pos as Kp. fold K in Kp. assert (Cp : 0 < cat) by exact Hc. assert (Np : 0 < INR n) by (apply lt_0_INR; exact Hn).
  assert (CK : 0 < cat / K) by (apply Rmult_lt_0_compat; [exact Cp|apply Rinv_0_lt_compat; exact Kp]).
  unfold melt_law. fold m. split; [unfold unmet_at; rewrite F; unfold s0; rewrite start_excess; unfold Rdiv; ring|].
  intros r Hr. destruct (R2 r Hr) as (f & F1 & F2 & F3 & F4 & F5 & _). destruct (R1 r ltac:(lia)) as (B1 & _).
  split; [unfold unmet_at; unfold Rdiv; rewrite Rmult_assoc; apply Rmult_le_pos; [exact F5|fold (cat / K); lra]|].
  assert (X : forall b, (b < m)%nat -> extent_kept p (in_use w (kept_at r) (narrow_at r)) (lines_at p (nth b E 0)) = db_area (nth r l zero_band) b * cat).
  { intros b Hb. rewrite (level_extent _ b Hb), (work_extent r b ltac:(lia) Hb). reflexivity. }
  exists (f / K). split; [apply Rmult_le_pos; [exact F1|apply Rlt_le, Rinv_0_lt_compat; exact Kp]|]. split; [|split].
  - rewrite (total_kept 0 Hn), F. unfold unmet_at.
    rewrite (Rsum_ext_in _ (fun b => db_area (nth r l zero_band) b * shape b * cat)) by (intros b Hb; apply in_seq in Hb; rewrite (X b) by lia; ring).
    rewrite Rsum_scal_r. fold (bdemand m shape (nth r l zero_band)). replace (f / K * (bdemand m shape (nth r l zero_band) * cat)) with (f * bdemand m shape (nth r l zero_band) * (cat / K)) by (field; lra). rewrite F2. field. lra.
  - intros b Hb. rewrite (level_ice (S r) b Hr Hb), (level_ice r b ltac:(lia) Hb), (X b Hb), (F3 b Hb).
    replace (bvol (nth r l zero_band) b * cat / K - f / K * shape b * (db_area (nth r l zero_band) b * cat)) with ((bvol (nth r l zero_band) b - f * shape b * db_area (nth r l zero_band) b) * (cat / K)) by (field; lra).
    rewrite RmaxRmult_r0 by lra. unfold Rdiv. ring.
  - rewrite (total_kept (S r) Hr), (total_kept r) by lia. unfold unmet_at. rewrite F4.
    rewrite (Rsum_ext_in (fun b => f / K * shape b * extent_kept p (in_use w (kept_at r) (narrow_at r)) (lines_at p (nth b E 0))) (fun b => f * shape b * db_area (nth r l zero_band) b * (cat / K))).
    + rewrite Rsum_scal_r. field. lra.
    + intros b Hb. apply in_seq in Hb. rewrite (X b) by lia. field. lra.
Qed.
Lemma width_holds : width_law w n p kept_at narrow_at.
Proof.
  destruct rows_ok as (_ & R). destruct (R l Hl) as (L & F & R1 & R2). unfold width_law.
  assert (Sq : w <> WidthInitial -> forall r x, (r < n)%nat -> In x p -> narrow_at r (dl_elev x) = sqrt (kept_at r (dl_elev x))).
  { intros Hw r x Hr Hx. destruct (line_has_level x Hx) as (b & Hb & ->). destruct (s0_pos b Hb) as (P1 & P2). rewrite (narrow_band r b Hr Hb), (kept_band r b Hr Hb).
    destruct (Hq r Hr) as (_ & _ & Q3 & Q4). destruct (R1 r Hr) as (_ & W2 & _). specialize (W2 b Hb). destruct w; [congruence| |rewrite (Q4 eq_refl b Hb); field; lra].
    rewrite (Q3 ltac:(discriminate)), W2 at 1. field. lra. }
  assert (Ini : w = WidthInitial -> forall r l, (S r < n)%nat -> In l p -> let e := dl_elev l in narrow_at r e * narrow_at (S r) e ^ 2 = kept_at (S r) e); [|revert Sq Ini; generalize w; intro v; destruct v; intros Sq Ini; [apply Ini; reflexivity|apply Sq; discriminate|apply Sq; discriminate]].
  intros Ew r x Hr Hx. cbn zeta. destruct (line_has_level x Hx) as (b & Hb & ->). destruct (s0_pos b Hb) as (P1 & P2).
  rewrite (narrow_band r b ltac:(lia) Hb), (narrow_band (S r) b Hr Hb), (kept_band (S r) b Hr Hb). destruct (Hq r ltac:(lia)) as (_ & _ & -> & _); [|rewrite Ew; discriminate]. destruct (Hq (S r) Hr) as (_ & _ & -> & _); [|rewrite Ew; discriminate].
  destruct (R2 r Hr) as (f & _ & _ & _ & _ & _ & Rel). specialize (Rel b Hb). rewrite Ew in Rel. cbn beta iota in Rel. unfold bvol at 2.
  apply (Rmult_eq_reg_r (db_area s0 b ^ 3 * db_we s0 b)); [|assert (0 < db_area s0 b ^ 3) by (apply pow_lt; exact P1); assert (0 < db_area s0 b ^ 3 * db_we s0 b) by (apply Rmult_lt_0_compat; assumption); lra].
  transitivity (db_area (nth r l zero_band) b * db_area (nth (S r) l zero_band) b ^ 2 * db_we s0 b); [field; lra|]. rewrite Rel. field. lra.
Qed.
Lemma table_holds : bands_table n name p kept_at narrow_at (made q).
Proof.
  destruct rows_ok as (_ & R). destruct (R l Hl) as (L & F & R1 & R2). unfold bands_table, made. cbn [lines_table gt_rows gt_cover gt_units gt_area gt_volume].
  split; [reflexivity|]. split; [reflexivity|]. split; [apply (line_units_nodup [])|]. split; [intro id; apply line_units_in|]. split.
  { intro i. destruct Hqn as (Z1 & Z2). destruct n as [|n'] eqn:En; [lia|].
    assert (Z : forall j, In j (unit_lines p (nth i (line_units p) 0%nat)) -> line_area_at g p s0 (nth (S n') q zero_band) j = 0 /\ line_we_at g p s0 (nth (S n') q zero_band) j * line_area_at g p s0 (nth (S n') q zero_band) j = 0).
    { intros j Hj. unfold unit_lines in Hj. apply filter_In in Hj. destruct Hj as (Hj & _). apply in_seq in Hj.
      destruct (lines_row g p E Hc p_positive HE Hup (nth (S n') q zero_band) j Z1 ltac:(lia)) as (A & B). fold s0 in A, B. destruct (line_level p E HE Hup j ltac:(lia)) as (Hb & _). fold m in Hb.
      specialize (Z2 _ Hb). assert (Za : db_area (nth (S n') q zero_band) (line_band p j) = 0).
      { destruct (Z1 _ Hb) as [(A1 & A2)|(A1 & _)]; [|exact A1]. exfalso. unfold bvol in Z2. assert (0 < db_area (nth (S n') q zero_band) (line_band p j) * db_we (nth (S n') q zero_band) (line_band p j)) by (apply Rmult_lt_0_compat; assumption). lra. }
      rewrite Z2 in B. rewrite Za in A. split; [rewrite A|rewrite B]; unfold Rdiv; ring. }
    split; apply Rsum_zero; intros j Hj; destruct (Z j Hj) as (A & B); [rewrite A; ring|]. rewrite <- Rmult_assoc, B. unfold Rdiv. ring. }
  split; [intro e; split; reflexivity|]. split; [|split].
  - intros r x Hr Hx. destruct (line_has_level x Hx) as (b & Hb & ->). rewrite (kept_band (S r) b Hr Hb), (kept_band r b ltac:(lia) Hb). pose proof (s0_vol b Hb).
    apply Rmult_le_compat_r; [apply Rlt_le, Rinv_0_lt_compat; assumption|]. destruct (R1 r ltac:(lia)) as (B1 & _).
    apply (bstep_mass m n w shape s0 Hs (bmass m s0) _ _ (Rlt_le _ _ mass_pos) B1 (R2 r Hr)). exact Hb.
  - intros r x Hr Hx. cbn zeta. destruct (line_has_level x Hx) as (b & Hb & ->). rewrite (kept_band r b Hr Hb), (narrow_band r b Hr Hb). pose proof (s0_vol b Hb) as V0. destruct (s0_pos b Hb) as (P1 & P2).
    destruct (Hq r Hr) as (O & V & _). rewrite <- (V b Hb). unfold bvol at 1 3. pose proof (Rinv_0_lt_compat _ V0). pose proof (Rinv_0_lt_compat _ P1). destruct (O b Hb) as [(A1 & A2)|(A1 & A2)].
    + assert (0 < db_area (nth r q zero_band) b * db_we (nth r q zero_band) b / bvol s0 b) by (repeat apply Rmult_lt_0_compat; assumption).
      assert (0 < db_area (nth r q zero_band) b / db_area s0 b) by (apply Rmult_lt_0_compat; assumption). split; [lra|]. split; [lra|]. split; lra.
    + rewrite A1, A2. unfold Rdiv. rewrite !Rmult_0_l. split; [lra|]. split; [lra|]. tauto.
  - intros r i Hr Hi. unfold columns in Hi. unfold unit_of. cbn [gt_units]. fold p. change (unit_lines p (nth i (line_units p) 0%nat)) with (lines_in p (nth i (line_units p) 0%nat)). split.
    + unfold extent_kept. apply Rsum_ext_in. intros j Hj. unfold lines_in in Hj. apply filter_In in Hj. destruct Hj as (Hj & _). apply in_seq in Hj. apply (made_values r j Hr). lia.
    + unfold ice_kept. apply Rsum_ext_in. intros j Hj. unfold lines_in in Hj. apply filter_In in Hj. destruct Hj as (Hj & _). apply in_seq in Hj. apply (made_values r j Hr). lia.
Qed.
End Made.

Lemma bands_never_throw : dh_bands_table g n w name shape profile <> Throw.
Proof.
  rewrite bands_is. destruct rows_ok as (A & _). destruct work as [l| |] eqn:Ew; [|congruence|discriminate]. cbn [bind]. destruct (finish_ok l Ew) as (q & -> & _). discriminate.
Qed.
Lemma bands_made : (forall b, (b < length E)%nat -> 0 < shape b) -> exists T, dh_bands_table g n w name shape profile = Ok T.
Proof. intro H. rewrite bands_is. destruct (rows_made H) as (l & Hl). rewrite Hl. cbn [bind]. destruct (finish_ok l Hl) as (q & -> & _). cbn [bind]. eauto. Qed.
Lemma bands_ok T : dh_bands_table g n w name shape profile = Ok T ->
  exists kept narrow unmet, bands_table n name p kept narrow T /\ width_law w n p kept narrow /\ melt_law w n shape p E kept narrow unmet.
Proof.
  rewrite bands_is. intro H. apply bind_ok in H. destruct H as (l & Hl & H). destruct (finish_ok l Hl) as (q & Eq & Q0 & Q1 & Qn). rewrite Eq in H. cbn [bind] in H. injection H as <-.
  exists (kept_at q), (narrow_at q), (unmet_at l). split; [exact (table_holds l q Hl Q0 Q1 Qn)|]. split; [exact (width_holds l q Hl Q0 Q1)|exact (melt_holds l q Hl Q0 Q1)].
Qed.
End Table.
