(** Lemmas about the limiter sweeps and the solver steps. *)
From Verif Require Import Base BaseFacts Container ContainerFacts Network NetworkSpec NetworkFacts.

Lemma overflow_in_outs N b k : overflow_of N b = Some k -> In k (outs N b) /\ k_overflow (conn_at N k) = true.
Proof.
  unfold overflow_of. intros H. apply find_some in H. destruct H as [H1 H2].
  apply in_rev in H1. auto.
Qed.

Lemma sweep_app N dt e s l1 : forall l2 r,
  sweep N dt e s (l1 ++ l2) r = bind (sweep N dt e s l1 r) (sweep N dt e s l2).
Proof.
  induction l1 as [|b l1 IH]; intros; cbn [app sweep bind]; [reflexivity|].
  destruct (constrain_brick N dt e s b r); cbn [bind]; auto.
Qed.

Lemma brick_at_in N b : In b (brick_ids N) -> In (brick_at N b) (n_bricks N).
Proof. intros H. apply in_seq in H. apply nth_In. lia. Qed.

Section Sweep.
Variables (N : net) (dt : R) (e : external) (s : state).
Hypothesis Hdt : 0 < dt.
Hypothesis Hfw : forward N.
Hypothesis Hcaps : sound_caps N.

Definition avail (b : nat) : R := s_content s b + s_dyn s b + inputs_static N e s b.
Hypothesis Hav : forall b, In b (brick_ids N) -> b_allowneg (brick_at N b) = false -> 0 <= avail b.

Definition lev (r : nat -> R) (b : nat) : R := avail b + (Rsum r (ins N b) - Rsum r (outs N b)) * dt.

Lemma ins_src_lt b k : In k (ins N b) -> (k_src (conn_at N k) < b)%nat.
Proof.
  intros H. apply in_ins in H. destruct H as (H1 & H2 & _).
  exact (Hfw _ _ (conn_at_in N k H1) H2).
Qed.
Lemma outs_ins_disj b k : In k (outs N b) -> ~ In k (ins N b).
Proof. intros Ho Hi. apply ins_src_lt in Hi. apply in_outs in Ho. lia. Qed.

(** One brick of a sweep. *)
Section One.
Variables (b : nat) (r r' : nat -> R).
Hypothesis Hb : In b (brick_ids N).
Hypothesis Hok : constrain_brick N dt e s b r = Ok r'.

Let P1 := outs_nodup N b.
Let P2 := outs_ins_disj b.
Let P3 : forall k, overflow_of N b = Some k -> In k (outs N b) :=
  fun k H => proj1 (overflow_in_outs N b k H).
Lemma one_avail : b_allowneg (brick_at N b) = false -> 0 <= s_content s b + s_dyn s b + inputs_static N e s b.
Proof. exact (Hav b Hb). Qed.
Lemma one_cap c : b_cap (brick_at N b) = Some c -> 0 <= c.
Proof. apply Hcaps, brick_at_in, Hb. Qed.

Lemma one_frame k : ~ In k (outs N b) -> ~ In k (ins N b) -> r' k = r k.
Proof. exact (ac_frame _ _ _ _ _ _ _ _ _ _ P3 one_avail one_cap Hok k). Qed.
Lemma one_in k : In k (ins N b) -> 0 <= r' k <= Rmax 0 (r k).
Proof.
  intros Hk. rewrite <- (clamped_max r (outs N b) (ins N b) k) by auto.
  exact (ac_in _ _ _ _ _ _ _ _ _ _ Hdt P2 P3 one_avail one_cap Hok k Hk).
Qed.
Lemma one_in_same k : In k (ins N b) -> (b_cap (brick_at N b) = None \/ overflow_of N b <> None) ->
  r' k = Rmax 0 (r k).
Proof.
  intros Hk Hc. rewrite <- (clamped_max r (outs N b) (ins N b) k) by auto.
  exact (ac_in_same _ _ _ _ _ _ _ _ _ _ P2 P3 one_avail one_cap Hok k Hk Hc).
Qed.
Lemma one_out_nonneg k : In k (outs N b) -> 0 <= r' k.
Proof. exact (ac_ov_nonneg _ _ _ _ _ _ _ _ _ _ Hdt P2 P3 one_avail one_cap Hok k). Qed.
Lemma one_out_le k : In k (outs N b) -> overflow_of N b <> Some k -> 0 <= r' k <= Rmax 0 (r k).
Proof.
  intros Hk Ho. rewrite <- (clamped_max r (outs N b) (ins N b) k) by auto.
  exact (ac_out_le _ _ _ _ _ _ _ _ _ _ Hdt P2 P3 one_avail one_cap Hok k Hk Ho).
Qed.
Lemma one_feasible : b_allowneg (brick_at N b) = false ->
  - (INR (length (outs N b)) * EPSILON_D) * dt <= lev r' b.
Proof. exact (ac_nonneg _ _ _ _ _ _ _ _ _ _ Hdt P1 P2 P3 one_avail one_cap Hok). Qed.

Lemma clamped_sum (l : list nat) : (forall k, In k l -> In k (outs N b) \/ In k (ins N b)) ->
  Rsum (clamped r (outs N b) (ins N b)) l = Rsum (fun k => Rmax 0 (r k)) l.
Proof. intros H. apply Rsum_ext_in; intros k Hk. apply clamped_max, H, Hk. Qed.

Lemma one_feasible_exact : b_allowneg (brick_at N b) = false ->
  (forall k, In k (outs N b) -> r k <= 0 \/ EPSILON_D < r k) -> 0 <= lev r' b.
Proof.
  intros Han Hd.
  refine (ac_nonneg_exact _ _ _ _ _ _ _ _ _ _ Hdt P1 P2 P3 one_avail one_cap Hok Han _).
  intros k Hk. rewrite clamped_max by auto.
  destruct (Hd k Hk); [left; apply Rmax_left; lra|right].
  pose proof (Rmax_r 0 (r k)); lra.
Qed.
Lemma one_capacity c k : b_cap (brick_at N b) = Some c -> overflow_of N b = Some k -> r k = 0 ->
  (b_allowneg (brick_at N b) = true \/ PRECISION * dt < avail b \/ forall j, In j (outs N b) -> r j <= 0) ->
  lev r' b <= c.
Proof.
  intros Ec Ek Hk Hc.
  refine (ac_capacity _ _ _ _ _ _ _ _ _ _ Hdt P1 P2 P3 one_avail one_cap Hok c k Ec Ek _ _).
  - rewrite clamped_id; lra.
  - destruct Hc as [Hc|[Hc|Hc]]; [auto|auto|].
    right; right. apply Rsum_zero; intros j Hj. rewrite clamped_max by auto.
    apply Rmax_left, Hc, Hj.
Qed.
Lemma one_overflow_tight c k : b_cap (brick_at N b) = Some c -> overflow_of N b = Some k -> r k = 0 ->
  0 < r' k -> lev r' b = c.
Proof.
  intros Ec Ek Hk Hpos.
  refine (ac_overflow_tight _ _ _ _ _ _ _ _ _ _ Hdt P1 P2 P3 one_avail one_cap Hok c k Ec Ek _ Hpos).
  rewrite clamped_id; lra.
Qed.
Lemma one_noop : (forall k, In k (outs N b) \/ In k (ins N b) -> 0 <= r k) ->
  (b_allowneg (brick_at N b) = true \/ 0 <= lev r b) ->
  (forall c, b_cap (brick_at N b) = Some c -> lev r b <= c) ->
  forall k, r' k = r k.
Proof.
  intros Hnn Hl Hc k.
  assert (Eid : forall j, clamped r (outs N b) (ins N b) j = r j).
  { intros j. destruct (in_dec Nat.eq_dec j (outs N b)); [apply clamped_id, Hnn; auto|].
    destruct (in_dec Nat.eq_dec j (ins N b)); [apply clamped_id, Hnn; auto|].
    apply clamped_other; auto. }
  assert (El : forall l, Rsum (clamped r (outs N b) (ins N b)) l = Rsum r l)
    by (intros l; apply Rsum_ext_in; auto).
  rewrite <- Eid.
  rewrite (ac_noop _ _ _ _ _ _ _ _ _ _ P3 one_avail one_cap Hok); [reflexivity| |];
  rewrite !El; assumption.
Qed.
End One.

(** ** A whole sweep *)
Lemma sweep_S m r : sweep N dt e s (seq 0 (S m)) r
  = bind (sweep N dt e s (seq 0 m) r) (constrain_brick N dt e s m).
Proof.
  rewrite seq_S, sweep_app. destruct (sweep N dt e s (seq 0 m) r); cbn [bind sweep plus]; try reflexivity.
  destruct (constrain_brick N dt e s m a); reflexivity.
Qed.

(** Bricks processed before keep a feasible level. *)
Lemma sweep_feasible m : (m <= length (n_bricks N))%nat -> forall r r',
  sweep N dt e s (seq 0 m) r = Ok r' ->
  (forall b, (b < m)%nat -> (forall k, In k (outs N b) \/ In k (ins N b) -> 0 <= r' k)) /\
  (forall b, (b < m)%nat -> b_allowneg (brick_at N b) = false ->
     - (INR (length (outs N b)) * EPSILON_D) * dt <= lev r' b).
Proof.
  induction m as [|m IH]; intros Hm r r' H.
  - split; intros; lia.
  - rewrite sweep_S in H. apply bind_ok in H. destruct H as (r1 & H1 & H2).
    destruct (IH ltac:(lia) r r1 H1) as [I1 I2].
    assert (Hb : In m (brick_ids N)) by (apply in_seq; lia).
    assert (Hfi : forall b k, (b < m)%nat -> In k (ins N b) -> r' k = r1 k).
    { intros b k Hlt Hk. apply (one_frame m r1 r' Hb H2).
      - intros Ho. apply in_outs in Ho. pose proof (ins_src_lt b k Hk). lia.
      - intros Hi. apply in_ins in Hk, Hi. destruct Hk as (_&Hk&_), Hi as (_&Hi&_).
        rewrite Hk in Hi. injection Hi. lia. }
    assert (Hfo : forall b k, (b < m)%nat -> In k (outs N b) -> 0 <= r' k <= r1 k).
    { intros b k Hlt Hk. assert (H0 : 0 <= r1 k) by (apply (I1 b Hlt); auto).
      destruct (in_dec Nat.eq_dec k (ins N m)) as [Hi|Hi].
      - pose proof (one_in m r1 r' Hb H2 k Hi) as Hx. rewrite Rmax_right in Hx; lra.
      - rewrite (one_frame m r1 r' Hb H2 k); [lra| |exact Hi].
        intros Ho. apply in_outs in Ho, Hk. lia. }
    split.
    + intros b Hlt k Hk. destruct (Nat.eq_dec b m) as [->|Hne].
      * destruct Hk as [Hk|Hk].
        -- exact (one_out_nonneg m r1 r' Hb H2 k Hk).
        -- exact (proj1 (one_in m r1 r' Hb H2 k Hk)).
      * destruct Hk as [Hk|Hk].
        -- exact (proj1 (Hfo b k ltac:(lia) Hk)).
        -- rewrite (Hfi b k) by (auto; lia). apply (I1 b); [lia|auto].
    + intros b Hlt Han. destruct (Nat.eq_dec b m) as [->|Hne].
      * exact (one_feasible m r1 r' Hb H2 Han).
      * eapply Rle_trans; [apply (I2 b ltac:(lia) Han)|]. unfold lev.
        rewrite (Rsum_ext_in r' r1 (ins N b)) by (intros k Hk; apply (Hfi b); auto; lia).
        assert (Rsum r' (outs N b) <= Rsum r1 (outs N b)).
        { apply Rsum_le; intros k Hk. apply (Hfo b); [lia|auto]. }
        nra.
Qed.

Lemma enforce_last fuel : forall r r', enforce_n (S fuel) N dt e s r = Ok r' ->
  exists r0, sweep N dt e s (brick_ids N) r0 = Ok r'.
Proof.
  induction fuel as [|fuel IH]; intros r r' H.
  - cbn [enforce_n] in H. apply bind_ok in H. destruct H as (r1 & H1 & H2).
    destruct (stable N r r1); injection H2 as <-; eauto.
  - cbn [enforce_n] in H. apply bind_ok in H. destruct H as (r1 & H1 & H2).
    destruct (stable N r r1); [injection H2 as <-; eauto|]. apply (IH r1 r'). exact H2.
Qed.

Lemma enforce_feasible r r' : enforce N dt e s r = Ok r' ->
  (forall b, In b (brick_ids N) -> (forall k, In k (outs N b) \/ In k (ins N b) -> 0 <= r' k)) /\
  (forall b, In b (brick_ids N) -> b_allowneg (brick_at N b) = false ->
     - (INR (length (outs N b)) * EPSILON_D) * dt <= lev r' b).
Proof.
  intros H. apply enforce_last in H. destruct H as (r0 & H).
  destruct (sweep_feasible _ (le_n _) r0 r' H) as [H1 H2].
  split; intros b Hb; apply in_seq in Hb; [apply H1|apply H2]; lia.
Qed.

(** *** Capacity *)
Hypothesis Hcapov : forall b, In b (brick_ids N) ->
  b_cap (brick_at N b) = None \/ overflow_of N b <> None.

(** In the first sweep each brick sees the requested outgoing rates, and its own result is final. *)
Lemma sweep_settled m : (m <= length (n_bricks N))%nat -> forall r r',
  sweep N dt e s (seq 0 m) r = Ok r' ->
  (forall b k, (m <= b)%nat -> In k (outs N b) -> In k (ins N m) \/ r' k = r k) /\
  (forall b, (b < m)%nat -> exists r1 r2, constrain_brick N dt e s b r1 = Ok r2 /\
     (forall k, In k (outs N b) -> r1 k = r k) /\
     (forall k, In k (outs N b) \/ In k (ins N b) -> r' k = r2 k)).
Proof.
  induction m as [|m IH]; intros Hm r r' H.
  - split; [|intros; lia]. cbn in H. injection H as <-. auto.
  - rewrite sweep_S in H. apply bind_ok in H. destruct H as (r1 & H1 & H2).
    assert (Hb : In m (brick_ids N)) by (apply in_seq; lia).
    pose proof (sweep_feasible m ltac:(lia) r r1 H1) as [F1 _].
    destruct (IH ltac:(lia) r r1 H1) as [I1 I2]. split.
    + intros b k Hle Hk. right. destruct (I1 b k ltac:(lia) Hk) as [Hi|E].
      * apply ins_src_lt in Hi. apply in_outs in Hk. lia.
      * rewrite <- E. apply (one_frame m r1 r' Hb H2).
        -- intros Ho. apply in_outs in Ho, Hk. lia.
        -- intros Hi. apply ins_src_lt in Hi. apply in_outs in Hk. lia.
    + intros b Hlt. destruct (Nat.eq_dec b m) as [->|Hne].
      * exists r1, r'. split; [exact H2|]. split; [|auto].
        intros k Hk. destruct (I1 m k (le_n _) Hk) as [Hi|E]; [|exact E].
        apply ins_src_lt in Hi. apply in_outs in Hk. lia.
      * destruct (I2 b ltac:(lia)) as (ra & rb & G1 & G2 & G3). exists ra, rb.
        split; [exact G1|]. split; [exact G2|]. intros k Hk. rewrite <- (G3 k Hk).
        destruct (in_dec Nat.eq_dec k (ins N m)) as [Hi|Hi].
        -- rewrite (one_in_same m r1 r' Hb H2 k Hi (Hcapov m Hb)). apply Rmax_right.
           apply (F1 b ltac:(lia) k Hk).
        -- apply (one_frame m r1 r' Hb H2 k); [|exact Hi].
           intros Ho. apply in_outs in Ho. destruct Hk as [Hk|Hk].
           ++ apply in_outs in Hk. lia.
           ++ apply ins_src_lt in Hk. lia.
Qed.

(** A feasible vector of rates is left unchanged by a sweep. *)
Lemma sweep_noop r0 m : (m <= length (n_bricks N))%nat ->
  (forall b, In b (brick_ids N) -> (forall k, In k (outs N b) \/ In k (ins N b) -> 0 <= r0 k) /\
     (b_allowneg (brick_at N b) = true \/ 0 <= lev r0 b) /\
     (forall c, b_cap (brick_at N b) = Some c -> lev r0 b <= c)) ->
  forall r r', (forall k, r k = r0 k) ->
  sweep N dt e s (seq 0 m) r = Ok r' -> forall k, r' k = r0 k.
Proof.
  intros Hm Hf r r' Er. revert Hm r'. induction m as [|m IH]; intros Hm r' H.
  - cbn in H. injection H as <-. exact Er.
  - rewrite sweep_S in H. apply bind_ok in H. destruct H as (r1 & H1 & H2).
    assert (Hb : In m (brick_ids N)) by (apply in_seq; lia).
    pose proof (IH ltac:(lia) r1 H1) as E1. destruct (Hf m Hb) as (G1 & G2 & G3).
    assert (El : lev r1 m = lev r0 m).
    { unfold lev. rewrite (Rsum_ext_in r1 r0 (ins N m)), (Rsum_ext_in r1 r0 (outs N m)); auto. }
    intros k. rewrite (one_noop m r1 r' Hb H2); [apply E1| | |].
    + intros j Hj. rewrite E1. auto.
    + rewrite El; exact G2.
    + intros c Hc. rewrite El. auto.
Qed.

(** *** The requested rates: no dust, and an empty store asks for nothing. *)
Variable req : nat -> R.
Hypothesis Hdust : forall k, In k (conn_ids N) -> req k <= 0 \/ EPSILON_D < req k.
Hypothesis Hovz : forall k, In k (conn_ids N) -> k_overflow (conn_at N k) = true -> req k = 0.
Hypothesis Hempty : forall b, In b (brick_ids N) -> b_allowneg (brick_at N b) = true \/
  PRECISION * dt < avail b \/ forall k, In k (outs N b) -> req k <= 0.

Definition settled (r : nat -> R) : Prop :=
  forall b, In b (brick_ids N) ->
    (forall k, In k (outs N b) \/ In k (ins N b) -> 0 <= r k) /\
    (b_allowneg (brick_at N b) = true \/ 0 <= lev r b) /\
    (forall c, b_cap (brick_at N b) = Some c -> lev r b <= c) /\
    (forall c k, b_cap (brick_at N b) = Some c -> overflow_of N b = Some k ->
       0 < r k -> lev r b = c) /\
    (forall k, In k (outs N b) -> overflow_of N b <> Some k -> r k <= Rmax 0 (req k)).

Lemma lev_ext r1 r2 b :
  (forall k, In k (outs N b) \/ In k (ins N b) -> r1 k = r2 k) -> lev r1 b = lev r2 b.
Proof.
  intros H. unfold lev. rewrite (Rsum_ext_in r1 r2 (ins N b)), (Rsum_ext_in r1 r2 (outs N b)); auto.
Qed.

Lemma first_sweep_settles r' : sweep N dt e s (brick_ids N) req = Ok r' -> settled r'.
Proof.
  intros H b Hb. pose proof Hb as Hb'. apply in_seq in Hb'.
  destruct (sweep_feasible _ (le_n _) req r' H) as [F1 _].
  destruct (sweep_settled _ (le_n _) req r' H) as [_ S2].
  destruct (S2 b ltac:(lia)) as (r1 & r2 & G1 & G2 & G3).
  assert (El : lev r' b = lev r2 b) by (apply lev_ext; exact G3).
  split; [|split; [|split; [|split]]].
  - apply (F1 b); lia.
  - destruct (b_allowneg (brick_at N b)) eqn:Ean; [left; reflexivity|right]. rewrite El.
    apply (one_feasible_exact b r1 r2 Hb G1 Ean). intros k Hk. rewrite (G2 k Hk).
    apply Hdust. apply in_outs in Hk. tauto.
  - intros c Ec. rewrite El. destruct (Hcapov b Hb) as [Hn|Hn]; [congruence|].
    destruct (overflow_of N b) as [k|] eqn:Ek; [|congruence].
    destruct (overflow_in_outs N b k Ek) as [Ho Hov].
    apply (one_capacity b r1 r2 Hb G1 c k Ec Ek).
    + rewrite (G2 k Ho). apply Hovz; [|exact Hov]. apply in_outs in Ho; tauto.
    + destruct (Hempty b Hb) as [Hx|[Hx|Hx]]; auto. right; right.
      intros j Hj. rewrite (G2 j Hj). auto.
  - intros c k Ec Ek Hpos. rewrite El.
    destruct (overflow_in_outs N b k Ek) as [Ho Hov].
    apply (one_overflow_tight b r1 r2 Hb G1 c k Ec Ek).
    + rewrite (G2 k Ho). apply Hovz; [|exact Hov]. apply in_outs in Ho; tauto.
    + rewrite <- (G3 k); auto.
  - intros k Hk Ho. rewrite (G3 k) by auto. rewrite <- (G2 k Hk).
    apply (one_out_le b r1 r2 Hb G1 k Hk Ho).
Qed.

Lemma settled_ext r1 r2 : (forall k, r1 k = r2 k) -> settled r1 -> settled r2.
Proof.
  intros E H b Hb. destruct (H b Hb) as (A1&A2&A3&A4&A5).
  assert (El : lev r2 b = lev r1 b) by (apply lev_ext; auto).
  rewrite El. split; [|split; [|split; [|split]]]; auto.
  - intros k Hk; rewrite <- E; auto.
  - intros c k. rewrite <- E. apply A4.
  - intros k. rewrite <- E. apply A5.
Qed.

Lemma settled_fixed fuel : forall r1 r', settled r1 -> enforce_n fuel N dt e s r1 = Ok r' -> forall k, r' k = r1 k.
Proof.
  induction fuel as [|fuel IH]; intros r1 r' Hs H.
  - cbn in H. injection H as <-. reflexivity.
  - cbn [enforce_n] in H. apply bind_ok in H. destruct H as (r2 & H1 & H2).
    assert (E : forall k, r2 k = r1 k).
    { apply (sweep_noop r1 _ (le_n _)) with (r := r1); auto.
      intros b Hb. destruct (Hs b Hb) as (A1&A2&A3&_&_). auto. }
    destruct (stable N r1 r2).
    + injection H2 as <-. exact E.
    + intros k. rewrite (IH r2 r' (settled_ext _ _ (fun k => eq_sym (E k)) Hs) H2). apply E.
Qed.

Lemma enforce_settled r' : enforce N dt e s req = Ok r' -> settled r'.
Proof.
  unfold enforce. cbn [enforce_n]. intros H. apply bind_ok in H. destruct H as (r1 & H1 & H2).
  pose proof (first_sweep_settles r1 H1) as Hs.
  destruct (stable N req r1); [injection H2 as <-; exact Hs|].
  apply (settled_ext r1); [|exact Hs].
  intros k. symmetry. exact (settled_fixed 9 r1 r' Hs H2 k).
Qed.
End Sweep.
