(** Lemmas about Routing.v. *)
From Verif Require Import Base BaseFacts Container ContainerFacts Processes ProcessFacts Routing RoutingSpec.

(** ** ceiling *)
Lemma ceilZ_bounds x : x <= IZR (ceilZ x) < x + 1.
Proof. unfold ceilZ. destruct (archimed (- x)) as [A B]. rewrite minus_IZR. lra. Qed.
Lemma ceil_size_bounds x : 0 < x -> x <= INR (ceil_size x) < x + 1 /\ (0 < ceil_size x)%nat.
Proof.
  intros Hx. destruct (ceilZ_bounds x) as [A B].
  assert (Hz : (0 < ceilZ x)%Z) by (apply lt_IZR; lra).
  unfold ceil_size. rewrite INR_IZR_INZ, Z2Nat.id by lia. split; [lra|]. lia.
Qed.
Lemma ceilZ_unique x z : x <= IZR z < x + 1 -> ceilZ x = z.
Proof.
  intros H. destruct (ceilZ_bounds x) as [A B].
  assert (IZR (ceilZ x) < IZR z + 1) by lra. assert (IZR z < IZR (ceilZ x) + 1) by lra.
  rewrite <- plus_IZR in *. apply lt_IZR in H0. apply lt_IZR in H1. lia.
Qed.
Lemma ceil_size_unique x n : x <= INR n < x + 1 -> ceil_size x = n.
Proof.
  intros H. unfold ceil_size. rewrite (ceilZ_unique x (Z.of_nat n)); [lia|]. rewrite <- INR_IZR_INZ. exact H.
Qed.

(** ** ordinates *)
Lemma ordinates_length S_curve n : length (ordinates S_curve n) = n.
Proof. unfold ordinates. rewrite map_length, seq_length. reflexivity. Qed.
Lemma ordinates_nth S_curve n j : (j < n)%nat -> nth j (ordinates S_curve n) 0 = S_curve (INR (S j)) - S_curve (INR j).
Proof.
  intros H. unfold ordinates.
  rewrite (nth_indep _ 0 (S_curve (INR 1) - S_curve (INR 0))) by (rewrite map_length, seq_length; exact H).
  rewrite (map_nth (fun j => S_curve (INR (S j)) - S_curve (INR j)) (seq 0 n) 0%nat), seq_nth by exact H. reflexivity.
Qed.
Lemma telescope (f : nat -> R) n : Rsum (fun j => f (S j) - f j) (seq 0 n) = f n - f 0%nat.
Proof.
  induction n as [|n IH]; [simpl; lra|].
  rewrite seq_S, Rsum_app, IH. simpl. lra.
Qed.
Lemma ordinates_total S_curve n : total (ordinates S_curve n) = S_curve (INR n) - S_curve 0.
Proof.
  unfold total, ordinates. rewrite Rsum_map. rewrite (telescope (fun j => S_curve (INR j))). reflexivity.
Qed.
Lemma ordinates_firstn S_curve n k : (k <= n)%nat -> total (firstn k (ordinates S_curve n)) = S_curve (INR k) - S_curve 0.
Proof.
  intros H. unfold ordinates. rewrite firstn_map.
  assert (E : firstn k (seq 0 n) = seq 0 k).
  { replace n with (k + (n - k))%nat by lia. rewrite seq_app.
    rewrite firstn_app, seq_length, Nat.sub_diag, firstn_O, app_nil_r. apply firstn_all2. rewrite seq_length; lia. }
  rewrite E. apply ordinates_total.
Qed.
Lemma ordinates_nonneg S_curve n : (forall s t, s <= t -> S_curve s <= S_curve t) ->
  forall x, In x (ordinates S_curve n) -> 0 <= x.
Proof.
  intros M x Hx. unfold ordinates in Hx. apply in_map_iff in Hx. destruct Hx as (j & <- & _).
  assert (S_curve (INR j) <= S_curve (INR (S j))) by (apply M; rewrite S_INR; lra). lra.
Qed.

(** ** S-curves *)
Lemma base_time_pos x4 : 0 < base_time x4.
Proof. unfold base_time. destruct (Rleb_spec x4 0); lra. Qed.

Lemma sh1_range x4 t : 0 < x4 -> 0 <= sh1 x4 t <= 1.
Proof.
  intros H. unfold sh1. destruct (Rleb_spec t 0); [lra|]. destruct (Rleb_spec x4 t); [lra|].
  assert (0 < t / x4 <= 1). { split; [apply Rdiv_lt_0_compat; lra|apply div_le; lra]. }
  destruct (Rpower_le1 (t / x4) (5 / 2)); lra.
Qed.
Lemma sh1_mono x4 : 0 < x4 -> forall s t, s <= t -> sh1 x4 s <= sh1 x4 t.
Proof.
  intros H s t Hst. pose proof (sh1_range x4 t H) as Rt. pose proof (sh1_range x4 s H) as Rs.
  unfold sh1 in *. destruct (Rleb_spec s 0); [lra|]. destruct (Rleb_spec x4 s).
  - destruct (Rleb_spec t 0); [lra|]. destruct (Rleb_spec x4 t); lra.
  - destruct (Rleb_spec t 0); [lra|]. destruct (Rleb_spec x4 t); [lra|].
    apply Rpower_base_mono; [|lra]. split; [apply Rdiv_lt_0_compat; lra|apply div_le_mono; lra].
Qed.
Lemma sh2_range x4 t : 0 < x4 -> 0 <= sh2 x4 t <= 1.
Proof.
  intros H. unfold sh2. destruct (Rleb_spec t 0); [lra|]. destruct (Rleb_spec (2 * x4) t); [lra|].
  destruct (Rltb_spec t x4).
  - assert (0 < t / x4 <= 1). { split; [apply Rdiv_lt_0_compat; lra|apply div_le; lra]. }
    destruct (Rpower_le1 (t / x4) (5 / 2)); lra.
  - assert (0 < 2 - t / x4 <= 1).
    { assert (t / x4 < 2) by (apply div_lt; lra). assert (1 <= t / x4) by (apply le_div; lra). lra. }
    destruct (Rpower_le1 (2 - t / x4) (5 / 2)); lra.
Qed.
Lemma sh2_mono x4 : 0 < x4 -> forall s t, s <= t -> sh2 x4 s <= sh2 x4 t.
Proof.
  intros H s t Hst. pose proof (sh2_range x4 t H) as Rt. pose proof (sh2_range x4 s H) as Rs.
  unfold sh2 in *. destruct (Rleb_spec s 0); [lra|].
  destruct (Rleb_spec t 0); [lra|]. destruct (Rleb_spec (2 * x4) t).
  { destruct (Rleb_spec (2 * x4) s); lra. }
  destruct (Rleb_spec (2 * x4) s); [lra|].
  destruct (Rltb_spec s x4); destruct (Rltb_spec t x4); try lra.
  - assert (Rpower (s / x4) (5 / 2) <= Rpower (t / x4) (5 / 2)); [|lra].
    apply Rpower_base_mono; [|lra]. split; [apply Rdiv_lt_0_compat; lra|apply div_le_mono; lra].
  - assert (0 < s / x4 <= 1). { split; [apply Rdiv_lt_0_compat; lra|apply div_le; lra]. }
    assert (0 < 2 - t / x4 <= 1).
    { assert (t / x4 < 2) by (apply div_lt; lra). assert (1 <= t / x4) by (apply le_div; lra). lra. }
    destruct (Rpower_le1 (s / x4) (5 / 2)); [lra|lra|]. destruct (Rpower_le1 (2 - t / x4) (5 / 2)); lra.
  - assert (Rpower (2 - t / x4) (5 / 2) <= Rpower (2 - s / x4) (5 / 2)); [|lra].
    apply Rpower_base_mono; [|lra].
    assert (t / x4 < 2) by (apply div_lt; lra). assert (s / x4 <= t / x4) by (apply div_le_mono; lra). lra.
Qed.

Lemma sh1_ends x4 n : 0 < x4 -> x4 <= INR n -> sh1 x4 (INR n) = 1 /\ sh1 x4 0 = 0.
Proof.
  intros H Hn. unfold sh1. destruct (Rleb_spec (INR n) 0); [lra|]. destruct (Rleb_spec x4 (INR n)); [|lra].
  destruct (Rleb_spec 0 0); [|lra]. auto.
Qed.
Lemma sh2_ends x4 n : 0 < x4 -> 2 * x4 <= INR n -> sh2 x4 (INR n) = 1 /\ sh2 x4 0 = 0.
Proof.
  intros H Hn. unfold sh2. destruct (Rleb_spec (INR n) 0); [lra|]. destruct (Rleb_spec (2 * x4) (INR n)); [|lra].
  destruct (Rleb_spec 0 0); [|lra]. auto.
Qed.

Lemma uh_shares x4 u : shares_of_one (ord1 (recompute x4 u)) /\ shares_of_one (ord2 (recompute x4 u)).
Proof.
  pose proof (base_time_pos x4) as Hb. unfold recompute; cbn [ord1 ord2]. split; (split; [|]).
  - apply ordinates_nonneg, sh1_mono, Hb.
  - rewrite ordinates_total. destruct (ceil_size_bounds (base_time x4) Hb) as [[A _] _].
    destruct (sh1_ends (base_time x4) _ Hb A) as [-> ->]. lra.
  - apply ordinates_nonneg, sh2_mono, Hb.
  - rewrite ordinates_total. destruct (ceil_size_bounds (2 * base_time x4) ltac:(lra)) as [[A _] _].
    destruct (sh2_ends (base_time x4) _ Hb A) as [-> ->]. lra.
Qed.

(** ** buffers *)
Lemma resize_length n l : length (resize n l) = n.
Proof. unfold resize. rewrite app_length, firstn_length, repeat_length. lia. Qed.
Lemma resize_nil n : resize n [] = repeat 0 n.
Proof. unfold resize. rewrite firstn_nil. simpl. rewrite Nat.sub_0_r. reflexivity. Qed.
Lemma nth_repeat0 n j : nth j (repeat 0 n) 0 = 0.
Proof. revert j; induction n; intros [|j]; simpl; auto. Qed.

Lemma last_nth {A} (l : list A) d : last l d = nth (length l - 1) l d.
Proof.
  induction l as [|a l IH]; [reflexivity|]. destruct l as [|b l]; [reflexivity|].
  replace (length (a :: b :: l) - 1)%nat with (S (length (b :: l) - 1)) by (simpl; lia).
  change (last (a :: b :: l) d) with (last (b :: l) d). rewrite IH. reflexivity.
Qed.

Lemma advance_ok ord st x : length ord = length st -> (0 < length st)%nat ->
  exists st', advance ord st x = Ok st' /\ length st' = length st /\
  (forall j, nth j st' 0 = nth (S j) st 0 + nth j ord 0 * x).
Proof.
  intros He Hn. unfold advance.
  destruct (Nat.eqb_spec (length st) 0); [lia|]. destruct (Nat.ltb_spec (length ord) (length st - 1)); [lia|].
  destruct (Nat.eqb_spec (length ord) 0); [lia|]. eexists; split; [reflexivity|]. split.
  - rewrite app_length, map_length, seq_length. simpl. lia.
  - intros j. destruct (Nat.lt_ge_cases j (length st - 1)) as [Hj|Hj].
    + rewrite app_nth1 by (rewrite map_length, seq_length; exact Hj).
      rewrite (nth_indep _ 0 (nth 1 st 0 + nth 0 ord 0 * x)) by (rewrite map_length, seq_length; exact Hj).
      rewrite (map_nth (fun j => nth (S j) st 0 + nth j ord 0 * x) (seq 0 (length st - 1)) 0%nat), seq_nth by exact Hj. reflexivity.
    + rewrite app_nth2 by (rewrite map_length, seq_length; exact Hj). rewrite map_length, seq_length.
      destruct (Nat.eq_dec j (length st - 1)) as [->|Hne].
      * rewrite Nat.sub_diag. cbn [nth]. rewrite last_nth, He. rewrite (nth_overflow st) by lia. ring.
      * rewrite nth_overflow by (simpl; lia). rewrite (nth_overflow st) by lia. rewrite (nth_overflow ord) by lia. ring.
Qed.

Lemma list_ext (l l' : list R) : length l = length l' -> (forall j, nth j l 0 = nth j l' 0) -> l = l'.
Proof. intros Hl Hn. apply (nth_ext l l' 0 0 Hl). intros; apply Hn. Qed.

Lemma total_nth l : total l = Rsum (fun j => nth j l 0) (seq 0 (length l)).
Proof.
  unfold total. induction l as [|a l IH]; [reflexivity|].
  simpl. rewrite IH. rewrite <- seq_shift, Rsum_map. reflexivity.
Qed.
Lemma total_tl l : total l = nth 0 l 0 + total (tl l).
Proof. destruct l; unfold total; simpl; lra. Qed.
Lemma in_nth_R (l : list R) x : In x l -> exists j, (j < length l)%nat /\ nth j l 0 = x.
Proof. apply In_nth. Qed.
Lemma nth_nonneg l j : (forall x, In x l -> 0 <= x) -> 0 <= nth j l 0.
Proof.
  intros H. destruct (Nat.lt_ge_cases j (length l)); [apply H, nth_In; assumption|rewrite nth_overflow by assumption; lra].
Qed.
Lemma nonneg_nth l : (forall j, 0 <= nth j l 0) -> forall x, In x l -> 0 <= x.
Proof. intros H x Hx. destruct (in_nth_R l x Hx) as (j & _ & <-). apply H. Qed.
Lemma total_nonneg l : (forall x, In x l -> 0 <= x) -> 0 <= total l.
Proof. intros H. apply Rsum_nonneg. exact H. Qed.

(** What a buffer holds in all (slot released included) after an advance. *)
Lemma advance_total ord st x st' : length ord = length st -> (0 < length st)%nat ->
  advance ord st x = Ok st' -> total st' = in_transit st + total ord * x.
Proof.
  intros He Hn H. destruct (advance_ok ord st x He Hn) as (s & Hs & Hl & Hj).
  rewrite Hs in H. injection H as <-. rewrite total_nth.
  rewrite (Rsum_ext_in _ (fun j => nth (S j) st 0 + nth j ord 0 * x)) by (intros; apply Hj).
  rewrite Rsum_plus, Rsum_scal_r, Hl. rewrite <- He at 2. rewrite <- total_nth. f_equal.
  unfold in_transit. destruct st as [|a st]; [simpl in Hn; lia|]. simpl tl. simpl length.
  rewrite seq_S, Rsum_app. simpl. rewrite (nth_overflow st) by lia. rewrite (total_nth st). lra.
Qed.

Lemma feed_app ord st xs ys : feed ord st (xs ++ ys) = bind (feed ord st xs) (fun s => feed ord s ys).
Proof.
  revert st; induction xs as [|x xs IH]; intros st; [reflexivity|]. simpl. destruct (advance ord st x); simpl; auto.
Qed.

Lemma feed_ok ord st xs : length ord = length st -> (0 < length st)%nat ->
  exists st', feed ord st xs = Ok st' /\ length st' = length st /\
  forall j, nth j st' 0 = nth (j + length xs) st 0 +
     Rsum (fun i => nth (j + i) ord 0 * nth (length xs - 1 - i) xs 0) (seq 0 (length xs)).
Proof.
  intros He Hn. induction xs as [|x xs IH] using rev_ind.
  - exists st. split; [reflexivity|]. split; [reflexivity|]. intros j. simpl. rewrite Nat.add_0_r. lra.
  - destruct IH as (s & Hs & Hl & Hj). destruct (advance_ok ord s x) as (s' & Hs' & Hl' & Hj'); try congruence; try lia.
    exists s'. split; [|split; [congruence|]].
    + rewrite feed_app, Hs. simpl. rewrite Hs'. reflexivity.
    + intros j. rewrite Hj', Hj. rewrite app_length. simpl length. rewrite Nat.add_1_r.
      replace (S j + length xs)%nat with (j + S (length xs))%nat by lia.
      change (seq 0 (S (length xs))) with (0%nat :: seq 1 (length xs)). rewrite <- seq_shift.
      cbn [Rsum]. rewrite Rsum_map.
      assert (E0 : nth (S (length xs) - 1 - 0) (xs ++ [x]) 0 = x).
      { rewrite app_nth2 by lia. replace (S (length xs) - 1 - 0 - length xs)%nat with 0%nat by lia. reflexivity. }
      rewrite E0, Nat.add_0_r.
      rewrite (Rsum_ext_in (fun i => nth (S j + i) ord 0 * nth (length xs - 1 - i) xs 0)
                (fun i => nth (j + S i) ord 0 * nth (S (length xs) - 1 - S i) (xs ++ [x]) 0)); [lra|].
      intros i Hi. apply in_seq in Hi. rewrite app_nth1 by lia. f_equal; f_equal; lia.
Qed.

(** Reversal of the summation order, to match [convolution]. *)
Lemma feed_release ord xs x s : (0 < length ord)%nat ->
  feed ord (repeat 0 (length ord)) (xs ++ [x]) = Ok s ->
  nth 0 s 0 = convolution ord (xs ++ [x]) (length xs).
Proof.
  intros Hn H. destruct (feed_ok ord (repeat 0 (length ord)) (xs ++ [x])) as (s' & Hs & _ & Hj).
  { rewrite repeat_length; reflexivity. } { rewrite repeat_length; exact Hn. }
  rewrite Hs in H. injection H as <-. rewrite Hj, nth_repeat0, Rplus_0_l. unfold convolution.
  rewrite app_length. simpl length. rewrite Nat.add_1_r. apply Rsum_ext_in.
  intros i Hi. apply in_seq in Hi. f_equal. f_equal. lia.
Qed.

Lemma feed_dry ord st n s : length ord = length st -> (0 < length st)%nat ->
  feed ord st (repeat 0 n) = Ok s -> forall j, nth j s 0 = nth (j + n) st 0.
Proof.
  intros He Hn H j. destruct (feed_ok ord st (repeat 0 n) He Hn) as (s' & Hs & _ & Hj).
  rewrite Hs in H. injection H as <-. rewrite Hj, repeat_length, Rsum_zero; [lra|].
  intros i _. rewrite nth_repeat0. lra.
Qed.

(** Water balance of a buffer over a whole input history. *)
Lemma feed_balance ord xs : total ord = 1 -> (0 < length ord)%nat -> forall st s, length st = length ord ->
  feed ord st xs = Ok s ->
  exists released, length released = length xs /\
    in_transit st + total xs = total released + in_transit s /\
    (forall k, (k < length xs)%nat -> exists sk, feed ord st (firstn (S k) xs) = Ok sk /\ nth k released 0 = nth 0 sk 0).
Proof.
  intros Ho Hn. induction xs as [|x xs IH]; intros st s Hl H.
  - injection H as <-. exists []. split; [reflexivity|]. split; [unfold total; simpl; lra|]. intros k Hk; simpl in Hk; lia.
  - simpl in H. destruct (advance_ok ord st x) as (s1 & Hs1 & Hl1 & Hj1); try lia.
    rewrite Hs1 in H. simpl in H.
    destruct (IH s1 s) as (rel & Hrl & Hb & Hk); [lia|exact H|].
    exists (nth 0 s1 0 :: rel). split; [simpl; lia|]. split.
    + assert (E := advance_total ord st x s1 ltac:(lia) ltac:(lia) Hs1). rewrite Ho, total_tl in E.
      fold (in_transit s1) in E. unfold total in *. simpl. lra.
    + intros [|k] Hlt.
      * exists s1. split; [|reflexivity]. simpl. rewrite Hs1. reflexivity.
      * simpl in Hlt. destruct (Hk k) as (sk & Hsk & E); [lia|]. exists sk. split; [|exact E].
        change (firstn (S (S k)) (x :: xs)) with (x :: firstn (S k) xs). simpl. rewrite Hs1. exact Hsk.
Qed.

Lemma advance_nonneg ord st x s : length ord = length st -> (0 < length st)%nat ->
  (forall y, In y ord -> 0 <= y) -> (forall y, In y st -> 0 <= y) -> 0 <= x ->
  advance ord st x = Ok s -> forall y, In y s -> 0 <= y.
Proof.
  intros He Hn Ho Hst Hx H. destruct (advance_ok ord st x He Hn) as (s' & Hs & _ & Hj).
  rewrite Hs in H. injection H as <-. apply nonneg_nth. intros j. rewrite Hj.
  assert (0 <= nth (S j) st 0) by (apply nth_nonneg; exact Hst).
  assert (0 <= nth j ord 0) by (apply nth_nonneg; exact Ho). nra.
Qed.
