(** Lemmas about one solver step on a network of storages. *)
From Verif Require Import Base BaseFacts Container ContainerFacts Network NetworkSpec.

Lemma conn_ids_nodup N : NoDup (conn_ids N).
Proof. apply seq_NoDup. Qed.
Lemma outs_nodup N b : NoDup (outs N b).
Proof. apply NoDup_filter, conn_ids_nodup. Qed.
Lemma inputs_nodup N b : NoDup (inputs_of N b).
Proof. apply NoDup_filter, conn_ids_nodup. Qed.
Lemma ins_nodup N b : NoDup (ins N b).
Proof. apply NoDup_filter, inputs_nodup. Qed.

Lemma conn_ids_lt N k : In k (conn_ids N) <-> (k < length (n_conns N))%nat.
Proof. unfold conn_ids; rewrite in_seq; lia. Qed.
Lemma conn_at_in N k : In k (conn_ids N) -> In (conn_at N k) (n_conns N).
Proof. intros H; apply nth_In, conn_ids_lt, H. Qed.
Lemma in_outs N b k : In k (outs N b) <-> In k (conn_ids N) /\ k_src (conn_at N k) = b.
Proof. unfold outs; rewrite filter_In, Nat.eqb_eq; tauto. Qed.
Lemma goes_to_iff b t : goes_to b t = true <-> t = ToStore b.
Proof.
  destruct t; simpl; try (split; discriminate). rewrite Nat.eqb_eq. split; congruence.
Qed.
Lemma in_inputs N b k : In k (inputs_of N b) <-> In k (conn_ids N) /\ k_tgt (conn_at N k) = ToStore b.
Proof. unfold inputs_of; rewrite filter_In, goes_to_iff; tauto. Qed.
Lemma in_ins N b k : In k (ins N b) <->
  In k (conn_ids N) /\ k_tgt (conn_at N k) = ToStore b /\ k_kind (conn_at N k) = Regular.
Proof.
  unfold ins; rewrite filter_In, in_inputs.
  split; [intros [[H1 H2] H3]|intros (H1&H2&->)]; repeat split; auto.
  destruct (k_kind (conn_at N k)); easy.
Qed.

(** Released amount: rates at or below 1e-8 mm/d release nothing. *)
Definition applied (dt : R) (rates : nat -> R) (k : nat) : R :=
  if Rlt_dec PRECISION (rates k) then rates k * dt else 0.
Definition delivered (N : net) (dt : R) (rates : nat -> R) (k : nat) : R :=
  weighted (conn_at N k) (applied dt rates k).

Lemma applied_nonneg dt r k : 0 < dt -> 0 <= applied dt r k.
Proof.
  intros. unfold applied. destruct (Rlt_dec PRECISION (r k)); [|lra].
  pose proof PRECISION_pos. apply Rmult_le_pos; lra.
Qed.
Lemma applied_le dt r k : 0 < dt -> 0 <= r k -> applied dt r k <= r k * dt.
Proof.
  intros. unfold applied. destruct (Rlt_dec PRECISION (r k)); [lra|]. apply Rmult_le_pos; lra.
Qed.
Lemma applied_ge dt r k : 0 < dt -> r k * dt - PRECISION * dt <= applied dt r k.
Proof.
  intros. unfold applied. pose proof PRECISION_pos.
  destruct (Rlt_dec PRECISION (r k)); [nra|]. nra.
Qed.

Lemma weighted_0 c : weighted c 0 = 0.
Proof.
  unfold weighted. destruct (k_kind c); [destruct (Rltb (k_frac c) 1)|destruct (Rltb (k_frac c) 1)|
    destruct (Reqb (k_frac c) 1)]; lra.
Qed.
Lemma weighted_reports c x : reports c x (weighted c x).
Proof.
  unfold reports, weighted; split.
  - intros Hle. destruct (k_kind c).
    + destruct (Rltb_spec (k_frac c) 1); [lra|]. replace (k_frac c) with 1 by lra. lra.
    + destruct (Rltb_spec (k_frac c) 1); [lra|]. replace (k_frac c) with 1 by lra. lra.
    + destruct (Reqb (k_frac c) 1) eqn:E; [|lra]. apply Reqb_true in E. rewrite E; lra.
  - intros Hk Hge. destruct (k_kind c); [| |congruence]; destruct (Rltb_spec (k_frac c) 1); lra.
Qed.
Lemma weighted_one c x : k_frac c = 1 -> weighted c x = x.
Proof. intros E. destruct (weighted_reports c x) as [H _]. rewrite H by lra. rewrite E; lra. Qed.
Lemma weighted_nonneg c x : 0 <= k_frac c -> 0 <= x -> 0 <= weighted c x.
Proof.
  intros Hf Hx. unfold weighted. destruct (k_kind c);
  [destruct (Rltb (k_frac c) 1)|destruct (Rltb (k_frac c) 1)|destruct (Reqb (k_frac c) 1)];
  try lra; apply Rmult_le_pos; lra.
Qed.

(** ** Effect of applying rates *)
Section Apply.
Variables (N : net) (dt : R) (e : external) (r : nat -> R).
Hypothesis Hdt : 0 < dt.
Let app := applied dt r.
Let del := delivered N dt r.

Definition inst_dep (b k : nat) : R :=
  if is_instant (k_kind (conn_at N k)) && goes_to b (k_tgt (conn_at N k)) then del k else 0.

Lemma change_content s k b : s_content (apply_change N dt r s k) b = s_content s b.
Proof.
  unfold apply_change. destruct (GreaterThan _ _ _); reflexivity.
Qed.
Lemma change_guard k :
  GreaterThan (if Rltb (r k) 0 then 0 else r k) 0 PRECISION = (if Rlt_dec PRECISION (r k) then true else false).
Proof.
  unfold GreaterThan. pose proof PRECISION_pos.
  destruct (Rltb_spec (r k) 0), (Rlt_dec PRECISION (r k)).
  - lra.
  - apply Rltb_false; lra.
  - apply Rltb_true; lra.
  - apply Rltb_false; lra.
Qed.
Lemma change_rate k : PRECISION < r k -> (if Rltb (r k) 0 then 0 else r k) = r k.
Proof. intros. pose proof PRECISION_pos. destruct (Rltb_spec (r k) 0); lra. Qed.

Lemma change_dyn s k b :
  s_dyn (apply_change N dt r s k) b
  = s_dyn s b - (if Nat.eqb (k_src (conn_at N k)) b then app k else 0).
Proof.
  unfold apply_change. rewrite change_guard. unfold app, applied.
  destruct (Rlt_dec PRECISION (r k)) as [H|H].
  - rewrite change_rate by exact H. cbn [s_dyn]. unfold upd, update_flux; cbn [s_dyn].
    rewrite (Nat.eqb_sym b). destruct (Nat.eqb_spec (k_src (conn_at N k)) b); [subst|]; lra.
  - unfold update_flux; cbn [s_dyn]. destruct (Nat.eqb (k_src (conn_at N k)) b); lra.
Qed.
Lemma change_amount s k j :
  s_amount (apply_change N dt r s k) j = if Nat.eqb j k then del k else s_amount s j.
Proof.
  unfold apply_change. rewrite change_guard. unfold del, delivered, applied.
  destruct (Rlt_dec PRECISION (r k)) as [H|H].
  - rewrite change_rate by exact H. cbn [s_amount update_flux]. reflexivity.
  - cbn [s_amount update_flux]. reflexivity.
Qed.
Lemma update_flux_stat k x s b :
  s_stat (update_flux N k x s) b =
  s_stat s b + (if is_instant (k_kind (conn_at N k)) && goes_to b (k_tgt (conn_at N k))
                then weighted (conn_at N k) x else 0).
Proof.
  unfold update_flux; cbn [s_stat].
  destruct (k_kind (conn_at N k)), (k_tgt (conn_at N k)) as [b'| |]; cbn [is_instant andb goes_to]; try lra.
  unfold upd. rewrite (Nat.eqb_sym b). destruct (Nat.eqb_spec b' b); [subst|]; lra.
Qed.
Lemma change_stat s k b :
  s_stat (apply_change N dt r s k) b = s_stat s b + inst_dep b k.
Proof.
  unfold apply_change. rewrite change_guard. unfold inst_dep, del, delivered, applied.
  destruct (Rlt_dec PRECISION (r k)) as [H|H].
  - rewrite change_rate by exact H. cbn [s_stat]. apply update_flux_stat.
  - apply update_flux_stat.
Qed.

Lemma changes_fold l : forall s, NoDup l ->
  let s' := fold_left (apply_change N dt r) l s in
  (forall b, s_content s' b = s_content s b) /\
  (forall b, s_dyn s' b = s_dyn s b - Rsum (fun k => if Nat.eqb (k_src (conn_at N k)) b then app k else 0) l) /\
  (forall b, s_stat s' b = s_stat s b + Rsum (inst_dep b) l) /\
  (forall k, s_amount s' k = if mem k l then del k else s_amount s k).
Proof.
  induction l as [|a l IH]; intros s Hnd.
  - cbn. repeat split; intros; lra.
  - inversion Hnd as [|? ? Hna Hnd']; subst. cbn [fold_left].
    destruct (IH (apply_change N dt r s a) Hnd') as (H1 & H2 & H3 & H4).
    repeat split; intros.
    + rewrite H1. apply change_content.
    + rewrite H2, change_dyn. cbn [Rsum]. lra.
    + rewrite H3, change_stat. cbn [Rsum]. lra.
    + rewrite H4, change_amount. unfold mem; cbn [existsb]; fold (mem k l).
      destruct (Nat.eqb_spec k a) as [->|Hne]; cbn [orb].
      * apply mem_not_in in Hna; rewrite Hna. reflexivity.
      * reflexivity.
Qed.

Lemma outs_sum_src b b' (g : nat -> R) :
  Rsum (fun k => if Nat.eqb (k_src (conn_at N k)) b' then g k else 0) (outs N b)
  = if Nat.eqb b b' then Rsum g (outs N b) else 0.
Proof.
  destruct (Nat.eqb_spec b b') as [<-|Hne].
  - apply Rsum_ext_in; intros k Hk. apply in_outs in Hk. destruct Hk as [_ ->].
    rewrite Nat.eqb_refl; reflexivity.
  - apply Rsum_zero; intros k Hk. apply in_outs in Hk. destruct Hk as [_ ->].
    apply Nat.eqb_neq in Hne; rewrite Hne; reflexivity.
Qed.

(** One brick. *)
Lemma brick_effect s b :
  let s' := apply_brick N dt e r s b in
  (forall b', s_content s' b' = s_content s b') /\
  (forall b', s_dyn s' b' = s_dyn s b' +
      (if Nat.eqb b b' then sum_incoming N e s b - Rsum app (outs N b) else 0)) /\
  (forall b', s_stat s' b' = s_stat s b' + Rsum (inst_dep b') (outs N b)) /\
  (forall k, s_amount s' k = if mem k (outs N b) then del k else s_amount s k).
Proof.
  unfold apply_brick.
  destruct (changes_fold (outs N b) (update_from_inputs N e s b) (outs_nodup N b)) as (H1&H2&H3&H4).
  repeat split; intros.
  - rewrite H1; reflexivity.
  - rewrite H2, outs_sum_src. unfold update_from_inputs; cbn [s_dyn]. unfold upd.
    rewrite (Nat.eqb_sym b'). destruct (Nat.eqb_spec b b'); [subst|]; lra.
  - rewrite H3; reflexivity.
  - rewrite H4; reflexivity.
Qed.

(** All bricks. *)
Definition early (s : state) (b k : nat) : R :=
  if Nat.ltb (k_src (conn_at N k)) b then del k else s_amount s k.

Definition noninst (b : nat) : list nat :=
  filter (fun k => negb (is_instant (k_kind (conn_at N k)))) (inputs_of N b).
Definition inst (b : nat) : list nat :=
  filter (fun k => is_instant (k_kind (conn_at N k))) (inputs_of N b).

Lemma inst_dep_sum b m :
  Rsum (inst_dep b) (filter (fun k => Nat.ltb (k_src (conn_at N k)) m) (conn_ids N))
  = Rsum (fun k => if Nat.ltb (k_src (conn_at N k)) m then del k else 0) (inst b).
Proof.
  unfold inst, inputs_of. rewrite !Rsum_filter_if. apply Rsum_ext_in; intros k _.
  unfold inst_dep. destruct (Nat.ltb _ m), (is_instant _), (goes_to b _); reflexivity.
Qed.


Lemma filter_none {A} (p : A -> bool) l : (forall x, In x l -> p x = false) -> filter p l = [].
Proof.
  induction l as [|a l IH]; simpl; intros H; [reflexivity|].
  rewrite (H a) by auto. apply IH; auto.
Qed.

Lemma filter_ltb_S m (l : list nat) (g : nat -> R) :
  Rsum g (filter (fun k => Nat.ltb (k_src (conn_at N k)) (S m)) l)
  = Rsum g (filter (fun k => Nat.ltb (k_src (conn_at N k)) m) l)
    + Rsum g (filter (fun k => Nat.eqb (k_src (conn_at N k)) m) l).
Proof.
  rewrite !Rsum_filter_if, <- Rsum_plus. apply Rsum_ext_in; intros k _.
  destruct (Nat.ltb_spec (k_src (conn_at N k)) (S m)), (Nat.ltb_spec (k_src (conn_at N k)) m),
    (Nat.eqb_spec (k_src (conn_at N k)) m); try lra; lia.
Qed.

Lemma bricks_fold s m :
  let s' := fold_left (apply_brick N dt e r) (seq 0 m) s in
  (forall b, s_content s' b = s_content s b) /\
  (forall b, s_dyn s' b = s_dyn s b +
      (if Nat.ltb b m then e_seen e b + e_hidden e b + Rsum (early s b) (noninst b) - Rsum app (outs N b) else 0)) /\
  (forall b, s_stat s' b = s_stat s b +
      Rsum (inst_dep b) (filter (fun k => Nat.ltb (k_src (conn_at N k)) m) (conn_ids N))) /\
  (forall k, In k (conn_ids N) ->
      s_amount s' k = if Nat.ltb (k_src (conn_at N k)) m then del k else s_amount s k).
Proof.
  induction m as [|m IH].
  - cbn. repeat split; intros; try lra. rewrite filter_none by auto; cbn; lra.
  - rewrite seq_S, fold_left_app. cbn [fold_left plus].
    set (s1 := fold_left (apply_brick N dt e r) (seq 0 m) s) in *. cbv zeta in IH.
    destruct IH as (I1 & I2 & I3 & I4).
    destruct (brick_effect s1 m) as (H1 & H2 & H3 & H4). repeat split; intros.
    + rewrite H1; apply I1.
    + rewrite H2, I2. destruct (Nat.eqb_spec m b) as [->|Hne].
      * replace (Nat.ltb b b) with false by (symmetry; apply Nat.ltb_irrefl).
        replace (Nat.ltb b (S b)) with true by (symmetry; apply Nat.ltb_lt; lia).
        unfold sum_incoming. fold (noninst b).
        rewrite (Rsum_ext_in (s_amount s1) (early s b)); [lra|].
        intros k Hk. apply filter_In in Hk. destruct Hk as [Hk _]. apply in_inputs in Hk.
        apply I4; tauto.
      * destruct (Nat.ltb_spec b m), (Nat.ltb_spec b (S m)); try lia; lra.
    + rewrite H3, I3, filter_ltb_S. unfold outs. lra.
    + rewrite H4. destruct (mem k (outs N m)) eqn:E.
      * apply mem_in, in_outs in E. destruct E as [_ ->].
        replace (Nat.ltb m (S m)) with true by (symmetry; apply Nat.ltb_lt; lia). reflexivity.
      * rewrite I4 by assumption. apply mem_not_in in E. rewrite in_outs in E.
        destruct (Nat.ltb_spec (k_src (conn_at N k)) m), (Nat.ltb_spec (k_src (conn_at N k)) (S m)); try lia; auto.
        exfalso. apply E. split; [assumption|lia].
Qed.

(** Lemma A: the state after applying the rates. *)
Lemma apply_rates_effect s :
  well_formed N ->
  let s' := apply_rates N dt e r s in
  (forall b, s_content s' b = s_content s b) /\
  (forall b, In b (brick_ids N) -> s_dyn s' b = s_dyn s b +
      (e_seen e b + e_hidden e b + Rsum (early s b) (noninst b) - Rsum app (outs N b))) /\
  (forall b, s_stat s' b = s_stat s b + Rsum del (inst b)) /\
  (forall k, In k (conn_ids N) -> s_amount s' k = del k).
Proof.
  intros Hwf. unfold apply_rates, brick_ids.
  destruct (bricks_fold s (length (n_bricks N))) as (H1 & H2 & H3 & H4).
  assert (Hsrc : forall k, In k (conn_ids N) -> (k_src (conn_at N k) < length (n_bricks N))%nat).
  { intros k Hk. apply Hwf, conn_at_in, Hk. }
  repeat split; intros.
  - apply H1.
  - rewrite H2. apply in_seq in H. destruct (Nat.ltb_spec b (length (n_bricks N))); [reflexivity|lia].
  - rewrite H3, inst_dep_sum. f_equal. apply Rsum_ext_in; intros k Hk.
    apply filter_In in Hk. destruct Hk as [Hk _]. apply in_inputs in Hk.
    destruct (Nat.ltb_spec (k_src (conn_at N k)) (length (n_bricks N))); [reflexivity|].
    specialize (Hsrc k (proj1 Hk)); lia.
  - rewrite H4 by assumption.
    destruct (Nat.ltb_spec (k_src (conn_at N k)) (length (n_bricks N))); [reflexivity|].
    specialize (Hsrc k H); lia.
Qed.

Lemma inputs_split b (g : nat -> R) :
  Rsum g (noninst b) + Rsum g (inst b) = Rsum g (inputs_of N b).
Proof.
  rewrite (Rsum_filter_split g (fun k => is_instant (k_kind (conn_at N k))) (inputs_of N b)).
  unfold noninst, inst. lra.
Qed.

(** In a forward network everything delivered during the step is received during the step. *)
Lemma apply_rates_level s :
  well_formed N -> forward N ->
  let s' := apply_rates N dt e r s in
  forall b, In b (brick_ids N) ->
    s_content s' b + (s_dyn s' b + s_stat s' b) =
    s_content s b + s_dyn s b + s_stat s b + e_seen e b + e_hidden e b
    + Rsum del (inputs_of N b) - Rsum app (outs N b).
Proof.
  intros Hwf Hfw s' b Hb.
  destruct (apply_rates_effect s Hwf) as (H1 & H2 & H3 & _). fold s' in H1, H2, H3.
  rewrite H1, H2, H3 by assumption. rewrite <- inputs_split.
  rewrite (Rsum_ext_in (early s b) del); [lra|].
  intros k Hk. apply filter_In in Hk. destruct Hk as [Hk _]. apply in_inputs in Hk.
  unfold early. pose proof (Hfw _ _ (conn_at_in N k (proj1 Hk)) (proj2 Hk)).
  destruct (Nat.ltb_spec (k_src (conn_at N k)) b); [reflexivity|lia].
Qed.
End Apply.

Lemma received_inputs N g b : received N g b = Rsum g (inputs_of N b).
Proof.
  unfold received, inputs_of. rewrite Rsum_filter_if. apply Rsum_ext_in; intros k _.
  destruct (k_tgt (conn_at N k)); reflexivity.
Qed.
Lemma withdrawn_outs N g b : withdrawn N g b = Rsum g (outs N b).
Proof. unfold withdrawn, outs. rewrite Rsum_filter_if. reflexivity. Qed.

Lemma finalize_kept x : finalize_value false x = kept x.
Proof.
  unfold finalize_value, kept, NearlyZero, LessThan. pose proof PRECISION_pos.
  destruct (Rleb_spec (Rabs x) PRECISION) as [H1|H1], (Rle_dec x PRECISION) as [H2|H2]; try reflexivity.
  - pose proof (Rle_abs x); lra.
  - destruct (Rltb_spec x (0 - PRECISION)); [reflexivity|].
    exfalso. unfold Rabs in H1; destruct (Rcase_abs x); lra.
  - destruct (Rltb_spec x (0 - PRECISION)); [lra|reflexivity].
Qed.
Lemma kept_nonneg x : 0 <= kept x.
Proof. unfold kept. pose proof PRECISION_pos. destruct (Rle_dec x PRECISION); lra. Qed.
Lemma kept_close x t : 0 <= t -> - t <= x -> Rabs (kept x - x) <= PRECISION + t.
Proof.
  intros. unfold kept. pose proof PRECISION_pos.
  destruct (Rle_dec x PRECISION); unfold Rabs; destruct (Rcase_abs _); lra.
Qed.
