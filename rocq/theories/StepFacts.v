(** From the limiter to committed steps and runs. *)
From Verif Require Import Base BaseFacts Container ContainerFacts Network NetworkSpec NetworkFacts SolverFacts.

Section Plain.
Variables (N : net) (dt : R) (e : external).
Hypothesis Hdt : 0 < dt.
Hypothesis Hwf : well_formed N.
Hypothesis Hpl : plain N.

Lemma plain_inputs b k : In k (inputs_of N b) -> k_kind (conn_at N k) = Regular /\ k_frac (conn_at N k) = 1.
Proof.
  intros H. apply in_inputs in H. destruct H as [H1 H2]. exact (Hpl _ _ (conn_at_in N k H1) H2).
Qed.
Lemma plain_inst b : inst N b = [].
Proof.
  apply filter_none. intros k Hk. destruct (plain_inputs b k Hk) as [-> _]. reflexivity.
Qed.
Lemma plain_static b s : inputs_static N e s b = e_seen e b + e_inst e b.
Proof.
  unfold inputs_static. rewrite filter_none; [cbn; lra|].
  intros k Hk. destruct (plain_inputs b k Hk) as [-> _]. reflexivity.
Qed.
Lemma filter_all {A} (p : A -> bool) l : (forall x, In x l -> p x = true) -> filter p l = l.
Proof.
  induction l as [|a l IH]; simpl; intros H; [reflexivity|].
  rewrite (H a) by auto. f_equal. apply IH; auto.
Qed.
Lemma plain_ins b : ins N b = inputs_of N b.
Proof.
  apply filter_all. intros k Hk. destruct (plain_inputs b k Hk) as [-> _]. reflexivity.
Qed.

(** States that the limiter cannot tell apart. *)
Definition similar (s t : state) : Prop :=
  (forall b, s_content s b = s_content t b) /\ (forall b, In b (brick_ids N) -> s_dyn s b = s_dyn t b) /\
  (forall b, s_stat s b = s_stat t b).

Lemma similar_constrain s t b r : similar s t -> In b (brick_ids N) ->
  constrain_brick N dt e s b r = constrain_brick N dt e t b r.
Proof.
  intros (H1 & H2 & _) Hb. unfold constrain_brick. rewrite !plain_static, H1, (H2 b Hb). reflexivity.
Qed.
Lemma similar_sweep s t l : similar s t -> (forall b, In b l -> In b (brick_ids N)) ->
  forall r, sweep N dt e s l r = sweep N dt e t l r.
Proof.
  intros H. induction l as [|b l IH]; intros Hl r; cbn [sweep]; [reflexivity|].
  rewrite (similar_constrain s t b r H) by (apply Hl; left; reflexivity).
  destruct (constrain_brick N dt e t b r); cbn [bind]; try reflexivity.
  apply IH; intros; apply Hl; right; assumption.
Qed.
Lemma similar_enforce s t fuel : similar s t ->
  forall r, enforce_n fuel N dt e s r = enforce_n fuel N dt e t r.
Proof.
  intros H. induction fuel as [|fuel IH]; intros r; cbn [enforce_n]; [reflexivity|].
  rewrite (similar_sweep s t _ H) by auto.
  destruct (sweep N dt e t (brick_ids N) r); cbn [bind]; try reflexivity.
  destruct (stable N r a); auto.
Qed.

(** Trial applications followed by ResetState leave contents and static changes as they were. *)
Lemma trial_similar s r : (forall b, s_dyn s b = 0) ->
  similar (reset_state (apply_rates N dt e r s)) s.
Proof.
  intros H. destruct (apply_rates_effect N dt e r s Hwf) as (H1 & _ & H3 & _).
  split; [|split]; intros b; cbn [reset_state s_content s_dyn s_stat].
  - apply H1.
  - intros _; symmetry; apply H.
  - rewrite H3, plain_inst. cbn; lra.
Qed.
Lemma trial_scaled_similar s r c : (forall b, s_dyn s b = 0) ->
  similar (reset_state (scale_state c (apply_rates N dt e r s))) s.
Proof. exact (trial_similar s r). Qed.
Lemma similar_trans s t u : similar s t -> similar t u -> similar s u.
Proof.
  intros (A1&A2&A3) (B1&B2&B3). split; [|split].
  - intros b; rewrite A1; apply B1.
  - intros b Hb; rewrite A2 by exact Hb; apply B2, Hb.
  - intros b; rewrite A3; apply B3.
Qed.

Hypothesis Hfw : forward N.

(** The committed content depends on the content and rates only. *)
Lemma similar_commit s t r b : similar s t -> In b (brick_ids N) ->
  s_content (finalize_step N (apply_rates N dt e r s)) b = s_content (finalize_step N (apply_rates N dt e r t)) b.
Proof.
  intros (H1 & H2 & H3) Hb. cbn [finalize_step s_content].
  rewrite !(apply_rates_level N dt e r _ Hwf Hfw b Hb), H1, (H2 b Hb), H3. reflexivity.
Qed.
Lemma commit_amount s t r k : In k (conn_ids N) ->
  s_amount (finalize_step N (apply_rates N dt e r s)) k = s_amount (finalize_step N (apply_rates N dt e r t)) k.
Proof.
  intros Hk. cbn [finalize_step s_amount].
  destruct (apply_rates_effect N dt e r s Hwf) as (_ & _ & _ & ->); [|exact Hk].
  destruct (apply_rates_effect N dt e r t Hwf) as (_ & _ & _ & ->); [|exact Hk]. reflexivity.
Qed.

Hypothesis Hcaps : sound_caps N.
Hypothesis He : nonneg_external e.

(** Applying limited rates to a start-of-step state. *)
Lemma commit_closes s t rr r :
  committed s -> (forall b, solid N b -> 0 <= s_content s b) ->
  similar t (deposit e s) -> enforce N dt e t rr = Ok r ->
  closes N dt e s (finalize_step N (apply_rates N dt e r t)) (applied dt r).
Proof.
  intros Hcm Hpos Hsim Hok.
  assert (Hav : forall b, In b (brick_ids N) -> b_allowneg (brick_at N b) = false -> 0 <= avail N e t b).
  { intros b Hb Han. unfold avail. destruct Hsim as (S1 & S2 & _).
    rewrite plain_static, S1, (S2 b Hb). cbn [deposit s_content s_dyn].
    destruct (Hcm b) as [-> _]. destruct (He b) as (?&?&?).
    assert (0 <= s_content s b) by (apply Hpos; split; [apply in_seq in Hb; lia|exact Han]). lra. }
  destruct (enforce_feasible N dt e t Hdt Hfw Hcaps Hav rr r Hok) as [Hnn Hfe].
  set (s' := finalize_step N (apply_rates N dt e r t)).
  assert (Ham : forall k, In k (conn_ids N) -> s_amount s' k = delivered N dt r k).
  { intros k Hk. unfold s'; cbn [finalize_step s_amount].
    destruct (apply_rates_effect N dt e r t Hwf) as (_ & _ & _ & ->); auto. }
  assert (Hlev : forall b, In b (brick_ids N) ->
    s_content (apply_rates N dt e r t) b + (s_dyn (apply_rates N dt e r t) b + s_stat (apply_rates N dt e r t) b)
    = book_level N e s s' (applied dt r) b).
  { intros b Hb. rewrite (apply_rates_level N dt e r t Hwf Hfw b Hb).
    destruct Hsim as (S1 & S2 & S3). rewrite S1, (S2 b Hb), S3.
    cbn [deposit s_content s_dyn s_stat]. destruct (Hcm b) as [-> ->].
    unfold book_level, external_in. rewrite received_inputs, withdrawn_outs.
    rewrite (Rsum_ext_in (s_amount s') (delivered N dt r)); [lra|].
    intros k Hk. apply in_inputs in Hk. apply Ham; tauto. }
  constructor.
  - intros k. apply applied_nonneg, Hdt.
  - intros k Hk. apply conn_ids_lt in Hk. rewrite (Ham k Hk). apply weighted_reports.
  - intros b; split; reflexivity.
  - intros b Hb Han. rewrite <- Hlev by (apply in_seq; lia).
    unfold s'; cbn [finalize_step s_content]. rewrite Han. reflexivity.
  - intros b [Hb Han]. rewrite <- Hlev by (apply in_seq; lia).
    unfold s'; cbn [finalize_step s_content]. rewrite Han. apply finalize_kept.
  - intros b [Hb Han]. assert (Hb' : In b (brick_ids N)) by (apply in_seq; lia).
    pose proof (Hfe b Hb' Han) as Hl. unfold lev, avail in Hl.
    destruct Hsim as (S1 & S2 & _). rewrite plain_static, S1, (S2 b Hb') in Hl.
    cbn [deposit s_content s_dyn] in Hl. destruct (Hcm b) as [Hd _]. rewrite Hd in Hl.
    unfold book_level, external_in. rewrite received_inputs, withdrawn_outs.
    rewrite (Rsum_ext_in (s_amount s') (applied dt r)).
    2:{ intros k Hk. pose proof (plain_inputs b k Hk) as [_ Hf]. apply in_inputs in Hk.
        rewrite Ham by tauto. apply weighted_one, Hf. }
    assert (Hin : Rsum r (ins N b) * dt - INR (length (ins N b)) * PRECISION * dt <= Rsum (applied dt r) (inputs_of N b)).
    { rewrite <- plain_ins. rewrite <- Rsum_scal_r.
      replace (INR (length (ins N b)) * PRECISION * dt) with (Rsum (fun _ : nat => PRECISION * dt) (ins N b))
        by (rewrite Rsum_const; ring).
      rewrite <- Rsum_minus. apply Rsum_le; intros k _. apply applied_ge, Hdt. }
    assert (Hout : Rsum (applied dt r) (outs N b) <= Rsum r (outs N b) * dt).
    { rewrite <- Rsum_scal_r. apply Rsum_le; intros k Hk. apply applied_le; [exact Hdt|].
      apply (Hnn b Hb'); auto. }
    destruct (He b) as (?&?&?). lra.
Qed.

Lemma deposit_dyn s : committed s -> forall b, s_dyn (deposit e s) b = 0.
Proof. intros H b. cbn. apply H. Qed.
Lemma similar_refl s : similar s s.
Proof. split; [|split]; reflexivity. Qed.
Lemma reset_dyn s b : s_dyn (reset_state s) b = 0.
Proof. reflexivity. Qed.

End Plain.

(** ** Consequences *)
Lemma closes_nonneg N dt e s s' rel b : closes N dt e s s' rel -> solid N b -> 0 <= s_content s' b.
Proof. intros H Hb. rewrite (cl_kept _ _ _ _ _ _ H b Hb). apply kept_nonneg. Qed.

Lemma tol_nonneg N dt b : 0 < dt ->
  0 <= (INR (length (outs N b)) * EPSILON_D + INR (length (ins N b)) * PRECISION) * dt.
Proof.
  intros. pose proof EPSILON_D_pos. pose proof PRECISION_pos.
  apply Rmult_le_pos; [|lra].
  apply Rplus_le_le_0_compat; apply Rmult_le_pos; try apply pos_INR; lra.
Qed.

Lemma closes_close N dt e s s' rel b : 0 < dt -> closes N dt e s s' rel -> (b < length (n_bricks N))%nat ->
  Rabs (s_content s' b - book_level N e s s' rel b) <= step_tolerance N dt b.
Proof.
  intros Hdt H Hb. pose proof (tol_nonneg N dt b Hdt). pose proof PRECISION_pos.
  unfold step_tolerance.
  destruct (b_allowneg (brick_at N b)) eqn:Han.
  - rewrite (cl_exact _ _ _ _ _ _ H b Hb Han). rewrite Rminus_diag_eq, Rabs_R0 by reflexivity. lra.
  - assert (Hs : solid N b) by (split; assumption).
    rewrite (cl_kept _ _ _ _ _ _ H b Hs). apply kept_close; [assumption|].
    apply (cl_close _ _ _ _ _ _ H b Hs).
Qed.

