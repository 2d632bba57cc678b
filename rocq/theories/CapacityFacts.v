(** Capacity and overflow; bookkeeping of all kinds of connections by Euler; stages leave no trace. *)
From Verif Require Import Base BaseFacts Container ContainerFacts Network NetworkSpec NetworkFacts SolverFacts StepFacts.

Lemma overflow_exists N b k : In k (outs N b) -> k_overflow (conn_at N k) = true -> overflow_of N b <> None.
Proof.
  intros H1 H2 H. unfold overflow_of in H. apply find_none with (x := k) in H; [congruence|].
  rewrite <- in_rev. exact H1.
Qed.

Section Euler.
Variables (N : net) (dt : R) (e : external) (f : law) (s s' : state).
Hypothesis Hdt : 0 < dt <= 1.
Hypothesis Hwf : well_formed N.
Hypothesis Hfw : forward N.
Hypothesis Hpl : plain N.
Hypothesis Hcaps : sound_caps N.
Hypothesis He : nonneg_external e.
Hypothesis Hcm : committed s.
Hypothesis Hpos : forall b, solid N b -> 0 <= s_content s b.
Hypothesis Hov : forall b c, (b < length (n_bricks N))%nat -> b_cap (brick_at N b) = Some c ->
  exists k, In k (outs N b) /\ k_overflow (conn_at N k) = true.
Hypothesis Hdust : forall k, (k < length (n_conns N))%nat ->
  f (deposit e s) k <= 0 \/ EPSILON_D < f (deposit e s) k.
Hypothesis Hok : euler_step N dt e f s = Ok s'.

Lemma euler_capacity :
  exists rate : nat -> R,
    (forall k, (k < length (n_conns N))%nat -> 0 <= rate k) /\
    (forall k, (k < length (n_conns N))%nat ->
       s_amount s' k = weighted (conn_at N k) (if Rlt_dec PRECISION (rate k) then rate k * dt else 0)) /\
    forall b c k, (b < length (n_bricks N))%nat -> b_cap (brick_at N b) = Some c -> overflow_of N b = Some k ->
      (e_hidden e b = 0 -> s_content s' b <= c + INR (length (outs N b)) * PRECISION * dt) /\
      rate k * dt = Rmax 0 (s_content s b + e_seen e b + e_inst e b
         + (Rsum rate (ins N b) - (Rsum rate (outs N b) - rate k)) * dt - c).
Proof.
  assert (Hdt0 : 0 < dt) by lra.
  unfold euler_step in Hok. apply bind_ok in Hok. destruct Hok as (r & H1 & H2). injection H2 as <-.
  set (t := deposit e s) in *.
  assert (Hav : forall b, In b (brick_ids N) -> b_allowneg (brick_at N b) = false -> 0 <= avail N e t b).
  { intros b Hb Han. unfold avail. rewrite (plain_static N e Hpl). unfold t; cbn [deposit s_content s_dyn].
    destruct (Hcm b) as [-> _]. destruct (He b) as (?&?&?).
    assert (0 <= s_content s b) by (apply Hpos; split; [apply in_seq in Hb; lia|exact Han]). lra. }
  assert (Hcov : forall b, In b (brick_ids N) -> b_cap (brick_at N b) = None \/ overflow_of N b <> None).
  { intros b Hb. destruct (b_cap (brick_at N b)) as [c|] eqn:Ec; [right|left; reflexivity].
    apply in_seq in Hb. destruct (Hov b c ltac:(lia) Ec) as (k & Hk & Hk'). eapply overflow_exists; eauto. }
  set (req := null_overflow N (evaluate N f t)) in *.
  assert (Hst : settled N dt e t req r).
  { apply (enforce_settled N dt e t Hdt0 Hfw Hcaps Hav Hcov req); [| | |exact H1].
    - intros k Hk. unfold req, null_overflow, evaluate. destruct (k_overflow (conn_at N k)); [left; lra|].
      destruct (LessThanOrEqual _ _ _); [left; lra|]. apply Hdust, conn_ids_lt, Hk.
    - intros k Hk E. unfold req, null_overflow. rewrite E. reflexivity.
    - intros b Hb. destruct (b_allowneg (brick_at N b)) eqn:Ean; [auto|right].
      unfold LessThanOrEqual in *. destruct (Rle_dec (content_changes t b) PRECISION) as [Hle|Hgt].
      + right. intros k Hk. apply in_outs in Hk. destruct Hk as [_ Hs].
        unfold req, null_overflow, evaluate, LessThanOrEqual. destruct (k_overflow (conn_at N k)); [lra|].
        rewrite Hs. destruct (Rleb_spec (content_changes t b) (0 + PRECISION)); lra.
      + left. unfold avail. rewrite (plain_static N e Hpl). unfold content_changes in Hgt.
        unfold t in *; cbn [deposit s_content s_dyn s_stat] in *. destruct (Hcm b) as [Hd Hs0].
        rewrite Hd in *. rewrite Hs0 in *. destruct (He b) as (?&?&?). pose proof PRECISION_pos. nra. }
  assert (Hnn : forall k, In k (conn_ids N) -> 0 <= r k).
  { intros k Hk. destruct (Hwf _ (conn_at_in N k Hk)) as [Hs _].
    apply (proj1 (Hst (k_src (conn_at N k)) ltac:(apply in_seq; lia))). left. apply in_outs. auto. }
  exists r. split; [|split].
  - intros k Hk. apply Hnn, conn_ids_lt, Hk.
  - intros k Hk. cbn [finalize_step s_amount].
    destruct (apply_rates_effect N dt e r t Hwf) as (_ & _ & _ & ->); [reflexivity|apply conn_ids_lt, Hk].
  - intros b c k Hb Ec Ek. assert (Hb' : In b (brick_ids N)) by (apply in_seq; lia).
    destruct (Hst b Hb') as (A1 & A2 & A3 & A4 & A5).
    destruct (overflow_in_outs N b k Ek) as [Hko _].
    assert (El : lev N dt e t r b = s_content s b + e_seen e b + e_inst e b + (Rsum r (ins N b) - Rsum r (outs N b)) * dt).
    { unfold lev, avail. rewrite (plain_static N e Hpl). unfold t; cbn [deposit s_content s_dyn].
      destruct (Hcm b) as [-> _]. ring. }
    split.
    + intros Hh. specialize (A3 c Ec). rewrite El in A3.
      assert (Hc0 : 0 <= c) by (apply (Hcaps (brick_at N b)); [apply brick_at_in, Hb'|exact Ec]).
      assert (Hlv : s_content (apply_rates N dt e r t) b + (s_dyn (apply_rates N dt e r t) b + s_stat (apply_rates N dt e r t) b)
         <= c + INR (length (outs N b)) * PRECISION * dt).
      { rewrite (apply_rates_level N dt e r t Hwf Hfw b Hb'). unfold t; cbn [deposit s_content s_dyn s_stat].
        destruct (Hcm b) as [-> ->]. rewrite Hh.
        assert (Hin : Rsum (delivered N dt r) (inputs_of N b) <= Rsum r (ins N b) * dt).
        { rewrite (plain_ins N Hpl), <- Rsum_scal_r. apply Rsum_le. intros j Hj.
          unfold delivered. rewrite weighted_one by (apply (plain_inputs N Hpl b j Hj)).
          apply in_inputs in Hj. apply applied_le; [lra|]. apply Hnn; tauto. }
        assert (Hou : Rsum r (outs N b) * dt - INR (length (outs N b)) * PRECISION * dt <= Rsum (applied dt r) (outs N b)).
        { rewrite <- Rsum_scal_r.
          replace (INR (length (outs N b)) * PRECISION * dt) with (Rsum (fun _ : nat => PRECISION * dt) (outs N b))
            by (rewrite Rsum_const; ring).
          rewrite <- Rsum_minus. apply Rsum_le. intros j _. apply applied_ge; lra. }
        lra. }
      cbn [finalize_step s_content]. unfold finalize_value.
      assert (0 <= c + INR (length (outs N b)) * PRECISION * dt).
      { assert (0 <= INR (length (outs N b)) * PRECISION * dt); [|lra].
        pose proof PRECISION_pos. repeat apply Rmult_le_pos; try lra. apply pos_INR. }
      destruct (b_allowneg _); [exact Hlv|]. destruct (NearlyZero _ _); [lra|]. destruct (LessThan _ _ _); lra.
    + specialize (A3 c Ec). specialize (A4 c k Ec Ek). specialize (A1 k (or_introl Hko)). rewrite El in A3, A4.
      destruct (Rle_lt_or_eq_dec 0 (r k) A1) as [Hp|Hz].
      * specialize (A4 Hp). rewrite Rmax_right; [lra|].
        assert (0 < r k * dt) by (apply Rmult_lt_0_compat; lra). lra.
      * rewrite <- Hz. rewrite Rmax_left; lra.
Qed.
End Euler.

(** Euler books every kind of connection exactly once when stores are declared in flow order. *)
Lemma euler_books N dt e f s s' : 0 < dt -> well_formed N -> forward N -> committed s ->
  euler_step N dt e f s = Ok s' ->
  exists released, (forall k, 0 <= released k) /\
    (forall k, (k < length (n_conns N))%nat -> reports (conn_at N k) (released k) (s_amount s' k)) /\
    forall b, (b < length (n_bricks N))%nat ->
      s_content s' b = (if b_allowneg (brick_at N b) then fun x => x else kept) (book_level N e s s' released b).
Proof.
  intros Hdt Hwf Hfw Hcm H. unfold euler_step in H. apply bind_ok in H. destruct H as (r & H1 & H2).
  injection H2 as <-. exists (applied dt r).
  destruct (apply_rates_effect N dt e r (deposit e s) Hwf) as (_ & _ & _ & Ha).
  split; [intros; apply applied_nonneg, Hdt|]. split.
  - intros k Hk. cbn [finalize_step s_amount]. rewrite Ha by (apply conn_ids_lt; exact Hk). apply weighted_reports.
  - intros b Hb. assert (Hb' : In b (brick_ids N)) by (apply in_seq; lia).
    cbn [finalize_step s_content]. rewrite (apply_rates_level N dt e r _ Hwf Hfw b Hb').
    cbn [deposit s_content s_dyn s_stat]. destruct (Hcm b) as [-> ->].
    assert (E : book_level N e s (finalize_step N (apply_rates N dt e r (deposit e s))) (applied dt r) b
      = s_content s b + 0 + (0 + e_inst e b) + e_seen e b + e_hidden e b
        + Rsum (delivered N dt r) (inputs_of N b) - Rsum (applied dt r) (outs N b)).
    { unfold book_level, external_in. rewrite received_inputs, withdrawn_outs.
      cbn [finalize_step s_amount]. rewrite (Rsum_ext_in _ (delivered N dt r) (inputs_of N b)); [ring|].
      intros k Hk. apply in_inputs in Hk. apply Ha; tauto. }
    rewrite E. destruct (b_allowneg (brick_at N b)); [reflexivity|]. apply finalize_kept.
Qed.

(** The stages of Heun and RK4 leave no trace. *)
Section Trace.
Variables (N : net) (dt : R) (e : external) (s s' : state).
Hypothesis Hdt : 0 < dt.
Hypothesis Hwf : well_formed N.
Hypothesis Hfw : forward N.
Hypothesis Hpl : plain N.
Hypothesis Hcm : committed s.

Lemma heun_no_trace f1 f2 : heun_step N dt e f1 f2 s = Ok s' ->
  let t := deposit e s in
  exists k1 k2 kc,
    enforce N dt e t (null_overflow N (evaluate N f1 t)) = Ok k1 /\
    k2 = evaluate N f2 (apply_rates N dt e k1 t) /\
    constrain_rates N dt e t (fun k => (k1 k + k2 k) / 2) = Ok kc /\
    (forall b, (b < length (n_bricks N))%nat ->
       s_content s' b = s_content (finalize_step N (apply_rates N dt e kc t)) b) /\
    (forall k, (k < length (n_conns N))%nat ->
       s_amount s' k = s_amount (finalize_step N (apply_rates N dt e kc t)) k).
Proof.
  intros H t. unfold heun_step in H. fold t in H. apply bind_ok in H. destruct H as (k1 & H1 & H2).
  apply bind_ok in H2. destruct H2 as (kc & H2 & H3). injection H3 as <-.
  set (k2 := evaluate N f2 (apply_rates N dt e k1 t)) in *.
  assert (Hsim : similar N (reset_state (apply_rates N dt e k1 t)) t).
  { apply (trial_similar N dt e Hwf Hpl). intros b. unfold t; cbn. apply Hcm. }
  exists k1, k2, kc. split; [exact H1|]. split; [reflexivity|]. split.
  - unfold constrain_rates, enforce in *. rewrite <- (similar_enforce N dt e Hpl _ _ 10 Hsim). exact H2.
  - split.
    + intros b Hb. apply (similar_commit N dt e Hwf Hfw); [exact Hsim|apply in_seq; lia].
    + intros k Hk. apply (commit_amount N dt e Hwf). apply conn_ids_lt, Hk.
Qed.

Lemma rk4_no_trace f1 f2 f3 f4 : rk4_step N dt e f1 f2 f3 f4 s = Ok s' ->
  let t := deposit e s in
  exists k1 k2 k3 k4 kc,
    enforce N dt e t (null_overflow N (evaluate N f1 t)) = Ok k1 /\
    (exists t2 t3 t4,
       constrain_rates N dt e t (evaluate N f2 t2) = Ok k2 /\
       constrain_rates N dt e t (evaluate N f3 t3) = Ok k3 /\ k4 = evaluate N f4 t4 /\
       forall b, (b < length (n_bricks N))%nat ->
         s_content t2 b = s_content s b /\
         s_dyn t2 b = s_dyn (apply_rates N dt e k1 t) b / 2 /\
         s_content t3 b = s_content s b /\
         s_dyn t3 b = s_dyn (apply_rates N dt e k2 t) b / 2 /\
         s_content t4 b = s_content s b /\
         s_dyn t4 b = s_dyn (apply_rates N dt e k3 t) b) /\
    constrain_rates N dt e t (fun k => (k1 k + 2 * k2 k + 2 * k3 k + k4 k) / 6) = Ok kc /\
    (forall b, (b < length (n_bricks N))%nat ->
       s_content s' b = s_content (finalize_step N (apply_rates N dt e kc t)) b) /\
    (forall k, (k < length (n_conns N))%nat ->
       s_amount s' k = s_amount (finalize_step N (apply_rates N dt e kc t)) k).
Proof.
  intros H t. unfold rk4_step in H. fold t in H. cbv zeta in H.
  apply bind_ok in H. destruct H as (k1 & H1 & H2).
  apply bind_ok in H2. destruct H2 as (k2 & H2 & H3).
  apply bind_ok in H3. destruct H3 as (k3 & H3 & H4).
  apply bind_ok in H4. destruct H4 as (kc & H4 & H5). injection H5 as <-.
  set (u1 := scale_state (/ 2) (apply_rates N dt e k1 t)) in *.
  set (u2 := scale_state (/ 2) (apply_rates N dt e k2 (reset_state u1))) in *.
  set (u3 := apply_rates N dt e k3 (reset_state u2)) in *.
  assert (Hd : forall b, s_dyn t b = 0) by (intros b; unfold t; cbn; apply Hcm).
  assert (S1 : similar N (reset_state u1) t) by (apply (trial_scaled_similar N dt e Hwf Hpl); exact Hd).
  assert (S2 : similar N (reset_state u2) t).
  { eapply similar_trans; [|exact S1]. apply (trial_scaled_similar N dt e Hwf Hpl). reflexivity. }
  assert (S3 : similar N (reset_state u3) t).
  { eapply similar_trans; [|exact S2]. apply (trial_similar N dt e Hwf Hpl). reflexivity. }
  exists k1, k2, k3, (evaluate N f4 u3), kc. split; [exact H1|]. split.
  - exists u1, u2, u3. unfold constrain_rates, enforce in *. split; [|split; [|split]].
    + rewrite <- (similar_enforce N dt e Hpl _ _ 10 S1). exact H2.
    + rewrite <- (similar_enforce N dt e Hpl _ _ 10 S2). exact H3.
    + reflexivity.
    + intros b Hb. assert (Hb' : In b (brick_ids N)) by (apply in_seq; lia).
      destruct (apply_rates_effect N dt e k1 t Hwf) as (A1 & _ & _ & _).
      destruct (apply_rates_effect N dt e k2 (reset_state u1) Hwf) as (B1 & B2 & _ & _).
      destruct (apply_rates_effect N dt e k3 (reset_state u2) Hwf) as (C1 & C2 & _ & _).
      destruct (apply_rates_effect N dt e k2 t Hwf) as (_ & D2 & _ & _).
      destruct (apply_rates_effect N dt e k3 t Hwf) as (_ & E2 & _ & _).
      assert (Hearly : forall r sa sb, Rsum (early N dt r sa b) (noninst N b) = Rsum (early N dt r sb b) (noninst N b)).
      { intros r sa sb. apply Rsum_ext_in. intros k Hk. apply filter_In in Hk. destruct Hk as [Hk _].
        apply in_inputs in Hk. unfold early. pose proof (Hfw _ _ (conn_at_in N k (proj1 Hk)) (proj2 Hk)).
        destruct (Nat.ltb_spec (k_src (conn_at N k)) b); [reflexivity|lia]. }
      split; [|split; [|split; [|split; [|split]]]].
      * unfold u1; cbn [scale_state s_content]. rewrite A1. reflexivity.
      * reflexivity.
      * unfold u2; cbn [scale_state s_content]. rewrite B1. unfold u1; cbn [scale_state reset_state s_content]. rewrite A1. reflexivity.
      * unfold u2; cbn [scale_state s_dyn]. rewrite B2, D2 by exact Hb'. rewrite (Hearly k2 (reset_state u1) t).
        cbn [reset_state s_dyn]. rewrite Hd. reflexivity.
      * unfold u3. rewrite C1. unfold u2; cbn [scale_state reset_state s_content]. rewrite B1.
        unfold u1; cbn [scale_state reset_state s_content]. rewrite A1. reflexivity.
      * unfold u3. rewrite C2, E2 by exact Hb'. rewrite (Hearly k3 (reset_state u2) t).
        cbn [reset_state s_dyn]. rewrite Hd. reflexivity.
  - split; [|split].
    + unfold constrain_rates, enforce in *. rewrite <- (similar_enforce N dt e Hpl _ _ 10 S3). exact H4.
    + intros b Hb. apply (similar_commit N dt e Hwf Hfw); [exact S3|apply in_seq; lia].
    + intros k Hk. apply (commit_amount N dt e Hwf). apply conn_ids_lt, Hk.
Qed.
End Trace.
