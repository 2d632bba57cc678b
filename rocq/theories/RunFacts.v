(** Runs of any mixture of the solvers. *)
From Verif Require Import Base BaseFacts Container ContainerFacts Network Sequential NetworkSpec
  NetworkFacts SolverFacts StepFacts SequentialFacts.

Section Step.
Variables (N : net) (dt : R) (e : external).
Hypothesis Hdt : 0 < dt.
Hypothesis Hwf : well_formed N.
Hypothesis Hpl : plain N.
Hypothesis Hfw : forward N.
Hypothesis Hcaps : sound_caps N.
Hypothesis He : nonneg_external e.

Lemma step_closes s s' :
  committed s -> (forall b, solid N b -> 0 <= s_content s b) ->
  solver_step N dt e s s' -> exists released, closes N dt e s s' released.
Proof.
  intros Hcm Hpos [f H|f1 f2 H|f1 f2 f3 f4 H|sch f r r' H].
  - unfold euler_step in H. apply bind_ok in H. destruct H as (k1 & H1 & H2). injection H2 as <-.
    eexists. eapply commit_closes; eauto using similar_refl.
  - unfold heun_step in H. apply bind_ok in H. destruct H as (k1 & H1 & H2).
    apply bind_ok in H2. destruct H2 as (kc & H2 & H3). injection H3 as <-.
    eexists. eapply commit_closes; eauto. eapply trial_similar; eauto. apply deposit_dyn, Hcm.
  - unfold rk4_step in H. apply bind_ok in H. destruct H as (k1 & H1 & H2).
    apply bind_ok in H2. destruct H2 as (k2 & H2 & H3).
    apply bind_ok in H3. destruct H3 as (k3 & H3 & H4).
    apply bind_ok in H4. destruct H4 as (kc & H4 & H5). injection H5 as <-.
    eexists. eapply commit_closes; eauto.
    eapply similar_trans; [eapply trial_similar; eauto; intros; reflexivity|].
    eapply similar_trans; [eapply trial_scaled_similar; eauto; intros; reflexivity|].
    eapply trial_scaled_similar; eauto. apply deposit_dyn, Hcm.
  - exact (seq_step_closes N dt e sch f Hdt Hwf Hpl Hfw Hcaps He s Hcm Hpos r s' r' H).
Qed.
End Step.

(** Every step of a run keeps the books, and contents stay non-negative. *)
Lemma run_closes N dt : 0 < dt -> well_formed N -> plain N -> forward N -> sound_caps N ->
  forall l s, committed s -> (forall b, solid N b -> 0 <= s_content s b) ->
  (forall e s', In (e, s') l -> nonneg_external e) -> run N dt s l ->
  each_step (fun e s s' => (exists released, closes N dt e s s' released) /\
     forall b, solid N b -> 0 <= s_content s' b) s l.
Proof.
  intros Hdt Hwf Hpl Hfw Hcaps. induction l as [|[e s1] l IH]; intros s Hcm Hpos He Hrun; [exact I|].
  destruct Hrun as [Hst Hrun].
  destruct (step_closes N dt e Hdt Hwf Hpl Hfw Hcaps (He e s1 (or_introl eq_refl)) s s1 Hcm Hpos Hst) as [rel Hcl].
  assert (Hpos1 : forall b, solid N b -> 0 <= s_content s1 b)
    by (intros b Hb; apply (closes_nonneg _ _ _ _ _ _ b Hcl Hb)).
  split; [split; [exists rel; exact Hcl|exact Hpos1]|].
  apply IH; auto.
  - apply (cl_committed _ _ _ _ _ _ Hcl).
  - intros e0 s' Hin. apply (He e0 s'). right; exact Hin.
Qed.

Section Balance.
Variables (N : net) (dt : R) (w : nat -> R).
Hypothesis Hdt : 0 < dt.
Hypothesis Hwf : well_formed N.
Hypothesis Hpl : plain N.
Hypothesis Hw : weights N w.

Lemma sum_received g : Rsum (fun b => w b * received N g b) (brick_ids N)
  = Rsum (fun k => match k_tgt (conn_at N k) with ToStore b => w b * g k | _ => 0 end) (conn_ids N).
Proof.
  rewrite (Rsum_ext_in _ (fun b => Rsum (fun k => w b *
     match k_tgt (conn_at N k) with ToStore b' => if Nat.eqb b' b then g k else 0 | _ => 0 end) (conn_ids N))).
  2:{ intros b _. unfold received. rewrite Rsum_scal. reflexivity. }
  rewrite Rsum_swap. apply Rsum_ext_in. intros k Hk.
  destruct (k_tgt (conn_at N k)) as [b'| |] eqn:Et; try (apply Rsum_zero; intros; lra).
  destruct (Hwf _ (conn_at_in N k Hk)) as [_ Hb]. specialize (Hb b' Et).
  rewrite (Rsum_ext_in _ (fun b => if Nat.eqb b b' then w b' * g k else 0)).
  - apply Rsum_single; [apply seq_NoDup|apply in_seq; lia].
  - intros b _. rewrite (Nat.eqb_sym b). destruct (Nat.eqb_spec b' b); [subst|]; lra.
Qed.
Lemma sum_withdrawn g : Rsum (fun b => w b * withdrawn N g b) (brick_ids N)
  = Rsum (fun k => w (k_src (conn_at N k)) * g k) (conn_ids N).
Proof.
  rewrite (Rsum_ext_in _ (fun b => Rsum (fun k => w b *
     (if Nat.eqb (k_src (conn_at N k)) b then g k else 0)) (conn_ids N))).
  2:{ intros b _. unfold withdrawn. rewrite Rsum_scal. reflexivity. }
  rewrite Rsum_swap. apply Rsum_ext_in. intros k Hk.
  destruct (Hwf _ (conn_at_in N k Hk)) as [Hb _].
  rewrite (Rsum_ext_in _ (fun b => if Nat.eqb b (k_src (conn_at N k)) then w (k_src (conn_at N k)) * g k else 0)).
  - apply Rsum_single; [apply seq_NoDup|apply in_seq; lia].
  - intros b _. rewrite (Nat.eqb_sym b). destruct (Nat.eqb_spec (k_src (conn_at N k)) b); [subst|]; lra.
Qed.

Lemma books_total e s s' rel : closes N dt e s s' rel ->
  Rsum (fun b => w b * book_level N e s s' rel b) (brick_ids N)
  = stored N w s + entering N w e - leaving N w s'.
Proof.
  intros H. destruct Hw as [_ Hwc].
  rewrite (Rsum_ext_in _ (fun b => (w b * s_content s b + w b * external_in e b)
     + (w b * received N (s_amount s') b - w b * withdrawn N rel b)))
    by (intros; unfold book_level; ring).
  rewrite !Rsum_plus, Rsum_minus, sum_received, sum_withdrawn. fold (stored N w s) (entering N w e).
  unfold leaving.
  enough (E : Rsum (fun k => match k_tgt (conn_at N k) with ToStore b => w b * s_amount s' k | _ => 0 end) (conn_ids N)
     - Rsum (fun k => w (k_src (conn_at N k)) * rel k) (conn_ids N)
     + Rsum (fun k => match k_tgt (conn_at N k) with
                 | ToStore _ => 0 | ToOutlet => s_amount s' k
                 | ToAtmosphere => w (k_src (conn_at N k)) * s_amount s' k end) (conn_ids N) = 0) by lra.
  rewrite <- Rsum_minus, <- Rsum_plus. apply Rsum_zero. intros k Hk.
  pose proof (Hwc _ (conn_at_in N k Hk)) as Hc.
  pose proof (cl_reports _ _ _ _ _ _ H k (proj1 (conn_ids_lt N k) Hk)) as [Hr _].
  destruct (k_tgt (conn_at N k)) as [b| |] eqn:Et.
  - destruct (Hpl _ _ (conn_at_in N k Hk) Et) as [_ Hf]. rewrite Hr by lra. rewrite Hf, Hc. lra.
  - destruct Hc as [Hf Hle]. rewrite Hr by exact Hle. rewrite Hf. lra.
  - rewrite Hr by lra. rewrite Hc. lra.
Qed.

Definition total_tolerance : R := Rsum (fun b => w b * step_tolerance N dt b) (brick_ids N).

Lemma step_balance e s s' rel : closes N dt e s s' rel ->
  Rabs (stored N w s' - (stored N w s + entering N w e - leaving N w s')) <= total_tolerance.
Proof.
  intros H. rewrite <- (books_total e s s' rel H). unfold stored, total_tolerance.
  rewrite <- Rsum_minus. eapply Rle_trans; [apply Rsum_Rabs|]. apply Rsum_le. intros b Hb.
  destruct Hw as [Hw0 _]. specialize (Hw0 b).
  replace (w b * s_content s' b - w b * book_level N e s s' rel b)
    with (w b * (s_content s' b - book_level N e s s' rel b)) by ring.
  rewrite Rabs_mult, (Rabs_right (w b)) by lra.
  apply Rmult_le_compat_l; [exact Hw0|]. apply (closes_close N dt e s s' rel b Hdt H).
  apply in_seq in Hb. lia.
Qed.

Hypothesis Hfw : forward N.
Hypothesis Hcaps : sound_caps N.

Lemma run_inv l : forall s, committed s -> (forall b, solid N b -> 0 <= s_content s b) ->
  (forall e s', In (e, s') l -> nonneg_external e) -> run N dt s l ->
  (forall e s', In (e, s') l -> committed s' /\ forall b, solid N b -> 0 <= s_content s' b) /\
  Rabs (stored N w (final s l) - (stored N w s + Rsum (fun p => entering N w (fst p)) l
      - Rsum (fun p => leaving N w (snd p)) l)) <= INR (length l) * total_tolerance.
Proof.
  induction l as [|[e s1] l IH]; intros s Hcm Hpos He Hrun.
  - cbn. split; [tauto|]. rewrite Rminus_diag_eq, Rabs_R0 by lra. lra.
  - destruct Hrun as [Hst Hrun].
    destruct (step_closes N dt e Hdt Hwf Hpl Hfw Hcaps (He e s1 (or_introl eq_refl)) s s1 Hcm Hpos Hst) as [rel Hcl].
    assert (Hcm1 : committed s1) by (apply (cl_committed _ _ _ _ _ _ Hcl)).
    assert (Hpos1 : forall b, solid N b -> 0 <= s_content s1 b)
      by (intros b Hb; apply (closes_nonneg _ _ _ _ _ _ b Hcl Hb)).
    destruct (IH s1 Hcm1 Hpos1 (fun e s' Hin => He e s' (or_intror Hin)) Hrun) as [I1 I2].
    split.
    + intros e0 s' [E|Hin]; [injection E as <- <-; auto|eauto].
    + cbn [final Rsum fst snd length]. rewrite S_INR.
      pose proof (step_balance e s s1 rel Hcl) as Hb.
      match goal with |- Rabs ?x <= _ =>
        match type of I2 with Rabs ?y <= _ =>
          match type of Hb with Rabs ?z <= _ => replace x with (y + z) by ring end end end.
      eapply Rle_trans; [apply Rabs_triang|]. lra.
Qed.
End Balance.
