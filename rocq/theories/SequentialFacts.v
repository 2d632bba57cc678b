(** Lemmas about the sequential solvers. *)
From Verif Require Import Base BaseFacts Container ContainerFacts Network Sequential NetworkSpec
  NetworkFacts SolverFacts StepFacts.

Section Seq.
Variables (N : net) (dt : R) (e : external) (sch : scheme) (f : law).
Hypothesis Hdt : 0 < dt.
Hypothesis Hwf : well_formed N.
Hypothesis Hpl : plain N.
Hypothesis Hfw : forward N.
Hypothesis Hcaps : sound_caps N.
Hypothesis He : nonneg_external e.
Variable s0 : state.
Hypothesis Hcm : committed s0.
Hypothesis Hpos : forall b, solid N b -> 0 <= s_content s0 b.

(** What is known after the first [m] bricks: [rel] is what was released so far. *)
Record seq_inv (m : nat) (s : state) (r rel : nat -> R) : Prop := {
  si_content : forall b, s_content s b = s_content s0 b;
  si_stat : forall b, s_stat s b = e_inst e b;
  si_later : forall b, (m <= b)%nat -> s_dyn s b = 0;
  si_rel : forall k, 0 <= rel k;
  si_rates : forall k, In k (conn_ids N) -> (k_src (conn_at N k) < m)%nat ->
     0 <= r k /\ applied dt r k <= rel k;
  si_pending : forall k b, In k (inputs_of N b) -> (k_src (conn_at N k) < m)%nat -> (m <= b)%nat ->
     rel k = applied dt r k;
  si_amount : forall k, In k (conn_ids N) -> (k_src (conn_at N k) < m)%nat ->
     s_amount s k = weighted (conn_at N k) (rel k);
  si_dyn : forall b, (b < m)%nat ->
     s_dyn s b = e_seen e b + e_hidden e b + Rsum (s_amount s) (inputs_of N b) - Rsum rel (outs N b);
  si_level : forall b, (b < m)%nat -> b_allowneg (brick_at N b) = false ->
     - ((INR (length (outs N b)) * EPSILON_D + INR (length (ins N b)) * PRECISION) * dt)
     <= s_content s0 b + e_inst e b + s_dyn s b }.

Lemma sum_incoming_plain s b : sum_incoming N e s b = e_seen e b + e_hidden e b + Rsum (s_amount s) (inputs_of N b).
Proof.
  unfold sum_incoming. rewrite filter_all; [reflexivity|].
  intros k Hk. destruct (plain_inputs N Hpl b k Hk) as [-> _]. reflexivity.
Qed.

Lemma input_src b k : In k (inputs_of N b) -> In k (conn_ids N) /\ (k_src (conn_at N k) < b)%nat.
Proof.
  intros H. apply in_inputs in H. destruct H as [H1 H2]. split; [exact H1|].
  exact (Hfw _ _ (conn_at_in N k H1) H2).
Qed.

Lemma seq_brick_inv m s r rel s' r' : (m < length (n_bricks N))%nat ->
  seq_inv m s r rel -> seq_brick N dt e sch f (s, r) m = Ok (s', r') ->
  seq_inv (S m) s' r' (fun k => if Nat.eqb (k_src (conn_at N k)) m then applied dt r' k else rel k)
  /\ (forall k, In k (outs N m) -> s_amount s' k = weighted (conn_at N k) (applied dt r' k)).
Proof.
  intros Hm [I1 I2 I3 I4 I5 Ip I6 I7 I8] H. cbn [seq_brick] in H.
  apply bind_ok in H. destruct H as (r2 & Hc & H). injection H as <- <-.
  set (r1 := fun k => if mem k (outs N m) then _ else r k) in Hc.
  assert (Hmb : In m (brick_ids N)) by (apply in_seq; lia).
  assert (Hav : b_allowneg (brick_at N m) = false -> 0 <= avail N e s m).
  { intros Han. unfold avail. rewrite (plain_static N e Hpl), I1, I3 by lia.
    destruct (He m) as (?&?&?). assert (0 <= s_content s0 m) by (apply Hpos; split; [lia|exact Han]). lra. }
  destruct (brick_effect N dt e r2 s m) as (B1 & B2 & B3 & B4).
  set (s' := apply_brick N dt e r2 s m) in *.
  set (rel' := fun k => if Nat.eqb _ _ then _ else _).
  assert (Hr1 : forall k, In k (conn_ids N) -> (k_src (conn_at N k) < m)%nat -> r1 k = r k).
  { intros k Hk Hs. unfold r1. rewrite (proj2 (mem_not_in k (outs N m))); [reflexivity|].
    intros Ho. apply in_outs in Ho. lia. }
  pose (avm := fun b (Hb : In b (brick_ids N)) (Ha : b_allowneg (brick_at N b) = false) => avail N e s b).
  assert (HavP : b_allowneg (brick_at N m) = false -> 0 <= s_content s m + s_dyn s m + inputs_static N e s m) by exact Hav.
  assert (Hcap : forall c, b_cap (brick_at N m) = Some c -> 0 <= c) by (intros c; apply Hcaps, brick_at_in, Hmb).
  assert (P2 := outs_ins_disj N Hfw m).
  assert (P3 : forall k, overflow_of N m = Some k -> In k (outs N m)) by (intros k Hk; apply overflow_in_outs, Hk).
  assert (Hrates : forall k, In k (conn_ids N) -> (k_src (conn_at N k) < m)%nat -> 0 <= r2 k <= r k).
  { intros k Hk Hs. destruct (I5 k Hk Hs) as [Hr0 _].
    destruct (in_dec Nat.eq_dec k (ins N m)) as [Hi|Hi].
    - pose proof (ac_in _ _ _ _ _ _ _ _ _ _ Hdt P2 P3 HavP Hcap Hc k Hi) as Hx.
      rewrite clamped_max in Hx by auto. rewrite (Hr1 k Hk Hs) in Hx. rewrite Rmax_right in Hx by lra. exact Hx.
    - rewrite (ac_frame _ _ _ _ _ _ _ _ _ _ P3 HavP Hcap Hc k); [rewrite Hr1 by assumption; lra| |exact Hi].
      intros Ho; apply in_outs in Ho; lia. }
  assert (Houts : forall k, In k (outs N m) -> 0 <= r2 k).
  { exact (ac_ov_nonneg _ _ _ _ _ _ _ _ _ _ Hdt P2 P3 HavP Hcap Hc). }
  assert (Happ : forall k, In k (conn_ids N) -> (k_src (conn_at N k) < m)%nat -> applied dt r2 k <= rel k).
  { intros k Hk Hs. destruct (I5 k Hk Hs) as [Hr0 Hr3]. pose proof (Hrates k Hk Hs) as Hx.
    refine (Rle_trans _ _ _ _ Hr3). unfold applied.
    destruct (Rlt_dec PRECISION (r2 k)), (Rlt_dec PRECISION (r k)); nra. }
  assert (Ham : forall k, In k (conn_ids N) -> (k_src (conn_at N k) < S m)%nat ->
     s_amount s' k = weighted (conn_at N k) (rel' k)).
  { intros k Hk Hs. rewrite B4. unfold rel'. destruct (Nat.eqb_spec (k_src (conn_at N k)) m) as [E|E].
    - rewrite (proj2 (mem_in k (outs N m))) by (apply in_outs; auto). reflexivity.
    - rewrite (proj2 (mem_not_in k (outs N m))) by (intros Ho; apply in_outs in Ho; tauto).
      apply I6; [exact Hk|lia]. }
  assert (Hsame : forall b, (b <= m)%nat -> Rsum (s_amount s') (inputs_of N b) = Rsum (s_amount s) (inputs_of N b)).
  { intros b Hb. apply Rsum_ext_in. intros k Hk. destruct (input_src b k Hk) as [Hk1 Hk2]. rewrite B4.
    rewrite (proj2 (mem_not_in k (outs N m))); [reflexivity|]. intros Ho; apply in_outs in Ho; lia. }
  assert (Hrelo : forall b, b <> m -> Rsum rel' (outs N b) = Rsum rel (outs N b)).
  { intros b Hb. apply Rsum_ext_in. intros k Hk. apply in_outs in Hk. unfold rel'.
    destruct (Nat.eqb_spec (k_src (conn_at N k)) m); [lia|reflexivity]. }
  assert (Hrelm : Rsum rel' (outs N m) = Rsum (applied dt r2) (outs N m)).
  { apply Rsum_ext_in. intros k Hk. apply in_outs in Hk. unfold rel'. destruct Hk as [_ ->].
    rewrite Nat.eqb_refl. reflexivity. }
  assert (Hdynm : s_dyn s' m = e_seen e m + e_hidden e m + Rsum (s_amount s') (inputs_of N m) - Rsum rel' (outs N m)).
  { rewrite B2, Nat.eqb_refl, I3 by lia. rewrite sum_incoming_plain, (Hsame m) by lia. rewrite Hrelm. lra. }
  split; [|intros k Hk; rewrite B4, (proj2 (mem_in k (outs N m)) Hk); reflexivity].
  constructor.
  - intros b. rewrite B1. apply I1.
  - intros b. rewrite B3, I2. rewrite Rsum_zero; [lra|].
    intros k Hk. unfold inst_dep. destruct (k_tgt (conn_at N k)) as [b'| |] eqn:Et; cbn [goes_to];
      try (rewrite andb_false_r; reflexivity).
    apply in_outs in Hk. destruct (Hpl _ _ (conn_at_in N k (proj1 Hk)) Et) as [-> _]. reflexivity.
  - intros b Hb. rewrite B2. destruct (Nat.eqb_spec m b); [lia|]. rewrite I3 by lia. lra.
  - intros k. unfold rel'. destruct (Nat.eqb _ _); [apply applied_nonneg, Hdt|apply I4].
  - intros k Hk Hs. unfold rel'. destruct (Nat.eqb_spec (k_src (conn_at N k)) m) as [E|E].
    + split; [apply Houts, in_outs; auto|lra].
    + assert (Hs' : (k_src (conn_at N k) < m)%nat) by lia.
      split; [apply (Hrates k Hk Hs')|exact (Happ k Hk Hs')].
  - intros k b Hk Hs Hb. unfold rel'. destruct (Nat.eqb_spec (k_src (conn_at N k)) m) as [E|E]; [reflexivity|].
    rewrite (Ip k b Hk) by lia. apply in_inputs in Hk. destruct Hk as [Hk1 Hk2].
    unfold applied. enough (Er : r2 k = r k) by (rewrite Er; reflexivity).
    rewrite (ac_frame _ _ _ _ _ _ _ _ _ _ P3 HavP Hcap Hc k); [apply Hr1; [exact Hk1|lia]| |].
    + intros Ho; apply in_outs in Ho; lia.
    + intros Hin. apply in_ins in Hin. destruct Hin as (_ & Ht & _). rewrite Hk2 in Ht. injection Ht as Ht. lia.
  - exact Ham.
  - intros b Hb. destruct (Nat.eq_dec b m) as [->|Hne]; [exact Hdynm|].
    rewrite B2. destruct (Nat.eqb_spec m b); [lia|]. rewrite (Hsame b), (Hrelo b Hne), I7 by lia. lra.
  - intros b Hb Han. destruct (Nat.eq_dec b m) as [->|Hne].
    2:{ rewrite B2. destruct (Nat.eqb_spec m b); [lia|]. rewrite Rplus_0_r. apply I8; [lia|exact Han]. }
    rewrite Hdynm.
    pose proof (ac_nonneg _ _ _ _ _ _ _ _ _ _ Hdt (outs_nodup N m) P2 P3 HavP Hcap Hc Han) as Hl.
    rewrite (plain_static N e Hpl), I1, (I3 m) in Hl by lia.
    assert (Hin : Rsum r2 (ins N m) * dt - INR (length (ins N m)) * PRECISION * dt <= Rsum (s_amount s') (inputs_of N m)).
    { rewrite <- (plain_ins N Hpl). rewrite <- Rsum_scal_r.
      replace (INR (length (ins N m)) * PRECISION * dt) with (Rsum (fun _ : nat => PRECISION * dt) (ins N m))
        by (rewrite Rsum_const; ring).
      rewrite <- Rsum_minus. apply Rsum_le; intros k Hk. rewrite (plain_ins N Hpl) in Hk.
      destruct (input_src m k Hk) as [Hk1 Hk2]. rewrite Ham by (try assumption; lia).
      rewrite weighted_one by (apply (plain_inputs N Hpl m k Hk)).
      unfold rel'. destruct (Nat.eqb_spec (k_src (conn_at N k)) m); [lia|].
      pose proof (applied_ge dt r2 k Hdt). pose proof (Happ k Hk1 Hk2). lra. }
    assert (Hout : Rsum rel' (outs N m) <= Rsum r2 (outs N m) * dt).
    { rewrite Hrelm, <- Rsum_scal_r. apply Rsum_le; intros k Hk. apply applied_le; [exact Hdt|auto]. }
    destruct (He m) as (?&?&?). lra.
Qed.

Lemma seq_bricks_app l1 : forall l2 p, seq_bricks N dt e sch f (l1 ++ l2) p
  = bind (seq_bricks N dt e sch f l1 p) (seq_bricks N dt e sch f l2).
Proof.
  induction l1 as [|b l1 IH]; intros l2 p; cbn [app seq_bricks bind]; [reflexivity|].
  destruct (seq_brick N dt e sch f p b); cbn [bind]; auto.
Qed.

Lemma seq_bricks_inv m : (m <= length (n_bricks N))%nat -> forall r0 s r,
  seq_bricks N dt e sch f (seq 0 m) (deposit e s0, r0) = Ok (s, r) -> exists rel, seq_inv m s r rel.
Proof.
  induction m as [|m IH]; intros Hm r0 s r H.
  - cbn in H. injection H as <- <-. exists (fun _ => 0). constructor; intros; try lia; try lra;
      cbn [deposit s_content s_stat s_dyn]; try (destruct (Hcm b) as [Ha Hb]; rewrite ?Ha, ?Hb; lra).
  - rewrite seq_S, seq_bricks_app in H. apply bind_ok in H. destruct H as ([s1 r1] & H1 & H2).
    cbn [plus seq_bricks] in H2. apply bind_ok in H2. destruct H2 as ([s2 r2] & H2 & H3).
    injection H3 as <- <-. destruct (IH ltac:(lia) r0 s1 r1 H1) as [rel Hi].
    eexists. exact (proj1 (seq_brick_inv m s1 r1 rel s2 r2 ltac:(lia) Hi H2)).
Qed.

Lemma seq_step_closes r0 s' r' : seq_step N dt e sch f s0 r0 = Ok (s', r') ->
  exists released, closes N dt e s0 s' released.
Proof.
  intros H. unfold seq_step in H. apply bind_ok in H. destruct H as ([s r] & H1 & H2).
  cbn [fst snd] in H2. injection H2 as <- <-.
  destruct (seq_bricks_inv _ (le_n _) r0 s r H1) as [rel [I1 I2 I3 I4 I5 Ip I6 I7 I8]].
  exists rel.
  assert (Hlev : forall b, (b < length (n_bricks N))%nat ->
    s_content s b + (s_dyn s b + s_stat s b) = book_level N e s0 (finalize_step N s) rel b).
  { intros b Hb. rewrite I1, I2, I7 by exact Hb.
    unfold book_level, external_in. rewrite received_inputs, withdrawn_outs.
    cbn [finalize_step s_amount]. lra. }
  assert (Hsrc : forall k, In k (conn_ids N) -> (k_src (conn_at N k) < length (n_bricks N))%nat)
    by (intros k Hk; exact (proj1 (Hwf _ (conn_at_in N k Hk)))).
  constructor.
  - exact I4.
  - intros k Hk. apply conn_ids_lt in Hk. cbn [finalize_step s_amount]. rewrite I6 by auto. apply weighted_reports.
  - intros b; split; reflexivity.
  - intros b Hb Han. rewrite <- Hlev by exact Hb. cbn [finalize_step s_content]. rewrite Han. reflexivity.
  - intros b [Hb Han]. rewrite <- Hlev by exact Hb. cbn [finalize_step s_content]. rewrite Han. apply finalize_kept.
  - intros b [Hb Han]. rewrite <- Hlev by exact Hb. rewrite I1, I2. pose proof (I8 b Hb Han). lra.
Qed.

(** Later bricks do not touch what concerns brick [m]. *)
Lemma seq_bricks_frame m l : forall p p', (forall b, In b l -> (m < b)%nat) ->
  seq_bricks N dt e sch f l p = Ok p' ->
  (forall b, s_content (fst p') b = s_content (fst p) b) /\ s_dyn (fst p') m = s_dyn (fst p) m /\
  (forall k, (k_src (conn_at N k) <= m)%nat -> s_amount (fst p') k = s_amount (fst p) k).
Proof.
  induction l as [|b l IH]; intros [s r] p' Hl H.
  - cbn in H. injection H as <-. auto.
  - cbn [seq_bricks] in H. apply bind_ok in H. destruct H as ([s1 r1] & H1 & H2).
    destruct (IH (s1, r1) p') as (A & B & C); [intros; apply Hl; right; assumption|exact H2|].
    cbn [seq_brick] in H1. apply bind_ok in H1. destruct H1 as (r2 & Hc & H1). injection H1 as <- <-.
    destruct (brick_effect N dt e r2 s b) as (B1 & B2 & B3 & B4).
    assert (Hb : (m < b)%nat) by (apply Hl; left; reflexivity).
    cbn [fst] in *. split; [|split].
    + intros b'. rewrite A. apply B1.
    + rewrite B, B2. destruct (Nat.eqb_spec b m); [lia|]. lra.
    + intros k Hk. rewrite C, B4 by exact Hk. rewrite (proj2 (mem_not_in k (outs N b))); [reflexivity|].
      intros Ho; apply in_outs in Ho; lia.
Qed.

(** The step, as seen from brick [b]. *)
Lemma seq_view r0 s' r' b : seq_step N dt e sch f s0 r0 = Ok (s', r') -> (b < length (n_bricks N))%nat ->
  exists s r rel r2,
    seq_inv b s r rel /\
    (forall k, In k (inputs_of N b) -> s_amount s' k = s_amount s k) /\
    constrain_brick N dt e s b (fun k => if mem k (outs N b) then
        brick_rates N sch f s b (content_changes s b) (sum_incoming N e s b / dt) dt k else r k) = Ok r2 /\
    (forall k, In k (outs N b) -> s_amount s' k = weighted (conn_at N k) (applied dt r2 k)) /\
    s_content s' b = finalize_value (b_allowneg (brick_at N b))
      (s_content s0 b + e_inst e b + (e_seen e b + e_hidden e b + Rsum (s_amount s') (inputs_of N b))
       - Rsum (applied dt r2) (outs N b)).
Proof.
  intros H Hb. unfold seq_step in H. apply bind_ok in H. destruct H as ([sf rf] & H1 & H2).
  cbn [fst snd] in H2. injection H2 as <- <-.
  assert (Eids : brick_ids N = seq 0 b ++ b :: seq (S b) (length (n_bricks N) - S b)).
  { unfold brick_ids. replace (length (n_bricks N)) with (b + S (length (n_bricks N) - S b))%nat at 1 by lia.
    rewrite seq_app. reflexivity. }
  assert (Hfull := H1). rewrite Eids, seq_bricks_app in H1. apply bind_ok in H1. destruct H1 as ([s r] & Ha & H1).
  cbn [seq_bricks] in H1. apply bind_ok in H1. destruct H1 as ([s1 r1] & Hm & Hc).
  destruct (seq_bricks_inv b ltac:(lia) r0 s r Ha) as [rel Hi].
  destruct (seq_brick_inv b s r rel s1 r1 Hb Hi Hm) as [Hi1 Ho].
  destruct (seq_bricks_frame b (seq (S b) (length (n_bricks N) - S b)) (s1, r1) (sf, rf) ltac:(intros x Hx; apply in_seq in Hx; lia) Hc) as (F1 & F2 & F3).
  cbn [fst snd] in F1, F2, F3. destruct (seq_bricks_inv _ (le_n _) r0 sf rf Hfull) as [relf Hif].
  cbn [seq_brick] in Hm. apply bind_ok in Hm. destruct Hm as (r2 & Hcb & Hm). injection Hm as Es1 Er1.
  assert (Hin : forall k, In k (inputs_of N b) -> s_amount s1 k = s_amount s k).
  { intros k Hk. rewrite <- Es1. destruct (brick_effect N dt e r2 s b) as (_ & _ & _ & ->).
    rewrite (proj2 (mem_not_in k (outs N b))); [reflexivity|].
    destruct (input_src b k Hk). intros Ho'; apply in_outs in Ho'; lia. }
  exists s, r, rel, r2. cbn [finalize_step s_amount s_content].
  split; [exact Hi|]. split; [|split; [exact Hcb|split]].
  - intros k Hk. destruct (input_src b k Hk). rewrite F3 by lia. apply Hin, Hk.
  - intros k Hk. rewrite F3 by (apply in_outs in Hk; lia). rewrite Ho, Er1 by exact Hk. reflexivity.
  - f_equal. rewrite F1, (si_content _ _ _ _ Hi1), (si_stat _ _ _ _ Hif), F2, (si_dyn _ _ _ _ Hi1) by lia.
    rewrite (Rsum_ext_in (s_amount sf) (s_amount s1) (inputs_of N b)).
    2:{ intros k Hk. destruct (input_src b k Hk). apply F3. lia. }
    rewrite (Rsum_ext_in (fun k => if Nat.eqb _ _ then _ else _) (applied dt r2) (outs N b)); [lra|].
    intros k Hk. apply in_outs in Hk. destruct Hk as [_ ->]. rewrite Nat.eqb_refl, Er1. reflexivity.
Qed.

(** When the rates of the scheme are feasible and the limiter sees all inflows, they are applied as is. *)
Lemma seq_applies r0 s' r' b : seq_step N dt e sch f s0 r0 = Ok (s', r') -> solid N b ->
  b_cap (brick_at N b) = None -> e_hidden e b = 0 ->
  exists s, let inflow := (e_seen e b + Rsum (s_amount s') (inputs_of N b)) / dt in
    let rates := brick_rates N sch f s b (s_content s0 b + e_inst e b) inflow dt in
    content_changes s b = s_content s0 b + e_inst e b /\ s_dyn s b = 0 /\ 0 <= inflow /\
    ((forall k, In k (outs N b) -> 0 <= rates k) ->
     Rsum rates (outs N b) * dt <= s_content s0 b + e_inst e b + inflow * dt ->
     (forall k, In k (outs N b) -> s_amount s' k = weighted (conn_at N k) (applied dt rates k)) /\
     s_content s' b = kept (s_content s0 b + e_inst e b + inflow * dt - Rsum (applied dt rates) (outs N b))).
Proof.
  intros H [Hb Han] Hcapn Hh.
  destruct (seq_view r0 s' r' b H Hb) as (s & r & rel & r2 & Hi & Hin & Hc & Ho & Hf).
  exists s. intros inflow rates.
  assert (Ecc : content_changes s b = s_content s0 b + e_inst e b).
  { unfold content_changes. rewrite (si_content _ _ _ _ Hi), (si_stat _ _ _ _ Hi), (si_later _ _ _ _ Hi) by lia. lra. }
  assert (Einf : sum_incoming N e s b / dt = inflow).
  { rewrite sum_incoming_plain, Hh. unfold inflow. f_equal.
    rewrite (Rsum_ext_in (s_amount s') (s_amount s) _ Hin). lra. }
  assert (Hamt : forall k, In k (inputs_of N b) -> s_amount s' k = applied dt r k /\ 0 <= r k).
  { intros k Hk. destruct (input_src b k Hk) as [Hk1 Hk2]. rewrite Hin, (si_amount _ _ _ _ Hi) by assumption.
    rewrite weighted_one by (apply (plain_inputs N Hpl b k Hk)).
    rewrite (si_pending _ _ _ _ Hi k b Hk) by (try assumption; lia).
    split; [reflexivity|]. exact (proj1 (si_rates _ _ _ _ Hi k Hk1 Hk2)). }
  assert (Hsin : 0 <= Rsum (s_amount s') (inputs_of N b)).
  { apply Rsum_nonneg. intros k Hk. rewrite (proj1 (Hamt k Hk)). apply applied_nonneg, Hdt. }
  destruct (He b) as (E1 & E2 & E3).
  split; [exact Ecc|]. split; [apply (si_later _ _ _ _ Hi); lia|].
  split; [unfold inflow; apply Rmult_le_pos; [lra|left; apply Rinv_0_lt_compat, Hdt]|].
  intros Hnn Hfeas. rewrite Ecc, Einf in Hc. fold rates in Hc.
  set (r1 := fun k => if mem k (outs N b) then rates k else r k) in Hc.
  assert (Hout1 : forall k, In k (outs N b) -> r1 k = rates k)
    by (intros k Hk; unfold r1; rewrite (proj2 (mem_in k (outs N b)) Hk); reflexivity).
  assert (Hin1 : forall k, In k (ins N b) -> r1 k = r k).
  { intros k Hk. unfold r1. rewrite (proj2 (mem_not_in k (outs N b))); [reflexivity|].
    intros Hk'. exact (outs_ins_disj N Hfw b k Hk' Hk). }
  assert (P3 : forall k, overflow_of N b = Some k -> In k (outs N b)) by (intros k Hk; apply overflow_in_outs, Hk).
  assert (Hnn1 : forall k, In k (outs N b) \/ In k (ins N b) -> 0 <= r1 k).
  { intros k [Hk|Hk]; [rewrite Hout1 by exact Hk; auto|]. rewrite Hin1 by exact Hk.
    rewrite (plain_ins N Hpl) in Hk. apply Hamt, Hk. }
  assert (Eid : forall j, clamped r1 (outs N b) (ins N b) j = r1 j).
  { intros j. destruct (in_dec Nat.eq_dec j (outs N b)); [apply clamped_id, Hnn1; auto|].
    destruct (in_dec Nat.eq_dec j (ins N b)); [apply clamped_id, Hnn1; auto|]. apply clamped_other; auto. }
  assert (El : forall l, Rsum (clamped r1 (outs N b) (ins N b)) l = Rsum r1 l)
    by (intros l; apply Rsum_ext_in; auto).
  assert (Hav : b_allowneg (brick_at N b) = false -> 0 <= s_content s b + s_dyn s b + inputs_static N e s b).
  { intros _. rewrite (plain_static N e Hpl), (si_content _ _ _ _ Hi), (si_later _ _ _ _ Hi) by lia.
    assert (0 <= s_content s0 b) by (apply Hpos; split; assumption). lra. }
  assert (Hcap : forall c, b_cap (brick_at N b) = Some c -> 0 <= c) by (rewrite Hcapn; discriminate).
  assert (Er2 : forall k, r2 k = r1 k).
  { intros k. rewrite <- Eid. rewrite (ac_noop _ _ _ _ _ _ _ _ _ _ P3 Hav Hcap Hc); [reflexivity| |].
    - right. rewrite !El. rewrite (plain_static N e Hpl), (si_content _ _ _ _ Hi), (si_later _ _ _ _ Hi) by lia.
      rewrite (Rsum_ext_in r1 rates (outs N b) Hout1), (Rsum_ext_in r1 r (ins N b) Hin1).
      assert (Hle : Rsum (s_amount s') (inputs_of N b) <= Rsum r (ins N b) * dt).
      { rewrite (plain_ins N Hpl), <- Rsum_scal_r. apply Rsum_le. intros k' Hk'.
        destruct (Hamt k' Hk') as [-> Hr0]. apply applied_le; assumption. }
      unfold inflow in Hfeas. replace ((e_seen e b + Rsum (s_amount s') (inputs_of N b)) / dt * dt)
        with (e_seen e b + Rsum (s_amount s') (inputs_of N b)) in Hfeas by (field; lra). lra.
    - rewrite Hcapn; discriminate. }
  assert (Eap : forall k, In k (outs N b) -> applied dt r2 k = applied dt rates k).
  { intros k Hk. unfold applied. rewrite Er2, Hout1 by exact Hk. reflexivity. }
  split.
  - intros k Hk. rewrite Ho, Eap by exact Hk. reflexivity.
  - rewrite Hf, Han. rewrite finalize_kept. f_equal. rewrite (Rsum_ext_in _ _ _ Eap), Hh.
    unfold inflow. field. lra.
Qed.
End Seq.
