(** Without limits the solvers are the textbook methods: proofs. *)
From Coq Require Import FunctionalExtensionality.
From Verif Require Import Base BaseFacts Container ContainerFacts Network NetworkSpec NetworkFacts SolverFacts StepFacts NetworkTools TextbookSpec.

Section Textbook.
Variables (N : net) (dt : R) (e : external) (s : state) (q : flows).
Hypothesis Hdt : 0 < dt.
Hypothesis Hwf : well_formed N.
Hypothesis Hpl : plain N.
Hypothesis Hfw : forward N.
Hypothesis Hcaps : sound_caps N.
Hypothesis He : nonneg_external e.
Hypothesis Hs : committed s.
Hypothesis Hpos : forall b, solid N b -> 0 <= s_content s b.
Hypothesis Hq : reservoir_flows N q.

Let x0 (b : nat) : R := s_content s b + e_inst e b.
Let t := deposit e s.

(** A state that agrees with [t] on what matters. *)
Definition fresh (u : state) : Prop :=
  forall b, (b < length (n_bricks N))%nat -> s_content u b = s_content s b /\ s_dyn u b = 0 /\ s_stat u b = e_inst e b.
Lemma fresh_t : fresh t.
Proof. intros b Hb. destruct (Hs b) as [A B]. cbn. rewrite A, B. repeat split; lra. Qed.

Lemma lt_ids b : (b < length (n_bricks N))%nat <-> In b (brick_ids N).
Proof. unfold brick_ids. rewrite in_seq. lia. Qed.

Lemma avail_fresh u b : fresh u -> (b < length (n_bricks N))%nat -> avail N e u b = x0 b + e_seen e b.
Proof.
  intros H Hb. unfold avail. rewrite (plain_static N e Hpl). destruct (H b Hb) as (-> & -> & _). unfold x0. lra.
Qed.
Lemma avail_nonneg u : fresh u -> forall b, In b (brick_ids N) -> b_allowneg (brick_at N b) = false -> 0 <= avail N e u b.
Proof.
  intros H b Hb Ha. apply lt_ids in Hb. rewrite avail_fresh by auto. destruct (He b) as (A & _ & C).
  assert (0 <= s_content s b) by (apply Hpos; split; auto). unfold x0. lra.
Qed.
Lemma lev_fresh u r b : fresh u -> (b < length (n_bricks N))%nat ->
  lev N dt e u r b = x0 b + e_seen e b + (received N r b - withdrawn N r b) * dt.
Proof.
  intros H Hb. unfold lev. rewrite avail_fresh by auto. rewrite received_inputs, withdrawn_outs, (plain_ins N Hpl). reflexivity.
Qed.

Lemma unlimited_nonneg r k : unlimited N dt e x0 r -> (k < length (n_conns N))%nat -> 0 <= r k.
Proof. intros H Hk. destruct (un_rate _ _ _ _ _ H k Hk) as [->|[]]; unfold PRECISION in *; lra. Qed.

Lemma brick_free u r b : fresh u -> unlimited N dt e x0 r -> (b < length (n_bricks N))%nat -> constrain_brick N dt e u b r = Ok r.
Proof.
  intros Hu Hr Hb.
  assert (Hok : exists r', constrain_brick N dt e u b r = Ok r').
  { unfold constrain_brick, apply_constraints.
    assert (E : outgoing_too_high r (outs N b) = false).
    { unfold outgoing_too_high. apply not_true_is_false. rewrite existsb_exists. intros (k & Hk & Hlt).
      apply in_outs in Hk. destruct Hk as [Hk _]. apply conn_ids_lt in Hk.
      unfold Rltb in Hlt. destruct (Rlt_dec 10000 (r k)); [|discriminate].
      destruct (un_rate _ _ _ _ _ Hr k Hk) as [E|[]]; lra. }
    rewrite E. clear E.
    assert (El : forall l, (forall k, In k l -> In k (outs N b) \/ In k (ins N b)) ->
       Rsum (clamp_rates (clamp_rates r (outs N b)) (ins N b)) l = Rsum r l).
    { intros l Hl. apply Rsum_ext_in. intros k Hk. assert (0 <= r k).
      { apply unlimited_nonneg; auto. apply conn_ids_lt. destruct (Hl k Hk) as [H|H];
          [apply in_outs in H|apply in_ins in H]; tauto. }
      unfold clamp_rates. destruct (mem k (ins N b)), (mem k (outs N b)); try reflexivity;
        unfold Rltb; destruct (Rlt_dec (r k) 0); try lra; destruct (Rlt_dec (r k) 0); lra. }
    rewrite (El (outs N b)), (El (ins N b)) by auto.
    destruct (un_store _ _ _ _ _ Hr b Hb) as [_ Hc].
    destruct (b_cap (brick_at N b)) as [c|] eqn:Ec; [|eexists; reflexivity].
    specialize (Hc c eq_refl). rewrite <- (lev_fresh u r b Hu Hb) in Hc. unfold lev, avail in Hc.
    unfold Rltb at 1. destruct (Rlt_dec c _) as [Hx|Hx]; [|eexists; reflexivity]. exfalso.
    apply (Rlt_not_le _ _ Hx). exact Hc. }
  destruct Hok as (r' & Hok). rewrite Hok. f_equal. apply functional_extensionality. intros k.
  destruct (un_store _ _ _ _ _ Hr b Hb) as [Hl Hc].
  rewrite <- (lev_fresh u r b Hu Hb) in Hl, Hc.
  apply (one_noop N dt e u Hcaps (avail_nonneg u Hu) b r r'); auto.
  - apply lt_ids; auto.
  - intros j [H|H]; apply unlimited_nonneg; auto; apply conn_ids_lt; [apply in_outs in H|apply in_ins in H]; tauto.
Qed.

Lemma sweep_free u r : fresh u -> unlimited N dt e x0 r -> forall l, (forall b, In b l -> (b < length (n_bricks N))%nat) ->
  sweep N dt e u l r = Ok r.
Proof.
  intros Hu Hr l. induction l as [|b l IH]; intros Hl; [reflexivity|]. cbn [sweep].
  rewrite (brick_free u r b Hu Hr) by (apply Hl; left; reflexivity). cbn [bind]. apply IH. intros; apply Hl; right; auto.
Qed.
Lemma enforce_free u r : fresh u -> unlimited N dt e x0 r -> enforce N dt e u r = Ok r.
Proof.
  intros Hu Hr. unfold enforce. apply enforce_stop.
  - apply sweep_free; auto. intros b Hb; apply lt_ids; auto.
  - unfold stable. apply forallb_forall. intros k _. unfold Rleb. destruct (Rle_dec _ _) as [|n]; [reflexivity|].
    exfalso; apply n. replace (r k - r k) with 0 by lra. rewrite Rabs_R0. unfold PRECISION; lra.
Qed.

(** Rates that agree on the connections. *)
Definition same_rates (r r' : nat -> R) : Prop := forall k, (k < length (n_conns N))%nat -> r k = r' k.
Lemma same_received r r' b : same_rates r r' -> received N r b = received N r' b.
Proof. intros H. apply Rsum_ext_in. intros k Hk. rewrite (H k); [reflexivity|]. apply conn_ids_lt; auto. Qed.
Lemma same_withdrawn r r' b : same_rates r r' -> withdrawn N r b = withdrawn N r' b.
Proof. intros H. apply Rsum_ext_in. intros k Hk. rewrite (H k); [reflexivity|]. apply conn_ids_lt; auto. Qed.
Lemma same_balance r r' b : same_rates r r' -> balance_of N dt e r b = balance_of N dt e r' b.
Proof. intros H. unfold balance_of. rewrite (same_received r r'), (same_withdrawn r r'); auto. Qed.
Lemma same_unlimited r r' : same_rates r r' -> unlimited N dt e x0 r -> unlimited N dt e x0 r'.
Proof.
  intros H [A B]. split.
  - intros k Hk. rewrite <- (H k Hk). auto.
  - intros b Hb. cbv zeta. rewrite <- (same_received r r' b H), <- (same_withdrawn r r' b H). apply B; auto.
Qed.

(** What the processes answer. *)
Let law_of : law := sees_contents q.
Lemma evaluate_flows u x : (forall b, (b < length (n_bricks N))%nat -> content_changes u b = x b) ->
  same_rates (evaluate N law_of u) (q x).
Proof.
  intros H k Hk. unfold evaluate.
  assert (Hsrc : (k_src (conn_at N k) < length (n_bricks N))%nat).
  { apply Hwf. apply conn_at_in. apply conn_ids_lt; auto. }
  destruct (k_overflow (conn_at N k)) eqn:Eo; [symmetry; apply (rf_overflow _ _ Hq); auto|].
  unfold LessThanOrEqual, Rleb. destruct (Rle_dec _ _) as [Hl|Hl].
  - symmetry. apply (rf_dry _ _ Hq); auto. rewrite <- H by auto. lra.
  - unfold law_of, sees_contents. apply (rf_local _ _ Hq); auto.
Qed.
Lemma null_flows r : same_rates r r -> (forall k, (k < length (n_conns N))%nat -> k_overflow (conn_at N k) = true -> r k = 0) ->
  same_rates (null_overflow N r) r.
Proof. intros _ H k Hk. unfold null_overflow. destruct (k_overflow (conn_at N k)) eqn:E; [symmetry; auto|reflexivity]. Qed.

(** Applying unlimited rates. *)
Lemma applied_free r k : unlimited N dt e x0 r -> (k < length (n_conns N))%nat -> applied dt r k = r k * dt.
Proof.
  intros H Hk. unfold applied. destruct (un_rate _ _ _ _ _ H k Hk) as [->|[A _]].
  - destruct (Rlt_dec _ _); lra.
  - destruct (Rlt_dec _ _); lra.
Qed.
Lemma apply_dyn u r : fresh u -> unlimited N dt e x0 r -> forall b, (b < length (n_bricks N))%nat ->
  s_content (apply_rates N dt e r u) b = s_content s b /\
  s_dyn (apply_rates N dt e r u) b = dt * balance_of N dt e r b /\
  s_stat (apply_rates N dt e r u) b = e_inst e b.
Proof.
  intros Hu Hr b Hb. destruct (Hu b Hb) as (A & B & C).
  destruct (apply_rates_effect N dt e r u Hwf) as (H1 & _ & H3 & _).
  assert (Hst : s_stat (apply_rates N dt e r u) b = e_inst e b) by (rewrite H3, plain_inst, C by auto; cbn; lra).
  split; [rewrite H1; auto|]. split; [|exact Hst].
  pose proof (apply_rates_level N dt e r u Hwf Hfw b (proj1 (lt_ids b) Hb)) as H. cbv zeta in H.
  rewrite Hst, H1, A, B, C in H.
  rewrite (Rsum_ext_in (delivered N dt r) (fun k => dt * r k) (inputs_of N b)) in H.
  2:{ intros k Hk. unfold delivered. rewrite weighted_one by (apply (plain_inputs N Hpl b k Hk)).
      apply in_inputs in Hk. rewrite applied_free; [lra|auto|apply conn_ids_lt; tauto]. }
  rewrite (Rsum_ext_in (applied dt r) (fun k => dt * r k) (outs N b)) in H.
  2:{ intros k Hk. apply in_outs in Hk. rewrite applied_free; [lra|auto|apply conn_ids_lt; tauto]. }
  rewrite !Rsum_scal in H. unfold balance_of. rewrite received_inputs, withdrawn_outs.
  replace (dt * ((e_seen e b + e_hidden e b) / dt + Rsum r (inputs_of N b) - Rsum r (outs N b)))
    with (e_seen e b + e_hidden e b + dt * Rsum r (inputs_of N b) - dt * Rsum r (outs N b)) by (field; lra). lra.
Qed.
Lemma reset_fresh u r : fresh u -> unlimited N dt e x0 r -> fresh (reset_state (apply_rates N dt e r u)).
Proof. intros Hu Hr b Hb. destruct (apply_dyn u r Hu Hr b Hb) as (A & _ & C). cbn. auto. Qed.
Lemma reset_scaled_fresh u r c : fresh u -> unlimited N dt e x0 r -> fresh (reset_state (scale_state c (apply_rates N dt e r u))).
Proof. intros Hu Hr b Hb. destruct (apply_dyn u r Hu Hr b Hb) as (A & _ & C). cbn. auto. Qed.

Lemma finish u r : fresh u -> unlimited N dt e x0 r ->
  (forall b, (b < length (n_bricks N))%nat ->
    s_content (finalize_step N (apply_rates N dt e r u)) b = reported N b (x0 b + dt * balance_of N dt e r b)) /\
  (forall k, (k < length (n_conns N))%nat -> s_amount (finalize_step N (apply_rates N dt e r u)) k = weighted (conn_at N k) (r k * dt)).
Proof.
  intros Hu Hr. split.
  - intros b Hb. destruct (apply_dyn u r Hu Hr b Hb) as (A & B & C). cbn [finalize_step s_content]. rewrite A, B, C.
    unfold reported, x0. replace (s_content s b + (dt * balance_of N dt e r b + e_inst e b))
      with (s_content s b + e_inst e b + dt * balance_of N dt e r b) by lra.
    destruct (b_allowneg (brick_at N b)); [reflexivity|apply finalize_kept].
  - intros k Hk. cbn [finalize_step s_amount]. destruct (apply_rates_effect N dt e r u Hwf) as (_ & _ & _ & H).
    rewrite H by (apply conn_ids_lt; auto). unfold delivered. rewrite applied_free; auto.
Qed.

Let F := slope N dt e q.
Lemma t_contents b : (b < length (n_bricks N))%nat -> content_changes t b = x0 b.
Proof. intros Hb. destruct (fresh_t b Hb) as (A & B & C). unfold content_changes. rewrite A, B, C. unfold x0; lra. Qed.

Lemma first_rates : unlimited N dt e x0 (q x0) ->
  exists k1, enforce N dt e t (null_overflow N (evaluate N law_of t)) = Ok k1 /\ same_rates k1 (q x0).
Proof.
  intros H. pose proof (evaluate_flows t x0 t_contents) as E.
  assert (E2 : same_rates (null_overflow N (evaluate N law_of t)) (q x0)).
  { intros k Hk. unfold null_overflow. destruct (k_overflow (conn_at N k)) eqn:Eo; [symmetry; apply (rf_overflow _ _ Hq); auto|apply E; auto]. }
  exists (null_overflow N (evaluate N law_of t)). split; [|exact E2].
  apply enforce_free; [apply fresh_t|]. eapply same_unlimited; [|exact H]. intros k Hk; symmetry; auto.
Qed.

Lemma euler_textbook : unlimited N dt e x0 (q x0) ->
  exists s', euler_step N dt e law_of s = Ok s' /\
    (forall b, (b < length (n_bricks N))%nat -> s_content s' b = reported N b (euler_method F dt x0 b)) /\
    (forall k, (k < length (n_conns N))%nat -> s_amount s' k = weighted (conn_at N k) (q x0 k * dt)).
Proof.
  intros H. destruct (first_rates H) as (k1 & E1 & S1).
  assert (U1 : unlimited N dt e x0 k1) by (eapply same_unlimited; [|exact H]; intros k Hk; symmetry; auto).
  exists (finalize_step N (apply_rates N dt e k1 t)). split.
  - unfold euler_step. fold t. rewrite E1. reflexivity.
  - destruct (finish t k1 fresh_t U1) as [A B]. split.
    + intros b Hb. rewrite A by auto. unfold euler_method, F, slope. rewrite (same_balance k1 (q x0)); auto.
    + intros k Hk. rewrite B, (S1 k Hk); auto.
Qed.

(** A constrained stage. *)
Lemma stage_rates u v x : fresh u -> (forall b, (b < length (n_bricks N))%nat -> content_changes v b = x b) ->
  unlimited N dt e x0 (q x) ->
  exists k, constrain_rates N dt e u (evaluate N law_of v) = Ok k /\ same_rates k (q x).
Proof.
  intros Hu Hv H. pose proof (evaluate_flows v x Hv) as E.
  assert (E2 : same_rates (null_overflow N (evaluate N law_of v)) (q x)).
  { intros k Hk. unfold null_overflow. destruct (k_overflow (conn_at N k)) eqn:Eo; [symmetry; apply (rf_overflow _ _ Hq); auto|apply E; auto]. }
  eexists. split; [|exact E2]. unfold constrain_rates. apply enforce_free; auto.
  eapply same_unlimited; [|exact H]. intros k Hk; symmetry; auto.
Qed.
(** The combination of the stages. *)
Lemma last_rates u r r' : fresh u -> same_rates r r' ->
  (forall k, (k < length (n_conns N))%nat -> k_overflow (conn_at N k) = true -> r' k = 0) ->
  unlimited N dt e x0 r' -> exists k, constrain_rates N dt e u r = Ok k /\ same_rates k r'.
Proof.
  intros Hu Hr Ho H.
  assert (E2 : same_rates (null_overflow N r) r').
  { intros k Hk. unfold null_overflow. destruct (k_overflow (conn_at N k)) eqn:Eo; [symmetry; auto|apply Hr; auto]. }
  eexists. split; [|exact E2]. unfold constrain_rates. apply enforce_free; auto.
  eapply same_unlimited; [|exact H]. intros k Hk; symmetry; auto.
Qed.

Lemma Rsum_lin {A} (f g : A -> R) a c l : Rsum (fun k => a * f k + c * g k) l = a * Rsum f l + c * Rsum g l.
Proof. induction l as [|y l IH]; cbn [Rsum]; [lra|rewrite IH; lra]. Qed.
Lemma received_scaled a r b : received N (fun k => a * r k) b = a * received N r b.
Proof. rewrite !received_inputs. apply Rsum_scal. Qed.
Lemma withdrawn_scaled a r b : withdrawn N (fun k => a * r k) b = a * withdrawn N r b.
Proof. rewrite !withdrawn_outs. apply Rsum_scal. Qed.
Lemma received_plus r r' b : received N (fun k => r k + r' k) b = received N r b + received N r' b.
Proof. rewrite !received_inputs. apply Rsum_plus. Qed.
Lemma withdrawn_plus r r' b : withdrawn N (fun k => r k + r' k) b = withdrawn N r b + withdrawn N r' b.
Proof. rewrite !withdrawn_outs. apply Rsum_plus. Qed.

Lemma heun_textbook :
  let x1 := euler_method F dt x0 in
  let mean k := (q x0 k + q x1 k) / 2 in
  unlimited N dt e x0 (q x0) -> unlimited N dt e x0 mean ->
  exists s', heun_step N dt e law_of law_of s = Ok s' /\
    (forall b, (b < length (n_bricks N))%nat -> s_content s' b = reported N b (heun_method F dt x0 b)) /\
    (forall k, (k < length (n_conns N))%nat -> s_amount s' k = weighted (conn_at N k) (mean k * dt)).
Proof.
  intros x1 mean H Hm. destruct (first_rates H) as (k1 & E1 & S1).
  assert (U1 : unlimited N dt e x0 k1) by (eapply same_unlimited; [|exact H]; intros k Hk; symmetry; auto).
  set (s1 := apply_rates N dt e k1 t).
  assert (C1 : forall b, (b < length (n_bricks N))%nat -> content_changes s1 b = x1 b).
  { intros b Hb. destruct (apply_dyn t k1 fresh_t U1 b Hb) as (A & B & C). unfold content_changes. fold s1 in A, B, C. rewrite A, B, C.
    unfold x1, euler_method, F, slope. rewrite (same_balance k1 (q x0)) by auto. unfold x0; lra. }
  pose proof (evaluate_flows s1 x1 C1) as S2. set (k2 := evaluate N law_of s1) in *.
  assert (F2 : fresh (reset_state s1)) by (apply reset_fresh; auto using fresh_t).
  destruct (last_rates (reset_state s1) (fun k => (k1 k + k2 k) / 2) mean F2) as (kc & Ec & Sc); auto.
  { intros k Hk. unfold mean. rewrite (S1 k Hk), (S2 k Hk). reflexivity. }
  { intros k Hk Ho. unfold mean. rewrite !(rf_overflow _ _ Hq) by auto. lra. }
  assert (Uc : unlimited N dt e x0 kc) by (eapply same_unlimited; [|exact Hm]; intros k Hk; symmetry; auto).
  exists (finalize_step N (apply_rates N dt e kc (reset_state s1))). split.
  - unfold heun_step. fold t. rewrite E1. cbn [bind]. fold s1. fold k2. rewrite Ec. reflexivity.
  - destruct (finish (reset_state s1) kc F2 Uc) as [A B]. split.
    + intros b Hb. rewrite A by auto. rewrite (same_balance kc mean) by auto. unfold heun_method. fold x1. f_equal. f_equal. f_equal.
      unfold F, slope, balance_of, mean.
      assert (R1 : received N (fun k => (q x0 k + q x1 k) / 2) b = (received N (q x0) b + received N (q x1) b) / 2).
      { rewrite <- received_plus. unfold Rdiv. rewrite Rmult_comm, <- received_scaled. apply same_received. intros k _. lra. }
      assert (R2 : withdrawn N (fun k => (q x0 k + q x1 k) / 2) b = (withdrawn N (q x0) b + withdrawn N (q x1) b) / 2).
      { rewrite <- withdrawn_plus. unfold Rdiv. rewrite Rmult_comm, <- withdrawn_scaled. apply same_withdrawn. intros k _. lra. }
      rewrite R1, R2. lra.
    + intros k Hk. rewrite B, (Sc k Hk); auto.
Qed.

Lemma half_state u r x : fresh u -> unlimited N dt e x0 r -> same_rates r (q x) ->
  forall b, (b < length (n_bricks N))%nat -> content_changes (scale_state (/ 2) (apply_rates N dt e r u)) b = x0 b + dt / 2 * F x b.
Proof.
  intros Hu Hr Hx b Hb. destruct (apply_dyn u r Hu Hr b Hb) as (A & B & C). unfold content_changes. cbn [scale_state s_content s_dyn s_stat].
  rewrite A, B, C. unfold F, slope. rewrite (same_balance r (q x)) by auto. unfold x0; lra.
Qed.
Lemma full_state u r x : fresh u -> unlimited N dt e x0 r -> same_rates r (q x) ->
  forall b, (b < length (n_bricks N))%nat -> content_changes (apply_rates N dt e r u) b = x0 b + dt * F x b.
Proof.
  intros Hu Hr Hx b Hb. destruct (apply_dyn u r Hu Hr b Hb) as (A & B & C). unfold content_changes.
  rewrite A, B, C. unfold F, slope. rewrite (same_balance r (q x)) by auto. unfold x0; lra.
Qed.

Lemma rk4_textbook :
  let xa := rk4_k2 F dt x0 in let xb := rk4_k3 F dt x0 in let xc := rk4_k4 F dt x0 in
  let mean k := (q x0 k + 2 * q xa k + 2 * q xb k + q xc k) / 6 in
  unlimited N dt e x0 (q x0) -> unlimited N dt e x0 (q xa) -> unlimited N dt e x0 (q xb) -> unlimited N dt e x0 mean ->
  exists s', rk4_step N dt e law_of law_of law_of law_of s = Ok s' /\
    (forall b, (b < length (n_bricks N))%nat -> s_content s' b = reported N b (rk4_method F dt x0 b)) /\
    (forall k, (k < length (n_conns N))%nat -> s_amount s' k = weighted (conn_at N k) (mean k * dt)).
Proof.
  intros xa xb xc mean H Ha Hb Hm. destruct (first_rates H) as (k1 & E1 & S1).
  assert (U1 : unlimited N dt e x0 k1) by (eapply same_unlimited; [|exact H]; intros k Hk; symmetry; auto).
  set (s1 := scale_state (/ 2) (apply_rates N dt e k1 t)). set (s1r := reset_state s1).
  assert (F1 : fresh s1r) by (apply reset_scaled_fresh; auto using fresh_t).
  assert (C1 : forall b, (b < length (n_bricks N))%nat -> content_changes s1 b = xa b) by (apply half_state; auto using fresh_t).
  destruct (stage_rates s1r s1 xa F1 C1 Ha) as (k2 & E2 & S2).
  assert (U2 : unlimited N dt e x0 k2) by (eapply same_unlimited; [|exact Ha]; intros k Hk; symmetry; auto).
  set (s2 := scale_state (/ 2) (apply_rates N dt e k2 s1r)). set (s2r := reset_state s2).
  assert (F2 : fresh s2r) by (apply reset_scaled_fresh; auto).
  assert (C2 : forall b, (b < length (n_bricks N))%nat -> content_changes s2 b = xb b) by (apply half_state; auto).
  destruct (stage_rates s2r s2 xb F2 C2 Hb) as (k3 & E3 & S3).
  assert (U3 : unlimited N dt e x0 k3) by (eapply same_unlimited; [|exact Hb]; intros k Hk; symmetry; auto).
  set (s3 := apply_rates N dt e k3 s2r). set (s3r := reset_state s3).
  assert (F3 : fresh s3r) by (apply reset_fresh; auto).
  assert (C3 : forall b, (b < length (n_bricks N))%nat -> content_changes s3 b = xc b) by (apply full_state; auto).
  pose proof (evaluate_flows s3 xc C3) as S4. set (k4 := evaluate N law_of s3) in *.
  destruct (last_rates s3r (fun k => (k1 k + 2 * k2 k + 2 * k3 k + k4 k) / 6) mean F3) as (kc & Ec & Sc); auto.
  { intros k Hk. unfold mean. rewrite (S1 k Hk), (S2 k Hk), (S3 k Hk), (S4 k Hk). reflexivity. }
  { intros k Hk Ho. unfold mean. rewrite !(rf_overflow _ _ Hq) by auto. lra. }
  assert (Uc : unlimited N dt e x0 kc) by (eapply same_unlimited; [|exact Hm]; intros k Hk; symmetry; auto).
  exists (finalize_step N (apply_rates N dt e kc s3r)). split.
  - unfold rk4_step. fold t. rewrite E1. cbn [bind]. fold s1. fold s1r. rewrite E2. cbn [bind]. fold s2. fold s2r. rewrite E3. cbn [bind].
    fold s3. fold k4. fold s3r. rewrite Ec. reflexivity.
  - destruct (finish s3r kc F3 Uc) as [A B]. split.
    + intros b Hb'. rewrite A by auto. rewrite (same_balance kc mean) by auto. unfold rk4_method. fold xa xb xc.
      assert (R1 : received N mean b = (received N (q x0) b + 2 * received N (q xa) b + 2 * received N (q xb) b + received N (q xc) b) / 6).
      { unfold Rdiv. rewrite Rmult_comm, <- !received_scaled, <- !received_plus, <- received_scaled.
        apply same_received. intros k _. unfold mean. lra. }
      assert (R2 : withdrawn N mean b = (withdrawn N (q x0) b + 2 * withdrawn N (q xa) b + 2 * withdrawn N (q xb) b + withdrawn N (q xc) b) / 6).
      { unfold Rdiv. rewrite Rmult_comm, <- !withdrawn_scaled, <- !withdrawn_plus, <- withdrawn_scaled.
        apply same_withdrawn. intros k _. unfold mean. lra. }
      f_equal. unfold F, slope, balance_of. rewrite R1, R2. lra.
    + intros k Hk. rewrite B, (Sc k Hk); auto.
Qed.
End Textbook.
