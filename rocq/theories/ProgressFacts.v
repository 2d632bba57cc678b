(** A time step is carried out: no rate gets above the limit of the container. *)
From Verif Require Import Base BaseFacts Container ContainerFacts Direct DirectSpec Network Sequential NetworkSpec Catchment CatchmentSpec.

Lemma too_high_false r l : (forall k, In k l -> r k <= 10000) -> outgoing_too_high r l = false.
Proof.
  intros H. unfold outgoing_too_high. destruct (existsb _ l) eqn:E; [|reflexivity]. apply existsb_exists in E as (k&Hk&E). unfold Rltb in E. destruct (Rlt_dec 10000 (r k)); [|discriminate]. specialize (H k Hk). lra.
Qed.
Lemma clamp_le r l (B : nat -> R) : (forall k, 0 <= B k) -> (forall k, r k <= B k) -> forall k, clamp_rates r l k <= B k.
Proof. intros HB Hr k. unfold clamp_rates, Rltb. destruct (mem k l); [|apply Hr]. destruct (Rlt_dec (r k) 0); [apply HB|apply Hr]. Qed.
Lemma clamp_pos r l k : mem k l = true -> 0 <= clamp_rates r l k.
Proof. intros H. unfold clamp_rates, Rltb. rewrite H. destruct (Rlt_dec (r k) 0); lra. Qed.
Lemma clamp2_pos r l l' k : mem k l = true -> 0 <= clamp_rates (clamp_rates r l) l' k.
Proof. intros H. unfold clamp_rates at 1, Rltb at 1. destruct (mem k l'); [|apply clamp_pos, H]. destruct (Rlt_dec (clamp_rates r l k) 0); [lra|]. apply clamp_pos, H. Qed.

Lemma constraints_pass dt content stat cap ov neg outs ins r (B : nat -> R) : 0 < dt -> (forall k, 0 <= B k) -> (forall k, r k <= B k) ->
  (forall k, In k outs -> B k <= 10000) -> (forall c, cap = Some c -> exists k, ov = Some k /\ (content + stat - c) / dt + Rsum B ins <= B k) ->
  exists r', apply_constraints dt content stat cap ov neg outs ins r = Ok r' /\ forall k, r' k <= B k.
Proof.
  intros Hdt HB Hr Ho Hcap. unfold apply_constraints. rewrite too_high_false by (intros k Hk; specialize (Hr k); specialize (Ho k Hk); lra).
  set (q := clamp_rates (clamp_rates r outs) ins). assert (Hq : forall k, q k <= B k) by (apply clamp_le; [exact HB|apply clamp_le; assumption]).
  assert (Hqo : 0 <= Rsum q outs) by (apply Rsum_nonneg; intros k Hk; apply clamp2_pos, mem_in, Hk).
  set (r2 := if (negb neg && Rltb (Rsum q ins - Rsum q outs) 0 && Rltb (content + stat + (Rsum q ins - Rsum q outs) * dt) 0)%bool then limit_outgoing dt content stat (Rsum q ins) (Rsum q outs) outs q else q).
  assert (H2 : forall k, r2 k <= B k).
  { intros k. unfold r2. destruct (negb neg && Rltb (Rsum q ins - Rsum q outs) 0 && Rltb (content + stat + (Rsum q ins - Rsum q outs) * dt) 0)%bool eqn:E; [|apply Hq].
    apply andb_true_iff in E as [_ E]. unfold Rltb in E. destruct (Rlt_dec _ 0) as [E'|]; [|discriminate]. clear E.
    unfold limit_outgoing. destruct (mem k outs); [|apply Hq]. destruct (NearlyZero (q k) EPSILON_D); [apply Hq|]. destruct (NearlyEqual _ _ _); [apply HB|].
    assert (K : (content + stat + (Rsum q ins - Rsum q outs) * dt) / dt * Rabs (q k / Rsum q outs) <= 0).
    { assert (K1 : (content + stat + (Rsum q ins - Rsum q outs) * dt) / dt <= 0) by (apply Rmult_le_reg_r with dt; [lra|]; unfold Rdiv; rewrite Rmult_assoc, Rinv_l by lra; lra).
      pose proof (Rabs_pos (q k / Rsum q outs)) as K2. rewrite <- (Rmult_0_l (Rabs (q k / Rsum q outs))). apply Rmult_le_compat_r; assumption. }
    specialize (Hq k). lra. }
  destruct cap as [c|]; [|exists r2; split; [reflexivity|exact H2]].
  destruct (Hcap c eq_refl) as (k0&->&Hk0). destruct (Rltb c _) eqn:Ec; [|exists r2; split; [reflexivity|exact H2]].
  eexists. split; [reflexivity|]. intros k. unfold upd. destruct (Nat.eqb k k0) eqn:Ek; [|apply H2]. apply Nat.eqb_eq in Ek. subst k.
  assert (K : Rsum q ins <= Rsum B ins) by (apply Rsum_le; intros k _; apply Hq).
  replace ((content + stat + (Rsum q ins - Rsum q outs) * dt - c) / dt) with ((content + stat - c) / dt + (Rsum q ins - Rsum q outs)) by (field; lra). lra.
Qed.

(** ** The solved storages *)
Section Net.
Variable N : net.
Variable dt : R.
Variable e : external.
Hypothesis Hdt : 0 < dt.
Variable B : nat -> R.
Hypothesis HB : forall k, 0 <= B k <= 10000.
Definition roomy (s : state) : Prop := forall b c, (b < length (n_bricks N))%nat -> b_cap (brick_at N b) = Some c ->
  exists k, overflow_of N b = Some k /\ (s_content s b + s_dyn s b + inputs_static N e s b - c) / dt + Rsum B (ins N b) <= B k.
Lemma sweep_pass s : roomy s -> forall l r, (forall b, In b l -> (b < length (n_bricks N))%nat) -> (forall k, r k <= B k) ->
  exists r', sweep N dt e s l r = Ok r' /\ forall k, r' k <= B k.
Proof.
  intros Hs. induction l as [|b l IH]; intros r Hl Hr; [exists r; split; [reflexivity|exact Hr]|]. cbn [sweep].
  destruct (constraints_pass dt (s_content s b + s_dyn s b) (inputs_static N e s b) (b_cap (brick_at N b)) (overflow_of N b) (b_allowneg (brick_at N b)) (outs N b) (ins N b) r B Hdt) as (r1&E1&H1).
  - intros k. apply HB.
  - exact Hr.
  - intros k _. apply HB.
  - intros c Hc. exact (Hs b c (Hl b (or_introl eq_refl)) Hc).
  - unfold constrain_brick. rewrite E1. cbn [bind]. apply IH; [|exact H1]. intros b' Hb'. apply Hl. right. exact Hb'.
Qed.
Lemma enforce_pass s : roomy s -> forall m r, (forall k, r k <= B k) -> exists r', enforce_n m N dt e s r = Ok r' /\ forall k, r' k <= B k.
Proof.
  intros Hs. induction m as [|m IH]; intros r Hr; [exists r; split; [reflexivity|exact Hr]|]. cbn [enforce_n].
  destruct (sweep_pass s Hs (brick_ids N) r) as (r1&E1&H1); [|exact Hr|].
  - intros b Hb. apply in_seq in Hb. lia.
  - rewrite E1. cbn [bind]. destruct (stable N r r1); [exists r1; split; [reflexivity|exact H1]|]. apply IH, H1.
Qed.
Lemma null_le r : (forall k, r k <= B k) -> forall k, null_overflow N r k <= B k.
Proof. intros Hr k. unfold null_overflow. destruct (k_overflow _); [apply HB|apply Hr]. Qed.
Lemma evaluate_le f s : (forall s k, f s k <= B k) -> forall k, evaluate N f s k <= B k.
Proof. intros Hf k. unfold evaluate. destruct (k_overflow _); [apply HB|]. destruct (LessThanOrEqual _ _ _); [apply HB|apply Hf]. Qed.
Lemma euler_pass f s : (forall s k, f s k <= B k) -> roomy (deposit e s) -> exists s', euler_step N dt e f s = Ok s'.
Proof.
  intros Hf Hs. unfold euler_step. destruct (enforce_pass _ Hs 10 (null_overflow N (evaluate N f (deposit e s)))) as (r&E&_); [apply null_le, evaluate_le, Hf|].
  unfold enforce. rewrite E. eexists. reflexivity.
Qed.
End Net.
Section NoCapacity.
Variable N : net.
Variable dt : R.
Variable e : external.
Hypothesis Hdt : 0 < dt.
Hypothesis Hcap : forall b, (b < length (n_bricks N))%nat -> b_cap (brick_at N b) = None.
Let B : nat -> R := fun _ => 10000.
Lemma B_ok : forall k, 0 <= B k <= 10000. Proof. intros k. unfold B. lra. Qed.
Lemma always_roomy s : roomy N dt e B s.
Proof. intros b c Hb Hc. rewrite (Hcap b Hb) in Hc. discriminate. Qed.
Lemma constrain_pass s r : (forall k, r k <= 10000) -> exists r', constrain_rates N dt e s r = Ok r' /\ forall k, r' k <= 10000.
Proof. intros Hr. apply (enforce_pass N dt e Hdt B B_ok s (always_roomy s) 10). apply null_le; [exact B_ok|exact Hr]. Qed.
Lemma heun_pass f1 f2 s : (forall s k, f1 s k <= 10000) -> (forall s k, f2 s k <= 10000) -> exists s', heun_step N dt e f1 f2 s = Ok s'.
Proof.
  intros H1 H2. unfold heun_step. change (enforce N dt e (deposit e s) (null_overflow N (evaluate N f1 (deposit e s)))) with (constrain_rates N dt e (deposit e s) (evaluate N f1 (deposit e s))).
  destruct (constrain_pass (deposit e s) (evaluate N f1 (deposit e s))) as (k1&E1&K1); [intros k; apply (evaluate_le N B B_ok); exact H1|]. rewrite E1. cbn [bind].
  set (s1 := apply_rates N dt e k1 (deposit e s)).
  destruct (constrain_pass (reset_state s1) (fun k => (k1 k + evaluate N f2 s1 k) / 2)) as (kc&Ec&_); [|rewrite Ec; eexists; reflexivity].
  intros k. pose proof (evaluate_le N B B_ok f2 s1 H2 k) as K2. unfold B in K2. specialize (K1 k). lra.
Qed.
Lemma rk4_pass f1 f2 f3 f4 s : (forall s k, f1 s k <= 10000) -> (forall s k, f2 s k <= 10000) -> (forall s k, f3 s k <= 10000) -> (forall s k, f4 s k <= 10000) ->
  exists s', rk4_step N dt e f1 f2 f3 f4 s = Ok s'.
Proof.
  intros H1 H2 H3 H4. unfold rk4_step. change (enforce N dt e (deposit e s) (null_overflow N (evaluate N f1 (deposit e s)))) with (constrain_rates N dt e (deposit e s) (evaluate N f1 (deposit e s))).
  destruct (constrain_pass (deposit e s) (evaluate N f1 (deposit e s))) as (k1&E1&K1); [intros k; apply (evaluate_le N B B_ok); exact H1|]. rewrite E1. cbn [bind].
  set (s1 := scale_state (/ 2) (apply_rates N dt e k1 (deposit e s))).
  destruct (constrain_pass (reset_state s1) (evaluate N f2 s1)) as (k2&E2&K2); [intros k; apply (evaluate_le N B B_ok); exact H2|]. rewrite E2. cbn [bind].
  set (s2 := scale_state (/ 2) (apply_rates N dt e k2 (reset_state s1))).
  destruct (constrain_pass (reset_state s2) (evaluate N f3 s2)) as (k3&E3&K3); [intros k; apply (evaluate_le N B B_ok); exact H3|]. rewrite E3. cbn [bind].
  set (s3 := apply_rates N dt e k3 (reset_state s2)).
  destruct (constrain_pass (reset_state s3) (fun k => (k1 k + 2 * k2 k + 2 * k3 k + evaluate N f4 s3 k) / 6)) as (kc&Ec&_); [|rewrite Ec; eexists; reflexivity].
  intros k. pose proof (evaluate_le N B B_ok f4 s3 H4 k) as K4. unfold B in K4. specialize (K1 k). specialize (K2 k). specialize (K3 k). lra.
Qed.
(** The sequential solvers that evaluate the processes at one or two contents. *)
Lemma seq_pass sch f : sch = ImplicitEuler \/ sch = CrankNicolson -> (forall s k, f s k <= 10000) ->
  forall s r, (forall k, r k <= 10000) -> exists p, seq_step N dt e sch f s r = Ok p.
Proof.
  intros Hsch Hf s r Hr. unfold seq_step.
  assert (K : forall l p, (forall b, In b l -> (b < length (n_bricks N))%nat) -> (forall k, snd p k <= 10000) -> exists p', seq_bricks N dt e sch f l p = Ok p').
  { induction l as [|b l IH]; intros [s0 r0] Hl Hp; [eexists; reflexivity|]. cbn [seq_bricks]. unfold seq_brick, constrain_brick.
    set (r1 := fun k => if mem k (outs N b) then _ else _).
    destruct (constraints_pass dt (s_content s0 b + s_dyn s0 b) (inputs_static N e s0 b) (b_cap (brick_at N b)) (overflow_of N b) (b_allowneg (brick_at N b)) (outs N b) (ins N b) r1 B Hdt) as (r2&E2&H2).
    - unfold B. intros; lra.
    - intros k. unfold r1. destruct (mem k (outs N b)); [|apply Hp].
      assert (Ke : forall x, rates_at N f s0 b x k <= 10000) by (intros x; apply (evaluate_le N B B_ok); exact Hf).
      unfold brick_rates. destruct Hsch as [-> | ->]; [apply Ke|]. pose proof (Ke 0) as K0. unfold B.
      match goal with |- (?a + ?b) / 2 <= _ => assert (b <= 10000) by apply Ke end. lra.
    - unfold B. intros; lra.
    - intros c Hc. rewrite (Hcap b (Hl b (or_introl eq_refl))) in Hc. discriminate.
    - rewrite E2. cbn [bind]. apply IH; [intros b' Hb'; apply Hl; right; exact Hb'|exact H2]. }
  destruct (K (brick_ids N) (deposit e s, r)) as (p&E); [intros b Hb; apply in_seq in Hb; lia|exact Hr|]. rewrite E. eexists. reflexivity.
Qed.
End NoCapacity.

(** ** A directly computed brick *)
Section Direct.
Variable D : dbrick.
Variable dt : R.
Variable inp : dinputs.
Variable f : dlaw.
Hypothesis Hdt : 0 < dt.
Hypothesis Hcap : forall p, In p (db_procs D) -> db_cap D (p_cont p) = None.
Hypothesis Hf : forall conts k, f conts k <= 10000.
Let B : nat -> R := fun _ => 10000.
Lemma dconstrain_pass s p r : In p (db_procs D) -> (forall k, r k <= 10000) -> exists r', dconstrain D dt inp s (p_cont p) r = Ok r' /\ forall k, r' k <= 10000.
Proof.
  intros Hp Hr. unfold dconstrain. assert (Hb : forall k, blocked_rates D inp (p_cont p) r k <= 10000).
  { intros k. unfold blocked_rates. destruct (i_blocked inp (p_cont p)); [|apply Hr]. destruct (mem k _); [lra|apply Hr]. }
  destruct (c_infinite _); [eexists; split; [reflexivity|exact Hb]|].
  apply (constraints_pass dt _ _ _ _ _ _ _ _ B Hdt); unfold B; try (intros; lra); [exact Hb|]. intros c Hc. rewrite (Hcap p Hp) in Hc. discriminate.
Qed.
Lemma fold_rates c : forall l s, (forall k, ds_rate s k <= 10000) -> forall k, ds_rate (fold_left (apply_dconn D dt c) l s) k <= 10000.
Proof.
  induction l as [|k0 l IH]; intros s Hs; [exact Hs|]. cbn [fold_left]. apply IH. intros k. cbn [apply_dconn ds_rate]. unfold upd. destruct (Nat.eqb k k0); [lra|apply Hs].
Qed.
Lemma dprocesses_pass : forall l s, (forall p, In p l -> In p (db_procs D)) -> (forall k, ds_rate s k <= 10000) -> exists s', dprocesses D dt inp f s l = Ok s'.
Proof.
  induction l as [|p l IH]; intros s Hl Hs; [eexists; reflexivity|]. cbn [dprocesses]. unfold dprocess.
  destruct (dconstrain_pass s p (requested D f s p) (Hl p (or_introl eq_refl))) as (r&E&Hr).
  - intros k. unfold requested. destruct (mem k _); [|apply Hs]. destruct (content_with_changes _) as [x|]; [|apply Hf]. destruct (LessThanOrEqual _ _ _); [lra|apply Hf].
  - rewrite E. cbn [bind]. apply IH; [intros q Hq; apply Hl; right; exact Hq|]. apply fold_rates. exact Hr.
Qed.
Lemma direct_pass s : exists s', direct_step D dt inp f s = Ok s'.
Proof.
  unfold direct_step. destruct (dprocesses_pass (db_procs D) (take_inputs D inp s)) as (s'&E); [auto|intros k; cbn; lra|]. rewrite E. eexists. reflexivity.
Qed.
End Direct.

(** ** The catchment *)
Section Catchment.
Variable C : catchment.
Variable dt : R.
Variable inp : cinput.
Hypothesis Hdt : 0 < dt.
Hypothesis Hcap : forall i p, (i < node_count C)%nat -> In p (db_procs (nd_brick (node_at C i))) -> db_cap (nd_brick (node_at C i)) (p_cont p) = None.
Hypothesis Hf : forall i conts k, in_law inp i conts k <= 10000.
Lemma phase_pass g : forall p, (p <= node_count C)%nat -> exists g', direct_phase C dt inp g p = Ok g'.
Proof.
  induction p as [|p IH]; intros Hp; [eexists; reflexivity|]. cbn [direct_phase]. destruct IH as (g'&E); [lia|]. rewrite E. cbn [bind]. unfold node_step.
  destruct (nd_null _); [eexists; reflexivity|]. destruct (direct_pass (nd_brick (node_at C p)) dt (node_inputs C inp g' p) (in_law inp p) Hdt) with (s := g' p) as (d&Ed).
  - intros q Hq. apply Hcap; [lia|exact Hq].
  - apply Hf.
  - rewrite Ed. eexists. reflexivity.
Qed.
End Catchment.
