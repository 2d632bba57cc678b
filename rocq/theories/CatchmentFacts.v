(** Proofs about a whole time step. *)
From Coq Require Import Permutation.
From Verif Require Import Base BaseFacts Container ContainerFacts Direct DirectSpec DirectFacts DirectSafe Network NetworkSpec StepFacts RunFacts
  Catchment CatchmentSpec.

Lemma direct_flags B dt inp f s s' : dvalid B -> 0 < dt -> direct_step B dt inp f s = Ok s' ->
  (forall c, c_infinite (ds_cont s' c) = c_infinite (ds_cont s c) /\ c_allowneg (ds_cont s' c) = c_allowneg (ds_cont s c)) /\
  (forall c, In c (db_conts B) -> c_infinite (ds_cont s c) = false -> c_dyn (ds_cont s' c) = 0 /\ c_stat (ds_cont s' c) = 0).
Proof.
  intros HB Hdt H. unfold direct_step in H. apply bind_ok in H. destruct H as (s1 & H1 & H). injection H as <-.
  destruct (procs_books B dt inp f Hdt _ _ _ (dv_nodup B HB) H1) as (rel & _ & _ & _ & P3 & _).
  assert (HF : forall c, c_infinite (ds_cont s1 c) = c_infinite (ds_cont s c) /\ c_allowneg (ds_cont s1 c) = c_allowneg (ds_cont s c)).
  { intros c. destruct (P3 c) as (K1&K2&_). destruct (take_kind B inp s c) as (L1&L2&_). split; congruence. }
  split.
  - intros c. cbn [ds_cont]. destruct (HF c) as (A1&A2). destruct (mem c (db_conts B)); [|split; assumption].
    unfold finalize. destruct (c_infinite (ds_cont s1 c)) eqn:E; cbn [c_infinite c_allowneg]; split; congruence.
  - intros c Hc Hi. cbn [ds_cont]. rewrite (proj2 (mem_in c _) Hc). unfold finalize.
    destruct (HF c) as (A1&_). rewrite A1, Hi. split; reflexivity.
Qed.

(** The turn of one brick, from the outside. *)
Lemma turn B dt inp f s s' : dvalid B -> 0 < dt -> direct_step B dt inp f s = Ok s' ->
  (forall k, (k < length (db_conns B))%nat -> 0 <= d_frac (dconn_at B k)) ->
  (forall c, c_infinite (ds_cont s' c) = c_infinite (ds_cont s c) /\ c_allowneg (ds_cont s' c) = c_allowneg (ds_cont s c)) /\
  exists rel : nat -> R, (forall k, 0 <= rel k) /\
  (forall k, (k < length (db_conns B))%nat -> dreports (dconn_at B k) (rel k) (ds_amount s' k) /\ 0 <= ds_amount s' k) /\
  (forall c, In c (db_conts B) -> in_order inp s c -> asks_within B dt f c \/ seen_once B inp c s ->
     let D := dbook B inp s s' rel c in
     c_dyn (ds_cont s' c) = 0 /\ c_stat (ds_cont s' c) = 0 /\ 0 <= level (ds_cont s' c) /\ D - PRECISION <= level (ds_cont s' c) <= D).
Proof.
  intros HB Hdt H Hfr. destruct (direct_flags B dt inp f s s' HB Hdt H) as (F1&F2). split; [exact F1|].
  destruct (books_final B dt inp f s s' HB Hdt H) as (rel & P0 & P1 & P2 & P3). exists rel. split; [exact P0|]. split.
  - intros k Hk. split; [apply P1; exact Hk|]. destruct (P1 k Hk) as (R1&R2). pose proof (Hfr k Hk). pose proof (P0 k).
    destruct (Rle_dec (d_frac (dconn_at B k)) 1).
    + rewrite R1 by auto. apply Rmult_le_pos; assumption.
    + destruct (d_tgt (dconn_at B k)) eqn:E.
      * rewrite R1 by (right; congruence). apply Rmult_le_pos; assumption.
      * rewrite R2 by (auto; lra). assumption.
      * rewrite R1 by (right; congruence). apply Rmult_le_pos; assumption.
  - intros c Hc Ho Hs. cbv zeta. assert (Hi : c_infinite (ds_cont s c) = false) by apply Ho.
    assert (Ha : c_allowneg (ds_cont s c) = false) by apply Ho.
    destruct (F2 c Hc Hi) as (D0&S0). destruct (P2 c Hc Hi) as (_&E). rewrite Ha in E.
    pose proof (P3 Hfr c Hc Ho Hs) as Hp. pose proof (kept_close _ Hp) as HK.
    assert (EL : level (ds_cont s' c) = kept (dbook B inp s s' rel c)) by (unfold level; lra).
    assert (0 <= kept (dbook B inp s s' rel c)).
    { unfold kept. destruct (Rle_dec (dbook B inp s s' rel c) PRECISION); lra. }
    rewrite EL. split; [exact D0|]. split; [exact S0|]. split; [assumption|exact HK].
Qed.

Lemma add_stat_flags x a : c_infinite (add_stat x a) = c_infinite a /\ c_allowneg (add_stat x a) = c_allowneg a.
Proof. unfold add_stat. destruct (c_infinite a) eqn:E; split; cbn; congruence. Qed.
Lemma add_stat_dyn x a : c_dyn (add_stat x a) = c_dyn a.
Proof. unfold add_stat. destruct (c_infinite a) eqn:E; reflexivity. Qed.

Lemma seq_S0 p : seq 0 (S p) = seq 0 p ++ [p].
Proof. rewrite seq_S. reflexivity. Qed.
Lemma seq_snoc a p : (a <= p)%nat -> seq a (S p - a) = seq a (p - a) ++ [p].
Proof. intros H. replace (S p - a)%nat with (S (p - a)) by lia. rewrite seq_S. replace (a + (p - a))%nat with p by lia. reflexivity. Qed.

Section Phase.
Variables (C : catchment) (W w : nat -> R) (dt : R).
Hypothesis Hdt : 0 < dt.
Hypothesis HC : sound C W w.
Notation n := (node_count C).
Notation null i := (nd_null (node_at C i)).
Notation B i := (nd_brick (node_at C i)).

Lemma frac_nonneg i k : (i < n)%nat -> (k < out_count C i)%nat -> 0 <= d_frac (conn_of C i k).
Proof.
  intros Hi Hk. destruct (d_tgt (conn_of C i k)) as [c| |] eqn:E.
  - rewrite (sd_inside _ _ _ HC i k c Hi Hk E). lra.
  - apply (sd_out _ _ _ HC i k Hi Hk). intros c; congruence.
  - apply (sd_out _ _ _ HC i k Hi Hk). intros c; congruence.
Qed.

Lemma delivers_spec i wy p k : delivers (node_at C i) wy p k = true ->
  outward C i k /\ nd_to (node_at C i) k = p /\ (wy <> Now -> d_tgt (conn_of C i k) = Outside) /\
  (wy = AsStatic -> nd_static (node_at C i) k = true).
Proof.
  unfold delivers, way_of, conn_of, outward.
  assert (HP : forall x y, place_eqb x y = true -> x = y).
  { intros [a b|a| |] [c d|c| |]; cbn; try discriminate; try reflexivity; intros H.
    - apply andb_true_iff in H. destruct H as (H1&H2). apply Nat.eqb_eq in H1, H2. congruence.
    - apply Nat.eqb_eq in H. congruence. }
  unfold conn_of.
  destruct (d_tgt (dconn_at (B i) k)) eqn:E; try discriminate; intros H; apply andb_true_iff in H; destruct H as (H1&H2);
    apply HP in H2; (split; [intros c0; congruence|]); (split; [exact H2|]); split; try congruence.
  - intros ->. destruct (nd_static (node_at C i) k); [reflexivity|discriminate].
  - destruct wy; try discriminate; congruence.
  - destruct wy; try discriminate; congruence.
Qed.

Lemma from_self g wy i c : (i < n)%nat -> from_node C g wy (InDirect i c) i = 0.
Proof.
  intros Hi. apply Rsum_zero. intros k Hk. apply in_seq in Hk.
  destruct (delivers _ _ _ _) eqn:E; [|reflexivity]. apply delivers_spec in E. destruct E as (Ho&Et&_).
  pose proof (sd_out _ _ _ HC i k Hi ltac:(lia) Ho) as (_&_&H). rewrite Et in H. destruct H as (_&_&_&H&_). congruence.
Qed.
Lemma from_later g wy i j c : (i < n)%nat -> (j <= i)%nat -> wy <> Now -> from_node C g wy (InDirect j c) i = 0.
Proof.
  intros Hi Hj Hw. apply Rsum_zero. intros k Hk. apply in_seq in Hk.
  destruct (delivers _ _ _ _) eqn:E; [|reflexivity]. apply delivers_spec in E. destruct E as (Ho&Et&Eo&_).
  pose proof (sd_out _ _ _ HC i k Hi ltac:(lia) Ho) as (_&_&H). rewrite Et in H. destruct H as (_&_&_&_&H). specialize (H (Eo Hw)). lia.
Qed.
Lemma from_ext g g' wy p i : (forall k, (k < out_count C i)%nat -> ds_amount (g' i) k = ds_amount (g i) k) ->
  from_node C g' wy p i = from_node C g wy p i.
Proof. intros H. apply Rsum_ext_in. intros k Hk. apply in_seq in Hk. rewrite H by lia. reflexivity. Qed.
Lemma from_zero g wy p i : (forall k, ds_amount (g i) k = 0) -> from_node C g wy p i = 0.
Proof. intros H. apply Rsum_zero. intros k _. rewrite H. destruct (delivers _ _ _ _); reflexivity. Qed.
Lemma from_nonneg g wy p i : (forall k, (k < out_count C i)%nat -> 0 <= ds_amount (g i) k) -> 0 <= from_node C g wy p i.
Proof.
  intros H. apply Rsum_nonneg. intros k Hk. apply in_seq in Hk. destruct (delivers _ _ _ _); [apply H; lia|lra].
Qed.

Section OnePhase.
Variables (inp : cinput) (G : cstate).
Notation g0 := (g_direct G).
Hypothesis Hin : nonneg_input inp.
Hypothesis Hgd : guarded C dt G inp.
Definition finite (i c : nat) : Prop := (i < n)%nat /\ null i = false /\ In c (conts_of C i) /\ is_ice G i c = false.

(** Regular state at the beginning of a step. *)
Record regular : Prop := {
  rg_null : forall i k, null i = true -> ds_amount (g0 i) k = 0;
  rg_pos : forall i k, (i < n)%nat -> (k < out_count C i)%nat -> 0 <= ds_amount (g0 i) k;
  rg_neg : forall i c, finite i c -> c_allowneg (ds_cont (g0 i) c) = false;
  rg_dyn : forall i c, finite i c -> c_dyn (ds_cont (g0 i) c) = 0;
  rg_stat : forall i c, finite i c -> c_stat (ds_cont (g0 i) c) = Rsum (from_node C g0 Now (InDirect i c)) (seq (S i) (n - S i));
  rg_level : forall i c, finite i c -> 0 <= level (ds_cont (g0 i) c) }.
Hypothesis Hreg : regular.

Definition due (g : nat -> dstate) (rel : nat -> nat -> R) (p j c : nat) : R :=
  level (ds_cont (g0 j) c) + in_direct inp j c + Rsum (from_node C g Now (InDirect j c)) (seq 0 p)
  + arrives C g Plain (InDirect j c) + arrives C g AsStatic (InDirect j c)
  + Rsum (ds_amount (g j)) (dins (B j) c) - Rsum (rel j) (douts (B j) c).

Record inv (p : nat) (g : nat -> dstate) (rel : nat -> nat -> R) : Prop := {
  iv_kind : forall i c, c_infinite (ds_cont (g i) c) = c_infinite (ds_cont (g0 i) c) /\ c_allowneg (ds_cont (g i) c) = c_allowneg (ds_cont (g0 i) c);
  iv_amt : forall i k, (p <= i)%nat \/ null i = true -> ds_amount (g i) k = ds_amount (g0 i) k;
  iv_pos : forall i k, (i < n)%nat -> (k < out_count C i)%nat -> 0 <= ds_amount (g i) k;
  iv_dyn : forall i c, finite i c -> c_dyn (ds_cont (g i) c) = 0;
  iv_wait : forall i c, finite i c -> (p <= i)%nat ->
    c_stat (ds_cont (g i) c) = Rsum (from_node C g Now (InDirect i c)) (seq 0 p) + Rsum (from_node C g Now (InDirect i c)) (seq (S i) (n - S i));
  iv_done : forall i c, finite i c -> (i < p)%nat ->
    c_stat (ds_cont (g i) c) = Rsum (from_node C g Now (InDirect i c)) (seq (S i) (p - S i));
  iv_level : forall i c, finite i c -> (p <= i)%nat ->
    level (ds_cont (g i) c) = level (ds_cont (g0 i) c) + Rsum (from_node C g Now (InDirect i c)) (seq 0 p);
  iv_rel : forall i k, (i < p)%nat -> null i = false -> (k < out_count C i)%nat -> 0 <= rel i k /\ dreports (conn_of C i k) (rel i k) (ds_amount (g i) k);
  iv_books : forall i c, finite i c -> (i < p)%nat ->
    0 <= level (ds_cont (g i) c) /\ due g rel p i c - PRECISION <= level (ds_cont (g i) c) <= due g rel p i c }.

Lemma inv_start rel : inv 0 g0 rel.
Proof.
  split; intros; cbn [seq Rsum]; try (split; reflexivity); try reflexivity; try lia; try lra.
  - apply (rg_pos Hreg); assumption.
  - apply (rg_dyn Hreg); assumption.
  - rewrite (rg_stat Hreg) by assumption. lra.
Qed.

Lemma seq_range a l i : In i (seq a l) -> (a <= i < a + l)%nat.
Proof. apply in_seq. Qed.

Lemma inv_next p g g' rel : (p < n)%nat -> inv p g rel -> node_step C dt inp g p = Ok g' -> exists rel', inv (S p) g' rel'.
Proof.
  intros Hp I H. unfold node_step in H. destruct (null p) eqn:En.
  { injection H as <-. exists rel. destruct I as [I1 I2 I3 I4 I5 I6 I7 I8 I9].
    assert (Z : forall wy q, from_node C g wy q p = 0).
    { intros. apply from_zero. intros k. rewrite I2 by auto. apply (rg_null Hreg). exact En. }
    assert (NP : forall i c, finite i c -> (p <= i)%nat -> (S p <= i)%nat).
    { intros i c (_&Hn&_) Hle. destruct (Nat.eq_dec i p) as [->|]; [congruence|lia]. }
    assert (PN : forall i c, finite i c -> (i < S p)%nat -> (i < p)%nat).
    { intros i c (_&Hn&_) Hle. destruct (Nat.eq_dec i p) as [->|]; [congruence|lia]. }
    split; auto.
    - intros i k [Hi|Hi]; apply I2; [left; lia|auto].
    - intros i c Hf Hi. rewrite I5 by (auto; lia). rewrite seq_S0, Rsum_app. cbn [Rsum]. rewrite Z. lra.
    - intros i c Hf Hi. pose proof (PN i c Hf Hi). rewrite I6 by auto. rewrite seq_snoc by lia. rewrite Rsum_app. cbn [Rsum]. rewrite Z. lra.
    - intros i c Hf Hi. rewrite I7 by (auto; lia). rewrite seq_S0, Rsum_app. cbn [Rsum]. rewrite Z. lra.
    - intros i k Hi Hn Hk. apply I8; auto. destruct (Nat.eq_dec i p) as [->|]; [congruence|lia].
    - intros i c Hf Hi. pose proof (PN i c Hf Hi) as Hi'. specialize (I9 i c Hf Hi'). unfold due in *.
      rewrite seq_S0, Rsum_app. cbn [Rsum]. rewrite Z. lra. }
  apply bind_ok in H. destruct H as (d & Hd & H). injection H as <-.
  destruct (sd_valid _ _ _ HC p Hp) as (HB&HN).
  destruct (turn (B p) dt (node_inputs C inp g p) (in_law inp p) (g p) d HB Hdt Hd (fun k Hk => frac_nonneg p k Hp Hk))
    as (F & rp & R0 & R1 & R2).
  destruct I as [I1 I2 I3 I4 I5 I6 I7 I8 I9].
  set (g' := deposit_now C p (upd g p d)) in *.
  assert (Aam : forall i k, ds_amount (g' i) k = if Nat.eqb i p then ds_amount d k else ds_amount (g i) k).
  { intros i k. unfold g', deposit_now, upd; cbn [ds_amount]. destruct (Nat.eqb i p); reflexivity. }
  assert (Afr : forall wy q i, i <> p -> from_node C g' wy q i = from_node C g wy q i).
  { intros. apply from_ext. intros. rewrite Aam, (proj2 (Nat.eqb_neq i p)) by assumption. reflexivity. }
  assert (Afp : forall wy q, from_node C (upd g p d) wy q p = from_node C g' wy q p).
  { intros. apply from_ext. intros. rewrite Aam. unfold upd. rewrite Nat.eqb_refl. reflexivity. }
  assert (Acont : forall i c, ds_cont (g' i) c = add_stat (from_node C g' Now (InDirect i c) p) (ds_cont (if Nat.eqb i p then d else g i) c)).
  { intros i c. unfold g', deposit_now; cbn [ds_cont]. rewrite Afp. unfold upd. reflexivity. }
  assert (Fin : forall i c, finite i c -> c_infinite (ds_cont (if Nat.eqb i p then d else g i) c) = false).
  { intros i c (_&_&_&Hi). unfold is_ice in Hi. destruct (Nat.eqb_spec i p) as [->|].
    - rewrite (proj1 (F c)), (proj1 (I1 p c)). exact Hi.
    - rewrite (proj1 (I1 i c)). exact Hi. }
  assert (Asum : forall q l, (forall i, In i l -> i <> p) -> Rsum (from_node C g' Now q) l = Rsum (from_node C g Now q) l).
  { intros q l Hl. apply Rsum_ext_in. intros i Hi. apply Afr, Hl, Hi. }
  (* facts about brick p when its turn comes *)
  assert (Harr : forall wy j c, wy <> Now -> (j <= p)%nat -> (j < n)%nat -> arrives C g' wy (InDirect j c) = arrives C g wy (InDirect j c)).
  { intros wy j c Hw Hj Hjn. apply Rsum_ext_in. intros i Hi. apply in_seq in Hi.
    destruct (Nat.eq_dec i p) as [->|]; [|apply Afr; assumption].
    rewrite !from_later by (auto; lia). reflexivity. }
  assert (Hnow : forall g1 c, Rsum (from_node C g1 Now (InDirect p c)) (seq 0 p) + Rsum (from_node C g1 Now (InDirect p c)) (seq (S p) (n - S p))
                 = arrives C g1 Now (InDirect p c)).
  { intros g1 c. unfold arrives. replace n with (p + (1 + (n - S p)))%nat at 2 by lia. rewrite !seq_app, !Rsum_app.
    cbn [seq Rsum plus]. rewrite from_self by exact Hp. replace (p + 1)%nat with (S p) by lia. lra. }
  assert (Hpl0 : forall wy q, 0 <= arrives C g wy q).
  { intros. apply Rsum_nonneg. intros i Hi. apply in_seq in Hi. apply from_nonneg. intros k Hk. apply I3; [lia|exact Hk]. }
  assert (Hord : forall c, finite p c -> in_order (node_inputs C inp g p) (g p) c /\
     (asks_within (B p) dt (in_law inp p) c \/ seen_once (B p) (node_inputs C inp g p) c (g p))).
  { intros c Hf. pose proof Hf as (_&Hnn&Hc&Hi). split.
    - unfold in_order. cbn [node_inputs i_forced i_plain]. split; [rewrite (proj1 (I1 p c)); exact Hi|].
      split; [rewrite (proj2 (I1 p c)); apply (rg_neg Hreg); exact Hf|]. split; [|split].
      + rewrite I7 by (auto; lia). pose proof (rg_level Hreg p c Hf).
        assert (0 <= Rsum (from_node C g Now (InDirect p c)) (seq 0 p)); [|lra].
        apply Rsum_nonneg. intros i Hi'. apply in_seq in Hi'. apply from_nonneg. intros k Hk. apply I3; [lia|exact Hk].
      + pose proof (proj1 Hin p c). pose proof (Hpl0 AsStatic (InDirect p c)). lra.
      + apply Hpl0.
    - destruct (Hgd p c Hp Hnn Hc Hi) as [Hw|(Hst&Hs)]; [left; exact Hw|right].
      unfold seen_once. cbn [node_inputs i_inst i_forced]. split; [|split].
      + rewrite I5 by (auto; lia). rewrite Hnow. lra.
      + destruct Hst as [Hst|(H0&Hno)]; [left; exact Hst|right]. rewrite H0.
        assert (E : arrives C g AsStatic (InDirect p c) = 0); [|lra].
        apply Rsum_zero. intros i Hi'. apply in_seq in Hi'. apply Rsum_zero. intros k Hk. apply in_seq in Hk.
        destruct (delivers _ _ _ _) eqn:E; [|reflexivity]. exfalso. apply delivers_spec in E. destruct E as (_&Et&Eo&Es).
        apply (Hno i k); [lia|lia|apply Eo; discriminate|apply Es; reflexivity|exact Et].
      + intros l1 q l2 El Eq k Hk Ek. exfalso. exact (Hs l1 q l2 El Eq k Hk Ek). }
  assert (R2' : forall c, finite p c -> let D := dbook (B p) (node_inputs C inp g p) (g p) d rp c in
     c_dyn (ds_cont d c) = 0 /\ c_stat (ds_cont d c) = 0 /\ 0 <= level (ds_cont d c) /\ D - PRECISION <= level (ds_cont d c) <= D).
  { intros c Hf. pose proof Hf as (_&_&Hc&_). destruct (Hord c Hf) as (Ho&Hs). apply R2; assumption. }
  assert (Pos' : forall i k, (i < n)%nat -> (k < out_count C i)%nat -> 0 <= ds_amount (g' i) k).
  { intros i k Hi Hk. rewrite Aam. destruct (Nat.eqb_spec i p) as [->|]; [apply R1; exact Hk|apply I3; assumption]. }
  exists (upd rel p rp). split.
  - intros i c. rewrite Acont. destruct (add_stat_flags (from_node C g' Now (InDirect i c) p) (ds_cont (if Nat.eqb i p then d else g i) c)) as (E1&E2).
    rewrite E1, E2. destruct (Nat.eqb_spec i p) as [->|]; [|apply I1].
    destruct (F c) as (F1&F2). destruct (I1 p c) as (K1&K2). split; congruence.
  - intros i k Hi. rewrite Aam. destruct (Nat.eqb_spec i p) as [->|].
    + destruct Hi as [Hi|Hi]; [lia|congruence].
    + apply I2. destruct Hi as [Hi|Hi]; [left; lia|auto].
  - exact Pos'.
  - intros i c Hf. rewrite Acont, add_stat_dyn. destruct (Nat.eqb_spec i p) as [->|]; [apply R2'; exact Hf|apply I4; exact Hf].
  - intros i c Hf Hi. rewrite Acont, add_stat_stat by (apply Fin; exact Hf). rewrite (proj2 (Nat.eqb_neq i p)) by lia.
    rewrite I5 by (auto; lia). rewrite seq_S0, Rsum_app. cbn [Rsum].
    rewrite !Asum by (intros x Hx; apply in_seq in Hx; lia). lra.
  - intros i c Hf Hi. rewrite Acont, add_stat_stat by (apply Fin; exact Hf). destruct (Nat.eqb_spec i p) as [->|].
    + rewrite from_self by exact Hp. replace (S p - S p)%nat with 0%nat by lia. cbn [seq Rsum]. destruct (R2' c Hf) as (_&E&_). lra.
    + rewrite I6 by (auto; lia). rewrite seq_snoc by lia. rewrite Rsum_app. cbn [Rsum].
      rewrite Asum by (intros x Hx; apply in_seq in Hx; lia). lra.
  - intros i c Hf Hi. rewrite Acont, add_stat_level by (apply Fin; exact Hf). rewrite (proj2 (Nat.eqb_neq i p)) by lia.
    rewrite I7 by (auto; lia). rewrite seq_S0, Rsum_app. cbn [Rsum].
    rewrite Asum by (intros x Hx; apply in_seq in Hx; lia). lra.
  - intros i k Hi Hn Hk. rewrite Aam. unfold upd. destruct (Nat.eqb_spec i p) as [->|].
    + split; [apply R0|apply R1; exact Hk].
    + apply I8; auto; lia.
  - intros i c Hf Hi. rewrite Acont, add_stat_level by (apply Fin; exact Hf).
    assert (Hfp : 0 <= from_node C g' Now (InDirect i c) p) by (apply from_nonneg; intros; apply Pos'; assumption).
    assert (Hin' : (i < n)%nat) by apply Hf.
    unfold due. rewrite seq_S0, Rsum_app. cbn [Rsum].
    rewrite Asum by (intros x Hx; apply in_seq in Hx; lia).
    rewrite !Harr by (try discriminate; try lia).
    destruct (Nat.eqb_spec i p) as [->|Hne].
    + rewrite from_self by exact Hp. destruct (R2' c Hf) as (_&_&L0&LD). cbv zeta in LD.
      assert (ED : dbook (B p) (node_inputs C inp g p) (g p) d rp c =
         level (ds_cont (g0 p) c) + in_direct inp p c + (Rsum (from_node C g Now (InDirect p c)) (seq 0 p) + (0 + 0))
         + arrives C g Plain (InDirect p c) + arrives C g AsStatic (InDirect p c)
         + Rsum (ds_amount (g' p)) (dins (B p) c) - Rsum (upd rel p rp p) (douts (B p) c)).
      { unfold dbook. cbn [node_inputs i_forced i_plain].
        assert (EL : c_content (ds_cont (g p) c) + dpending (g p) c = level (ds_cont (g0 p) c) + Rsum (from_node C g Now (InDirect p c)) (seq 0 p)).
        { rewrite <- I7 by (auto; lia). unfold dpending, level. lra. }
        assert (EA : Rsum (ds_amount d) (dins (B p) c) = Rsum (ds_amount (g' p)) (dins (B p) c)).
        { apply Rsum_ext_in. intros k _. rewrite Aam, Nat.eqb_refl. reflexivity. }
        assert (ER : Rsum (upd rel p rp p) (douts (B p) c) = Rsum rp (douts (B p) c)).
        { apply Rsum_ext_in. intros k _. unfold upd. rewrite Nat.eqb_refl. reflexivity. }
        rewrite EA, ER. lra. }
      rewrite <- ED. lra.
    + destruct (I9 i c Hf ltac:(lia)) as (L0&LD). unfold due in LD.
      assert (EA : Rsum (ds_amount (g' i)) (dins (B i) c) = Rsum (ds_amount (g i)) (dins (B i) c)).
      { apply Rsum_ext_in. intros k _. rewrite Aam, (proj2 (Nat.eqb_neq i p)) by assumption. reflexivity. }
      assert (ER : Rsum (upd rel p rp i) (douts (B i) c) = Rsum (rel i) (douts (B i) c)).
      { apply Rsum_ext_in. intros k _. unfold upd. rewrite (proj2 (Nat.eqb_neq i p)) by assumption. reflexivity. }
      rewrite EA, ER. lra.
Qed.

Lemma phase_inv p : (p <= n)%nat -> forall g, direct_phase C dt inp g0 p = Ok g -> exists rel, inv p g rel.
Proof.
  induction p as [|p IH]; intros Hp g H; cbn [direct_phase] in H.
  - injection H as <-. exists (fun _ _ => 0). apply inv_start.
  - apply bind_ok in H. destruct H as (g1 & H1 & H). destruct (IH ltac:(lia) g1 H1) as (rel & I).
    eapply inv_next; [lia|exact I|exact H].
Qed.
End OnePhase.
End Phase.

(** Sum over all outputs of all bricks. *)
Definition all_outs (C : catchment) (f : nat -> nat -> R) : R :=
  Rsum (fun i => Rsum (f i) (seq 0 (out_count C i))) (seq 0 (node_count C)).
Lemma all_outs_ext C f f' : (forall i k, (i < node_count C)%nat -> (k < out_count C i)%nat -> f i k = f' i k) -> all_outs C f = all_outs C f'.
Proof. intros H. apply Rsum_ext_in. intros i Hi. apply in_seq in Hi. apply Rsum_ext_in. intros k Hk. apply in_seq in Hk. apply H; lia. Qed.
Lemma all_outs_plus C f f' : all_outs C (fun i k => f i k + f' i k) = all_outs C f + all_outs C f'.
Proof. unfold all_outs. rewrite <- Rsum_plus. apply Rsum_ext_in. intros i _. apply Rsum_plus. Qed.

Section Totals.
Variables (C : catchment) (W w : nat -> R).
Hypothesis HC : sound C W w.
Notation n := (node_count C).
Notation B i := (nd_brick (node_at C i)).
Variable g : nat -> dstate.
Variable ice : nat -> nat -> bool.
Notation a i k := (ds_amount (g i) k).

Definition to_place (i : nat) (p : place) (k : nat) : bool :=
  match d_tgt (conn_of C i k) with Inside _ => false | _ => place_eqb (nd_to (node_at C i) k) p end.

Lemma arrives_any p : arrives C g Plain p + arrives C g AsStatic p + arrives C g Now p
  = all_outs C (fun i k => if to_place i p k then a i k else 0).
Proof.
  unfold arrives, all_outs. rewrite <- !Rsum_plus. apply Rsum_ext_in. intros i _. unfold from_node.
  rewrite <- !Rsum_plus. apply Rsum_ext_in. intros k _. unfold delivers, way_of, to_place, conn_of.
  destruct (d_tgt (dconn_at (B i) k)); [| |].
  - lra.
  - destruct (nd_static (node_at C i) k); cbn [way_eqb andb]; destruct (place_eqb _ _); lra.
  - cbn [way_eqb andb]; destruct (place_eqb _ _); lra.
Qed.

(** What reaches the finite containers from other bricks. *)
Lemma reaches_direct :
  Rsum (fun j => W j * Rsum (fun c => if ice j c then 0 else all_outs C (fun i k => if to_place i (InDirect j c) k then a i k else 0)) (conts_of C j)) (seq 0 n)
  = all_outs C (fun i k => match d_tgt (conn_of C i k), nd_to (node_at C i) k with
      | Inside _, _ => 0
      | _, InDirect j c => if ice j c then 0 else W j * a i k
      | _, _ => 0 end).
Proof.
  transitivity (Rsum (fun j => Rsum (fun c => all_outs C (fun i k => W j * (if ice j c then 0 else if to_place i (InDirect j c) k then a i k else 0))) (conts_of C j)) (seq 0 n)).
  { apply Rsum_ext_in. intros j _. rewrite <- Rsum_scal. apply Rsum_ext_in. intros c _. destruct (ice j c).
    - rewrite Rmult_0_r. symmetry. unfold all_outs. apply Rsum_zero. intros; apply Rsum_zero; intros; lra.
    - unfold all_outs. rewrite <- Rsum_scal. apply Rsum_ext_in. intros i _. rewrite <- Rsum_scal. reflexivity. }
  unfold all_outs.
  transitivity (Rsum (fun i => Rsum (fun k => Rsum (fun j => Rsum (fun c => W j * (if ice j c then 0 else if to_place i (InDirect j c) k then a i k else 0)) (conts_of C j)) (seq 0 n)) (seq 0 (out_count C i))) (seq 0 n)).
  { transitivity (Rsum (fun j => Rsum (fun i => Rsum (fun k => Rsum (fun c => W j * (if ice j c then 0 else if to_place i (InDirect j c) k then a i k else 0)) (conts_of C j)) (seq 0 (out_count C i))) (seq 0 n)) (seq 0 n)).
    - apply Rsum_ext_in. intros j _. rewrite Rsum_swap. apply Rsum_ext_in. intros i _. rewrite Rsum_swap. reflexivity.
    - rewrite Rsum_swap. apply Rsum_ext_in. intros i _. rewrite Rsum_swap. reflexivity. }
  apply Rsum_ext_in. intros i Hi. apply in_seq in Hi. apply Rsum_ext_in. intros k Hk. apply in_seq in Hk.
  assert (Z : (forall j c, to_place i (InDirect j c) k = false) ->
    Rsum (fun j => Rsum (fun c => W j * (if ice j c then 0 else if to_place i (InDirect j c) k then a i k else 0)) (conts_of C j)) (seq 0 n) = 0).
  { intros Hz. apply Rsum_zero. intros j _. apply Rsum_zero. intros c _. rewrite Hz. destruct (ice j c); lra. }
  destruct (d_tgt (conn_of C i k)) as [c0| |] eqn:Et.
  { apply Z. intros. unfold to_place. rewrite Et. reflexivity. }
  all: assert (Ho : outward C i k) by (intros c; congruence);
    pose proof (sd_out _ _ _ HC i k ltac:(lia) ltac:(lia) Ho) as (_&_&Hs);
    assert (EP : forall p, to_place i p k = place_eqb (nd_to (node_at C i) k) p) by (intros; unfold to_place; rewrite Et; reflexivity);
    destruct (nd_to (node_at C i) k) as [j0 c0|b| |] eqn:En; try (apply Z; intros; rewrite EP; reflexivity);
    destruct Hs as (Hj&Hc&_);
    (rewrite (Rsum_ext_in _ (fun j => if Nat.eqb j j0 then (if ice j0 c0 then 0 else W j0 * a i k) else 0));
      [apply Rsum_single; [apply seq_NoDup|apply in_seq; lia]|]);
    intros j _; destruct (Nat.eqb_spec j j0) as [->|Hne];
    [|apply Rsum_zero; intros c _; rewrite EP; cbn [place_eqb]; rewrite (proj2 (Nat.eqb_neq j0 j)) by congruence; cbn [andb]; destruct (ice j c); lra];
    (rewrite (Rsum_ext_in _ (fun c => if Nat.eqb c c0 then (if ice j0 c0 then 0 else W j0 * a i k) else 0));
      [apply Rsum_single; [apply (sd_valid _ _ _ HC j0 Hj)|exact Hc]|]);
    intros c _; rewrite EP; cbn [place_eqb]; rewrite Nat.eqb_refl, (Nat.eqb_sym c0 c); cbn [andb];
    destruct (Nat.eqb_spec c c0) as [->|]; [destruct (ice j0 c0); lra|destruct (ice j0 c); lra].
Qed.

(** What reaches the finite containers of the same brick. *)
Lemma reaches_inside :
  Rsum (fun i => W i * Rsum (fun c => if ice i c then 0 else Rsum (fun k => a i k) (dins (B i) c)) (conts_of C i)) (seq 0 n)
  = all_outs C (fun i k => match d_tgt (conn_of C i k) with Inside c => if ice i c then 0 else W i * a i k | _ => 0 end).
Proof.
  unfold all_outs. apply Rsum_ext_in. intros i Hi. apply in_seq in Hi. destruct (sd_valid _ _ _ HC i ltac:(lia)) as (HB&HN).
  rewrite <- Rsum_scal.
  transitivity (Rsum (fun c => Rsum (fun k => W i * (if ice i c then 0 else if into (B i) k c then a i k else 0)) (seq 0 (out_count C i))) (conts_of C i)).
  { apply Rsum_ext_in. intros c _. rewrite Rsum_scal. f_equal. destruct (ice i c); [symmetry; apply Rsum_zero; reflexivity|].
    unfold dins. rewrite Rsum_filter_if. reflexivity. }
  rewrite Rsum_swap. apply Rsum_ext_in. intros k _. unfold into, conn_of.
  destruct (d_tgt (dconn_at (B i) k)) as [c0| |] eqn:E.
  - rewrite (Rsum_ext_in _ (fun c => if Nat.eqb c c0 then (if ice i c0 then 0 else W i * a i k) else 0)).
    + apply Rsum_single; [exact HN|]. apply (dv_inside _ HB k c0 E).
    + intros c _. rewrite (Nat.eqb_sym c0 c). destruct (Nat.eqb_spec c c0) as [->|]; [destruct (ice i c0); lra|destruct (ice i c); lra].
  - apply Rsum_zero. intros c _. destruct (ice i c); lra.
  - apply Rsum_zero. intros c _. destruct (ice i c); lra.
Qed.

(** What leaves the containers. *)
Lemma leaves (v : nat -> nat -> R) :
  Rsum (fun i => Rsum (fun c => Rsum (v i) (douts (B i) c)) (conts_of C i)) (seq 0 n) = all_outs C v.
Proof.
  unfold all_outs. apply Rsum_ext_in. intros i Hi. apply in_seq in Hi. destruct (sd_valid _ _ _ HC i ltac:(lia)) as (HB&HN).
  unfold conts_of. rewrite (sum_by_container _ HB _ HN). apply Rsum_perm.
  apply NoDup_Permutation; [apply dv_nodup; exact HB|apply seq_NoDup|]. intros k. rewrite (dv_range _ HB k), in_seq. unfold out_count. lia.
Qed.

(** What reaches the storages. *)
Lemma reaches_storage :
  Rsum (fun b => w b * all_outs C (fun i k => if to_place i (InStorage b) k then a i k else 0)) (brick_ids (ct_net C))
  = all_outs C (fun i k => match d_tgt (conn_of C i k), nd_to (node_at C i) k with
      | Inside _, _ => 0 | _, InStorage b => w b * a i k | _, _ => 0 end).
Proof.
  unfold all_outs.
  transitivity (Rsum (fun b => Rsum (fun i => Rsum (fun k => w b * (if to_place i (InStorage b) k then a i k else 0)) (seq 0 (out_count C i))) (seq 0 n)) (brick_ids (ct_net C))).
  { apply Rsum_ext_in. intros b _. rewrite <- Rsum_scal. apply Rsum_ext_in. intros i _. rewrite Rsum_scal. reflexivity. }
  rewrite Rsum_swap. apply Rsum_ext_in. intros i Hi. apply in_seq in Hi. rewrite Rsum_swap. apply Rsum_ext_in. intros k Hk. apply in_seq in Hk.
  destruct (d_tgt (conn_of C i k)) as [c0| |] eqn:Et.
  { apply Rsum_zero. intros. unfold to_place. rewrite Et. lra. }
  all: assert (Ho : outward C i k) by (intros c; congruence);
    pose proof (sd_out _ _ _ HC i k ltac:(lia) ltac:(lia) Ho) as (_&_&Hs);
    assert (EP : forall p, to_place i p k = place_eqb (nd_to (node_at C i) k) p) by (intros; unfold to_place; rewrite Et; reflexivity);
    destruct (nd_to (node_at C i) k) as [j0 c0|b0| |] eqn:En; try (apply Rsum_zero; intros; rewrite EP; cbn [place_eqb]; lra);
    destruct Hs as (Hb&_);
    (rewrite (Rsum_ext_in _ (fun b => if Nat.eqb b b0 then w b0 * a i k else 0));
      [apply Rsum_single; [apply seq_NoDup|apply in_seq; lia]|]);
    intros b _; rewrite EP; cbn [place_eqb]; rewrite (Nat.eqb_sym b0 b); destruct (Nat.eqb_spec b b0) as [->|]; lra.
Qed.
End Totals.

Section StepBalance.
Variables (C : catchment) (W w : nat -> R) (dt : R).
Hypothesis Hdt : 0 < dt.
Hypothesis HC : sound C W w.
Notation n := (node_count C).
Notation B i := (nd_brick (node_at C i)).
Notation N := (ct_net C).

Record good (G : cstate) : Prop := {
  gd_regular : regular C G;
  gd_committed : committed (g_net G);
  gd_pos : forall b, solid N b -> 0 <= s_content (g_net G) b }.

Lemma fresh_good G : fresh C G -> good G.
Proof.
  intros (F1&F2&F3&F4). split; [|exact F3|exact F4]. split.
  - intros; apply F1.
  - intros; rewrite F1; lra.
  - intros i c (A&_&D&E). apply (F2 i c A D E).
  - intros i c (A&_&D&E). apply (F2 i c A D E).
  - intros i c (A&_&D&E). rewrite (Rsum_zero (from_node C (g_direct G) Now (InDirect i c))); [apply (F2 i c A D E)|].
    intros j _. apply from_zero. intros; apply F1.
  - intros i c (A&_&D&E). destruct (F2 i c A D E) as (H1&H2&H3&_). unfold level. lra.
Qed.

Definition same_ice (G G' : cstate) : Prop := forall i c, is_ice G' i c = is_ice G i c.

Lemma step_balance G inp solve G' : good G -> nonneg_input inp -> guarded C dt G inp -> is_solver C dt solve ->
  catchment_step C dt inp solve G = Ok G' ->
  good G' /\ same_ice G G' /\
  Rabs (in_catchment C W w G' - (in_catchment C W w G + fallen C W w G inp + from_ice C W w G' - into_ice C W w G' - discharge C G' - evaporated C W w G'))
  <= catchment_tolerance C W w dt.
Proof.
  intros [Hreg Hcm Hpos] Hin Hgd Hsol H. unfold catchment_step in H. apply bind_ok in H. destruct H as (g & Hg & H).
  apply bind_ok in H. destruct H as (s & Hs & H). injection H as <-.
  destruct (phase_inv C W w dt Hdt HC inp G Hin Hgd Hreg n (Nat.le_refl _) g Hg) as (rel & I).
  assert (Hice : same_ice G (mkCS g s)) by (intros i c; unfold is_ice; cbn [g_direct]; apply (iv_kind _ _ _ _ _ _ I)).
  assert (Hfe : forall i c, finite C (mkCS g s) i c -> finite C G i c).
  { intros i c (A1&A2&A3&A4). rewrite Hice in A4. repeat split; assumption. }
  assert (Hap : forall wy q, 0 <= arrives C g wy q).
  { intros. apply Rsum_nonneg. intros i Hi. apply in_seq in Hi. apply from_nonneg. intros k Hk. apply (iv_pos _ _ _ _ _ _ I); [lia|exact Hk]. }
  assert (He : nonneg_external (solver_inputs C inp g)).
  { intros b. cbn. pose proof (proj2 Hin b). pose proof (Hap AsStatic (InStorage b)). pose proof (Hap Plain (InStorage b)). pose proof (Hap Now (InStorage b)). lra. }
  destruct (step_closes N dt (solver_inputs C inp g) Hdt (sd_wf _ _ _ HC) (sd_plain _ _ _ HC) (sd_forward _ _ _ HC) (sd_caps _ _ _ HC) He
    (g_net G) s Hcm Hpos (Hsol _ _ _ Hs)) as (nrel & Hcl).
  split; [|split; [exact Hice|]].
  { split; cbn [g_net].
    - split; cbn [g_direct].
      + intros i k Hn. rewrite (iv_amt _ _ _ _ _ _ I) by auto. apply (rg_null _ _ Hreg); exact Hn.
      + apply (iv_pos _ _ _ _ _ _ I).
      + intros i c Hf. rewrite (proj2 (iv_kind _ _ _ _ _ _ I i c)). apply (rg_neg _ _ Hreg). apply Hfe, Hf.
      + intros i c Hf. apply (iv_dyn _ _ _ _ _ _ I). apply Hfe, Hf.
      + intros i c Hf. apply (iv_done _ _ _ _ _ _ I); [apply Hfe, Hf|apply Hf].
      + intros i c Hf. apply (iv_books _ _ _ _ _ _ I); [apply Hfe, Hf|apply Hf].
    - apply (cl_committed _ _ _ _ _ _ Hcl).
    - intros b Hb. apply (closes_nonneg _ _ _ _ _ _ b Hcl Hb). }
  pose proof (RunFacts.step_balance N dt w Hdt (sd_wf _ _ _ HC) (sd_plain _ _ _ HC) (sd_weights _ _ _ HC) _ _ _ _ Hcl) as HN.
  (* volumes *)
  set (vol := fun i k => volume C W w i k (ds_amount (g i) k)).
  assert (HV : forall i k, (i < n)%nat -> (k < out_count C i)%nat -> vol i k = W i * (if nd_null (node_at C i) then 0 else rel i k)).
  { intros i k Hi Hk. unfold vol. destruct (nd_null (node_at C i)) eqn:En.
    - rewrite (iv_amt _ _ _ _ _ _ I) by auto. rewrite (rg_null _ _ Hreg) by exact En.
      unfold volume. destruct (d_tgt (conn_of C i k)); [lra| |]; destruct (nd_to (node_at C i) k); lra.
    - destruct (iv_rel _ _ _ _ _ _ I i k Hi En Hk) as (_&R1&_). unfold volume.
      destruct (d_tgt (conn_of C i k)) as [c0| |] eqn:Et.
      + pose proof (sd_inside _ _ _ HC i k c0 Hi Hk Et) as Hf. rewrite R1 by (left; lra). rewrite Hf. lra.
      + pose proof (sd_out _ _ _ HC i k Hi Hk ltac:(intros c; congruence)) as (_&Hf&Hm). specialize (Hf Et). rewrite R1 by auto.
        destruct (nd_to (node_at C i) k) as [j c|b| |].
        * destruct Hm as (_&_&E&_). rewrite E. ring.
        * destruct Hm as (_&E). rewrite E. ring.
        * rewrite Hm. ring.
        * rewrite Hm. ring.
      + pose proof (sd_out _ _ _ HC i k Hi Hk ltac:(intros c; congruence)) as (_&_&Hm). rewrite R1 by (right; congruence).
        destruct (nd_to (node_at C i) k) as [j c|b| |].
        * destruct Hm as (_&_&E&_). rewrite E. ring.
        * destruct Hm as (_&E). rewrite E. ring.
        * rewrite Hm. ring.
        * rewrite Hm. ring. }
  set (ice := is_ice G).
  (* the level each finite container should have *)
  set (D := fun i c => level (ds_cont (g_direct G i) c) + in_direct inp i c
      + all_outs C (fun i' k => if to_place C i' (InDirect i c) k then ds_amount (g i') k else 0)
      + Rsum (ds_amount (g i)) (dins (B i) c) - Rsum (rel i) (douts (B i) c)).
  assert (HD : forall i c, finite C G i c -> D i c - PRECISION <= level (ds_cont (g i) c) <= D i c).
  { intros i c Hf. destruct (iv_books _ _ _ _ _ _ I i c Hf (proj1 Hf)) as (_&HD). unfold due in HD.
    assert (E : due C inp G g rel n i c = D i c).
    { unfold due, D. rewrite <- arrives_any. unfold arrives at 3. fold (arrives C g Now (InDirect i c)). unfold arrives. lra. }
    unfold due in E. rewrite E in HD. exact HD. }
  (* sum *)
  set (SD := Rsum (fun i => W i * Rsum (fun c => if ice i c then 0 else D i c) (conts_of C i)) (seq 0 n)).
  assert (HS : SD - Rsum (fun i => W i * (INR (length (conts_of C i)) * PRECISION)) (seq 0 n)
     <= Rsum (fun i => W i * Rsum (fun c => if ice i c then 0 else level (ds_cont (g i) c)) (conts_of C i)) (seq 0 n) <= SD).
  { unfold SD. split.
    - rewrite <- Rsum_minus. apply Rsum_le. intros i Hi. apply in_seq in Hi. pose proof (sd_share _ _ _ HC i) as HW.
      destruct (nd_null (node_at C i)) eqn:En; [rewrite (sd_null _ _ _ HC i ltac:(lia) En); lra|].
      rewrite <- Rmult_minus_distr_l. apply Rmult_le_compat_l; [exact HW|]. rewrite <- Rsum_const, <- Rsum_minus.
      apply Rsum_le. intros c Hc. pose proof PRECISION_pos. destruct (ice i c) eqn:Ei; [lra|].
      pose proof (HD i c ltac:(repeat split; auto; lia)). lra.
    - apply Rsum_le. intros i Hi. apply in_seq in Hi. pose proof (sd_share _ _ _ HC i) as HW.
      destruct (nd_null (node_at C i)) eqn:En; [rewrite (sd_null _ _ _ HC i ltac:(lia) En); lra|].
      apply Rmult_le_compat_l; [exact HW|]. apply Rsum_le. intros c Hc. destruct (ice i c) eqn:Ei; [lra|].
      pose proof (HD i c ltac:(repeat split; auto; lia)). lra. }
  assert (ES : SD =
      Rsum (fun i => W i * Rsum (fun c => if ice i c then 0 else level (ds_cont (g_direct G i) c)) (conts_of C i)) (seq 0 n)
    + Rsum (fun i => W i * Rsum (fun c => if ice i c then 0 else in_direct inp i c) (conts_of C i)) (seq 0 n)
    + Rsum (fun j => W j * Rsum (fun c => if ice j c then 0 else all_outs C (fun i k => if to_place C i (InDirect j c) k then ds_amount (g i) k else 0)) (conts_of C j)) (seq 0 n)
    + Rsum (fun i => W i * Rsum (fun c => if ice i c then 0 else Rsum (fun k => ds_amount (g i) k) (dins (B i) c)) (conts_of C i)) (seq 0 n)
    - Rsum (fun i => W i * Rsum (fun c => if ice i c then 0 else Rsum (rel i) (douts (B i) c)) (conts_of C i)) (seq 0 n)).
  { unfold SD. rewrite <- !Rsum_plus, <- Rsum_minus. apply Rsum_ext_in. intros i _.
    rewrite <- !Rmult_plus_distr_l, <- Rmult_minus_distr_l. f_equal. rewrite <- !Rsum_plus, <- Rsum_minus.
    apply Rsum_ext_in. intros c _. unfold D. destruct (ice i c); [lra|]. change (fun k => ds_amount (g i) k) with (ds_amount (g i)). lra. }
  rewrite (reaches_direct C W w HC g ice), (reaches_inside C W w HC g ice) in ES.
  assert (EL : Rsum (fun i => W i * Rsum (fun c => if ice i c then 0 else Rsum (rel i) (douts (B i) c)) (conts_of C i)) (seq 0 n)
     = all_outs C vol - Rsum (fun i => Rsum (fun c => if ice i c then Rsum (vol i) (douts (B i) c) else 0) (conts_of C i)) (seq 0 n)).
  { rewrite <- (leaves C W w HC vol). rewrite <- Rsum_minus. apply Rsum_ext_in. intros i Hi. apply in_seq in Hi.
    rewrite <- Rsum_scal, <- Rsum_minus. apply Rsum_ext_in. intros c Hc. destruct (ice i c); [lra|].
    rewrite <- Rsum_scal, Rminus_0_r. apply Rsum_ext_in. intros k Hk.
    destruct (sd_valid _ _ _ HC i ltac:(lia)) as (HB&_).
    assert (Hk' : (k < out_count C i)%nat).
    { apply (dv_range _ HB). apply douts_in in Hk. destruct Hk as (p & Hp & _ & Hk). apply in_concat. exists (p_conns p). split; [apply in_map; assumption|assumption]. }
    rewrite HV by (auto; lia). destruct (nd_null (node_at C i)) eqn:En; [|lra]. rewrite (sd_null _ _ _ HC i ltac:(lia) En). lra. }
  (* entering the solver *)
  assert (EE : entering N w (solver_inputs C inp g) = Rsum (fun b => w b * in_net inp b) (brick_ids N)
     + all_outs C (fun i k => match d_tgt (conn_of C i k), nd_to (node_at C i) k with
      | Inside _, _ => 0 | _, InStorage b => w b * ds_amount (g i) k | _, _ => 0 end)).
  { rewrite <- (reaches_storage C W w HC g). unfold entering. rewrite <- Rsum_plus. apply Rsum_ext_in. intros b _.
    rewrite <- arrives_any. unfold external_in. cbn [solver_inputs e_seen e_hidden e_inst]. ring. }
  (* every flux goes somewhere *)
  assert (EV : all_outs C vol =
      all_outs C (fun i k => match d_tgt (conn_of C i k), nd_to (node_at C i) k with
        | Inside _, _ => 0 | _, InDirect j c => if ice j c then 0 else W j * ds_amount (g i) k | _, _ => 0 end)
    + all_outs C (fun i k => match d_tgt (conn_of C i k) with Inside c => if ice i c then 0 else W i * ds_amount (g i) k | _ => 0 end)
    + all_outs C (fun i k => match d_tgt (conn_of C i k), nd_to (node_at C i) k with
        | Inside _, _ => 0 | _, InStorage b => w b * ds_amount (g i) k | _, _ => 0 end)
    + into_ice C W w (mkCS g s)
    + all_outs C (fun i k => match d_tgt (conn_of C i k), nd_to (node_at C i) k with
        | Inside _, _ => 0 | _, AtOutlet => ds_amount (g i) k | _, _ => 0 end)
    + all_outs C (fun i k => match d_tgt (conn_of C i k), nd_to (node_at C i) k with
        | Inside _, _ => 0 | _, InAir => W i * ds_amount (g i) k | _, _ => 0 end)).
  { assert (EI : into_ice C W w (mkCS g s) = all_outs C (fun i k => if match d_tgt (conn_of C i k), nd_to (node_at C i) k with
         | Inside c, _ => ice i c | _, InDirect j c => ice j c | _, _ => false end then vol i k else 0)).
    { unfold into_ice. apply all_outs_ext. intros i k _ _. unfold vol. cbn [g_direct].
      destruct (d_tgt (conn_of C i k)); [rewrite Hice; reflexivity| |]; (destruct (nd_to (node_at C i) k); [rewrite Hice; reflexivity|reflexivity..]). }
    rewrite EI, <- !all_outs_plus. apply all_outs_ext. intros i k _ _. unfold vol, volume.
    destruct (d_tgt (conn_of C i k)) as [c| |].
    - destruct (ice i c); lra.
    - destruct (nd_to (node_at C i) k) as [j c|b| |]; [destruct (ice j c)|..]; lra.
    - destruct (nd_to (node_at C i) k) as [j c|b| |]; [destruct (ice j c)|..]; lra. }
  assert (EF : from_ice C W w (mkCS g s) = Rsum (fun i => Rsum (fun c => if ice i c then Rsum (vol i) (douts (B i) c) else 0) (conts_of C i)) (seq 0 n)).
  { unfold from_ice. apply Rsum_ext_in. intros i _. apply Rsum_ext_in. intros c _. rewrite Hice. reflexivity. }
  assert (EC : in_catchment C W w (mkCS g s) = Rsum (fun i => W i * Rsum (fun c => if ice i c then 0 else level (ds_cont (g i) c)) (conts_of C i)) (seq 0 n) + stored N w s).
  { unfold in_catchment. cbn [g_direct g_net]. f_equal. apply Rsum_ext_in. intros i _. f_equal. apply Rsum_ext_in. intros c _. rewrite Hice. reflexivity. }
  assert (EQ : discharge C (mkCS g s) + evaporated C W w (mkCS g s) =
      all_outs C (fun i k => match d_tgt (conn_of C i k), nd_to (node_at C i) k with
        | Inside _, _ => 0 | _, AtOutlet => ds_amount (g i) k | _, _ => 0 end)
    + all_outs C (fun i k => match d_tgt (conn_of C i k), nd_to (node_at C i) k with
        | Inside _, _ => 0 | _, InAir => W i * ds_amount (g i) k | _, _ => 0 end)
    + leaving N w s).
  { unfold discharge, evaporated. cbn [g_direct g_net].
    assert (E : leaving N w s = Rsum (fun k => match k_tgt (conn_at N k) with ToOutlet => s_amount s k | _ => 0 end) (conn_ids N)
      + Rsum (fun k => match k_tgt (conn_at N k) with ToAtmosphere => w (k_src (conn_at N k)) * s_amount s k | _ => 0 end) (conn_ids N)).
    { unfold leaving. rewrite <- Rsum_plus. apply Rsum_ext_in. intros k _. destruct (k_tgt (conn_at N k)); lra. }
    rewrite E. unfold all_outs, conn_of. lra. }
  unfold total_tolerance in HN. unfold catchment_tolerance, fallen. fold ice. unfold in_catchment at 2. fold ice.
  rewrite EC, EF. rewrite EE in HN. rewrite EL in ES.
  assert (HN2 : forall x y, Rabs x <= y -> - y <= x <= y).
  { intros x y Hx. unfold Rabs in Hx. destruct (Rcase_abs x); lra. }
  apply Rabs_le. apply HN2 in HN.
  set (tN := Rsum (fun b => w b * step_tolerance N dt b) (brick_ids N)) in *.
  lra.
Qed.
End StepBalance.

Lemma guarded_ice C dt G G' inp : same_ice G G' -> guarded C dt G inp -> guarded C dt G' inp.
Proof. intros Hi H j c H1 H2 H3 H4. apply (H j c H1 H2 H3). rewrite <- (Hi j c). exact H4. Qed.
Lemma fallen_ice C W w G G' inp : same_ice G G' -> fallen C W w G' inp = fallen C W w G inp.
Proof.
  intros H. unfold fallen. f_equal. apply Rsum_ext_in. intros i _. f_equal. apply Rsum_ext_in. intros c _. rewrite (H i c). reflexivity.
Qed.

Lemma crun_inv C W w dt : 0 < dt -> sound C W w -> forall l G, good C G ->
  (forall inp G', In (inp, G') l -> nonneg_input inp /\ guarded C dt G inp) -> crun C dt G l ->
  (forall inp G', In (inp, G') l -> good C G' /\ same_ice G G') /\
  Rabs (in_catchment C W w (cfinal G l)
        - (in_catchment C W w G + Rsum (fun x => fallen C W w G (fst x)) l + Rsum (fun x => from_ice C W w (snd x)) l - Rsum (fun x => into_ice C W w (snd x)) l
           - Rsum (fun x => discharge C (snd x)) l - Rsum (fun x => evaporated C W w (snd x)) l))
  <= INR (length l) * catchment_tolerance C W w dt.
Proof.
  intros Hdt HC. induction l as [|[inp G1] l IH]; intros G Hg Hin Hrun.
  - cbn. split; [tauto|]. rewrite Rminus_diag_eq, Rabs_R0 by lra. lra.
  - destruct Hrun as [(solve & Hsol & Hst) Hrun]. destruct (Hin inp G1 (or_introl eq_refl)) as (Hi&Hgd).
    destruct (step_balance C W w dt Hdt HC G inp solve G1 Hg Hi Hgd Hsol Hst) as (Hg1&Hice&Hb).
    destruct (IH G1 Hg1) as (I1&I2).
    + intros inp' G' Hx. destruct (Hin inp' G' (or_intror Hx)) as (A1&A2). split; [exact A1|]. exact (guarded_ice _ _ _ _ _ Hice A2).
    + exact Hrun.
    + split.
      * intros inp' G' [E|Hx]; [injection E as <- <-; auto|]. destruct (I1 inp' G' Hx) as (A1&A2). split; [exact A1|].
        intros i c. rewrite (A2 i c). apply Hice.
      * cbn [cfinal Rsum fst snd length]. rewrite S_INR.
        assert (EF : Rsum (fun x => fallen C W w G1 (fst x)) l = Rsum (fun x => fallen C W w G (fst x)) l).
        { apply Rsum_ext_in. intros x _. apply fallen_ice. exact Hice. }
        rewrite EF in I2.
        match goal with |- Rabs ?x <= _ =>
          match type of I2 with Rabs ?y <= _ =>
            match type of Hb with Rabs ?z <= _ => replace x with (y + z) by ring end end end.
        eapply Rle_trans; [apply Rabs_triang|]. lra.
Qed.

Lemma Rsum_pick (f : nat -> R) c0 l (v : R) : NoDup l -> In c0 l -> (forall c, In c l -> c <> c0 -> f c = 0) -> f c0 = v -> Rsum f l = v.
Proof.
  intros Hn Hi H0 Hv. rewrite (Rsum_ext_in _ (fun c => if Nat.eqb c c0 then v else 0)).
  - apply Rsum_single; assumption.
  - intros c Hc. destruct (Nat.eqb_spec c c0) as [->|]; auto.
Qed.

Lemma spread C W w (HC : sound C W w) units (parts : nat -> list nat) (amount A : nat -> R) ice0 c0 :
  (forall u, In u units -> NoDup (parts u) /\ Rsum W (parts u) = A u) ->
  (forall u i, In u units -> In i (parts u) -> (i < node_count C)%nat /\ In c0 (conts_of C i) /\ ice0 i c0 = false) ->
  Rsum (fun i => W i * Rsum (fun c => if ice0 i c then 0 else if Nat.eqb c c0 then Rsum (fun u => if mem i (parts u) then amount u else 0) units else 0) (conts_of C i))
    (seq 0 (node_count C)) = Rsum (fun u => A u * amount u) units.
Proof.
  intros Hp Hi.
  transitivity (Rsum (fun i => Rsum (fun u => if mem i (parts u) then W i * amount u else 0) units) (seq 0 (node_count C))).
  { apply Rsum_ext_in. intros i Hin. apply in_seq in Hin.
    rewrite (Rsum_ext_in (fun u => if mem i (parts u) then W i * amount u else 0) (fun u => W i * (if mem i (parts u) then amount u else 0))).
    2:{ intros u _. destruct (mem i (parts u)); lra. }
    rewrite Rsum_scal. f_equal.
    destruct (existsb (fun u => mem i (parts u)) units) eqn:E.
    - apply existsb_exists in E. destruct E as (u & Hu & Hm). apply mem_in in Hm. destruct (Hi u i Hu Hm) as (_&Hc&Hf).
      apply (Rsum_pick _ c0); [apply (sd_valid _ _ _ HC i ltac:(lia))|exact Hc| |].
      + intros c _ Hne. rewrite (proj2 (Nat.eqb_neq c c0) Hne). destruct (ice0 i c); reflexivity.
      + rewrite Hf, Nat.eqb_refl. reflexivity.
    - assert (Z : Rsum (fun u => if mem i (parts u) then amount u else 0) units = 0).
      { apply Rsum_zero. intros u Hu. destruct (mem i (parts u)) eqn:Em; [|reflexivity]. exfalso.
        assert (existsb (fun u => mem i (parts u)) units = true) by (apply existsb_exists; exists u; auto). congruence. }
      rewrite Z. apply Rsum_zero. intros c _. destruct (ice0 i c); [reflexivity|]. destruct (Nat.eqb c c0); reflexivity. }
  rewrite Rsum_swap. apply Rsum_ext_in. intros u Hu. destruct (Hp u Hu) as (Hn&<-).
  rewrite <- (Rsum_scal_r (amount u)), <- Rsum_filter_if. apply Rsum_perm.
  apply NoDup_Permutation; [apply NoDup_filter, seq_NoDup|exact Hn|]. intros i. rewrite filter_In, mem_in, in_seq. split; [tauto|].
  intros H. destruct (Hi u i Hu H) as (H1&_). split; [lia|exact H].
Qed.

Lemma fallen_precip C W w units A covers packs G rain snow inp : sound C W w -> watered C W units A covers packs G ->
  rain_and_snow units covers packs rain snow inp -> fallen C W w G inp = Rsum (fun u => A u * (rain u + snow u)) units.
Proof.
  intros HC [W1 W2 W3 W4] (R1&R2). unfold fallen.
  rewrite (Rsum_zero (fun b => w b * in_net inp b)) by (intros b _; rewrite R2; lra).
  rewrite (Rsum_ext_in _ (fun u => A u * rain u + A u * snow u)) with (l := units) by (intros; lra). rewrite Rsum_plus.
  rewrite <- (spread C W w HC units covers rain A (is_ice G) 0 W1 W3), <- (spread C W w HC units packs snow A (is_ice G) 1 W2 W4).
  rewrite <- Rsum_plus, Rplus_0_r. apply Rsum_ext_in. intros i _. rewrite <- Rmult_plus_distr_l. f_equal. rewrite <- Rsum_plus.
  apply Rsum_ext_in. intros c _. rewrite R1. destruct (is_ice G i c); [lra|]. destruct c as [|[|c]]; cbn [Nat.eqb]; lra.
Qed.
