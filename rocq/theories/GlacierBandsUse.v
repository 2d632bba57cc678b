(** Consequences of what a delta-h table on elevation bands says. *)
From Verif Require Import Base BaseFacts GlacierActions GlacierSpec GlacierFacts GlacierTables GlacierTablesSpec GlacierDeltaHFacts GlacierDeltaHLink GlacierBandsSpec.
Open Scope R_scope.

Section Use.
Variables (n : nat) (w : dh_width) (name : string) (shape : nat -> R) (p : list dh_line) (E : list R) (kept narrow : nat -> R -> R) (unmet : nat -> R) (T : gtable).
Hypothesis Hn : (0 < n)%nat.
Hypothesis Hp : forall l, In l p -> 0 < dl_area l /\ 0 < dl_thick l.
Hypothesis HE : elevations p E.
Hypothesis HT : bands_table n name p kept narrow T.
Hypothesis HL : melt_law w n shape p E kept narrow unmet.
Lemma bt_line j id : In j (lines_in p id) -> (j < length p)%nat /\ In (line p j) p.
Proof. intro H. unfold lines_in in H. apply filter_In in H. destruct H as (H & _). apply in_seq in H. split; [lia|apply nth_In; lia]. Qed.
Lemma bt_total r : (r < n)%nat -> row_volume T r = ice_kept p (kept r) (seq 0 (length p)).
Proof.
  intro Hr. destruct HT as (_ & _ & Nd & Hu & _ & _ & _ & _ & Hv). unfold row_volume.
  rewrite (Rsum_ext_in _ (fun i => ice_kept p (kept r) (lines_in p (unit_of T i)))) by (intros i Hi; apply (Hv r i Hr Hi)).
  rewrite <- (Rsum_map (unit_of T) (fun id => ice_kept p (kept r) (lines_in p id))). rewrite columns_units.
  unfold ice_kept, lines_in. apply (sum_by_key (fun j => dl_area (line p j) * dl_thick (line p j) * kept r (dl_elev (line p j))) (fun j => dl_unit (line p j))); [exact Nd|].
  intros j Hj. apply in_seq in Hj. apply Hu. exists (line p j). split; [apply nth_In; lia|reflexivity].
Qed.
Lemma bt_unmet r : (r < n)%nat -> 0 <= unmet r /\ row_volume T r = (1 - INR r / INR n) * row_volume T 0 + unmet r.
Proof.
  assert (Np : 0 < INR n) by (apply lt_0_INR; exact Hn). destruct HL as (U0 & Law). induction r as [|r IH]; intro Hr.
  - rewrite U0. cbn [INR]. split; [lra|]. unfold Rdiv. ring.
  - destruct (IH ltac:(lia)) as (I1 & I2). destruct (Law r Hr) as (Up & melt & M0 & M1 & _ & M3). split; [exact Up|]. rewrite <- (bt_total 0 Hn) in M1. rewrite <- (bt_total r) in M3 by lia. rewrite <- (bt_total (S r) Hr) in M3.
    rewrite (Rsum_ext_in _ (fun b => melt * (extent_kept p (in_use w (kept r) (narrow r)) (lines_at p (nth b E 0)) * shape b))) in M3 by (intros; ring). rewrite Rsum_scal, M1 in M3.
    assert ((1 - INR (S r) / INR n) * row_volume T 0 = (1 - INR r / INR n) * row_volume T 0 - row_volume T 0 / INR n) by (rewrite S_INR; field; lra). lra.
Qed.
Lemma bt_entries r i : (r < n)%nat -> In i (columns T) -> 0 <= gt_area T r i /\ 0 <= gt_volume T r i /\ (gt_area T r i = 0 <-> gt_volume T r i = 0).
Proof.
  intros Hr Hi. destruct HT as (_ & _ & _ & _ & _ & _ & _ & Hk & Hv). destruct (Hv r i Hr Hi) as (-> & ->). set (l := lines_in p (unit_of T i)).
  assert (Q : forall j, In j l -> let e := dl_elev (line p j) in 0 < dl_area (line p j) /\ 0 < dl_thick (line p j) /\ 0 <= kept r e /\ 0 <= narrow r e /\ (kept r e = 0 <-> narrow r e = 0)).
  { intros j Hj. apply bt_line in Hj. destruct Hj as (_ & Hj). cbn zeta. destruct (Hp _ Hj) as (A & B). specialize (Hk r _ Hr Hj). cbn zeta in Hk. tauto. }
  assert (Z : forall f : nat -> R, (forall j, In j l -> 0 <= f j) -> Rsum f l = 0 -> forall j, In j l -> f j = 0).
  { intros f Hf Hz j Hj. pose proof (Rsum_elem_le f l j Hf Hj). specialize (Hf j Hj). lra. }
  assert (Pa : forall j, In j l -> 0 <= dl_area (line p j) * narrow r (dl_elev (line p j))) by (intros j Hj; destruct (Q j Hj) as (A & B & C & D & _); apply Rmult_le_pos; lra).
  assert (Pv : forall j, In j l -> 0 <= dl_area (line p j) * dl_thick (line p j) * kept r (dl_elev (line p j))) by (intros j Hj; destruct (Q j Hj) as (A & B & C & D & _); apply Rmult_le_pos; [apply Rmult_le_pos; lra|lra]).
  split; [apply Rsum_nonneg; exact Pa|]. split; [apply Rsum_nonneg; exact Pv|]. split; intro Hz; apply Rsum_zero; intros j Hj; destruct (Q j Hj) as (A & B & C & D & F).
  - specialize (Z _ Pa Hz j Hj). cbn beta in Z. apply Rmult_integral in Z. destruct Z as [Z|Z]; [lra|]. apply F in Z. rewrite Z. ring.
  - specialize (Z _ Pv Hz j Hj). cbn beta in Z. apply Rmult_integral in Z. destruct Z as [Z|Z]; [apply Rmult_integral in Z; lra|]. apply F in Z. rewrite Z. ring.
Qed.
Lemma bt_volume_shrinks r i : (r < n)%nat -> In i (columns T) -> gt_volume T (S r) i <= gt_volume T r i.
Proof.
  intros Hr Hi. destruct (bt_entries r i Hr Hi) as (_ & V & _). destruct HT as (_ & _ & _ & _ & Hz & _ & Hm & _ & Hv). destruct (Nat.eq_dec (S r) n) as [->|Ne]; [destruct (Hz i) as (_ & ->); exact V|].
  destruct (Hv r i Hr Hi) as (_ & ->). destruct (Hv (S r) i ltac:(lia) Hi) as (_ & ->). apply Rsum_le. intros j Hj. apply bt_line in Hj. destruct Hj as (_ & Hj). destruct (Hp _ Hj) as (A & B).
  apply Rmult_le_compat_l; [apply Rmult_le_pos; lra|]. apply Hm; [lia|exact Hj].
Qed.
Lemma bt_area_shrinks r i : width_law w n p kept narrow -> w <> WidthInitial -> (r < n)%nat -> In i (columns T) -> gt_area T (S r) i <= gt_area T r i.
Proof.
  intros HW Hw Hr Hi. destruct (bt_entries r i Hr Hi) as (V & _). destruct HT as (_ & _ & _ & _ & Hz & _ & Hm & Hk & Hv). destruct (Nat.eq_dec (S r) n) as [->|Ne]; [destruct (Hz i) as (-> & _); exact V|].
  assert (Sq : forall r l, (r < n)%nat -> In l p -> narrow r (dl_elev l) = sqrt (kept r (dl_elev l))) by (unfold width_law in HW; destruct w; [congruence|exact HW|exact HW]).
  destruct (Hv r i Hr Hi) as (-> & _). destruct (Hv (S r) i ltac:(lia) Hi) as (-> & _). apply Rsum_le. intros j Hj. apply bt_line in Hj. destruct Hj as (_ & Hj). destruct (Hp _ Hj) as (A & B).
  apply Rmult_le_compat_l; [lra|]. rewrite (Sq (S r)), (Sq r) by (lia || exact Hj). apply sqrt_le_1_alt. apply Hm; [lia|exact Hj].
Qed.
Lemma bt_first r : r = 0%nat -> forall i, In i (columns T) -> gt_area T r i = Rsum (fun j => dl_area (line p j)) (lines_in p (unit_of T i)) /\
  gt_volume T r i = Rsum (fun j => dl_area (line p j) * dl_thick (line p j)) (lines_in p (unit_of T i)).
Proof.
  intros -> i Hi. destruct HT as (_ & _ & _ & _ & _ & H0 & _ & _ & Hv). destruct (Hv 0%nat i Hn Hi) as (-> & ->). unfold extent_kept, ice_kept. split; apply Rsum_ext_in; intros j _; destruct (H0 (dl_elev (line p j))) as (A & B); rewrite ?A, ?B; ring.
Qed.
End Use.
