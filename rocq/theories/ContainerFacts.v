(** Lemmas about the container model. *)
From Verif Require Import Base BaseFacts Container.

Lemma mem_in k l : mem k l = true <-> In k l.
Proof.
  unfold mem; rewrite existsb_exists; split.
  - intros (x & Hx & E); apply Nat.eqb_eq in E; subst; exact Hx.
  - intros H; exists k; split; [exact H|apply Nat.eqb_refl].
Qed.
Lemma mem_not_in k l : mem k l = false <-> ~ In k l.
Proof. rewrite <- mem_in; destruct (mem k l); split; intros; congruence || easy. Qed.

Lemma clamp_in r l k : In k l -> clamp_rates r l k = Rmax 0 (r k).
Proof.
  intros H; unfold clamp_rates. apply mem_in in H; rewrite H.
  destruct (Rltb_spec (r k) 0); [rewrite Rmax_left|rewrite Rmax_right]; lra.
Qed.
Lemma clamp_out r l k : ~ In k l -> clamp_rates r l k = r k.
Proof. intros H; unfold clamp_rates. apply mem_not_in in H; rewrite H; reflexivity. Qed.
Lemma clamp_nonneg r l k : 0 <= r k -> clamp_rates r l k = r k.
Proof.
  intros H; unfold clamp_rates; destruct (mem k l); [|reflexivity].
  destruct (Rltb_spec (r k) 0); lra.
Qed.

(** The rates after the two clamping loops. *)
Definition clamped (rates : nat -> R) (o i : list nat) : nat -> R := clamp_rates (clamp_rates rates o) i.

Lemma clamped_nonneg r o i k : In k o \/ In k i -> 0 <= clamped r o i k.
Proof.
  intros H; unfold clamped.
  destruct (in_dec Nat.eq_dec k i) as [Hi|Hi].
  - rewrite clamp_in by auto. apply Rmax_l.
  - rewrite clamp_out by auto. destruct H as [H|H]; [|tauto].
    rewrite clamp_in by auto. apply Rmax_l.
Qed.
Lemma clamped_other r o i k : ~ In k o -> ~ In k i -> clamped r o i k = r k.
Proof. intros; unfold clamped; rewrite !clamp_out; auto. Qed.
Lemma clamped_id r o i k : 0 <= r k -> clamped r o i k = r k.
Proof. intros; unfold clamped; rewrite !clamp_nonneg; auto. rewrite clamp_nonneg; auto. Qed.
Lemma clamped_max r o i k : In k o \/ In k i -> clamped r o i k = Rmax 0 (r k).
Proof.
  intros H. destruct (Rle_dec 0 (r k)) as [Hr|Hr].
  - rewrite clamped_id, Rmax_right; auto.
  - rewrite Rmax_left by lra. unfold clamped.
    destruct (in_dec Nat.eq_dec k i) as [Hi|Hi].
    + rewrite clamp_in by auto.
      destruct (in_dec Nat.eq_dec k o) as [Ho|Ho].
      * rewrite clamp_in by auto. rewrite (Rmax_left 0 (r k)) by lra. apply Rmax_left; lra.
      * rewrite clamp_out by auto. apply Rmax_left; lra.
    + rewrite clamp_out by auto. destruct H as [H|H]; [|tauto].
      rewrite clamp_in by auto. apply Rmax_left; lra.
Qed.

Lemma Rsum_upd r k v l :
  NoDup l -> In k l -> Rsum (upd r k v) l = Rsum r l - r k + v.
Proof.
  induction l as [|a l IH]; simpl; intros Hnd Hin; [tauto|].
  inversion Hnd as [|? ? Hna Hnd']; subst.
  destruct Hin as [->|Hin].
  - rewrite upd_same. rewrite (Rsum_ext_in _ r); [lra|].
    intros x Hx; apply upd_other; intros ->; tauto.
  - rewrite IH by auto. rewrite upd_other; [lra|]. intros ->; tauto.
Qed.
Lemma Rsum_upd_notin r k v l : ~ In k l -> Rsum (upd r k v) l = Rsum r l.
Proof. intros H; apply Rsum_ext_in; intros x Hx; apply upd_other; intros ->; tauto. Qed.

(** Limiting the outgoing rates. *)
Section LimitOut.
Variables (dt content stat inp : R) (o : list nat) (r : nat -> R).
Hypothesis Hdt : 0 < dt.
Hypothesis Hr : forall k, In k o -> 0 <= r k.
Hypothesis Hinp : 0 <= inp.
Hypothesis Havail : 0 <= content + stat.
Let out := Rsum r o.
Let change := inp - out.
Let diff := (content + stat + change * dt) / dt.
Hypothesis Hneg : content + stat + change * dt < 0.

Lemma lo_diff_eq : diff = (content + stat) / dt + inp - out.
Proof. unfold diff, change; field; lra. Qed.
Lemma lo_div_nonneg : 0 <= (content + stat) / dt.
Proof. apply Rmult_le_pos; [exact Havail|]. left; apply Rinv_0_lt_compat; exact Hdt. Qed.
Lemma lo_diff_neg : diff < 0.
Proof. unfold diff. apply Rmult_lt_reg_r with dt; [exact Hdt|]. field_simplify; lra. Qed.
Lemma lo_out_pos : 0 < out.
Proof.
  pose proof lo_diff_neg as H. rewrite lo_diff_eq in H. pose proof lo_div_nonneg. lra.
Qed.
Let fct := 1 + diff / out.
Lemma lo_fct : 0 <= fct < 1.
Proof.
  pose proof lo_out_pos as Ho. pose proof lo_diff_neg as Hd. pose proof lo_div_nonneg as Hc.
  unfold fct; split.
  - assert (E : 1 + diff / out = ((content + stat) / dt + inp) / out).
    { rewrite lo_diff_eq. field; lra. }
    rewrite E. apply Rmult_le_pos; [lra|]. left; apply Rinv_0_lt_compat; lra.
  - assert (diff / out < 0); [|lra]. unfold Rdiv. apply Ropp_lt_cancel.
    rewrite Ropp_0, <- Ropp_mult_distr_l_reverse. apply Rmult_lt_0_compat; [lra|].
    apply Rinv_0_lt_compat; lra.
Qed.

Let r' := limit_outgoing dt content stat inp out o r.

Lemma lo_other k : ~ In k o -> r' k = r k.
Proof. intros H; unfold r', limit_outgoing. apply mem_not_in in H; rewrite H; reflexivity. Qed.

Lemma lo_cases k : In k o ->
  (r k <= EPSILON_D /\ r' k = r k) \/
  (EPSILON_D < r k /\ Rabs (diff - change) <= PRECISION /\ r' k = 0) \/
  (EPSILON_D < r k /\ PRECISION < Rabs (diff - change) /\ r' k = r k * fct).
Proof.
  intros H. pose proof (Hr k H) as Hk. unfold r', limit_outgoing.
  apply mem_in in H; rewrite H. unfold NearlyZero.
  destruct (Rleb_spec (Rabs (r k)) EPSILON_D) as [E|E]; rewrite Rabs_right in E by lra.
  - left; split; auto.
  - right. unfold NearlyEqual.
    fold change diff. destruct (Rleb_spec (Rabs (diff - change)) PRECISION) as [F|F].
    + left; auto.
    + right; split; [lra|]. split; [lra|]. rewrite Rabs_right.
      * unfold fct. field. pose proof lo_out_pos; lra.
      * apply Rle_ge. apply Rmult_le_pos; [lra|]. left; apply Rinv_0_lt_compat; apply lo_out_pos.
Qed.

Lemma lo_bounds k : In k o -> 0 <= r' k <= r k.
Proof.
  intros H. pose proof (Hr k H). pose proof lo_fct.
  destruct (lo_cases k H) as [(?&->)|[(?&?&->)|(?&?&->)]]; nra.
Qed.

Lemma lo_upper k : In k o -> r' k <= r k * fct + EPSILON_D.
Proof.
  intros H. pose proof (Hr k H). pose proof lo_fct. pose proof EPSILON_D_pos.
  destruct (lo_cases k H) as [(?&->)|[(?&?&->)|(?&?&->)]]; nra.
Qed.

Lemma lo_feasible :
  - (INR (length o) * EPSILON_D) * dt <= content + stat + (inp - Rsum r' o) * dt.
Proof.
  assert (Hs : Rsum r' o <= Rsum (fun k => r k * fct + EPSILON_D) o).
  { apply Rsum_le; intros k Hk; apply lo_upper; exact Hk. }
  rewrite Rsum_plus, Rsum_scal_r, Rsum_const in Hs. fold out in Hs.
  assert (E : out * fct = out + diff). { unfold fct; field. pose proof lo_out_pos; lra. }
  rewrite E in Hs.
  assert (E2 : content + stat + (inp - (out + diff)) * dt = 0).
  { unfold diff, change; field; lra. }
  nra.
Qed.

(** Exact emptying when nothing is skipped. *)
Lemma lo_exact :
  (forall k, In k o -> EPSILON_D < r k) -> PRECISION * dt < content + stat ->
  content + stat + (inp - Rsum r' o) * dt = 0.
Proof.
  intros Hbig Hc.
  assert (Hdc : diff - change = (content + stat) / dt).
  { unfold diff, change; field; lra. }
  assert (Hgt : PRECISION < (content + stat) / dt).
  { apply Rmult_lt_reg_r with dt; [exact Hdt|]. replace ((content + stat) / dt * dt) with (content + stat) by (field; lra). lra. }
  assert (Hs : Rsum r' o = Rsum (fun k => r k * fct) o).
  { apply Rsum_ext_in; intros k Hk.
    destruct (lo_cases k Hk) as [(H1&_)|[(_&H1&_)|(_&_&H1)]].
    - specialize (Hbig k Hk); lra.
    - rewrite Hdc in H1. rewrite Rabs_right in H1; pose proof PRECISION_pos; lra.
    - exact H1. }
  rewrite Hs, Rsum_scal_r. fold out.
  assert (E : out * fct = out + diff). { unfold fct; field. pose proof lo_out_pos; lra. }
  rewrite E. unfold diff, change; field; lra.
Qed.
(** Proportionality. *)
Lemma lo_proportional :
  (forall k, In k o -> EPSILON_D < r k) -> PRECISION * dt < content + stat ->
  forall k, In k o -> r' k = r k * (((content + stat) / dt + inp) / out).
Proof.
  intros Hbig Hc k Hk.
  assert (Hdc : diff - change = (content + stat) / dt).
  { unfold diff, change; field; lra. }
  assert (Hgt : PRECISION < (content + stat) / dt).
  { apply Rmult_lt_reg_r with dt; [exact Hdt|]. replace ((content + stat) / dt * dt) with (content + stat) by (field; lra). lra. }
  destruct (lo_cases k Hk) as [(H1&_)|[(_&H1&_)|(_&_&H1)]].
  - specialize (Hbig k Hk); lra.
  - rewrite Hdc in H1. rewrite Rabs_right in H1; pose proof PRECISION_pos; lra.
  - rewrite H1. f_equal. unfold fct. rewrite lo_diff_eq. field. pose proof lo_out_pos; lra.
Qed.
End LimitOut.

(** Limiting the incoming rates. *)
Section LimitIn.
Variables (diff inp : R) (i : list nat) (r : nat -> R).
Hypothesis Hr : forall k, In k i -> 0 <= r k.
Hypothesis Hdiff : 0 <= diff <= inp.
Hypothesis Hinp : inp = Rsum r i.
Let r' := limit_incoming diff inp i r.
Lemma li_other k : ~ In k i -> r' k = r k.
Proof. intros H; unfold r', limit_incoming. apply mem_not_in in H; rewrite H; reflexivity. Qed.
Lemma li_cases k : In k i ->
  (r k <= EPSILON_D /\ r' k = r k) \/
  (EPSILON_D < r k /\ 0 < inp /\ r' k = r k - diff * (r k / inp)).
Proof.
  intros H. pose proof (Hr k H) as Hk. pose proof (proj2 (mem_in k i) H) as Hm.
  unfold r', limit_incoming. rewrite Hm. unfold NearlyZero.
  destruct (Rleb_spec (Rabs (r k)) EPSILON_D) as [E|E]; rewrite Rabs_right in E by lra.
  - left; auto.
  - right. assert (0 < inp).
    { rewrite Hinp. pose proof (Rsum_elem_le r i k Hr H). pose proof EPSILON_D_pos. lra. }
    split; [lra|]. split; [lra|]. rewrite Rabs_right; [reflexivity|].
    apply Rle_ge. apply Rmult_le_pos; [lra|]. left; apply Rinv_0_lt_compat; lra.
Qed.
Lemma li_bounds k : In k i -> 0 <= r' k <= r k.
Proof.
  intros H. pose proof (Hr k H).
  destruct (li_cases k H) as [(?&->)|(?&Hp&->)]; [lra|].
  assert (0 <= r k / inp).
  { apply Rmult_le_pos; [lra|]. left; apply Rinv_0_lt_compat; lra. }
  assert (inp * (r k / inp) = r k) by (field; lra). nra.
Qed.
Lemma li_lower k : In k i -> r k - diff * (r k / inp) <= r' k.
Proof.
  intros H. pose proof (Hr k H).
  destruct (li_cases k H) as [(?&->)|(?&Hp&->)]; [|lra].
  destruct (Rle_lt_or_eq_dec 0 inp ltac:(lra)) as [Hp|Hp].
  - assert (0 <= r k / inp).
    { apply Rmult_le_pos; [lra|]. left; apply Rinv_0_lt_compat; lra. } nra.
  - assert (diff = 0) by lra. nra.
Qed.
Lemma li_sum_lower : inp - diff <= Rsum r' i.
Proof.
  assert (Hs : Rsum (fun k => r k - diff * (r k / inp)) i <= Rsum r' i)
    by (apply Rsum_le; intros k Hk; apply li_lower; exact Hk).
  rewrite Rsum_minus, Rsum_scal, <- Hinp in Hs.
  destruct (Rle_lt_or_eq_dec 0 inp ltac:(lra)) as [Hp|Hp].
  - assert (E : Rsum (fun x => r x / inp) i = 1).
    { unfold Rdiv. rewrite Rsum_scal_r, <- Hinp. field; lra. }
    rewrite E in Hs. lra.
  - assert (diff = 0) by lra. nra.
Qed.
End LimitIn.

(** Characterisation of one call of the limiter. *)
Section Limiter.
Variables (dt content stat : R) (cap : option R) (ov : option nat) (an : bool)
          (o i : list nat) (r r' : nat -> R).
Hypothesis Hdt : 0 < dt.
Hypothesis Hno : NoDup o.
Hypothesis Hdisj : forall k, In k o -> ~ In k i.
Hypothesis Hov : forall k, ov = Some k -> In k o.
Hypothesis Havail : an = false -> 0 <= content + stat.
Hypothesis Hcap : forall c, cap = Some c -> 0 <= c.
Hypothesis Hok : apply_constraints dt content stat cap ov an o i r = Ok r'.

Let rc := clamped r o i.
Let inp := Rsum rc i.
Let out := Rsum rc o.
Let level := content + stat + (inp - out) * dt.

Lemma ac_rc_o k : In k o -> 0 <= rc k.
Proof. intros; apply clamped_nonneg; auto. Qed.
Lemma ac_rc_i k : In k i -> 0 <= rc k.
Proof. intros; apply clamped_nonneg; auto. Qed.
Lemma ac_inp : 0 <= inp.
Proof. apply Rsum_nonneg; apply ac_rc_i. Qed.
Lemma ac_out : 0 <= out.
Proof. apply Rsum_nonneg; apply ac_rc_o. Qed.

(** The three ways the limiter can end. *)
Inductive ac_case : Prop :=
| ac_feasible : r' = rc -> (an = true \/ 0 <= level \/ 0 <= inp - out) ->
    (forall c, cap = Some c -> level <= c) -> ac_case
| ac_limited : an = false -> inp - out < 0 -> level < 0 ->
    r' = limit_outgoing dt content stat inp out o rc -> ac_case
| ac_overflow c k : cap = Some c -> ov = Some k -> c < level ->
    r' = upd rc k ((level - c) / dt) -> ac_case
| ac_reduced c : cap = Some c -> ov = None -> c < level -> content + stat <= c ->
    r' = limit_incoming ((level - c) / dt) inp i rc -> ac_case.

Lemma ac_cases : ac_case.
Proof.
  pose proof Hok as H. unfold apply_constraints in H.
  destruct (outgoing_too_high r o); [discriminate|]. cbv zeta in H.
  fold (clamped r o i) in H. fold rc in H. fold inp out in H. fold level in H.
  destruct an eqn:Ean; cbn [negb andb] in H.
  - destruct cap as [c|] eqn:Ecap.
    + destruct (Rltb_spec c level) as [Hlt|Hge].
      * destruct ov as [k|] eqn:Eov.
        -- injection H as <-. apply (ac_overflow c k); auto.
        -- destruct (Rltb_spec c (content + stat)); [discriminate|]. injection H as <-.
           apply (ac_reduced c); auto.
      * injection H as <-. apply ac_feasible; auto. intros c' Hc'; assert (c = c') by congruence; subst c'; lra.
    + injection H as <-. apply ac_feasible; auto. intros; congruence.
  - destruct (Rltb_spec (inp - out) 0) as [Hc0|Hc0]; cbn [andb] in H.
    + destruct (Rltb_spec level 0) as [Hl0|Hl0].
      * assert (E : r' = limit_outgoing dt content stat inp out o rc).
        { destruct cap as [c|] eqn:Ecap.
          - pose proof (Hcap c eq_refl). destruct (Rltb_spec c level); [lra|]. injection H as <-; reflexivity.
          - injection H as <-; reflexivity. }
        apply ac_limited; auto.
      * destruct cap as [c|] eqn:Ecap.
        -- destruct (Rltb_spec c level) as [Hlt|Hge].
           ++ destruct ov as [k|] eqn:Eov.
              ** injection H as <-. apply (ac_overflow c k); auto.
              ** destruct (Rltb_spec c (content + stat)); [discriminate|]. injection H as <-.
                 apply (ac_reduced c); auto.
           ++ injection H as <-. apply ac_feasible; auto. intros c' Hc'; assert (c = c') by congruence; subst c'; lra.
        -- injection H as <-. apply ac_feasible; auto. intros; congruence.
    + destruct cap as [c|] eqn:Ecap.
      * destruct (Rltb_spec c level) as [Hlt|Hge].
        -- destruct ov as [k|] eqn:Eov.
           ++ injection H as <-. apply (ac_overflow c k); auto.
           ++ destruct (Rltb_spec c (content + stat)); [discriminate|]. injection H as <-.
              apply (ac_reduced c); auto.
        -- injection H as <-. apply ac_feasible; auto. intros c' Hc'; assert (c = c') by congruence; subst c'; lra.
      * injection H as <-. apply ac_feasible; auto. intros; congruence.
Qed.

Lemma ac_level_eq : level = content + stat + (inp - out) * dt.
Proof. reflexivity. Qed.

Lemma ac_reduced_diff c : cap = Some c -> c < level -> content + stat <= c ->
  0 <= (level - c) / dt <= inp.
Proof.
  intros Ec Hlt Hs. split.
  - apply Rmult_le_pos; [lra|]. left; apply Rinv_0_lt_compat; lra.
  - apply Rmult_le_reg_r with dt; [exact Hdt|].
    replace ((level - c) / dt * dt) with (level - c) by (field; lra).
    unfold level. pose proof ac_out. nra.
Qed.

(** Rates outside the container are untouched. *)
Lemma ac_frame k : ~ In k o -> ~ In k i -> r' k = r k.
Proof.
  intros Ho Hi. assert (E : rc k = r k) by (apply clamped_other; auto).
  destruct ac_cases as [Er _ _|_ _ _ Er|c k' Ec Eo _ Er|c Ec Eo _ _ Er]; rewrite Er.
  - exact E.
  - etransitivity; [apply (lo_other dt content stat inp o rc); auto|exact E].
  - rewrite upd_other; auto. intros ->. apply Ho, Hov, Eo.
  - rewrite li_other; auto.
Qed.

(** Incoming rates are non-negative and never raised. *)
Lemma ac_in k : In k i -> 0 <= r' k <= rc k.
Proof.
  intros Hi. pose proof (ac_rc_i k Hi).
  destruct ac_cases as [Er _ _|_ _ _ Er|c k' Ec Eo _ Er|c Ec Eo Hlt Hs Er]; rewrite Er.
  - lra.
  - unfold out. rewrite (lo_other dt content stat inp o rc); [lra|]. intros Ho; apply (Hdisj k Ho Hi).
  - rewrite upd_other; [lra|]. intros ->. apply (Hdisj k' (Hov k' Eo) Hi).
  - apply (li_bounds _ _ _ _ ac_rc_i (ac_reduced_diff c Ec Hlt Hs) eq_refl k Hi).
Qed.

(** Outgoing rates other than the overflow are non-negative and never raised. *)
Lemma ac_out_le k : In k o -> ov <> Some k -> 0 <= r' k <= rc k.
Proof.
  intros Ho Hk. pose proof (ac_rc_o k Ho).
  destruct ac_cases as [Er _ _|Ha _ Hl Er|c k' Ec Eo _ Er|c Ec Eo Hlt Hs Er]; rewrite Er.
  - lra.
  - apply (lo_bounds dt content stat inp o rc Hdt ac_rc_o ac_inp (Havail Ha) Hl k Ho).
  - rewrite upd_other; [lra|]. intros ->; auto.
  - rewrite li_other; [lra|]. apply Hdisj; exact Ho.
Qed.

Lemma ac_ov_nonneg k : In k o -> 0 <= r' k.
Proof.
  intros Ho. pose proof (ac_rc_o k Ho).
  destruct ac_cases as [Er _ _|Ha _ Hl Er|c k' Ec Eo Hlt Er|c Ec Eo Hlt Hs Er]; rewrite Er.
  - lra.
  - apply (lo_bounds dt content stat inp o rc Hdt ac_rc_o ac_inp (Havail Ha) Hl k Ho).
  - destruct (Nat.eq_dec k k') as [->|Hne].
    + rewrite upd_same. apply Rmult_le_pos; [lra|]. left; apply Rinv_0_lt_compat; lra.
    + rewrite upd_other by auto. lra.
  - rewrite li_other; [lra|]. apply Hdisj; exact Ho.
Qed.

(** The level reached at the end of the step is not negative (up to the skipped tiny rates). *)
Lemma ac_nonneg : an = false ->
  - (INR (length o) * EPSILON_D) * dt <= content + stat + (Rsum r' i - Rsum r' o) * dt.
Proof.
  intros Han. assert (Hn : 0 <= INR (length o) * EPSILON_D * dt).
  { repeat apply Rmult_le_pos; [apply pos_INR|left; apply EPSILON_D_pos|lra]. }
  destruct ac_cases as [Er Hf _|Ha _ Hl Er|c k' Ec Eo Hlt Er|c Ec Eo Hlt Hs Er]; rewrite Er.
  - fold inp out. pose proof (Havail Han). destruct Hf as [Hf|[Hf|Hf]]; [congruence|unfold level in Hf; lra|nra].
  - assert (E : Rsum (limit_outgoing dt content stat inp out o rc) i = inp).
    { apply Rsum_ext_in; intros k Hk. apply lo_other. intros Ho; apply (Hdisj k Ho Hk). }
    rewrite E.
    apply (lo_feasible dt content stat inp o rc Hdt ac_rc_o ac_inp (Havail Ha) Hl).
  - rewrite (Rsum_upd _ _ _ o) by (first [exact Hno|apply Hov; assumption]). rewrite Rsum_upd_notin.
    2:{ intros Hi; apply (Hdisj k' (Hov k' Eo) Hi). }
    fold inp out. pose proof (Hcap c Ec). pose proof (ac_rc_o k' (Hov k' Eo)).
    assert (E : content + stat + (inp - (out - rc k' + (level - c) / dt)) * dt = c + rc k' * dt).
    { unfold level; field; lra. }
    rewrite E. assert (0 <= rc k' * dt) by (apply Rmult_le_pos; lra). lra.
  - assert (E : Rsum (limit_incoming ((level - c) / dt) inp i rc) o = out).
    { apply Rsum_ext_in; intros k Hk. apply li_other. apply Hdisj; exact Hk. }
    rewrite E.
    pose proof (li_sum_lower ((level - c) / dt) inp i rc ac_rc_i (ac_reduced_diff c Ec Hlt Hs) eq_refl) as Hsum.
    assert (E2 : content + stat + (inp - (level - c) / dt - out) * dt = c).
    { unfold level; field; lra. }
    pose proof (Hcap c Ec). nra.
Qed.

(** With an overflow attached and idle, the level ends at most at the capacity. *)
Lemma ac_capacity c k : cap = Some c -> ov = Some k -> rc k = 0 ->
  (an = true \/ PRECISION * dt < content + stat \/ out = 0) ->
  content + stat + (Rsum r' i - Rsum r' o) * dt <= c.
Proof.
  intros Ec Ek Hk0 Hcase.
  destruct ac_cases as [Er _ Hle|Ha Hch Hl Er|c' k' Ec' Eo Hlt Er|c' Ec' Eo Hlt Hs Er]; rewrite Er.
  - fold inp out. apply (Hle c Ec).
  - assert (E : Rsum (limit_outgoing dt content stat inp out o rc) i = inp).
    { apply Rsum_ext_in; intros j Hj. apply lo_other. intros Ho; apply (Hdisj j Ho Hj). }
    rewrite E. pose proof (Hcap c Ec) as Hc0.
    destruct Hcase as [Hc|[Hc|Hc]]; [congruence| |].
    + (* proportional: ends at or below zero *)
      assert (Hle : out + (level / dt) <= Rsum (limit_outgoing dt content stat inp out o rc) o).
      { assert (Hop : 0 < out) by (apply (lo_out_pos dt content stat inp o rc Hdt ac_inp (Havail Ha) Hl)).
        apply Rle_trans with (Rsum (fun j => rc j * (1 + level / dt / out)) o).
        - rewrite Rsum_scal_r. fold out. right; field; lra.
        - apply Rsum_le; intros j Hj.
          pose proof (lo_fct dt content stat inp o rc Hdt ac_inp (Havail Ha) Hl) as Hf. fold out level in Hf.
          pose proof (ac_rc_o j Hj).
          destruct (lo_cases dt content stat inp o rc Hdt ac_rc_o ac_inp (Havail Ha) Hl j Hj) as [(_&E1)|[(_&E1&_)|(_&_&E1)]];
            fold out level in E1.
          + rewrite E1. nra.
          + exfalso. assert (E2 : level / dt - (inp - out) = (content + stat) / dt) by (unfold level; field; lra).
            rewrite E2 in E1. assert (Hgt : PRECISION < (content + stat) / dt).
            { apply Rmult_lt_reg_r with dt; [exact Hdt|].
              replace ((content + stat) / dt * dt) with (content + stat) by (field; lra). lra. }
            rewrite Rabs_right in E1; pose proof PRECISION_pos; lra.
          + rewrite E1. lra. }
      assert (E2 : content + stat + (inp - (out + level / dt)) * dt = 0) by (unfold level; field; lra).
      nra.
    + exfalso. pose proof ac_inp. lra.
  - rewrite Ec in Ec'; injection Ec' as <-. rewrite Ek in Eo; injection Eo as <-.
    rewrite (Rsum_upd _ _ _ o) by (first [exact Hno|apply Hov; assumption]). rewrite Rsum_upd_notin.
    2:{ intros Hi; apply (Hdisj k (Hov k Ek) Hi). }
    fold inp out. rewrite Hk0. right. unfold level; field; lra.
  - congruence.
Qed.

(** When the requested step is feasible nothing but the clamping of negative rates happens. *)
Lemma ac_noop : (an = true \/ 0 <= level) -> (forall c, cap = Some c -> level <= c) -> r' = rc.
Proof.
  intros Hl Hc.
  destruct ac_cases as [Er _ Hle|Ha _ Hl' Er|c' k' Ec' Eo Hlt Er|c' Ec' Eo Hlt Hs Er].
  - exact Er.
  - destruct Hl; [congruence|lra].
  - specialize (Hc c' Ec'); lra.
  - specialize (Hc c' Ec'); lra.
Qed.

(** Without an incoming limitation the incoming rates are kept. *)
Lemma ac_in_same k : In k i -> (cap = None \/ ov <> None) -> r' k = rc k.
Proof.
  intros Hi Hc.
  destruct ac_cases as [Er _ _|_ _ _ Er|c k' Ec Eo _ Er|c Ec Eo Hlt Hs Er]; rewrite Er.
  - reflexivity.
  - unfold out. apply (lo_other dt content stat inp o rc). intros Ho; apply (Hdisj k Ho Hi).
  - apply upd_other. intros ->. apply (Hdisj k' (Hov k' Eo) Hi).
  - destruct Hc; congruence.
Qed.

(** When the overflow is active the level ends exactly at the capacity. *)
Lemma ac_overflow_tight c k : cap = Some c -> ov = Some k -> rc k = 0 -> 0 < r' k ->
  content + stat + (Rsum r' i - Rsum r' o) * dt = c.
Proof.
  intros Ec Ek Hk0 Hpos.
  destruct ac_cases as [Er _ Hle|Ha Hch Hl Er|c' k' Ec' Eo Hlt Er|c' Ec' Eo Hlt Hs Er]; rewrite Er in Hpos.
  - lra.
  - pose proof (lo_bounds dt content stat inp o rc Hdt ac_rc_o ac_inp (Havail Ha) Hl k (Hov k Ek)) as Hb.
    rewrite Hk0 in Hb. fold out in Hb. lra.
  - rewrite Ec in Ec'; injection Ec' as <-. rewrite Ek in Eo; injection Eo as <-. rewrite Er.
    rewrite (Rsum_upd _ _ _ o) by (first [exact Hno|apply Hov; assumption]). rewrite Rsum_upd_notin.
    2:{ intros Hi; apply (Hdisj k (Hov k Ek) Hi). }
    fold inp out. rewrite Hk0. unfold level; field; lra.
  - congruence.
Qed.

(** Without rates below 2^-52 mm/d the limitation is exact: the level ends at zero or above. *)
Lemma ac_nonneg_exact : an = false -> (forall k, In k o -> rc k = 0 \/ EPSILON_D < rc k) ->
  0 <= content + stat + (Rsum r' i - Rsum r' o) * dt.
Proof.
  intros Han Hdust. pose proof (Havail Han) as Hav.
  destruct ac_cases as [Er Hf _|Ha Hch Hl Er|c k' Ec Eo Hlt Er|c Ec Eo Hlt Hs Er]; rewrite Er.
  - fold inp out. destruct Hf as [Hf|[Hf|Hf]]; [congruence|unfold level in Hf; lra|nra].
  - assert (E : Rsum (limit_outgoing dt content stat inp out o rc) i = inp).
    { apply Rsum_ext_in; intros k Hk. apply lo_other. intros Ho; apply (Hdisj k Ho Hk). }
    rewrite E.
    assert (Hop : 0 < out) by (apply (lo_out_pos dt content stat inp o rc Hdt ac_inp Hav Hl)).
    assert (Hle : Rsum (limit_outgoing dt content stat inp out o rc) o <= out + level / dt).
    { apply Rle_trans with (Rsum (fun j => rc j * (1 + level / dt / out)) o).
      - apply Rsum_le; intros j Hj. pose proof (ac_rc_o j Hj).
        pose proof (lo_fct dt content stat inp o rc Hdt ac_inp Hav Hl) as Hfct. fold out level in Hfct.
        destruct (lo_cases dt content stat inp o rc Hdt ac_rc_o ac_inp Hav Hl j Hj) as [(Hd&E1)|[(_&_&E1)|(_&_&E1)]];
          fold out level in E1; rewrite E1.
        + destruct (Hdust j Hj) as [->|Hx]; [lra|]. exfalso. lra.
        + apply Rmult_le_pos; lra.
        + lra.
      - rewrite Rsum_scal_r. fold out. right; field; lra. }
    assert (E2 : content + stat + (inp - (out + level / dt)) * dt = 0) by (unfold level; field; lra).
    nra.
  - rewrite (Rsum_upd _ _ _ o) by (first [exact Hno|apply Hov; assumption]). rewrite Rsum_upd_notin.
    2:{ intros Hi; apply (Hdisj k' (Hov k' Eo) Hi). }
    fold inp out. pose proof (Hcap c Ec). pose proof (ac_rc_o k' (Hov k' Eo)).
    assert (E : content + stat + (inp - (out - rc k' + (level - c) / dt)) * dt = c + rc k' * dt).
    { unfold level; field; lra. }
    rewrite E. assert (0 <= rc k' * dt) by (apply Rmult_le_pos; lra). lra.
  - assert (E : Rsum (limit_incoming ((level - c) / dt) inp i rc) o = out).
    { apply Rsum_ext_in; intros k Hk. apply li_other. apply Hdisj; exact Hk. }
    rewrite E.
    pose proof (li_sum_lower ((level - c) / dt) inp i rc ac_rc_i (ac_reduced_diff c Ec Hlt Hs) eq_refl) as Hsum.
    assert (E2 : content + stat + (inp - (level - c) / dt - out) * dt = c).
    { unfold level; field; lra. }
    pose proof (Hcap c Ec). nra.
Qed.
End Limiter.
