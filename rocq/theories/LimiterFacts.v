(** The limiter, restated for the property theorems. *)
From Verif Require Import Base BaseFacts Container ContainerFacts.

Section L.
Variables (dt content stat : R) (cap : option R) (ov : option nat)
          (o i : list nat) (r r' : nat -> R).
Hypothesis Hdt : 0 < dt.
Hypothesis Hno : NoDup o.
Hypothesis Hdisj : forall k, In k o -> ~ In k i.
Hypothesis Hov : forall k, ov = Some k -> In k o.
Hypothesis Havail : 0 <= content + stat.
Hypothesis Hcap : forall c, cap = Some c -> 0 <= c.
Hypothesis Hok : apply_constraints dt content stat cap ov false o i r = Ok r'.
Let wanted k := Rmax 0 (r k).
Let Hav : false = false -> 0 <= content + stat := fun _ => Havail.

Lemma lim_wanted l : (forall k, In k l -> In k o \/ In k i) -> Rsum (clamped r o i) l = Rsum wanted l.
Proof. intros H. apply Rsum_ext_in. intros k Hk. apply clamped_max. auto. Qed.

Lemma limiter_bounds :
  (forall k, ~ In k o -> ~ In k i -> r' k = r k) /\
  (forall k, In k o \/ In k i -> 0 <= r' k) /\
  (forall k, In k i -> r' k <= wanted k) /\
  (forall k, In k o -> ov <> Some k -> r' k <= wanted k).
Proof.
  split; [|split; [|split]].
  - exact (ac_frame _ _ _ _ _ _ _ _ _ _ Hov Hav Hcap Hok).
  - intros k [Hk|Hk].
    + exact (ac_ov_nonneg _ _ _ _ _ _ _ _ _ _ Hdt Hdisj Hov Hav Hcap Hok k Hk).
    + apply (ac_in _ _ _ _ _ _ _ _ _ _ Hdt Hdisj Hov Hav Hcap Hok k Hk).
  - intros k Hk. unfold wanted. rewrite <- (clamped_max r o i k) by auto.
    apply (ac_in _ _ _ _ _ _ _ _ _ _ Hdt Hdisj Hov Hav Hcap Hok k Hk).
  - intros k Hk Ho. unfold wanted. rewrite <- (clamped_max r o i k) by auto.
    apply (ac_out_le _ _ _ _ _ _ _ _ _ _ Hdt Hdisj Hov Hav Hcap Hok k Hk Ho).
Qed.

Let level := content + stat + (Rsum wanted i - Rsum wanted o) * dt.

Lemma limiter_noop : 0 <= level -> (forall c, cap = Some c -> level <= c) ->
  forall k, In k o \/ In k i -> r' k = wanted k.
Proof.
  intros H1 H2 k Hk. unfold wanted. rewrite <- (clamped_max r o i k) by auto.
  rewrite (ac_noop _ _ _ _ _ _ _ _ _ _ Hov Hav Hcap Hok); [reflexivity| |];
  rewrite (lim_wanted i), (lim_wanted o) by auto; auto.
Qed.

Lemma limiter_proportional : level < 0 -> (forall k, In k o -> wanted k = 0 \/ EPSILON_D < wanted k) ->
  PRECISION * dt < content + stat ->
  (forall k, In k o -> r' k = wanted k * (((content + stat) / dt + Rsum wanted i) / Rsum wanted o)) /\
  content + stat + (Rsum r' i - Rsum r' o) * dt = 0.
Proof.
  intros Hl Hdust Hc.
  assert (Hro : forall k, In k o -> 0 <= clamped r o i k) by (intros; apply clamped_nonneg; auto).
  assert (Hri : forall k, In k i -> 0 <= clamped r o i k) by (intros; apply clamped_nonneg; auto).
  assert (Hin : 0 <= Rsum (clamped r o i) i) by (apply Rsum_nonneg; auto).
  assert (Hl' : content + stat + (Rsum (clamped r o i) i - Rsum (clamped r o i) o) * dt < 0)
    by (rewrite (lim_wanted i), (lim_wanted o) by auto; exact Hl).
  destruct (ac_cases _ _ _ _ _ _ _ _ _ _ Hov Hav Hcap Hok) as [Er Hf _|_ _ _ Er|c k' Ec Eo Hlt Er|c Ec Eo Hlt Hs Er].
  - exfalso. destruct Hf as [Hf|[Hf|Hf]]; [discriminate|lra|].
    assert (0 <= (Rsum (clamped r o i) i - Rsum (clamped r o i) o) * dt) by (apply Rmult_le_pos; lra). lra.
  - set (rc := clamped r o i) in *.
    assert (Hop := lo_out_pos dt content stat (Rsum rc i) o rc Hdt Hin Havail Hl').
    assert (Hk : forall k, In k o -> r' k = rc k * (((content + stat) / dt + Rsum rc i) / Rsum rc o)).
    { intros k Hk. rewrite Er.
      assert (Hgt : PRECISION < (content + stat) / dt).
      { apply Rmult_lt_reg_r with dt; [exact Hdt|].
        replace ((content + stat) / dt * dt) with (content + stat) by (field; lra). lra. }
      destruct (lo_cases dt content stat (Rsum rc i) o rc Hdt Hro Hin Havail Hl' k Hk) as [(H1&->)|[(_&H1&_)|(_&_&->)]].
      - destruct (Hdust k Hk) as [Hz|Hz]; unfold wanted in Hz; rewrite <- (clamped_max r o i k) in Hz by auto; fold rc in Hz.
        + rewrite Hz; ring.
        + exfalso; lra.
      - exfalso. replace ((content + stat + (Rsum rc i - Rsum rc o) * dt) / dt - (Rsum rc i - Rsum rc o))
          with ((content + stat) / dt) in H1 by (field; lra).
        rewrite Rabs_right in H1; pose proof PRECISION_pos; lra.
      - field. split; lra. }
    split.
    + intros k Hk'. rewrite (Hk k Hk'). unfold rc. rewrite clamped_max by auto. fold (wanted k).
      rewrite (lim_wanted i), (lim_wanted o) by auto. reflexivity.
    + rewrite (Rsum_ext_in r' (fun k => rc k * (((content + stat) / dt + Rsum rc i) / Rsum rc o)) o) by exact Hk.
      rewrite Rsum_scal_r.
      rewrite (Rsum_ext_in r' rc i).
      * field. split; lra.
      * intros k Hk'. rewrite Er. apply (lo_other dt content stat (Rsum rc i) o rc).
        intros Ho; exact (Hdisj k Ho Hk').
  - exfalso. pose proof (Hcap c Ec). lra.
  - exfalso. pose proof (Hcap c Ec). lra.
Qed.

Lemma limiter_overflow c k : cap = Some c -> ov = Some k -> r k = 0 -> PRECISION * dt < content + stat ->
  let end_level := content + stat + (Rsum r' i - Rsum r' o) * dt in
  end_level <= c /\ r' k * dt = Rmax 0 (end_level + r' k * dt - c).
Proof.
  intros Ec Ek Hk Hc end_level.
  assert (Hk0 : clamped r o i k = 0) by (rewrite clamped_id; lra).
  assert (Hle : end_level <= c)
    by (apply (ac_capacity _ _ _ _ _ _ _ _ _ _ Hdt Hno Hdisj Hov Hav Hcap Hok c k Ec Ek Hk0); auto).
  split; [exact Hle|].
  pose proof (ac_ov_nonneg _ _ _ _ _ _ _ _ _ _ Hdt Hdisj Hov Hav Hcap Hok k (Hov k Ek)) as Hnn.
  destruct (Rle_lt_or_eq_dec _ _ Hnn) as [Hp|Hz].
  - pose proof (ac_overflow_tight _ _ _ _ _ _ _ _ _ _ Hdt Hno Hdisj Hov Hav Hcap Hok c k Ec Ek Hk0 Hp) as Ht.
    fold end_level in Ht. assert (0 < r' k * dt) by (apply Rmult_lt_0_compat; lra).
    rewrite Rmax_right; lra.
  - rewrite <- Hz. rewrite Rmax_left; lra.
Qed.
End L.
