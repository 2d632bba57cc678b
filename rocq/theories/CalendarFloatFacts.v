(** Lemmas on the dates in binary64. *)
From Coq Require Import ZArith Reals Lra Lia.
From Flocq Require Import Core Relative IEEE754.BinarySingleNaN IEEE754.Binary IEEE754.Bits.
From Verif Require Import Base BaseFacts Clock ClockFacts TimeSeries ClockFloat ClockFloatFacts RunMoreFacts Calendar CalendarFloat.
Open Scope R_scope.

Lemma c_round_near x z : Rabs (x - IZR z) < 1 / 2 -> c_round x = z.
Proof.
  intros H. apply Rabs_def2 in H. destruct H as (H1 & H2). unfold c_round. destruct (Rleb_spec 0 x) as [H|H].
  - assert (E : (z + 1)%Z = up (x + 1 / 2)); [apply tech_up; rewrite plus_IZR; lra|lia].
  - assert (E : (1 - z)%Z = up (1 / 2 - x)); [apply tech_up; rewrite minus_IZR; lra|lia].
Qed.

Lemma ld_error p x : (53 <= p)%Z -> Rabs (ld_round p x - x) <= / 2 ^ 53 * Rabs x.
Proof.
  intros Hp. assert (Pp : Prec_gt_0 p) by (unfold Prec_gt_0; lia). eapply Rle_trans; [unfold ld_round; apply (relative_error_N_FLX radix2 p Pp (fun z => negb (Z.even z)) x)|].
  apply Rmult_le_compat_r; [apply Rabs_pos|]. change (/ 2)%R with (bpow radix2 (-1)). rewrite <- bpow_plus.
  replace (/ 2 ^ 53) with (bpow radix2 (- Z.of_nat 53)) by apply bpow_pow. apply bpow_le. lia.
Qed.
Lemma rnd_abs x : Rabs x <= 2 ^ 25 -> Rabs (rnd x - x) <= / 2 ^ 28.
Proof.
  intros H. destruct (Rle_lt_dec (/ 2 ^ 100) (Rabs x)) as [H1|H1].
  - eapply Rle_trans; [apply rnd_rel; exact H1|]. replace (/ 2 ^ 28) with (/ 2 ^ 53 * 2 ^ 25) by (cbn; lra). apply Rmult_le_compat_l; [cbn; lra|exact H].
  - assert (G : rnd (/ 2 ^ 100) = / 2 ^ 100). { pose proof (rnd_grid 1 100 ltac:(lia) ltac:(cbn; lia)) as E. rewrite !Rmult_1_l in E. exact E. }
    assert (G2 : rnd (- / 2 ^ 100) = - / 2 ^ 100). { pose proof (rnd_grid (-1) 100 ltac:(lia) ltac:(cbn; lia)) as E. replace (IZR (-1) * / 2 ^ 100) with (- / 2 ^ 100) in E by lra. exact E. }
    apply Rabs_def2 in H1. destruct H1 as (A & B). pose proof (rnd_le x (/ 2 ^ 100) ltac:(lra)) as U. pose proof (rnd_le (- / 2 ^ 100) x ltac:(lra)) as L. rewrite G in U. rewrite G2 in L.
    assert (S1 : / 2 ^ 100 <= / 2 ^ 30) by (apply Rinv_le_contravar; [apply pow_lt; lra|apply Rle_pow; [lra|lia]]).
    assert (S2 : / 2 ^ 30 * 4 = / 2 ^ 28) by (cbn; lra). apply Rabs_le. lra.
Qed.

Lemma seconds_back p s : (53 <= p)%Z -> (Z.abs s <= 2 ^ 40)%Z -> fmjd_to_seconds p (fmjd s) = s.
Proof.
  intros Hp Hs. unfold fmjd_to_seconds, fmjd. fold (val (fplus (fint 40587) (fdiv (fint s) (fint 86400)))).
  destruct (fint_val s) as (V1 & F1); [lia|]. destruct (fint_val 86400 ltac:(lia)) as (V2 & F2). destruct (fint_val 40587 ltac:(lia)) as (V3 & F3).
  assert (As : Rabs (IZR s) <= 2 ^ 40). { rewrite <- abs_IZR. replace (2 ^ 40) with (IZR (2 ^ 40)) by (cbn; lra). apply IZR_le. exact Hs. }
  set (q := IZR s / 86400). assert (Aq : Rabs q <= 12800000).
  { unfold q, Rdiv. rewrite Rabs_mult, (Rabs_right (/ 86400)) by lra. cbn in As. lra. }
  destruct (fdiv_val (fint s) (fint 86400) F1) as (V4 & F4); [rewrite V2; lra|rewrite V1, V2; fold q; cbn; lra|]. rewrite V1, V2 in V4. fold q in V4.
  assert (E1 := rnd_abs q ltac:(cbn; lra)). rewrite <- V4 in E1. set (q1 := val (fdiv (fint s) (fint 86400))) in *.
  apply Rabs_le_inv in Aq. apply Rabs_le_inv in E1. assert (P28 : 0 < / 2 ^ 28 < / 200000000) by (cbn; lra).
  destruct (fplus_val (fint 40587) (fdiv (fint s) (fint 86400)) F3 F4) as (V5 & F5); [rewrite V3; fold q1; apply Rabs_def1; cbn; lra|]. rewrite V3 in V5. fold q1 in V5.
  assert (E2 := rnd_abs (40587 + q1) ltac:(apply Rabs_le; cbn; lra)). rewrite <- V5 in E2. set (x := val (fplus (fint 40587) (fdiv (fint s) (fint 86400)))) in *. apply Rabs_le_inv in E2.
  clearbody x q1. clear V4 V5 F4 F5.
  assert (E3 := ld_error p (x - 40587) Hp). set (d := ld_round p (x - 40587)) in *. clearbody d.
  assert (A3 : Rabs (x - 40587) <= 2 ^ 25) by (apply Rabs_le; cbn; lra).
  assert (E3' : Rabs (d - (x - 40587)) <= / 2 ^ 28).
  { eapply Rle_trans; [exact E3|]. replace (/ 2 ^ 28) with (/ 2 ^ 53 * 2 ^ 25) by (cbn; lra). apply Rmult_le_compat_l; [cbn; lra|exact A3]. }
  apply Rabs_le_inv in E3'. assert (E4 := ld_error p (d * 86400) Hp).
  assert (A4 : Rabs (d * 86400) <= 2 ^ 42) by (apply Rabs_le; cbn; lra).
  assert (E4' : Rabs (ld_round p (d * 86400) - d * 86400) <= / 2 ^ 11).
  { eapply Rle_trans; [exact E4|]. replace (/ 2 ^ 11) with (/ 2 ^ 53 * 2 ^ 42) by (cbn; lra). apply Rmult_le_compat_l; [cbn; lra|exact A4]. }
  apply Rabs_le_inv in E4'. set (y := ld_round p (d * 86400)) in *. clearbody y. apply c_round_near.
  assert (Eq : IZR s = q * 86400) by (unfold q; lra). rewrite Eq. clearbody q. replace (/ 2 ^ 11) with (/ 2048) in E4' by (cbn; lra). apply Rabs_def1; lra.
Qed.
