(** Facts on the clock in binary64. *)
From Coq Require Import ZArith Reals Lra Lia List.
From Flocq Require Import Core Relative IEEE754.BinarySingleNaN IEEE754.Binary IEEE754.Bits.
From Verif Require Import Base Clock ClockFloat RunSpec.
Import ListNotations.
Open Scope R_scope.

Notation val := (Binary.B2R 53 1024).
Notation fin := (Binary.is_finite 53 1024).
Definition rnd (x : R) : R := round radix2 (FLT_exp (-1074) 53) ZnearestE x.

Lemma rnd_mode x : round radix2 (SpecFloat.fexp 53 1024) (round_mode mode_NE) x = rnd x.
Proof. reflexivity. Qed.

#[local] Instance fexp_ok : Valid_exp (FLT_exp (-1074) 53).
Proof. apply FLT_exp_valid. reflexivity. Qed.

Lemma bpow_pow e : bpow radix2 (- Z.of_nat e) = / 2 ^ e.
Proof. rewrite bpow_opp, bpow_powerRZ. rewrite <- pow_powerRZ. reflexivity. Qed.
Lemma bpow_pos e : bpow radix2 (Z.of_nat e) = 2 ^ e.
Proof. rewrite bpow_powerRZ, <- pow_powerRZ. reflexivity. Qed.

(** Half an ulp, relatively. *)
Lemma rnd_rel x : / 2 ^ 100 <= Rabs x -> Rabs (rnd x - x) <= / 2 ^ 53 * Rabs x.
Proof.
  intros H. unfold rnd. replace (/ 2 ^ 53) with (/ 2 * bpow radix2 (- (53) + 1)).
  - apply relative_error_N_FLT; [reflexivity|]. apply Rle_trans with (2 := H).
    rewrite <- (bpow_pow 100). apply bpow_le. cbn. lia.
  - change (- (53) + 1)%Z with (- Z.of_nat 52)%Z. rewrite bpow_pow. cbn [pow]. field.
Qed.

(** Numbers of a grid are represented exactly. *)
Lemma rnd_grid (m : Z) (k : nat) : (k <= 1000)%nat -> (Z.abs m < 2 ^ 53)%Z -> rnd (IZR m * / 2 ^ k) = IZR m * / 2 ^ k.
Proof.
  intros Hk Hm. unfold rnd. apply round_generic; [apply valid_rnd_N|].
  apply generic_format_FLT. exists (Float radix2 m (- Z.of_nat k)).
  - unfold F2R. cbn [Fnum Fexp]. rewrite bpow_pow. reflexivity.
  - exact Hm.
  - cbn. lia.
Qed.
Lemma rnd_int m : (Z.abs m < 2 ^ 53)%Z -> rnd (IZR m) = IZR m.
Proof. intros H. generalize (rnd_grid m 0 ltac:(lia) H). cbn [pow]. rewrite Rinv_1, Rmult_1_r. auto. Qed.

Lemma rnd_le x y : x <= y -> rnd x <= rnd y.
Proof. intros H. apply round_le; [apply fexp_ok|apply valid_rnd_N|exact H]. Qed.

Lemma big_1024 : 2 ^ 100 < bpow radix2 1024.
Proof. rewrite <- (bpow_pos 100). apply bpow_lt. cbn. lia. Qed.

Lemma small_finite x : Rabs x < 2 ^ 99 -> Rlt_bool (Rabs (rnd x)) (bpow radix2 1024) = true.
Proof.
  intros H. apply Rlt_bool_true. apply Rle_lt_trans with (2 := big_1024).
  assert (E : rnd (2 ^ 100) = 2 ^ 100).
  { unfold rnd. rewrite <- (bpow_pos 100). apply round_generic; [apply valid_rnd_N|]. apply generic_format_bpow. cbv. discriminate. }
  assert (X : 2 ^ 99 <= 2 ^ 100) by (apply Rle_pow; [lra|lia]).
  apply Rabs_le. unfold Rabs in H. destruct (Rcase_abs x) in H; split.
  - rewrite <- E at 1. unfold rnd. rewrite <- round_NE_opp. apply rnd_le. lra.
  - rewrite <- E. apply rnd_le. assert (0 < 2 ^ 100) by (apply pow_lt; lra). lra.
  - rewrite <- E at 1. unfold rnd. rewrite <- round_NE_opp. apply rnd_le. assert (0 < 2 ^ 100) by (apply pow_lt; lra). lra.
  - rewrite <- E. apply rnd_le. lra.
Qed.

Lemma fplus_val a b : fin a = true -> fin b = true -> Rabs (val a + val b) < 2 ^ 99 -> val (fplus a b) = rnd (val a + val b) /\ fin (fplus a b) = true.
Proof.
  intros Ha Hb H. unfold fplus, b64_plus. pose proof (Binary.Bplus_correct 53 1024 (eq_refl _) (eq_refl _) binop_nan_pl64 mode_NE a b Ha Hb) as C.
  rewrite rnd_mode, small_finite in C by exact H. destruct C as (C1 & C2 & _). split; assumption.
Qed.
Lemma fminus_val a b : fin a = true -> fin b = true -> Rabs (val a - val b) < 2 ^ 99 -> val (fminus a b) = rnd (val a - val b) /\ fin (fminus a b) = true.
Proof.
  intros Ha Hb H. unfold fminus, b64_minus. pose proof (Binary.Bminus_correct 53 1024 (eq_refl _) (eq_refl _) binop_nan_pl64 mode_NE a b Ha Hb) as C.
  rewrite rnd_mode, small_finite in C by exact H. destruct C as (C1 & C2 & _). split; assumption.
Qed.
Lemma fdiv_val a b : fin a = true -> val b <> 0 -> Rabs (val a / val b) < 2 ^ 99 -> val (fdiv a b) = rnd (val a / val b) /\ fin (fdiv a b) = true.
Proof.
  intros Ha Hb H. unfold fdiv, b64_div. pose proof (Binary.Bdiv_correct 53 1024 (eq_refl _) (eq_refl _) binop_nan_pl64 mode_NE a b Hb) as C.
  rewrite rnd_mode, small_finite in C by exact H. destruct C as (C1 & C2 & _). rewrite Ha in C2. split; assumption.
Qed.
Lemma fint_val z : (Z.abs z < 2 ^ 53)%Z -> val (fint z) = IZR z /\ fin (fint z) = true.
Proof.
  intros H. unfold fint. pose proof (Binary.binary_normalize_correct 53 1024 (eq_refl _) (eq_refl _) mode_NE z 0 false) as C.
  assert (E : F2R (Float radix2 z 0) = IZR z) by (unfold F2R; cbn; lra).
  rewrite E, rnd_mode in C. rewrite small_finite in C.
  - destruct C as (C1 & C2 & _). rewrite C1. split; [apply rnd_int; exact H|exact C2].
  - rewrite <- abs_IZR. replace (2 ^ 99) with (IZR (2 ^ 99)) by (rewrite (pow_IZR 2 99); reflexivity). apply IZR_lt. lia.
Qed.
Lemma fgt_val a b : fin a = true -> fin b = true -> fgt a b = true <-> val b < val a.
Proof.
  intros Ha Hb. unfold fgt, b64_compare. rewrite (Binary.Bcompare_correct 53 1024 a b Ha Hb).
  destruct (Rcompare_spec (val a) (val b)); split; intros; try discriminate; try lra; reflexivity.
Qed.

Lemma Btrunc_floor x (c : Z) : 0 <= val x -> IZR c <= val x < IZR c + 1 -> Binary.Btrunc 53 1024 x = c.
Proof.
  intros H0 H. apply eq_IZR. rewrite Binary.Btrunc_correct by reflexivity. unfold round, F2R, scaled_mantissa, cexp, FIX_exp. cbn [Fnum Fexp].
  change (bpow radix2 0) with 1. change (bpow radix2 (- 0)) with 1. rewrite !Rmult_1_r. f_equal. rewrite Ztrunc_floor by exact H0. apply Zfloor_imp. rewrite plus_IZR. exact H.
Qed.

(** *** The loop *)
Fixpoint fdate (dt d : binary64) (i : nat) : binary64 := match i with O => d | S j => fnext dt (fdate dt d j) end.
Lemma fdate_next dt d i : fdate dt (fnext dt d) i = fdate dt d (S i).
Proof. induction i as [|i IH]; [reflexivity|]. cbn [fdate] in *. rewrite IH. reflexivity. Qed.
Lemma floop n : forall stop dt d, (forall i, (i < n)%nat -> fover stop (fdate dt d i) = false) -> fover stop (fdate dt d n) = true ->
  loop_dates (fnext dt) (fover stop) d (map (fdate dt d) (seq 0 n)).
Proof.
  induction n as [|n IH]; intros stop dt d H1 H2.
  - constructor. exact H2.
  - cbn [seq map]. constructor; [apply (H1 0%nat); lia|]. rewrite <- seq_shift, map_map.
    replace (map (fun i => fdate dt d (S i)) (seq 0 n)) with (map (fdate dt (fnext dt d)) (seq 0 n)) by (apply map_ext; intros; apply fdate_next).
    apply IH.
    + intros i Hi. rewrite fdate_next. apply H1. lia.
    + rewrite fdate_next. exact H2.
Qed.

(** Computing the length of the loop. *)
Fixpoint fsteps (fuel : nat) (stop dt d : binary64) (k : Z) : option Z :=
  match fuel with O => None | S f => if fover stop d then Some k else fsteps f stop dt (fnext dt d) (k + 1)%Z end.
Lemma fsteps_loop fuel stop dt : forall d k r, fsteps fuel stop dt d k = Some r -> exists l, loop_dates (fnext dt) (fover stop) d l /\ r = (k + Z.of_nat (length l))%Z.
Proof.
  induction fuel as [|f IH]; intros d k r H; cbn [fsteps] in H; [discriminate|].
  destruct (fover stop d) eqn:E.
  - injection H as <-. exists []. split; [constructor; exact E|cbn; lia].
  - apply IH in H. destruct H as (l & L & ->). exists (d :: l). split; [constructor; assumption|cbn [length]; lia].
Qed.

(** *** Dates on a binary grid *)
Definition on_grid (k : nat) (x : binary64) (z : Z) : Prop := fin x = true /\ val x = IZR z * / 2 ^ k.

Lemma grid_small z k : (Z.abs z < 2 ^ 53)%Z -> Rabs (IZR z * / 2 ^ k) < 2 ^ 99.
Proof.
  intros H. assert (P : 0 < 2 ^ k) by (apply pow_lt; lra). assert (Q : 1 <= 2 ^ k) by (apply pow_R1_Rle; lra).
  rewrite Rabs_mult, (Rabs_pos_eq (/ 2 ^ k)) by (left; apply Rinv_0_lt_compat; exact P).
  rewrite <- abs_IZR. apply Rle_lt_trans with (IZR (Z.abs z) * 1).
  - apply Rmult_le_compat_l; [apply IZR_le; lia|]. rewrite <- Rinv_1. apply Rinv_le_contravar; lra.
  - rewrite Rmult_1_r. replace (2 ^ 99) with (IZR (2 ^ 99)) by (rewrite (pow_IZR 2 99); reflexivity). apply IZR_lt. lia.
Qed.

Lemma fplus_grid k x y a b : (k <= 1000)%nat -> on_grid k x a -> on_grid k y b -> (Z.abs (a + b) < 2 ^ 53)%Z -> on_grid k (fplus x y) (a + b).
Proof.
  intros Hk (F1 & V1) (F2 & V2) H. assert (E : val x + val y = IZR (a + b) * / 2 ^ k) by (rewrite V1, V2, plus_IZR; lra).
  destruct (fplus_val x y F1 F2) as (C1 & C2); [rewrite E; apply grid_small; exact H|]. split; [exact C2|]. rewrite C1, E. apply rnd_grid; assumption.
Qed.

Lemma fdate_grid k s t a c : (k <= 1000)%nat -> on_grid k s a -> on_grid k t c -> (0 <= a)%Z -> (0 < c)%Z -> forall i,
  (a + Z.of_nat i * c < 2 ^ 53)%Z -> on_grid k (fdate t s i) (a + Z.of_nat i * c).
Proof.
  intros Hk Hs Ht Ha Hc i. induction i as [|i IH]; intros H.
  - cbn [fdate]. replace (a + Z.of_nat 0 * c)%Z with a by lia. exact Hs.
  - cbn [fdate]. replace (a + Z.of_nat (S i) * c)%Z with ((a + Z.of_nat i * c) + c)%Z by lia. unfold fnext. apply fplus_grid; auto.
    + apply IH. nia.
    + nia.
Qed.

Lemma two53 : / 2 ^ 53 * 3 * IZR (2 ^ 50) < 1.
Proof. cbn [pow]. lra. Qed.

Lemma fcount_grid k s e t a b c : (k <= 1000)%nat -> on_grid k s a -> on_grid k e b -> on_grid k t c -> (0 <= a <= b)%Z -> (0 < c)%Z -> (b + c < 2 ^ 50)%Z ->
  fcount s e t = ((b - a) / c + 1)%Z.
Proof.
  intros Hk (F1 & V1) (F2 & V2) (F3 & V3) Hab Hc Hb. assert (P : 0 < 2 ^ k) by (apply pow_lt; lra).
  set (A := (b - a)%Z). assert (HA : (0 <= A < 2 ^ 50)%Z) by (unfold A; lia).
  assert (E1 : val e - val s = IZR A * / 2 ^ k) by (rewrite V1, V2; unfold A; rewrite minus_IZR; lra).
  destruct (fminus_val e s F2 F1) as (M1 & M2); [rewrite E1; apply grid_small; lia|]. rewrite E1, rnd_grid in M1 by lia.
  assert (C0 : 0 < IZR c) by (apply (IZR_lt 0); exact Hc).
  assert (T0 : val t <> 0). { rewrite V3. apply Rgt_not_eq. apply Rmult_lt_0_compat; [exact C0|apply Rinv_0_lt_compat; exact P]. }
  assert (E2 : val (fminus e s) / val t = IZR A / IZR c) by (rewrite M1, V3; field; split; lra).
  assert (QA : 0 <= IZR A / IZR c <= IZR A).
  { split; [apply Rmult_le_pos; [apply (IZR_le 0); lia|left; apply Rinv_0_lt_compat; exact C0]|].
    apply Rmult_le_reg_r with (IZR c); [exact C0|]. unfold Rdiv. rewrite Rmult_assoc, Rinv_l by lra. assert (1 <= IZR c) by (apply (IZR_le 1); lia).
    assert (0 <= IZR A) by (apply (IZR_le 0); lia). nra. }
  assert (A50 : IZR A < IZR (2 ^ 50)) by (apply IZR_lt; lia).
  assert (P99 : IZR (2 ^ 50) * 4 < 2 ^ 99) by (cbn [pow]; lra).
  destruct (fdiv_val (fminus e s) t M2 T0) as (D1 & D2); [rewrite E2, Rabs_pos_eq; lra|].
  rewrite E2 in D1. set (q := IZR A / IZR c) in *. set (N := (A / c + 1)%Z).
  pose proof (Z.div_mod A c ltac:(lia)) as DM. pose proof (Z.mod_pos_bound A c Hc) as MB.
  assert (Q0 : (0 <= A / c)%Z) by (apply Z.div_pos; lia).
  assert (Hq : IZR A = q * IZR c) by (unfold q; field; lra).
  assert (N1 : IZR (N - 1) <= q).
  { apply Rmult_le_reg_r with (IZR c); [exact C0|]. rewrite <- Hq, <- mult_IZR. apply IZR_le. unfold N. lia. }
  assert (N2 : (1 + q) * IZR c <= (IZR N + 1) * IZR c - 1).
  { replace ((1 + q) * IZR c) with (IZR (c + A)) by (rewrite plus_IZR, Hq; lra). replace ((IZR N + 1) * IZR c - 1) with (IZR ((N + 1) * c - 1)).
    - apply IZR_le. unfold N. nia.
    - rewrite minus_IZR, mult_IZR, plus_IZR. reflexivity. }
  assert (NA : (N - 1 <= A)%Z) by (apply le_IZR; lra).
  assert (R1 : IZR (N - 1) <= rnd q). { rewrite <- (rnd_int (N - 1)) by (unfold N in *; lia). apply rnd_le. exact N1. }
  assert (R2 : rnd q <= q * (1 + / 2 ^ 53)).
  { destruct (Z.eq_dec A 0) as [Z0|Z0].
    - assert (q = 0) by (unfold q; rewrite Z0; lra). rewrite H. rewrite (rnd_int 0) by (cbn; lia). lra.
    - assert (Hq1 : / 2 ^ 100 <= q).
      { apply Rmult_le_reg_r with (IZR c); [exact C0|]. rewrite <- Hq. assert (1 <= IZR A) by (apply (IZR_le 1); lia).
        assert (IZR c < IZR (2 ^ 50)) by (apply IZR_lt; lia). assert (/ 2 ^ 100 * IZR (2 ^ 50) < 1) by (cbn [pow]; lra).
        assert (0 < / 2 ^ 100) by (apply Rinv_0_lt_compat, pow_lt; lra). nra. }
      pose proof (rnd_rel q ltac:(rewrite Rabs_pos_eq; lra)) as RR. rewrite (Rabs_pos_eq q) in RR by lra. apply Rabs_le_inv in RR. lra. }
  destruct (fint_val 1 ltac:(reflexivity)) as (I1 & I2).
  assert (U : 0 < / 2 ^ 53 < / 2) by (split; [apply Rinv_0_lt_compat, pow_lt; lra|cbn [pow]; lra]).
  assert (RN : 0 <= rnd q). { rewrite <- (rnd_int 0) by (cbn; lia). apply rnd_le. lra. }
  destruct (fplus_val (fint 1) (fdiv (fminus e s) t) I2 D2) as (L1 & L2); [rewrite I1, D1, Rabs_pos_eq; [|lra]; nra|].
  rewrite I1, D1 in L1. unfold fcount. apply Btrunc_floor; rewrite L1.
  - rewrite <- (rnd_int 0) by (cbn; lia). apply rnd_le. lra.
  - split.
    + rewrite <- (rnd_int N) by (unfold N in *; lia). apply rnd_le. rewrite minus_IZR in R1. lra.
    + pose proof (rnd_rel (1 + rnd q)) as RR. rewrite Rabs_pos_eq in RR by lra. specialize (RR ltac:(assert (/ 2 ^ 100 < 1) by (cbn [pow]; lra); lra)). apply Rabs_le_inv in RR.
      assert (B1 : rnd (1 + rnd q) <= (1 + q) * (1 + 3 * / 2 ^ 53)) by nra.
      apply Rle_lt_trans with (1 := B1). apply Rmult_lt_reg_r with (IZR c); [exact C0|].
      assert (B2 : (1 + q) * IZR c < IZR (2 ^ 50)) by (replace ((1 + q) * IZR c) with (IZR (c + A)) by (rewrite plus_IZR, Hq; lra); apply IZR_lt; unfold A; lia).
      pose proof two53. nra.
Qed.

Lemma grid_clock k s e t a b c : (k <= 1000)%nat -> on_grid k s a -> on_grid k e b -> on_grid k t c -> (0 <= a <= b)%Z -> (0 < c)%Z -> (b + c < 2 ^ 50)%Z ->
  exists l, loop_dates (fnext t) (fover e) s l /\ Z.of_nat (length l) = fcount s e t /\
    map val l = period_dates (val s) (val t) (length l) /\ fills_period (val s) (val e) (val t) (length l).
Proof.
  intros Hk Hs He Ht Hab Hc Hb. rewrite (fcount_grid k s e t a b c Hk Hs He Ht Hab Hc Hb).
  set (n := Z.to_nat ((b - a) / c + 1)). pose proof (Z.div_mod (b - a) c ltac:(lia)) as DM. pose proof (Z.mod_pos_bound (b - a) c Hc) as MB.
  assert (Q0 : (0 <= (b - a) / c)%Z) by (apply Z.div_pos; lia).
  assert (Hn : Z.of_nat n = ((b - a) / c + 1)%Z) by (unfold n; rewrite Z2Nat.id; lia).
  assert (B : forall i, (i <= n)%nat -> (a + Z.of_nat i * c <= b + c)%Z) by (intros i Hi; nia).
  pose proof (fdate_grid k s t a c Hk Hs Ht (proj1 Hab) Hc) as G.
  assert (P : 0 < / 2 ^ k) by (apply Rinv_0_lt_compat, pow_lt; lra).
  assert (V : forall i, (i <= n)%nat -> val (fdate t s i) = val s + INR i * val t /\ val (fdate t s i) = IZR (a + Z.of_nat i * c) * / 2 ^ k /\ fin (fdate t s i) = true).
  { intros i Hi. destruct (G i) as (G1 & G2); [specialize (B i Hi); lia|]. destruct Hs as (_ & ->), Ht as (_ & ->). repeat split; [|exact G2|exact G1].
    rewrite G2, plus_IZR, mult_IZR, <- INR_IZR_INZ. lra. }
  assert (LE : forall i, (i < n)%nat -> val (fdate t s i) <= val e).
  { intros i Hi. destruct (V i ltac:(lia)) as (_ & -> & _). destruct He as (_ & ->). apply Rmult_le_compat_r; [lra|]. apply IZR_le. nia. }
  assert (GT : val e < val (fdate t s n)).
  { destruct (V n ltac:(lia)) as (_ & -> & _). destruct He as (_ & ->). apply Rmult_lt_compat_r; [lra|]. apply IZR_lt. nia. }
  exists (map (fdate t s) (seq 0 n)). rewrite map_length, seq_length. split; [|split; [exact Hn|split]].
  - apply floop.
    + intros i Hi. unfold fover. apply Bool.not_true_is_false. rewrite fgt_val; [|apply V; lia|apply He]. specialize (LE i Hi). lra.
    + unfold fover. rewrite fgt_val; [exact GT|apply V; lia|apply He].
  - rewrite map_map. unfold period_dates. apply map_ext_in. intros i Hi. apply in_seq in Hi. apply V. lia.
  - split; [intros i Hi; rewrite <- (proj1 (V i ltac:(lia))); apply LE; exact Hi|rewrite <- (proj1 (V n ltac:(lia))); exact GT].
Qed.

(** *** Dates anywhere, with an end that is not too close to a date of the period *)
Definition fbounds (s e t : binary64) : Prop :=
  fin s = true /\ fin e = true /\ fin t = true /\ 0 <= val s /\ val e <= 2 ^ 17 - 2 ^ 10 /\ / 2 ^ 20 <= val t <= 2 ^ 10.
Definition slack (n : nat) : R := (INR n + 4) * / 2 ^ 36.

Lemma p53_36 x : 0 <= x <= 2 ^ 17 -> / 2 ^ 53 * x <= / 2 ^ 36.
Proof. cbn [pow]. lra. Qed.

Lemma fdate_near s e t n : fbounds s e t -> val s + (INR n - 1) * val t + slack n <= val e -> (1 <= n)%nat -> forall i, (i <= n)%nat ->
  fin (fdate t s i) = true /\ Rabs (val (fdate t s i) - (val s + INR i * val t)) <= INR i * / 2 ^ 36.
Proof.
  intros (F1 & F2 & F3 & B1 & B2 & B3) Hn H1 i. induction i as [|i IH]; intros Hi.
  - cbn [fdate]. split; [exact F1|]. cbn [INR]. replace (val s - (val s + 0 * val t)) with 0 by lra. rewrite Rabs_R0. lra.
  - destruct (IH ltac:(lia)) as (G1 & G2). cbn [fdate]. unfold fnext. set (d := fdate t s i) in *. apply Rabs_le_inv in G2.
    assert (Ui : INR i <= INR n - 1) by (replace (INR n - 1) with (INR (n - 1)) by (rewrite minus_INR by lia; cbn; lra); apply le_INR; lia).
    pose proof (pos_INR i) as P0.
    assert (U : / 2 ^ 36 = / 68719476736) by (cbn [pow]; lra).
    assert (T0 : / 1048576 <= val t <= 1024) by (cbn [pow] in B3; lra).
    assert (Hit : INR i * val t <= (INR n - 1) * val t) by (apply Rmult_le_compat_r; lra).
    assert (Hiu : INR i * / 2 ^ 36 <= slack n) by (unfold slack; apply Rmult_le_compat_r; lra).
    assert (Hit2 : INR i * / 1048576 <= INR i * val t) by (apply Rmult_le_compat_l; lra).
    assert (X : 0 <= val d + val t <= 2 ^ 17) by (rewrite U in *; cbn [pow] in *; lra).
    assert (X2 : / 2 ^ 100 <= val d + val t). { apply Rle_trans with (/ 2097152); [cbn [pow]; lra|]. rewrite U in *. lra. }
    destruct (fplus_val d t G1 F3) as (C1 & C2); [rewrite Rabs_pos_eq by lra; cbn [pow] in *; lra|]. split; [exact C2|].
    rewrite C1. pose proof (rnd_rel (val d + val t) ltac:(rewrite Rabs_pos_eq; lra)) as RR. rewrite (Rabs_pos_eq (val d + val t)) in RR by lra.
    pose proof (p53_36 _ X). apply Rabs_le_inv in RR. apply Rabs_le. rewrite S_INR. split; lra.
Qed.

Lemma near_u q q1 : / 2 ^ 100 <= q -> q1 = rnd q -> q * (1 - / 2 ^ 53) <= q1 <= q * (1 + / 2 ^ 53).
Proof.
  intros H ->. assert (0 < / 2 ^ 100) by (apply Rinv_0_lt_compat, pow_lt; lra).
  pose proof (rnd_rel q ltac:(rewrite Rabs_pos_eq; lra)) as RR. rewrite (Rabs_pos_eq q) in RR by lra. apply Rabs_le_inv in RR. lra.
Qed.

Lemma scaled x y u : 0 <= x -> 0 < u < / 1000 -> x * (1 - u) <= y <= x * (1 + u) -> / 2 * x <= y <= 2 * x.
Proof.
  intros H1 H2 H3. assert (x * u <= x * / 1000) by (apply Rmult_le_compat_l; lra). lra.
Qed.
Lemma scaled_again x y z u : 0 <= x -> 0 < u < / 1000 -> x * (1 - u) <= y <= x * (1 + u) -> y * (1 - u) <= z <= y * (1 + u) ->
  x * (1 - u) * (1 - u) <= z <= x * (1 + u) * (1 + u).
Proof.
  intros H1 H2 H3 H4. assert (x * (1 - u) * (1 - u) <= y * (1 - u)) by (apply Rmult_le_compat_r; lra).
  assert (y * (1 + u) <= x * (1 + u) * (1 + u)) by (apply Rmult_le_compat_r; lra). lra.
Qed.

Lemma cube u : 0 < u < / 1000 -> 1 - 4 * u <= (1 - u) * ((1 - u) * (1 - u)) /\ (1 + u) * ((1 + u) * (1 + u)) <= 1 + 4 * u.
Proof.
  intros H. assert (A : 0 < u * u) by (apply Rmult_lt_0_compat; lra). assert (B : u * u <= u * / 1000) by (apply Rmult_le_compat_l; lra).
  assert (C : 0 < u * u * u) by (apply Rmult_lt_0_compat; lra). assert (D : u * u * u <= u * u * / 1000) by (apply Rmult_le_compat_l; lra).
  replace ((1 - u) * ((1 - u) * (1 - u))) with (1 - 3 * u + 3 * (u * u) - u * u * u) by ring.
  replace ((1 + u) * ((1 + u) * (1 + u))) with (1 + 3 * u + 3 * (u * u) + u * u * u) by ring. lra.
Qed.
Lemma squares u : 0 < u < / 1000 -> (1 - u) * (1 - u) <= 1 <= (1 + u) * (1 + u).
Proof.
  intros H. assert (A : 0 < u * u) by (apply Rmult_lt_0_compat; lra). assert (B : u * u <= u * / 1000) by (apply Rmult_le_compat_l; lra).
  replace ((1 - u) * (1 - u)) with (1 - 2 * u + u * u) by ring. replace ((1 + u) * (1 + u)) with (1 + 2 * u + u * u) by ring. lra.
Qed.

Lemma fcount_near s e t n : fbounds s e t -> (1 <= n)%nat -> val s + (INR n - 1) * val t + slack n <= val e -> val e + slack n <= val s + INR n * val t ->
  fcount s e t = Z.of_nat n.
Proof.
  intros (F1 & F2 & F3 & B1 & B2 & B3) H1 L H. pose proof (le_INR 1 n H1) as N1. cbn [INR] in N1.
  assert (U36 : / 2 ^ 36 = / 68719476736) by (cbn [pow]; lra).
  assert (HS : 5 * / 2 ^ 36 <= slack n) by (unfold slack; apply Rmult_le_compat_r; try rewrite U36 in *; lra).
  assert (T0 : / 1048576 <= val t <= 1024) by (cbn [pow] in B3; lra).
  assert (X0 : 5 * / 2 ^ 36 <= val e - val s). { assert (0 <= (INR n - 1) * val t) by (apply Rmult_le_pos; lra). lra. }
  assert (X1 : val e - val s <= 2 ^ 17 - 2 ^ 10) by lra.
  destruct (fminus_val e s F2 F1) as (M1 & M2); [rewrite Rabs_pos_eq; try rewrite U36 in *; cbn [pow] in *; lra|].
  apply near_u in M1; [|try rewrite U36 in *; apply Rle_trans with (2 := X0); cbn [pow]; lra].
  set (D := val (fminus e s)) in *. set (x := val e - val s) in *. set (u := / 2 ^ 53) in *.
  assert (U : 0 < u < / 1000) by (unfold u; cbn [pow]; lra).
  assert (I : 0 < / val t) by (apply Rinv_0_lt_compat; lra).
  assert (I2 : val t * / val t = 1) by (field; lra).
  assert (It : / 1024 <= / val t <= 1048576).
  { split; [apply Rinv_le_contravar; lra|]. rewrite <- (Rinv_inv 1048576). apply Rinv_le_contravar; lra. }
  assert (XP : 0 < / 2 ^ 36) by (rewrite U36; lra).
  assert (D0 : / 2 * x <= D <= 2 * x) by (apply scaled with u; [lra|exact U|exact M1]).
  assert (D0' : 0 < D <= 2 * 2 ^ 17) by (cbn [pow] in *; lra).
  assert (Q0 : 0 < D / val t <= 2 * 2 ^ 17 * 1048576).
  { unfold Rdiv. split; [apply Rmult_lt_0_compat; lra|]. apply Rmult_le_compat; lra. }
  destruct (fdiv_val (fminus e s) t M2 ltac:(lra)) as (D1 & D2); [fold D; rewrite Rabs_pos_eq by lra; cbn [pow] in *; lra|].
  fold D in D1. set (q1 := val (fdiv (fminus e s) t)) in *.
  apply near_u in D1.
  2: { apply Rle_trans with (2 * / 2 ^ 36 * / 1024); [cbn [pow]; lra|]. unfold Rdiv. apply Rmult_le_compat; lra. }
  fold u in D1. destruct (fint_val 1 ltac:(reflexivity)) as (I1 & IF).
  assert (Q1 : 0 <= q1 <= 4 * 2 ^ 17 * 1048576) by (apply scaled in D1; [lra|lra|exact U]).
  destruct (fplus_val (fint 1) (fdiv (fminus e s) t) IF D2) as (L1 & L2); [fold q1; rewrite I1, Rabs_pos_eq by lra; cbn [pow] in *; lra|]. fold q1 in L1. rewrite I1 in L1.
  pose proof (Btrunc_floor (fplus (fint 1) (fdiv (fminus e s) t)) (Z.of_nat n)) as BT.
  set (q2 := val (fplus (fint 1) (fdiv (fminus e s) t))) in *. apply near_u in L1; [|assert (/ 2 ^ 100 < 1) by (cbn [pow]; lra); lra]. fold u in L1.
  set (Q := x / val t). assert (HQ : x = Q * val t) by (unfold Q; field; lra).
  assert (QP : 0 < Q) by (unfold Q, Rdiv; apply Rmult_lt_0_compat; [try rewrite U36 in *; lra|lra]).
  assert (DQ : Q * (1 - u) <= D / val t <= Q * (1 + u)).
  { unfold Q, Rdiv. split; [replace (x * / val t * (1 - u)) with (x * (1 - u) * / val t) by lra|replace (x * / val t * (1 + u)) with (x * (1 + u) * / val t) by lra]; apply Rmult_le_compat_r; lra. }
  set (w := D / val t) in *. clearbody w q1 q2 D. clearbody Q.
  assert (E1 : Q * (1 - u) * (1 - u) <= q1 <= Q * (1 + u) * (1 + u)) by (apply scaled_again with w; auto; lra).
  assert (E2 : (1 + Q) * (1 - u) * (1 - u) * (1 - u) <= q2 <= (1 + Q) * (1 + u) * (1 + u) * (1 + u)).
  { destruct E1 as [E1a E1b]. split.
    - apply Rle_trans with (2 := proj1 L1). replace ((1 + Q) * (1 - u) * (1 - u) * (1 - u)) with (((1 - u) * (1 - u) + Q * (1 - u) * (1 - u)) * (1 - u)) by lra.
      apply Rmult_le_compat_r; [lra|]. pose proof (squares u U). lra.
    - apply Rle_trans with (1 := proj2 L1). replace ((1 + Q) * (1 + u) * (1 + u) * (1 + u)) with (((1 + u) * (1 + u) + Q * (1 + u) * (1 + u)) * (1 + u)) by lra.
      apply Rmult_le_compat_r; [lra|]. pose proof (squares u U). lra. }
  assert (E3 : (1 + Q) * (1 - 4 * u) <= q2 <= (1 + Q) * (1 + 4 * u)).
  { destruct E2 as [E2a E2b]. split.
    - apply Rle_trans with (2 := E2a). rewrite !Rmult_assoc. apply Rmult_le_compat_l; [lra|]. apply (cube u U).
    - apply Rle_trans with (1 := E2b). rewrite !Rmult_assoc. apply Rmult_le_compat_l; [lra|]. apply (cube u U). }
  assert (K : (1 + Q) * val t * (4 * u) <= 4 * / 2 ^ 36).
  { replace ((1 + Q) * val t) with (val t + x) by lra. assert (val t + x <= 2 ^ 17) by (cbn [pow] in *; lra). unfold u. cbn [pow] in *. lra. }
  assert (KT : 4 * / 2 ^ 36 < slack n) by (try rewrite U36 in *; lra).
  unfold fcount. apply BT; rewrite <- ?INR_IZR_INZ.
  - assert (0 <= (1 + Q) * (1 - 4 * u)) by (apply Rmult_le_pos; lra). lra.
  - split.
    + apply Rle_trans with (2 := proj1 E3). apply Rmult_le_reg_r with (val t); [lra|].
      replace ((1 + Q) * (1 - 4 * u) * val t) with (val t + x - (1 + Q) * val t * (4 * u)) by lra. unfold x. lra.
    + apply Rle_lt_trans with (1 := proj2 E3). apply Rmult_lt_reg_r with (val t); [lra|].
      replace ((1 + Q) * (1 + 4 * u) * val t) with (val t + x + (1 + Q) * val t * (4 * u)) by lra. unfold x. lra.
Qed.

Lemma margin_clock s e t n : fbounds s e t -> (1 <= n)%nat -> val s + (INR n - 1) * val t + slack n <= val e -> val e + slack n <= val s + INR n * val t ->
  exists l, loop_dates (fnext t) (fover e) s l /\ length l = n /\ fcount s e t = Z.of_nat n /\
    (forall i d, nth_error l i = Some d -> Rabs (val d - (val s + INR i * val t)) <= slack n).
Proof.
  intros HB H1 L H. pose proof (fdate_near s e t n HB L H1) as N. pose proof HB as (F1 & F2 & F3 & B1 & B2 & B3).
  exists (map (fdate t s) (seq 0 n)). rewrite map_length, seq_length. split; [|split; [reflexivity|split; [apply fcount_near; assumption|]]].
  - apply floop.
    + intros i Hi. destruct (N i ltac:(lia)) as (G1 & G2). unfold fover. apply Bool.not_true_is_false. rewrite fgt_val by assumption. apply Rabs_le_inv in G2.
      assert (Ui : INR i <= INR n - 1) by (replace (INR n - 1) with (INR (n - 1)) by (rewrite minus_INR by lia; cbn; lra); apply le_INR; lia).
      assert (INR i * val t <= (INR n - 1) * val t) by (apply Rmult_le_compat_r; [cbn [pow] in *; lra|lra]).
      assert (INR i * / 2 ^ 36 <= slack n) by (unfold slack; apply Rmult_le_compat_r; [left; apply Rinv_0_lt_compat, pow_lt; lra|lra]). lra.
    + destruct (N n ltac:(lia)) as (G1 & G2). unfold fover. rewrite fgt_val by assumption. apply Rabs_le_inv in G2.
      assert (INR n * / 2 ^ 36 < slack n) by (unfold slack; apply Rmult_lt_compat_r; [apply Rinv_0_lt_compat, pow_lt; lra|lra]). lra.
  - intros i d Hd. assert (Hi : (i < n)%nat). { assert (X : nth_error (map (fdate t s) (seq 0 n)) i <> None) by congruence. apply nth_error_Some in X. rewrite map_length, seq_length in X. exact X. }
    rewrite nth_error_map in Hd. rewrite (nth_error_nth' (seq 0 n) 0%nat) in Hd by (rewrite seq_length; lia). rewrite seq_nth in Hd by lia. cbn in Hd. injection Hd as <-.
    destruct (N i ltac:(lia)) as (_ & G2). apply Rle_trans with (1 := G2). unfold slack. apply Rmult_le_compat_r; [left; apply Rinv_0_lt_compat, pow_lt; lra|]. assert (INR i <= INR n) by (apply le_INR; lia). lra.
Qed.

(** An hourly year: 8783 rows for 8784 steps; ten-minute steps over a day: 145 rows for 144 steps. *)
Definition hourly_start : binary64 := fmjd 1577836800.
Definition hourly_stop : binary64 := fmjd (1577836800 + 366 * 86400 - 3600).
Lemma hourly_rows : fcount hourly_start hourly_stop (fstep 1 Hour) = 8783%Z.
Proof. vm_compute. reflexivity. Qed.
Lemma hourly_steps : fsteps (Z.to_nat 9000) hourly_stop (fstep 1 Hour) hourly_start 0 = Some 8784%Z.
Proof. vm_compute. reflexivity. Qed.
Definition day_stop : binary64 := fmjd (1577836800 + 86400).
Lemma minutes_rows : fcount hourly_start day_stop (fstep 10 Minute) = 145%Z.
Proof. vm_compute. reflexivity. Qed.
Lemma minutes_steps : fsteps 200 day_stop (fstep 10 Minute) hourly_start 0 = Some 144%Z.
Proof. vm_compute. reflexivity. Qed.
