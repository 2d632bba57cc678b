(** The rows of a delta-h table on elevation bands. *)
From Verif Require Import Base BaseFacts GlacierTables GlacierTablesSpec GlacierTablesFacts GlacierDeltaHFacts.
Open Scope R_scope.

Lemma Rsum_opp {X} (f : X -> R) l : Rsum (fun x => - f x) l = - Rsum f l.
Proof. induction l as [|x l IH]; cbn [Rsum]; [ring|rewrite IH; ring]. Qed.
Section Rows.
Variables (m n : nat) (w : dh_width) (dh : nat -> R) (s0 : dh_band).
Hypothesis Hs0 : forall b, (b < m)%nat -> 0 < db_area s0 b /\ 0 < db_we s0 b.
Hypothesis Hdh : forall b, (b < m)%nat -> 0 <= dh b.
Hypothesis Hn : (0 < n)%nat.
Definition bvol (s : dh_band) (b : nat) : R := db_area s b * db_we s b.
Definition bdemand (s : dh_band) : R := Rsum (fun b => db_area s b * dh b) (seq 0 m).
Definition bmass (s : dh_band) : R := Rsum (bvol s) (seq 0 m).
Definition band_ok (s : dh_band) : Prop :=
  forall b, (b < m)%nat -> (0 < db_area s b /\ 0 < db_we s b) \/ (db_area s b = 0 /\ db_we s b = 0).
Definition width_inv (s : dh_band) : Prop := forall b, (b < m)%nat ->
  match w with
  | WidthFixed => 0 < db_area s b -> db_area s b = db_area s0 b
  | WidthPrevious => db_area s b = db_area s0 b * sqrt (bvol s b / bvol s0 b)
  | WidthInitial => True
  end.
Definition width_rel (s s' : dh_band) : Prop := forall b, (b < m)%nat ->
  match w with WidthInitial => db_area s b * db_area s' b ^ 2 * db_we s0 b = db_area s0 b ^ 2 * bvol s' b | _ => True end.
Definition bstep (M0 : R) (s s' : dh_band) : Prop := exists f, 0 <= f /\ f * bdemand s = M0 / INR n + db_excess s /\
  (forall b, (b < m)%nat -> bvol s' b = Rmax 0 (bvol s b - f * dh b * db_area s b)) /\
  db_excess s' = Rsum (fun b => f * dh b * db_area s b) (seq 0 m) - (bmass s - bmass s') /\ 0 <= db_excess s' /\ width_rel s s'.

Lemma band_nonneg s b : band_ok s -> (b < m)%nat -> 0 <= db_area s b /\ 0 <= db_we s b.
Proof. intros H Hb. destruct (H b Hb); lra. Qed.
Lemma bdemand_nonneg s : band_ok s -> 0 <= bdemand s.
Proof. intro H. apply Rsum_nonneg. intros b Hb. apply in_seq in Hb. apply Rmult_le_pos; [apply band_nonneg; [exact H|lia]|apply Hdh; lia]. Qed.

(** One band: its state after the melt and the change of width. *)
Definition we_after (f : R) (s : dh_band) (b : nat) : R := if Rltb (db_we s b - f * dh b) 0 then 0 else db_we s b - f * dh b.
Lemma after_cases f s b : 0 <= f -> band_ok s -> (b < m)%nat -> 0 <= we_after f s b /\ (0 < we_after f s b -> 0 < db_area s b /\ 0 < db_we s b) /\
  db_area s b * we_after f s b = Rmax 0 (bvol s b - f * dh b * db_area s b).
Proof.
  intros Hf Hs Hb. unfold we_after, bvol. assert (0 <= f * dh b) by (apply Rmult_le_pos; [exact Hf|apply Hdh; exact Hb]). destruct (band_nonneg s b Hs Hb) as (Ap & Wp).
  replace (db_area s b * db_we s b - f * dh b * db_area s b) with ((db_we s b - f * dh b) * db_area s b) by ring.
  destruct (Rltb (db_we s b - f * dh b) 0) eqn:E; [apply Rltb_true in E|apply Rltb_false in E].
  - split; [lra|]. split; [lra|]. rewrite Rmult_0_r. symmetry. apply Rmax_left. assert (0 <= - (db_we s b - f * dh b) * db_area s b) by (apply Rmult_le_pos; lra). lra.
  - split; [lra|]. split; [intro; destruct (Hs b Hb); lra|]. rewrite Rmax_right; [ring|apply Rmult_le_pos; lra].
Qed.
Lemma sqrt_ratio x y : 0 < x -> 0 < y -> 0 < sqrt (x / y) /\ sqrt (x / y) ^ 2 = x / y.
Proof.
  intros Hx Hy. assert (0 < x / y) by (apply Rmult_lt_0_compat; [exact Hx|apply Rinv_0_lt_compat; exact Hy]). split; [apply sqrt_lt_R0; exact H|]. apply pow2_sqrt. lra.
Qed.
Lemma sqrt_zero_ratio y : sqrt (0 / y) = 0.
Proof. unfold Rdiv. rewrite Rmult_0_l. apply sqrt_0. Qed.

Lemma db_step_ok M0 s : band_ok s -> width_inv s -> 0 <= db_excess s -> 0 <= M0 ->
  (bdemand s = 0 -> db_step m n w M0 dh s0 s = UB) /\
  (bdemand s <> 0 -> exists s', db_step m n w M0 dh s0 s = Ok s' /\ band_ok s' /\ width_inv s' /\ bstep M0 s s').
Proof.
  intros Hs Hw He HM. unfold db_step, dh_factor. fold (bdemand s). split; intro Hd; [rewrite (proj2 (Reqb_true _ _) Hd); reflexivity|].
  rewrite (proj2 (Reqb_false _ _) Hd). cbn [bind]. pose proof (bdemand_nonneg s Hs) as Dn. set (f := (M0 / INR n + db_excess s) / bdemand s).
  assert (Np : 0 < INR n) by (apply lt_0_INR; exact Hn).
  assert (Hf : 0 <= f). { unfold f. apply Rmult_le_pos; [|apply Rlt_le, Rinv_0_lt_compat; lra]. assert (0 <= M0 / INR n) by (apply Rmult_le_pos; [exact HM|apply Rlt_le, Rinv_0_lt_compat; exact Np]). lra. }
  assert (Ef : f * bdemand s = M0 / INR n + db_excess s) by (unfold f; field; split; lra).
  set (t := db_thin m f dh s). assert (Et : forall b, db_we t b = we_after f s b) by reflexivity.
  pose proof (after_cases f s) as AC.
  (* the new areas, where ice is left *)
  assert (Ap : forall b, (b < m)%nat -> (0 < we_after f s b -> 0 < db_new_area w s0 s (db_we t) b) /\ (we_after f s b = 0 -> w <> WidthFixed -> db_new_area w s0 s (db_we t) b = 0)).
  { intros b Hb. destruct (AC b Hf Hs Hb) as (A1 & A2 & _). destruct (Hs0 b Hb) as (P1 & P2). unfold db_new_area. rewrite Et. split.
    - intro Hp. destruct (A2 Hp) as (Q1 & Q2). destruct w.
      + rewrite (proj2 (Rltb_true _ _) P2). apply Rmult_lt_0_compat; [exact P1|]. apply sqrt_ratio; assumption.
      + rewrite (proj2 (Rltb_true _ _) Q2). apply Rmult_lt_0_compat; [exact Q1|]. apply sqrt_ratio; assumption.
      + exact Q1.
    - intros Hz Hne. rewrite Hz. rewrite !sqrt_zero_ratio. destruct w; [destruct (Rltb _ _); ring|destruct (Rltb _ _); ring|congruence]. }
  unfold db_width. set (A := db_new_area w s0 s (db_we t)) in *.
  assert (NoUB : existsb (fun b => Rltb 0 (db_we t b) && Reqb (A b) 0) (seq 0 m) = false).
  { apply not_true_is_false. intro X. apply existsb_exists in X. destruct X as (b & Hb & X). apply in_seq in Hb. apply andb_true_iff in X. destruct X as (X1 & X2).
    apply Rltb_true in X1. apply Reqb_true in X2. destruct (Ap b ltac:(lia)) as (Y & _). rewrite Et in X1. specialize (Y X1). lra. }
  set (we2 := fun b => match w with WidthFixed => db_we t b | _ => if Rltb 0 (db_we t b) then db_we t b * (db_area s b / A b) else db_we t b end).
  exists (mkDB (fun b => if Reqb (we2 b) 0 then 0 else A b) we2 (db_excess t)). split.
  { destruct w; [rewrite NoUB; reflexivity|rewrite NoUB; reflexivity|reflexivity]. }
  (* band by band *)
  assert (B : forall b, (b < m)%nat -> let a' := if Reqb (we2 b) 0 then 0 else A b in
     (0 < we_after f s b -> 0 < we2 b /\ a' = A b /\ 0 < A b /\ a' * we2 b = db_area s b * we_after f s b) /\ (we_after f s b = 0 -> we2 b = 0 /\ a' = 0)).
  { intros b Hb. destruct (AC b Hf Hs Hb) as (A1 & A2 & _). destruct (Ap b Hb) as (Y1 & Y2). cbn zeta. split.
    - intro Hp. destruct (A2 Hp) as (Q1 & Q2). specialize (Y1 Hp).
      assert (W : 0 < we2 b /\ A b * we2 b = db_area s b * we_after f s b).
      { unfold we2. rewrite Et. rewrite (proj2 (Rltb_true _ _) Hp). destruct w eqn:Ew; [| |split; [exact Hp|unfold A, db_new_area; reflexivity]]; (split; [apply Rmult_lt_0_compat; [exact Hp|apply Rmult_lt_0_compat; [exact Q1|apply Rinv_0_lt_compat; exact Y1]]|field; lra]). }
      destruct W as (W1 & W2). rewrite (proj2 (Reqb_false (we2 b) 0)) by lra. split; [exact W1|]. split; [reflexivity|]. split; [exact Y1|exact W2].
    - intro Hz. assert (W : we2 b = 0) by (unfold we2; rewrite Et, Hz; rewrite (proj2 (Rltb_false 0 0)) by lra; destruct w; reflexivity).
      split; [exact W|]. rewrite (proj2 (Reqb_true _ _) W). reflexivity. }
  set (s' := mkDB (fun b => if Reqb (we2 b) 0 then 0 else A b) we2 (db_excess t)).
  assert (Vb : forall b, (b < m)%nat -> bvol s' b = Rmax 0 (bvol s b - f * dh b * db_area s b)).
  { intros b Hb. destruct (AC b Hf Hs Hb) as (A1 & A2 & <-). destruct (B b Hb) as (Z1 & Z2). unfold bvol. cbn [s' db_area db_we]. destruct (Rle_lt_or_eq_dec _ _ A1) as [Hp|Hz].
    - destruct (Z1 Hp) as (_ & _ & _ & Q). exact Q.
    - symmetry in Hz. destruct (Z2 Hz) as (Q1 & Q2). rewrite Q1, Hz. ring. }
  assert (Ex : db_excess s' = Rsum (fun b => f * dh b * db_area s b) (seq 0 m) - (bmass s - bmass s')).
  { unfold bmass. cbn [s' db_excess]. unfold t, db_thin. cbn [db_excess].
    assert (Q : Rsum (fun b => (if Rltb (db_we s b - f * dh b) 0 then db_we s b - f * dh b else 0) * db_area s b) (seq 0 m) + Rsum (fun b => f * dh b * db_area s b) (seq 0 m) - Rsum (bvol s) (seq 0 m) + Rsum (bvol s') (seq 0 m) = 0); [|lra].
    rewrite <- Rsum_plus. unfold Rminus. rewrite <- Rsum_opp, <- !Rsum_plus. apply Rsum_zero. intros b Hb. apply in_seq in Hb. rewrite (Vb b ltac:(lia)). destruct (AC b Hf Hs ltac:(lia)) as (_ & _ & <-).
    unfold we_after, bvol, Rminus. destruct (Rltb (db_we s b + - (f * dh b)) 0); ring. }
  assert (Exp : 0 <= db_excess s').
  { cbn [s' db_excess]. unfold t, db_thin. cbn [db_excess]. rewrite <- Rsum_opp. apply Rsum_nonneg. intros b Hb. apply in_seq in Hb. destruct (band_nonneg s b Hs ltac:(lia)) as (Q & _).
    destruct (Rltb (db_we s b - f * dh b) 0) eqn:E; [apply Rltb_true in E|rewrite Rmult_0_l; lra]. assert (0 <= - (db_we s b - f * dh b) * db_area s b) by (apply Rmult_le_pos; lra). lra. }
  split; [|split].
  - intros b Hb. destruct (AC b Hf Hs Hb) as (A1 & A2 & _). destruct (B b Hb) as (Z1 & Z2). cbn [s' db_area db_we]. destruct (Rle_lt_or_eq_dec _ _ A1) as [Hp|Hz].
    + destruct (Z1 Hp) as (Q1 & Q2 & Q3 & _). left. rewrite Q2. split; assumption.
    + symmetry in Hz. destruct (Z2 Hz) as (Q1 & Q2). right. split; assumption.
  - intros b Hb. specialize (Hw b Hb). destruct (AC b Hf Hs Hb) as (A1 & A2 & A3). destruct (B b Hb) as (Z1 & Z2). specialize (Vb b Hb). destruct (Hs0 b Hb) as (P1 & P2).
    assert (V0 : 0 < bvol s0 b) by (apply Rmult_lt_0_compat; assumption).
    destruct (Rle_lt_or_eq_dec _ _ A1) as [Hp|Hz].
    + destruct (Z1 Hp) as (Q1 & Q2 & Q3 & Q4). destruct (A2 Hp) as (R1 & R2). cbn [s' db_area]. rewrite Q2. clear B Z1 Z2. assert (Vs : 0 < bvol s b) by (apply Rmult_lt_0_compat; assumption).
      assert (Vs' : bvol s' b = db_area s b * we_after f s b) by lra.
      unfold A in *. clear A. destruct w; [exact I| |intro; unfold db_new_area; apply Hw; exact R1].
      unfold db_new_area. rewrite Et, (proj2 (Rltb_true _ _) R2). rewrite Hw at 1. rewrite Rmult_assoc. f_equal. rewrite <- sqrt_mult.
      * f_equal. rewrite Vs'. unfold bvol. field. repeat split; try lra.
      * apply Rlt_le, Rmult_lt_0_compat; [exact Vs|apply Rinv_0_lt_compat; exact V0].
      * apply Rlt_le, Rmult_lt_0_compat; [exact Hp|apply Rinv_0_lt_compat; exact R2].
    + symmetry in Hz. destruct (Z2 Hz) as (Q1 & Q2). cbn [s' db_area]. destruct w; [exact I| |intro; lra]. rewrite Q2. unfold bvol. cbn [s' db_area db_we]. rewrite Q1, Rmult_0_r, sqrt_zero_ratio. ring.
  - exists f. split; [exact Hf|]. split; [exact Ef|]. split; [exact Vb|]. split; [exact Ex|]. split; [exact Exp|].
    intros b Hb. destruct (AC b Hf Hs Hb) as (A1 & A2 & A3). destruct (B b Hb) as (Z1 & Z2). specialize (Vb b Hb). destruct (Hs0 b Hb) as (P1 & P2).
    unfold A in *. clear A. destruct w; [|exact I|exact I]. rewrite Vb, <- A3. cbn [s' db_area]. destruct (Rle_lt_or_eq_dec _ _ A1) as [Hp|Hz].
    + destruct (Z1 Hp) as (Q1 & -> & Q3 & Q4). unfold db_new_area. rewrite Et, (proj2 (Rltb_true _ _) P2). destruct (sqrt_ratio _ _ Hp P2) as (S1 & S2).
      rewrite Rpow_mult_distr, S2. field. lra.
    + symmetry in Hz. destruct (Z2 Hz) as (Q1 & Q2). rewrite Q2, Hz. ring.
Qed.

Lemma bstep_mass M0 s s' : 0 <= M0 -> band_ok s -> bstep M0 s s' -> bmass s' - db_excess s' = bmass s - db_excess s - M0 / INR n /\ (forall b, (b < m)%nat -> bvol s' b <= bvol s b).
Proof.
  intros HM Hs (f & Hf & E1 & E2 & E3 & _). split.
  - rewrite E3. unfold bdemand in E1. rewrite <- Rsum_scal in E1. rewrite (Rsum_ext_in (fun b => f * dh b * db_area s b) (fun b => f * (db_area s b * dh b))) by (intros; ring). lra.
  - intros b Hb. rewrite (E2 b Hb). destruct (band_nonneg s b Hs Hb) as (A1 & A2). apply Rmax_lub; [apply Rmult_le_pos; assumption|].
    assert (0 <= f * dh b * db_area s b) by (apply Rmult_le_pos; [apply Rmult_le_pos; [exact Hf|apply Hdh; exact Hb]|exact A1]). lra.
Qed.
Lemma db_rows_ok M0 : 0 <= M0 -> forall k s, band_ok s -> width_inv s -> 0 <= db_excess s ->
  db_rows m n w M0 dh s0 s k <> Throw /\
  forall l, db_rows m n w M0 dh s0 s k = Ok l -> length l = S k /\ (forall d, nth 0 l d = s) /\
    (forall r d, (r <= k)%nat -> band_ok (nth r l d) /\ width_inv (nth r l d) /\ 0 <= db_excess (nth r l d)) /\
    (forall r d, (r < k)%nat -> bstep M0 (nth r l d) (nth (S r) l d)).
Proof.
  intro HM. induction k as [|k IH]; intros s Hs Hw He; cbn [db_rows].
  - split; [discriminate|]. intros l [= <-]. split; [reflexivity|]. split; [reflexivity|]. split; [|intros; lia]. intros r d Hr. assert (r = 0%nat) by lia. subst r. cbn. auto.
  - destruct (db_step_ok M0 s Hs Hw He HM) as (A & B). destruct (Req_dec (bdemand s) 0) as [Z|Z]; [rewrite (A Z); split; [discriminate|discriminate]|].
    destruct (B Z) as (s' & -> & S1 & S2 & S3). cbn [bind]. assert (He' : 0 <= db_excess s') by (destruct S3 as (f & _ & _ & _ & _ & X & _); exact X).
    destruct (IH s' S1 S2 He') as (N & O). split.
    + destruct (db_rows m n w M0 dh s0 s' k); [discriminate|congruence|discriminate].
    + intros l Hl. apply bind_ok in Hl. destruct Hl as (q & Hq & Hl). injection Hl as <-. destruct (O q Hq) as (L & F & R1 & R2). split; [cbn; lia|]. split; [reflexivity|]. split.
      * intros r d Hr. destruct r; [cbn; auto|]. cbn [nth]. apply R1. lia.
      * intros r d Hr. destruct r; [cbn [nth]; rewrite F; exact S3|]. cbn [nth]. apply (R2 r d). lia.
Qed.
Lemma bdemand_pos s : band_ok s -> (forall b, (b < m)%nat -> 0 < dh b) -> 0 < bmass s -> 0 < bdemand s.
Proof.
  intros Hs Hd Hm. destruct (Rle_lt_or_eq_dec _ _ (bdemand_nonneg s Hs)) as [|Z]; [assumption|exfalso]. symmetry in Z.
  assert (bmass s = 0); [|lra]. unfold bmass. apply Rsum_zero. intros b Hb. unfold bvol. pose proof Hb as Hb'. apply in_seq in Hb'. destruct (Hs b ltac:(lia)) as [(Q & _)|(Q & _)]; [exfalso|rewrite Q; ring].
  assert (X : db_area s b * dh b <= bdemand s).
  { apply (Rsum_elem_le (fun b => db_area s b * dh b)); [|exact Hb]. intros i Hi. apply in_seq in Hi. apply Rmult_le_pos; [apply band_nonneg; [exact Hs|lia]|apply Hdh; lia]. }
  assert (0 < db_area s b * dh b) by (apply Rmult_lt_0_compat; [exact Q|apply Hd; lia]). lra.
Qed.
Lemma db_rows_exist M0 : 0 < M0 -> (forall b, (b < m)%nat -> 0 < dh b) -> forall k s i, band_ok s -> width_inv s -> 0 <= db_excess s ->
  bmass s - db_excess s = (1 - INR i / INR n) * M0 -> (i + k <= n)%nat -> exists l, db_rows m n w M0 dh s0 s k = Ok l.
Proof.
  intros HM Hd. assert (Np : 0 < INR n) by (apply lt_0_INR; exact Hn). induction k as [|k IH]; intros s i Hs Hw He Hm Hk; cbn [db_rows]; [eauto|].
  destruct (db_step_ok M0 s Hs Hw He (Rlt_le _ _ HM)) as (_ & B).
  assert (Pm : 0 < bmass s).
  { assert (INR i < INR n) by (apply lt_INR; lia). assert (0 < (1 - INR i / INR n) * M0); [|lra]. apply Rmult_lt_0_compat; [|exact HM].
    assert (INR i / INR n < 1); [|lra]. apply Rmult_lt_reg_r with (INR n); [exact Np|]. unfold Rdiv. rewrite Rmult_assoc, Rinv_l by lra. lra. }
  destruct B as (s' & -> & S1 & S2 & S3); [pose proof (bdemand_pos s Hs Hd Pm); lra|]. cbn [bind].
  destruct (bstep_mass M0 s s' (Rlt_le _ _ HM) Hs S3) as (Q & _).
  destruct (IH s' (S i) S1 S2) as (l & ->); [destruct S3 as (f & _ & _ & _ & _ & X & _); exact X| |lia|cbn [bind]; eauto].
  rewrite Q, Hm, S_INR. field. lra.
Qed.
(** The width at the end: ice kept, extent as the square root. *)
Lemma db_final_ok s : band_ok s -> (forall b, (b < m)%nat -> 0 < db_area s b -> db_area s b = db_area s0 b) ->
  exists s', db_final m s0 s = Ok s' /\ band_ok s' /\ (forall b, (b < m)%nat -> bvol s' b = bvol s b /\ db_area s' b = db_area s0 b * sqrt (bvol s b / bvol s0 b)).
Proof using Hs0 Hn.
  intros Hs Hw. set (A := fun b => if Rltb 0 (db_we s0 b) then db_area s0 b * sqrt (db_we s b / db_we s0 b) else db_area s b).
  assert (Ae : forall b, (b < m)%nat -> A b = db_area s0 b * sqrt (bvol s b / bvol s0 b) /\ (0 < db_we s b -> 0 < A b /\ db_area s b = db_area s0 b)).
  { intros b Hb. destruct (Hs0 b Hb) as (P1 & P2). unfold A. rewrite (proj2 (Rltb_true _ _) P2). destruct (Hs b Hb) as [(Q1 & Q2)|(Q1 & Q2)].
    - pose proof (Hw b Hb Q1) as Ea. split; [f_equal; f_equal; unfold bvol; rewrite Ea; field; lra|]. intros _. split; [apply Rmult_lt_0_compat; [exact P1|apply sqrt_ratio; assumption]|exact Ea].
    - split; [|lra]. unfold bvol. rewrite Q2, Rmult_0_r, !sqrt_zero_ratio. reflexivity. }
  assert (NoUB : existsb (fun b => Rltb 0 (db_we s b) && Reqb (A b) 0) (seq 0 m) = false).
  { apply not_true_is_false. intro X. apply existsb_exists in X. destruct X as (b & Hb & X). apply in_seq in Hb. apply andb_true_iff in X. destruct X as (X1 & X2).
    apply Rltb_true in X1. apply Reqb_true in X2. destruct (Ae b ltac:(lia)) as (_ & Y). destruct (Y X1). lra. }
  change (db_final m s0 s) with (if existsb (fun b => Rltb 0 (db_we s b) && Reqb (A b) 0) (seq 0 m) then UB
    else Ok (mkDB A (fun b => if Rltb 0 (db_we s b) then db_we s b * (db_area s0 b / A b) else db_we s b) (db_excess s))).
  rewrite NoUB. eexists. split; [reflexivity|].
  assert (K : forall b, (b < m)%nat -> (0 < A b /\ 0 < (if Rltb 0 (db_we s b) then db_we s b * (db_area s0 b / A b) else db_we s b) /\ A b * (if Rltb 0 (db_we s b) then db_we s b * (db_area s0 b / A b) else db_we s b) = bvol s b) \/
     (A b = 0 /\ (if Rltb 0 (db_we s b) then db_we s b * (db_area s0 b / A b) else db_we s b) = 0 /\ bvol s b = 0)).
  { intros b Hb. destruct (Hs0 b Hb) as (P1 & P2). destruct (Ae b Hb) as (E1 & E2). destruct (Hs b Hb) as [(Q1 & Q2)|(Q1 & Q2)].
    - destruct (E2 Q2) as (F1 & F2). left. rewrite (proj2 (Rltb_true _ _) Q2). split; [exact F1|]. split; [apply Rmult_lt_0_compat; [exact Q2|apply Rmult_lt_0_compat; [exact P1|apply Rinv_0_lt_compat; exact F1]]|].
      unfold bvol. rewrite F2. field. lra.
    - right. rewrite Q2, (proj2 (Rltb_false 0 0)) by lra. unfold bvol. rewrite Q2. split; [|split; [reflexivity|ring]]. rewrite E1. unfold bvol. rewrite Q2, Rmult_0_r, sqrt_zero_ratio. ring. }
  split.
  - intros b Hb. cbn [db_area db_we]. destruct (K b Hb) as [(K1 & K2 & _)|(K1 & K2 & _)]; [left|right]; split; assumption.
  - intros b Hb. unfold bvol at 1. cbn [db_area db_we]. destruct (Ae b Hb) as (E1 & _). split; [|exact E1]. destruct (K b Hb) as [(_ & _ & K3)|(K1 & K2 & K3)]; [exact K3|]. rewrite K1, K3. ring.
Qed.
End Rows.
