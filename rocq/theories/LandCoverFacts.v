(** Lemmas about land covers. *)
From Verif Require Import Base BaseFacts LandCover LandCoverSpec.
Open Scope R_scope.
Local Opaque EPSILON_D PRECISION.

Lemma NearlyZero_spec a t : BoolSpec (Rabs a <= t) (t < Rabs a) (NearlyZero a t).
Proof. unfold NearlyZero. apply Rleb_spec. Qed.
Lemma NearlyEqual_spec a b t : BoolSpec (Rabs (a - b) <= t) (t < Rabs (a - b)) (NearlyEqual a b t).
Proof. unfold NearlyEqual. apply Rleb_spec. Qed.
Lemma Rabs_cases x t : t < Rabs x -> 0 <= t -> x < - t \/ t < x.
Proof. unfold Rabs. destruct (Rcase_abs x); intros; [left|right]; lra. Qed.

Lemma Rsum_upd {A} (F : A -> R) (g : nat -> A) v i n : (i < n)%nat ->
  Rsum (fun j => F (upd g i v j)) (seq 0 n) = Rsum (fun j => F (g j)) (seq 0 n) - F (g i) + F v.
Proof.
  intros H.
  assert (E : forall l, NoDup l -> In i l ->
     Rsum (fun j => F (upd g i v j)) l = Rsum (fun j => F (g j)) l - F (g i) + F v).
  { induction l as [|a l IH]; [intros _ []|]. intros Hd Hi. inversion Hd as [|? ? Ha Hl]; subst. cbn.
    destruct Hi as [->|Hi].
    - rewrite upd_same. rewrite (Rsum_ext_in (fun j => F (upd g i v j)) (fun j => F (g j)) l); [lra|].
      intros x Hx. rewrite upd_other; [reflexivity|]. intros ->. contradiction.
    - rewrite IH by assumption. rewrite upd_other; [lra|]. intros ->. contradiction. }
  apply E; [apply seq_NoDup|]. apply in_seq. lia.
Qed.

Lemma total_put u i c : (i < hu_count u)%nat ->
  total_fraction (put_cover u i c) = total_fraction u - cv_fraction (hu_cover u i) + cv_fraction c.
Proof. intros H. unfold total_fraction, put_cover; cbn. exact (Rsum_upd cv_fraction (hu_cover u) c i (hu_count u) H). Qed.
Lemma volume_put depth u i c : (i < hu_count u)%nat ->
  volume depth (put_cover u i c) = volume depth u - cv_fraction (hu_cover u i) * depth (hu_cover u i) + cv_fraction c * depth c.
Proof.
  intros H. unfold volume, put_cover; cbn.
  exact (Rsum_upd (fun c => cv_fraction c * depth c) (hu_cover u) c i (hu_count u) H).
Qed.

Lemma find_some_lt u n i : find_cover u n = Some i -> (i < hu_count u)%nat /\ cv_name (hu_cover u i) = n.
Proof.
  unfold find_cover. intros H. apply find_some in H. destruct H as [H1 H2]. apply in_seq in H1.
  apply String.eqb_eq in H2. split; [lia|assumption].
Qed.
Lemma first_found_lt u l i : first_found u l = Some i -> (i < hu_count u)%nat.
Proof.
  induction l as [|n l IH]; cbn; [discriminate|]. destruct (find_cover u n) eqn:E; [|exact IH].
  intros [= <-]. apply find_some_lt in E. tauto.
Qed.
Lemma generic_lt u i : generic_cover u = Some i -> (i < hu_count u)%nat.
Proof. apply first_found_lt. Qed.

(** Same names and number of covers. *)
Definition same_names (u v : hunit) : Prop :=
  hu_count u = hu_count v /\ forall i, cv_name (hu_cover u i) = cv_name (hu_cover v i).
Lemma same_names_refl u : same_names u u. Proof. split; auto. Qed.
Lemma same_names_trans u v w : same_names u v -> same_names v w -> same_names u w.
Proof. intros [A B] [C D]. split; [congruence|]. intros i. rewrite B. apply D. Qed.
Lemma same_names_put u i c : cv_name c = cv_name (hu_cover u i) -> same_names u (put_cover u i c).
Proof.
  intros H. split; [reflexivity|]. intros j. cbn. destruct (Nat.eq_dec j i) as [->|n].
  - rewrite upd_same; auto.
  - rewrite upd_other; auto.
Qed.
Lemma find_cover_same u v n : same_names u v -> find_cover u n = find_cover v n.
Proof.
  intros [A B]. unfold find_cover. rewrite A. induction (seq 0 (hu_count v)) as [|a l IH]; cbn; [reflexivity|].
  rewrite B, IH. reflexivity.
Qed.
Lemma generic_same u v : same_names u v -> generic_cover u = generic_cover v.
Proof.
  intros H. unfold generic_cover. induction generic_names as [|n l IH]; cbn; [reflexivity|].
  rewrite (find_cover_same u v n H), IH. reflexivity.
Qed.

Lemma move_names u d r a b c s : same_names u (move_strip u d r a b c s).
Proof.
  unfold move_strip. destruct (NearlyZero b EPSILON_D); [apply same_names_refl|].
  assert (H : same_names u (put_cover u r (set_slot (hu_cover u r) (receive (hu_cover u d) (hu_cover u r) a b s))))
    by (apply same_names_put; reflexivity).
  destruct (NearlyZero c EPSILON_D); [|exact H]. eapply same_names_trans; [exact H|].
  apply same_names_put. cbn [put_cover hu_cover]. destruct (Nat.eq_dec d r) as [->|n].
  - rewrite upd_same. reflexivity.
  - rewrite upd_other by auto. reflexivity.
Qed.
Lemma transfer_names u c a b g x y : same_names u (transfer u c a b g x y).
Proof.
  unfold transfer. destruct (NearlyZero (b - a) EPSILON_D); [apply same_names_refl|].
  destruct (Rltb 0 (b - a)); apply move_names.
Qed.
Lemma move_fractions u d r a b c s i : cv_fraction (hu_cover (move_strip u d r a b c s) i) = cv_fraction (hu_cover u i).
Proof.
  unfold move_strip. destruct (NearlyZero b EPSILON_D); [reflexivity|].
  assert (H : forall j, cv_fraction (upd (hu_cover u) r (set_slot (hu_cover u r) (receive (hu_cover u d) (hu_cover u r) a b s)) j) = cv_fraction (hu_cover u j)).
  { intros j. destruct (Nat.eq_dec j r) as [->|n]; [rewrite upd_same|rewrite upd_other by auto]; reflexivity. }
  destruct (NearlyZero c EPSILON_D); cbn; [|apply H].
  destruct (Nat.eq_dec i d) as [->|n]; [rewrite upd_same; reflexivity|rewrite upd_other by auto]. apply H.
Qed.
Lemma transfer_fractions u c a b g x y i : cv_fraction (hu_cover (transfer u c a b g x y) i) = cv_fraction (hu_cover u i).
Proof.
  unfold transfer. destruct (NearlyZero (b - a) EPSILON_D); [reflexivity|].
  destruct (Rltb 0 (b - a)); apply move_fractions.
Qed.
Lemma total_same u v : hu_count u = hu_count v -> (forall i, cv_fraction (hu_cover u i) = cv_fraction (hu_cover v i)) ->
  total_fraction u = total_fraction v.
Proof. intros A B. unfold total_fraction. rewrite A. apply Rsum_ext_in. auto. Qed.

(** *** Fractions *)
Lemma fix_total_ok u u' : (forall i, (i < hu_count u)%nat -> 0 <= cv_fraction (hu_cover u i) <= 1) ->
  fix_total u = (true, u') -> fractions_ok u'.
Proof.
  intros Hf. pose proof EPSILON_D_pos as He. unfold fix_total.
  destruct (NearlyEqual_spec (total_fraction u) 1 EPSILON_D) as [Ha|Ha].
  - intros [= <-]. split; assumption.
  - destruct (generic_cover u) as [g|] eqn:G; [|discriminate]. pose proof (generic_lt _ _ G) as Hg.
    unfold LessThan. set (fg := cv_fraction (hu_cover u g)). set (T := total_fraction u) in *.
    destruct (Rltb_spec fg (T - 1 - EPSILON_D)) as [Hl|Hl]; [discriminate|].
    assert (Hrest : T - fg >= 0).
    { unfold T, fg. pose proof (total_put u g (set_fraction 0 (hu_cover u g)) Hg) as E. cbn [set_fraction cv_fraction] in E.
      assert (0 <= total_fraction (put_cover u g (set_fraction 0 (hu_cover u g)))).
      { apply Rsum_nonneg. intros i Hi. apply in_seq in Hi. cbn in *. unfold upd.
        destruct (Nat.eqb_spec i g); cbn; [lra|]. apply Hf. lia. }
      lra. }
    destruct (Rltb_spec 0 (fg - (T - 1))) as [Hp|Hp]; intros [= <-]; split.
    + cbn. intros i Hi. unfold upd. destruct (Nat.eqb_spec i g); cbn; [lra|apply Hf; assumption].
    + rewrite total_put by assumption. cbn. fold fg. fold T.
      replace (T - fg + (fg - (T - 1)) - 1) with 0 by lra. rewrite Rabs_R0. lra.
    + cbn. intros i Hi. unfold upd. destruct (Nat.eqb_spec i g); cbn; [lra|apply Hf; assumption].
    + rewrite total_put by assumption. cbn. fold fg. fold T.
      apply Rabs_le. specialize (Hf g Hg). fold fg in Hf. lra.
Qed.

Lemma set_in_range u i f : (forall j, (j < hu_count u)%nat -> 0 <= cv_fraction (hu_cover u j) <= 1) -> 0 <= f <= 1 ->
  forall j, (j < hu_count u)%nat -> 0 <= cv_fraction (hu_cover (put_cover u i (set_fraction f (hu_cover u i))) j) <= 1.
Proof. intros H Hf j Hj. cbn. unfold upd. destruct (Nat.eqb_spec j i); cbn; auto. Qed.

Lemma change_ok u n f u' : fractions_ok u -> change_fraction u n f = (true, u') -> fractions_ok u'.
Proof.
  intros [Hr Ht]. unfold change_fraction.
  destruct (Rltb_spec f 0) as [Ha|Ha]; [discriminate|]. destruct (Rltb_spec 1 f) as [Hb|Hb]; [discriminate|]. cbn [orb].
  destruct (find_cover u n) as [ch|] eqn:F; [|discriminate].
  assert (Hd : forall v, (forall i, cv_fraction (hu_cover v i) = cv_fraction (hu_cover u i)) -> hu_count v = hu_count u ->
     fix_total (put_cover v ch (set_fraction f (hu_cover v ch))) = (true, u') -> fractions_ok u').
  { intros v Hv Hc. apply fix_total_ok. intros i Hi. apply set_in_range; try lra; try assumption.
    intros j Hj. rewrite Hv. apply Hr. lia. }
  destruct (generic_cover u) as [g|] eqn:G; [|apply Hd; auto].
  destruct (negb (g =? ch)%nat && (1 <? hu_count u)%nat); [|apply Hd; auto].
  destruct (LessThan _ _ _); [discriminate|].
  apply Hd; [intros i; apply transfer_fractions|].
  symmetry. apply (proj1 (transfer_names u ch _ f g _ _)).
Qed.
Lemma change_all_ok l : forall u u', fractions_ok u -> change_all u l = (true, u') -> fractions_ok u'.
Proof.
  induction l as [|[n f] l IH]; cbn; intros u u' H; [intros [= <-]; exact H|].
  destruct (change_fraction u n f) as [b v] eqn:E. destruct b; [|discriminate].
  apply IH. eapply change_ok; eassumption.
Qed.

Lemma change_refused u n f u' : fractions_ok u -> total_fraction u <= 1 -> generic_cover u <> None ->
  change_fraction u n f = (false, u') -> u' = u.
Proof.
  intros [Hr Ht] Hs Hg. pose proof EPSILON_D_pos as He. unfold change_fraction.
  destruct (Rltb_spec f 0) as [Ha|Ha]; [intros [= <-]; auto|]. destruct (Rltb_spec 1 f) as [Hb|Hb]; [intros [= <-]; auto|].
  cbn [orb]. destruct (find_cover u n) as [ch|] eqn:F; [|intros [= <-]; auto].
  apply find_some_lt in F. destruct F as [Hch _].
  destruct (generic_cover u) as [g|] eqn:G; [|congruence]. pose proof (generic_lt _ _ G) as Hgl.
  assert (Hd : forall v, (forall i, cv_fraction (hu_cover v i) = cv_fraction (hu_cover u i)) -> same_names u v ->
     (g <> ch -> cv_fraction (hu_cover u g) - (f - cv_fraction (hu_cover u ch)) >= - EPSILON_D) ->
     fix_total (put_cover v ch (set_fraction f (hu_cover v ch))) = (false, u') -> False).
  { intros v Hv Hn Hroom. unfold fix_total.
    assert (Hcv : (ch < hu_count v)%nat) by (rewrite <- (proj1 Hn); assumption).
    rewrite total_put by assumption. cbn [set_fraction cv_fraction]. rewrite Hv.
    rewrite (total_same v u (eq_sym (proj1 Hn)) Hv).
    set (T := total_fraction u - cv_fraction (hu_cover u ch) + f).
    destruct (NearlyEqual_spec T 1 EPSILON_D) as [Hq|Hq]; [discriminate|].
    assert (Hgv : generic_cover (put_cover v ch (set_fraction f (hu_cover v ch))) = Some g).
    { rewrite <- G. symmetry. apply generic_same. eapply same_names_trans; [exact Hn|]. apply same_names_put. reflexivity. }
    rewrite Hgv. cbn [put_cover hu_cover hu_count]. unfold LessThan.
    assert (Hge : T - 1 - EPSILON_D <= cv_fraction (upd (hu_cover v) ch (set_fraction f (hu_cover v ch)) g)).
    { unfold upd. apply Rabs_bounds in Ht. unfold T. destruct (Nat.eqb_spec g ch) as [->|n0]; cbn.
      - specialize (Hr ch Hch). lra.
      - rewrite Hv. specialize (Hroom n0). lra. }
    rewrite (proj2 (Rltb_false _ _)) by exact Hge. destruct (Rltb _ _); discriminate. }
  destruct (Nat.eqb_spec g ch) as [->|n0]; cbn [negb andb].
  - intros E. exfalso. eapply Hd; [| | |exact E]; auto using same_names_refl. intros n0; contradiction.
  - destruct (Nat.ltb_spec 1 (hu_count u)) as [_|Hle]; [|exfalso; lia].
    unfold LessThan at 1. destruct (Rltb_spec (cv_fraction (hu_cover u g) - (f - cv_fraction (hu_cover u ch))) (0 - EPSILON_D)) as [Hl|Hl].
    + intros [= <-]; auto.
    + intros E. exfalso. eapply Hd; [| | |exact E].
      * intros i. apply transfer_fractions.
      * apply transfer_names.
      * intros _. lra.
Qed.

(** *** Stored volumes *)
Section Volume.
Variable depth : cover -> R.
Variable ok : cover -> cover -> Prop.
Hypothesis Hrec : forall d r a b s, b <> 0 -> ok d r -> depth (set_slot r (receive d r a b s)) = (depth r * a + depth d * s) / b.
Hypothesis Hclr : forall d, depth (set_slot d (cleared d)) = 0.
Hypothesis Hset : forall v c, depth (set_fraction v c) = depth c.

(** Fix of the total: only the generic fraction moves. *)
Lemma fix_volume u u' : fix_total u = (true, u') ->
  (u' = u /\ Rabs (total_fraction u - 1) <= EPSILON_D) \/
  exists g G, generic_cover u = Some g /\ EPSILON_D < Rabs (total_fraction u - 1) /\
    volume depth u' = volume depth u + (G - cv_fraction (hu_cover u g)) * depth (hu_cover u g) /\
    cv_fraction (hu_cover u g) >= total_fraction u - 1 - EPSILON_D /\
    (G = cv_fraction (hu_cover u g) - (total_fraction u - 1) /\ 0 < G \/
     G = 0 /\ cv_fraction (hu_cover u g) <= total_fraction u - 1).
Proof.
  unfold fix_total. destruct (NearlyEqual_spec (total_fraction u) 1 EPSILON_D) as [Ha|Ha].
  - intros [= <-]. left. auto.
  - destruct (generic_cover u) as [g|] eqn:G; [|discriminate]. pose proof (generic_lt _ _ G) as Hg.
    unfold LessThan. destruct (Rltb_spec (cv_fraction (hu_cover u g)) (total_fraction u - 1 - EPSILON_D)) as [Hl|Hl]; [discriminate|].
    right. exists g. destruct (Rltb_spec 0 (cv_fraction (hu_cover u g) - (total_fraction u - 1))) as [Hp|Hp].
    + exists (cv_fraction (hu_cover u g) - (total_fraction u - 1)). injection H as <-.
      rewrite volume_put by assumption. cbn [set_fraction cv_fraction]. rewrite Hset. repeat split; auto; lra.
    + exists 0. injection H as <-. rewrite volume_put by assumption. cbn [set_fraction cv_fraction]. rewrite Hset.
      repeat split; auto; lra.
Qed.

Lemma move_volume u d r fRO fRN fDN strip : (d < hu_count u)%nat -> (r < hu_count u)%nat -> d <> r ->
  EPSILON_D < fRN -> ok (hu_cover u d) (hu_cover u r) ->
  let u' := move_strip u d r fRO fRN fDN strip in
  depth (hu_cover u' r) = (depth (hu_cover u r) * fRO + depth (hu_cover u d) * strip) / fRN /\
  (Rabs fDN <= EPSILON_D /\ depth (hu_cover u' d) = 0 \/
   EPSILON_D < Rabs fDN /\ depth (hu_cover u' d) = depth (hu_cover u d)) /\
  volume depth u' = volume depth u
    + cv_fraction (hu_cover u r) * (depth (hu_cover u' r) - depth (hu_cover u r))
    + cv_fraction (hu_cover u d) * (depth (hu_cover u' d) - depth (hu_cover u d)).
Proof.
  intros Hd Hr Hn Hb Hok. pose proof EPSILON_D_pos as He. cbv zeta. unfold move_strip.
  destruct (NearlyZero_spec fRN EPSILON_D) as [Hz|_].
  { exfalso. apply Rabs_bounds in Hz. lra. }
  set (ur := put_cover u r (set_slot (hu_cover u r) (receive (hu_cover u d) (hu_cover u r) fRO fRN strip))).
  assert (E1 : depth (hu_cover ur r) = (depth (hu_cover u r) * fRO + depth (hu_cover u d) * strip) / fRN).
  { unfold ur. cbn [put_cover hu_cover]. rewrite upd_same. apply Hrec; [lra|assumption]. }
  assert (E2 : hu_cover ur d = hu_cover u d) by (unfold ur; cbn [put_cover hu_cover]; apply upd_other; assumption).
  assert (E3 : volume depth ur = volume depth u + cv_fraction (hu_cover u r) * (depth (hu_cover ur r) - depth (hu_cover u r))).
  { unfold ur at 1. rewrite volume_put by assumption. cbn [set_slot cv_fraction].
    unfold ur; cbn [put_cover hu_cover]; rewrite upd_same. ring. }
  destruct (NearlyZero_spec fDN EPSILON_D) as [Hz|Hz].
  - cbn [put_cover hu_cover]. rewrite upd_same, upd_other by auto. split; [exact E1|]. split; [left; split; [assumption|apply Hclr]|].
    change (volume depth (put_cover ur d (set_slot (hu_cover u d) (cleared (hu_cover u d)))) = volume depth u
      + cv_fraction (hu_cover u r) * (depth (hu_cover ur r) - depth (hu_cover u r))
      + cv_fraction (hu_cover u d) * (depth (set_slot (hu_cover u d) (cleared (hu_cover u d))) - depth (hu_cover u d))).
    rewrite volume_put by exact Hd. rewrite E3, E2. cbn [set_slot cv_fraction]. ring.
  - rewrite E2. split; [exact E1|]. split; [right; auto|]. rewrite E3. ring.
Qed.

Hypothesis Hpos : forall u, stores_nonneg u -> forall i, (i < hu_count u)%nat -> 0 <= depth (hu_cover u i).

Lemma mul_le_3 e a b x : Rabs x <= 3 * e -> 0 <= a -> 0 <= b -> Rabs (x * a) <= 3 * e * (a + b).
Proof.
  intros H Ha Hb. rewrite Rabs_mult, (Rabs_pos_eq a Ha). pose proof (Rabs_pos x).
  assert (Rabs x * a <= 3 * e * a) by (apply Rmult_le_compat_r; assumption). nra.
Qed.

(** Where the new depth of the receiver lies. *)
Lemma mix_bound a b x y : 0 <= a -> 0 <= b -> 0 <= x -> 0 <= y -> 0 < x + y -> 0 <= (a * x + b * y) / (x + y) <= a + b.
Proof.
  intros. split.
  - apply Rmult_le_pos; [nra|]. left. apply Rinv_0_lt_compat. assumption.
  - apply Rmult_le_reg_r with (x + y); [assumption|]. unfold Rdiv. rewrite Rmult_assoc, Rinv_l by lra. nra.
Qed.

Definition pairwise_ok (u : hunit) : Prop :=
  forall i j, (i < hu_count u)%nat -> (j < hu_count u)%nat -> i <> j -> ok (hu_cover u i) (hu_cover u j).

Lemma change_volume u n f u' : fractions_ok u -> stores_nonneg u -> pairwise_ok u ->
  change_fraction u n f = (true, u') ->
  Rabs (volume depth u' - volume depth u) <= 3 * EPSILON_D * (depth_of depth u n + generic_depth depth u).
Proof.
  intros [Hr Ht] Hs Hok. pose proof EPSILON_D_pos as He. unfold change_fraction, depth_of, generic_depth.
  destruct (Rltb_spec f 0) as [Ha|Ha]; [discriminate|]. destruct (Rltb_spec 1 f) as [Hb|Hb]; [discriminate|]. cbn [orb].
  destruct (find_cover u n) as [ch|] eqn:F; [|discriminate]. apply find_some_lt in F. destruct F as [Hch _].
  apply Rabs_bounds in Ht.
  set (W := depth (hu_cover u ch)). assert (HW : 0 <= W) by (apply Hpos; assumption).
  set (fo := cv_fraction (hu_cover u ch)). pose proof (Hr ch Hch) as Hfo. fold fo in Hfo.
  (* without transfer *)
  assert (Hplain : fix_total (put_cover u ch (set_fraction f (hu_cover u ch))) = (true, u') ->
     (generic_cover u = None \/ generic_cover u = Some ch \/ Rabs (f - fo) <= EPSILON_D) ->
     Rabs (volume depth u' - volume depth u) <= 3 * EPSILON_D * (W + match generic_cover u with Some i => depth (hu_cover u i) | None => 0 end)).
  { intros E Hc. set (v := put_cover u ch (set_fraction f (hu_cover u ch))) in *.
    assert (Ev : volume depth v = volume depth u + (f - fo) * W).
    { unfold v. rewrite volume_put by assumption. cbn [set_fraction cv_fraction]. rewrite Hset. unfold fo, W. ring. }
    assert (Tv : total_fraction v = total_fraction u + (f - fo)).
    { unfold v. rewrite total_put by assumption. cbn [set_fraction cv_fraction]. unfold fo. ring. }
    assert (Gv : generic_cover v = generic_cover u).
    { symmetry. apply generic_same. apply same_names_put. reflexivity. }
    assert (Hgd : 0 <= match generic_cover u with Some i => depth (hu_cover u i) | None => 0 end).
    { destruct (generic_cover u) eqn:G; [|lra]. apply Hpos; [assumption|]. apply generic_lt. assumption. }
    apply fix_volume in E. destruct E as [[-> E]|(g & G & Eg & _ & Evol & Eroom & EG)].
    - rewrite Ev. replace (volume depth u + (f - fo) * W - volume depth u) with ((f - fo) * W) by ring.
      apply mul_le_3; try assumption. apply Rabs_bounds in E. apply Rabs_le. lra.
    - rewrite Gv in Eg. rewrite Eg in Hgd |- *. pose proof (generic_lt _ _ Eg) as Hg.
      assert (Vg : (g = ch /\ cv_fraction (hu_cover v g) = f /\ depth (hu_cover v g) = W) \/
                   (g <> ch /\ hu_cover v g = hu_cover u g)).
      { unfold v; cbn [put_cover hu_cover]. destruct (Nat.eq_dec g ch) as [->|n0].
        - left. rewrite upd_same. cbn [set_fraction cv_fraction]. rewrite Hset. auto.
        - right. rewrite upd_other by assumption. auto. }
      destruct Vg as [(-> & Vf & Vd)|(n0 & Vg)].
      + rewrite Evol, Ev, Vf, Vd. fold W.
        replace (volume depth u + (f - fo) * W + (G - f) * W - volume depth u) with ((G - fo) * W) by ring.
        apply mul_le_3; try assumption. rewrite Vf in EG, Eroom. apply Rabs_le. rewrite Tv in EG, Eroom. lra.
      + destruct Hc as [Hc|[Hc|Hc]]; [congruence|congruence|]. apply Rabs_bounds in Hc.
        rewrite Vg in *. set (Wg := depth (hu_cover u g)) in *. rewrite Evol, Ev, Tv in *.
        pose proof (Hr g Hg) as Hfg. set (fg := cv_fraction (hu_cover u g)) in *.
        assert (B1 : Rabs ((f - fo) * W) <= EPSILON_D * W).
        { rewrite Rabs_mult, (Rabs_pos_eq W) by assumption. apply Rmult_le_compat_r; [assumption|]. apply Rabs_le. lra. }
        assert (B2 : Rabs ((G - fg) * Wg) <= 2 * EPSILON_D * Wg).
        { rewrite Rabs_mult, (Rabs_pos_eq Wg) by assumption. apply Rmult_le_compat_r; [assumption|]. apply Rabs_le. lra. }
        replace (volume depth u + (f - fo) * W + (G - fg) * Wg - volume depth u) with ((f - fo) * W + (G - fg) * Wg) by ring.
        eapply Rle_trans; [apply Rabs_triang|]. nra. }
  destruct (generic_cover u) as [g|] eqn:G; [|intros E; apply Hplain; auto].
  destruct (Nat.eqb_spec g ch) as [->|n0]; cbn [negb andb]; [intros E; apply Hplain; auto|].
  pose proof (generic_lt _ _ G) as Hg.
  destruct (Nat.ltb_spec 1 (hu_count u)) as [_|Hle]; [|exfalso; lia].
  fold fo. pose proof (Hr g Hg) as Hfg. set (fg := cv_fraction (hu_cover u g)) in *.
  unfold LessThan at 1. destruct (Rltb_spec (fg - (f - fo)) (0 - EPSILON_D)) as [Hl|Hl]; [discriminate|].
  unfold transfer. destruct (NearlyZero_spec (f - fo) EPSILON_D) as [Hz|Hz]; [intros E; apply Hplain; auto|].
  set (Wg := depth (hu_cover u g)) in *. assert (HWg : 0 <= Wg) by (apply Hpos; assumption).
  (* what the setting of the fraction and the fix do after a transfer giving the unit v *)
  assert (Hafter : forall v, same_names u v -> (forall i, cv_fraction (hu_cover v i) = cv_fraction (hu_cover u i)) ->
     fix_total (put_cover v ch (set_fraction f (hu_cover v ch))) = (true, u') ->
     exists G', volume depth u' = volume depth v + (f - fo) * depth (hu_cover v ch) + (G' - fg) * depth (hu_cover v g) /\
       (G' = fg /\ Rabs (total_fraction u - 1 + (f - fo)) <= EPSILON_D \/
        EPSILON_D < Rabs (total_fraction u - 1 + (f - fo)) /\
        (G' = fg - (total_fraction u - 1 + (f - fo)) /\ 0 < G' \/ G' = 0 /\ fg <= total_fraction u - 1 + (f - fo)))).
  { intros v Hn Hv E. assert (Hcv : (ch < hu_count v)%nat) by (rewrite <- (proj1 Hn); assumption).
    set (w := put_cover v ch (set_fraction f (hu_cover v ch))) in *.
    assert (Ev : volume depth w = volume depth v + (f - fo) * depth (hu_cover v ch)).
    { unfold w. rewrite volume_put by assumption. cbn [set_fraction cv_fraction]. rewrite Hset, Hv. unfold fo. ring. }
    assert (Tv : total_fraction w = total_fraction u + (f - fo)).
    { unfold w. rewrite total_put by assumption. cbn [set_fraction cv_fraction]. rewrite Hv.
      rewrite (total_same v u (eq_sym (proj1 Hn)) Hv). unfold fo. ring. }
    assert (Gv : generic_cover w = Some g).
    { rewrite <- G. symmetry. apply generic_same. eapply same_names_trans; [exact Hn|]. apply same_names_put. reflexivity. }
    assert (Wv : hu_cover w g = hu_cover v g) by (unfold w; cbn [put_cover hu_cover]; apply upd_other; assumption).
    apply fix_volume in E. destruct E as [[-> E]|(g' & G' & Eg & EA & Evol & Eroom & EG)].
    - exists fg. rewrite Ev. split; [ring|]. left. split; [reflexivity|]. rewrite Tv in E.
      replace (total_fraction u - 1 + (f - fo)) with (total_fraction u + (f - fo) - 1) by ring. exact E.
    - rewrite Gv in Eg. injection Eg as <-. rewrite Wv, Hv in *. fold fg in Evol, Eroom, EG. rewrite Tv in *. rewrite Ev in Evol.
      exists G'. split; [exact Evol|]. right.
      replace (total_fraction u - 1 + (f - fo)) with (total_fraction u + (f - fo) - 1) by ring. split; [exact EA|]. lra. }
  set (s := total_fraction u - 1) in *.
  assert (Key : forall x y, Rabs x <= 3 * EPSILON_D -> Rabs y <= 3 * EPSILON_D -> Rabs (x * W + y * Wg) <= 3 * EPSILON_D * (W + Wg)).
  { intros x y Hx Hy. eapply Rle_trans; [apply Rabs_triang|]. rewrite !Rabs_mult, (Rabs_pos_eq W), (Rabs_pos_eq Wg) by assumption.
    assert (Rabs x * W <= 3 * EPSILON_D * W) by (apply Rmult_le_compat_r; assumption).
    assert (Rabs y * Wg <= 3 * EPSILON_D * Wg) by (apply Rmult_le_compat_r; assumption). lra. }
  destruct (Rltb_spec 0 (f - fo)) as [Hd|Hd]; intros E.
  - (* the cover grows *)
    assert (Hd' : EPSILON_D < f - fo) by (apply Rabs_cases in Hz; lra).
    destruct (move_volume u g ch fo f (fg - (f - fo)) (f - fo) Hg Hch n0 ltac:(lra) (Hok _ _ Hg Hch n0)) as (D1 & D2 & D3).
    set (v := move_strip u g ch fo f (fg - (f - fo)) (f - fo)) in *.
    destruct (Hafter v (move_names _ _ _ _ _ _ _) (fun i => move_fractions _ _ _ _ _ _ _ i) E) as (G' & EV & EG).
    fold W in D1, D3. fold Wg in D1, D2, D3. fold fo in D3. fold fg in D3.
    assert (D1' : f * depth (hu_cover v ch) = W * fo + Wg * (f - fo)) by (rewrite D1; field; lra).
    destruct D2 as [[Dz D2]|[Dz D2]]; rewrite D2 in *.
    + replace (volume depth u' - volume depth u) with (0 * W + ((f - fo) - fg) * Wg) by (rewrite EV, D3; lra).
      apply Key; [rewrite Rabs_R0; lra|]. apply Rabs_bounds in Dz. apply Rabs_le. lra.
    + replace (volume depth u' - volume depth u) with (0 * W + ((f - fo) + (G' - fg)) * Wg) by (rewrite EV, D3; lra).
      apply Key; [rewrite Rabs_R0; lra|]. apply Rabs_le.
      apply Rabs_cases in Dz; [|lra]. destruct EG as [[-> EG]|[EG1 [[-> EG]|[-> EG]]]].
      * apply Rabs_bounds in EG. lra.
      * lra.
      * lra.
  - (* the cover shrinks *)
    assert (Hd' : f - fo < - EPSILON_D) by (apply Rabs_cases in Hz; lra).
    destruct (move_volume u ch g fg (fg - (f - fo)) f (- (f - fo)) Hch Hg (not_eq_sym n0) ltac:(lra) (Hok _ _ Hch Hg (not_eq_sym n0))) as (D1 & D2 & D3).
    set (v := move_strip u ch g fg (fg - (f - fo)) f (- (f - fo))) in *.
    destruct (Hafter v (move_names _ _ _ _ _ _ _) (fun i => move_fractions _ _ _ _ _ _ _ i) E) as (G' & EV & EG).
    fold W in D1, D2, D3. fold Wg in D1, D3. fold fo in D3. fold fg in D3.
    set (X := depth (hu_cover v g)) in *.
    assert (D1' : (fg - (f - fo)) * X = Wg * fg + W * (fo - f)) by (rewrite D1; field; lra).
    assert (HX : 0 <= X <= Wg + W).
    { pose proof (mix_bound Wg W fg (- (f - fo)) HWg HW ltac:(lra) ltac:(lra) ltac:(lra)) as M.
      replace (fg + - (f - fo)) with (fg - (f - fo)) in M by ring. rewrite <- D1 in M. exact M. }
    assert (XB : forall x, Rabs x <= 2 * EPSILON_D -> Rabs (x * X) <= 2 * EPSILON_D * (W + Wg)).
    { intros x Hx. rewrite Rabs_mult, (Rabs_pos_eq X) by tauto. apply Rmult_le_compat; try lra. apply Rabs_pos. }
    destruct D2 as [[Dz D2]|[Dz D2]]; rewrite D2 in *.
    + replace (volume depth u' - volume depth u) with ((G' - (fg - (f - fo))) * X + (- f) * W) by (rewrite EV, D3; lra).
      eapply Rle_trans; [apply Rabs_triang|]. apply Rabs_bounds in Dz.
      assert (Rabs (- f * W) <= EPSILON_D * W).
      { rewrite Rabs_mult, (Rabs_pos_eq W) by assumption. apply Rmult_le_compat_r; [assumption|]. apply Rabs_le. lra. }
      assert (Rabs ((G' - (fg - (f - fo))) * X) <= 2 * EPSILON_D * (W + Wg)).
      { apply XB. apply Rabs_le. destruct EG as [[-> EG]|[EG1 [[-> EG]|[-> EG]]]]; try lra.
        apply Rabs_bounds in EG. lra. }
      nra.
    + replace (volume depth u' - volume depth u) with ((G' - (fg - (f - fo))) * X) by (rewrite EV, D3; lra).
      eapply Rle_trans; [apply XB|nra]. apply Rabs_le. destruct EG as [[-> EG]|[EG1 [[-> EG]|[-> EG]]]]; try lra.
      apply Rabs_bounds in EG. lra.
Qed.

Lemma change_volume_exact u n f u' ch g : fractions_ok u -> total_fraction u = 1 -> pairwise_ok u ->
  change_fraction u n f = (true, u') -> find_cover u n = Some ch -> generic_cover u = Some g -> g <> ch ->
  let fo := cv_fraction (hu_cover u ch) in
  let gNew := cv_fraction (hu_cover u g) - (f - fo) in
  EPSILON_D < Rabs (f - fo) -> f = 0 \/ EPSILON_D < f -> gNew = 0 \/ EPSILON_D < gNew ->
  volume depth u' = volume depth u.
Proof.
  intros [Hr Ht] HT Hok E F G n0 fo gNew Hz Cf Cg. pose proof EPSILON_D_pos as He.
  unfold change_fraction in E. rewrite F, G in E.
  destruct (Rltb_spec f 0) as [Ha|Ha]; [discriminate|]. destruct (Rltb_spec 1 f) as [Hb|Hb]; [discriminate|]. cbn [orb] in E.
  apply find_some_lt in F. destruct F as [Hch _]. pose proof (generic_lt _ _ G) as Hg.
  destruct (Nat.eqb_spec g ch) as [|_]; [contradiction|]. cbn [negb andb] in E.
  destruct (Nat.ltb_spec 1 (hu_count u)) as [_|Hle]; [|exfalso; lia].
  fold fo in E. fold gNew in E. pose proof (Hr g Hg) as Hfg. pose proof (Hr ch Hch) as Hfo. fold fo in Hfo.
  set (fg := cv_fraction (hu_cover u g)) in *. unfold gNew in *.
  destruct (LessThan (fg - (f - fo)) 0 EPSILON_D); [discriminate|].
  unfold transfer in E. destruct (NearlyZero_spec (f - fo) EPSILON_D) as [Hz'|_]; [lra|].
  set (W := depth (hu_cover u ch)). set (Wg := depth (hu_cover u g)).
  assert (Hafter : forall v, same_names u v -> (forall i, cv_fraction (hu_cover v i) = cv_fraction (hu_cover u i)) ->
     fix_total (put_cover v ch (set_fraction f (hu_cover v ch))) = (true, u') ->
     exists G', volume depth u' = volume depth v + (f - fo) * depth (hu_cover v ch) + (G' - fg) * depth (hu_cover v g) /\
        (G' = fg - (f - fo) /\ 0 < G' \/ G' = 0 /\ fg <= f - fo)).
  { intros v Hn Hv E'. assert (Hcv : (ch < hu_count v)%nat) by (rewrite <- (proj1 Hn); assumption).
    set (w := put_cover v ch (set_fraction f (hu_cover v ch))) in *.
    assert (Ev : volume depth w = volume depth v + (f - fo) * depth (hu_cover v ch)).
    { unfold w. rewrite volume_put by assumption. cbn [set_fraction cv_fraction]. rewrite Hset, Hv. unfold fo. ring. }
    assert (Tv : total_fraction w = 1 + (f - fo)).
    { unfold w. rewrite total_put by assumption. cbn [set_fraction cv_fraction]. rewrite Hv.
      rewrite (total_same v u (eq_sym (proj1 Hn)) Hv). unfold fo. lra. }
    assert (Gv : generic_cover w = Some g).
    { rewrite <- G. symmetry. apply generic_same. eapply same_names_trans; [exact Hn|]. apply same_names_put. reflexivity. }
    assert (Wv : hu_cover w g = hu_cover v g) by (unfold w; cbn [put_cover hu_cover]; apply upd_other; assumption).
    apply fix_volume in E'. destruct E' as [[-> E']|(g' & G' & Eg & EA & Evol & Eroom & EG)].
    - exfalso. rewrite Tv in E'. replace (1 + (f - fo) - 1) with (f - fo) in E' by ring. lra.
    - rewrite Gv in Eg. injection Eg as <-. rewrite Wv, Hv in *. fold fg in Evol, Eroom, EG. rewrite Tv in *. rewrite Ev in Evol.
      exists G'. split; [exact Evol|]. lra. }
  destruct (Rltb_spec 0 (f - fo)) as [Hd|Hd].
  - assert (Hd' : EPSILON_D < f - fo) by (apply Rabs_cases in Hz; lra).
    destruct (move_volume u g ch fo f (fg - (f - fo)) (f - fo) Hg Hch n0 ltac:(lra) (Hok _ _ Hg Hch n0)) as (D1 & D2 & D3).
    set (v := move_strip u g ch fo f (fg - (f - fo)) (f - fo)) in *.
    destruct (Hafter v (move_names _ _ _ _ _ _ _) (fun i => move_fractions _ _ _ _ _ _ _ i) E) as (G' & EV & EG).
    fold W in D1, D3. fold Wg in D1, D2, D3. fold fo in D3. fold fg in D3.
    assert (D1' : f * depth (hu_cover v ch) = W * fo + Wg * (f - fo)) by (rewrite D1; field; lra).
    destruct D2 as [[Dz D2]|[Dz D2]]; rewrite D2 in *.
    + assert (Z : fg - (f - fo) = 0) by (destruct Cg; [assumption|apply Rabs_bounds in Dz; lra]).
      rewrite EV, D3. replace fg with (f - fo) by lra. lra.
    + assert (Z : G' - fg = - (f - fo)). { destruct EG as [[-> EG]|[-> EG]]; [lra|]. destruct Cg as [Cg|Cg]; lra. }
      rewrite EV, D3, Z. lra.
  - assert (Hd' : f - fo < - EPSILON_D) by (apply Rabs_cases in Hz; lra).
    destruct (move_volume u ch g fg (fg - (f - fo)) f (- (f - fo)) Hch Hg (not_eq_sym n0) ltac:(lra) (Hok _ _ Hch Hg (not_eq_sym n0))) as (D1 & D2 & D3).
    set (v := move_strip u ch g fg (fg - (f - fo)) f (- (f - fo))) in *.
    destruct (Hafter v (move_names _ _ _ _ _ _ _) (fun i => move_fractions _ _ _ _ _ _ _ i) E) as (G' & EV & EG).
    fold W in D1, D2, D3. fold Wg in D1, D3. fold fo in D3. fold fg in D3.
    set (X := depth (hu_cover v g)) in *.
    assert (D1' : (fg - (f - fo)) * X = Wg * fg + W * (fo - f)) by (rewrite D1; field; lra).
    assert (Z : G' - fg = - (f - fo)) by lra.
    destruct D2 as [[Dz D2]|[Dz D2]]; rewrite D2 in *.
    + assert (f = 0) as Z0 by (destruct Cf; [assumption|apply Rabs_bounds in Dz; lra]).
      rewrite EV, D3, Z. rewrite Z0 in *. lra.
    + rewrite EV, D3, Z. lra.
Qed.
End Volume.

(** *** Water and snow are such depths *)
Lemma water_rec d r a b s : b <> 0 -> cv_slot r SelfWater <> None ->
  water_depth (set_slot r (receive d r a b s)) = (water_depth r * a + water_depth d * s) / b.
Proof.
  intros Hb H. unfold water_depth, slot_depth, set_slot, receive, unmatched_water, has_role, slot_depth, all_roles.
  cbn [cv_slot role_eqb Rsum is_water andb].
  destruct (cv_slot r SelfWater); [|congruence].
  destruct (cv_slot r SnowpackWater), (cv_slot r CanopyWater); cbn [negb]; field; assumption.
Qed.
Lemma water_clr d : water_depth (set_slot d (cleared d)) = 0.
Proof.
  unfold water_depth, slot_depth, cleared, set_slot; cbn [cv_slot].
  destruct (cv_slot d SelfWater), (cv_slot d SnowpackWater), (cv_slot d CanopyWater); ring.
Qed.
Lemma snow_rec d r a b s : b <> 0 -> (cv_slot r Snow = None -> cv_slot d Snow = None) ->
  snow_depth (set_slot r (receive d r a b s)) = (snow_depth r * a + snow_depth d * s) / b.
Proof.
  intros Hb H. unfold snow_depth, slot_depth, set_slot, receive, slot_depth; cbn [cv_slot role_eqb].
  destruct (cv_slot r Snow); [field; assumption|]. rewrite H by reflexivity. field; assumption.
Qed.
Lemma snow_clr d : snow_depth (set_slot d (cleared d)) = 0.
Proof. unfold snow_depth, slot_depth, cleared, set_slot; cbn [cv_slot]. destruct (cv_slot d Snow); ring. Qed.
Lemma slot_nonneg u i r : stores_nonneg u -> (i < hu_count u)%nat -> 0 <= slot_depth (hu_cover u i) r.
Proof. intros H Hi. unfold slot_depth. destruct (cv_slot (hu_cover u i) r) eqn:E; [|lra]. eapply H; eassumption. Qed.
Lemma water_pos u : stores_nonneg u -> forall i, (i < hu_count u)%nat -> 0 <= water_depth (hu_cover u i).
Proof.
  intros H i Hi. unfold water_depth. pose proof (slot_nonneg u i SelfWater H Hi).
  pose proof (slot_nonneg u i SnowpackWater H Hi). pose proof (slot_nonneg u i CanopyWater H Hi). lra.
Qed.

(** *** Stores stay non-negative *)
Lemma unmatched_nonneg u i r : stores_nonneg u -> (i < hu_count u)%nat -> 0 <= unmatched_water (hu_cover u i) r.
Proof.
  intros H Hi. unfold unmatched_water. apply Rsum_nonneg. intros x _. destruct (_ && _); [|lra]. apply slot_nonneg; assumption.
Qed.
Lemma move_nonneg u d r fRO fRN fDN strip : stores_nonneg u -> (d < hu_count u)%nat -> (r < hu_count u)%nat ->
  0 <= fRO -> 0 <= fRN -> 0 <= strip -> stores_nonneg (move_strip u d r fRO fRN fDN strip).
Proof.
  intros H Hd Hr H1 H2 H3. unfold move_strip. destruct (NearlyZero_spec fRN EPSILON_D) as [Hz|Hz]; [exact H|].
  assert (Hpos : 0 < fRN).
  { pose proof EPSILON_D_pos. apply Rabs_cases in Hz; lra. }
  assert (A : stores_nonneg (put_cover u r (set_slot (hu_cover u r) (receive (hu_cover u d) (hu_cover u r) fRO fRN strip)))).
  { intros i ro x Hi. cbn [put_cover hu_cover hu_count] in *. unfold upd. destruct (Nat.eqb_spec i r); [|apply H; assumption].
    cbn [set_slot cv_slot]. unfold receive. destruct (cv_slot (hu_cover u r) ro) as [y|] eqn:E; [|discriminate].
    intros [= <-]. apply Rmult_le_pos; [|left; apply Rinv_0_lt_compat; assumption].
    assert (0 <= y) by exact (H r ro y Hr E). pose proof (slot_nonneg u d ro H Hd).
    pose proof (unmatched_nonneg u d (hu_cover u r) H Hd).
    assert (0 <= y * fRO) by (apply Rmult_le_pos; assumption).
    assert (Q : 0 <= slot_depth (hu_cover u d) ro + (if role_eqb ro SelfWater then unmatched_water (hu_cover u d) (hu_cover u r) else 0))
      by (destruct (role_eqb ro SelfWater); lra).
    pose proof (Rmult_le_pos _ _ Q H3). lra. }
  destruct (NearlyZero fDN EPSILON_D); [|exact A].
  intros i ro x Hi. cbn [put_cover hu_cover hu_count] in *. destruct (Nat.eq_dec i d) as [->|n].
  - rewrite upd_same. cbn [set_slot cv_slot]. unfold cleared. destruct (cv_slot _ ro); [|discriminate]. intros [= <-]; lra.
  - rewrite upd_other by assumption. apply (A i ro x Hi).
Qed.
Lemma set_fraction_nonneg u i f : stores_nonneg u -> stores_nonneg (put_cover u i (set_fraction f (hu_cover u i))).
Proof.
  intros H j r x Hj. cbn [put_cover hu_cover hu_count] in *. destruct (Nat.eq_dec j i) as [->|n].
  - rewrite upd_same. cbn [set_fraction cv_slot]. apply H; assumption.
  - rewrite upd_other by assumption. apply H; assumption.
Qed.
Lemma fix_nonneg u b u' : stores_nonneg u -> fix_total u = (b, u') -> stores_nonneg u'.
Proof.
  intros H. unfold fix_total. destruct (NearlyEqual _ _ _); [intros [= <- <-]; exact H|].
  destruct (generic_cover u); [|intros [= <- <-]; exact H].
  destruct (LessThan _ _ _); [intros [= <- <-]; exact H|].
  destruct (Rltb _ _); intros [= <- <-]; apply set_fraction_nonneg; exact H.
Qed.
Lemma change_nonneg u n f b u' : fractions_ok u -> stores_nonneg u -> change_fraction u n f = (b, u') -> stores_nonneg u'.
Proof.
  intros [Hr _] H. pose proof EPSILON_D_pos as He. unfold change_fraction.
  destruct (Rltb_spec f 0) as [Ha|Ha]; [intros [= <- <-]; exact H|].
  destruct (Rltb_spec 1 f) as [Hb|Hb]; [intros [= <- <-]; exact H|]. cbn [orb].
  destruct (find_cover u n) as [ch|] eqn:F; [|intros [= <- <-]; exact H].
  apply find_some_lt in F. destruct F as [Hch _].
  assert (P : forall v, stores_nonneg v -> fix_total (put_cover v ch (set_fraction f (hu_cover v ch))) = (b, u') -> stores_nonneg u').
  { intros v Hv. apply fix_nonneg. apply set_fraction_nonneg. exact Hv. }
  destruct (generic_cover u) as [g|] eqn:G; [|apply P; exact H]. pose proof (generic_lt _ _ G) as Hg.
  destruct (negb (g =? ch)%nat && (1 <? hu_count u)%nat); [|apply P; exact H].
  destruct (LessThan _ _ _); [intros [= <- <-]; exact H|].
  apply P. unfold transfer. pose proof (Hr g Hg). pose proof (Hr ch Hch).
  destruct (NearlyZero_spec (f - cv_fraction (hu_cover u ch)) EPSILON_D) as [Hz|Hz]; [exact H|].
  destruct (Rltb_spec 0 (f - cv_fraction (hu_cover u ch))).
  - apply move_nonneg; try assumption; lra.
  - apply move_nonneg; try assumption; lra.
Qed.

(** *** Validation *)
Lemma validate_ok u u' : (forall i, (i < hu_count u)%nat -> 0 <= cv_fraction (hu_cover u i) <= 1) ->
  (Z.of_nat (hu_count u) <= 9998)%Z -> (0 < hu_count u)%nat -> validate_fractions u = (true, u') -> fractions_ok u'.
Proof.
  intros Hr Hc H0. pose proof EPSILON_D_pos as He. unfold validate_fractions.
  destruct (Nat.eqb_spec (hu_count u) 0); [lia|].
  destruct (NearlyEqual_spec (total_fraction u) 1 EPSILON_D) as [A|A]; [intros [= <-]; split; assumption|].
  destruct (NearlyEqual_spec (total_fraction u) 1 TOLERANCE_LOOSE) as [B|B]; [|discriminate].
  assert (HT : 0 < TOLERANCE_LOOSE < 1 /\ TOLERANCE_LOOSE = / 10000) by (unfold TOLERANCE_LOOSE; lra). apply Rabs_bounds in B.
  destruct (find _ _) as [i|] eqn:F.
  - apply find_some in F. destruct F as [F1 F2]. apply in_seq in F1. apply Rltb_true in F2.
    assert (Hi : (i < hu_count u)%nat) by lia.
    assert (Hle : cv_fraction (hu_cover u i) <= total_fraction u).
    { unfold total_fraction. apply (Rsum_elem_le (fun i => cv_fraction (hu_cover u i))); [|apply in_seq; lia].
      intros y Hy. apply in_seq in Hy. apply Hr; lia. }
    intros [= <-]. split.
    + intros j Hj. cbn [put_cover hu_cover hu_count] in *. unfold upd. destruct (Nat.eqb_spec j i); [|apply Hr; assumption].
      cbn [set_fraction cv_fraction]. pose proof (Hr i Hi). lra.
    + rewrite total_put by assumption. cbn [set_fraction cv_fraction].
      replace (total_fraction u - cv_fraction (hu_cover u i) + (cv_fraction (hu_cover u i) - (total_fraction u - 1)) - 1) with 0 by ring.
      rewrite Rabs_R0. lra.
  - exfalso. assert (D : total_fraction u <= INR (hu_count u) * (total_fraction u - 1)).
    { unfold total_fraction at 1. rewrite <- (seq_length (hu_count u) 0) at 2. rewrite <- Rsum_const.
      apply Rsum_le. intros x Hx. apply (find_none _ _ F) in Hx. apply Rltb_false in Hx. exact Hx. }
    assert (INR (hu_count u) <= 9998).
    { rewrite INR_IZR_INZ. apply IZR_le. exact Hc. }
    pose proof (pos_INR (hu_count u)). assert (D2 : total_fraction u >= 1 - / 10000) by lra.
    assert (INR (hu_count u) * (total_fraction u - 1) <= 9998 * / 10000).
    { destruct (Rle_dec 0 (total_fraction u - 1)).
      - apply Rmult_le_compat; try assumption. lra.
      - assert (INR (hu_count u) * (total_fraction u - 1) <= INR (hu_count u) * 0) by (apply Rmult_le_compat_l; lra). lra. }
    lra.
Qed.

(** A change that leaves room for the generic cover is accepted. *)
Lemma change_accepted u n f c g : fractions_ok u -> total_fraction u <= 1 -> find_cover u n = Some c -> generic_cover u = Some g -> g <> c ->
  0 <= f <= 1 -> f - cv_fraction (hu_cover u c) <= cv_fraction (hu_cover u g) -> exists u', change_fraction u n f = (true, u').
Proof.
  intros [Hr Ht] Hs F G Hne Hf Hroom. pose proof EPSILON_D_pos as He. unfold change_fraction.
  rewrite (proj2 (Rltb_false f 0)) by lra. rewrite (proj2 (Rltb_false 1 f)) by lra. cbn [orb]. rewrite F, G.
  destruct (find_some_lt _ _ _ F) as [Hc _]. pose proof (generic_lt _ _ G) as Hg.
  destruct (Nat.eqb_spec g c) as [|_]; [contradiction|]. destruct (Nat.ltb_spec 1 (hu_count u)) as [_|Hle]; [|lia]. cbn [negb andb].
  unfold LessThan at 1. rewrite (proj2 (Rltb_false _ _)) by lra.
  set (v := transfer u c _ f g _ _).
  assert (Hn : same_names u v) by apply transfer_names.
  assert (Hv : forall i, cv_fraction (hu_cover v i) = cv_fraction (hu_cover u i)) by (intros i; apply transfer_fractions).
  clearbody v. unfold fix_total.
  assert (Hcv : (c < hu_count v)%nat) by (rewrite <- (proj1 Hn); assumption).
  rewrite total_put by assumption. cbn [set_fraction cv_fraction]. rewrite Hv, (total_same v u (eq_sym (proj1 Hn)) Hv).
  destruct (NearlyEqual _ _ _); [eexists; reflexivity|].
  assert (Hgv : generic_cover (put_cover v c (set_fraction f (hu_cover v c))) = Some g).
  { rewrite <- G. symmetry. apply generic_same. eapply same_names_trans; [exact Hn|]. apply same_names_put. reflexivity. }
  rewrite Hgv. cbn [put_cover hu_cover hu_count]. unfold LessThan. rewrite !upd_other by exact Hne. rewrite Hv.
  rewrite (proj2 (Rltb_false _ _)) by lra. destruct (Rltb _ _); eexists; reflexivity.
Qed.
