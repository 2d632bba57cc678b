(** Facts about the delta-h tables on pixels. *)
From Verif Require Import Base BaseFacts GlacierActions GlacierTables GlacierTablesFacts.
Open Scope R_scope.

(** *** Lists *)
Lemma sum_by_key (f : nat -> R) (key : nat -> nat) l keys : NoDup keys -> (forall j, In j l -> In (key j) keys) ->
  Rsum (fun k => Rsum f (filter (fun j => (key j =? k)%nat) l)) keys = Rsum f l.
Proof.
  intros Nd. induction l as [|j l IH]; intro H; [cbn; apply Rsum_zero; reflexivity|].
  cbn [filter Rsum]. rewrite <- IH by (intros; apply H; right; assumption).
  assert (E : forall k, Rsum f (if (key j =? k)%nat then j :: filter (fun i => (key i =? k)%nat) l else filter (fun i => (key i =? k)%nat) l)
    = (if (key j =? k)%nat then f j else 0) + Rsum f (filter (fun i => (key i =? k)%nat) l)).
  { intro k. destruct (key j =? k)%nat; cbn [Rsum]; ring. }
  rewrite (Rsum_ext_in _ (fun k => (if (key j =? k)%nat then f j else 0) + Rsum f (filter (fun i => (key i =? k)%nat) l))) by (intros; apply E).
  rewrite Rsum_plus. f_equal. specialize (H j (or_introl eq_refl)). clear E IH.
  induction keys as [|k ks IHk]; [contradiction|]. inversion Nd as [|x y Hn Nd']; subst. cbn [Rsum].
  destruct (Nat.eqb_spec (key j) k) as [->|Hne].
  - rewrite Rsum_zero; [ring|]. intros x Hx. destruct (Nat.eqb_spec k x) as [->|]; [contradiction|reflexivity].
  - rewrite IHk; [ring|exact Nd'|]. destruct H as [->|H]; [congruence|exact H].
Qed.

Lemma above_positive a l : 0 <= a -> above a (px_positive l) = above a l.
Proof.
  intro Ha. unfold above, px_positive. induction l as [|v l IH]; [reflexivity|]. cbn [map filter].
  destruct (Rltb 0 v) eqn:E; [apply Rltb_true in E|apply Rltb_false in E]; cbn [map filter].
  - rewrite IH. reflexivity.
  - rewrite (proj2 (Rltb_false 0 (v - a))) by lra. exact IH.
Qed.
Lemma above_above a b l : 0 <= b -> above b (above a l) = above (a + b) l.
Proof.
  intro Hb. unfold above, px_positive. induction l as [|v l IH]; [reflexivity|]. cbn [map filter].
  destruct (Rltb 0 (v - a)) eqn:E; [apply Rltb_true in E|apply Rltb_false in E]; cbn [map filter].
  - replace (v - a - b) with (v - (a + b)) by ring. rewrite IH. reflexivity.
  - rewrite (proj2 (Rltb_false 0 (v - (a + b)))) by lra. exact IH.
Qed.
Lemma above_all l : (forall v, In v l -> 0 <= v) -> exists a, 0 <= a /\ above a l = [].
Proof.
  intro H. exists (rsum l). split; [apply rsum_pos; exact H|]. unfold above, px_positive.
  assert (Q : forall v, In v l -> v <= rsum l) by (intros v Hv; apply (Rsum_elem_le (fun v => v)); [exact H|exact Hv]).
  clear H. revert Q. generalize (rsum l). intro s. induction l as [|v l IH]; intro Q; [reflexivity|]. cbn [map filter].
  rewrite (proj2 (Rltb_false 0 (v - s))) by (specialize (Q v (or_introl eq_refl)); lra). apply IH. intros; apply Q; right; assumption.
Qed.
Lemma positive_lowered a l : (forall v, In v l -> 0 <= v) -> px_positive (map (fun v => Rmax 0 (v - a)) l) = above a l.
Proof.
  intros _. unfold above, px_positive. induction l as [|v l IH]; [reflexivity|]. cbn [map filter].
  destruct (Rltb 0 (v - a)) eqn:E; [apply Rltb_true in E|apply Rltb_false in E].
  - rewrite Rmax_right by lra. rewrite (proj2 (Rltb_true 0 (v - a))) by lra. rewrite IH. reflexivity.
  - rewrite Rmax_left by lra. rewrite (proj2 (Rltb_false 0 0)) by lra. exact IH.
Qed.
Lemma above_zero l : above 0 l = px_positive l.
Proof.
  unfold above. replace (map (fun v => v - 0) l) with l; [reflexivity|]. induction l as [|v l IH]; [reflexivity|]. cbn [map]. rewrite <- IH. f_equal. ring.
Qed.
Lemma above_in a l v : In v (above a l) -> 0 < v.
Proof. intro H. apply positive_in in H. tauto. Qed.
Lemma mean_nonneg l : l <> [] -> (forall v, In v l -> 0 <= v) -> 0 <= mean l.
Proof.
  intros Hn H. unfold mean. apply Rmult_le_pos; [apply rsum_pos; exact H|]. apply Rlt_le, Rinv_0_lt_compat, lt_0_INR. destruct l; [congruence|cbn; lia].
Qed.

Section Parts.
Variable u : R.
Hypothesis Hu : 0 < u.
Variable area : nat -> R.
(** The state of one part during the loop over a band. *)
Definition part_ok (w : R) (l : list R) (a : R) : Prop :=
  (l = [] /\ w = 0) \/ (l <> [] /\ a = u * INR (length l) /\ w = mean l /\ forall v, In v l -> 0 <= v).
(** [l'] is [l] with its surface lowered. *)
Definition lower (l l' : list R) : Prop := exists a, 0 <= a /\ px_positive l' = above a l.
Lemma lower_refl l : lower l l.
Proof. exists 0. split; [lra|]. symmetry. apply above_zero. Qed.
Lemma lower_trans a b c : lower a b -> lower b c -> lower a c.
Proof.
  intros (x & Hx & Ex) (y & Hy & Ey). exists (x + y). split; [lra|]. rewrite Ey, <- (above_positive y b Hy), Ex. apply above_above. exact Hy.
Qed.
Lemma lower_gone l : (forall v, In v l -> 0 <= v) -> lower l [].
Proof. intro H. destruct (above_all l H) as (a & Ha & E). exists a. split; [exact Ha|]. rewrite E. reflexivity. Qed.

Definition mass (l : list R) : R := u * rsum l.
Lemma part_mass w l a : part_ok w l a -> 0 <= mass l /\ 0 <= w /\ (w <= 0 -> mass l = 0) /\ (0 < w -> a * w = mass l /\ 0 < a).
Proof.
  intros [(-> & ->)|(Hn & Ea & Ew & Hl)].
  - unfold mass. cbn. split; [lra|]. split; [lra|]. split; [lra|]. intros; lra.
  - assert (L : 0 < INR (length l)) by (apply lt_0_INR; destruct l; [congruence|cbn; lia]). pose proof (mean_nonneg l Hn Hl) as Hm. pose proof (mean_rsum l Hn) as Q.
    assert (E : a * w = mass l) by (rewrite Ea, Ew; unfold mass; rewrite <- Q; ring).
    split; [unfold mass; apply Rmult_le_pos; [lra|apply rsum_pos; exact Hl]|]. split; [rewrite Ew; exact Hm|].
    split; [intro; unfold mass; rewrite <- Q; replace (mean l) with 0 by (rewrite Ew in *; lra); ring|].
    intro. split; [exact E|]. rewrite Ea. apply Rmult_lt_0_compat; assumption.
Qed.
Definition pos_part (we : nat -> R) (j : nat) : R := if Rltb 0 (we j) then area j else 0.
Definition wet (we : nat -> R) (ps : list nat) : nat := length (filter (fun j => Rltb 0 (we j)) ps).

Lemma pass_ok melt : 0 < melt -> forall ps we px ex, NoDup ps -> (forall j, In j ps -> part_ok (we j) (px j) (area j)) -> (forall j, In j ps -> ex j = 0) ->
  exists we' px' ex', parts_pass melt ps we px ex = Ok (we', px', ex') /\
    (forall j, ~ In j ps -> we' j = we j /\ px' j = px j /\ ex' j = ex j) /\
    (forall j, In j ps -> part_ok (we' j) (px' j) (area j) /\ lower (px j) (px' j) /\ ex' j <= 0 /\
       mass (px' j) = mass (px j) - melt * pos_part we j - ex' j * area j /\
       (0 < we' j -> 0 < we j) /\ (ex' j < 0 -> 0 < we j /\ we' j = 0)).
Proof.
  intro Hm. induction ps as [|j r IH]; intros we px ex Nd Hp He.
  - exists we, px, ex. split; [reflexivity|]. split; [auto|intros j []].
  - inversion Nd as [|x y Hnot Nd']; subst. pose proof (Hp j (or_introl eq_refl)) as Pj. pose proof (part_mass _ _ _ Pj) as (M1 & M2 & M3 & M4). pose proof (He j (or_introl eq_refl)) as Ej.
    cbn [parts_pass]. destruct (Rleb (we j) 0) eqn:E0; [apply Rleb_true in E0|apply Rleb_false in E0].
    + destruct (IH we px ex Nd') as (we' & px' & ex' & E & O & I); [intros; apply Hp; right; assumption|intros; apply He; right; assumption|].
      exists we', px', ex'. split; [exact E|]. split; [intros i Hi; apply O; intro; apply Hi; right; assumption|].
      intros i [<-|Hi]; [|apply I; exact Hi]. destruct (O j Hnot) as (-> & -> & ->). split; [exact Pj|]. split; [apply lower_refl|]. rewrite Ej.
      split; [lra|]. unfold pos_part. rewrite (proj2 (Rltb_false 0 (we j))) by lra. split; [ring|]. split; [auto|]. intros; lra.
    + destruct (M4 E0) as (M5 & M6). destruct Pj as [(_ & Z)|(Hn & Ea & Ew & Hl)]; [lra|].
      destruct (Rltb (we j) melt) eqn:E1; [apply Rltb_true in E1|apply Rltb_false in E1].
      * assert (Up : forall (A : Type) (f : nat -> A) v i, In i r -> upd f j v i = f i) by (intros A f v i Hi; apply upd_other; intros ->; contradiction).
        destruct (IH (upd we j 0) (upd px j []) (upd ex j (we j - melt)) Nd') as (we' & px' & ex' & E & O & I).
        { intros i Hi. rewrite !Up by exact Hi. apply Hp. right. exact Hi. } { intros i Hi. rewrite Up by exact Hi. apply He. right. exact Hi. }
        exists we', px', ex'. split; [exact E|]. split.
        { intros i Hi. destruct (O i) as (-> & -> & ->); [intro; apply Hi; right; assumption|]. rewrite !upd_other by (intros ->; apply Hi; left; reflexivity). auto. }
        intros i [<-|Hi].
        -- destruct (O j Hnot) as (-> & -> & ->). rewrite !upd_same. split; [left; auto|]. split; [apply lower_gone; exact Hl|]. split; [lra|].
           unfold pos_part. rewrite (proj2 (Rltb_true 0 (we j))) by lra. split; [|split; [lra|intros _; split; [exact E0|reflexivity]]].
           replace (mass []) with 0 by (unfold mass; cbn; ring). rewrite <- M5. ring.
        -- destruct (I i Hi) as (I1 & I2 & I3 & I4 & I5 & I6). unfold pos_part in *. rewrite !Up in * by exact Hi.
           split; [exact I1|]. split; [exact I2|]. split; [exact I3|]. split; [exact I4|]. split; [exact I5|exact I6].
      * destruct (melt_stops melt (px j)) as (l' & El). rewrite El.
        assert (L : 0 < INR (length (px j))) by (apply lt_0_INR; destruct (px j); [congruence|cbn; lia]). pose proof (mean_rsum _ Hn) as Q.
        destruct (melt_lowers melt (px j) l' Hl (Rlt_le _ _ Hm)) as (lam & A1 & A2 & A3); [rewrite <- Q, <- Ew; apply Rmult_le_compat_l; lra|exact El|].
        assert (Ll : length l' = length (px j)) by (rewrite A2; apply map_length).
        assert (Nl : l' <> []) by (intro Z; rewrite Z in Ll; destruct (px j); [congruence|discriminate]).
        assert (Lp : forall v, In v l' -> 0 <= v) by (intros v Hv; rewrite A2 in Hv; apply in_map_iff in Hv; destruct Hv as (x & <- & _); apply Rmax_l).
        assert (Em : mean l' = we j - melt).
        { apply Rmult_eq_reg_l with (INR (length (px j))); [|lra]. pose proof (mean_rsum l' Nl) as Q1. rewrite Ll in Q1. rewrite Q1, A3, Ew, <- Q. ring. }
        assert (Ck : isclose (mean l') (we j - melt) && Rleb 0 (mean l') = true).
        { apply andb_true_intro. split; [|apply Rleb_true; lra]. unfold isclose. apply Rleb_true. rewrite Em, Rminus_diag_eq by reflexivity. rewrite Rabs_R0. pose proof (Rabs_pos (we j - melt)). lra. }
        assert (Up : forall (A : Type) (f : nat -> A) v i, In i r -> upd f j v i = f i) by (intros A f v i Hi; apply upd_other; intros ->; contradiction).
        destruct (IH (upd we j (mean l')) (upd px j l') ex Nd') as (we' & px' & ex' & E & O & I).
        { intros i Hi. rewrite !Up by exact Hi. apply Hp. right. exact Hi. } { intros i Hi. apply He. right. exact Hi. }
        exists we', px', ex'. split; [destruct l' as [|x l']; [congruence|]; rewrite Ck; exact E|]. split.
        { intros i Hi. destruct (O i) as (-> & -> & ->); [intro; apply Hi; right; assumption|]. rewrite !upd_other by (intros ->; apply Hi; left; reflexivity). auto. }
        intros i [<-|Hi].
        -- destruct (O j Hnot) as (-> & -> & ->). rewrite !upd_same. rewrite Ej.
           split; [right; split; [exact Nl|]; split; [rewrite Ll; exact Ea|]; split; [reflexivity|exact Lp]|].
           split; [exists lam; split; [lra|]; rewrite A2; apply positive_lowered; exact Hl|]. split; [lra|].
           unfold pos_part. rewrite (proj2 (Rltb_true 0 (we j))) by lra. split; [|split; intros; lra].
           unfold mass. rewrite A3, Ea. ring.
        -- destruct (I i Hi) as (I1 & I2 & I3 & I4 & I5 & I6). unfold pos_part in *. rewrite !Up in * by exact Hi.
           split; [exact I1|]. split; [exact I2|]. split; [exact I3|]. split; [exact I4|]. split; [exact I5|exact I6].
Qed.

Lemma wet_less we we' ps : (forall j, In j ps -> 0 < we' j -> 0 < we j) -> (wet we' ps <= wet we ps)%nat /\
  ((exists j, In j ps /\ 0 < we j /\ we' j = 0) -> (wet we' ps < wet we ps)%nat).
Proof.
  unfold wet. induction ps as [|j r IH]; intro H; [split; [cbn; lia|intros (j & [] & _)]|].
  destruct IH as (I1 & I2); [intros; apply H; [right; assumption|assumption]|]. specialize (H j (or_introl eq_refl)). cbn [filter].
  destruct (Rltb 0 (we' j)) eqn:E1; [apply Rltb_true in E1|apply Rltb_false in E1]; (destruct (Rltb 0 (we j)) eqn:E2; [apply Rltb_true in E2|apply Rltb_false in E2]);
    cbn [length]; try (specialize (H E1); lra); (split; [lia|]); intros (i & [<-|Hi] & A & B); try lra; try lia; specialize (I2 (ex_intro _ i (conj Hi (conj A B)))); lia.
Qed.
Lemma wet_none we ps : (forall j, In j ps -> 0 <= area j) -> (forall j, In j ps -> 0 < we j -> 0 < area j) -> Rsum (pos_part we) ps = 0 -> forall j, In j ps -> we j <= 0.
Proof.
  intros Ha Hp HS j Hj. destruct (Rle_dec (we j) 0) as [|Hn]; [assumption|exfalso].
  assert (P : forall i, In i ps -> 0 <= pos_part we i) by (intros i Hi; unfold pos_part; destruct (Rltb 0 (we i)); [apply Ha; exact Hi|lra]).
  pose proof (Rsum_elem_le (pos_part we) ps j P Hj) as Q. unfold pos_part in Q at 1. rewrite (proj2 (Rltb_true 0 (we j))) in Q by lra. specialize (Hp j Hj ltac:(lra)). lra.
Qed.

Lemma loop_ok ps : NoDup ps -> (forall j, In j ps -> 0 <= area j) ->
  forall fuel melt we px, (wet we ps <= fuel)%nat -> (0 < fuel)%nat -> 0 <= melt ->
  (forall j, In j ps -> part_ok (we j) (px j) (area j)) -> melt * Rsum (pos_part we) ps <= Rsum (fun j => mass (px j)) ps ->
  exists we' px', parts_loop fuel melt ps area we px = Ok (we', px') /\
    (forall j, ~ In j ps -> we' j = we j /\ px' j = px j) /\
    (forall j, In j ps -> part_ok (we' j) (px' j) (area j) /\ lower (px j) (px' j)) /\
    Rsum (fun j => mass (px' j)) ps = Rsum (fun j => mass (px j)) ps - melt * Rsum (pos_part we) ps.
Proof.
  intros Nd Ha. 
  assert (Z : forall fuel we px, (forall j, In j ps -> part_ok (we j) (px j) (area j)) -> exists we' px', parts_loop fuel 0 ps area we px = Ok (we', px') /\
    (forall j, ~ In j ps -> we' j = we j /\ px' j = px j) /\
    (forall j, In j ps -> part_ok (we' j) (px' j) (area j) /\ lower (px j) (px' j)) /\
    Rsum (fun j => mass (px' j)) ps = Rsum (fun j => mass (px j)) ps - 0 * Rsum (pos_part we) ps).
  { intros fuel we px Hp. exists we, px. split.
    - destruct fuel; cbn [parts_loop]; rewrite (proj2 (Rltb_false 0 0)) by lra; reflexivity.
    - split; [auto|]. split; [intros j Hj; split; [apply Hp; exact Hj|apply lower_refl]|ring]. }
  induction fuel as [|k IH]; intros melt we px Hw Hf Hm Hp HD; [lia|].
  destruct (Rle_lt_or_eq_dec 0 melt Hm) as [Hpos|<-]; [|apply Z; exact Hp].
  destruct (pass_ok melt Hpos ps we px (fun _ => 0) Nd Hp (fun j _ => eq_refl)) as (we1 & px1 & ex1 & E & O & I).
  cbn [parts_loop]. rewrite (proj2 (Rltb_true 0 melt)) by lra. rewrite E. cbn [bind].
  set (tot := - Rsum (fun j => ex1 j * area j) ps).
  change (Rsum (fun j => if Rltb 0 (we1 j) then area j else 0) ps) with (Rsum (pos_part we1) ps). set (pos := Rsum (pos_part we1) ps).
  assert (Tp : 0 <= tot).
  { unfold tot. assert (Rsum (fun j => ex1 j * area j) ps <= Rsum (fun _ => 0) ps); [|rewrite Rsum_const in H; lra]. apply Rsum_le. intros j Hj. destruct (I j Hj) as (_ & _ & I3 & _). specialize (Ha j Hj).
    assert (0 <= - ex1 j * area j) by (apply Rmult_le_pos; lra). lra. }
  assert (Hmass : Rsum (fun j => mass (px1 j)) ps = Rsum (fun j => mass (px j)) ps - melt * Rsum (pos_part we) ps + tot).
  { unfold tot. rewrite (Rsum_ext_in _ (fun j => mass (px j) - melt * pos_part we j - ex1 j * area j)) by (intros j Hj; apply (I j Hj)).
    rewrite Rsum_minus, Rsum_minus, Rsum_scal. ring. }
  assert (Hp1 : forall j, In j ps -> part_ok (we1 j) (px1 j) (area j)) by (intros j Hj; apply (I j Hj)).
  assert (Ar1 : forall j, In j ps -> 0 < we1 j -> 0 < area j) by (intros j Hj Hw1; destruct (part_mass _ _ _ (Hp1 j Hj)) as (_ & _ & _ & Q); apply Q; exact Hw1).
  destruct (Reqb pos 0) eqn:Ep; [apply Reqb_true in Ep|apply Reqb_false in Ep].
  - exists we1, px1. split; [reflexivity|]. split; [intros j Hj; destruct (O j Hj) as (A & B & _); auto|]. split; [intros j Hj; split; [apply Hp1; exact Hj|apply (I j Hj)]|].
    assert (Zm : Rsum (fun j => mass (px1 j)) ps = 0).
    { apply Rsum_zero. intros j Hj. destruct (part_mass _ _ _ (Hp1 j Hj)) as (_ & _ & Q & _). apply Q. exact (wet_none we1 ps Ha Ar1 Ep j Hj). }
    lra.
  - assert (Pp : 0 < pos). { assert (0 <= pos); [|lra]. unfold pos. apply Rsum_nonneg. intros j Hj. unfold pos_part. destruct (Rltb 0 (we1 j)); [apply Ha; exact Hj|lra]. }
    destruct (wet_less we we1 ps) as (W1 & W2); [intros j Hj; apply (I j Hj)|].
    assert (Em : tot / pos * pos = tot) by (field; lra).
    assert (Dn : 0 <= tot / pos) by (apply Rmult_le_pos; [lra|apply Rlt_le, Rinv_0_lt_compat; lra]).
    assert (Fin : forall we' px', (forall j, ~ In j ps -> we' j = we1 j /\ px' j = px1 j) -> (forall j, In j ps -> part_ok (we' j) (px' j) (area j) /\ lower (px1 j) (px' j)) ->
      Rsum (fun j => mass (px' j)) ps = Rsum (fun j => mass (px1 j)) ps - tot / pos * pos ->
      (forall j, ~ In j ps -> we' j = we j /\ px' j = px j) /\ (forall j, In j ps -> part_ok (we' j) (px' j) (area j) /\ lower (px j) (px' j)) /\
      Rsum (fun j => mass (px' j)) ps = Rsum (fun j => mass (px j)) ps - melt * Rsum (pos_part we) ps).
    { intros we' px' F1 F2 F3. split; [intros j Hj; destruct (F1 j Hj) as (-> & ->); destruct (O j Hj) as (A & B & _); auto|].
      split; [intros j Hj; destruct (F2 j Hj) as (A & B); split; [exact A|]; apply lower_trans with (px1 j); [apply (I j Hj)|exact B]|]. rewrite F3, Em, Hmass. ring. }
    destruct (Rle_lt_or_eq_dec 0 tot Tp) as [Tq|Tz].
    + assert (Ex : exists j, In j ps /\ 0 < we j /\ we1 j = 0).
      { destruct (existsb (fun j => Rltb (ex1 j) 0) ps) eqn:Eb.
        - apply existsb_exists in Eb. destruct Eb as (j & Hj & Hx). apply Rltb_true in Hx. exists j. split; [exact Hj|]. destruct (I j Hj) as (_ & _ & _ & _ & _ & Q). exact (Q Hx).
        - exfalso. assert (tot = 0); [|lra]. unfold tot. rewrite Rsum_zero; [ring|]. intros j Hj. destruct (I j Hj) as (_ & _ & I3 & _).
          destruct (Rltb (ex1 j) 0) eqn:X; [|apply Rltb_false in X; replace (ex1 j) with 0 by lra; ring]. assert (existsb (fun j => Rltb (ex1 j) 0) ps = true) by (apply existsb_exists; eauto). congruence. }
      specialize (W2 Ex).
      assert (Wp : (0 < wet we1 ps)%nat).
      { destruct (wet we1 ps) eqn:Ew; [exfalso|lia]. assert (pos = 0); [|lra]. unfold pos. apply Rsum_zero. intros j Hj. unfold pos_part. destruct (Rltb 0 (we1 j)) eqn:X; [exfalso|reflexivity].
        assert (Hin : In j (filter (fun j => Rltb 0 (we1 j)) ps)) by (apply filter_In; auto). unfold wet in Ew. destruct (filter _ ps); [contradiction|discriminate]. }
      destruct (IH (tot / pos) we1 px1) as (we' & px' & E' & F1 & F2 & F3); [lia|lia|exact Dn|exact Hp1|fold pos; rewrite Em; lra|].
      exists we', px'. split; [exact E'|]. apply Fin; assumption.
    + replace (tot / pos) with 0 in * by (rewrite <- Tz; unfold Rdiv; ring).
      destruct (Z k we1 px1 Hp1) as (we' & px' & E' & F1 & F2 & F3). exists we', px'. split; [exact E'|]. apply Fin; assumption.
Qed.
End Parts.

(** *** The bands *)
Section Bands.
Variable g : grid.
Hypothesis Hpx : 0 < g_px g.
Hypothesis Hc : 0 < g_catchment g.
Variables (P m n : nat) (band : nat -> nat) (dh : nat -> R).
Hypothesis Hband : forall j, (j < P)%nat -> (band j < m)%nat.
Let u : R := g_px g / g_catchment g.
Lemma dh_u_pos : 0 < u.
Proof. unfold u. apply Rmult_lt_0_compat; [assumption|]. apply Rinv_0_lt_compat. assumption. Qed.

Definition band_mass (px : nat -> list R) (b : nat) : R := Rsum (fun j => mass u (px j)) (parts_of P band b).
Lemma parts_in b j : In j (parts_of P band b) <-> (j < P)%nat /\ band j = b.
Proof. unfold parts_of. rewrite filter_In, in_seq, Nat.eqb_eq. split; intros (A & B); split; (lia || assumption). Qed.
Lemma parts_nodup b : NoDup (parts_of P band b).
Proof. apply NoDup_filter, seq_NoDup. Qed.
Lemma band_total (f : nat -> R) : Rsum (fun b => Rsum f (parts_of P band b)) (seq 0 m) = Rsum f (seq 0 P).
Proof. apply sum_by_key; [apply seq_NoDup|]. intros j Hj. apply in_seq in Hj. apply in_seq. specialize (Hband j ltac:(lia)). lia. Qed.

(** A row: the pixels of each part, all positive; areas and depths computed from them. *)
Definition row_ok (s : dh_row) : Prop :=
  (forall j, (j < P)%nat -> part_ok u (dr_we s j) (dr_px s j) (dr_area s j) /\ dr_area s j = u * INR (length (dr_px s j)) /\ forall v, In v (dr_px s j) -> 0 < v) /\
  (forall b, (b < m)%nat -> dr_area_b s b = Rsum (dr_area s) (parts_of P band b) /\ dr_we_b s b * dr_area_b s b = band_mass (dr_px s) b /\ 0 <= dr_we_b s b).

Lemma mean_positive l : l <> [] -> (forall v, In v l -> 0 < v) -> 0 < mean l.
Proof.
  intros Hn H. assert (L : 0 < INR (length l)) by (apply lt_0_INR; destruct l; [congruence|cbn; lia]). pose proof (mean_rsum l Hn) as Q.
  assert (0 < rsum l).
  { destruct l as [|x l]; [congruence|]. unfold rsum. cbn [Rsum]. assert (0 <= Rsum (fun v => v) l) by (apply Rsum_nonneg; intros; apply Rlt_le, H; right; assumption). specialize (H x (or_introl eq_refl)). lra. }
  apply Rmult_lt_reg_l with (INR (length l)); [exact L|]. lra.
Qed.
Lemma row_pos s j : row_ok s -> (j < P)%nat -> pos_part (dr_area s) (dr_we s) j = dr_area s j.
Proof.
  intros (A & _) Hj. destruct (A j Hj) as (Hp & Ha & Hv). unfold pos_part. destruct (Rltb 0 (dr_we s j)) eqn:E; [reflexivity|apply Rltb_false in E].
  destruct Hp as [(Z & _)|(Hn & _ & Ew & _)]; [rewrite Ha, Z; cbn; ring|]. pose proof (mean_positive _ Hn Hv). lra.
Qed.
Lemma row_area_nonneg s j : row_ok s -> (j < P)%nat -> 0 <= dr_area s j.
Proof. intros (A & _) Hj. destruct (A j Hj) as (_ & -> & _). pose proof dh_u_pos. apply Rmult_le_pos; [lra|apply pos_INR]. Qed.
Lemma row_band_area s b : row_ok s -> (b < m)%nat -> 0 <= dr_area_b s b.
Proof. intros Hs Hb. pose proof Hs as (_ & B). destruct (B b Hb) as (-> & _). apply Rsum_nonneg. intros j Hj. apply parts_in in Hj. apply row_area_nonneg; [exact Hs|tauto]. Qed.

Lemma bands_ok s melt : row_ok s -> forall bs we px ex, NoDup bs -> (forall b, In b bs -> (b < m)%nat) ->
  (forall b j, In b bs -> In j (parts_of P band b) -> we j = dr_we s j /\ px j = dr_px s j) ->
  exists we' px' ex', bands_melt P band melt s bs we px ex = Ok (we', px', ex') /\
    (forall j, ~ In (band j) bs -> px' j = px j) /\ (forall b, ~ In b bs -> ex' b = ex b) /\
    forall b, In b bs -> (forall j, In j (parts_of P band b) -> lower (dr_px s j) (px' j) /\ forall v, In v (px' j) -> 0 <= v) /\
      ((ex' b <= 0 /\ dr_we_b s b < melt b) \/ ex' b = ex b) /\
      (let e := if Rltb (dr_we_b s b) (melt b) then ex' b else 0 in
       e <= 0 /\ band_mass px' b = band_mass (dr_px s) b - Rmax 0 (melt b) * dr_area_b s b - e * dr_area_b s b) /\
      band_mass px' b = Rmax 0 (band_mass (dr_px s) b - Rmax 0 (melt b) * dr_area_b s b).
Proof.
  intro Hs. pose proof Hs as (Hs1 & Hs2). pose proof dh_u_pos as U.
  induction bs as [|b r IH]; intros we px ex Nd Hb He.
  - exists we, px, ex. split; [reflexivity|]. split; [auto|]. split; [auto|intros b []].
  - inversion Nd as [|x y Hnot Nd']; subst. pose proof (Hb b (or_introl eq_refl)) as Bm. destruct (Hs2 b Bm) as (Aa & Am & Aw). pose proof (row_band_area s b Hs Bm) as An.
    assert (Hpos : forall j, In j (parts_of P band b) -> forall v, In v (dr_px s j) -> 0 <= v).
    { intros j Hj v Hv. apply parts_in in Hj. destruct (Hs1 j ltac:(tauto)) as (_ & _ & Q). apply Rlt_le, Q, Hv. }
    cbn [bands_melt]. destruct (Rltb (dr_we_b s b) (melt b)) eqn:E; [apply Rltb_true in E|apply Rltb_false in E].
    + set (we1 := fun j => if (band j =? b)%nat then 0 else we j). set (px1 := fun j => if (band j =? b)%nat then [] else px j).
      assert (Mp : Rmax 0 (melt b) = melt b) by (apply Rmax_right; lra).
      destruct (IH we1 px1 (upd ex b (dr_we_b s b - melt b)) Nd') as (we' & px' & ex' & E1 & O1 & O2 & I).
      { intros c Hc'. apply Hb. right. exact Hc'. }
      { intros c j Hc' Hj. pose proof Hj as Hj'. apply parts_in in Hj'. unfold we1, px1. destruct (Nat.eqb_spec (band j) b) as [Eb|_]; [exfalso; apply Hnot; rewrite <- Eb; destruct Hj' as (_ & ->); exact Hc'|].
        apply (He c j (or_intror Hc') Hj). }
      exists we', px', ex'. split; [exact E1|]. split; [|split].
      * intros j Hj. rewrite O1 by (intro; apply Hj; right; assumption). unfold px1. destruct (Nat.eqb_spec (band j) b) as [Eb|_]; [exfalso; apply Hj; left; auto|reflexivity].
      * intros c Hc'. rewrite O2 by (intro; apply Hc'; right; assumption). apply upd_other. intros ->. apply Hc'. left. reflexivity.
      * intros c [<-|Hc'].
        -- assert (Px : forall j, In j (parts_of P band b) -> px' j = []).
           { intros j Hj. apply parts_in in Hj. rewrite O1 by (destruct Hj as (_ & ->); exact Hnot). unfold px1. destruct (Nat.eqb_spec (band j) b); [reflexivity|tauto]. }
           assert (Ex : ex' b = dr_we_b s b - melt b) by (rewrite O2 by exact Hnot; apply upd_same).
           assert (Zm : band_mass px' b = 0) by (unfold band_mass; apply Rsum_zero; intros j Hj; rewrite (Px j Hj); unfold mass; cbn; ring).
           split; [intros j Hj; rewrite (Px j Hj); split; [apply lower_gone; apply Hpos; exact Hj|intros v []]|].
           split; [left; lra|]. cbn zeta. rewrite (proj2 (Rltb_true (dr_we_b s b) (melt b))) by lra. rewrite Ex, Zm, Mp. rewrite <- Am.
           split; [split; [lra|ring]|]. rewrite Rmax_left; [reflexivity|]. assert (0 <= (melt b - dr_we_b s b) * dr_area_b s b) by (apply Rmult_le_pos; lra). lra.
        -- destruct (I c Hc') as (I1 & I2 & I3 & I4). split; [exact I1|]. split; [|split; [exact I3|exact I4]].
           destruct I2 as [I2|I2]; [left; exact I2|right]. rewrite I2. apply upd_other. intros ->. contradiction.
    + assert (Hw : forall j, In j (parts_of P band b) -> part_ok u (we j) (px j) (dr_area s j)).
      { intros j Hj. destruct (He b j (or_introl eq_refl) Hj) as (-> & ->). apply parts_in in Hj. apply Hs1. tauto. }
      assert (Sp : Rsum (pos_part (dr_area s) we) (parts_of P band b) = dr_area_b s b).
      { rewrite Aa. apply Rsum_ext_in. intros j Hj. destruct (He b j (or_introl eq_refl) Hj) as (Ew & _). unfold pos_part. rewrite Ew. fold (pos_part (dr_area s) (dr_we s) j).
        apply row_pos; [exact Hs|]. apply parts_in in Hj. tauto. }
      assert (Sm : Rsum (fun j => mass u (px j)) (parts_of P band b) = band_mass (dr_px s) b).
      { apply Rsum_ext_in. intros j Hj. destruct (He b j (or_introl eq_refl) Hj) as (_ & ->). reflexivity. }
      assert (Mw : Rmax 0 (melt b) <= dr_we_b s b) by (apply Rmax_lub; lra).
      assert (Lp : exists we1 px1, parts_loop (S (length (parts_of P band b))) (melt b) (parts_of P band b) (dr_area s) we px = Ok (we1, px1) /\
        (forall j, ~ In j (parts_of P band b) -> we1 j = we j /\ px1 j = px j) /\
        (forall j, In j (parts_of P band b) -> part_ok u (we1 j) (px1 j) (dr_area s j) /\ lower (px j) (px1 j)) /\
        Rsum (fun j => mass u (px1 j)) (parts_of P band b) = Rsum (fun j => mass u (px j)) (parts_of P band b) - Rmax 0 (melt b) * Rsum (pos_part (dr_area s) we) (parts_of P band b)).
      { destruct (Rle_dec 0 (melt b)) as [Bp|Bn].
        - rewrite Rmax_right in * by exact Bp. apply (loop_ok u U (dr_area s) (parts_of P band b) (parts_nodup b)).
          + intros j Hj. apply row_area_nonneg; [exact Hs|]. apply parts_in in Hj. tauto.
          + unfold wet. clear. induction (parts_of P band b) as [|x l IH]; [cbn; lia|]. cbn [filter]. destruct (Rltb 0 (we x)); cbn [length] in *; lia.
          + lia.
          + exact Bp.
          + exact Hw.
          + rewrite Sp, Sm, <- Am. apply Rmult_le_compat_r; lra.
        - exists we, px. cbn [parts_loop]. rewrite (proj2 (Rltb_false 0 (melt b))) by lra. split; [reflexivity|]. split; [auto|].
          split; [intros j Hj; split; [apply Hw; exact Hj|apply lower_refl]|]. rewrite Rmax_left by lra. ring. }
      destruct Lp as (we1 & px1 & E1 & L1 & L2 & L3).
      rewrite E1. cbn [bind fst snd].
      destruct (IH we1 px1 ex Nd') as (we' & px' & ex' & E2 & O1 & O2 & I).
      { intros c Hc'. apply Hb. right. exact Hc'. }
      { intros c j Hc' Hj. destruct (L1 j) as (-> & ->); [intro Hj2; apply parts_in in Hj; apply parts_in in Hj2; apply Hnot; destruct Hj as (_ & Q1); destruct Hj2 as (_ & Q2); rewrite <- Q2, Q1; exact Hc'|].
        apply (He c j (or_intror Hc') Hj). }
      exists we', px', ex'. split; [exact E2|]. split; [|split].
      * intros j Hj. rewrite O1 by (intro; apply Hj; right; assumption). destruct (L1 j) as (_ & ->); [|reflexivity]. intro Hj2. apply parts_in in Hj2. apply Hj. left. symmetry. tauto.
      * intros c Hc'. apply O2. intro. apply Hc'. right. assumption.
      * intros c [<-|Hc'].
        -- assert (Px : forall j, In j (parts_of P band b) -> px' j = px1 j).
           { intros j Hj. apply O1. apply parts_in in Hj. destruct Hj as (_ & ->). exact Hnot. }
           assert (Em : band_mass px' b = band_mass (dr_px s) b - Rmax 0 (melt b) * dr_area_b s b).
           { unfold band_mass at 1. rewrite (Rsum_ext_in _ (fun j => mass u (px1 j))) by (intros j Hj; rewrite (Px j Hj); reflexivity). rewrite L3, Sp, Sm. ring. }
           split; [intros j Hj; rewrite (Px j Hj); destruct (L2 j Hj) as (Q1 & Q2); destruct (He b j (or_introl eq_refl) Hj) as (_ & Ep); rewrite <- Ep; split; [exact Q2|]; destruct Q1 as [(-> & _)|(_ & _ & _ & Q1)]; [intros v []|exact Q1]|].
           split; [right; apply O2; exact Hnot|]. cbn zeta. rewrite (proj2 (Rltb_false (dr_we_b s b) (melt b))) by lra. split; [split; [lra|]; rewrite Em; ring|].
           rewrite Em. symmetry. apply Rmax_right. rewrite <- Am. assert (0 <= (dr_we_b s b - Rmax 0 (melt b)) * dr_area_b s b) by (apply Rmult_le_pos; lra). lra.
        -- exact (I c Hc').
Qed.

Lemma concat_length (L : list (list R)) : INR (length (concat L)) = Rsum (fun l => INR (length l)) L.
Proof. induction L as [|l L IH]; [reflexivity|]. cbn [concat Rsum]. rewrite app_length, plus_INR, IH. reflexivity. Qed.
Lemma concat_rsum (L : list (list R)) : rsum (concat L) = Rsum rsum L.
Proof. induction L as [|l L IH]; [reflexivity|]. cbn [concat Rsum]. unfold rsum in *. rewrite Rsum_app, IH. reflexivity. Qed.

Lemma width_ok px e : (forall j v, (j < P)%nat -> In v (px j) -> 0 <= v) ->
  row_ok (dr_width g P band px e) /\ (forall j, dr_px (dr_width g P band px e) j = px_positive (px j)) /\
  (forall b, band_mass (dr_px (dr_width g P band px e)) b = band_mass px b) /\ dr_excess (dr_width g P band px e) = e.
Proof.
  intro Hp. pose proof dh_u_pos as U. set (s := dr_width g P band px e).
  assert (A1 : forall j, (j < P)%nat -> dr_area s j = u * INR (length (px_positive (px j)))).
  { intros j Hj. unfold s, dr_width. cbn [dr_area]. rewrite positive_nonzero by (intros v Hv; apply (Hp j v Hj Hv)). unfold u, Rdiv. ring. }
  assert (Mb : forall b, band_mass (fun j => px_positive (px j)) b = band_mass px b).
  { intro b. unfold band_mass. apply Rsum_ext_in. intros j Hj. apply parts_in in Hj. unfold mass. rewrite positive_sum; [reflexivity|]. intros v Hv. apply (Hp j v ltac:(tauto) Hv). }
  split; [split|].
  - intros j Hj. unfold s at 1 2. unfold dr_width at 1 2. cbn [dr_we dr_px]. split; [|split; [apply A1; exact Hj|intros v Hv; apply positive_in in Hv; tauto]].
    destruct (px_positive (px j)) as [|x l] eqn:El; [left; auto|right]. split; [discriminate|]. split; [rewrite A1, El by exact Hj; reflexivity|]. split; [reflexivity|].
    rewrite <- El. intros v Hv. apply positive_in in Hv. lra.
  - intros b Hb. split; [reflexivity|].
    set (all := concat (map (fun j => px_positive (px j)) (parts_of P band b))).
    assert (Ab : dr_area_b s b = u * INR (length all)).
    { unfold all. rewrite concat_length, Rsum_map, <- Rsum_scal. unfold s, dr_width. cbn [dr_area_b]. apply Rsum_ext_in. intros j Hj. apply parts_in in Hj. rewrite <- A1 by tauto. reflexivity. }
    assert (Wb : dr_we_b s b = match all with [] => 0 | x :: l => mean (x :: l) end) by reflexivity.
    assert (Pa : forall v, In v all -> 0 <= v). { intros v Hv. unfold all in Hv. apply in_concat in Hv. destruct Hv as (l & Hl & Hv). apply in_map_iff in Hl. destruct Hl as (j & <- & _). apply positive_in in Hv. lra. }
    assert (Ma : u * rsum all = band_mass (dr_px s) b). { unfold all. rewrite concat_rsum, Rsum_map, <- Rsum_scal. reflexivity. }
    rewrite <- Ma, Ab, Wb. destruct all as [|x l] eqn:El; [cbn; split; [ring|lra]|]. rewrite <- El in *. assert (Hn : all <> []) by (rewrite El; discriminate).
    split; [rewrite <- (mean_rsum all Hn); ring|]. apply mean_nonneg; assumption.
  - split; [reflexivity|]. split; [intro b; unfold s, dr_width; cbn [dr_px]; apply Mb|reflexivity].
Qed.

(** One step, for any change of thickness per band. *)
Definition row_mass (s : dh_row) : R := Rsum (fun j => mass u (dr_px s j)) (seq 0 P).
Definition demand (s : dh_row) : R := Rsum (fun b => dr_area_b s b * dh b) (seq 0 m).
Definition step_rel (M0 : R) (s s' : dh_row) : Prop := exists f,
  f * demand s = M0 / INR n + dr_excess s /\
  (forall j, (j < P)%nat -> exists a, 0 <= a /\ dr_px s' j = above a (dr_px s j)) /\
  (forall b, (b < m)%nat -> band_mass (dr_px s') b = Rmax 0 (band_mass (dr_px s) b - Rmax 0 (f * dh b) * dr_area_b s b)) /\
  dr_excess s' = row_mass s' - row_mass s + Rsum (fun b => Rmax 0 (f * dh b) * dr_area_b s b) (seq 0 m).
Lemma step_ok M0 s : row_ok s ->
  (demand s = 0 -> dr_step g P m n band M0 dh s = UB) /\
  (demand s <> 0 -> exists s', dr_step g P m n band M0 dh s = Ok s' /\ row_ok s' /\ 0 <= dr_excess s' /\ step_rel M0 s s').
Proof.
  intros Hs. set (D := demand s). split.
  - intro Z. unfold dr_step, dh_factor. fold (demand s). fold D. rewrite (proj2 (Reqb_true D 0)) by exact Z. reflexivity.
  - intro Nz. set (f := (M0 / INR n + dr_excess s) / D).
    assert (Ef : f * D = M0 / INR n + dr_excess s) by (unfold f; unfold Rdiv at 1; rewrite Rmult_assoc, Rinv_l by exact Nz; ring).
    destruct (bands_ok s (fun b => f * dh b) Hs (seq 0 m) (dr_we s) (dr_px s) (fun _ => 0) (seq_NoDup m 0)) as (we' & px' & ex' & E & O1 & O2 & I).
    { intros b Hb. apply in_seq in Hb. lia. }
    { auto. }
    set (e := - Rsum (fun b => ex' b * dr_area_b s b) (seq 0 m)).
    assert (Pp : forall j v, (j < P)%nat -> In v (px' j) -> 0 <= v).
    { intros j v Hj Hv. assert (Hb : In (band j) (seq 0 m)) by (apply in_seq; specialize (Hband j Hj); lia). destruct (I _ Hb) as (I1 & _). apply (I1 j); [apply parts_in; auto|exact Hv]. }
    destruct (width_ok px' e Pp) as (W1 & W2 & W3 & W4).
    assert (Ex : forall b, In b (seq 0 m) -> ex' b <= 0 /\ band_mass px' b = band_mass (dr_px s) b - Rmax 0 (f * dh b) * dr_area_b s b - ex' b * dr_area_b s b).
    { intros b Hb. destruct (I b Hb) as (_ & I2 & I3 & _). cbn zeta in I3. destruct (Rltb (dr_we_b s b) (f * dh b)) eqn:X; [exact I3|apply Rltb_false in X].
      destruct I2 as [I2|I2]; [lra|]. rewrite I2. split; [lra|]. destruct I3 as (_ & ->). ring. }
    exists (dr_width g P band px' e). split.
    { unfold dr_step, dh_factor. fold (demand s). fold D. rewrite (proj2 (Reqb_false D 0)) by exact Nz. cbn [bind]. fold f. rewrite E. cbn [bind]. reflexivity. }
    split; [exact W1|]. rewrite W4. split.
    { unfold e. assert (Rsum (fun b => ex' b * dr_area_b s b) (seq 0 m) <= Rsum (fun _ => 0) (seq 0 m)); [|rewrite Rsum_const in H; lra]. apply Rsum_le. intros b Hb. destruct (Ex b Hb) as (X & _).
      pose proof Hb as Hb'. apply in_seq in Hb'. pose proof (row_band_area s b Hs ltac:(lia)). assert (0 <= - ex' b * dr_area_b s b) by (apply Rmult_le_pos; lra). lra. }
    exists f. split; [exact Ef|]. split; [|split].
    + intros j Hj. assert (Hb : In (band j) (seq 0 m)) by (apply in_seq; specialize (Hband j Hj); lia). destruct (I _ Hb) as (I1 & _).
      destruct (I1 j) as ((a & Ha & Ea) & _); [apply parts_in; auto|]. exists a. split; [exact Ha|]. rewrite W2. exact Ea.
    + intros b Hb. rewrite W3. destruct (I b) as (_ & _ & _ & I4); [apply in_seq; lia|]. exact I4.
    + rewrite W4. unfold row_mass. rewrite <- (band_total (fun j => mass u (dr_px (dr_width g P band px' e) j))), <- (band_total (fun j => mass u (dr_px s j))).
      rewrite (Rsum_ext_in (fun b => Rsum (fun j => mass u (dr_px (dr_width g P band px' e) j)) (parts_of P band b)) (fun b => band_mass (dr_px s) b - Rmax 0 (f * dh b) * dr_area_b s b - ex' b * dr_area_b s b)).
      2:{ intros b Hb. fold (band_mass (dr_px (dr_width g P band px' e)) b). rewrite W3. destruct (Ex b Hb) as (_ & ->). ring. }
      rewrite Rsum_minus, Rsum_minus. unfold e, band_mass. ring.
Qed.

(** All rows. *)
Lemma rows_ok M0 : forall k s, row_ok s -> 0 <= dr_excess s ->
  dr_rows g P m n band M0 dh s k <> Throw /\
  forall l, dr_rows g P m n band M0 dh s k = Ok l -> length l = S k /\ (forall d, nth 0 l d = s) /\
    (forall r d, (r <= k)%nat -> row_ok (nth r l d) /\ 0 <= dr_excess (nth r l d)) /\
    (forall r d, (r < k)%nat -> step_rel M0 (nth r l d) (nth (S r) l d)).
Proof.
  induction k as [|k IH]; intros s Hs He; cbn [dr_rows].
  - split; [discriminate|]. intros l H. injection H as <-. split; [reflexivity|]. split; [reflexivity|]. split; [|intros; lia].
    intros r d Hr. replace r with 0%nat by lia. cbn [nth]. auto.
  - destruct (step_ok M0 s Hs) as (A & B). destruct (Req_EM_T (demand s) 0) as [Z|Z]; [rewrite (A Z); split; discriminate|].
    destruct (B Z) as (s' & E & Hs' & He' & Hr). rewrite E. cbn [bind]. destruct (IH s' Hs' He') as (I1 & I2).
    destruct (dr_rows g P m n band M0 dh s' k) as [l'| |] eqn:El; cbn [bind]; [|congruence|split; discriminate].
    split; [discriminate|]. intros l H. injection H as <-. destruct (I2 l' eq_refl) as (J1 & J2 & J3 & J4).
    split; [cbn; lia|]. split; [reflexivity|]. split.
    + intros r d Hk. destruct r as [|r]; [cbn [nth]; auto|]. cbn [nth]. apply J3. lia.
    + intros r d Hk. destruct r as [|r]; cbn [nth]; [|apply J4; lia]. destruct l' as [|x l']; [discriminate|]. specialize (J2 d). cbn in J2. cbn. rewrite J2. exact Hr.
Qed.
(** With a positive change of thickness in all bands, and mass left, no division by zero. *)
Lemma row_mass_pos s : row_ok s -> 0 < row_mass s -> exists j, (j < P)%nat /\ dr_px s j <> [].
Proof.
  intros Hs Hm. destruct (existsb (fun j => match dr_px s j with [] => false | _ => true end) (seq 0 P)) eqn:E.
  - apply existsb_exists in E. destruct E as (j & Hj & Hx). apply in_seq in Hj. exists j. split; [lia|]. destruct (dr_px s j); [discriminate|discriminate].
  - exfalso. assert (row_mass s = 0); [|lra]. apply Rsum_zero. intros j Hj.
    assert (dr_px s j = []). { destruct (dr_px s j) eqn:X; [reflexivity|]. assert (existsb (fun j => match dr_px s j with [] => false | _ => true end) (seq 0 P) = true); [|congruence]. apply existsb_exists. exists j. split; [exact Hj|]. rewrite X. reflexivity. }
    rewrite H. unfold mass. cbn. ring.
Qed.
Lemma demand_pos s : row_ok s -> (forall b, (b < m)%nat -> 0 < dh b) -> 0 < row_mass s -> 0 < demand s.
Proof.
  intros Hs Hd Hm. destruct (row_mass_pos s Hs Hm) as (j & Hj & Hx). pose proof Hs as (H1 & H2). destruct (H1 j Hj) as (_ & Ha & _).
  assert (Aj : 0 < dr_area s j). { rewrite Ha. pose proof dh_u_pos. apply Rmult_lt_0_compat; [assumption|]. apply lt_0_INR. destruct (dr_px s j); [congruence|cbn; lia]. }
  pose proof (Hband j Hj) as Hb. destruct (H2 _ Hb) as (Ab & _).
  assert (Bj : 0 < dr_area_b s (band j)).
  { rewrite Ab. apply Rlt_le_trans with (dr_area s j); [exact Aj|]. apply Rsum_elem_le; [|apply parts_in; auto]. intros i Hi. apply parts_in in Hi. apply row_area_nonneg; [exact Hs|tauto]. }
  apply Rlt_le_trans with (dr_area_b s (band j) * dh (band j)); [apply Rmult_lt_0_compat; [exact Bj|apply Hd; exact Hb]|].
  apply (Rsum_elem_le (fun b => dr_area_b s b * dh b)); [|apply in_seq; lia]. intros b Hb'. apply in_seq in Hb'. apply Rmult_le_pos; [apply row_band_area; [exact Hs|lia]|apply Rlt_le, Hd; lia].
Qed.
Lemma step_mass M0 s s' : (0 < n)%nat -> 0 <= M0 -> row_ok s -> 0 <= dr_excess s -> step_rel M0 s s' ->
  row_mass s' <= row_mass s /\ row_mass s' - dr_excess s' <= row_mass s - dr_excess s - M0 / INR n /\
  ((forall b, (b < m)%nat -> 0 <= dh b) -> row_mass s' - dr_excess s' = row_mass s - dr_excess s - M0 / INR n).
Proof.
  intros Hn HM Hs He (f & Ef & _ & Hb & Hx).
  assert (Np : 0 < INR n) by (apply lt_0_INR; exact Hn).
  split; [|split].
  - unfold row_mass. rewrite <- (band_total (fun j => mass u (dr_px s' j))), <- (band_total (fun j => mass u (dr_px s j))). apply Rsum_le. intros b Hin. apply in_seq in Hin.
    fold (band_mass (dr_px s') b). fold (band_mass (dr_px s) b). rewrite Hb by lia. apply Rmax_lub.
    + pose proof Hs as (_ & H2). destruct (H2 b ltac:(lia)) as (_ & <- & Hw). apply Rmult_le_pos; [exact Hw|]. apply row_band_area; [exact Hs|lia].
    + assert (0 <= Rmax 0 (f * dh b) * dr_area_b s b) by (apply Rmult_le_pos; [apply Rmax_l|apply row_band_area; [exact Hs|lia]]). lra.
  - rewrite Hx. assert (f * demand s <= Rsum (fun b => Rmax 0 (f * dh b) * dr_area_b s b) (seq 0 m)); [|lra].
    unfold demand. rewrite <- Rsum_scal. apply Rsum_le. intros b Hin. apply in_seq in Hin. replace (f * (dr_area_b s b * dh b)) with (f * dh b * dr_area_b s b) by ring.
    apply Rmult_le_compat_r; [apply row_band_area; [exact Hs|lia]|apply Rmax_r].
  - intro Hd. rewrite Hx.
    assert (Q : f * demand s = Rsum (fun b => Rmax 0 (f * dh b) * dr_area_b s b) (seq 0 m)); [|lra].
    assert (Dp : 0 <= demand s) by (apply Rsum_nonneg; intros b Hin; apply in_seq in Hin; apply Rmult_le_pos; [apply row_band_area; [exact Hs|lia]|apply Hd; lia]).
    assert (Mn : 0 <= M0 / INR n) by (apply Rmult_le_pos; [lra|apply Rlt_le, Rinv_0_lt_compat; lra]).
    assert (Fp : 0 <= f \/ demand s = 0).
    { destruct (Req_EM_T (demand s) 0) as [Z|Z]; [auto|left]. destruct (Rle_dec 0 f) as [|Hneg]; [assumption|exfalso]. assert (0 < - f * demand s) by (apply Rmult_lt_0_compat; lra). lra. }
    unfold demand. rewrite <- Rsum_scal. apply Rsum_ext_in. intros b Hin. pose proof Hin as Hin'. apply in_seq in Hin'.
    destruct Fp as [Fp|Z].
    + rewrite Rmax_right by (apply Rmult_le_pos; [exact Fp|apply Hd; lia]). ring.
    + assert (Zb : dr_area_b s b * dh b = 0).
      { assert (T : forall c, In c (seq 0 m) -> 0 <= dr_area_b s c * dh c) by (intros c Hc'; apply in_seq in Hc'; apply Rmult_le_pos; [apply row_band_area; [exact Hs|lia]|apply Hd; lia]).
        pose proof (Rsum_elem_le (fun b => dr_area_b s b * dh b) (seq 0 m) b T Hin) as Q. unfold demand in Z. specialize (T b Hin). lra. }
      rewrite Zb. apply Rmult_integral in Zb. destruct Zb as [->| ->]; [ring|]. rewrite Rmult_0_r, Rmax_left by lra. ring.
Qed.
Lemma rows_exist M0 : (0 < n)%nat -> 0 < M0 -> (forall b, (b < m)%nat -> 0 < dh b) -> forall k s i, row_ok s -> 0 <= dr_excess s ->
  row_mass s - dr_excess s = (1 - INR i / INR n) * M0 -> (i + k <= n)%nat -> exists l, dr_rows g P m n band M0 dh s k = Ok l.
Proof.
  intros Hn HM Hd. assert (Np : 0 < INR n) by (apply lt_0_INR; exact Hn). induction k as [|k IH]; intros s i Hs He Hm Hk; cbn [dr_rows]; [eauto|].
  assert (Rp : 0 < row_mass s).
  { assert (0 < (1 - INR i / INR n) * M0); [|lra]. apply Rmult_lt_0_compat; [|exact HM]. assert (INR i < INR n) by (apply lt_INR; lia).
    assert (INR i / INR n < 1); [|lra]. apply Rmult_lt_reg_r with (INR n); [exact Np|]. unfold Rdiv. rewrite Rmult_assoc, Rinv_l by lra. lra. }
  destruct (step_ok M0 s Hs) as (_ & B). pose proof (demand_pos s Hs Hd Rp). destruct (B ltac:(lra)) as (s' & E & Hs' & He' & Hr). rewrite E. cbn [bind].
  destruct (step_mass M0 s s' Hn (Rlt_le _ _ HM) Hs He Hr) as (_ & _ & Q). specialize (Q (fun b Hb => Rlt_le _ _ (Hd b Hb))).
  destruct (IH s' (S i) Hs' He') as (l & El); [rewrite Q, Hm, S_INR; field; lra|lia|]. rewrite El. cbn [bind]. eauto.
Qed.

(** Row 0. *)
Variable thick : nat -> list R.
Hypothesis Hthick : forall j, (j < P)%nat -> thick j <> [] /\ forall h, In h (thick j) -> 0 < h.
Lemma start_ok : let s := dr_start g P m band thick in row_ok s /\ dr_excess s = 0 /\ dr_total P s = row_mass s /\
  (forall j, dr_px s j = map (fun h => h * iceDensity) (thick j)).
Proof using Hpx Hc dh Hthick.
  intro s. pose proof dh_u_pos as U. assert (K : 0 < iceDensity) by (unfold iceDensity; lra).
  assert (Px : forall j, dr_px s j = map (fun h => h * iceDensity) (thick j)) by reflexivity.
  assert (Ar : forall j, dr_area s j = u * INR (length (dr_px s j))) by (intro j; rewrite Px, map_length; unfold s, dr_start; cbn [dr_area]; unfold u, Rdiv; ring).
  assert (Hpos : forall j, (j < P)%nat -> forall v, In v (dr_px s j) -> 0 < v).
  { intros j Hj v Hv. rewrite Px in Hv. apply in_map_iff in Hv. destruct Hv as (h & <- & Hh). apply Rmult_lt_0_compat; [apply (Hthick j Hj); exact Hh|exact K]. }
  assert (Nn : forall j, (j < P)%nat -> dr_px s j <> []) by (intros j Hj; rewrite Px; destruct (Hthick j Hj) as (Q & _); destruct (thick j); [congruence|discriminate]).
  assert (We : forall j, (j < P)%nat -> dr_we s j = mean (dr_px s j)).
  { intros j Hj. rewrite Px. unfold s, dr_start. cbn [dr_we]. unfold mean. rewrite map_length, Rsum_map, Rsum_scal_r. unfold Rdiv. ring. }
  assert (Ms : forall j, (j < P)%nat -> dr_area s j * dr_we s j = mass u (dr_px s j)).
  { intros j Hj. rewrite Ar, (We j Hj). unfold mass. rewrite <- (mean_rsum _ (Nn j Hj)). ring. }
  split; [split|split; [reflexivity|split; [|exact Px]]].
  - intros j Hj. split; [|split; [apply Ar|apply Hpos; exact Hj]]. right. split; [apply Nn; exact Hj|]. split; [apply Ar|]. split; [apply We; exact Hj|]. intros v Hv. apply Rlt_le, (Hpos j Hj v Hv).
  - intros b Hb. split; [reflexivity|].
    assert (Ab : dr_area_b s b = Rsum (dr_area s) (parts_of P band b)) by reflexivity.
    assert (Wb : dr_we_b s b = Rsum (fun j => dr_we s j * (dr_area s j / dr_area_b s b)) (parts_of P band b)) by reflexivity.
    assert (An : forall j, In j (parts_of P band b) -> 0 < dr_area s j).
    { intros j Hj. apply parts_in in Hj. rewrite Ar. apply Rmult_lt_0_compat; [exact U|]. apply lt_0_INR. specialize (Nn j ltac:(tauto)). destruct (dr_px s j); [congruence|cbn; lia]. }
    assert (Wp : forall j, In j (parts_of P band b) -> 0 < dr_we s j).
    { intros j Hj. apply parts_in in Hj. rewrite We by tauto. apply mean_positive; [apply Nn; tauto|apply Hpos; tauto]. }
    assert (Az : parts_of P band b = [] \/ 0 < dr_area_b s b).
    { rewrite Ab. destruct (parts_of P band b) as [|j l] eqn:El; [auto|right]. cbn [Rsum]. assert (0 <= Rsum (dr_area s) l) by (apply Rsum_nonneg; intros i Hi; apply Rlt_le, An; right; exact Hi). specialize (An j (or_introl eq_refl)). lra. }
    split.
    + unfold band_mass. destruct Az as [Z|Z]; [rewrite Wb, Z; cbn; ring|]. rewrite Wb, <- Rsum_scal_r. apply Rsum_ext_in. intros j Hj. rewrite <- Ms by (apply parts_in in Hj; tauto). field. lra.
    + destruct Az as [Z|Z]; [rewrite Wb, Z; cbn; lra|]. rewrite Wb. apply Rsum_nonneg. intros j Hj. apply Rmult_le_pos; [apply Rlt_le, Wp, Hj|]. apply Rmult_le_pos; [apply Rlt_le, An, Hj|apply Rlt_le, Rinv_0_lt_compat, Z].
  - apply Rsum_ext_in. intros j Hj. apply in_seq in Hj. apply Ms. lia.
Qed.
End Bands.
