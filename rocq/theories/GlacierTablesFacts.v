(** Facts about the glacier tables: pixels and area scaling. *)
From Verif Require Import Base BaseFacts GlacierActions GlacierTables.
Open Scope R_scope.

Ltac rcases := repeat match goal with
  | |- context [Rltb ?a ?b] => let E := fresh "E" in destruct (Rltb a b) eqn:E; [apply Rltb_true in E|apply Rltb_false in E]
  | |- context [Rleb ?a ?b] => let E := fresh "E" in destruct (Rleb a b) eqn:E; [apply Rleb_true in E|apply Rleb_false in E]
  end.

(** *** The loop over pixels *)
Definition cut (d v : R) : R := if Rleb v 0 then 0 else v - d.
Lemma px_round_cut l : px_round l = map (cut (px_deficit l / INR (px_count l))) l.
Proof. reflexivity. Qed.

Lemma cut_count d l : (px_count (map (cut d) l) <= px_count l)%nat /\
  (existsb (fun v => Rltb v 0) (map (cut d) l) = true -> (px_count (map (cut d) l) < px_count l)%nat).
Proof.
  unfold px_count. induction l as [|v l (IH1 & IH2)]; [split; [cbn; lia|discriminate]|]. cbn [map filter existsb].
  assert (C : (v <= 0 /\ cut d v = 0) \/ (0 < v /\ cut d v = v - d)).
  { unfold cut. destruct (Rleb v 0) eqn:E; [apply Rleb_true in E|apply Rleb_false in E]; [left|right]; split; (lra || reflexivity). }
  destruct (Rltb 0 v) eqn:E; [apply Rltb_true in E|apply Rltb_false in E]; (destruct C as [(C1 & C2)|(C1 & C2)]; try lra); rewrite C2; split; rcases;
    cbn [orb length]; try lia; try lra; intro H; try (specialize (IH2 H)); lia.
Qed.
Lemma settle_stops : forall fuel l, (px_count l < fuel)%nat -> exists l', px_settle fuel l = Some l'.
Proof.
  induction fuel as [|k IH]; intros l Hl; [lia|]. cbn [px_settle].
  destruct (existsb (fun v => Rltb v 0) l) eqn:E; [|eauto].
  rewrite px_round_cut. set (d := _ / _). destruct (cut_count d l) as (A & B).
  destruct (existsb (fun v => Rltb v 0) (map (cut d) l)) eqn:E2.
  - apply IH. specialize (B eq_refl). lia.
  - exists (map (cut d) l). destruct k; cbn [px_settle]; rewrite E2; reflexivity.
Qed.
Lemma px_count_length l : (px_count l <= length l)%nat.
Proof. unfold px_count. induction l as [|v l IH]; [cbn; lia|]. cbn [filter]. destruct (Rltb 0 v); cbn [length]; lia. Qed.
Lemma melt_stops melt l : exists l', px_melt melt l = Some l'.
Proof. apply settle_stops. pose proof (px_count_length (map (fun v => v - melt) l)) as H. rewrite map_length in H. lia. Qed.

Lemma cut_sum d l : Rsum (fun v => v) (map (cut d) l) = Rsum (fun v => v) l + px_deficit l - INR (px_count l) * d.
Proof.
  unfold px_deficit, px_count. induction l as [|v l IH]; [cbn; lra|]. cbn [map Rsum filter]. rewrite IH. clear IH. unfold cut.
  destruct (Rleb v 0) eqn:E1; [apply Rleb_true in E1|apply Rleb_false in E1]; (destruct (Rltb 0 v) eqn:E2; [apply Rltb_true in E2|apply Rltb_false in E2]);
    (destruct (Rltb v 0) eqn:E3; [apply Rltb_true in E3|apply Rltb_false in E3]); cbn [length]; rewrite ?S_INR; try lra.
Qed.
Lemma deficit_nonneg l : 0 <= px_deficit l.
Proof.
  unfold px_deficit. induction l as [|v l IH]; [cbn; lra|]. cbn [Rsum]. rcases; lra.
Qed.
Lemma negative_positive l : existsb (fun v => Rltb v 0) l = true -> 0 <= Rsum (fun v => v) l -> (0 < px_count l)%nat.
Proof.
  intros H S. destruct (px_count l) eqn:C; [exfalso|lia].
  assert (Z : forall v, In v l -> v <= 0).
  { intros v Hv. destruct (Rle_dec v 0) as [|Hn]; [assumption|exfalso].
    assert (In v (filter (fun v => Rltb 0 v) l)) by (apply filter_In; split; [exact Hv|apply Rltb_true; lra]).
    unfold px_count in C. destruct (filter _ l); [contradiction|discriminate]. }
  apply existsb_exists in H. destruct H as (v & Hv & Hn). apply Rltb_true in Hn.
  assert (T : - v <= Rsum (fun v => - v) l). { apply (Rsum_elem_le (fun v => - v)); [intros y Hy; specialize (Z y Hy); lra|exact Hv]. }
  assert (U : Rsum (fun v => - v) l = - Rsum (fun v => v) l).
  { clear. induction l as [|a l IH]; cbn [Rsum]; [lra|]. rewrite IH. lra. }
  lra.
Qed.
Lemma round_sum l : existsb (fun v => Rltb v 0) l = true -> 0 <= Rsum (fun v => v) l -> Rsum (fun v => v) (px_round l) = Rsum (fun v => v) l.
Proof.
  intros H S. rewrite px_round_cut, cut_sum. pose proof (negative_positive l H S) as P. apply lt_0_INR in P. field. lra.
Qed.

(** The state of the loop: pixels below [mu] are empty, the others have lost [lam]. *)
Definition lowered (mu lam v : R) : R := if Rleb v mu then 0 else v - lam.
Lemma settle_lowers : forall fuel l0 mu lam l', (forall v, In v l0 -> 0 <= v) -> mu <= lam -> 0 <= lam ->
  0 <= Rsum (fun v => v) (map (lowered mu lam) l0) -> px_settle fuel (map (lowered mu lam) l0) = Some l' ->
  exists lam', lam <= lam' /\ l' = map (fun v => Rmax 0 (v - lam')) l0 /\ Rsum (fun v => v) l' = Rsum (fun v => v) (map (lowered mu lam) l0).
Proof.
  induction fuel as [|k IH]; intros l0 mu lam l' Hl Hm Hp HS H.
  1, 2: cbn [px_settle] in H; destruct (existsb (fun v => Rltb v 0) (map (lowered mu lam) l0)) eqn:E; try discriminate.
  - injection H as <-. exists lam. split; [lra|]. split; [|reflexivity]. apply map_ext_in. intros v Hv. unfold lowered.
    destruct (Rleb v mu) eqn:Ev; [apply Rleb_true in Ev; rewrite Rmax_left; lra|]. rewrite Rmax_right; [reflexivity|].
    destruct (Rle_dec 0 (v - lam)) as [|Hn]; [assumption|exfalso]. assert (T : existsb (fun v => Rltb v 0) (map (lowered mu lam) l0) = true).
    { apply existsb_exists. exists (lowered mu lam v). split; [apply in_map; exact Hv|]. unfold lowered. rewrite Ev. apply Rltb_true. lra. }
    congruence.
  - set (l := map (lowered mu lam) l0) in *. set (d := px_deficit l / INR (px_count l)).
    assert (P : (0 < px_count l)%nat) by (apply negative_positive; assumption). apply lt_0_INR in P.
    assert (Dp : 0 <= d). { unfold d. apply Rmult_le_pos; [apply deficit_nonneg|]. apply Rlt_le, Rinv_0_lt_compat, P. }
    assert (Er : px_round l = map (lowered lam (lam + d)) l0).
    { rewrite px_round_cut. fold d. unfold l. rewrite map_map. apply map_ext. intro v. unfold cut, lowered.
      destruct (Rleb v mu) eqn:Ev; [apply Rleb_true in Ev|apply Rleb_false in Ev]; rcases; lra. }
    pose proof (round_sum l E HS) as Rs. rewrite Er in H, Rs.
    destruct (IH l0 lam (lam + d) l' Hl) as (lam' & A & B & C); [lra|lra|rewrite Rs; exact HS|exact H|].
    exists lam'. split; [lra|]. split; [exact B|]. rewrite C. exact Rs.
  - injection H as <-. exists lam. split; [lra|]. split; [|reflexivity]. apply map_ext_in. intros v Hv. unfold lowered.
    destruct (Rleb v mu) eqn:Ev; [apply Rleb_true in Ev; rewrite Rmax_left; lra|]. rewrite Rmax_right; [reflexivity|].
    destruct (Rle_dec 0 (v - lam)) as [|Hn]; [assumption|exfalso]. assert (T : existsb (fun v => Rltb v 0) (map (lowered mu lam) l0) = true).
    { apply existsb_exists. exists (lowered mu lam v). split; [apply in_map; exact Hv|]. unfold lowered. rewrite Ev. apply Rltb_true. lra. }
    congruence.
Qed.

Definition rsum (l : list R) : R := Rsum (fun v => v) l.
Lemma melt_lowers melt l l' : (forall v, In v l -> 0 <= v) -> 0 <= melt -> INR (length l) * melt <= rsum l -> px_melt melt l = Some l' ->
  exists lam, melt <= lam /\ l' = map (fun v => Rmax 0 (v - lam)) l /\ rsum l' = rsum l - INR (length l) * melt.
Proof.
  intros Hl Hm HS H. unfold px_melt in H.
  assert (E : map (fun v => v - melt) l = map (lowered (-1) melt) l).
  { apply map_ext_in. intros v Hv. unfold lowered. specialize (Hl v Hv). rcases; lra. }
  assert (Ss : rsum (map (lowered (-1) melt) l) = rsum l - INR (length l) * melt).
  { rewrite <- E. unfold rsum. rewrite Rsum_map. rewrite Rsum_minus, Rsum_const. reflexivity. }
  rewrite E in H. destruct (settle_lowers (S (length l)) l (-1) melt l' Hl) as (lam & A & B & C); [lra|lra|fold (rsum (map (lowered (-1) melt) l)); lra|exact H|].
  exists lam. split; [exact A|]. split; [exact B|]. unfold rsum in *. rewrite C. exact Ss.
Qed.

(** *** Area scaling *)
Lemma positive_sum l : (forall v, In v l -> 0 <= v) -> rsum (px_positive l) = rsum l.
Proof.
  unfold rsum, px_positive. induction l as [|v l IH]; intro H; [reflexivity|]. cbn [filter Rsum].
  specialize (IH (fun x Hx => H x (or_intror Hx))). specialize (H v (or_introl eq_refl)).
  destruct (Rltb 0 v) eqn:E; [apply Rltb_true in E|apply Rltb_false in E]; cbn [Rsum]; lra.
Qed.
Lemma positive_nonzero l : (forall v, In v l -> 0 <= v) -> px_nonzero l = length (px_positive l).
Proof.
  unfold px_nonzero, px_positive. induction l as [|v l IH]; intro H; [reflexivity|]. cbn [filter].
  specialize (IH (fun x Hx => H x (or_intror Hx))). specialize (H v (or_introl eq_refl)).
  destruct (Rltb 0 v) eqn:E; [apply Rltb_true in E|apply Rltb_false in E]; (destruct (Reqb v 0) eqn:E2; [apply Reqb_true in E2|apply Reqb_false in E2]); cbn [negb length]; try lra; rewrite IH; reflexivity.
Qed.
Lemma positive_in l v : In v (px_positive l) <-> In v l /\ 0 < v.
Proof. unfold px_positive. rewrite filter_In, Rltb_true. reflexivity. Qed.
Lemma rsum_pos l : (forall v, In v l -> 0 <= v) -> 0 <= rsum l.
Proof. intro H. apply Rsum_nonneg. exact H. Qed.
Lemma mean_rsum l : l <> [] -> INR (length l) * mean l = rsum l.
Proof.
  intro H. unfold mean, rsum. assert (0 < INR (length l)) by (apply lt_0_INR; destruct l; [congruence|cbn; lia]). field. lra.
Qed.

(** The pixels left after a lowering of the ice surface by [lam]. *)
Definition above (lam : R) (l : list R) : list R := px_positive (map (fun v => v - lam) l).
Lemma above_again a b l : 0 <= b -> px_positive (map (fun v => Rmax 0 (v - b)) (above a l)) = above (a + b) l.
Proof.
  intro Hb. unfold above, px_positive. induction l as [|v l IH]; [reflexivity|]. cbn [map filter].
  destruct (Rltb 0 (v - a)) eqn:E; [apply Rltb_true in E|apply Rltb_false in E]; cbn [map filter].
  - destruct (Rltb 0 (v - (a + b))) eqn:E2; [apply Rltb_true in E2|apply Rltb_false in E2].
    + replace (Rmax 0 (v - a - b)) with (v - (a + b)) by (rewrite Rmax_right; lra).
      rewrite (proj2 (Rltb_true _ _)) by lra. rewrite IH. reflexivity.
    + rewrite (proj2 (Rltb_false _ _)) by (rewrite Rmax_left; lra). exact IH.
  - rewrite (proj2 (Rltb_false 0 (v - (a + b)))) by lra. exact IH.
Qed.
Lemma above_none l : (forall v, In v l -> 0 < v) -> above 0 l = l.
Proof.
  unfold above, px_positive. induction l as [|v l IH]; intro H; [reflexivity|]. cbn [map filter].
  rewrite (proj2 (Rltb_true 0 (v - 0))) by (specialize (H v (or_introl eq_refl)); lra). rewrite IH by (intros; apply H; right; assumption). f_equal. lra.
Qed.

Section Grid.
Variable g : grid.
Hypothesis Hpx : 0 < g_px g.
Hypothesis Hc : 0 < g_catchment g.
Let u : R := g_px g / g_catchment g.
Lemma u_pos : 0 < u.
Proof. unfold u. apply Rmult_lt_0_compat; [assumption|]. apply Rinv_0_lt_compat. assumption. Qed.

Definition as_good (px0 : list R) (lam M : R) (c : as_cell) : Prop :=
  0 <= lam /\ ac_px c = above lam px0 /\ ac_px c <> [] /\ ac_area c = INR (length (ac_px c)) * u /\ ac_we c = mean (ac_px c) /\ rsum (ac_px c) * u = M.
Lemma as_good_area px0 lam M c : as_good px0 lam M c -> 0 < ac_area c /\ ac_area c * ac_we c = M.
Proof.
  intros (_ & _ & Hn & Ha & Hw & Hm). pose proof u_pos as U.
  assert (L : 0 < INR (length (ac_px c))) by (apply lt_0_INR; destruct (ac_px c); [congruence|cbn; lia]).
  split; [rewrite Ha; apply Rmult_lt_0_compat; assumption|]. rewrite Ha, Hw. rewrite <- Hm, <- (mean_rsum _ Hn). ring.
Qed.
Lemma as_step_good px0 lam M c ch : as_good px0 lam M c -> 0 <= ch -> ch < M ->
  exists c' lam', as_step g ch c = Ok c' /\ lam <= lam' /\ as_good px0 lam' (M - ch) c'.
Proof.
  intros G Hch HM. destruct (as_good_area _ _ _ _ G) as (Ap & Am). destruct G as (Hl & Hp & Hn & Ha & Hw & Hm). pose proof u_pos as U.
  set (px := ac_px c) in *. set (N := INR (length px)) in *.
  assert (Np : 0 < N) by (unfold N; apply lt_0_INR; destruct px; [congruence|cbn; lia]).
  assert (Hpos : forall v, In v px -> 0 <= v) by (intros v Hv; rewrite Hp in Hv; apply positive_in in Hv; lra).
  set (melt := ch / ac_area c).
  assert (Mn : 0 <= melt) by (unfold melt; apply Rmult_le_pos; [assumption|]; apply Rlt_le, Rinv_0_lt_compat; assumption).
  assert (Em : N * melt * u = ch) by (unfold melt; rewrite Ha; field; lra).
  destruct (melt_stops melt px) as (l' & El).
  destruct (melt_lowers melt px l' Hpos Mn) as (b & Hb & Eb & Sb).
  { fold N. apply Rmult_le_reg_r with u; [assumption|]. lra. } { exact El. }
  fold N in Sb.
  assert (Ll : length l' = length px) by (rewrite Eb; apply map_length).
  assert (Nl : l' <> []) by (destruct l'; [destruct px; [congruence|discriminate]|discriminate]).
  assert (El2 : mean l' = ac_we c - melt).
  { apply Rmult_eq_reg_l with N; [|lra]. pose proof (mean_rsum l' Nl) as Q1. rewrite Ll in Q1. fold N in Q1.
    pose proof (mean_rsum px Hn) as Q2. fold N in Q2. rewrite Q1, Hw, Rmult_minus_distr_l, Q2. exact Sb. }
  assert (Lp : forall v, In v l' -> 0 <= v). { intros v Hv. rewrite Eb in Hv. apply in_map_iff in Hv. destruct Hv as (w & <- & _). apply Rmax_l. }
  assert (Et : as_thin ch c = Ok (mkAC (ac_area c) (mean l') l')).
  { unfold as_thin. replace (Reqb (ac_area c) 0) with false by (unfold Reqb; destruct (Req_EM_T (ac_area c) 0); [lra|reflexivity]).
    fold melt px. rewrite El. destruct l' as [|x l']; [congruence|].
    replace (isclose (mean (x :: l')) (ac_we c - melt)) with true; [reflexivity|]. symmetry. unfold isclose. apply Rleb_true. rewrite El2.
    rewrite Rminus_diag_eq by reflexivity. rewrite Rabs_R0. pose proof (Rabs_pos (ac_we c - melt)). lra. }
  assert (Ea : px_positive l' = above (lam + b) px0) by (rewrite Eb, Hp; apply above_again; lra).
  exists (as_width g (mkAC (ac_area c) (mean l') l')), (lam + b). split; [unfold as_step; rewrite Et; reflexivity|]. split; [lra|].
  unfold as_good, as_width. cbn [ac_px ac_area ac_we].
  assert (Sm : rsum (px_positive l') * u = M - ch) by (rewrite positive_sum by assumption; rewrite Sb; lra).
  assert (Pn : px_positive l' <> []). { intro Z. rewrite Z in Sm. cbn in Sm. lra. }
  split; [lra|]. split; [exact Ea|]. split; [exact Pn|]. rewrite positive_nonzero by assumption.
  split; [unfold u, Rdiv; ring|]. split; [destruct (px_positive l'); [congruence|reflexivity]|exact Sm].
Qed.
Lemma as_rows_good px0 ch : 0 <= ch -> forall k lam M c, as_good px0 lam M c -> INR k * ch < M ->
  exists l, as_rows g ch c k = Ok l /\ length l = S k /\
    exists lams, lams 0%nat = lam /\ (forall j, (j < k)%nat -> lams j <= lams (S j)) /\
      forall j d, (j <= k)%nat -> as_good px0 (lams j) (M - INR j * ch) (nth j l d).
Proof.
  intro Hch. induction k as [|k IH]; intros lam M c G HM.
  - exists [c]. split; [reflexivity|]. split; [reflexivity|]. exists (fun _ => lam). split; [reflexivity|]. split; [intros; lia|].
    intros j d Hj. replace j with 0%nat by lia. cbn [nth INR]. replace (M - 0 * ch) with M by ring. exact G.
  - rewrite S_INR in HM. pose proof (pos_INR k) as Kp.
    assert (0 <= INR k * ch) by (apply Rmult_le_pos; assumption).
    destruct (as_step_good px0 lam M c ch G Hch) as (c' & lam' & E & Hl & G'); [lra|].
    destruct (IH lam' (M - ch) c' G') as (l & El & Ll & lams & L0 & Lm & Lg); [lra|].
    exists (c :: l). cbn [as_rows]. rewrite E. cbn [bind]. rewrite El. cbn [bind]. split; [reflexivity|]. split; [cbn; lia|].
    exists (fun j => match j with O => lam | S i => lams i end). split; [reflexivity|]. split.
    + intros j Hj. destruct j as [|j]; [rewrite L0; exact Hl|apply Lm; lia].
    + intros j d Hj. destruct j as [|j]; [cbn [nth INR]; replace (M - 0 * ch) with M by ring; exact G|].
      cbn [nth]. rewrite S_INR. replace (M - (INR j + 1) * ch) with (M - ch - INR j * ch) by ring. apply Lg. lia.
Qed.
End Grid.
