(** Lemmas about the process and splitter formulas. *)
From Verif Require Import Base BaseFacts Processes.
From Coq Require Import Rpower Ranalysis1 MVT Ranalysis4 Rtrigo_def.

Ltac dec :=
  unfold Rleb, Rltb, Reqb;
  repeat match goal with
  | |- context [Rle_dec ?a ?b] => destruct (Rle_dec a b)
  | |- context [Rlt_dec ?a ?b] => destruct (Rlt_dec a b)
  | |- context [Req_EM_T ?a ?b] => destruct (Req_EM_T a b)
  end.

Lemma div_unit a b : 0 <= a -> a <= b -> 0 < b -> 0 <= a / b <= 1.
Proof.
  intros Ha Hab Hb. split.
  - apply Rmult_le_pos; [exact Ha|]. left. apply Rinv_0_lt_compat; lra.
  - apply Rmult_le_reg_r with b; [lra|]. replace (a / b * b) with a by (field; lra). lra.
Qed.
Lemma div_le_mono a a' b : a <= a' -> 0 < b -> a / b <= a' / b.
Proof.
  intros H Hb. apply Rmult_le_reg_r with b; [lra|].
  replace (a / b * b) with a by (field; lra). replace (a' / b * b) with a' by (field; lra). lra.
Qed.
Lemma div_le a b c : 0 < b -> a <= c * b -> a / b <= c.
Proof. intros Hb H. apply Rmult_le_reg_r with b; [lra|]. replace (a / b * b) with a by (field; lra). lra. Qed.
Lemma le_div a b c : 0 < b -> c * b <= a -> c <= a / b.
Proof. intros Hb H. apply Rmult_le_reg_r with b; [lra|]. replace (a / b * b) with a by (field; lra). lra. Qed.
Lemma div_lt a b c : 0 < b -> a < c * b -> a / b < c.
Proof. intros Hb H. apply Rmult_lt_reg_r with b; [lra|]. replace (a / b * b) with a by (field; lra). lra. Qed.

(** ** Splitters *)
Definition linear_share (start stop t : R) : R :=
  if Rleb t start then 0 else if Rleb stop t then 1 else (t - start) / (stop - start).
Lemma linear_share_ok start stop :
  (forall t, 0 <= linear_share start stop t <= 1) /\
  (forall t t', t <= t' -> linear_share start stop t <= linear_share start stop t') /\
  (forall t, t <= start -> linear_share start stop t = 0) /\
  (forall t, start < t -> stop <= t -> linear_share start stop t = 1) /\
  forall rcf scf precip t, split_linear start stop rcf scf precip t =
    Ok (precip * linear_share start stop t * rcf, precip * (1 - linear_share start stop t) * scf).
Proof.
  assert (B : forall t, 0 <= linear_share start stop t <= 1).
  { intros t. unfold linear_share. dec; try lra. apply div_unit; lra. }
  split; [exact B|]. split; [|split; [|split]].
  - intros t t' H. pose proof (B t) as Bt. pose proof (B t') as Bt'.
    revert Bt Bt'. unfold linear_share. dec; intros; try lra. apply div_le_mono; lra.
  - intros t H. unfold linear_share. dec; lra.
  - intros t H H'. unfold linear_share. dec; lra.
  - intros. unfold split_linear, linear_share. dec; f_equal; f_equal; ring.
Qed.

Definition threshold_share (thr t : R) : R := if Rleb t thr then 0 else 1.
Lemma threshold_share_ok thr :
  (forall t, 0 <= threshold_share thr t <= 1) /\
  (forall t t', t <= t' -> threshold_share thr t <= threshold_share thr t') /\
  (forall t, t <= thr -> threshold_share thr t = 0) /\ (forall t, thr < t -> threshold_share thr t = 1) /\
  forall rcf scf precip t, split_threshold thr rcf scf precip t =
    Ok (precip * threshold_share thr t * rcf, precip * (1 - threshold_share thr t) * scf).
Proof.
  repeat split; intros; unfold split_threshold, threshold_share; dec; try lra; f_equal; f_equal; ring.
Qed.

Lemma cemaneige_high_ok :
  (forall t, 0 <= cemaneige_solid_high t <= 1) /\
  (forall t t', t <= t' -> cemaneige_solid_high t' <= cemaneige_solid_high t) /\
  (forall t, t <= -1 -> cemaneige_solid_high t = 1) /\ (forall t, 3 <= t -> cemaneige_solid_high t = 0).
Proof. repeat split; intros; unfold cemaneige_solid_high; dec; lra. Qed.

Lemma cemaneige_low_ok :
  (forall a b, 0 <= cemaneige_solid_low a b <= 1) /\
  (forall a b a' b', a <= a' -> b <= b' -> cemaneige_solid_low a' b' <= cemaneige_solid_low a b) /\
  (forall a b, a <= 0 -> b <= 0 -> cemaneige_solid_low a b = 1) /\
  (forall a b, 0 < a -> cemaneige_solid_low a b = 0).
Proof.
  assert (F : forall a b, a < 0 -> 0 < b -> 1 - b / (b - a) = (- a) / (b - a)) by (intros; field; lra).
  assert (B : forall a b, 0 <= cemaneige_solid_low a b <= 1).
  { intros a b. unfold cemaneige_solid_low. unfold Rltb. destruct (Rlt_dec b a); dec; try lra; rewrite F by lra; apply div_unit; lra. }
  split; [exact B|]. split; [|split].
  - intros a b a' b' Ha Hb. pose proof (B a b) as B1. pose proof (B a' b') as B2. revert B1 B2.
    assert (Hmax : (if Rltb b a then a else b) <= (if Rltb b' a' then a' else b')) by (dec; lra).
    unfold cemaneige_solid_low.
    set (m := if Rltb b a then a else b) in *. set (m' := if Rltb b' a' then a' else b') in *.
    assert (a <= m) by (unfold m; dec; lra). assert (a' <= m') by (unfold m'; dec; lra).
    dec; intros; try lra.
    rewrite !F by lra. apply div_le; [lra|].
    replace (- a / (m - a) * (m' - a')) with (- a * (m' - a') / (m - a)) by (field; lra).
    apply le_div; [lra|]. nra.
  - intros a b H1 H2. unfold cemaneige_solid_low. unfold Rltb. destruct (Rlt_dec b a); dec; lra.
  - intros a b H1. unfold cemaneige_solid_low. unfold Rltb. destruct (Rlt_dec b a); dec; lra.
Qed.

(** ** tanh *)
Lemma exp_ge_1x x : 1 + x <= exp x.
Proof.
  destruct (Req_dec x 0) as [->|H]; [rewrite exp_0; lra|]. left; apply exp_ineq1; exact H.
Qed.
Lemma exp_mono x y : x <= y -> exp x <= exp y.
Proof. intros [H| <-]; [left; apply exp_increasing; exact H|lra]. Qed.

Lemma tanh_exp x : tanh x = (exp (2 * x) - 1) / (exp (2 * x) + 1).
Proof.
  unfold tanh, sinh, cosh. pose proof (exp_pos x). pose proof (exp_pos (-x)).
  assert (E : exp (2 * x) = exp x * exp x) by (rewrite <- exp_plus; f_equal; ring).
  assert (E' : exp (- x) = / exp x) by apply exp_Ropp.
  rewrite E, E'. field. repeat split; try lra; nra.
Qed.
Lemma tanh_pos x : 0 <= x -> 0 <= tanh x.
Proof.
  intros H. rewrite tanh_exp. pose proof (exp_ge_1x (2 * x)). apply Rmult_le_pos; [lra|].
  left; apply Rinv_0_lt_compat; lra.
Qed.
Lemma tanh_gt0 x : 0 < x -> 0 < tanh x.
Proof.
  intros H. rewrite tanh_exp. pose proof (exp_ge_1x (2 * x)). apply Rmult_lt_0_compat; [lra|].
  apply Rinv_0_lt_compat; lra.
Qed.
Lemma tanh_lt1 x : tanh x < 1.
Proof. rewrite tanh_exp. pose proof (exp_pos (2*x)). apply div_lt; lra. Qed.
Lemma tanh_mono x y : x <= y -> tanh x <= tanh y.
Proof.
  intros H. rewrite !tanh_exp. pose proof (exp_pos (2*x)). pose proof (exp_mono (2*x) (2*y) ltac:(lra)).
  apply div_le; [lra|].
  replace ((exp (2 * y) - 1) / (exp (2 * y) + 1) * (exp (2 * x) + 1))
    with ((exp (2 * y) - 1) * (exp (2 * x) + 1) / (exp (2 * y) + 1)) by (field; lra).
  apply le_div; [lra|]. nra.
Qed.
Lemma tanh_le x : 0 <= x -> tanh x <= x.
Proof.
  intros Hx. destruct (Req_dec x 0) as [->|Hn].
  { rewrite tanh_exp. replace (2*0) with 0 by ring. rewrite exp_0. right; field. }
  set (g := fun y : R => y * exp y + y - 2 * exp y).
  set (g' := fun y : R => (1 * exp y + y * exp y) + 1 - 2 * exp y).
  assert (Hg : forall y, derivable_pt_lim g y (g' y)).
  { intros y. unfold g, g'. apply derivable_pt_lim_minus.
    - apply derivable_pt_lim_plus; [|apply derivable_pt_lim_id].
      apply derivable_pt_lim_mult; [apply derivable_pt_lim_id|apply derivable_pt_lim_exp].
    - replace (2 * exp y) with (0 * exp y + 2 * exp y) by ring.
      apply (derivable_pt_lim_mult (fun _ => 2) exp); [apply derivable_pt_lim_const|apply derivable_pt_lim_exp]. }
  destruct (MVT_cor2 g g' 0 (2*x) ltac:(lra) (fun c _ => Hg c)) as (c & Hc & Hc1 & Hc2).
  assert (0 <= g' c).
  { unfold g'. pose proof (exp_ge_1x (-c)) as H. rewrite exp_Ropp in H. pose proof (exp_pos c).
    assert ((1 + - c) * exp c <= 1); [|lra].
    apply Rmult_le_compat_r with (r := exp c) in H; [|lra]. rewrite Rinv_l in H by lra. exact H. }
  assert (0 <= g (2*x) - g 0) by (rewrite Hc; apply Rmult_le_pos; lra).
  unfold g in *. rewrite exp_0 in *. rewrite tanh_exp. pose proof (exp_pos (2*x)). apply div_le; [lra|]. nra.
Qed.
Lemma tanh_capped_ok x : 0 <= x -> 0 <= tanh_capped x <= x /\ tanh_capped x < 1.
Proof.
  intros H. unfold tanh_capped. assert (0 <= Rmin x 13) by (apply Rmin_glb; lra).
  pose proof (tanh_pos _ H0). pose proof (tanh_le _ H0). pose proof (tanh_lt1 (Rmin x 13)).
  pose proof (Rmin_l x 13). lra.
Qed.

(** ** Powers *)
Lemma ln_mono x y : 0 < x -> x <= y -> ln x <= ln y.
Proof. intros H [H'| <-]; [left; apply ln_increasing; lra|lra]. Qed.
Lemma Rpower_le1 a e : 0 < a <= 1 -> 0 <= e -> 0 < Rpower a e <= 1.
Proof.
  intros [H1 H2] He. unfold Rpower. split; [apply exp_pos|]. rewrite <- exp_0. apply exp_mono.
  assert (ln a <= 0) by (rewrite <- ln_1; destruct H2 as [H2| ->]; [left; apply ln_increasing; lra|lra]). nra.
Qed.
Lemma Rpower_base_mono a b e : 0 < a <= b -> 0 <= e -> Rpower a e <= Rpower b e.
Proof.
  intros [H1 H2] He. unfold Rpower. apply exp_mono. apply Rmult_le_compat_l; [exact He|].
  destruct H2 as [H2| ->]; [left; apply ln_increasing; lra|lra].
Qed.
Lemma cpow_unit x e : 0 <= x <= 1 -> 0 < e ->
  exists p, cpow x e = Ok p /\ 0 <= p <= 1 /\ (x = 0 -> p = 0) /\ (x = 1 -> p = 1).
Proof.
  intros H He. unfold cpow. dec; try lra.
  - exists (Rpower x e). pose proof (Rpower_le1 x e ltac:(lra) ltac:(lra)).
    repeat split; try lra. intros ->. unfold Rpower. rewrite ln_1, Rmult_0_r, exp_0. reflexivity.
  - exists 0. repeat split; lra.
Qed.
Lemma cpow_mono x y e p q : 0 <= x <= y -> 0 < e -> cpow x e = Ok p -> cpow y e = Ok q -> p <= q.
Proof.
  intros H He. unfold cpow. dec; intros E1 E2; try lra; try discriminate;
  injection E1 as <-; injection E2 as <-; try lra.
  - apply Rpower_base_mono; lra.
  - left. apply exp_pos.
Qed.
Lemma cpow_pos x e : 0 < x -> exists p, cpow x e = Ok p /\ 0 < p.
Proof. intros H. unfold cpow. dec; try lra. eexists; split; [reflexivity|apply exp_pos]. Qed.
Lemma cpow_nonneg x e : 0 <= x -> 0 < e -> exists p, cpow x e = Ok p /\ 0 <= p.
Proof.
  intros H He. unfold cpow. dec; try lra.
  - eexists; split; [reflexivity|left; apply exp_pos].
  - eexists; split; [reflexivity|lra].
Qed.

(** ** GR4J *)
Lemma infiltration_ok S Pn X1 : 0 <= S <= X1 -> 0 <= Pn ->
  0 <= gr4j_infiltration S Pn X1 <= Pn /\ gr4j_infiltration S Pn X1 <= X1 - S.
Proof.
  intros HS HP. unfold gr4j_infiltration. destruct (Rleb Pn 0 || Rleb X1 0) eqn:Hb.
  { lra. }
  assert (0 < Pn /\ 0 < X1) as (Hp & Hx) by (revert Hb; dec; cbn; intros; try discriminate; lra).
  cbv zeta. set (s := S / X1). set (w := Pn / X1).
  assert (Hs : 0 <= s <= 1) by (apply div_unit; lra).
  assert (Hw : 0 <= w) by (apply Rmult_le_pos; [lra|left; apply Rinv_0_lt_compat; lra]).
  destruct (tanh_capped_ok w Hw) as ((Ht0 & Htw) & Ht1). set (t := tanh_capped w) in *.
  assert (ES : S = X1 * s) by (unfold s; field; lra). assert (EP : Pn = X1 * w) by (unfold w; field; lra).
  assert (Hd : 1 <= 1 + s * t) by nra.
  split; [split|].
  - apply Rmult_le_pos; [|left; apply Rinv_0_lt_compat; lra]. apply Rmult_le_pos; [|lra]. apply Rmult_le_pos; [lra|nra].
  - apply div_le; [lra|]. rewrite EP.
    assert ((1 - s*s) * t <= w * (1 + s * t)) by nra.
    replace (X1 * (1 - s*s) * t) with (X1 * ((1 - s*s) * t)) by ring.
    replace (X1 * w * (1 + s * t)) with (X1 * (w * (1 + s*t))) by ring. apply Rmult_le_compat_l; lra.
  - apply div_le; [lra|]. rewrite ES.
    replace (X1 * (1 - s*s) * t) with (X1 * ((1 - s*s) * t)) by ring.
    replace ((X1 - X1 * s) * (1 + s * t)) with (X1 * ((1 - s) * (1 + s*t))) by ring.
    apply Rmult_le_compat_l; [lra|].
    replace ((1 - s*s)*t) with ((1-s) * ((1+s)*t)) by ring. apply Rmult_le_compat_l; nra.
Qed.
Lemma evaporation_ok S En X1 : 0 <= S <= X1 -> 0 <= En ->
  0 <= gr4j_evaporation S En X1 <= En /\ gr4j_evaporation S En X1 <= S.
Proof.
  intros HS HE. unfold gr4j_evaporation. destruct (Rleb En 0 || Rleb X1 0) eqn:Hb.
  { lra. }
  assert (0 < En /\ 0 < X1) as (Hp & Hx) by (revert Hb; dec; cbn; intros; try discriminate; lra).
  cbv zeta. set (s := S / X1). set (w := En / X1).
  assert (Hs : 0 <= s <= 1) by (apply div_unit; lra).
  assert (Hw : 0 <= w) by (apply Rmult_le_pos; [lra|left; apply Rinv_0_lt_compat; lra]).
  destruct (tanh_capped_ok w Hw) as ((Ht0 & Htw) & Ht1). set (t := tanh_capped w) in *.
  assert (ES : S = X1 * s) by (unfold s; field; lra). assert (EE : En = X1 * w) by (unfold w; field; lra).
  assert (Hd : 1 <= 1 + (1 - s) * t) by nra.
  split; [split|].
  - apply Rmult_le_pos; [|left; apply Rinv_0_lt_compat; lra]. apply Rmult_le_pos; [|lra]. apply Rmult_le_pos; lra.
  - apply div_le; [lra|]. rewrite ES, EE.
    replace (X1 * s * (2 - s) * t) with (X1 * (s * (2 - s) * t)) by ring.
    replace (X1 * w * (1 + (1 - s) * t)) with (X1 * (w * (1 + (1-s)*t))) by ring.
    apply Rmult_le_compat_l; [lra|].
    assert (s * (2 - s) <= 1) by nra. assert (s * (2 - s) * t <= 1 * t) by (apply Rmult_le_compat_r; lra). nra.
  - apply div_le; [lra|]. replace (S * (2 - s) * t) with (S * ((2 - s) * t)) by ring.
    apply Rmult_le_compat_l; [lra|]. nra.
Qed.
Lemma percolation_ok S X1 : 0 <= S -> 0 <= gr4j_percolation S X1 <= S /\
  (0 < S -> 0 < X1 -> 0 < gr4j_percolation S X1 < S).
Proof.
  intros HS. unfold gr4j_percolation. destruct (Rleb X1 0) eqn:Hb.
  { revert Hb; dec; intros; try discriminate. lra. }
  assert (Hx : 0 < X1) by (revert Hb; dec; intros; try discriminate; lra).
  cbv zeta. set (s := S / X1). set (b := 1 + s * s * s * s / (2562890625 / 100000000)).
  assert (Hss : 0 <= s * s * s * s) by (replace (s*s*s*s) with ((s*s)*(s*s)) by ring; apply Rle_0_sqr).
  assert (Hb1 : 1 <= b) by (unfold b; lra).
  assert (Hp : 0 < Rpower b (- (1/4)) <= 1).
  { unfold Rpower. split; [apply exp_pos|]. apply Rle_trans with (exp 0); [apply exp_mono|rewrite exp_0; lra].
    assert (0 <= ln b) by (rewrite <- ln_1; apply ln_mono; lra). lra. }
  split; [split; nra|]. intros HS0 _.
  assert (Hs : 0 < s) by (apply Rmult_lt_0_compat; [lra|apply Rinv_0_lt_compat; lra]).
  assert (Hs2 : 0 < s * s) by (apply Rmult_lt_0_compat; exact Hs).
  assert (0 < s*s*s*s) by (replace (s*s*s*s) with ((s*s)*(s*s)) by ring; apply Rmult_lt_0_compat; exact Hs2).
  assert (Rpower b (- (1/4)) < 1).
  { unfold Rpower. apply Rlt_le_trans with (exp 0); [apply exp_increasing|rewrite exp_0; lra].
    assert (0 < ln b) by (rewrite <- ln_1; apply ln_increasing; unfold b; lra). lra. }
  split; nra.
Qed.

(** One step of the production store: what remains after the two processes took their rates. *)
Definition production_next (X1 S pn en : R) : R :=
  S + pn - gr4j_production_rate X1 S pn en - gr4j_et_rate X1 S pn en.
Lemma production_step X1 S pn en : 0 < X1 -> 0 <= S <= X1 -> 0 <= pn -> 0 <= en ->
  0 <= gr4j_production_rate X1 S pn en /\
  0 <= gr4j_et_rate X1 S pn en <= en /\
  gr4j_production_rate X1 S pn en + gr4j_et_rate X1 S pn en <= S + pn /\
  0 <= production_next X1 S pn en <= X1.
Proof.
  intros HX HS Hp He. unfold production_next, gr4j_production_rate, gr4j_et_rate.
  assert (Hb : Rleb X1 0 = false) by (dec; [lra|reflexivity]). rewrite Hb. cbv zeta.
  destruct (infiltration_ok S pn X1 HS Hp) as (I1 & I2).
  set (Ps := gr4j_infiltration S pn X1) in *.
  assert (HS1 : 0 <= S + Ps <= X1) by lra.
  destruct (evaporation_ok (S + Ps) en X1 HS1 He) as (E1 & E2).
  destruct (Rleb en 0) eqn:Hen.
  - assert (Z : gr4j_evaporation (S + Ps) en X1 = 0) by (unfold gr4j_evaporation; rewrite Hen; reflexivity).
    rewrite Z in *. destruct (percolation_ok (S + Ps - 0) X1 ltac:(lra)) as (P1 & _). lra.
  - set (Es := gr4j_evaporation (S + Ps) en X1) in *.
    destruct (percolation_ok (S + Ps - Es) X1 ltac:(lra)) as (P1 & _). lra.
Qed.

(** ** GR6J exponential store *)
Lemma ln_le x : 0 < x -> ln x <= x - 1.
Proof. intros H. pose proof (exp_ge_1x (ln x)). rewrite exp_ln in H0 by exact H. lra. Qed.
Lemma ln1_bounds x : 0 <= x -> x - x * x <= ln (x + 1) <= x.
Proof.
  intros H. split.
  - assert (E : ln (x + 1) = - ln (/ (x + 1))) by (rewrite ln_Rinv by lra; ring). rewrite E.
    pose proof (ln_le (/ (x + 1)) ltac:(apply Rinv_0_lt_compat; lra)).
    assert (/ (x + 1) <= 1 - x + x * x); [|lra].
    apply Rmult_le_reg_r with (x + 1); [lra|]. rewrite Rinv_l by lra.
    replace ((1 - x + x * x) * (x + 1)) with (1 + x * (x * x)) by ring.
    assert (0 <= x * (x * x)) by (apply Rmult_le_pos; [lra|apply Rle_0_sqr]). lra.
  - pose proof (ln_le (x + 1) ltac:(lra)). lra.
Qed.

Definition exponential_law (Rexp X6 : R) : R := X6 * ln (exp (Rexp / X6) + 1).
Lemma exponential_law_flip a X6 : X6 * ln (exp a + 1) = X6 * a + X6 * ln (exp (- a) + 1).
Proof.
  pose proof (exp_pos a). pose proof (exp_pos (-a)).
  rewrite <- Rmult_plus_distr_l. f_equal. rewrite <- (ln_exp a) at 2. rewrite <- ln_mult by lra.
  f_equal. rewrite Rmult_plus_distr_l, <- exp_plus. replace (a + - a) with 0 by ring. rewrite exp_0. ring.
Qed.
Lemma exponential_close Rexp X6 : 0 < X6 ->
  exponential_law Rexp X6 <= gr6j_exponential_outflow Rexp X6 <= exponential_law Rexp X6 + X6 * exp (-14).
Proof.
  intros HX. unfold gr6j_exponential_outflow, exponential_law.
  assert (Hb : Rleb X6 0 = false) by (dec; [lra|reflexivity]). rewrite Hb. cbv zeta.
  set (a := Rexp / X6). assert (Ea : Rexp = X6 * a) by (unfold a; field; lra).
  assert (E0 := exp_pos (-14)). assert (Hpos : 0 <= X6 * exp (-14)) by nra.
  assert (Hsq : forall y, y <= -7 -> exp y * exp y <= exp (-14))
    by (intros y Hy; rewrite <- exp_plus; apply exp_mono; lra).
  destruct (Rle_dec a 33) as [H33|H33].
  - rewrite (Rmin_right 33 a) by lra.
    destruct (Rle_dec (-33) a) as [Hm|Hm].
    + rewrite Rmax_right by lra. unfold Rltb. destruct (Rlt_dec 7 a) as [H7|H7].
      * rewrite exponential_law_flip, Ea. unfold Rdiv. rewrite <- exp_Ropp.
        pose proof (exp_pos (-a)). pose proof (ln1_bounds (exp (-a)) ltac:(lra)) as (L1 & L2).
        pose proof (Hsq (-a) ltac:(lra)).
        assert (X6 * ln (exp (-a) + 1) <= X6 * exp (-a)) by (apply Rmult_le_compat_l; lra).
        assert (X6 * exp (-a) <= X6 * (ln (exp (-a) + 1) + exp (-14))) by (apply Rmult_le_compat_l; lra). lra.
      * destruct (Rlt_dec a (-7)) as [H7'|H7']; [|lra].
        pose proof (exp_pos a). pose proof (ln1_bounds (exp a) ltac:(lra)) as (L1 & L2).
        pose proof (Hsq a ltac:(lra)).
        split; [apply Rmult_le_compat_l; lra|].
        assert (X6 * exp a <= X6 * (ln (exp a + 1) + exp (-14))) by (apply Rmult_le_compat_l; lra). lra.
    + rewrite Rmax_left by lra. unfold Rltb. destruct (Rlt_dec 7 (-33)); [lra|].
      destruct (Rlt_dec (-33) (-7)); [|lra].
      pose proof (exp_pos a). pose proof (ln1_bounds (exp a) ltac:(lra)) as (L1 & L2).
      pose proof (exp_mono a (-33) ltac:(lra)). pose proof (exp_mono (-33) (-14) ltac:(lra)).
      assert (0 <= ln (exp a + 1)) by (rewrite <- ln_1; apply ln_mono; lra).
      split; [apply Rmult_le_compat_l; lra|].
      assert (0 <= X6 * ln (exp a + 1)) by (apply Rmult_le_pos; lra).
      assert (X6 * exp (-33) <= X6 * exp (-14)) by (apply Rmult_le_compat_l; lra). lra.
  - rewrite (Rmin_left 33 a) by lra. rewrite (Rmax_right (-33) 33) by lra. unfold Rltb.
    destruct (Rlt_dec 7 33); [|lra].
    rewrite exponential_law_flip, Ea. unfold Rdiv. rewrite <- (exp_Ropp 33). replace (Ropp 33) with (-33) by lra.
    pose proof (exp_pos (-a)). pose proof (ln1_bounds (exp (-a)) ltac:(lra)) as (L1 & L2).
    pose proof (exp_mono (-a) (-33) ltac:(lra)). pose proof (exp_mono (-33) (-14) ltac:(lra)).
    assert (0 <= ln (exp (-a) + 1)) by (rewrite <- ln_1; apply ln_mono; lra).
    assert (X6 * ln (exp (-a) + 1) <= X6 * exp (-33)) by (apply Rmult_le_compat_l; lra).
    assert (0 <= X6 * ln (exp (-a) + 1)) by (apply Rmult_le_pos; lra).
    assert (X6 * exp (-33) <= X6 * exp (-14)) by (apply Rmult_le_compat_l; lra). lra.
Qed.
Lemma exponential_law_bounds Rexp X6 : 0 < X6 ->
  0 < exponential_law Rexp X6 /\ Rexp < exponential_law Rexp X6.
Proof.
  intros HX. unfold exponential_law. set (a := Rexp / X6).
  assert (Ea : Rexp = X6 * a) by (unfold a; field; lra).
  assert (P : forall y, 0 < ln (exp y + 1)) by (intros y; rewrite <- ln_1; apply ln_increasing; pose proof (exp_pos y); lra).
  split; [apply Rmult_lt_0_compat; auto|]. rewrite exponential_law_flip. rewrite <- Ea.
  assert (0 < X6 * ln (exp (-a) + 1)) by (apply Rmult_lt_0_compat; auto). lra.
Qed.
Lemma exponential_law_mono R1 R2 X6 : 0 < X6 -> R1 <= R2 -> exponential_law R1 X6 <= exponential_law R2 X6.
Proof.
  intros HX H. unfold exponential_law. apply Rmult_le_compat_l; [lra|]. apply ln_mono.
  - pose proof (exp_pos (R1 / X6)); lra.
  - apply Rplus_le_compat_r, exp_mono, div_le_mono; lra.
Qed.
Lemma exponential_facts R1 R2 X6 : 0 < X6 -> R1 <= R2 ->
  0 < gr6j_exponential_outflow R1 X6 /\ R1 < gr6j_exponential_outflow R1 X6 /\
  gr6j_exponential_outflow R1 X6 <= gr6j_exponential_outflow R2 X6 + X6 * exp (-14).
Proof.
  intros HX H. pose proof (exponential_close R1 X6 HX). pose proof (exponential_close R2 X6 HX).
  pose proof (exponential_law_bounds R1 X6 HX). pose proof (exponential_law_mono R1 R2 X6 HX H). lra.
Qed.

(** ** Filling ratio and ET *)
Lemma ratio_ok c x : 0 < c -> exists r, filling_ratio (Some c) x = Ok r /\ 0 <= r <= 1 /\
  (x <= 0 -> r = 0) /\ (c <= x -> r = 1).
Proof.
  intros H. unfold filling_ratio. dec; [lra|]. eexists; split; [reflexivity|].
  split; [|split].
  - split; [apply Rmax_l|]. apply Rmax_lub; [lra|apply Rmin_l].
  - intros Hx. assert (x / c <= 0) by (apply div_le; lra). rewrite Rmin_right by lra. apply Rmax_left; lra.
  - intros Hx. assert (1 <= x / c) by (apply le_div; lra). rewrite Rmin_left by lra. apply Rmax_right; lra.
Qed.
Lemma ratio_mono c x y r r' : 0 < c -> x <= y -> filling_ratio (Some c) x = Ok r -> filling_ratio (Some c) y = Ok r' -> r <= r'.
Proof.
  intros Hc H. unfold filling_ratio. dec; [lra|]. intros E1 E2. injection E1 as <-; injection E2 as <-.
  pose proof (div_le_mono x y c H Hc). apply Rle_max_compat_l. apply Rle_min_compat_l. exact H0.
Qed.

Definition good_et (et : R -> R -> outcome R) : Prop :=
  forall pet, 0 <= pet ->
  (forall content, exists q, et content pet = Ok q /\ q <= pet /\ (0 <= content -> 0 <= q)) /\
  (forall x y q q', x <= y -> et x pet = Ok q -> et y pet = Ok q' -> q <= q').

Lemma et_power_good c e : 0 < c -> 0 < e -> good_et (fun content pet => et_power (Some c) content e pet).
Proof.
  intros Hc He pet Hp. split.
  - intros x. unfold et_power. destruct (ratio_ok c x Hc) as (r & Er & Hr & _). rewrite Er; cbn [bind].
    destruct (cpow_unit r e Hr He) as (p & Ep & Hb & _). rewrite Ep; cbn [bind].
    eexists; split; [reflexivity|]. split; [nra|]. intros; nra.
  - intros x y q q' H. unfold et_power.
    destruct (ratio_ok c x Hc) as (r & Er & Hr & _). destruct (ratio_ok c y Hc) as (r' & Er' & Hr' & _).
    rewrite Er, Er'; cbn [bind]. pose proof (ratio_mono c x y r r' Hc H Er Er').
    destruct (cpow_unit r e Hr He) as (p & Ep & Hb & _). destruct (cpow_unit r' e Hr' He) as (p' & Ep' & Hb' & _).
    rewrite Ep, Ep'; cbn [bind]. intros E1 E2; injection E1 as <-; injection E2 as <-.
    pose proof (cpow_mono r r' e p p' ltac:(lra) He Ep Ep'). apply Rmult_le_compat_l; lra.
Qed.
Lemma et_socont_good c : 0 < c -> good_et (fun content pet => et_socont (Some c) content pet).
Proof. intros Hc. exact (et_power_good c (1/2) Hc ltac:(lra)). Qed.
Lemma et_linear_good c : 0 < c -> good_et (fun content pet => et_linear (Some c) content pet).
Proof.
  intros Hc pet Hp. split.
  - intros x. unfold et_linear. destruct (ratio_ok c x Hc) as (r & Er & Hr & _). rewrite Er; cbn [bind].
    eexists; split; [reflexivity|]. rewrite Rmin_right by lra. split; [nra|]. intros; nra.
  - intros x y q q' H. unfold et_linear.
    destruct (ratio_ok c x Hc) as (r & Er & Hr & _). destruct (ratio_ok c y Hc) as (r' & Er' & Hr' & _).
    rewrite Er, Er'; cbn [bind]. pose proof (ratio_mono c x y r r' Hc H Er Er').
    intros E1 E2; injection E1 as <-; injection E2 as <-.
    rewrite !Rmin_right by lra. apply Rmult_le_compat_l; lra.
Qed.
Lemma et_exponential_good c alpha : 0 < c -> 0 <= alpha ->
  good_et (fun content pet => et_exponential (Some c) content alpha pet).
Proof.
  intros Hc Ha pet Hp.
  assert (B : forall r, 0 <= r <= 1 -> 0 < exp (- alpha * r) <= 1).
  { intros r Hr. split; [apply exp_pos|]. rewrite <- exp_0. apply exp_mono. nra. }
  split.
  - intros x. unfold et_exponential. destruct (ratio_ok c x Hc) as (r & Er & Hr & _). rewrite Er; cbn [bind].
    eexists; split; [reflexivity|]. pose proof (B r Hr). split; [nra|]. intros; nra.
  - intros x y q q' H. unfold et_exponential.
    destruct (ratio_ok c x Hc) as (r & Er & Hr & _). destruct (ratio_ok c y Hc) as (r' & Er' & Hr' & _).
    rewrite Er, Er'; cbn [bind]. pose proof (ratio_mono c x y r r' Hc H Er Er').
    intros E1 E2; injection E1 as <-; injection E2 as <-.
    apply Rmult_le_compat_l; [lra|]. assert (exp (- alpha * r') <= exp (- alpha * r)) by (apply exp_mono; nra). lra.
Qed.
Lemma et_hbv_good c lp cf : 0 < c -> 0 < lp -> 0 <= cf <= 1 ->
  good_et (fun content pet => et_hbv (Some c) content lp cf pet).
Proof.
  intros Hc Hl Hcf pet Hp. unfold et_hbv. assert (0 < lp * c) by nra.
  assert (Hcp : 0 <= cf * pet <= pet) by nra.
  assert (Hf : Rleb (lp * c) 0 = false) by (dec; [lra|reflexivity]). rewrite Hf. split.
  - intros x. eexists; split; [reflexivity|]. pose proof (Rmin_l 1 (x / (lp*c))). split; [nra|].
    intros Hx. apply Rmult_le_pos; [lra|]. apply Rmin_glb; [lra|]. apply Rmult_le_pos; [lra|].
    left; apply Rinv_0_lt_compat; lra.
  - intros x y q q' Hxy E1 E2; injection E1 as <-; injection E2 as <-.
    apply Rmult_le_compat_l; [lra|]. apply Rle_min_compat_l. apply div_le_mono; lra.
Qed.
Lemma et_open_water_good dt : 0 < dt -> good_et (fun content pet => Ok (et_open_water (Some dt) content pet)) /\
  forall content pet, 0 <= content -> et_open_water (Some dt) content pet * dt <= content.
Proof.
  intros Hd. assert (Hf : Rltb 0 dt = true) by (dec; [reflexivity|lra]).
  split; [intros pet Hp; split|].
  - intros x. eexists; split; [reflexivity|]. unfold et_open_water. rewrite Hf. split; [apply Rmin_l|].
    intros _. apply Rmin_glb; [lra|apply Rmax_l].
  - intros x y q q' H. unfold et_open_water. rewrite Hf. intros E1 E2; injection E1 as <-; injection E2 as <-.
    apply Rle_min_compat_l, Rle_max_compat_l, div_le_mono; lra.
  - intros x pet Hx. unfold et_open_water. rewrite Hf. pose proof (Rmin_r pet (Rmax 0 (x / dt))).
    assert (0 <= x / dt) by (apply Rmult_le_pos; [lra|left; apply Rinv_0_lt_compat; lra]).
    rewrite (Rmax_right 0 (x/dt)) in * by lra. apply Rmult_le_compat_r with (r := dt) in H; [|lra].
    replace (x / dt * dt) with x in H by (field; lra). exact H.
Qed.

(** ** Melt *)
Definition good_melt (tmelt : R) (melt : R -> R) : Prop :=
  (forall t, t <= tmelt -> melt t = 0) /\ (forall t, 0 <= melt t) /\ (forall t t', t <= t' -> melt t <= melt t').
Lemma degree_day_good acc factor tmelt : 0 <= factor -> good_melt tmelt (melt_degree_day acc factor tmelt).
Proof.
  intros H. unfold melt_degree_day. destruct acc; [|repeat split; intros; lra].
  repeat split; intros; dec; try nra.
Qed.
Lemma temperature_index_good acc factor rc rad tmelt : 0 <= factor + rc * rad ->
  good_melt tmelt (melt_temperature_index acc factor rc rad tmelt).
Proof.
  intros H. unfold melt_temperature_index. destruct acc; [|repeat split; intros; lra].
  set (k := factor + rc * rad) in *. repeat split; intros; dec; try nra.
Qed.
Lemma cemaneige_good ctg kf tmelt ms swe cold : 0 <= ctg <= 1 -> 0 <= kf -> 0 <= ms ->
  good_melt tmelt (fun t => snd (melt_cemaneige ctg kf tmelt ms swe cold t)).
Proof.
  intros Hc Hk Hm.
  assert (B : 0 < swe -> 0 <= 9/10 * (if Rltb 0 (9/10*ms) then Rmin 1 (swe / (9/10*ms)) else 1) + 1/10).
  { intros Hs. destruct (Rltb 0 (9/10*ms)) eqn:E; [|lra].
    assert (0 < 9/10*ms) by (revert E; dec; intros; try discriminate; lra).
    assert (0 <= Rmin 1 (swe / (9/10*ms))); [|lra]. apply Rmin_glb; [lra|].
    apply Rmult_le_pos; [lra|left; apply Rinv_0_lt_compat; lra]. }
  unfold melt_cemaneige. destruct (accessible swe) eqn:Ha; [|repeat split; intros; cbn; lra].
  assert (Hs : 0 < swe) by (revert Ha; unfold accessible; dec; intros; try discriminate; lra).
  specialize (B Hs). cbv zeta. set (g := 9/10 * _ + 1/10) in *.
  assert (N : forall t, 0 <= snd (if Rltb (Rmin 0 (ctg * cold + (1 - ctg) * (t - tmelt))) 0 || Rleb t tmelt
      then (Rmin 0 (ctg * cold + (1 - ctg) * (t - tmelt)), 0)
      else (Rmin 0 (ctg * cold + (1 - ctg) * (t - tmelt)), g * (kf * (t - tmelt))))).
  { intros t. destruct (_ || _) eqn:E; cbn [snd]; [lra|]. apply orb_false_iff in E as (_ & E).
    assert (tmelt < t) by (revert E; dec; intros; try discriminate; lra).
    apply Rmult_le_pos; [exact B|]. apply Rmult_le_pos; lra. }
  split; [|split; [exact N|]].
  - intros t Ht. assert (E : Rleb t tmelt = true) by (dec; [reflexivity|lra]). rewrite E, orb_true_r. reflexivity.
  - intros t t' Ht. specialize (N t'). destruct (Rltb (Rmin 0 (ctg * cold + (1 - ctg) * (t - tmelt))) 0 || Rleb t tmelt) eqn:E.
    + cbn [snd]. exact N.
    + apply orb_false_iff in E as (E1 & E2).
      assert (tmelt < t) by (revert E2; dec; intros; try discriminate; lra).
      assert (0 <= ctg * cold + (1 - ctg) * (t - tmelt)).
      { revert E1; unfold Rltb; destruct (Rlt_dec _ _) as [|n]; [discriminate|]. intros _.
        pose proof (Rmin_r 0 (ctg * cold + (1 - ctg) * (t - tmelt))). lra. }
      assert (0 <= ctg * cold + (1 - ctg) * (t' - tmelt)) by nra.
      assert (E' : Rltb (Rmin 0 (ctg * cold + (1 - ctg) * (t' - tmelt))) 0 || Rleb t' tmelt = false).
      { rewrite Rmin_left by lra. apply orb_false_iff. split; dec; try lra; reflexivity. }
      rewrite E'. cbn [snd]. apply Rmult_le_compat_l; [exact B|]. apply Rmult_le_compat_l; lra.
Qed.
Lemma cemaneige_cold ctg kf tmelt ms swe cold t : cold <= 0 ->
  let (cold', melt) := melt_cemaneige ctg kf tmelt ms swe cold t in
  cold' <= 0 /\ (cold' < 0 -> melt = 0).
Proof.
  intros H. unfold melt_cemaneige. destruct (accessible swe); [|split; auto].
  cbv zeta. pose proof (Rmin_l 0 (ctg * cold + (1 - ctg) * (t - tmelt))).
  destruct (_ || _) eqn:E; (split; [assumption|]); [reflexivity|].
  intros Hc. exfalso. apply orb_false_iff in E as (E & _). revert E; dec; intros; try discriminate; lra.
Qed.
Lemma refreeze_good sib cfr t : 0 <= cfr -> (forall ddf tm, sib = Some (ddf, tm) -> 0 <= ddf) ->
  0 <= refreeze_degree_day sib cfr t /\
  (forall ddf tm, sib = Some (ddf, tm) -> tm <= t -> refreeze_degree_day sib cfr t = 0) /\
  (forall t', t <= t' -> refreeze_degree_day sib cfr t' <= refreeze_degree_day sib cfr t).
Proof.
  intros H Hd. unfold refreeze_degree_day. destruct sib as [[ddf tm]|]; [|repeat split; intros; try lra].
  specialize (Hd ddf tm eq_refl). assert (0 <= cfr * ddf) by nra. repeat split; intros.
  - dec; nra.
  - injection H1 as <- <-. dec; lra.
  - dec; nra.
Qed.

(** ** Infiltration, runoff, drains *)
Lemma infiltration_socont_ok c target x : 0 <= x -> 0 < c -> exists q, infiltration_socont (Some c) target x = Ok q /\
  0 <= q <= x /\ (target <= 0 -> q = x) /\ (c <= target -> q = 0).
Proof.
  intros Hx Hc. unfold infiltration_socont. replace (Rleb c 0) with false by (dec; [lra|reflexivity]).
  destruct (ratio_ok c target Hc) as (r & Er & Hr & H0 & H1). rewrite Er; cbn [bind].
  eexists; split; [reflexivity|]. assert (0 <= r * r <= 1) by nra. split; [nra|split].
  - intros H2. rewrite (H0 H2). ring.
  - intros H2. rewrite (H1 H2). ring.
Qed.
Lemma infiltration_hbv_ok c target beta x : 0 <= x -> 0 < c -> 0 < beta ->
  exists q, infiltration_hbv (Some c) target beta x = Ok q /\
  0 <= q <= x /\ (target <= 0 -> q = x) /\ (c <= target -> q = 0).
Proof.
  intros Hx Hc Hb. unfold infiltration_hbv. destruct (Rleb x 0 || Rleb c 0) eqn:E.
  - assert (x <= 0) by (revert E; dec; cbn; intros; try discriminate; lra).
    exists 0. repeat split; try lra.
  - destruct (ratio_ok c target Hc) as (r & Er & Hr & H0 & H1). rewrite Er; cbn [bind].
    rewrite (Rmin_right 1 r) by lra. rewrite (Rmax_right 0 r) by lra.
    destruct (cpow_unit r beta Hr Hb) as (p & Ep & Hp & Hp0 & Hp1). rewrite Ep; cbn [bind].
    eexists; split; [reflexivity|]. split; [nra|split].
    + intros H2. rewrite (Hp0 (H0 H2)). ring.
    + intros H2. rewrite (Hp1 (H1 H2)). ring.
Qed.
Lemma infiltration_mono c t t' x q q' beta : 0 <= x -> 0 < c -> 0 < beta -> t <= t' ->
  (infiltration_socont (Some c) t x = Ok q -> infiltration_socont (Some c) t' x = Ok q' -> q' <= q) /\
  (infiltration_hbv (Some c) t beta x = Ok q -> infiltration_hbv (Some c) t' beta x = Ok q' -> q' <= q).
Proof.
  intros Hx Hc Hb Ht.
  destruct (ratio_ok c t Hc) as (r & Er & Hr & _). destruct (ratio_ok c t' Hc) as (r' & Er' & Hr' & _).
  pose proof (ratio_mono c t t' r r' Hc Ht Er Er') as Hrr. split.
  - unfold infiltration_socont. replace (Rleb c 0) with false by (dec; [lra|reflexivity]).
    rewrite Er, Er'; cbn [bind]. intros E1 E2; injection E1 as <-; injection E2 as <-.
    apply Rmult_le_compat_l; [exact Hx|]. nra.
  - unfold infiltration_hbv. destruct (Rleb x 0 || Rleb c 0); [intros E1 E2; injection E1 as <-; injection E2 as <-; lra|].
    rewrite Er, Er'; cbn [bind]. rewrite (Rmin_right 1 r), (Rmin_right 1 r') by lra.
    rewrite (Rmax_right 0 r), (Rmax_right 0 r') by lra.
    destruct (cpow_unit r beta Hr Hb) as (p & Ep & _). destruct (cpow_unit r' beta Hr' Hb) as (p' & Ep' & _).
    rewrite Ep, Ep'; cbn [bind]. intros E1 E2; injection E1 as <-; injection E2 as <-.
    pose proof (cpow_mono r r' beta p p' ltac:(lra) Hb Ep Ep'). apply Rmult_le_compat_l; lra.
Qed.
Lemma runoff_socont_ok beta slope area x : 0 <= x -> 0 <= beta -> 0 <= slope -> 0 < area ->
  exists q, runoff_socont beta slope area x = Ok q /\ 0 <= q <= x.
Proof.
  intros Hx Hb Hs Ha. unfold runoff_socont.
  destruct (cpow_nonneg slope (1/2) Hs ltac:(lra)) as (a & Ea & Hpa). rewrite Ea; cbn [bind].
  destruct (cpow_nonneg (x * 2 / 1000) (5/3) ltac:(lra) ltac:(lra)) as (b & Eb & Hpb). rewrite Eb; cbn [bind].
  replace (Reqb area 0) with false by (dec; [lra|reflexivity]). eexists; split; [reflexivity|].
  split; [|apply Rmin_r]. apply Rmin_glb; [|exact Hx].
  assert (0 <= beta * a * b / area).
  { apply Rmult_le_pos; [|left; apply Rinv_0_lt_compat; lra]. apply Rmult_le_pos; [apply Rmult_le_pos; lra|lra]. }
  lra.
Qed.
Lemma runoff_hbv_ok k alpha uz uz' : 0 <= k -> 0 <= alpha -> uz <= uz' ->
  exists q q', runoff_hbv k alpha uz = Ok q /\ runoff_hbv k alpha uz' = Ok q' /\ 0 <= q <= q'.
Proof.
  intros Hk Ha Hu. unfold runoff_hbv.
  destruct (Rleb uz 0) eqn:E; destruct (Rleb uz' 0) eqn:E'; revert E E'; unfold Rleb;
    destruct (Rle_dec uz 0); destruct (Rle_dec uz' 0); intros; try discriminate; try lra.
  - exists 0, 0. repeat split; lra.
  - destruct (cpow_pos uz' (1 + alpha) ltac:(lra)) as (p & Ep & Hp). rewrite Ep; cbn [bind].
    exists 0, (k * p). repeat split; try lra. nra.
  - destruct (cpow_pos uz (1 + alpha) ltac:(lra)) as (p & Ep & Hp).
    destruct (cpow_pos uz' (1 + alpha) ltac:(lra)) as (p' & Ep' & Hp'). rewrite Ep, Ep'; cbn [bind].
    pose proof (cpow_mono uz uz' (1+alpha) p p' ltac:(lra) ltac:(lra) Ep Ep').
    exists (k * p), (k * p'). repeat split; nra.
Qed.
Lemma capillary_ok c target cflux w : 0 < c -> 0 <= cflux -> (forall x, In x w -> 0 <= x) -> Rsum (fun x => x) w <= 1 ->
  exists q, capillary_hbv (Some c) target cflux w = Ok q /\ 0 <= q <= cflux /\ (c <= target -> q = 0).
Proof.
  intros Hc Hf Hw Hs. unfold capillary_hbv. replace (Rleb c 0) with false by (dec; [lra|reflexivity]).
  destruct (ratio_ok c target Hc) as (r & Er & Hr & _ & H1). rewrite Er; cbn [bind].
  rewrite (Rmin_right 1 r) by lra. rewrite (Rmax_right 0 r) by lra. cbv zeta.
  set (W := match w with [] => 1 | _ => Rsum (fun x => x) w end).
  assert (HW : 0 <= W <= 1).
  { unfold W. destruct w as [|x l]; [lra|]. split; [|exact Hs]. apply Rsum_nonneg. exact Hw. }
  eexists; split; [reflexivity|]. assert (0 <= W * (1 - r) <= 1) by nra.
  split; [nra|]. intros H2. rewrite (H1 H2). ring.
Qed.
Lemma drains_ok dt cap x : 0 < dt ->
  0 <= outflow_threshold (Some dt) cap x /\
  x - outflow_threshold (Some dt) cap x * dt = Rmin x cap.
Proof.
  intros Hd. unfold outflow_threshold. dec.
  - rewrite Rmin_left by lra. lra.
  - split.
    + apply Rmult_le_pos; [lra|left; apply Rinv_0_lt_compat; lra].
    + rewrite Rmin_right by lra. field. lra.
Qed.
Lemma holding_ok dt swe whc x : 0 < dt ->
  0 <= outflow_snow_holding (Some swe) (Some dt) whc x /\
  x - outflow_snow_holding (Some swe) (Some dt) whc x * dt = Rmin x (whc * swe).
Proof. exact (drains_ok dt (whc * swe) x). Qed.
Lemma rest_ok sib x : (forall q, In q sib -> 0 <= q) ->
  0 <= outflow_rest true sib x /\
  (Rsum (fun q => q) sib <= x -> Rsum (fun q => q) sib + outflow_rest true sib x = x) /\
  (0 <= x -> outflow_rest false sib x = x).
Proof.
  intros H. unfold outflow_rest. split; [apply Rmax_r|]. split; intros.
  - rewrite Rmax_left; lra.
  - rewrite Rmax_left; lra.
Qed.
Lemma swat_ok north coeff doy x : 0 <= coeff -> 0 <= x ->
  0 <= snow_to_ice_swat north coeff doy x <= 2 * coeff * x.
Proof.
  intros Hc Hx. unfold snow_to_ice_swat. set (a := 2 * PI * _ / 365). pose proof (SIN_bound a).
  assert (0 <= coeff * x) by nra. split.
  - replace (coeff * (1 + sin a) * x) with ((coeff * x) * (1 + sin a)) by ring. apply Rmult_le_pos; lra.
  - replace (coeff * (1 + sin a) * x) with ((coeff * x) * (1 + sin a)) by ring.
    replace (2 * coeff * x) with ((coeff * x) * 2) by ring. apply Rmult_le_compat_l; lra.
Qed.
(** GR4J over one day: rain [P] on the cover, demand [E]. *)
Lemma gr4j_day P E X1 S : 0 <= P -> 0 <= E -> 0 < X1 -> 0 <= S <= X1 ->
  let (icept, en) := gr4j_interception P E in
  let pn := P - icept in
  let es := gr4j_et_rate X1 S pn en in let pr := gr4j_production_rate X1 S pn en in
  0 <= icept <= P /\ 0 <= icept + es <= E /\ 0 <= pr /\ 0 <= S + P - icept - es - pr <= X1.
Proof.
  intros HP HE HX HS. unfold gr4j_interception. cbv zeta.
  assert (0 <= Rmin P E) by (apply Rmin_glb; lra). pose proof (Rmin_l P E). pose proof (Rmin_r P E).
  assert (He : Rmin P E + Rmax 0 (E - P) = E).
  { destruct (Rle_dec P E); [rewrite Rmin_left, Rmax_right; lra|rewrite Rmin_right, Rmax_left; lra]. }
  pose proof (Rmax_l 0 (E - P)).
  destruct (production_step X1 S (P - Rmin P E) (Rmax 0 (E - P)) HX HS ltac:(lra) H2) as (A & B & C & D).
  unfold production_next in D. lra.
Qed.
