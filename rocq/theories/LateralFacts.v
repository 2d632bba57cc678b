(** Lemmas about lateral snow transport. *)
From Verif Require Import Base BaseFacts Container ContainerFacts Direct NetworkSpec DirectSpec DirectFacts DirectSafe Lateral LateralSpec.
Open Scope R_scope.
Local Opaque EPSILON_D PRECISION.

Lemma dweighted_instant frac x : dweighted (mkDC OutsideInstant frac) x = x * frac.
Proof. unfold dweighted; cbn. unfold Reqb. destruct (Req_EM_T frac 1) as [->|]; [ring|reflexivity]. Qed.

Section Process.
Variables (B : dbrick) (dt : R) (inp : dinputs) (f : dlaw).
Hypothesis HB : dvalid B.
Hypothesis Hdt : 0 < dt.

(** What one process does, output by output. *)
Lemma process_effect s p s' : In p (db_procs B) -> dprocess B dt inp f s p = Ok s' ->
  c_infinite (ds_cont s (p_cont p)) = false -> c_allowneg (ds_cont s (p_cont p)) = false -> db_cap B (p_cont p) = None ->
  exists released : nat -> R,
    (forall k, 0 <= released k) /\
    (forall k, In k (p_conns p) -> ds_amount s' k = dweighted (dconn_at B k) (released k)) /\
    (forall k, In k (p_conns p) -> released k <= Rmax 0 (f (ds_cont s) k) * dt) /\
    ((forall k, In k (p_conns p) -> d_tgt (dconn_at B k) = OutsideInstant) ->
     level (ds_cont s' (p_cont p)) = level (ds_cont s (p_cont p)) - Rsum released (p_conns p)).
Proof.
  intros Hp H Hi Ha Hcap. unfold dprocess in H. apply bind_ok in H. destruct H as (r & Hr & H). injection H as H.
  assert (Hnd : NoDup (p_conns p)) by (apply (concat_NoDup_piece p_conns _ p (dv_nodup B HB) Hp)).
  destruct (apply_outs B dt (p_cont p) (p_conns p) (mkDS (ds_cont s) r (ds_amount s)) Hnd) as (Q1&Q2&Q3&Q4).
  cbn zeta in *. cbn [ds_cont ds_rate ds_amount] in *. rewrite H in *.
  exists (fun k => moved dt (r k)). split; [intros k; apply moved_nonneg; exact Hdt|]. split; [intros k Hk; apply Q1; exact Hk|].
  split.
  - intros k Hk. unfold dconstrain in Hr. rewrite Hi, Ha, Hcap in Hr.
    assert (Hno : NoDup (douts B (p_cont p))) by (apply douts_NoDup; apply dv_nodup; exact HB).
    assert (Hin : In k (douts B (p_cont p))) by (apply douts_in; exists p; auto).
    set (rates := blocked_rates B inp (p_cont p) (requested B f s p)) in Hr.
    assert (Hrk : r k <= Rmax 0 (rates k)).
    { eapply lim_le; try exact Hr; try exact Hdt; try exact Hno; try exact (dv_ov B HB (p_cont p)); try (intros; discriminate);
        try reflexivity. exact Hin. }
    assert (Hrr : Rmax 0 (rates k) <= Rmax 0 (f (ds_cont s) k)).
    { assert (Hreq : Rmax 0 (requested B f s p k) <= Rmax 0 (f (ds_cont s) k)).
      { unfold requested. rewrite (proj2 (mem_in k _) Hk). destruct (content_with_changes _); [|lra].
        destruct (LessThanOrEqual _ _ _); [|lra]. rewrite Rmax_left by lra. apply Rmax_l. }
      unfold rates, blocked_rates. destruct (i_blocked inp (p_cont p)); [|exact Hreq]. destruct (mem k (douts B (p_cont p))); [|exact Hreq].
      rewrite Rmax_left by lra. apply Rmax_l. }
    unfold moved. destruct (Rltb_spec PRECISION (r k)).
    + apply Rmult_le_compat_r; lra.
    + apply Rmult_le_pos; [apply Rmax_l|lra].
  - intros Hout. rewrite (Q4 _ Hi), Nat.eqb_refl. rewrite Rsum_zero; [lra|].
    intros k Hk. unfold into. rewrite (Hout k Hk). reflexivity.
Qed.

(** ... and exactly what the law asks for, when nothing limits it. *)
Lemma process_exact s p s' : In p (db_procs B) -> dprocess B dt inp f s p = Ok s' ->
  c_infinite (ds_cont s (p_cont p)) = false -> c_allowneg (ds_cont s (p_cont p)) = false -> db_cap B (p_cont p) = None ->
  i_blocked inp (p_cont p) = false -> PRECISION < level (ds_cont s (p_cont p)) ->
  (forall k, In k (douts B (p_cont p)) -> ~ In k (p_conns p) -> ds_rate s k = 0) ->
  Rsum (fun k => Rmax 0 (f (ds_cont s) k)) (p_conns p) * dt
    <= c_content (ds_cont s (p_cont p)) + c_dyn (ds_cont s (p_cont p)) + dinputs_static B inp s (p_cont p) ->
  forall k, In k (p_conns p) -> ds_amount s' k = dweighted (dconn_at B k) (moved dt (f (ds_cont s) k)).
Proof.
  intros Hp H Hi Ha Hcap Hb Hlev Hoth Henough k Hk. unfold dprocess in H. apply bind_ok in H. destruct H as (r & Hr & H). injection H as H.
  assert (Hnd : NoDup (p_conns p)) by (apply (concat_NoDup_piece p_conns _ p (dv_nodup B HB) Hp)).
  destruct (apply_outs B dt (p_cont p) (p_conns p) (mkDS (ds_cont s) r (ds_amount s)) Hnd) as (Q1&Q2&Q3&Q4). clear Q2 Q3 Q4.
  cbn zeta in *. cbn [ds_cont ds_rate ds_amount] in *. rewrite H in *. rewrite (proj2 (Q1 k Hk)). clear Q1 H. f_equal.
  assert (Hno : NoDup (douts B (p_cont p))) by (apply douts_NoDup; apply dv_nodup; exact HB).
  assert (Hin : forall j, In j (p_conns p) -> In j (douts B (p_cont p))) by (intros j Hj; apply douts_in; exists p; auto).
  unfold dconstrain, blocked_rates in Hr. rewrite Hb, Hi, Ha, Hcap in Hr.
  assert (Hreq : forall j, In j (p_conns p) -> requested B f s p j = f (ds_cont s) j).
  { intros j Hj. unfold requested. rewrite (proj2 (mem_in j _) Hj). unfold content_with_changes. rewrite Hi. unfold level in Hlev. unfold LessThanOrEqual.
    rewrite (proj2 (Rleb_false _ _)) by lra. reflexivity. }
  assert (Hsum : Rsum (clamped (requested B f s p) (douts B (p_cont p)) []) (douts B (p_cont p)) = Rsum (fun j => Rmax 0 (f (ds_cont s) j)) (p_conns p)).
  { rewrite (Rsum_over_piece _ (douts B (p_cont p)) (p_conns p) Hno Hnd Hin).
    - apply Rsum_ext_in. intros j Hj. rewrite clamped_max by (left; auto). rewrite Hreq by exact Hj. reflexivity.
    - intros j Hj Hn. rewrite clamped_max by (left; exact Hj). unfold requested.
      rewrite (proj2 (mem_not_in j _) Hn), (Hoth j Hj Hn). apply Rmax_left. lra. }
  assert (Hr' : r = clamped (requested B f s p) (douts B (p_cont p)) []).
  { apply (ac_noop dt (c_content (ds_cont s (p_cont p)) + c_dyn (ds_cont s (p_cont p))) (dinputs_static B inp s (p_cont p)) None (db_ov B (p_cont p)) false (douts B (p_cont p)) [] (requested B f s p) r); try exact Hr; try (intros; discriminate).
    - exact (dv_ov B HB (p_cont p)).
    - intros _. eapply Rle_trans; [|exact Henough]. apply Rmult_le_pos; [|lra]. apply Rsum_nonneg. intros; apply Rmax_l.
    - right. rewrite Hsum. cbn [Rsum]. lra. }
  rewrite Hr', clamped_max by (left; auto). rewrite Hreq by exact Hk. unfold moved. pose proof PRECISION_pos.
  destruct (Rltb_spec PRECISION (f (ds_cont s) k)).
  - rewrite Rmax_right by lra. rewrite (proj2 (Rltb_true _ _)) by lra. reflexivity.
  - rewrite (proj2 (Rltb_false _ _)); [reflexivity|]. apply Rmax_lub; lra.
Qed.
End Process.

Lemma rates_length limit factor amount l : length (lat_rates limit factor amount l) = length l.
Proof. unfold lat_rates. destruct (Rleb amount 0); apply map_length. Qed.

Lemma map_nth_pair {A C} (g : A -> C) l l' k : map g l = l' -> (k < length l)%nat -> forall da dc, g (nth k l da) = nth k l' dc.
Proof. intros <- H da dc. rewrite (nth_indep _ dc (g da)) by (rewrite map_length; exact H). symmetry. apply map_nth. Qed.

(** Deposits match what left, output by output. *)
Lemma deposited_balance (B : dbrick) (g : nat -> R) o limit factor amount dt : 0 < dt ->
  forall conns targets (amt rel : nat -> R), length conns = length targets -> targets_ok targets ->
  map g conns = (if Rleb amount 0 then map (fun _ => 0) targets else map (lat_rate limit factor amount) targets) ->
  map (dconn_at B) conns = map (fun t => mkDC OutsideInstant (lat_weight t)) (if Rleb amount 0 then targets else map (lat_flux o) targets) ->
  (forall k, In k conns -> 0 <= rel k <= Rmax 0 (g k) * dt /\ amt k = dweighted (dconn_at B k) (rel k)) ->
  or_area o * or_fraction o * Rsum rel conns = deposited amt conns targets.
Proof.
  intros Hdt. pose proof PRECISION_pos as HP. induction conns as [|k ks IH]; intros [|t ts] amt rel Hl Ht Hg Hd Hr; cbn in Hl; try discriminate.
  - cbn. ring.
  - cbn [Rsum deposited].
    assert (Hts : targets_ok ts) by (intros t' Ht'; apply Ht; right; exact Ht').
    destruct (Hr k (or_introl eq_refl)) as (Hrel & Hamt).
    destruct (Ht t (or_introl eq_refl)) as (H1 & H2 & H3).
    assert (Hrest : or_area o * or_fraction o * Rsum rel ks = deposited amt ks ts).
    { apply IH; try assumption; try lia.
      - destruct (Rleb amount 0); cbn in Hg; injection Hg; auto.
      - destruct (Rleb amount 0); cbn in Hd; injection Hd; auto.
      - intros k' Hk'. apply Hr. right; exact Hk'. }
    assert (Hthis : or_area o * or_fraction o * rel k = amt k * (lo_area t * lo_fraction t)); [|nra].
    destruct (Rleb_spec amount 0) as [Hz|Hz].
    + cbn in Hg. injection Hg as Hgk _. rewrite Hgk in Hrel. rewrite Rmax_left in Hrel by lra.
      assert (rel k = 0) as E by lra. cbn in Hd. injection Hd as Hdk _. rewrite Hamt, Hdk, dweighted_instant, E. ring.
    + cbn in Hg, Hd. injection Hg as Hgk _. injection Hd as Hdk _. rewrite Hamt, Hdk, dweighted_instant.
      unfold lat_rate in Hgk. unfold lat_flux. unfold NearlyZero in *.
      destruct (Rleb_spec (Rabs (lo_fraction t)) PRECISION) as [Hn|Hn].
      * rewrite Hgk in Hrel. rewrite Rmax_left in Hrel by lra. assert (rel k = 0) as E by lra. rewrite E. ring.
      * rewrite Rabs_pos_eq in Hn by lra. unfold lat_weight; cbn [lo_unit lo_cover lo_area lo_fraction].
        rewrite H3. unfold fraction_areas. field. split; lra.
Qed.

(** Rates add up to no more than the amount. *)
Lemma rates_total limit factor amount targets : 0 <= amount -> targets_ok targets -> shares_ok targets ->
  Rsum (fun r => Rmax 0 r) (lat_rates limit factor amount targets) <= amount.
Proof.
  intros Ha Ht (Hw & Hs). unfold lat_rates. destruct (Rleb_spec amount 0) as [Hz|Hz].
  - rewrite Rsum_map. rewrite Rsum_zero; [lra|]. intros. apply Rmax_left; lra.
  - rewrite Rsum_map. apply Rle_trans with (Rsum (fun t => amount * (lo_weight t * lo_fraction t)) targets).
    + apply Rsum_le. intros t Hin. destruct (Ht t Hin) as (H1 & H2 & _). specialize (Hw t Hin).
      assert (0 <= lo_weight t * lo_fraction t) by (apply Rmult_le_pos; lra).
      assert (0 <= amount * (lo_weight t * lo_fraction t)) by (apply Rmult_le_pos; lra).
      unfold lat_rate, avoid_accumulation. destruct (NearlyZero _ _); [rewrite Rmax_left; lra|].
      destruct (_ && _); [rewrite Rmax_left; lra|]. rewrite Rmult_assoc. rewrite Rmax_right; lra.
    + rewrite Rsum_scal. rewrite <- (Rmult_1_r amount) at 2. apply Rmult_le_compat_l; lra.
Qed.

Lemma slide_factor_val : slide_factor = 4.
Proof. unfold slide_factor, waterDensity, snowDensity. lra. Qed.
Lemma slide_amount_bounds P slope swe : 0 <= slide_amount P slope swe <= 1000 /\
  (0 < slide_amount P slope swe -> slide_threshold P slope / 4 <= swe - slide_amount P slope swe).
Proof.
  unfold slide_amount. rewrite slide_factor_val.
  destruct (Rltb_spec (slide_threshold P slope) (swe * 4)) as [H|H].
  - destruct (Rltb_spec 1000 ((swe * 4 - slide_threshold P slope) / 4)); split; try lra.
  - destruct (Rltb_spec 1000 0); lra.
Qed.
Lemma slide_threshold_nonneg P slope : 0 <= sp_minhold P -> 0 <= slide_threshold P slope.
Proof.
  intros H. unfold slide_threshold. cbv zeta.
  set (t1 := if Rltb (sp_maxslope P) slope then _ else _).
  assert (0 <= Rmax t1 (sp_minhold P)) by (eapply Rle_trans; [exact H|apply Rmax_r]).
  destruct (Rltb_spec 0 (sp_maxdepth P)); [|assumption]. apply Rmin_glb; lra.
Qed.

Lemma frey_coeff_bounds P rho slope : 0 < rho -> 0 <= frey_coeff P rho slope <= 1.
Proof.
  intros Hrho. unfold frey_coeff. destruct (Rltb_spec rho (fp_rhomax P)) as [H|H]; [|lra].
  set (s := Rmin (Rmax slope 0) 90).
  assert (Hs : 0 <= s <= 90).
  { unfold s. split; [apply Rmin_glb; [apply Rmax_r|lra]|apply Rmin_r]. }
  assert (0 <= s / 90 <= 1) by lra.
  assert (A : 0 <= (fp_rhomax P - rho) / fp_rhomax P <= 1).
  { split; [apply Rmult_le_pos; [lra|left; apply Rinv_0_lt_compat; lra]|].
    apply Rmult_le_reg_r with (fp_rhomax P); [lra|]. unfold Rdiv. rewrite Rmult_assoc, Rinv_l by lra. lra. }
  assert (E : 0 <= exp (- rho / fp_rhomax P) <= 1).
  { split; [left; apply exp_pos|]. assert (X : - rho / fp_rhomax P < 0).
    { unfold Rdiv. rewrite Ropp_mult_distr_l_reverse. apply Ropp_lt_gt_0_contravar. apply Rmult_lt_0_compat; [lra|apply Rinv_0_lt_compat; lra]. }
    left. pose proof (exp_increasing _ _ X) as Y. rewrite exp_0 in Y. exact Y. }
  assert (0 <= (fp_rhomax P - rho) / fp_rhomax P * exp (- rho / fp_rhomax P) <= 1) by nra. nra.
Qed.
Lemma frey_amount_bounds P rho slope swe : 0 < rho -> 0 <= fp_hold P -> 0 <= fp_correction P <= 1 ->
  0 <= frey_amount P rho slope swe <= Rmax 0 swe.
Proof.
  intros Hr Hh Hc. unfold frey_amount. pose proof (Rmax_l 0 swe) as M0. pose proof (Rmax_r 0 swe) as M1.
  destruct (Rleb_spec swe 0); [lra|].
  assert (F : 0 <= fp_hold P / frey_factor rho).
  { apply Rmult_le_pos; [assumption|]. left. apply Rinv_0_lt_compat. unfold frey_factor, waterDensity.
    apply Rmult_lt_0_compat; [lra|apply Rinv_0_lt_compat; assumption]. }
  set (ex := Rmax (swe - fp_hold P / frey_factor rho) 0).
  assert (Hex : 0 <= ex <= swe). { unfold ex. split; [apply Rmax_r|]. apply Rmax_lub; lra. }
  destruct (Rleb_spec ex 0); [lra|]. pose proof (frey_coeff_bounds P rho slope Hr) as Hf.
  destruct (Rleb_spec (frey_coeff P rho slope) 0); [lra|].
  assert (0 <= frey_coeff P rho slope * fp_correction P <= 1) by nra.
  assert (0 <= ex * frey_coeff P rho slope * fp_correction P <= ex) by nra.
  destruct (Rltb_spec 1000 (ex * frey_coeff P rho slope * fp_correction P)); lra.
Qed.

(** *** Density *)
Lemma sigmoid_bounds x : -1 <= x / sqrt (1 + x * x) <= 1.
Proof.
  set (q := sqrt (1 + x * x)). assert (Hp : 0 < 1 + x * x) by nra.
  assert (Hq : 0 < q) by (apply sqrt_lt_R0; exact Hp).
  assert (Hqq : q * q = 1 + x * x) by (apply sqrt_sqrt; lra).
  split.
  - apply Rmult_le_reg_r with q; [exact Hq|]. unfold Rdiv. rewrite Rmult_assoc, Rinv_l by lra. nra.
  - apply Rmult_le_reg_r with q; [exact Hq|]. unfold Rdiv. rewrite Rmult_assoc, Rinv_l by lra. nra.
Qed.
Lemma fresh_bounds D t : fd_min D <= fd_freshmax D -> fd_min D <= fresh_density D t <= fd_freshmax D.
Proof.
  intros H. unfold fresh_density. set (x := t / fd_rscale D + fd_tscale D). pose proof (sigmoid_bounds x).
  set (sg := x / sqrt (1 + x * x)) in *. nra.
Qed.
Lemma density_bounds D lo hi : lo <= fd_min D -> fd_min D <= fd_freshmax D -> fd_freshmax D <= hi -> lo <= fd_max D <= hi ->
  forall dt t swe st, lo <= fst st <= hi -> lo <= fst (update_density D dt t swe st) <= hi.
Proof.
  intros H1 H2 H3 H4 dt t swe [d p] Hd. cbn [fst] in *. pose proof (fresh_bounds D t H2) as Hf.
  unfold update_density. set (fr := fresh_density D t) in *. cbn [fst].
  set (se := Rmin (Rmax (fd_settling D * dt) 0) 1).
  assert (Hse : 0 <= se <= 1). { unfold se. split; [apply Rmin_glb; [apply Rmax_r|lra]|apply Rmin_r]. }
  set (settled := d + (fd_max D - d) * se).
  assert (Hset : lo <= settled <= hi) by (unfold settled; nra).
  set (e := Rmax (Rmin p swe) 0). set (g := Rmax (swe - p) 0).
  assert (He : 0 <= e) by apply Rmax_r. assert (Hg : 0 <= g) by apply Rmax_r.
  destruct (Rleb_spec swe 0); [lra|].
  destruct (Rltb_spec 0 g); cbn [andb]; [|exact Hset]. destruct (Rltb_spec 0 (e + g)); [|exact Hset].
  split.
  - apply Rmult_le_reg_r with (e + g); [assumption|]. unfold Rdiv. rewrite Rmult_assoc, Rinv_l by lra. nra.
  - apply Rmult_le_reg_r with (e + g); [assumption|]. unfold Rdiv. rewrite Rmult_assoc, Rinv_l by lra. nra.
Qed.
Lemma run_density_bounds D lo hi : lo <= fd_min D -> fd_min D <= fd_freshmax D -> fd_freshmax D <= hi -> lo <= fd_max D <= hi ->
  forall l st, lo <= fst st <= hi -> lo <= fst (run_density D l st) <= hi.
Proof.
  intros H1 H2 H3 H4. induction l as [|[[dt t] swe] l IH]; intros st Hs; cbn [run_density]; [exact Hs|].
  apply IH. apply density_bounds; assumption.
Qed.

Lemma density_settles D dt t swe density prev : density <= fd_max D -> 0 < swe <= prev ->
  density <= fst (update_density D dt t swe (density, prev)) <= fd_max D.
Proof.
  intros Hd Hs. unfold update_density. cbn [fst]. set (se := Rmin (Rmax (fd_settling D * dt) 0) 1).
  assert (Hse : 0 <= se <= 1). { unfold se. split; [apply Rmin_glb; [apply Rmax_r|lra]|apply Rmin_r]. }
  destruct (Rleb_spec swe 0); [lra|]. rewrite (Rmax_right (swe - prev) 0) by lra.
  destruct (Rltb_spec 0 0); [lra|]. cbn [andb]. nra.
Qed.

Lemma lateral_instant B conns (l : list lat_out) : map (dconn_at B) conns = map (fun t => mkDC OutsideInstant (lat_weight t)) l ->
  forall k, In k conns -> d_tgt (dconn_at B k) = OutsideInstant.
Proof.
  intros E k Hk. assert (In (dconn_at B k) (map (dconn_at B) conns)) as X by (apply in_map; exact Hk).
  rewrite E in X. apply in_map_iff in X. destruct X as (t & <- & _). reflexivity.
Qed.

Lemma volume_conserved B dt inp f s s' p o targets limit factor amount :
  dvalid B -> 0 < dt -> In p (db_procs B) ->
  lateral_process B f p o targets limit factor amount s -> targets_ok targets ->
  c_infinite (ds_cont s (p_cont p)) = false -> c_allowneg (ds_cont s (p_cont p)) = false -> db_cap B (p_cont p) = None ->
  dprocess B dt inp f s p = Ok s' ->
  or_area o * or_fraction o * (level (ds_cont s (p_cont p)) - level (ds_cont s' (p_cont p)))
  = deposited (ds_amount s') (p_conns p) targets.
Proof.
  intros HB Hdt Hp [L1 L2 L3] Ht Hi Ha Hc H.
  destruct (process_effect B dt inp f HB Hdt s p s' Hp H Hi Ha Hc) as (rel & R1 & R2 & R3 & R4).
  rewrite R4. 2:{ apply lateral_instant with (l := lat_fluxes o (amount (ds_cont s)) targets). exact L3. }
  replace (_ - (_ - Rsum rel (p_conns p))) with (Rsum rel (p_conns p)) by ring.
  apply (deposited_balance B (f (ds_cont s)) o limit factor (amount (ds_cont s)) dt Hdt); auto.
Qed.

Lemma released_within B dt inp f s s' p o targets limit factor amount :
  dvalid B -> 0 < dt -> In p (db_procs B) ->
  lateral_process B f p o targets limit factor amount s -> targets_ok targets -> shares_ok targets ->
  0 <= amount (ds_cont s) ->
  c_infinite (ds_cont s (p_cont p)) = false -> c_allowneg (ds_cont s (p_cont p)) = false -> db_cap B (p_cont p) = None ->
  dprocess B dt inp f s p = Ok s' ->
  0 <= level (ds_cont s (p_cont p)) - level (ds_cont s' (p_cont p)) <= amount (ds_cont s) * dt.
Proof.
  intros HB Hdt Hp [L1 L2 L3] Ht Hsh Hpos Hi Ha Hc H.
  destruct (process_effect B dt inp f HB Hdt s p s' Hp H Hi Ha Hc) as (rel & R1 & R2 & R3 & R4).
  rewrite R4. 2:{ apply lateral_instant with (l := lat_fluxes o (amount (ds_cont s)) targets). exact L3. }
  replace (_ - (_ - Rsum rel (p_conns p))) with (Rsum rel (p_conns p)) by ring.
  split; [apply Rsum_nonneg; intros; apply R1|].
  apply Rle_trans with (Rsum (fun k => dt * Rmax 0 (f (ds_cont s) k)) (p_conns p)).
  - apply Rsum_le. intros k Hk. specialize (R3 k Hk). lra.
  - rewrite Rsum_scal. rewrite (Rmult_comm dt). apply Rmult_le_compat_r; [lra|].
    replace (Rsum (fun k => Rmax 0 (f (ds_cont s) k)) (p_conns p)) with (Rsum (fun r => Rmax 0 r) (map (f (ds_cont s)) (p_conns p))) by apply Rsum_map.
    rewrite L2. apply rates_total; assumption.
Qed.

Lemma slide_keeps B dt inp f s s' p o targets P slope :
  dvalid B -> 0 < dt <= 1 -> In p (db_procs B) ->
  lateral_process B f p o targets (sp_maxdepth P) slide_factor (fun conts => slide_amount P slope (level (conts (p_cont p)))) s ->
  targets_ok targets -> shares_ok targets ->
  c_infinite (ds_cont s (p_cont p)) = false -> c_allowneg (ds_cont s (p_cont p)) = false -> db_cap B (p_cont p) = None ->
  dprocess B dt inp f s p = Ok s' ->
  Rmin (level (ds_cont s (p_cont p))) (slide_threshold P slope / 4) <= level (ds_cont s' (p_cont p)) <= level (ds_cont s (p_cont p)).
Proof.
  intros HB (Hdt & Hd1) Hp HL Ht Hsh Hi Ha Hc H. set (x := level (ds_cont s (p_cont p))) in *.
  destruct (slide_amount_bounds P slope x) as (A1 & A2).
  pose proof (released_within B dt inp f s s' p o targets _ _ _ HB Hdt Hp HL Ht Hsh (proj1 A1) Hi Ha Hc H) as R.
  cbn beta in R. fold x in R. set (a := slide_amount P slope x) in *. set (y := level (ds_cont s' (p_cont p))) in *.
  split; [|lra]. destruct (Req_dec a 0) as [E|E].
  - rewrite E in R. assert (y = x) by lra. rewrite H0. apply Rmin_l.
  - assert (0 < a) by lra. specialize (A2 H0). eapply Rle_trans; [apply Rmin_r|]. nra.
Qed.

Lemma frey_keeps B dt inp f s s' p o targets P rho slope factor :
  dvalid B -> 0 < dt <= 1 -> In p (db_procs B) -> 0 < rho -> 0 <= fp_hold P -> 0 <= fp_correction P <= 1 ->
  lateral_process B f p o targets (fp_maxdepth P) factor (fun conts => frey_amount P rho slope (level (conts (p_cont p)))) s ->
  targets_ok targets -> shares_ok targets -> 0 <= level (ds_cont s (p_cont p)) ->
  c_infinite (ds_cont s (p_cont p)) = false -> c_allowneg (ds_cont s (p_cont p)) = false -> db_cap B (p_cont p) = None ->
  dprocess B dt inp f s p = Ok s' ->
  0 <= level (ds_cont s' (p_cont p)) <= level (ds_cont s (p_cont p)).
Proof.
  intros HB (Hdt & Hd1) Hp Hrho Hh Hcr HL Ht Hsh Hx Hi Ha Hc H. set (x := level (ds_cont s (p_cont p))) in *.
  pose proof (frey_amount_bounds P rho slope x Hrho Hh Hcr) as A1.
  pose proof (released_within B dt inp f s s' p o targets _ _ _ HB Hdt Hp HL Ht Hsh (proj1 A1) Hi Ha Hc H) as R.
  cbn beta in R. fold x in R. rewrite Rmax_right in A1 by lra. set (a := frey_amount P rho slope x) in *. set (y := level (ds_cont s' (p_cont p))) in *.
  nra.
Qed.

Lemma frey_amount_nonneg P rho slope swe : 0 <= fp_correction P -> 0 <= frey_amount P rho slope swe.
Proof.
  intros H. unfold frey_amount. destruct (Rleb_spec swe 0); [lra|]. destruct (Rleb_spec (Rmax (swe - fp_hold P / frey_factor rho) 0) 0); [lra|].
  destruct (Rleb_spec (frey_coeff P rho slope) 0); [lra|]. destruct (Rltb_spec 1000 (Rmax (swe - fp_hold P / frey_factor rho) 0 * frey_coeff P rho slope * fp_correction P)); [lra|].
  repeat apply Rmult_le_pos; lra.
Qed.

Lemma each_receiver B dt inp f s s' p o targets limit factor amount :
  dvalid B -> 0 < dt -> In p (db_procs B) ->
  lateral_process B f p o targets limit factor amount s -> targets_ok targets -> shares_ok targets ->
  0 <= amount (ds_cont s) -> 0 < factor ->
  c_infinite (ds_cont s (p_cont p)) = false -> c_allowneg (ds_cont s (p_cont p)) = false -> db_cap B (p_cont p) = None ->
  unhindered B inp s p -> amount (ds_cont s) * dt <= level (ds_cont s (p_cont p)) ->
  dprocess B dt inp f s p = Ok s' ->
  forall i k t, nth_error (p_conns p) i = Some k -> nth_error targets i = Some t -> PRECISION < lo_fraction t ->
  let wanted := amount (ds_cont s) * lo_weight t * lo_fraction t in
  let got := ds_amount s' k * (lo_area t * lo_fraction t) in
  (overfull limit factor t -> got = 0) /\
  (~ overfull limit factor t -> PRECISION < wanted -> got = or_area o * or_fraction o * (wanted * dt)).
Proof.
  intros HB Hdt Hp [L1 L2 L3] Ht Hsh Hpos Hf Hi Ha Hc (U1 & U2 & U3 & U4) Hle H i k t Hk Htt Hfr. cbn zeta.
  pose proof (process_exact B dt inp f HB Hdt s p s' Hp H Hi Ha Hc U1 U2 U3) as E.
  assert (Hcov : Rsum (fun k0 => Rmax 0 (f (ds_cont s) k0)) (p_conns p) * dt
    <= c_content (ds_cont s (p_cont p)) + c_dyn (ds_cont s (p_cont p)) + dinputs_static B inp s (p_cont p)).
  { apply Rle_trans with (amount (ds_cont s) * dt).
    - apply Rmult_le_compat_r; [lra|].
      replace (Rsum (fun k0 => Rmax 0 (f (ds_cont s) k0)) (p_conns p)) with (Rsum (fun r => Rmax 0 r) (map (f (ds_cont s)) (p_conns p))) by apply Rsum_map.
      rewrite L2. apply rates_total; assumption.
    - unfold level in Hle. lra. }
  specialize (E Hcov k (nth_error_In _ _ Hk)).
  assert (Efk : f (ds_cont s) k = nth i (lat_rates limit factor (amount (ds_cont s)) targets) 0).
  { rewrite <- L2. symmetry. apply nth_error_nth. apply map_nth_error. exact Hk. }
  assert (Edk : dconn_at B k = mkDC OutsideInstant (lat_weight (nth i (lat_fluxes o (amount (ds_cont s)) targets) t))).
  { assert (X := f_equal (fun l => nth_error l i) L3). cbn beta in X. rewrite (map_nth_error _ _ _ Hk) in X. symmetry in X.
    assert (Y : exists t', nth_error (lat_fluxes o (amount (ds_cont s)) targets) i = Some t').
    { unfold lat_fluxes. destruct (Rleb _ 0); [eauto|]. eexists. apply map_nth_error. exact Htt. }
    destruct Y as (t' & Y). rewrite (map_nth_error _ _ _ Y) in X. injection X as X. rewrite <- X. f_equal. f_equal. symmetry. apply nth_error_nth. exact Y. }
  destruct (Ht t (nth_error_In _ _ Htt)) as (A1 & A2 & A3). destruct Hsh as (Hw & _). specialize (Hw t (nth_error_In _ _ Htt)).
  assert (Hz : NearlyZero (lo_fraction t) PRECISION = false).
  { unfold NearlyZero. destruct (Rleb_spec (Rabs (lo_fraction t)) PRECISION) as [Hn|Hn]; [|reflexivity].
    rewrite Rabs_pos_eq in Hn by lra. lra. }
  pose proof PRECISION_pos as HP.
  assert (Hacc : avoid_accumulation limit factor (amount (ds_cont s) * lo_weight t * lo_fraction t) t = 0 /\ overfull limit factor t \/
                 avoid_accumulation limit factor (amount (ds_cont s) * lo_weight t * lo_fraction t) t = amount (ds_cont s) * lo_weight t * lo_fraction t /\ ~ overfull limit factor t).
  { unfold avoid_accumulation, overfull. destruct (Rltb_spec 0 limit) as [Hl|Hl]; cbn [andb].
    - assert (Q : 15 / 10 * limit / factor < lo_swe t <-> 3 / 2 * limit < lo_swe t * factor).
      { split; intros X.
        - apply (Rmult_lt_compat_r factor) in X; [|exact Hf]. unfold Rdiv in X. rewrite Rmult_assoc, Rinv_l in X by lra. lra.
        - apply (Rmult_lt_reg_r factor); [exact Hf|]. unfold Rdiv. rewrite Rmult_assoc, Rinv_l by lra. lra. }
      destruct (Rltb_spec (15 / 10 * limit / factor) (lo_swe t)) as [Hs|Hs].
      + left. split; [reflexivity|]. split; [exact Hl|apply Q; exact Hs].
      + right. split; [reflexivity|]. intros (_ & X). apply Q in X. lra.
    - right. split; [reflexivity|]. intros (X & _). lra. }
  destruct (Rleb_spec (amount (ds_cont s)) 0) as [Hz0|Hz0].
  - assert (Eam : amount (ds_cont s) = 0) by lra.
    assert (Ef0 : f (ds_cont s) k = 0).
    { rewrite Efk. unfold lat_rates. rewrite (proj2 (Rleb_true _ _)) by lra. apply nth_error_nth. apply (map_nth_error (fun _ : lat_out => 0)) in Htt. exact Htt. }
    rewrite E, Ef0. unfold moved. rewrite (proj2 (Rltb_false _ _)) by lra. rewrite Edk, dweighted_instant, Eam. split; intros; ring.
  - unfold lat_rates in Efk. unfold lat_fluxes in Edk. rewrite (proj2 (Rleb_false _ _)) in Efk, Edk by lra.
    rewrite (nth_error_nth _ _ _ (map_nth_error _ _ _ Htt)) in Efk. rewrite (nth_error_nth _ _ _ (map_nth_error (lat_flux o) _ _ Htt)) in Edk.
    rewrite E, Edk, dweighted_instant. unfold lat_rate in Efk. rewrite Hz in Efk. unfold lat_flux. rewrite Hz.
    unfold lat_weight; cbn [lo_unit lo_cover]. rewrite A3.
    destruct Hacc as [(Hr & Ho)|(Hr & Ho)]; rewrite Hr in Efk; rewrite Efk; unfold moved.
    + rewrite (proj2 (Rltb_false _ _)) by lra. split; [intros _; ring|intros X; contradiction].
    + split; [intros X; contradiction|]. intros _ Hwt. rewrite (proj2 (Rltb_true _ _)) by exact Hwt. unfold fraction_areas. field. split; lra.
Qed.

Lemma holding_depth P slope h : holding P slope h -> slide_threshold P slope = h.
Proof.
  intros (h0 & H0 & H1 & H2). unfold slide_threshold.
  assert (E : Rmax (if Rltb (sp_maxslope P) slope then sp_minhold P else sp_coeff P * Rpower (Rmax slope (sp_minslope P)) (sp_exp P) * 1000) (sp_minhold P) = h0).
  { destruct H0 as [Hs|a Hs Ha].
    - rewrite (proj2 (Rltb_true _ _) Hs). apply Rmax_left. lra.
    - rewrite (proj2 (Rltb_false _ _)) by lra. f_equal. replace (Rmax slope (sp_minslope P)) with a; [ring|].
      destruct Ha as [(-> & Ha)|(-> & Ha)]; [rewrite Rmax_left by lra|rewrite Rmax_right by lra]; reflexivity. }
  cbn zeta. rewrite E. destruct (Rltb_spec 0 (sp_maxdepth P)) as [Hm|Hm]; symmetry; auto.
Qed.

Lemma slide_amount_is P slope swe h : holding P slope h ->
  slide_amount P slope swe = Rmin 1000 (Rmax 0 (swe - h / 4)).
Proof.
  intros H. unfold slide_amount. rewrite (holding_depth _ _ _ H), slide_factor_val. cbn zeta.
  destruct (Rltb_spec h (swe * 4)).
  - replace ((swe * 4 - h) / 4) with (swe - h / 4) by field. rewrite (Rmax_right 0) by lra.
    destruct (Rltb_spec 1000 (swe - h / 4)); [rewrite Rmin_left|rewrite Rmin_right]; lra.
  - rewrite Rmax_left by lra. destruct (Rltb_spec 1000 0); [lra|]. rewrite Rmin_right; lra.
Qed.

Lemma frey_amount_is P rho slope swe a : 0 < rho -> 0 <= fp_hold P -> 0 <= fp_correction P -> 0 <= slope <= 90 ->
  frey_wanted P rho slope swe a -> frey_amount P rho slope swe = a.
Proof.
  intros Hr Hh Hc Hs W. unfold frey_amount, frey_factor, waterDensity.
  assert (E : fp_hold P / (1000 / rho) = fp_hold P * rho / 1000) by (field; lra). rewrite E.
  assert (0 <= fp_hold P * rho / 1000) by (unfold Rdiv; repeat apply Rmult_le_pos; lra).
  destruct (Rleb_spec swe 0) as [Hz|Hz]; [destruct W; lra|].
  assert (Ec : rho < fp_rhomax P -> frey_coeff P rho slope = (1 - rho / fp_rhomax P) * exp (- (rho / fp_rhomax P)) * (slope / 90)).
  { intros Hd. unfold frey_coeff. rewrite (proj2 (Rltb_true _ _) Hd). rewrite (Rmax_left slope) by lra. rewrite Rmin_left by lra.
    replace (- rho / fp_rhomax P) with (- (rho / fp_rhomax P)) by (field; lra). f_equal. f_equal. field. lra. }
  destruct W as [W|W|W1 W2].
  - rewrite Rmax_right by lra. rewrite (proj2 (Rleb_true 0 0)) by lra. reflexivity.
  - unfold frey_coeff. rewrite (proj2 (Rltb_false _ _) W). rewrite (proj2 (Rleb_true 0 0)) by lra. destruct (Rleb _ 0); reflexivity.
  - rewrite Rmax_left by lra. rewrite (proj2 (Rleb_false (swe - fp_hold P * rho / 1000) 0)) by lra. rewrite (Ec W2).
    set (x := swe - fp_hold P * rho / 1000) in *.
    destruct (Rleb_spec ((1 - rho / fp_rhomax P) * exp (- (rho / fp_rhomax P)) * (slope / 90)) 0) as [Hf|Hf].
    + assert (Q : 0 <= (1 - rho / fp_rhomax P) * exp (- (rho / fp_rhomax P)) * (slope / 90)).
      { repeat apply Rmult_le_pos; try lra; [|left; apply exp_pos].
        assert (rho / fp_rhomax P <= 1); [|lra]. apply (Rmult_le_reg_r (fp_rhomax P)); [lra|]. unfold Rdiv. rewrite Rmult_assoc, Rinv_l by lra. lra. }
      assert (Z : (1 - rho / fp_rhomax P) * exp (- (rho / fp_rhomax P)) * (slope / 90) = 0) by lra.
      replace (x * (1 - rho / fp_rhomax P) * exp (- (rho / fp_rhomax P)) * (slope / 90) * fp_correction P)
        with (x * ((1 - rho / fp_rhomax P) * exp (- (rho / fp_rhomax P)) * (slope / 90)) * fp_correction P) by ring.
      rewrite Z. rewrite Rmult_0_r, Rmult_0_l. rewrite Rmin_right; lra.
    + replace (x * (1 - rho / fp_rhomax P) * exp (- (rho / fp_rhomax P)) * (slope / 90) * fp_correction P)
        with (x * ((1 - rho / fp_rhomax P) * exp (- (rho / fp_rhomax P)) * (slope / 90)) * fp_correction P) by ring.
      cbn zeta. match goal with |- (if Rltb 1000 ?y then _ else _) = _ => destruct (Rltb_spec 1000 y) end;
        [rewrite Rmin_left|rewrite Rmin_right]; lra.
Qed.

Lemma slide_receives B dt inp f s s' p o targets P slope h :
  dvalid B -> 0 < dt <= 1 -> In p (db_procs B) ->
  lateral_process B f p o targets (sp_maxdepth P) slide_factor (fun conts => slide_amount P slope (level (conts (p_cont p)))) s ->
  targets_ok targets -> shares_ok targets ->
  c_infinite (ds_cont s (p_cont p)) = false -> c_allowneg (ds_cont s (p_cont p)) = false -> db_cap B (p_cont p) = None ->
  unhindered B inp s p -> holding P slope h -> 0 <= h ->
  dprocess B dt inp f s p = Ok s' ->
  forall i k t, nth_error (p_conns p) i = Some k -> nth_error targets i = Some t -> PRECISION < lo_fraction t ->
  let wanted := Rmin 1000 (Rmax 0 (level (ds_cont s (p_cont p)) - h / 4)) * lo_weight t * lo_fraction t in
  let got := ds_amount s' k * (lo_area t * lo_fraction t) in
  (overfull (sp_maxdepth P) 4 t -> got = 0) /\
  (~ overfull (sp_maxdepth P) 4 t -> PRECISION < wanted -> got = or_area o * or_fraction o * (wanted * dt)).
Proof.
  intros HB (Hdt & Hd1) Hp HL Ht Hsh Hi Ha Hc U Hh Hh0 H. cbn zeta. set (x := level (ds_cont s (p_cont p))) in *.
  destruct (slide_amount_bounds P slope x) as (A1 & A2).
  pose proof PRECISION_pos as HP. destruct U as (U1 & U2 & U3 & U4). fold x in U2.
  pose proof (slide_amount_is P slope x h Hh) as Ea.
  assert (Hle : slide_amount P slope x * dt <= x).
  { apply Rle_trans with (slide_amount P slope x * 1); [apply Rmult_le_compat_l; lra|]. rewrite Ea.
    pose proof (Rmin_r 1000 (Rmax 0 (x - h / 4))). assert (Rmax 0 (x - h / 4) <= x) by (apply Rmax_lub; lra). lra. }
  pose proof (each_receiver B dt inp f s s' p o targets _ _ _ HB Hdt Hp HL Ht Hsh (proj1 A1)) as E. cbn beta in E. fold x in E.
  rewrite slide_factor_val, Ea in E. rewrite Ea in Hle. apply E; try assumption; try lra. split; [exact U1|split; [exact U2|split; [exact U3|exact U4]]].
Qed.

Lemma frey_receives B dt inp f s s' p o targets P rho slope a :
  dvalid B -> 0 < dt <= 1 -> In p (db_procs B) -> 0 < rho -> 0 <= fp_hold P -> 0 <= fp_correction P <= 1 -> 0 <= slope <= 90 ->
  lateral_process B f p o targets (fp_maxdepth P) (frey_factor rho) (fun conts => frey_amount P rho slope (level (conts (p_cont p)))) s ->
  targets_ok targets -> shares_ok targets ->
  c_infinite (ds_cont s (p_cont p)) = false -> c_allowneg (ds_cont s (p_cont p)) = false -> db_cap B (p_cont p) = None ->
  unhindered B inp s p -> frey_wanted P rho slope (level (ds_cont s (p_cont p))) a ->
  dprocess B dt inp f s p = Ok s' ->
  forall i k t, nth_error (p_conns p) i = Some k -> nth_error targets i = Some t -> PRECISION < lo_fraction t ->
  let wanted := a * lo_weight t * lo_fraction t in
  let got := ds_amount s' k * (lo_area t * lo_fraction t) in
  (overfull (fp_maxdepth P) (1000 / rho) t -> got = 0) /\
  (~ overfull (fp_maxdepth P) (1000 / rho) t -> PRECISION < wanted -> got = or_area o * or_fraction o * (wanted * dt)).
Proof.
  intros HB (Hdt & Hd1) Hp Hr Hh Hcr Hs HL Ht Hsh Hi Ha Hc U W H. cbn zeta. set (x := level (ds_cont s (p_cont p))) in *.
  pose proof (frey_amount_bounds P rho slope x Hr Hh Hcr) as A1. pose proof (frey_amount_is P rho slope x a Hr Hh (proj1 Hcr) Hs W) as Ea.
  pose proof PRECISION_pos as HP. assert (Hx : PRECISION < x) by (apply U). rewrite Rmax_right in A1 by lra.
  assert (Hle : frey_amount P rho slope x * dt <= x).
  { apply Rle_trans with (frey_amount P rho slope x * 1); [apply Rmult_le_compat_l; lra|lra]. }
  pose proof (each_receiver B dt inp f s s' p o targets _ _ _ HB Hdt Hp HL Ht Hsh (proj1 A1)) as E. cbn beta in E. fold x in E.
  rewrite Ea in E, Hle. apply E; try assumption.
  unfold frey_factor, waterDensity, Rdiv. apply Rmult_lt_0_compat; [lra|apply Rinv_0_lt_compat; exact Hr].
Qed.
