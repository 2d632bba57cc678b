(** Property theorems: the delta-h tables on elevation bands (C78). *)
From Verif Require Import Base BaseFacts GlacierActions GlacierSpec GlacierFacts GlacierTables GlacierTablesSpec GlacierTablesFacts GlacierDeltaHSpec GlacierDeltaHFacts GlacierDeltaHLink GlacierDeltaHUse
  GlacierBandsSpec GlacierBandsFacts GlacierBandsLink GlacierBandsUse.
Open Scope R_scope.

(** *** C78 *)
(** For a change of thickness that rises nowhere, a table that is made describes the glacier with less and less ice at each elevation, by the
    delta-h law, and with the widths of the chosen option. *)
Theorem c78_rows : forall g n w name shape profile E T, 0 < g_catchment g -> (0 < n)%nat -> with_ice profile -> upwards profile -> elevations (glacier_lines profile) E ->
  (forall b, (b < length E)%nat -> 0 <= shape b) -> dh_bands_table g n w name shape profile = Ok T ->
  let p := glacier_lines profile in
  exists kept narrow unmet, bands_table n name p kept narrow T /\ width_law w n p kept narrow /\ melt_law w n shape p E kept narrow unmet.
Proof. intros g n w name shape profile E T Hc Hn Hi Hu HE Hs HT. exact (bands_ok g n w name shape profile E Hc Hn Hi Hu HE Hs T HT). Qed.
Print Assumptions c78_rows.
(** The preparation does not fail; where the surface sinks at every elevation, the table is made. *)
Theorem c78_made : forall g n w name shape profile E, 0 < g_catchment g -> (0 < n)%nat -> with_ice profile -> upwards profile -> elevations (glacier_lines profile) E ->
  (forall b, (b < length E)%nat -> 0 <= shape b) ->
  dh_bands_table g n w name shape profile <> Throw /\
  ((forall b, (b < length E)%nat -> 0 < shape b) -> exists T, dh_bands_table g n w name shape profile = Ok T).
Proof.
  intros g n w name shape profile E Hc Hn Hi Hu HE Hs. split; [exact (bands_never_throw g n w name shape profile E Hc Hn Hi Hu HE Hs)|exact (bands_made g n w name shape profile E Hc Hn Hi Hu HE Hs)].
Qed.
Print Assumptions c78_made.
(** The first row is the profile; row r holds the share 1 - r/n of the initial ice and what could not be melted yet; nothing is negative; the
    ice of a unit never grows from row to row, nor its extent unless the width follows the first row; the last row is empty. *)
Theorem c78_volumes : forall g n w name shape profile E T, 0 < g_catchment g -> (0 < n)%nat -> with_ice profile -> upwards profile -> elevations (glacier_lines profile) E ->
  (forall b, (b < length E)%nat -> 0 <= shape b) -> dh_bands_table g n w name shape profile = Ok T ->
  let p := glacier_lines profile in
  (forall i, In i (columns T) -> gt_area T 0 i = Rsum (fun j => dl_area (line p j)) (lines_in p (unit_of T i)) /\
     gt_volume T 0 i = Rsum (fun j => dl_area (line p j) * dl_thick (line p j)) (lines_in p (unit_of T i)) /\ gt_area T n i = 0 /\ gt_volume T n i = 0) /\
  exists unmet, (forall r, (r < n)%nat -> 0 <= unmet r /\ row_volume T r = (1 - INR r / INR n) * row_volume T 0 + unmet r) /\
  forall r i, (r < n)%nat -> In i (columns T) -> 0 <= gt_area T r i /\ 0 <= gt_volume T r i /\ (gt_area T r i = 0 <-> gt_volume T r i = 0) /\
    gt_volume T (S r) i <= gt_volume T r i /\ (w <> WidthInitial -> gt_area T (S r) i <= gt_area T r i).
Proof.
  intros g n w name shape profile E T Hc Hn Hi Hu HE Hs HT p. destruct (c78_rows g n w name shape profile E T Hc Hn Hi Hu HE Hs HT) as (kept & narrow & unmet & A & B & C). fold p in A, B, C.
  pose proof (p_positive profile Hi) as Hp. fold p in Hp. split.
  - intros i Hin. destruct (bt_first n name p kept narrow T Hn A 0%nat eq_refl i Hin) as (F1 & F2). destruct A as (_ & _ & _ & _ & Z & _). destruct (Z i) as (Z1 & Z2). auto.
  - exists unmet. split; [intros r Hr; exact (bt_unmet n w name shape p E kept narrow unmet T Hn A C r Hr)|]. intros r i Hr Hin.
    destruct (bt_entries n name p kept narrow T Hn Hp A r i Hr Hin) as (E1 & E2 & E3). split; [exact E1|]. split; [exact E2|]. split; [exact E3|].
    split; [exact (bt_volume_shrinks n name p kept narrow T Hn Hp A r i Hr Hin)|]. intro Hw. exact (bt_area_shrinks n w name shape p E kept narrow unmet T Hn Hp A C r i B Hw Hr Hin).
Qed.
Print Assumptions c78_volumes.

(** *** The curves of the library *)
Lemma lines_km2_is g p : 0 < g_catchment g -> glacier_km2 g p = lines_km2 p.
Proof.
  intro Hc. unfold glacier_km2, lines_km2. rewrite (Rsum_ext_in (line_area g p) (fun j => dl_area (line p j) * / g_catchment g)) by (intros; reflexivity). rewrite Rsum_scal_r. field. lra.
Qed.
Lemma bands_default_is g n w name profile E k : 0 < g_catchment g -> with_ice profile -> elevations (glacier_lines profile) E -> (2 <= length E)%nat -> dh_coefficients (lines_km2 (glacier_lines profile)) = Ok k ->
  dh_bands_default g n w name profile = dh_bands_table g n w name (fun b => dh_shape k (drop E b)) profile.
Proof.
  intros Hc Hi HE L Hk. unfold dh_bands_default. rewrite (dh_lines_is profile Hi), (lines_km2_is g _ Hc), Hk. cbn [bind]. rewrite (count_is _ E HE). destruct (Nat.leb_spec (length E) 1); [lia|].
  unfold band_shape. rewrite (bands_are _ E HE). reflexivity.
Qed.
(** A glacier of 5 to 20 km2, with the curve of the library. *)
Theorem c78_medium : forall g n w name profile E, 0 < g_catchment g -> (0 < n)%nat -> with_ice profile -> upwards profile -> elevations (glacier_lines profile) E -> (2 <= length E)%nat ->
  5 <= lines_km2 (glacier_lines profile) <= 20 ->
  exists T, dh_bands_default g n w name profile = Ok T /\ let p := glacier_lines profile in
    exists kept narrow unmet, bands_table n name p kept narrow T /\ width_law w n p kept narrow /\ melt_law w n (fun b => curve_medium (drop E b)) p E kept narrow unmet /\
      forall r, (r < n)%nat -> 0 <= unmet r /\ row_volume T r = (1 - INR r / INR n) * row_volume T 0 + unmet r.
Proof.
  intros g n w name profile E Hc Hn Hi Hu HE L Ha. rewrite (bands_default_is g n w name profile E _ Hc Hi HE L (coefficients_medium _ Ha)).
  change (fun b : nat => dh_shape (- (5 / 100), 19 / 100, 1 / 100, 4%nat) (drop E b)) with (fun b : nat => curve_medium (drop E b)).
  assert (Hs : forall b, (b < length E)%nat -> 0 < curve_medium (drop E b)).
  { intros b Hb. apply curve_medium_pos. destruct HE as (H1 & _). apply (drop_range E b H1 L Hb). }
  assert (Hs' : forall b, (b < length E)%nat -> 0 <= curve_medium (drop E b)) by (intros b Hb; apply Rlt_le, Hs, Hb).
  destruct (c78_made g n w name _ profile E Hc Hn Hi Hu HE Hs') as (_ & M). destruct (M Hs) as (T & HT). exists T. split; [exact HT|].
  destruct (c78_rows g n w name _ profile E T Hc Hn Hi Hu HE Hs' HT) as (kept & narrow & unmet & A & B & C). exists kept, narrow, unmet. split; [exact A|]. split; [exact B|]. split; [exact C|].
  intros r Hr. exact (bt_unmet n w name _ _ E kept narrow unmet T Hn A C r Hr).
Qed.
Print Assumptions c78_medium.

(** A glacier of 10 km2 in two lines meets the hypotheses: a table of ten rows and the empty one. *)
Definition two_lines : list dh_line := [mkDL 1000 5000000 10 1; mkDL 1500 0 0 1; mkDL 2000 5000000 30 2].
Example c78_case : forall g w, 0 < g_catchment g -> exists T, dh_bands_default g 10 w "glacier" two_lines = Ok T /\ gt_rows T = 11%nat /\
  with_ice two_lines /\ upwards two_lines /\ elevations (glacier_lines two_lines) [1000; 2000] /\ 5 <= lines_km2 (glacier_lines two_lines) <= 20.
Proof.
  intros g w Hc.
  assert (G : glacier_lines two_lines = [mkDL 1000 5000000 10 1; mkDL 2000 5000000 30 2]).
  { unfold glacier_lines, two_lines. cbn [filter dl_area]. rewrite (proj2 (Rltb_true 0 5000000)), (proj2 (Rltb_false 0 0)) by lra. reflexivity. }
  assert (Hi : with_ice two_lines). { split; [rewrite G; discriminate|]. intros l [<-|[<-|[<-|[]]]]; cbn; lra. }
  assert (Hu : upwards two_lines). { unfold upwards. rewrite G. cbn [length]. intros i j (A & B). destruct i as [|[|i]], j as [|[|j]]; try lia; cbn; lra. }
  assert (HE : elevations (glacier_lines two_lines) [1000; 2000]).
  { rewrite G. split.
    - cbn [length]. intros i j (A & B). destruct i as [|[|i]], j as [|[|j]]; try lia; cbn; lra.
    - intro e. cbn. split; [intros [<-|[<-|[]]]; [exists (mkDL 1000 5000000 10 1)|exists (mkDL 2000 5000000 30 2)]; cbn; auto|intros (l & [<-|[<-|[]]] & <-); cbn; auto]. }
  assert (Km : lines_km2 (glacier_lines two_lines) = 10) by (rewrite G; unfold lines_km2, line; cbn; field).
  destruct (c78_medium g 10 w "glacier" two_lines [1000; 2000] Hc ltac:(lia) Hi Hu HE ltac:(cbn; lia) ltac:(rewrite Km; lra)) as (T & HT & kept & narrow & unmet & A & _).
  exists T. split; [exact HT|]. split; [apply A|]. rewrite Km. split; [exact Hi|]. split; [exact Hu|]. split; [exact HE|lra].
Qed.

(** *** Limits *)
(** With the lines from the top of the glacier downwards and one line per elevation, the changes of thickness go to the wrong lines: the highest
    line melts as the lowest one should, whatever the widths. *)
Definition from_the_top : list dh_line := [mkDL 2000 5000000 10 1; mkDL 1000 5000000 10 2].
Lemma from_the_top_ok : with_ice from_the_top /\ glacier_lines from_the_top = from_the_top /\ elevations from_the_top [1000; 2000].
Proof.
  assert (G : glacier_lines from_the_top = from_the_top) by (unfold glacier_lines, from_the_top; cbn [filter dl_area]; rewrite (proj2 (Rltb_true 0 5000000)) by lra; reflexivity).
  split; [|split; [exact G|]].
  - split; [rewrite G; discriminate|]. intros l [<-|[<-|[]]]; cbn; lra.
  - split.
    + intros i j (A & B). cbn in B. assert (i = 0%nat /\ j = 1%nat) as (-> & ->) by lia. cbn. lra.
    + intro e. cbn. split.
      * intros [<-|[<-|[]]]; [exists (mkDL 1000 5000000 10 2)|exists (mkDL 2000 5000000 10 1)]; cbn; auto.
      * intros (l & [<-|[<-|[]]] & <-); cbn; auto.
Qed.
Theorem c78_downwards_refuted : forall g w, 0 < g_catchment g -> exists T, dh_bands_default g 2 w "glacier" from_the_top = Ok T /\
  unit_of T 0 = 1%nat /\ unit_of T 1 = 2%nat /\ gt_volume T 0 0 = gt_volume T 0 1 /\
  gt_volume T 1 0 < 1 / 100 * gt_volume T 0 0 /\ 99 / 100 * gt_volume T 0 1 < gt_volume T 1 1.
Proof.
  intros g w Hc. destruct from_the_top_ok as (Hi & G & HE). assert (G2 : elevations (glacier_lines from_the_top) [1000; 2000]) by (rewrite G; exact HE).
  assert (Km : lines_km2 (glacier_lines from_the_top) = 10) by (rewrite G; unfold lines_km2, line; cbn; field).
  rewrite (bands_default_is g 2 w "glacier" from_the_top [1000; 2000] _ Hc Hi G2 ltac:(cbn; lia) (coefficients_medium (lines_km2 (glacier_lines from_the_top)) ltac:(rewrite Km; lra))).
  set (sh := fun b => dh_shape (- (5 / 100), 19 / 100, 1 / 100, 4%nat) (drop [1000; 2000] b)).
  assert (S0 : sh 0%nat = 20100125 / 20000000). { unfold sh, drop, dh_shape. cbn [nth last]. replace ((2000 - 1000) / (2000 - 1000)) with 1 by field. field. }
  assert (S1 : sh 1%nat = 10125 / 20000000). { unfold sh, drop, dh_shape. cbn [nth last]. replace ((2000 - 2000) / (2000 - 1000)) with 0 by field. field. }
  clearbody sh. unfold dh_bands_table. rewrite (dh_lines_is _ Hi), G. set (p := from_the_top) in *. rewrite (count_is p _ HE). cbn [length].
  assert (Es : sub_parts p = false) by (unfold sub_parts; rewrite (bands_are p _ HE); reflexivity).
  assert (Est : db_start g p = mkDB (line_area g p) (line_we p) 0) by (unfold db_start; rewrite Es; reflexivity). rewrite Est. set (s0 := mkDB (line_area g p) (line_we p) 0).
  set (a := 5000000 / g_catchment g). assert (Ap : 0 < a) by (apply Rmult_lt_0_compat; [lra|apply Rinv_0_lt_compat; exact Hc]).
  assert (K : iceDensity = 900) by (unfold iceDensity; lra). assert (A0 : forall b, (b < 2)%nat -> db_area s0 b = a /\ db_we s0 b = 9000).
  { intros b Hb. assert (b = 0%nat \/ b = 1%nat) as [->| ->] by lia; cbn [s0 db_area db_we]; unfold line_area, line_we, p, from_the_top; cbn [nth dl_area dl_thick]; rewrite K; (split; [reflexivity|ring]). }
  assert (Pos : forall b, (b < 2)%nat -> 0 < db_area s0 b /\ 0 < db_we s0 b) by (intros b Hb; destruct (A0 b Hb) as (-> & ->); lra).
  assert (Sp : forall b, (b < 2)%nat -> 0 <= sh b) by (intros b Hb; assert (b = 0%nat \/ b = 1%nat) as [->| ->] by lia; lra).
  assert (Mass : total_we g p = 2 * (a * 9000)). { unfold total_we, p, from_the_top, line_area, line_we. cbn [length seq Rsum nth dl_area dl_thick]. fold a. rewrite K. ring. }
  assert (Ok0 : band_ok 2 s0) by (intros b Hb; left; apply Pos; exact Hb).
  assert (W0 : width_inv 2 w s0 s0).
  { intros b Hb. destruct w; [exact I| |reflexivity]. destruct (Pos b Hb) as (X1 & X2). assert (0 < bvol s0 b) by (apply Rmult_lt_0_compat; assumption). unfold Rdiv. rewrite Rinv_r by lra. rewrite sqrt_1. ring. }
  assert (D : bdemand 2 sh s0 = a * (sh 0%nat + sh 1%nat)). { unfold bdemand. cbn [seq Rsum]. destruct (A0 0%nat ltac:(lia)) as (-> & _). destruct (A0 1%nat ltac:(lia)) as (-> & _). ring. }
  assert (Dp : 0 < a * (sh 0%nat + sh 1%nat)) by (apply Rmult_lt_0_compat; lra).
  destruct (db_step_ok 2 2 w sh s0 Pos Sp ltac:(lia) (total_we g p) s0 Ok0 W0 ltac:(cbn; lra) ltac:(rewrite Mass; apply Rmult_le_pos; [lra|]; apply Rmult_le_pos; lra)) as (_ & St).
  destruct St as (s1 & E1 & B1 & W1 & (f & F1 & F2 & F3 & _)); [rewrite D; lra|].
  cbn [Nat.eqb Nat.sub db_rows]. rewrite E1. cbn [bind app].
  assert (Fin : exists q1 q2, db_finish 2 w s0 [s0; s1; zero_band] = Ok [s0; q1; q2] /\ forall b, (b < 2)%nat -> bvol q1 b = bvol s1 b).
  { destruct w; [exists s1, zero_band; split; reflexivity|exists s1, zero_band; split; reflexivity|]. cbn [db_finish outcomes].
    destruct (db_final_ok 2 2 s0 Pos ltac:(lia) s1 B1) as (q1 & Q1 & _ & Q2); [intros b Hb; exact (W1 b Hb)|].
    destruct (db_final_ok 2 2 s0 Pos ltac:(lia) zero_band) as (q2 & Q3 & _); [intros b _; right; split; reflexivity|cbn; intros; lra|].
    rewrite Q1. cbn [bind]. rewrite Q3. cbn [bind]. exists q1, q2. split; [reflexivity|]. intros b Hb. apply Q2. exact Hb. }
  destruct Fin as (q1 & q2 & -> & Vq). cbn [bind]. eexists. split; [reflexivity|].
  assert (Un : line_units p = [1; 2]%nat) by reflexivity. unfold unit_of, lines_table. cbn [gt_units gt_volume]. rewrite Un. cbn [nth].
  assert (U1 : unit_lines p 1 = [0%nat]) by reflexivity. assert (U2 : unit_lines p 2 = [1%nat]) by reflexivity. rewrite U1, U2. cbn [Rsum nth]. rewrite !Rplus_0_r.
  split; [reflexivity|]. split; [reflexivity|]. unfold line_we_at, line_area_at. rewrite Es.
  assert (V : forall b, (b < 2)%nat -> db_we q1 b * (db_area q1 b * g_catchment g) / iceDensity = bvol s1 b * (g_catchment g / 900)).
  { intros b Hb. rewrite <- (Vq b Hb), K. unfold bvol. field. }
  rewrite (V 0%nat), (V 1%nat) by lia. clear V.
  assert (LA : forall b, (b < 2)%nat -> line_we p b * (line_area g p b * g_catchment g) / iceDensity = 9000 * a * (g_catchment g / 900)).
  { intros b Hb. destruct (A0 b Hb) as (X1 & X2). cbn [s0 db_area db_we] in X1, X2. rewrite X1, X2, K. field. }
  rewrite (LA 0%nat), (LA 1%nat) by lia. split; [reflexivity|].
  rewrite (F3 0%nat), (F3 1%nat) by lia. unfold bvol. destruct (A0 0%nat ltac:(lia)) as (-> & ->). destruct (A0 1%nat ltac:(lia)) as (-> & ->).
  rewrite D, Mass in F2. cbn [s0 db_excess] in F2. assert (Ff : f = 9000 / (sh 0%nat + sh 1%nat)).
  { apply (Rmult_eq_reg_r (a * (sh 0%nat + sh 1%nat))); [|lra]. rewrite F2. cbn [INR]. field. lra. }
  assert (Gc : 0 < g_catchment g / 900) by lra. rewrite Ff, S0, S1.
  replace (a * 9000 - 9000 / (20100125 / 20000000 + 10125 / 20000000) * (20100125 / 20000000) * a) with (9000 * a * (10125 / 20110250)) by field.
  replace (a * 9000 - 9000 / (20100125 / 20000000 + 10125 / 20000000) * (10125 / 20000000) * a) with (9000 * a * (20100125 / 20110250)) by field.
  assert (Z : 0 < 9000 * a * (g_catchment g / 900)) by (apply Rmult_lt_0_compat; lra).
  rewrite !Rmax_right by lra. lra.
Qed.
Print Assumptions c78_downwards_refuted.
(** With the widths after the first row (the default) the extent of a glacier can grow while its ice melts: the law for the width is applied to the
    ice per extent of the row before. *)
Definition three_lines : list dh_line := [mkDL 1000 1 1 1; mkDL 2000 1 1 2; mkDL 3000 1 1198 3].
Definition steep (b : nat) : R := match b with 0%nat => 1000000 | 1%nat => 1000 | _ => 1 end.
Lemma three_lines_ok : with_ice three_lines /\ upwards three_lines /\ glacier_lines three_lines = three_lines /\ elevations three_lines [1000; 2000; 3000].
Proof.
  assert (G : glacier_lines three_lines = three_lines) by (unfold glacier_lines, three_lines; cbn [filter dl_area]; rewrite (proj2 (Rltb_true 0 1)) by lra; reflexivity).
  split; [|split; [|split; [exact G|]]].
  - split; [rewrite G; discriminate|]. intros l [<-|[<-|[<-|[]]]]; cbn; lra.
  - unfold upwards. rewrite G. cbn [length three_lines]. intros i j (A & B). destruct i as [|[|[|i]]], j as [|[|[|j]]]; try lia; cbn; lra.
  - split.
    + cbn [length]. intros i j (A & B). destruct i as [|[|[|i]]], j as [|[|[|j]]]; try lia; cbn; lra.
    + intro e. cbn. split.
      * intros [<-|[<-|[<-|[]]]]; [exists (mkDL 1000 1 1 1)|exists (mkDL 2000 1 1 2)|exists (mkDL 3000 1 1198 3)]; cbn; auto.
      * intros (l & [<-|[<-|[<-|[]]]] & <-); cbn; auto.
Qed.
Lemma three_lines_at b : (b < 3)%nat -> lines_at three_lines (nth b [1000; 2000; 3000] 0) = [b].
Proof.
  assert (X : forall e, lines_at three_lines e = (if Reqb 1000 e then [0%nat] else []) ++ (if Reqb 2000 e then [1%nat] else []) ++ (if Reqb 3000 e then [2%nat] else [])).
  { intro e. unfold lines_at, line. cbn [length three_lines seq filter nth dl_elev]. destruct (Reqb 1000 e), (Reqb 2000 e), (Reqb 3000 e); reflexivity. }
  intro Hb. rewrite X. destruct b as [|[|[|b]]]; [| | |lia]; cbn [nth];
    repeat match goal with |- context [Reqb ?a ?c] => first [rewrite (proj2 (Reqb_true a c)) by lra|rewrite (proj2 (Reqb_false a c)) by lra] end; reflexivity.
Qed.
Theorem c78_extent_grows_refuted : forall g, 0 < g_catchment g -> exists T i, dh_bands_table g 12 WidthInitial "glacier" steep three_lines = Ok T /\ In i (columns T) /\ unit_of T i = 3%nat /\
  gt_volume T 4 i < gt_volume T 3 i /\ gt_area T 3 i < gt_area T 4 i.
Proof.
  intros g Hc. destruct three_lines_ok as (Hi & Hu & G & HE). assert (HE' : elevations (glacier_lines three_lines) [1000; 2000; 3000]) by (rewrite G; exact HE).
  assert (Sp : forall b, (b < length [1000; 2000; 3000])%nat -> 0 < steep b) by (intros b Hb; destruct b as [|[|b]]; cbn; lra).
  assert (Sn : forall b, (b < length [1000; 2000; 3000])%nat -> 0 <= steep b) by (intros b Hb; apply Rlt_le, Sp, Hb).
  destruct (c78_made g 12 WidthInitial "glacier" steep three_lines _ Hc ltac:(lia) Hi Hu HE' Sn) as (_ & M). destruct (M Sp) as (T & HT). exists T.
  destruct (c78_rows g 12 WidthInitial "glacier" steep three_lines _ T Hc ltac:(lia) Hi Hu HE' Sn HT) as (kept & narrow & unmet & A & W & L). rewrite G in A, W, L. clear M HE' Sp Sn.
  pose proof A as (_ & _ & Nd & Un & _ & K0 & Kd & Kn & Kv).
  destruct (In_nth (gt_units T) 3%nat 0%nat) as (i & I1 & I2); [apply Un; exists (mkDL 3000 1 1198 3); cbn; auto|].
  assert (Ii : In i (columns T)) by (unfold columns; apply in_seq; lia). exists i. split; [exact HT|]. split; [exact Ii|]. split; [exact I2|].
  assert (Q : forall r, (r < 12)%nat -> gt_area T r i = narrow r 3000 /\ gt_volume T r i = 1198 * kept r 3000).
  { intros r Hr. destruct (Kv r i Hr Ii) as (-> & ->). unfold unit_of. rewrite I2. unfold extent_kept, ice_kept. cbn [lines_in three_lines length seq filter line nth dl_unit Nat.eqb Rsum dl_area dl_thick dl_elev]. split; ring. }
  destruct (Q 3%nat ltac:(lia)) as (-> & ->). destruct (Q 4%nat ltac:(lia)) as (-> & ->). clear Q Kv I1 I2 Ii Un Nd.
  destruct L as (U0 & L). cbn zeta in L.
  assert (Ex : forall r b, (b < 3)%nat -> extent_kept three_lines (in_use WidthInitial (kept r) (narrow r)) (lines_at three_lines (nth b [1000; 2000; 3000] 0)) = narrow r (nth b [1000; 2000; 3000] 0)).
  { intros r b Hb. rewrite (three_lines_at b Hb). unfold extent_kept. destruct b as [|[|[|b]]]; [| | |lia]; cbn; ring. }
  assert (Ic : forall r b, (b < 3)%nat -> ice_kept three_lines (kept r) (lines_at three_lines (nth b [1000; 2000; 3000] 0)) = nth b [1; 1; 1198] 0 * kept r (nth b [1000; 2000; 3000] 0)).
  { intros r b Hb. rewrite (three_lines_at b Hb). unfold ice_kept. destruct b as [|[|[|b]]]; [| | |lia]; cbn; ring. }
  assert (Tt : forall r, ice_kept three_lines (kept r) (seq 0 (length three_lines)) = kept r 1000 + kept r 2000 + 1198 * kept r 3000) by (intro r; unfold ice_kept; cbn; ring).
  (* One step of the melt, in numbers. *)
  assert (St : forall r, (S r < 12)%nat -> 0 <= unmet (S r) /\ exists m, 0 <= m /\
    m * (1000000 * narrow r 1000 + 1000 * narrow r 2000 + narrow r 3000) = 100 + unmet r /\
    kept (S r) 1000 = Rmax 0 (kept r 1000 - m * 1000000 * narrow r 1000) /\ kept (S r) 2000 = Rmax 0 (kept r 2000 - m * 1000 * narrow r 2000) /\
    1198 * kept (S r) 3000 = Rmax 0 (1198 * kept r 3000 - m * narrow r 3000) /\
    kept (S r) 1000 + kept (S r) 2000 + 1198 * kept (S r) 3000 = 1200 - 100 * INR (S r) + unmet (S r)).
  { intros r Hr. destruct (L r Hr) as (U1 & m & M0 & M1 & M2 & _). split; [exact U1|]. exists m. split; [exact M0|].
    pose proof (M2 0%nat ltac:(cbn; lia)) as Z0. pose proof (M2 1%nat ltac:(cbn; lia)) as Z1. pose proof (M2 2%nat ltac:(cbn; lia)) as Z2.
    rewrite !Ic, !Ex in Z0, Z1, Z2 by lia. cbn [nth steep] in Z0, Z1, Z2. rewrite Tt in M1. destruct (K0 1000) as (k1 & _). destruct (K0 2000) as (k2 & _). destruct (K0 3000) as (k3 & _). rewrite k1, k2, k3 in M1.
    cbn [length seq Rsum] in M1. rewrite !Ex in M1 by lia. cbn [nth steep] in M1. assert (I12 : INR 12 = 12) by (rewrite INR_IZR_INZ; reflexivity). rewrite I12 in M1.
    split; [lra|]. rewrite !Rmult_1_l in Z0, Z1. split; [rewrite Z0; f_equal; ring|]. split; [rewrite Z1; f_equal; ring|]. split; [rewrite Z2; f_equal; ring|].
    assert (Hn : (0 < 12)%nat) by lia.
    destruct (bt_unmet 12 WidthInitial "glacier" steep three_lines [1000; 2000; 3000] kept narrow unmet T Hn A (conj U0 L) (S r) Hr) as (_ & V).
    rewrite (bt_total 12 "glacier" three_lines kept narrow T Hn A (S r) Hr), (bt_total 12 "glacier" three_lines kept narrow T Hn A 0%nat Hn), !Tt, I12, k1, k2, k3 in V. lra. }
  assert (Wd : forall r l, (S r < 12)%nat -> In l three_lines -> narrow r (dl_elev l) * narrow (S r) (dl_elev l) ^ 2 = kept (S r) (dl_elev l)) by exact W.
  assert (LA : In (mkDL 1000 1 1 1) three_lines /\ In (mkDL 2000 1 1 2) three_lines /\ In (mkDL 3000 1 1198 3) three_lines) by (cbn; auto 10). destruct LA as (LA & LB & LC).
  destruct (K0 1000) as (a0 & na0). destruct (K0 2000) as (b0 & nb0). destruct (K0 3000) as (c0 & nc0).
  (* Row 1: the lowest line is gone. *)
  destruct (St 0%nat ltac:(lia)) as (u1 & m0 & Hm0 & E0 & A1 & B1 & C1 & T1). rewrite a0, b0, c0, na0, nb0, nc0, U0 in *.
  assert (M0 : m0 = 100 / 1001001) by lra. subst m0. rewrite Rmax_left in A1 by lra. rewrite Rmax_right in B1, C1 by lra. change (INR 1) with 1 in T1.
  destruct (Kn 1%nat _ ltac:(lia) LA) as (_ & _ & NA1). apply proj1 in NA1. specialize (NA1 A1). cbn [dl_elev] in NA1.
  pose proof (Wd 0%nat _ ltac:(lia) LB) as WB1. pose proof (Wd 0%nat _ ltac:(lia) LC) as WC1. cbn [dl_elev] in WB1, WC1. rewrite nb0 in WB1. rewrite nc0 in WC1.
  destruct (Kn 1%nat _ ltac:(lia) LB) as (_ & NB1 & _). destruct (Kn 1%nat _ ltac:(lia) LC) as (_ & NC1 & _). cbn [dl_elev] in NB1, NC1.
  assert (NB1' : 9 / 10 <= narrow 1%nat 2000 <= 1) by nra. assert (NC1' : 999 / 1000 <= narrow 1%nat 3000 <= 1) by nra.
  (* Row 2: the next one. *)
  destruct (St 1%nat ltac:(lia)) as (u2 & m1 & Hm1 & E1 & A2 & B2 & C2 & T2). rewrite NA1, A1 in *. rewrite Rmax_left in A2 by lra.
  assert (M1 : 1 / 10 <= m1 <= 3 / 10) by (split; apply Rnot_lt_le; intro X; nra).
  rewrite Rmax_left in B2 by nra. rewrite Rmax_right in C2 by nra.
  assert (C2' : 999 / 1000 <= kept 2%nat 3000 <= 1) by nra.
  destruct (Kn 2%nat _ ltac:(lia) LA) as (_ & _ & NA2). apply proj1 in NA2. specialize (NA2 A2). cbn [dl_elev] in NA2.
  destruct (Kn 2%nat _ ltac:(lia) LB) as (_ & _ & NB2). apply proj1 in NB2. specialize (NB2 B2). cbn [dl_elev] in NB2.
  pose proof (Wd 1%nat _ ltac:(lia) LC) as WC2. cbn [dl_elev] in WC2. destruct (Kn 2%nat _ ltac:(lia) LC) as (_ & NC2 & _). cbn [dl_elev] in NC2.
  assert (NC2' : 99 / 100 <= narrow 2%nat 3000) by nra.
  (* Rows 3 and 4: all from the highest one. *)
  destruct (St 2%nat ltac:(lia)) as (u3 & m2 & Hm2 & E2 & A3 & B3 & C3 & T3). rewrite NA2, NB2, A2, B2 in *. rewrite Rmax_left in A3, B3 by lra.
  assert (I2 : INR 2 = 2) by (rewrite INR_IZR_INZ; reflexivity). assert (I3 : INR 3 = 3) by (rewrite INR_IZR_INZ; reflexivity). assert (I4 : INR 4 = 4) by (rewrite INR_IZR_INZ; reflexivity).
  rewrite I2 in T2. rewrite I3 in T3.
  assert (P2 : m2 * narrow 2%nat 3000 = 100 + unmet 2%nat) by lra. rewrite P2 in C3. rewrite Rmax_right in C3 by lra.
  assert (K3 : 1198 * kept 3%nat 3000 = 900) by lra.
  destruct (Kn 3%nat _ ltac:(lia) LA) as (_ & _ & NA3). apply proj1 in NA3. specialize (NA3 A3). cbn [dl_elev] in NA3.
  destruct (Kn 3%nat _ ltac:(lia) LB) as (_ & _ & NB3). apply proj1 in NB3. specialize (NB3 B3). cbn [dl_elev] in NB3.
  destruct (St 3%nat ltac:(lia)) as (u4 & m3 & Hm3 & E3 & A4 & B4 & C4 & T4). rewrite NA3, NB3, A3, B3 in *. rewrite Rmax_left in A4, B4 by lra. rewrite I4 in T4.
  assert (P3 : m3 * narrow 3%nat 3000 = 100 + unmet 3%nat) by lra. rewrite P3 in C4. rewrite Rmax_right in C4 by lra.
  assert (K4 : 1198 * kept 4%nat 3000 = 800) by lra. split; [lra|].
  pose proof (Wd 2%nat _ ltac:(lia) LC) as WC3. pose proof (Wd 3%nat _ ltac:(lia) LC) as WC4. cbn [dl_elev] in WC3, WC4.
  destruct (Kn 3%nat _ ltac:(lia) LC) as (_ & NC3 & _). destruct (Kn 4%nat _ ltac:(lia) LC) as (_ & NC4 & _). cbn [dl_elev] in NC3, NC4.
  assert (N3 : narrow 3%nat 3000 <= 8712 / 10000) by (clear - NC2' WC3 NC3 K3; apply Rnot_lt_le; intro X; nra).
  assert (N4 : 8750 / 10000 <= narrow 4%nat 3000) by (clear - N3 WC4 NC3 NC4 K4; apply Rnot_lt_le; intro X; assert (narrow 4%nat 3000 ^ 2 <= 765625 / 1000000) by nra; nra).
  lra.
Qed.
Print Assumptions c78_extent_grows_refuted.
