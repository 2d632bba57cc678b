(** Delta-h on pixels: from the rows to the table. *)
From Verif Require Import Base BaseFacts LandCover LandCoverSpec LandCoverFacts GlacierActions GlacierSpec GlacierFacts GlacierTables GlacierTablesSpec GlacierTablesFacts
  GlacierTablesLink GlacierDeltaHSpec GlacierDeltaHFacts.
Open Scope R_scope.

(** *** Sorted elevations *)
Definition increasing (E : list R) : Prop := forall i j, (i < j < length E)%nat -> nth i E 0 < nth j E 0.
Lemma increasing_cons e l : increasing (e :: l) <-> increasing l /\ forall x, In x l -> e < x.
Proof.
  split.
  - intro H. split.
    + intros i j Hij. apply (H (S i) (S j)). cbn. lia.
    + intros x Hx. apply (In_nth _ _ 0) in Hx. destruct Hx as (i & Hi & <-). apply (H 0%nat (S i)). cbn. lia.
  - intros (H1 & H2) i j Hij. cbn in Hij. destruct j as [|j]; [lia|]. destruct i as [|i]; cbn [nth]; [apply H2, nth_In; lia|apply H1; lia].
Qed.
Lemma insert_in e l x : In x (insert_elev e l) <-> x = e \/ In x l.
Proof.
  induction l as [|y l IH]; [cbn; intuition auto|]. cbn [insert_elev]. destruct (Rltb e y); [cbn; intuition auto|].
  destruct (Reqb e y) eqn:E; [apply Reqb_true in E; subst; cbn; intuition auto|]. cbn. rewrite IH. intuition auto.
Qed.
Lemma insert_increasing e l : increasing l -> increasing (insert_elev e l).
Proof.
  induction l as [|y l IH]; intro H; cbn [insert_elev]; [apply increasing_cons; split; [exact H|intros x []]|].
  destruct (Rltb e y) eqn:E1; [apply Rltb_true in E1|apply Rltb_false in E1].
  - apply increasing_cons. split; [exact H|]. intros x [<-|Hx]; [exact E1|]. apply increasing_cons in H. destruct H as (_ & H). specialize (H x Hx). lra.
  - destruct (Reqb e y) eqn:E2; [exact H|apply Reqb_false in E2]. apply increasing_cons in H. destruct H as (H1 & H2). apply increasing_cons. split; [apply IH; exact H1|].
    intros x Hx. apply insert_in in Hx. destruct Hx as [->|Hx]; [lra|apply H2; exact Hx].
Qed.
Lemma elev_bands_in p e : In e (elev_bands p) <-> exists l, In l p /\ dl_elev l = e.
Proof.
  unfold elev_bands. induction p as [|l p IH]; [cbn; split; [intros []|intros (l & [] & _)]|]. cbn [map fold_right]. rewrite insert_in, IH. split.
  - intros [->|(k & Hk & E)]; [exists l; cbn; auto|exists k; cbn; auto].
  - intros (k & [<-|Hk] & E); [left; auto|right; exists k; auto].
Qed.
Lemma elev_bands_increasing p : increasing (elev_bands p).
Proof. unfold elev_bands. induction p as [|l p IH]; [intros i j Hij; cbn in Hij; lia|]. cbn [map fold_right]. apply insert_increasing. exact IH. Qed.
Lemma increasing_unique : forall a b, increasing a -> increasing b -> (forall x, In x a <-> In x b) -> a = b.
Proof.
  induction a as [|x a IH]; intros b Ha Hb Hi.
  - destruct b as [|y b]; [reflexivity|]. exfalso. apply (Hi y). left. reflexivity.
  - destruct b as [|y b]; [exfalso; apply (Hi x); left; reflexivity|]. apply increasing_cons in Ha. apply increasing_cons in Hb. destruct Ha as (A1 & A2). destruct Hb as (B1 & B2).
    assert (E : x = y).
    { destruct (proj1 (Hi x) (or_introl eq_refl)) as [E|Hx]; [auto|]. destruct (proj2 (Hi y) (or_introl eq_refl)) as [E|Hy]; [auto|]. specialize (A2 y Hy). specialize (B2 x Hx). lra. }
    subst y. f_equal. apply IH; [exact A1|exact B1|]. intro z. split; intro Hz.
    + destruct (proj1 (Hi z) (or_intror Hz)) as [<-|Hz']; [specialize (A2 x Hz); lra|exact Hz'].
    + destruct (proj2 (Hi z) (or_intror Hz)) as [<-|Hz']; [specialize (B2 x Hz); lra|exact Hz'].
Qed.
Lemma increasing_nth_inj E i j : increasing E -> (i < length E)%nat -> (j < length E)%nat -> nth i E 0 = nth j E 0 -> i = j.
Proof.
  intros H Hi Hj E0. destruct (Nat.lt_trichotomy i j) as [L|[L|L]]; [specialize (H i j ltac:(lia)); lra|exact L|specialize (H j i ltac:(lia)); lra].
Qed.
Lemma index_of_nth e l : In e l -> (index_of e l < length l)%nat /\ nth (index_of e l) l 0 = e.
Proof.
  induction l as [|x l IH]; intro H; [contradiction|]. cbn [index_of]. destruct (Reqb e x) eqn:E; [apply Reqb_true in E; subst; cbn; split; [lia|reflexivity]|apply Reqb_false in E].
  destruct H as [->|H]; [congruence|]. destruct (IH H) as (A & B). cbn. split; [lia|exact B].
Qed.
(** A non-decreasing list whose distinct values are as many as the list is strictly increasing. *)
Definition weakly (L : list R) : Prop := forall i j, (i <= j < length L)%nat -> nth i L 0 <= nth j L 0.
Lemma weakly_tail e l : weakly (e :: l) -> weakly l /\ forall x, In x l -> e <= x.
Proof.
  intro H. split.
  - intros i j Hij. apply (H (S i) (S j)). cbn. lia.
  - intros x Hx. apply (In_nth _ _ 0) in Hx. destruct Hx as (i & Hi & <-). apply (H 0%nat (S i)). cbn. lia.
Qed.
Lemma insert_length e l : (length (insert_elev e l) <= S (length l))%nat.
Proof. induction l as [|x l IH]; [cbn; lia|]. cbn [insert_elev]. destruct (Rltb e x); [cbn; lia|]. destruct (Reqb e x); cbn; lia. Qed.
Lemma sort_length L : (length (fold_right insert_elev [] L) <= length L)%nat.
Proof. induction L as [|e L IH]; [cbn; lia|]. cbn [fold_right length]. pose proof (insert_length e (fold_right insert_elev [] L)). lia. Qed.
Lemma sort_sorted : forall L, weakly L -> length (fold_right insert_elev [] L) = length L -> fold_right insert_elev [] L = L.
Proof.
  induction L as [|e L IH]; intros H Hl; [reflexivity|]. cbn [fold_right] in *. destruct (weakly_tail e L H) as (H1 & H2).
  pose proof (sort_length L) as S1. pose proof (insert_length e (fold_right insert_elev [] L)) as S2. cbn [length] in Hl.
  assert (E : fold_right insert_elev [] L = L) by (apply IH; [exact H1|lia]). rewrite E in *. destruct L as [|x L]; [reflexivity|]. cbn [insert_elev] in *.
  destruct (Rltb e x) eqn:E1; [reflexivity|apply Rltb_false in E1]. specialize (H2 x (or_introl eq_refl)). assert (e = x) by lra. subst x.
  rewrite (proj2 (Reqb_true e e) eq_refl) in Hl. cbn in Hl. lia.
Qed.

Section Parts.
Variables (g : grid) (parts : list dh_part).
Hypothesis Hpieces : pieces parts.
Variable E : list R.
Hypothesis HE : levels parts E.
Let p := map (part_line g) parts.
Let P := length parts.
Lemma p_nth j : (j < P)%nat -> nth j p (mkDL 0 0 0 0) = part_line g (part parts j).
Proof. intro Hj. unfold p. rewrite (nth_indep _ _ (part_line g (mkDP 0 0 []))) by (rewrite map_length; exact Hj). apply map_nth. Qed.
Lemma elev_nth j : (j < P)%nat -> nth j (map dp_elev parts) 0 = dp_elev (part parts j).
Proof. intro Hj. change 0 with (dp_elev (mkDP 0 0 [])). apply map_nth. Qed.
Lemma bands_are_levels : elev_bands p = E.
Proof.
  destruct HE as (H1 & H2). apply increasing_unique; [apply elev_bands_increasing|exact H1|]. intro e. rewrite elev_bands_in, H2. unfold p. split.
  - intros (l & Hl & <-). apply in_map_iff in Hl. destruct Hl as (q & <- & Hq). exists q. auto.
  - intros (q & Hq & <-). exists (part_line g q). split; [apply in_map; exact Hq|reflexivity].
Qed.
Lemma count_is_levels : band_count p = length E.
Proof. unfold band_count. rewrite bands_are_levels. reflexivity. Qed.
Lemma part_level j : (j < P)%nat -> (line_band p j < length E)%nat /\ nth (line_band p j) E 0 = dp_elev (part parts j).
Proof.
  intro Hj. unfold line_band. destruct (sub_parts p) eqn:Es.
  - rewrite p_nth, bands_are_levels by exact Hj. cbn [part_line dl_elev]. apply index_of_nth. destruct HE as (_ & H2). apply H2. exists (part parts j). split; [apply nth_In; exact Hj|reflexivity].
  - unfold sub_parts in Es. apply negb_false_iff, Nat.eqb_eq in Es.
    assert (Lm : map dl_elev p = map dp_elev parts) by (unfold p; rewrite map_map; reflexivity).
    assert (Eq : E = map dp_elev parts).
    { rewrite <- bands_are_levels. unfold elev_bands in *. rewrite Lm in *. apply sort_sorted.
      - intros i k Hik. rewrite map_length in Hik. destruct Hpieces as (_ & _ & Hs). specialize (Hs i k Hik). unfold part in Hs.
        rewrite (elev_nth i), (elev_nth k) by (unfold P; lia). exact Hs.
      - rewrite map_length, Es. unfold p. rewrite map_length. reflexivity. }
    rewrite Eq, map_length. split; [exact Hj|]. apply elev_nth. exact Hj.
Qed.
Lemma parts_at_level b : (b < length E)%nat -> parts_of P (line_band p) b = at_level parts (nth b E 0).
Proof.
  intro Hb. unfold parts_of, at_level. apply filter_ext_in. intros j Hj. apply in_seq in Hj. destruct (part_level j ltac:(lia)) as (A & B). rewrite <- B.
  destruct (Nat.eqb_spec (line_band p j) b) as [->|Hn]; [symmetry; apply Reqb_true; reflexivity|]. symmetry. apply Reqb_false. intro Q. apply Hn.
  destruct HE as (H1 & _). apply (increasing_nth_inj E _ _ H1 A Hb Q).
Qed.
(** Units. *)
Lemma insert_unit_in e l x : In x (insert_unit e l) <-> x = e \/ In x l.
Proof.
  induction l as [|y l IH]; [cbn; intuition auto|]. cbn [insert_unit]. destruct (e <? y)%nat; [cbn; intuition auto|].
  destruct (Nat.eqb_spec e y) as [->|]; [cbn; intuition auto|]. cbn. rewrite IH. intuition auto.
Qed.
Lemma insert_unit_nodup : forall e l, (forall i j, (i < j < length l)%nat -> (nth i l 0 < nth j l 0)%nat) ->
  forall i j, (i < j < length (insert_unit e l))%nat -> (nth i (insert_unit e l) 0 < nth j (insert_unit e l) 0)%nat.
Proof.
  intros e l. induction l as [|y l IH]; intros H i j Hij; cbn [insert_unit] in *; [cbn in Hij; lia|].
  assert (Hy : forall x, In x l -> (y < x)%nat). { intros x Hx. apply (In_nth _ _ 0%nat) in Hx. destruct Hx as (k & Hk & <-). apply (H 0%nat (S k)). cbn. lia. }
  destruct (Nat.ltb_spec e y) as [L|L].
  - cbn [length] in Hij. destruct j as [|j]; [lia|]. destruct i as [|i]; [|apply (H i j); cbn; lia]. cbn [nth]. destruct j as [|j]; [exact L|].
    assert (In (nth j l 0%nat) l) by (apply nth_In; lia). specialize (Hy _ H0). cbn. lia.
  - destruct (Nat.eqb_spec e y) as [->|Hne]; [apply H; exact Hij|]. cbn [length] in Hij. destruct j as [|j]; [lia|]. destruct i as [|i]; cbn [nth].
    + assert (Hin : In (nth j (insert_unit e l) 0%nat) (insert_unit e l)) by (apply nth_In; lia). apply insert_unit_in in Hin. destruct Hin as [->|Hin]; [lia|apply Hy; exact Hin].
    + apply IH; [|lia]. intros a b Hab. apply (H (S a) (S b)). cbn. lia.
Qed.
Lemma line_units_sorted q : forall i j, (i < j < length (line_units q))%nat -> (nth i (line_units q) 0 < nth j (line_units q) 0)%nat.
Proof. unfold line_units. induction q as [|l q IH]; [cbn; intros; lia|]. cbn [map fold_right]. apply insert_unit_nodup. exact IH. Qed.
Lemma line_units_in q x : In x (line_units q) <-> exists l, In l q /\ dl_unit l = x.
Proof.
  unfold line_units. induction q as [|l q IH]; [cbn; split; [intros []|intros (l & [] & _)]|]. cbn [map fold_right]. rewrite insert_unit_in, IH. split.
  - intros [->|(k & Hk & Q)]; [exists l; cbn; auto|exists k; cbn; auto].
  - intros (k & [<-|Hk] & Q); [left; auto|right; exists k; auto].
Qed.
Lemma line_units_nodup q : NoDup (line_units q).
Proof.
  apply (NoDup_nth _ 0%nat). intros i j Hi Hj Q. pose proof (line_units_sorted q) as H. destruct (Nat.lt_trichotomy i j) as [L|[L|L]]; [specialize (H i j ltac:(lia)); lia|exact L|specialize (H j i ltac:(lia)); lia].
Qed.
Lemma units_of_parts x : In x (line_units p) <-> exists q, In q parts /\ dp_unit q = x.
Proof.
  rewrite line_units_in. unfold p. split.
  - intros (l & Hl & <-). apply in_map_iff in Hl. destruct Hl as (q & <- & Hq). exists q. auto.
  - intros (q & Hq & <-). exists (part_line g q). split; [apply in_map; exact Hq|reflexivity].
Qed.
Lemma lines_of_unit id : unit_lines p id = of_unit parts id.
Proof.
  unfold unit_lines, of_unit. unfold p at 2. rewrite map_length. apply filter_ext_in. intros j Hj. apply in_seq in Hj. rewrite p_nth by (unfold P; lia). reflexivity.
Qed.
Lemma sum_over_units f : Rsum (fun id => Rsum f (of_unit parts id)) (line_units p) = Rsum f (seq 0 P).
Proof.
  unfold of_unit. apply (sum_by_key f (fun j => dp_unit (part parts j))); [apply (line_units_nodup)|]. intros j Hj. apply in_seq in Hj. apply units_of_parts. exists (part parts j). split; [apply nth_In; unfold P in Hj; lia|reflexivity].
Qed.
End Parts.

Lemma RmaxRmult_r0 k x : 0 <= k -> Rmax 0 (x * k) = Rmax 0 x * k.
Proof.
  intro Hk. destruct (Rle_dec 0 x) as [H|H].
  - rewrite !Rmax_right; [reflexivity|exact H|apply Rmult_le_pos; assumption].
  - rewrite (Rmax_left 0 x) by lra. rewrite Rmax_left; [ring|]. assert (0 <= - x * k) by (apply Rmult_le_pos; lra). lra.
Qed.
(** *** Choice *)
Lemma finite_choice (Q : nat -> R -> Prop) k : (forall j, (j < k)%nat -> exists a, Q j a) -> exists f, forall j, (j < k)%nat -> Q j (f j).
Proof.
  induction k as [|k IH]; intro H; [exists (fun _ => 0); intros; lia|]. destruct IH as (f & Hf); [intros; apply H; lia|]. destruct (H k ltac:(lia)) as (a & Ha).
  exists (upd f k a). intros j Hj. destruct (Nat.eq_dec j k) as [->|Hne]; [rewrite upd_same; exact Ha|rewrite upd_other by exact Hne; apply Hf; lia].
Qed.
Lemma finite_choice2 (Q : nat -> nat -> R -> Prop) k : forall P, (forall r j, (r < P)%nat -> (j < k)%nat -> exists a, Q r j a) -> exists f, forall r j, (r < P)%nat -> (j < k)%nat -> Q r j (f r j).
Proof.
  induction P as [|P IH]; intro H; [exists (fun _ _ => 0); intros; lia|]. destruct IH as (f & Hf); [intros; apply H; lia|].
  destruct (finite_choice (Q P) k) as (a & Ha); [intros; apply H; lia|].
  exists (upd f P a). intros r j Hr Hj. destruct (Nat.eq_dec r P) as [->|Hne]; [rewrite upd_same; apply Ha; exact Hj|rewrite upd_other by exact Hne; apply Hf; lia].
Qed.

Section Table.
Variables (g : grid) (n : nat) (name : string) (shape : nat -> R) (parts : list dh_part) (E : list R).
Hypothesis Hg : raster g.
Hypothesis Hn : (0 < n)%nat.
Hypothesis Hpieces : pieces parts.
Hypothesis HE : levels parts E.
Let p := map (part_line g) parts.
Let P := length parts.
Let thick := fun j => dp_thick (part parts j).
Let K := iceDensity.
Let cat := g_catchment g.
Let u := g_px g / g_catchment g.
Let rows := dr_rows g P (band_count p) n (line_band p) (dr_total P (dr_start g P (band_count p) (line_band p) thick)) shape (dr_start g P (band_count p) (line_band p) thick) (n - 1).
Let px0 := fun j => map (fun h => h * K) (thick j).

Lemma dk_pos : 0 < K.
Proof. unfold K, iceDensity. lra. Qed.
Lemma thick_ok j : (j < P)%nat -> thick j <> [] /\ forall h, In h (thick j) -> 0 < h.
Proof. intro Hj. destruct Hpieces as (_ & H & _). apply H. apply nth_In. exact Hj. Qed.
Lemma band_fits j : (j < P)%nat -> (line_band p j < band_count p)%nat.
Proof. intro Hj. unfold p. rewrite (count_is_levels g parts E HE). apply (part_level g parts Hpieces E HE j Hj). Qed.
Lemma table_is : dh_pixel_table g n name shape parts = bind rows (fun l =>
  let q := (l ++ [zero_row])%list in Ok (lines_table g n name p (fun r j => dr_area (nth r q zero_row) j) (fun r j => dr_we (nth r q zero_row) j))).
Proof.
  unfold dh_pixel_table, dr_all. destruct (Nat.eqb_spec n 0); [lia|]. fold p P. change (fun j : nat => dp_thick (nth j parts {| dp_elev := 0; dp_unit := 0; dp_thick := [] |})) with thick. fold rows.
  destruct rows; reflexivity.
Qed.

(** Values of one row. *)
Lemma part_values s j lw : (j < P)%nat -> row_ok g P (band_count p) (line_band p) s -> dr_px s j = map (fun h => h * K) (above lw (thick j)) ->
  dr_area s j * cat = extent_left (g_px g) (thick j) lw /\ dr_we s j * (dr_area s j * cat) / K = ice_left (g_px g) (thick j) lw /\
  mass u (dr_px s j) * cat / K = ice_left (g_px g) (thick j) lw.
Proof.
  intros Hj (H1 & _) Hp. destruct (H1 j Hj) as (Po & Ha & _). pose proof dk_pos as Kp. destruct Hg as (Gp & Gc). fold cat in Gc.
  assert (Uc : u * cat = g_px g) by (unfold u; fold cat; field; lra).
  assert (M : mass u (dr_px s j) * cat / K = ice_left (g_px g) (thick j) lw).
  { unfold mass. rewrite Hp, rsum_scaled, above_rsum. unfold ice_left. rewrite <- Uc. field. lra. }
  split; [|split; [|exact M]].
  - rewrite Ha. fold u. rewrite Hp, map_length, above_length. unfold extent_left. rewrite <- Uc. ring.
  - rewrite <- M. destruct Po as [(Z & ->)|(Nn & _ & -> & _)].
    + rewrite Z. unfold mass. cbn. unfold Rdiv. ring.
    + rewrite Ha. fold u. unfold mass. rewrite <- (mean_rsum _ Nn). unfold Rdiv. ring.
Qed.

Section Rows.
Variable l : list dh_row.
Hypothesis Hl : rows = Ok l.
Let row r := nth r l zero_row.
Lemma rows_facts : length l = n /\ row 0 = dr_start g P (band_count p) (line_band p) thick /\
  (forall r, (r < n)%nat -> row_ok g P (band_count p) (line_band p) (row r) /\ 0 <= dr_excess (row r)) /\
  (forall r, (S r < n)%nat -> step_rel g P (band_count p) n (line_band p) shape (row_mass g P (row 0)) (row r) (row (S r))).
Proof.
  destruct Hg as (Gp & Gc). pose proof (start_ok g Gp Gc P (band_count p) (line_band p) shape thick thick_ok) as (S1 & S2 & S3 & _).
  destruct (rows_ok g Gp Gc P (band_count p) n (line_band p) shape band_fits (dr_total P (dr_start g P (band_count p) (line_band p) thick)) (n - 1) _ S1 ltac:(lra)) as (_ & R).
  fold rows in R. destruct (R l Hl) as (R1 & R2 & R3 & R4). unfold row.
  split; [lia|]. split; [apply R2|]. split; [intros r Hr; apply R3; lia|]. intros r Hr. rewrite R2. rewrite <- S3. apply R4. lia.
Qed.
Lemma lowering_exists : exists low : nat -> nat -> R, (forall j, low 0%nat j = 0) /\
  (forall r j, (S r < n)%nat -> (j < P)%nat -> low r j <= low (S r) j) /\
  forall r j, (r < n)%nat -> (j < P)%nat -> dr_px (row r) j = map (fun h => h * K) (above (low r j) (thick j)).
Proof.
  destruct rows_facts as (L & R0 & R1 & R2). pose proof dk_pos as Kp. destruct Hg as (Gp & Gc). pose proof (start_ok g Gp Gc P (band_count p) (line_band p) shape thick thick_ok) as (_ & _ & _ & S4).
  destruct (finite_choice2 (fun r j a => 0 <= a /\ dr_px (row (S r)) j = above a (dr_px (row r) j)) P (n - 1)) as (a & Ha).
  { intros r j Hr Hj. destruct (R2 r ltac:(lia)) as (f & _ & Q & _). exact (Q j Hj). }
  exists (fun r j => Rsum (fun i => a i j) (seq 0 r) / K). split; [intro j; cbn; unfold Rdiv; ring|].
  assert (C : forall r j, Rsum (fun i => a i j) (seq 0 (S r)) = Rsum (fun i => a i j) (seq 0 r) + a r j).
  { intros r j. rewrite seq_S, Rsum_app. cbn [Rsum Nat.add]. ring. }
  split.
  - intros r j Hr Hj. rewrite C. destruct (Ha r j ltac:(lia) Hj) as (A1 & _). unfold Rdiv. apply Rmult_le_compat_r; [apply Rlt_le, Rinv_0_lt_compat, Kp|]. lra.
  - intros r j Hr Hj.
    assert (Q : dr_px (row r) j = above (Rsum (fun i => a i j) (seq 0 r)) (px0 j)).
    { induction r as [|r IH].
      - cbn [seq Rsum]. rewrite R0, S4. symmetry. apply above_none. intros v Hv. apply in_map_iff in Hv. destruct Hv as (h & <- & Hh). apply Rmult_lt_0_compat; [apply (thick_ok j Hj); exact Hh|exact Kp].
      - destruct (Ha r j ltac:(lia) Hj) as (A1 & A2). rewrite A2, IH by lia. rewrite C. apply above_above. exact A1. }
    rewrite Q. apply above_scaled. exact Kp.
Qed.
Variable low : nat -> nat -> R.
Hypothesis Hlow : forall r j, (r < n)%nat -> (j < P)%nat -> dr_px (row r) j = map (fun h => h * K) (above (low r j) (thick j)).

Lemma band_values r b : (r < n)%nat -> (b < length E)%nat ->
  dr_area_b (row r) b * cat = extent_of_parts g parts (low r) (at_level parts (nth b E 0)) /\
  band_mass g P (line_band p) (dr_px (row r)) b * cat / K = ice_of_parts g parts (low r) (at_level parts (nth b E 0)).
Proof.
  intros Hr Hb. destruct rows_facts as (_ & _ & R1 & _). destruct (R1 r Hr) as (Ro & _). pose proof Ro as (_ & H2). destruct (H2 b) as (Ab & _); [unfold p; rewrite (count_is_levels g parts E HE); exact Hb|].
  rewrite <- (parts_at_level g parts Hpieces E HE b Hb). fold p P. split.
  - rewrite Ab, <- Rsum_scal_r. apply Rsum_ext_in. intros j Hj. apply (parts_in P (line_band p)) in Hj. apply part_values; [tauto|exact Ro|apply Hlow; tauto].
  - unfold band_mass, Rdiv. rewrite <- Rsum_scal_r, <- Rsum_scal_r. apply Rsum_ext_in. intros j Hj. apply (parts_in P (line_band p)) in Hj. apply part_values; [tauto|exact Ro|apply Hlow; tauto].
Qed.
Lemma total_value r : (r < n)%nat -> row_mass g P (row r) * cat / K = ice_of_parts g parts (low r) (seq 0 P).
Proof.
  intro Hr. destruct rows_facts as (_ & _ & R1 & _). destruct (R1 r Hr) as (Ro & _). unfold row_mass, Rdiv. rewrite <- Rsum_scal_r, <- Rsum_scal_r. apply Rsum_ext_in. intros j Hj. apply in_seq in Hj.
  apply part_values; [lia|exact Ro|apply Hlow; lia].
Qed.
Lemma law_holds : delta_h_law g n shape parts E low (fun r => dr_excess (row r) * cat / K).
Proof.
  destruct rows_facts as (_ & R0 & R1 & R2). destruct Hg as (Gp & Gc). fold cat in Gc. pose proof dk_pos as Kp. pose proof (count_is_levels g parts E HE) as Cl. fold p in Cl.
  assert (Kc : 0 < cat / K) by (apply Rmult_lt_0_compat; [exact Gc|apply Rinv_0_lt_compat; exact Kp]).
  assert (Np : 0 < INR n) by (apply lt_0_INR; exact Hn).
  unfold delta_h_law. cbn zeta. fold P. split; [rewrite R0; cbn; unfold Rdiv; ring|]. intros r Hr.
  split; [destruct (R1 (S r) Hr) as (_ & Q); unfold Rdiv; apply Rmult_le_pos; [apply Rmult_le_pos; lra|apply Rlt_le, Rinv_0_lt_compat, Kp]|].
  destruct (R2 r Hr) as (f & F1 & _ & F3 & F4). exists (f / K). split; [|split].
  - unfold demand in F1. rewrite Cl in F1. rewrite <- (total_value 0 Hn).
    transitivity (f * Rsum (fun b => dr_area_b (row r) b * shape b) (seq 0 (length E)) * cat / K); [|rewrite F1; field; lra].
    rewrite (Rsum_ext_in _ (fun b => dr_area_b (row r) b * shape b * cat)); [rewrite Rsum_scal_r; unfold Rdiv; ring|].
    intros b Hb. apply in_seq in Hb. destruct (band_values r b ltac:(lia) ltac:(lia)) as (<- & _). ring.
  - intros b Hb. destruct (band_values r b ltac:(lia) Hb) as (Q1 & Q2). destruct (band_values (S r) b Hr Hb) as (_ & Q3). rewrite <- Q1, <- Q2, <- Q3. rewrite F3 by lia.
    replace (f / K * shape b) with (f * shape b * / K) by (unfold Rdiv; ring).
    replace (Rmax 0 (f * shape b * / K)) with (Rmax 0 (f * shape b) * / K) by (symmetry; apply RmaxRmult_r0; apply Rlt_le, Rinv_0_lt_compat, Kp).
    set (x := band_mass _ _ _ _ _). set (y := Rmax 0 (f * shape b)). replace (x * cat / K - y * / K * (dr_area_b (row r) b * cat)) with ((x - y * dr_area_b (row r) b) * (cat / K)) by (unfold Rdiv; ring).
    replace (Rmax 0 (x - y * dr_area_b (row r) b) * cat / K) with (Rmax 0 (x - y * dr_area_b (row r) b) * (cat / K)) by (unfold Rdiv; ring).
    rewrite RmaxRmult_r0 by lra. reflexivity.
  - rewrite <- (total_value r) by lia. rewrite <- (total_value (S r) Hr). rewrite F4. rewrite Cl.
    rewrite (Rsum_ext_in (fun b => Rmax 0 (f / K * shape b) * _) (fun b => Rmax 0 (f * shape b) * dr_area_b (row r) b * (cat / K))).
    + rewrite Rsum_scal_r. unfold Rdiv. ring.
    + intros b Hb. apply in_seq in Hb. destruct (band_values r b ltac:(lia) ltac:(lia)) as (<- & _).
      replace (f / K * shape b) with (f * shape b * / K) by (unfold Rdiv; ring).
      replace (Rmax 0 (f * shape b * / K)) with (Rmax 0 (f * shape b) * / K) by (symmetry; apply RmaxRmult_r0; apply Rlt_le, Rinv_0_lt_compat, Kp). unfold Rdiv. ring.
Qed.
End Rows.

Lemma pixel_table_ok T : dh_pixel_table g n name shape parts = Ok T -> exists low unmet, delta_h_table g n name parts low T /\ delta_h_law g n shape parts E low unmet.
Proof.
  intro H. rewrite table_is in H. destruct rows as [l| |] eqn:Hl; try discriminate. cbn [bind] in H. injection H as <-.
  destruct (rows_facts l Hl) as (L & _ & R1 & _). destruct (lowering_exists l Hl) as (low & L0 & Lm & Lp). pose proof dk_pos as Kp.
  exists low, (fun r => dr_excess (nth r l zero_row) * cat / K). split; [|apply (law_holds l Hl low Lp)].
  unfold delta_h_table. cbn [lines_table gt_rows gt_cover gt_units gt_area gt_volume].
  split; [reflexivity|]. split; [reflexivity|]. split; [apply (line_units_nodup parts)|]. split; [intro id; apply (units_of_parts g parts)|].
  split.
  { intro i. assert (Z : nth n (l ++ [zero_row]) zero_row = zero_row) by (rewrite app_nth2 by lia; replace (n - length l)%nat with 0%nat by lia; reflexivity). rewrite Z. cbn [zero_row dr_area dr_we].
    split; apply Rsum_zero; intros; unfold Rdiv; ring. }
  split; [exact L0|]. split; [exact Lm|]. intros r i Hr Hi. unfold columns in Hi. cbn [gt_units] in Hi. unfold unit_of. cbn [gt_units].
  unfold p. rewrite (lines_of_unit g parts). rewrite app_nth1 by lia. destruct (R1 r Hr) as (Ro & _). split.
  - apply Rsum_ext_in. intros j Hj. unfold of_unit in Hj. apply filter_In in Hj. destruct Hj as (Hj & _). apply in_seq in Hj. apply (part_values (nth r l zero_row) j (low r j)); [unfold P; lia|exact Ro|apply Lp; [exact Hr|unfold P; lia]].
  - apply Rsum_ext_in. intros j Hj. unfold of_unit in Hj. apply filter_In in Hj. destruct Hj as (Hj & _). apply in_seq in Hj. apply (part_values (nth r l zero_row) j (low r j)); [unfold P; lia|exact Ro|apply Lp; [exact Hr|unfold P; lia]].
Qed.
Lemma pixel_never_throws : dh_pixel_table g n name shape parts <> Throw.
Proof.
  rewrite table_is. destruct Hg as (Gp & Gc). pose proof (start_ok g Gp Gc P (band_count p) (line_band p) shape thick thick_ok) as (S1 & S2 & S3 & _).
  destruct (rows_ok g Gp Gc P (band_count p) n (line_band p) shape band_fits (dr_total P (dr_start g P (band_count p) (line_band p) thick)) (n - 1) _ S1 ltac:(lra)) as (R & _).
  fold rows in R. destruct rows; cbn [bind]; [discriminate|congruence|discriminate].
Qed.
Lemma pixel_positive : (forall b, (b < length E)%nat -> 0 < shape b) -> exists T, dh_pixel_table g n name shape parts = Ok T.
Proof.
  intro Hs. rewrite table_is. destruct Hg as (Gp & Gc). pose proof (start_ok g Gp Gc P (band_count p) (line_band p) shape thick thick_ok) as (S1 & S2 & S3 & S4).
  set (s0 := dr_start g P (band_count p) (line_band p) thick) in *.
  assert (Mp : 0 < dr_total P s0).
  { rewrite S3. unfold row_mass. destruct Hpieces as (Pn & _). pose proof dk_pos as Kp. assert (U : 0 < u) by (apply (dh_u_pos g Gp Gc)).
    assert (Q : forall j, (j < P)%nat -> 0 < mass u (dr_px s0 j)).
    { intros j Hj. unfold mass. apply Rmult_lt_0_compat; [exact U|]. rewrite S4. fold K. rewrite rsum_scaled. apply Rmult_lt_0_compat; [|exact Kp].
      destruct (thick_ok j Hj) as (T1 & T2). destruct (thick j) as [|h t]; [congruence|]. unfold rsum. cbn [Rsum].
      assert (0 <= Rsum (fun v => v) t) by (apply Rsum_nonneg; intros x Hx; apply Rlt_le, T2; right; exact Hx). specialize (T2 h (or_introl eq_refl)). lra. }
    assert (P0 : (0 < P)%nat) by (unfold P; destruct parts; [congruence|cbn; lia]).
    apply Rlt_le_trans with (mass u (dr_px s0 0%nat)); [apply Q; exact P0|]. apply (Rsum_elem_le (fun j => mass u (dr_px s0 j))); [|apply in_seq; lia]. intros j Hj. apply in_seq in Hj. apply Rlt_le, Q. lia. }
  destruct (rows_exist g Gp Gc P (band_count p) n (line_band p) shape band_fits (dr_total P s0) Hn Mp) with (k := (n - 1)%nat) (s := s0) (i := 0%nat) as (l & Hl).
  { intros b Hb. apply Hs. unfold p in Hb. rewrite (count_is_levels g parts E HE) in Hb. exact Hb. }
  { exact S1. } { lra. } { rewrite S2, S3. cbn [INR]. unfold Rdiv. ring. } { lia. }
  fold rows in Hl. rewrite Hl. cbn [bind]. eauto.
Qed.
End Table.

(** *** Consequences of the law *)
Lemma ice_left_nonneg px th d : 0 <= px -> 0 <= ice_left px th d.
Proof. intro H. unfold ice_left. apply Rmult_le_pos; [exact H|]. apply Rsum_nonneg. intros. apply Rmax_l. Qed.
Lemma extent_left_nonneg px th d : 0 <= px -> 0 <= extent_left px th d.
Proof. intro H. unfold extent_left. apply Rmult_le_pos; [exact H|apply pos_INR]. Qed.
Lemma ice_left_le px th d e : 0 <= px -> d <= e -> ice_left px th e <= ice_left px th d.
Proof. intros H L. unfold ice_left. apply Rmult_le_compat_l; [exact H|]. apply Rsum_le. intros h _. apply Rle_max_compat_l. lra. Qed.
Lemma extent_left_le px th d e : 0 <= px -> d <= e -> extent_left px th e <= extent_left px th d.
Proof.
  intros H L. unfold extent_left. apply Rmult_le_compat_l; [exact H|]. apply le_INR. induction th as [|h t IH]; [cbn; lia|]. cbn [filter].
  destruct (Rltb e h) eqn:X; [apply Rltb_true in X; rewrite (proj2 (Rltb_true d h)) by lra; cbn [length]; lia|]. destruct (Rltb d h); cbn [length]; lia.
Qed.
Lemma level_total parts E f : levels parts E -> Rsum (fun b => Rsum f (at_level parts (nth b E 0))) (seq 0 (length E)) = Rsum f (seq 0 (length parts)).
Proof.
  intros (H1 & H2). set (key := fun j => index_of (dp_elev (part parts j)) E).
  assert (Q : forall j, (j < length parts)%nat -> (key j < length E)%nat /\ nth (key j) E 0 = dp_elev (part parts j)).
  { intros j Hj. apply index_of_nth. apply H2. exists (part parts j). split; [apply nth_In; exact Hj|reflexivity]. }
  rewrite <- (sum_by_key f key (seq 0 (length parts)) (seq 0 (length E)) (seq_NoDup _ _)) by (intros j Hj; apply in_seq in Hj; apply in_seq; destruct (Q j ltac:(lia)); lia).
  apply Rsum_ext_in. intros b Hb. apply in_seq in Hb. f_equal. unfold at_level. apply filter_ext_in. intros j Hj. apply in_seq in Hj. destruct (Q j ltac:(lia)) as (A & B). rewrite <- B.
  destruct (Nat.eqb_spec (key j) b) as [->|Hn]; [apply Reqb_true; reflexivity|]. apply Reqb_false. intro Z. apply Hn. apply (increasing_nth_inj E _ _ H1); [exact A|lia|exact Z].
Qed.
Lemma law_totals g n shape parts E low unmet : raster g -> (0 < n)%nat -> levels parts E -> delta_h_law g n shape parts E low unmet ->
  let V r := ice_of_parts g parts (low r) (seq 0 (length parts)) in
  forall r, (r < n)%nat -> 0 <= unmet r /\ V r - unmet r <= (1 - INR r / INR n) * V 0%nat /\
    ((forall b, (b < length E)%nat -> 0 <= shape b) -> V r - unmet r = (1 - INR r / INR n) * V 0%nat).
Proof.
  intros (Gp & Gc) Hn HE (U0 & Law) V. assert (Np : 0 < INR n) by (apply lt_0_INR; exact Hn).
  assert (V0 : 0 <= V 0%nat) by (apply Rsum_nonneg; intros; apply ice_left_nonneg; lra).
  induction r as [|r IH]; intro Hr.
  - rewrite U0. cbn [INR]. split; [lra|]. replace ((1 - 0 / INR n) * V 0%nat) with (V 0%nat) by (unfold Rdiv; ring). split; [lra|intros; lra].
  - destruct (IH ltac:(lia)) as (I0 & I1 & I2). destruct (Law r Hr) as (Up & melt & L1 & L2 & L3). fold (V 0%nat) in L1. fold (V r) (V (S r)) in L3.
    set (ext := fun b => extent_of_parts g parts (low r) (at_level parts (nth b E 0))) in *.
    assert (Xp : forall b, 0 <= ext b) by (intro b; apply Rsum_nonneg; intros; apply extent_left_nonneg; lra).
    assert (Es : (1 - INR (S r) / INR n) * V 0%nat = (1 - INR r / INR n) * V 0%nat - V 0%nat / INR n) by (rewrite S_INR; field; lra).
    assert (Ge : melt * Rsum (fun b => ext b * shape b) (seq 0 (length E)) <= Rsum (fun b => Rmax 0 (melt * shape b) * ext b) (seq 0 (length E))).
    { rewrite <- Rsum_scal. apply Rsum_le. intros b _. replace (melt * (ext b * shape b)) with (melt * shape b * ext b) by ring. apply Rmult_le_compat_r; [apply Xp|apply Rmax_r]. }
    split; [exact Up|]. split; [rewrite Es; change (fun b => extent_of_parts g parts (low r) (at_level parts (nth b E 0)) * shape b) with (fun b => ext b * shape b) in L1; change (fun b => Rmax 0 (melt * shape b) * extent_of_parts g parts (low r) (at_level parts (nth b E 0))) with (fun b => Rmax 0 (melt * shape b) * ext b) in L3; lra|].
    intro Hs. specialize (I2 Hs). rewrite Es.
    assert (Eq : melt * Rsum (fun b => ext b * shape b) (seq 0 (length E)) = Rsum (fun b => Rmax 0 (melt * shape b) * ext b) (seq 0 (length E))).
    { set (D := Rsum (fun b => ext b * shape b) (seq 0 (length E))) in *.
      assert (T : forall b, In b (seq 0 (length E)) -> 0 <= ext b * shape b) by (intros b Hb; apply in_seq in Hb; apply Rmult_le_pos; [apply Xp|apply Hs; lia]).
      assert (Dp : 0 <= D) by (apply Rsum_nonneg; exact T).
      assert (Mn : 0 <= V 0%nat / INR n) by (apply Rmult_le_pos; [lra|apply Rlt_le, Rinv_0_lt_compat; lra]).
      assert (Fp : 0 <= melt \/ D = 0).
      { destruct (Req_EM_T D 0) as [Z|Z]; [auto|left]. destruct (Rle_dec 0 melt) as [|Hneg]; [assumption|exfalso]. assert (0 < - melt * D) by (apply Rmult_lt_0_compat; lra).
        change (Rsum (fun b => extent_of_parts g parts (low r) (at_level parts (nth b E 0)) * shape b) (seq 0 (length E))) with D in L1. lra. }
      unfold D. rewrite <- Rsum_scal. apply Rsum_ext_in. intros b Hin. pose proof Hin as Hin'. apply in_seq in Hin'.
      destruct Fp as [Fp|Z].
      - rewrite Rmax_right by (apply Rmult_le_pos; [exact Fp|apply Hs; lia]). ring.
      - assert (Zb : ext b * shape b = 0). { pose proof (Rsum_elem_le (fun b => ext b * shape b) (seq 0 (length E)) b T Hin) as Q. fold D in Q. specialize (T b Hin). lra. }
        rewrite Zb. apply Rmult_integral in Zb. destruct Zb as [->|Z2]; [ring|]. rewrite Z2, Rmult_0_r, Rmax_left by lra. ring. }
    change (fun b => extent_of_parts g parts (low r) (at_level parts (nth b E 0)) * shape b) with (fun b => ext b * shape b) in L1. change (fun b => Rmax 0 (melt * shape b) * extent_of_parts g parts (low r) (at_level parts (nth b E 0))) with (fun b => Rmax 0 (melt * shape b) * ext b) in L3. lra.
Qed.
Lemma table_total g n name parts low T r : raster g -> pieces parts -> delta_h_table g n name parts low T -> (r < n)%nat ->
  row_volume T r = ice_of_parts g parts (low r) (seq 0 (length parts)).
Proof.
  intros Hg Hp (_ & _ & Nd & Hu & _ & _ & _ & Hv) Hr. unfold row_volume.
  rewrite (Rsum_ext_in _ (fun i => ice_of_parts g parts (low r) (of_unit parts (unit_of T i)))) by (intros i Hi; apply (Hv r i Hr Hi)).
  rewrite <- (Rsum_map (unit_of T) (fun id => ice_of_parts g parts (low r) (of_unit parts id))). rewrite columns_units.
  unfold ice_of_parts, of_unit. apply (sum_by_key (fun j => ice_left (g_px g) (dp_thick (part parts j)) (low r j)) (fun j => dp_unit (part parts j))); [exact Nd|].
  intros j Hj. apply in_seq in Hj. apply Hu. exists (part parts j). split; [apply nth_In; lia|reflexivity].
Qed.
