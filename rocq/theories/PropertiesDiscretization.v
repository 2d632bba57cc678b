(** C86: the hydro units of a discretization. *)
From Coq Require Import Sorted.
From Verif Require Import BaseFacts WitnessTools DiscretizationSpec DiscretizationFacts DiscretizationUnits DiscretizationCalls.
Open Scope R_scope.

(** *** Which calls are accepted *)
(** A call raises exactly when its arguments are at fault: the check that two units do not share a cell never fails. *)
Theorem c86_accepted a g : covered_by (a_polygons a) g -> ((exists m units, discretize_by a g = Ok (m, units)) <-> acceptable a g).
Proof.
  intro Cv. rewrite <- (accepted_lists a g Cv). split.
  - intros (m & u & H). apply (call_lists a g m u H).
  - intros (L & H). rewrite (call_result a g L H). eauto.
Qed.

(** *** The units of the cells *)
Lemma tag_range n l c : (tag n l c 1 0 <= length l)%nat.
Proof.
  unfold tag. destruct (find_unit n l c 1) as [j|] eqn:E; [|lia]. apply find_unit_inv in E. destruct E as (k & u & -> & A & _).
  assert (k < length l)%nat by (apply nth_error_Some; congruence). lia.
Qed.
Lemma made_polygons a g L : covered_by (a_polygons a) g -> class_lists a g L -> forall u c, In u (made (npoly a) g (product L)) -> In c g -> (in_unit (npoly a) u c = true <-> part_of c u).
Proof.
  intros Cv H u c Hu Hc. apply in_unit_iff. intros k Hk. apply filter_In in Hu. destruct (product_in L u (proj1 Hu) k Hk) as (x & Hx & Kx). apply (lists_polygons a g L Cv H x k c Hx Kx Hc).
Qed.
(** Every cell of the map carries the number of the unit whose classes it belongs to, and 0 if there is none; every unit has a cell. *)
Theorem c86_assigned a g m units : covered_by (a_polygons a) g -> discretize_by a g = Ok (m, units) -> (Z.of_nat (length units) < 65536)%Z ->
  length m = length g /\ (forall u, In u units -> exists c, In c g /\ part_of c u) /\
  forall j c id, nth_error g j = Some c -> nth_error m j = Some id ->
    (id = 0%Z <-> forall u, In u units -> ~ part_of c u) /\ forall i u, nth_error units i = Some u -> (id = (Z.of_nat i + 1)%Z <-> part_of c u).
Proof.
  intros Cv E Small. destruct (call_lists a g m units E) as (L & H). rewrite (call_result a g L H) in E. injection E as <- <-. pose proof (made_polygons a g L Cv H) as Mp.
  set (units := made (npoly a) g (product L)) in *. set (n := npoly a) in *.
  assert (Ap : ForallOrdPairs (apart n all_test) units) by (apply fop_filter; apply product_apart; apply (lists_apart a g L H)).
  split; [apply map_length|]. split.
  - intros u Hu. assert (K := Hu). apply filter_In in K. destruct K as (_ & K). apply existsb_exists in K. destruct K as (c & Hc & K). exists c. split; [exact Hc|]. apply (Mp u c Hu Hc). exact K.
  - intros j c id Hc Hid. rewrite nth_error_map, Hc in Hid. injection Hid as <-. pose proof (nth_error_In _ _ Hc) as Ic. pose proof (tag_range n units c) as Tr. rewrite Z.mod_small by lia.
    assert (F : forall i u, nth_error units i = Some u -> part_of c u -> tag n units c 1 0 = S i).
    { intros i u Hu P. apply (Mp u c (nth_error_In _ _ Hu) Ic) in P. unfold tag. rewrite (find_unit_some n units c Ap 1 i u Hu P). reflexivity. }
    assert (G : forall i, tag n units c 1 0 = S i -> exists u, nth_error units i = Some u /\ part_of c u).
    { intros i T. unfold tag in T. destruct (find_unit n units c 1) as [k|] eqn:Ef; [|discriminate]. apply find_unit_inv in Ef. destruct Ef as (k' & u & -> & A & B). exists u. replace i with k' by lia. split; [exact A|]. apply (Mp u c (nth_error_In _ _ A) Ic). exact B. }
    split.
    + split.
      * intros Z u Hu P. apply In_nth_error in Hu. destruct Hu as (i & Hi). rewrite (F i u Hi P) in Z. lia.
      * intro N. destruct (tag n units c 1 0) as [|i] eqn:T; [reflexivity|]. destruct (G i eq_refl) as (u & A & B). elim (N u (nth_error_In _ _ A) B).
    + intros i u Hu. split.
      * intro T. assert (T' : tag n units c 1 0 = S i) by lia. destruct (G i T') as (v & A & B). rewrite A in Hu. injection Hu as <-. exact B.
      * intro P. rewrite (F i u Hu P). lia.
Qed.

(** *** Bands of equal height *)
Lemma list_cases a g L x : class_lists a g L -> In x L ->
  (In "elevation"%string (a_criteria a) /\ exists e, edges (a_elevation a) (map z_elev g) = Ok e /\ x = map (fun q => ElevationBand (fst q) (snd q)) (pairs e)) \/
  (In "slope"%string (a_criteria a) /\ exists e, edges (a_slope a) (map z_slope g) = Ok e /\ x = map (fun q => SlopeBand (fst q) (snd q)) (pairs e)) \/
  (In "aspect"%string (a_criteria a) /\ x = map AspectClass [North; East; South; West]) \/
  (In "radiation"%string (a_criteria a) /\ exists e, edges (a_radiation a) (map z_rad g) = Ok e /\ x = map (fun q => RadiationBand (fst q) (snd q)) (pairs e)) \/
  (In "sub_catchments"%string (a_criteria a) /\ exists n, a_polygons a = Some n /\ x = map SubCatchment (seq 1 n)).
Proof.
  intros (e & s & r & b & -> & H1 & H2 & H3 & H4) Hx. rewrite <- !mentions_iff.
  repeat (apply in_app_or in Hx; destruct Hx as [Hx|Hx]).
  - destruct (mentions a "elevation"); [|destruct Hx]. destruct Hx as [<-|[]]. left. split; [reflexivity|]. exists e. auto.
  - destruct (mentions a "slope"); [|destruct Hx]. destruct Hx as [<-|[]]. right; left. split; [reflexivity|]. exists s. auto.
  - destruct (mentions a "aspect"); [|destruct Hx]. destruct Hx as [<-|[]]. right; right; left. auto.
  - destruct (mentions a "radiation"); [|destruct Hx]. destruct Hx as [<-|[]]. right; right; right; left. split; [reflexivity|]. exists r. auto.
  - destruct (mentions a "sub_catchments"); [|destruct Hx]. destruct Hx as [<-|[]]. right; right; right; right. split; [reflexivity|]. exists b. destruct (H4 eq_refl). auto.
Qed.
Lemma band_class n (mk : R -> R -> class) f c m data : (forall c lo hi, in_class n c (mk lo hi) = within (f c) lo hi) -> regular m -> (exists x, f c = Some x) -> In (f c) data ->
  forall e, edges m data = Ok e -> exists k, In k (map (fun q => mk (fst q) (snd q)) (pairs e)) /\ in_class n c k = true.
Proof.
  intros M (d & -> & Hd) (x & Hx) Hin e E. rewrite Hx in Hin. destruct (regular_edges d data Hd) as (e' & A & _ & B & _); [apply known_nil; eauto|]. rewrite E in A. injection A as <-.
  destruct (B x Hin) as (i & Hi & Bx). exists (mk (nth i e 0) (nth (S i) e 0)). split.
  - apply in_map_iff. exists (nth i e 0, nth (S i) e 0). split; [reflexivity|]. apply in_pairs. exists i. auto.
  - rewrite M. apply within_iff. exists x. auto.
Qed.
Lemma regular_possible m data : regular m -> (exists x, In (Some x) data) -> possible m data.
Proof. intros (d & -> & Hd) H. cbn. split; [lra|auto]. Qed.
Lemma product_nth_list L u x : In u (product L) -> In x L -> exists k, In k x /\ In k u.
Proof.
  revert u. induction L as [|y L IH]; intros u Hu Hx; [destruct Hx|]. cbn [product] in Hu. apply in_flat_map in Hu. destruct Hu as (k & Hk & Hu). apply in_map_iff in Hu. destruct Hu as (v & <- & Hv).
  destruct Hx as [<-|Hx]; [exists k; split; [exact Hk|left; reflexivity]|]. destruct (IH v Hv Hx) as (k' & A & B). exists k'. split; [exact A|right; exact B].
Qed.
(** With regular bands and the quantities known, every cell of the catchment is in a unit; the bands have the height asked for and start at multiples
    of it. *)
Theorem c86_whole a g : covered_by (a_polygons a) g -> regular_bands a -> known_where a g -> (exists c, In c g /\ in_catchment c) ->
  exists m units, discretize_by a g = Ok (m, units) /\ (forall c, In c g -> in_catchment c -> exists u, In u units /\ part_of c u) /\
  forall u d, In u units -> In "elevation"%string (a_criteria a) -> a_elevation a = EqualIntervals d None None -> exists z, In (ElevationBand (d * IZR z) (d * IZR z + d)) u.
Proof.
  intros Cv (R1 & R2 & R3) (K1 & K2 & K3 & K4) (c0 & Hc0 & I0).
  assert (Acc : acceptable a g).
  { split; [|split; [|split]].
    - intro M. apply regular_possible; [auto|]. destruct I0 as (x & Hx). exists x. rewrite <- Hx. apply in_map. exact Hc0.
    - intro M. apply regular_possible; [auto|]. destruct (K1 c0 Hc0 I0 M) as (x & Hx). exists x. rewrite <- Hx. apply in_map. exact Hc0.
    - intro M. apply regular_possible; [auto|]. destruct (K3 c0 Hc0 I0 M) as (x & Hx). exists x. rewrite <- Hx. apply in_map. exact Hc0.
    - intro M. destruct (K4 M) as (n & A & B). exists n. split; [exact A|]. split; [|exact B]. destruct (B c0 Hc0 I0) as (j & J & _). lia. }
  apply (accepted_lists a g Cv) in Acc. destruct Acc as (L & H). rewrite (call_result a g L H). eexists. eexists. split; [reflexivity|].
  pose proof (made_polygons a g L Cv H) as Mp. set (n := npoly a) in *. split.
  - intros c Hc Ic. destruct (product_exists n c L) as (u & Hu & Tu).
    { intros x Hx. destruct (list_cases a g L x H Hx) as [(M & e & E & ->)|[(M & e & E & ->)|[(M & ->)|[(M & e & E & ->)|(M & b & E & ->)]]]].
      - apply (band_class n ElevationBand z_elev c (a_elevation a) (map z_elev g)); [reflexivity|auto|exact Ic|apply in_map; exact Hc|exact E].
      - apply (band_class n SlopeBand z_slope c (a_slope a) (map z_slope g)); [reflexivity|auto|eapply K1; eassumption|apply in_map; exact Hc|exact E].
      - destruct (K2 c Hc Ic M) as (v & Hv & Rv).
        assert (D : exists d, faces v d).
        { destruct (Rlt_dec v 45); [exists North; cbn; lra|]. destruct (Rlt_dec v 135); [exists East; cbn; lra|]. destruct (Rlt_dec v 225); [exists South; cbn; lra|]. destruct (Rlt_dec v 315); [exists West; cbn; lra|]. exists North. cbn. lra. }
        destruct D as (d & D). exists (AspectClass d). split; [destruct d; cbn; tauto|]. apply in_class_iff; [exact I|]. exists v. auto.
      - apply (band_class n RadiationBand z_rad c (a_radiation a) (map z_rad g)); [reflexivity|auto|eapply K3; eassumption|apply in_map; exact Hc|exact E].
      - destruct (K4 M) as (b' & E' & B). rewrite E in E'. injection E' as <-. destruct (B c Hc Ic) as (j & J1 & J2). rewrite E in Cv. pose proof (Cv c Hc) as Lc. destruct (sub_id c b) as [|s] eqn:Es.
        + elim (proj1 (sub_id_zero c b Lc) Es j J1 J2).
        + exists (SubCatchment (S s)). assert (Nb : n = b) by (unfold n, npoly, criteria_of; cbn [by_sub]; apply mentions_iff in M; rewrite M, E; reflexivity). split.
          * apply in_map. apply in_seq. assert (Q := Es). apply (sub_id_spec c b (S s) Lc) in Q; [|lia]. destruct Q as (i & Q1 & Q2 & _). assert (i < length (z_cover c))%nat by (apply nth_error_Some; congruence). lia.
          * rewrite Nb. cbn [in_class]. rewrite Es. apply Nat.eqb_refl. }
    assert (Iu : in_unit n u c = true) by (unfold in_unit; apply inside_iff in Ic; rewrite Ic; exact Tu). assert (Mu : In u (made n g (product L))) by (apply filter_In; split; [exact Hu|]; apply existsb_exists; exists c; auto).
    exists u. split; [exact Mu|]. apply (Mp u c Mu Hc). exact Iu.
  - intros u d Hu M E. apply filter_In in Hu. destruct Hu as (Hu & _). destruct H as (e & s & r & b & EL & H1 & _). apply mentions_iff in M. specialize (H1 M). rewrite M in EL.
    destruct (product_nth_list L u (map (fun q => ElevationBand (fst q) (snd q)) (pairs e)) Hu) as (k & A & B); [rewrite EL; left; reflexivity|].
    apply in_map_iff in A. destruct A as (q & <- & A). apply in_pairs in A. destruct A as (i & Hi & ->). cbn [fst snd] in B. rewrite E in H1.
    destruct (R1 (proj1 (mentions_iff _ _) M)) as (d' & Ed & Hd). rewrite E in Ed. injection Ed as <-. destruct (regular_edges d (map z_elev g) Hd) as (e' & X & _ & _ & Y).
    { apply known_nil. destruct I0 as (x & Hx). exists x. rewrite <- Hx. apply in_map. exact Hc0. }
    rewrite H1 in X. injection X as <-. destruct (Y i Hi) as (Y1 & z & Y2). exists z. rewrite Y1, Y2 in B. exact B.
Qed.

(** *** Ids and areas *)
Lemma insert_id_in x l y : In y (insert_id x l) <-> y = x \/ In y l.
Proof.
  induction l as [|z l IH]; cbn [insert_id]; [cbn; intuition|]. destruct (Z.ltb_spec x z); [cbn; intuition|]. destruct (Z.eqb_spec x z) as [->|]; [cbn; intuition|]. cbn. rewrite IH. intuition.
Qed.
Lemma insert_id_sorted x l : StronglySorted Z.lt l -> StronglySorted Z.lt (insert_id x l).
Proof.
  induction 1 as [|y l Hl IH Hy]; cbn [insert_id]; [repeat constructor|]. destruct (Z.ltb_spec x y).
  - constructor; [constructor; assumption|]. constructor; [assumption|]. rewrite Forall_forall in *. intros z Hz. specialize (Hy z Hz). lia.
  - destruct (Z.eqb_spec x y) as [->|]; [constructor; assumption|]. constructor; [exact IH|]. apply Forall_forall. intros z Hz. apply insert_id_in in Hz. rewrite Forall_forall in Hy. destruct Hz as [->|Hz]; [lia|auto].
Qed.
Lemma sorted_same l : forall m, StronglySorted Z.lt l -> StronglySorted Z.lt m -> (forall x, In x l <-> In x m) -> l = m.
Proof.
  induction l as [|x l IH]; intros [|y m] Sl Sm E; [reflexivity|elim (proj2 (E y)); left; reflexivity|elim (proj1 (E x)); left; reflexivity|].
  apply StronglySorted_inv in Sl, Sm. destruct Sl as (Sl & Hl), Sm as (Sm & Hm). rewrite Forall_forall in Hl, Hm.
  assert (x = y). { destruct (proj1 (E x) (or_introl eq_refl)) as [->|A]; [reflexivity|]. destruct (proj2 (E y) (or_introl eq_refl)) as [->|B]; [reflexivity|]. specialize (Hl y B). specialize (Hm x A). lia. }
  subst y. f_equal. apply IH; [exact Sl|exact Sm|]. intro z. split; intro Hz.
  - destruct (proj1 (E z) (or_intror Hz)) as [<-|]; [specialize (Hl x Hz); lia|assumption].
  - destruct (proj2 (E z) (or_intror Hz)) as [<-|]; [specialize (Hm x Hz); lia|assumption].
Qed.
Lemma filter_sorted (p : Z -> bool) l : StronglySorted Z.lt l -> StronglySorted Z.lt (filter p l).
Proof.
  induction 1 as [|x l Hl IH Hx]; cbn [filter]; [constructor|]. destruct (p x); [|exact IH]. constructor; [exact IH|]. apply Forall_forall. intros y Hy. apply filter_In in Hy. rewrite Forall_forall in Hx. apply Hx. tauto.
Qed.
Lemma unit_ids_in m i : In i (unit_ids m) <-> In i m /\ i <> 0%Z.
Proof.
  unfold unit_ids. rewrite filter_In, negb_true_iff, Z.eqb_neq. split; intros (A & B); (split; [|exact B]); revert A; generalize i; clear; intro i; induction m as [|x m IH]; cbn [fold_right]; try (intros []; fail); rewrite insert_id_in; cbn; intuition.
Qed.
Lemma unit_ids_sorted m : StronglySorted Z.lt (unit_ids m).
Proof. apply filter_sorted. induction m as [|x m IH]; cbn [fold_right]; [constructor|]. apply insert_id_sorted. exact IH. Qed.
Lemma seq_sorted n : forall k, StronglySorted Z.lt (map Z.of_nat (seq k n)).
Proof. induction n as [|n IH]; intro k; cbn [seq map]; constructor; [apply IH|]. apply Forall_forall. intros x Hx. apply in_map_iff in Hx. destruct Hx as (y & <- & Hy). apply in_seq in Hy. lia. Qed.
Lemma area_sum pixel l : StronglySorted Z.lt l -> forall m, (forall x, In x m -> x <> 0%Z -> In x l) -> ~ In 0%Z l ->
  Rsum (unit_area pixel m) l = INR (length (filter (fun i => negb (i =? 0)%Z) m)) * pixel.
Proof.
  intros Sl. induction m as [|x m IH]; intros H Z0.
  - cbn [filter length INR]. assert (E : forall k, Rsum (unit_area pixel []) k = 0) by (induction k as [|y k IHk]; cbn [Rsum]; [reflexivity|]; rewrite IHk; unfold unit_area; cbn; lra). rewrite E. lra.
  - specialize (IH (fun y Hy => H y (or_intror Hy)) Z0).
    assert (S : forall k, Rsum (unit_area pixel (x :: m)) k = Rsum (unit_area pixel m) k + INR (length (filter (fun i => i =? x)%Z k)) * pixel).
    { induction k as [|y k IHk]; cbn [Rsum filter]; [cbn; lra|]. rewrite IHk. unfold unit_area at 1 3. cbn [filter]. destruct (Z.eqb_spec y x); cbn [length]; rewrite ?S_INR; lra. }
    rewrite S, IH. cbn [filter]. destruct (Z.eqb_spec x 0) as [->|Nx]; cbn [negb].
    + replace (filter (fun i => (i =? 0)%Z) l) with (@nil Z); [cbn; lra|]. symmetry. clear - Z0. induction l as [|y l IH]; [reflexivity|]. cbn [filter]. destruct (Z.eqb_spec y 0) as [->|]; [elim Z0; left; reflexivity|]. apply IH. intro K. apply Z0. right. exact K.
    + assert (C : length (filter (fun i => (i =? x)%Z) l) = 1%nat).
      { specialize (H x (or_introl eq_refl) Nx). clear - Sl H. induction Sl as [|y l Hl IHl Hy]; [destruct H|]. cbn [filter]. rewrite Forall_forall in Hy. destruct (Z.eqb_spec y x) as [->|Ny].
        - cbn [length]. f_equal. replace (filter _ l) with (@nil Z); [reflexivity|]. symmetry. assert (Hx : forall z, In z l -> z <> x) by (intros z Hz; specialize (Hy z Hz); lia). clear - Hx. induction l as [|z l IH]; [reflexivity|]. cbn [filter].
          destruct (Z.eqb_spec z x) as [->|]; [elim (Hx x); [left; reflexivity|reflexivity]|]. apply IH. intros w Hw. apply Hx. right. exact Hw.
        - apply IHl. destruct H as [H|H]; [contradiction|exact H]. }
      rewrite C. cbn [length]. rewrite !S_INR. cbn [INR]. lra.
Qed.
(** Then the ids of the table are 1, 2, ..., one for each unit, and the area of the catchment is that of its cells. *)
Theorem c86_areas a g m units pixel : covered_by (a_polygons a) g -> regular_bands a -> known_where a g -> discretize_by a g = Ok (m, units) -> (Z.of_nat (length units) < 65536)%Z ->
  unit_ids m = map Z.of_nat (seq 1 (length units)) /\ catchment_area pixel m = INR (cells_inside g) * pixel.
Proof.
  intros Cv Rb Kw E Small. destruct (c86_assigned a g m units Cv E Small) as (Lm & Ne & As).
  assert (Em : forall id, In id m <-> exists j c, nth_error g j = Some c /\ nth_error m j = Some id).
  { intro id. split.
    - intro H. apply In_nth_error in H. destruct H as (j & Hj). assert (j < length g)%nat by (rewrite <- Lm; apply nth_error_Some; congruence). destruct (nth_error g j) as [c|] eqn:Ec; [eauto|]. apply nth_error_None in Ec. lia.
    - intros (j & c & _ & H). apply (nth_error_In _ j). exact H. }
  assert (Wh : forall j c id, nth_error g j = Some c -> nth_error m j = Some id -> (id = 0%Z <-> ~ in_catchment c)).
  { intros j c id Hc Hid. destruct (As j c id Hc Hid) as (A & _). rewrite A. split.
    - intros N Ic. destruct (c86_whole a g Cv Rb Kw) as (m' & u' & E' & W & _); [exists c; split; [apply (nth_error_In _ j); exact Hc|exact Ic]|]. rewrite E in E'. injection E' as <- <-.
      destruct (W c (nth_error_In _ _ Hc) Ic) as (u & Hu & P). exact (N u Hu P).
    - intros N u _ (P & _). exact (N P). }
  assert (Ids : unit_ids m = map Z.of_nat (seq 1 (length units))).
  { apply sorted_same; [apply unit_ids_sorted|apply seq_sorted|]. intro x. rewrite unit_ids_in. split.
    - intros (Hx & Nx). apply Em in Hx. destruct Hx as (j & c & Hc & Hid). destruct (As j c x Hc Hid) as (A & B).
      assert (Ic : in_catchment c). { destruct (z_elev c) as [v|] eqn:Ev; [exists v; exact Ev|]. exfalso. apply Nx. apply (Wh j c x Hc Hid). intros (v & Hv). congruence. }
      destruct (c86_whole a g Cv Rb Kw) as (m' & u' & E' & W & _); [exists c; split; [apply (nth_error_In _ j); exact Hc|exact Ic]|]. rewrite E in E'. injection E' as <- <-.
      destruct (W c (nth_error_In _ _ Hc) Ic) as (u & Hu & P). apply In_nth_error in Hu. destruct Hu as (i & Hi). apply (B i u Hi) in P. apply in_map_iff. exists (S i). split; [lia|]. apply in_seq. assert (i < length units)%nat by (apply nth_error_Some; congruence). lia.
    - intro H. apply in_map_iff in H. destruct H as (k & <- & Hk). apply in_seq in Hk. split; [|lia]. destruct (nth_error units (k - 1)) as [u|] eqn:Eu; [|apply nth_error_None in Eu; lia].
      destruct (Ne u (nth_error_In _ _ Eu)) as (c & Hc & P). apply In_nth_error in Hc. destruct Hc as (j & Hj). assert (j < length m)%nat by (rewrite Lm; apply nth_error_Some; congruence). destruct (nth_error m j) as [id|] eqn:Eid; [|apply nth_error_None in Eid; lia].
      destruct (As j c id Hj Eid) as (_ & B). apply (B (k - 1)%nat u Eu) in P. apply Em. exists j, c. split; [exact Hj|]. rewrite Eid. f_equal. lia. }
  split; [exact Ids|]. unfold catchment_area. rewrite area_sum.
  - f_equal. f_equal. unfold cells_inside. clear - Lm Wh. revert m Lm Wh. induction g as [|c g IH]; intros [|id m] Lm Wh; try discriminate; [reflexivity|]. cbn [filter].
    assert (Hl : length (filter (fun i => negb (i =? 0)%Z) m) = length (filter inside g)) by (apply IH; [cbn in Lm; lia|]; intros j c' id' A B; apply (Wh (S j) c' id' A B)).
    pose proof (Wh O c id eq_refl eq_refl) as W. rewrite <- inside_iff in W. destruct (Z.eqb_spec id 0) as [Z|Z]; cbn [negb]; destruct (inside c); cbn [length]; lia.
  - apply unit_ids_sorted.
  - intros x Hx Nx. apply unit_ids_in. auto.
  - intro H. apply unit_ids_in in H. lia.
Qed.
Print Assumptions c86_accepted. Print Assumptions c86_assigned. Print Assumptions c86_whole. Print Assumptions c86_areas.
