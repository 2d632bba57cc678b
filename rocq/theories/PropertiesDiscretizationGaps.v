(** C86, continued: cells that no unit holds. *)
From Verif Require Import BaseFacts WitnessTools DiscretizationSpec DiscretizationFacts DiscretizationUnits DiscretizationCalls PropertiesDiscretization.
Open Scope R_scope.

(** A case: four cells, the last one out of the catchment; bands of 100 m and the four aspects. *)
Definition cell_of (z a : R) : cell := mkCell (Some z) (Some 20) (Some a) None [].
Definition cell_out : cell := mkCell None (Some 20) (Some 10) None [].
Definition case_grid : list cell := [cell_of 1210 10; cell_of 1250 350; cell_of 1300 100; cell_out].
Definition case_args : arguments := mkArg ["aspect"; "elevation"]%string (EqualIntervals 100 None None) (EqualIntervals 15 (Some 0) (Some 90)) (Quantiles 5) None.
Example c86_case : covered_by (a_polygons case_args) case_grid /\ regular_bands case_args /\ known_where case_args case_grid /\ (exists c, In c case_grid /\ in_catchment c) /\ acceptable case_args case_grid.
Proof.
  assert (R : regular (a_elevation case_args)) by (exists 100; split; [reflexivity|lra]).
  split; [exact I|]. split; [split; [auto|split; intros [H|[H|[]]]; discriminate]|]. split; [|split].
  - split; [intros c _ _ [H|[H|[]]]; discriminate|]. split; [|split; [intros c _ _ [H|[H|[]]]; discriminate|intros [H|[H|[]]]; discriminate]].
    intros c Hc Ic _. cbn in Hc. destruct Hc as [<-|[<-|[<-|[<-|[]]]]]; cbn; eexists; (split; [reflexivity|lra]).
  - exists (cell_of 1210 10). split; [left; reflexivity|eexists; reflexivity].
  - split; [intros _; apply regular_possible; [exact R|]; exists 1210; left; reflexivity|]. split; [intros [H|[H|[]]]; discriminate|]. split; [intros [H|[H|[]]]; discriminate|intros [H|[H|[]]]; discriminate].
Qed.

(** A cell that is in no class of one of the criteria has no unit. *)
Lemma no_class a g m units x L j c : discretize_by a g = Ok (m, units) -> class_lists a g L -> In x L -> nth_error g j = Some c -> (forall k, In k x -> in_class (npoly a) c k = false) -> nth_error m j = Some 0%Z.
Proof.
  intros E H Hx Hc N. rewrite (call_result a g L H) in E. injection E as <- <-. rewrite nth_error_map, Hc. cbn [option_map]. unfold tag. rewrite find_unit_none; [reflexivity|].
  intros u Hu. apply filter_In in Hu. destruct (product_nth_list L u x (proj1 Hu) Hx) as (k & A & B). unfold in_unit. apply andb_false_intro2. apply not_true_is_false. intro F. rewrite forallb_forall in F. specialize (F k B). rewrite (N k A) in F. discriminate.
Qed.
Lemma elevation_list a g L : class_lists a g L -> In "elevation"%string (a_criteria a) -> exists e, edges (a_elevation a) (map z_elev g) = Ok e /\ In (map (fun q => ElevationBand (fst q) (snd q)) (pairs e)) L.
Proof. intros (e & s & r & b & -> & H1 & _) M. apply mentions_iff in M. rewrite M in *. exists e. split; [auto|left; reflexivity]. Qed.
Lemma aspect_list a g L : class_lists a g L -> In "aspect"%string (a_criteria a) -> In (map AspectClass [North; East; South; West]) L.
Proof. intros (e & s & r & b & -> & _) M. apply mentions_iff in M. rewrite M. apply in_or_app. right. apply in_or_app. right. apply in_or_app. left. left. reflexivity. Qed.

(** *** Quantiles *)
(** The highest cells of the catchment are in no unit, whatever the number of quantiles. *)
Theorem c86_highest_refuted a g m units n j c x : In "elevation"%string (a_criteria a) -> a_elevation a = Quantiles n -> discretize_by a g = Ok (m, units) ->
  nth_error g j = Some c -> z_elev c = Some x -> (forall c' y, In c' g -> z_elev c' = Some y -> y <= x) -> nth_error m j = Some 0%Z.
Proof.
  intros M Q E Hc Hx Hi. destruct (call_lists a g m units E) as (L & H). destruct (elevation_list a g L H M) as (e & Ee & Le). apply (no_class a g m units _ L j c E H Le Hc).
  intros k Hk. apply in_map_iff in Hk. destruct Hk as (q & <- & Hq). cbn [in_class]. apply not_true_is_false. intro W. apply within_iff in W. destruct W as (v & Hv & W). rewrite Hx in Hv. injection Hv as <-.
  apply in_pairs in Hq. destruct Hq as (i & Hl & ->). cbn [fst snd] in W. rewrite Q in Ee.
  assert (Nn : known (map z_elev g) <> []) by (apply known_nil; exists x; rewrite <- Hx; apply in_map; apply (nth_error_In _ j); exact Hc).
  destruct (quantile_edges n (map z_elev g) _ eq_refl Nn) as (e' & A & B & C & D). rewrite Ee in A. injection A as <-. rewrite B in *.
  destruct (D ltac:(lia)) as (_ & Mx). symmetry in Mx. apply maximum_spec in Mx. destruct Mx as (Mx & _). apply known_in in Mx. apply in_map_iff in Mx. destruct Mx as (c' & Hc' & Ic').
  pose proof (Hi c' _ Ic' Hc'). pose proof (C (S i) (n - 1)%nat ltac:(lia) ltac:(lia)). lra.
Qed.
(** The other cells are in a unit; there is one unit fewer than asked for, at most. *)
Theorem c86_quantiles a g n : a_criteria a = ["elevation"%string] -> a_elevation a = Quantiles n -> (2 <= n)%nat -> exists m units, discretize_by a g = Ok (m, units) /\ (length units <= n - 1)%nat /\
  forall c x c' y, In c g -> z_elev c = Some x -> In c' g -> z_elev c' = Some y -> x < y -> exists u, In u units /\ part_of c u.
Proof.
  intros M Q N2. assert (Me : mentions a "elevation" = true) by (apply mentions_iff; rewrite M; left; reflexivity).
  assert (Ed : exists e, edges (Quantiles n) (map z_elev g) = Ok e /\ (length e <= n)%nat /\ forall c x c' y, In c g -> z_elev c = Some x -> In c' g -> z_elev c' = Some y -> x < y ->
    exists i, (S i < length e)%nat /\ nth i e 0 <= x < nth (S i) e 0).
  { destruct (known (map z_elev g)) as [|v0 v] eqn:K.
    - exists []. cbn [edges]. rewrite K. split; [reflexivity|]. split; [cbn; lia|]. intros c x c' y Hc Hx. exfalso. assert (In x (known (map z_elev g))) by (apply known_in; rewrite <- Hx; apply in_map; exact Hc). rewrite K in H. destruct H.
    - destruct (quantile_edges n (map z_elev g) _ eq_refl) as (e & A & B & C & D); [rewrite K; discriminate|]. exists e. split; [exact A|]. split; [lia|]. intros c x c' y Hc Hx Hc' Hy Hxy. destruct (D N2) as (Mn & Mx).
      symmetry in Mn, Mx. apply minimum_spec in Mn. apply maximum_spec in Mx. apply band_exists; [lia| |].
      + apply (proj2 Mn). apply known_in. rewrite <- Hx. apply in_map. exact Hc.
      + rewrite B. apply (Rlt_le_trans _ y); [exact Hxy|]. apply (proj2 Mx). apply known_in. rewrite <- Hy. apply in_map. exact Hc'. }
  destruct Ed as (e & Ee & Le & Be).
  assert (H : class_lists a g [map (fun q => ElevationBand (fst q) (snd q)) (pairs e)]).
  { exists e, [], [], O. unfold mentions in *. rewrite M in *. cbn. rewrite Q. split; [reflexivity|]. split; [intros _; exact Ee|]. repeat split; discriminate. }
  rewrite (call_result a g _ H). eexists. eexists. split; [reflexivity|]. set (n0 := npoly a).
  assert (Pr : product [map (fun q => ElevationBand (fst q) (snd q)) (pairs e)] = map (fun q => [ElevationBand (fst q) (snd q)]) (pairs e)).
  { cbn [product map]. rewrite flat_map_concat_map, map_map, <- flat_map_concat_map. clear. induction (pairs e) as [|q l IH]; [reflexivity|]. cbn [flat_map map app]. f_equal; exact IH. }
  rewrite Pr. split.
  - unfold made. assert (Fl : forall {A} (p : A -> bool) l, (length (filter p l) <= length l)%nat) by (intros A p l; induction l as [|x l IH]; cbn [filter length]; [lia|]; destruct (p x); cbn [length]; lia).
    eapply Nat.le_trans; [apply Fl|]. rewrite map_length, pairs_length. lia.
  - intros c x c' y Hc Hx Hc' Hy Hxy. destruct (Be c x c' y Hc Hx Hc' Hy Hxy) as (i & Hi & Bi). exists [ElevationBand (nth i e 0) (nth (S i) e 0)].
    assert (P : part_of c [ElevationBand (nth i e 0) (nth (S i) e 0)]) by (split; [exists x; exact Hx|]; intros k [<-|[]]; exists x; auto). split; [|exact P].
    apply filter_In. split; [apply in_map_iff; exists (nth i e 0, nth (S i) e 0); split; [reflexivity|]; apply in_pairs; exists i; auto|]. apply existsb_exists. exists c. split; [exact Hc|]. apply in_unit_iff; [intros k [<-|[]]; exact I|exact P].
Qed.

Example c86_highest_case : exists a g m units n, In "elevation"%string (a_criteria a) /\ a_elevation a = Quantiles n /\ (2 <= n)%nat /\ discretize_by a g = Ok (m, units) /\
  nth_error g 2 = Some (cell_of 1300 100) /\ (forall c' y, In c' g -> z_elev c' = Some y -> y <= 1300).
Proof.
  set (a := mkArg ["elevation"%string] (Quantiles 3) Unknown Unknown None). destruct (c86_quantiles a case_grid 3 eq_refl eq_refl ltac:(lia)) as (m & units & E & _).
  exists a, case_grid, m, units, 3%nat. split; [left; reflexivity|]. split; [reflexivity|]. split; [lia|]. split; [exact E|]. split; [reflexivity|].
  intros c y Hc. cbn in Hc. destruct Hc as [<-|[<-|[<-|[<-|[]]]]]; cbn; intros [=]; subst; lra.
Qed.

(** *** Other cells without unit *)
(** Flat cells (aspect -1) and cells without aspect (the borders of the raster), with the aspect as criterion. *)
Theorem c86_flat_refuted a g m units j c : In "aspect"%string (a_criteria a) -> discretize_by a g = Ok (m, units) -> nth_error g j = Some c -> z_aspect c = None \/ z_aspect c = Some (-1) -> nth_error m j = Some 0%Z.
Proof.
  intros M E Hc A. destruct (call_lists a g m units E) as (L & H). apply (no_class a g m units _ L j c E H (aspect_list a g L H M) Hc).
  intros k Hk. apply in_map_iff in Hk. destruct Hk as (d & <- & _). apply not_true_is_false. intro W. apply in_class_iff in W; [|exact I]. destruct W as (v & Hv & W). destruct A as [A|A]; rewrite A in Hv; [discriminate|]. injection Hv as <-. destruct d; cbn in W; lra.
Qed.
Example c86_flat_case : exists a g c, discretize_by a g = Ok ([0%Z], []) /\ nth_error g 0 = Some c /\ in_catchment c /\ z_aspect c = Some (-1).
Proof.
  exists (mkArg ["aspect"%string] Unknown Unknown Unknown None), [cell_of 1200 (-1)], (cell_of 1200 (-1)). split; [|split; [reflexivity|split; [eexists; reflexivity|reflexivity]]].
  rewrite (call_result _ _ [map AspectClass [North; East; South; West]]); [|exists [], [], [], O; split; [reflexivity|]; repeat split; discriminate].
  assert (E : forall d, in_unit 0 [AspectClass d] (cell_of 1200 (-1)) = false).
  { intro d. apply not_true_is_false. intro W. apply in_unit_iff in W; [|intros k [<-|[]]; exact I]. destruct W as (_ & W). destruct (W _ (or_introl eq_refl)) as (v & Hv & K). cbn in Hv. injection Hv as <-. destruct d; cbn in K; lra. }
  assert (U : made 0 [cell_of 1200 (-1)] (product [map AspectClass [North; East; South; West]]) = []) by (cbn [product map flat_map app made filter existsb]; unfold made; cbn [filter existsb]; rewrite !E; reflexivity).
  change (npoly _) with O. rewrite U. reflexivity.
Qed.
(** Cells below the minimum elevation of the call: they are left out without a word. *)
Theorem c86_limits_refuted a g m units d low high j c x : In "elevation"%string (a_criteria a) -> a_elevation a = EqualIntervals d (Some low) high -> 0 < d -> discretize_by a g = Ok (m, units) ->
  nth_error g j = Some c -> z_elev c = Some x -> x < low -> nth_error m j = Some 0%Z.
Proof.
  intros M Q Hd E Hc Hx Hl. destruct (call_lists a g m units E) as (L & H). destruct (elevation_list a g L H M) as (e & Ee & Le). apply (no_class a g m units _ L j c E H Le Hc).
  intros k Hk. apply in_map_iff in Hk. destruct Hk as (q & <- & Hq). cbn [in_class]. apply not_true_is_false. intro W. apply within_iff in W. destruct W as (v & Hv & W). rewrite Hx in Hv. injection Hv as <-.
  apply in_pairs in Hq. destruct Hq as (i & Hi & ->). cbn [fst snd] in W. rewrite Q in Ee. cbn [edges] in Ee.
  assert (G : exists b, e = arange low b d).
  { unfold Reqb in Ee. destruct high, (minimum (known (map z_elev g))), (maximum (known (map z_elev g))); try discriminate Ee; destruct (Req_EM_T d 0); try discriminate Ee; injection Ee as <-; eexists; reflexivity. }
  destruct G as (b & ->). rewrite !arange_nth in W by lia. pose proof (Rmult_le_pos (INR i) d (pos_INR i) (Rlt_le _ _ Hd)). lra.
Qed.
Example c86_limits_case : exists a g m units, In "elevation"%string (a_criteria a) /\ a_elevation a = EqualIntervals 100 (Some 1225) None /\ discretize_by a g = Ok (m, units) /\ nth_error g 0 = Some (cell_of 1210 10).
Proof.
  set (a := mkArg ["elevation"%string] (EqualIntervals 100 (Some 1225) None) Unknown Unknown None). assert (Acc : acceptable a case_grid).
  { split; [intros _; split; [lra|]; intros _; exists 1210; left; reflexivity|]. split; [intros [H|[]]; discriminate|]. split; [intros [H|[]]; discriminate|intros [H|[]]; discriminate]. }
  apply (c86_accepted a case_grid I) in Acc. destruct Acc as (m & units & E). exists a, case_grid, m, units. split; [left; reflexivity|]. split; [reflexivity|]. split; [exact E|reflexivity].
Qed.
(** A criterion that is not one of the five texts is ignored: the catchment becomes a single unit. *)
Theorem c86_unknown_refuted a g : (forall t, In t (a_criteria a) -> ~ In t ["elevation"; "slope"; "aspect"; "radiation"; "sub_catchments"]%string) ->
  exists m units, discretize_by a g = Ok (m, units) /\ (length units <= 1)%nat /\ forall j c, nth_error g j = Some c -> in_catchment c -> nth_error m j = Some 1%Z.
Proof.
  intro N. assert (Mf : forall t, In t ["elevation"; "slope"; "aspect"; "radiation"; "sub_catchments"]%string -> mentions a t = false).
  { intros t Ht. apply not_true_is_false. intro Mt. apply mentions_iff in Mt. exact (N t Mt Ht). }
  assert (H : class_lists a g []).
  { exists [], [], [], O. rewrite !Mf by (cbn; tauto). split; [reflexivity|]. repeat split; discriminate. }
  rewrite (call_result a g [] H). eexists. eexists. split; [reflexivity|]. cbn [product]. split.
  - unfold made. cbn [filter]. destruct (existsb _ g); cbn; lia.
  - intros j c Hc Ic. rewrite nth_error_map, Hc. cbn [option_map]. assert (E : in_unit (npoly a) [] c = true) by (unfold in_unit; apply inside_iff in Ic; rewrite Ic; reflexivity).
    unfold made. cbn [filter]. replace (existsb (in_unit (npoly a) []) g) with true; [|symmetry; apply existsb_exists; exists c; split; [apply (nth_error_In _ j); exact Hc|exact E]].
    unfold tag. cbn [find_unit]. rewrite E. reflexivity.
Qed.
(** The ids are stored in 16 bits: the 65536th unit gets the id 0, that of the cells out of the catchment. *)
Lemma many a g m units : covered_by (a_polygons a) g -> discretize_by a g = Ok (m, units) -> (65536 <= Z.of_nat (length units))%Z -> exists j c, nth_error g j = Some c /\ in_catchment c /\ nth_error m j = Some 0%Z.
Proof.
  intros Cv E Big. destruct (call_lists a g m units E) as (L & H). rewrite (call_result a g L H) in E. injection E as <- <-. pose proof (made_polygons a g L Cv H) as Mp.
  set (units := made (npoly a) g (product L)) in *. set (n := npoly a) in *.
  assert (Ap : ForallOrdPairs (apart n all_test) units) by (apply fop_filter; apply product_apart; apply (lists_apart a g L H)).
  set (i := Z.to_nat 65535). assert (Ii : Z.of_nat i = 65535%Z) by (unfold i; apply Z2Nat.id; lia). clearbody i. destruct (nth_error units i) as [u|] eqn:Eu; [|apply nth_error_None in Eu; lia].
  assert (Hu := nth_error_In _ _ Eu). assert (K := Hu). apply filter_In in K. destruct K as (_ & K). apply existsb_exists in K. destruct K as (c & Hc & K). pose proof K as P. apply (Mp u c Hu Hc) in P.
  assert (Hj := Hc). apply In_nth_error in Hj. destruct Hj as (j & Hj). exists j, c. split; [exact Hj|]. split; [apply P|]. rewrite nth_error_map, Hj. cbn [option_map]. f_equal. unfold tag. rewrite (find_unit_some n units c Ap 1 i u Eu K).
  replace (Z.of_nat (1 + i)) with 65536%Z by lia. reflexivity.
Qed.
Theorem c86_many_refuted : exists a g m units, covered_by (a_polygons a) g /\ regular_bands a /\ known_where a g /\ discretize_by a g = Ok (m, units) /\ exists j c, nth_error g j = Some c /\ in_catchment c /\ nth_error m j = Some 0%Z.
Proof.
  set (n := Z.to_nat 65536). assert (Hn : Z.of_nat n = 65536%Z) by (unfold n; apply Z2Nat.id; lia). clearbody n.
  set (a := mkArg ["elevation"%string] (EqualIntervals 1 None None) Unknown Unknown None). set (f := fun i => cell_of (INR i) 0). set (g := map f (seq 0 n)).
  assert (Cv : covered_by (a_polygons a) g) by exact I.
  assert (Rb : regular_bands a) by (split; [intros _; exists 1; split; [reflexivity|lra]|split; intros [H|[]]; discriminate]).
  assert (Kw : known_where a g) by (split; [intros c _ _ [H|[]]; discriminate|]; split; [intros c _ _ [H|[]]; discriminate|]; split; [intros c _ _ [H|[]]; discriminate|intros [H|[]]; discriminate]).
  destruct (c86_whole a g Cv Rb Kw) as (m & units & E & W & B). { exists (f O). split; [apply in_map; apply in_seq; lia|exists 0; reflexivity]. }
  exists a, g, m, units. split; [exact Cv|]. split; [exact Rb|]. split; [exact Kw|]. split; [exact E|]. apply (many a g m units Cv E).
  assert (F : forall i, (i < n)%nat -> exists k u, nth_error units k = Some u /\ part_of (f i) u).
  { intros i Hi. destruct (W (f i)) as (u & Hu & P); [apply in_map; apply in_seq; lia|exists (INR i); reflexivity|]. apply In_nth_error in Hu. destruct Hu as (k & Hk). exists k, u. auto. }
  assert (Inj : forall i i' k u, (i < n)%nat -> (i' < n)%nat -> nth_error units k = Some u -> part_of (f i) u -> part_of (f i') u -> i = i').
  { intros i i' k u _ _ Hk (_ & P) (_ & P'). destruct (B u 1 (nth_error_In _ _ Hk) (or_introl eq_refl) eq_refl) as (z & Hz). destruct (P _ Hz) as (v & Hv & Pv). destruct (P' _ Hz) as (v' & Hv' & Pv').
    cbn in Hv, Hv'. injection Hv as <-. injection Hv' as <-. rewrite Rmult_1_l, INR_IZR_INZ in *.
    assert (Eq : forall q, IZR z <= IZR (Z.of_nat q) < IZR z + 1 -> Z.of_nat q = z). { intros q (A & D). apply le_IZR in A. assert (IZR (Z.of_nat q) < IZR (z + 1)) by (rewrite plus_IZR; exact D). apply lt_IZR in H. lia. }
    apply Eq in Pv, Pv'. lia. }
  assert (G : forall q, (q <= n)%nat -> exists l, length l = q /\ NoDup l /\ (forall k, In k l -> (k < length units)%nat /\ exists i u, (i < q)%nat /\ nth_error units k = Some u /\ part_of (f i) u)).
  { induction q as [|q IH]; intro Hq.
    - exists []. split; [reflexivity|]. split; [constructor|intros k []].
    - destruct (IH ltac:(lia)) as (l & A & D & C). destruct (F q ltac:(lia)) as (k & u & Hk & P). exists (k :: l). split; [cbn; lia|]. split.
      + constructor; [|exact D]. intro Hin. destruct (C k Hin) as (_ & i & u' & Hi & Hu' & P'). rewrite Hk in Hu'. injection Hu' as <-. assert (i = q) by (apply (Inj i q k u); [lia|lia|exact Hk|exact P'|exact P]). lia.
      + intros k' [<-|Hk'].
        * split; [apply nth_error_Some; congruence|]. exists q, u. split; [lia|auto].
        * destruct (C k' Hk') as (C1 & i & u' & C2 & C3). split; [exact C1|]. exists i, u'. split; [lia|exact C3]. }
  destruct (G n (le_n n)) as (l & A & D & C). assert (incl l (seq 0 (length units))) by (intros k Hk; apply in_seq; destruct (C k Hk); lia). apply NoDup_incl_length in H; [|exact D]. rewrite seq_length in H. lia.
Qed.
Print Assumptions c86_highest_refuted. Print Assumptions c86_quantiles. Print Assumptions c86_flat_refuted. Print Assumptions c86_limits_refuted. Print Assumptions c86_unknown_refuted. Print Assumptions c86_many_refuted.
