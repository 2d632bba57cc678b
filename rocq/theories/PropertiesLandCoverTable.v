(** C91: the loading of land cover changes from tables and glacier masks. *)
From Coq Require Import Permutation.
From Verif Require Import BaseFacts PeriodsFacts LandCoverTableSpec LandCoverTableFacts LandCoverTableFacts2 LandCoverTableFacts3.
Open Scope R_scope.
Definition midnight_of (y m d : Z) : Z := (days_from_civil y m d * DAY)%Z.

(** After a run, each unit has the area that the table gives at the last date: nothing is lost by the removal of the columns without a change. *)
Theorem c91_run : forall u f t cs, well_formed t -> square_metres u f -> register_table u t = Ok cs -> run_follows cs f t.
Proof. intros u f t cs W F E. exact (run_table u f t cs W F E). Qed.
Print Assumptions c91_run.
Definition table_case : change_table := mkTable [midnight_of 2010 1 1; midnight_of 2015 1 1; midnight_of 2020 1 1] [(7%Z, [Some 3; Some 3; Some 2]); (8%Z, [None; Some 1; None])].
Example c91_run_case : well_formed table_case /\ square_metres "km2" 1000000 /\ (exists cs, register_table "km2" table_case = Ok cs) /\ says table_case 7 (midnight_of 2018 1 1) 3 /\ says table_case 7 (midnight_of 2021 1 1) 2.
Proof.
  split; [split; [repeat constructor; vm_compute; reflexivity|split]|].
  - simpl. constructor; [simpl; intros [Q|[]]; discriminate|]. constructor; [intros []|constructor].
  - simpl. intros id vals [Q|[Q|[]]]; injection Q as <- <-; reflexivity.
  - split; [right; simpl; auto|]. split.
    + unfold register_table, populate. destruct (table_entries _); [eexists; reflexivity|]. rewrite (proj2 (area_factor_spec "km2" 1000000)) by (right; simpl; auto). eexists. reflexivity.
    + split.
      * exists [Some 3; Some 3; Some 2], 1%nat, (midnight_of 2015 1 1). split; [left; reflexivity|]. split; [reflexivity|]. split; [vm_compute; discriminate|]. split; [reflexivity|]. intros [|[|[|k]]] d L E1 L1; try lia; [injection E1 as <-; exfalso; revert L1; vm_compute; intro Q; apply Q; reflexivity|destruct k; discriminate].
      * exists [Some 3; Some 3; Some 2], 2%nat, (midnight_of 2020 1 1). split; [left; reflexivity|]. split; [reflexivity|]. split; [vm_compute; discriminate|]. split; [reflexivity|]. intros [|[|[|k]]] d L E1 L1; try lia. destruct k; discriminate.
Qed.

(** A unit that is not an area is refused, when there is something to register. *)
Theorem c91_unit : forall u t, well_formed t ->
  (register_table u t = Throw <-> (forall f, ~ square_metres u f) /\ exists id vals x, In (id, vals) (ct_rows t) /\ In (Some x) vals).
Proof.
  intros u t W. unfold register_table, populate. destruct (table_entries _) as [|e l] eqn:E.
  - split; [discriminate|]. intros (_ & H). exfalso. exact (no_entry t W H E).
  - assert (H : exists id vals x, In (id, vals) (ct_rows t) /\ In (Some x) vals) by (apply some_entry; rewrite E; discriminate). destruct (area_factor u) as [f| |] eqn:A; simpl.
    + split; [discriminate|]. intros (N & _). exfalso. apply (N f). apply area_factor_spec. exact A.
    + split; [|reflexivity]. intros _. split; [|exact H]. intros f F. apply area_factor_spec in F. congruence.
    + exfalso. unfold area_factor in A. repeat destruct (existsb _ _); discriminate.
Qed.
Print Assumptions c91_unit.
Example c91_unit_case : well_formed table_case /\ (forall f, ~ square_metres "ha" f) /\ exists id vals x, In (id, vals) (ct_rows table_case) /\ In (Some x) vals.
Proof.
  split; [exact (proj1 c91_run_case)|]. split; [|exists 7%Z, [Some 3; Some 3; Some 2], 3; simpl; auto]. intros f [(I & _)|(I & _)]; simpl in I; repeat (destruct I as [I|I]; [discriminate|]); exact I.
Qed.

(** "Each area of the file is in force from its date": when the columns are not in the order of their dates, an area that is the same as in the column before is lost. *)
Theorem c91_unsorted_refuted : ~ (forall u f t cs, NoDup (ct_dates t) -> NoDup (map fst (ct_rows t)) -> (forall id vals, In (id, vals) (ct_rows t) -> length vals = length (ct_dates t)) ->
  square_metres u f -> register_table u t = Ok cs -> forall id vals j d x, In (id, vals) (ct_rows t) -> nth_error (ct_dates t) j = Some d -> nth_error vals j = Some (Some x) ->
  exists d' y, In (d', (id, y)) cs /\ d' <= mjd_of d).
Proof.
  intro H. set (t := mkTable [midnight_of 2030 1 1; midnight_of 2020 1 1] [(1%Z, [Some 5; Some 5])]).
  assert (E : exists cs, register_table "m2" t = Ok cs). { unfold register_table, populate. destruct (table_entries _); [eexists; reflexivity|]. rewrite (proj2 (area_factor_spec "m2" 1)) by (left; simpl; auto). eexists. reflexivity. }
  destruct E as (cs & E). assert (F : square_metres "m2" 1) by (left; simpl; auto).
  destruct (H "m2"%string 1 t cs) with (id := 1%Z) (vals := [Some 5; Some 5]) (j := 1%nat) (d := midnight_of 2020 1 1) (x := 5) as (d' & y & I & L); try reflexivity; try assumption.
  - simpl. constructor; [intros [Q|[]]; revert Q; vm_compute; discriminate|]. constructor; [intros []|constructor].
  - simpl. constructor; [intros []|constructor].
  - simpl. intros id vals [Q|[]]. injection Q as <- <-. reflexivity.
  - left. reflexivity.
  - apply (registered_in _ _ _ _ _ _ _ E F) in I. destruct I as (vals & j & dz & x & [Q|[]] & Ed & -> & -> & K & P). injection Q as <-. apply mjd_le in L. destruct j as [|[|j]]; simpl in Ed.
    + injection Ed as <-. revert L. vm_compute. intro Q. apply Q. reflexivity.
    + simpl in K, P. injection K as <-. apply P. reflexivity.
    + destruct j; discriminate.
Qed.
Print Assumptions c91_unsorted_refuted.

(** A table by elevation is the table of the units with the same whole metres of elevation, and is refused when there is none for a row. *)
Theorem c91_elevation : forall us u dates rows, distinct_elevations us ->
  ((exists x l, In (x, l) rows /\ forall id, ~ unit_at us x id) -> load_from_csv us u dates (ByElevation rows) = Throw) /\
  ((forall x l, In (x, l) rows -> exists id, unit_at us x id) ->
    exists q, Forall2 (fun r r' => (forall id, unit_at us (fst r) id <-> id = fst r') /\ snd r' = snd r) rows q /\
      load_from_csv us u dates (ByElevation rows) = load_from_csv us u dates (ById q)).
Proof.
  intros us u dates rows D. split.
  - intro H. apply match_rows_fails in H. unfold load_from_csv. rewrite H. reflexivity.
  - intro H. destruct (match_rows us rows) as [q| |] eqn:E.
    + exists q. pose proof (match_rows_ok us rows q E) as F. split.
      * clear -F D. induction F as [|r r' rows q (A & B) F IH]; constructor; [|exact IH]. split; [|exact B]. intro id. split; [intro U; exact (unit_at_unique us _ _ _ D U A)|intros ->; exact A].
      * unfold load_from_csv. rewrite E. replace (ids_in_range us (map fst q)) with true; [reflexivity|]. symmetry. apply ids_of_units. intros i I. clear -F I. induction F as [|r r' rows q ((v & z & A & Ei & _) & B) F IH]; [contradiction|]. destruct I as [<-|I]; [rewrite <- Ei; apply in_map; exact A|apply IH, I].
    + exfalso. apply match_rows_fails in E. destruct E as (x & l & I & N). destruct (H x l I) as (id & U). exact (N id U).
    + exfalso. clear -E. induction rows as [|(x & l) rows IH]; simpl in E; [discriminate|]. unfold match_elevation in E. destruct (find _ us); [|discriminate]. simpl in E. destruct (match_rows us rows); try discriminate. apply IH. reflexivity.
Qed.
Print Assumptions c91_elevation.
Lemma whole_of x z : 0 <= x -> whole_metres x z <-> IZR z <= x < IZR z + 1.
Proof. intro P. unfold whole_metres. split; [intros [(_ & H)|(N & _)]; [exact H|lra]|auto]. Qed.
Example c91_elevation_case : distinct_elevations [mkHU 1 1987.4; mkHU 2 2010.2] /\ unit_at [mkHU 1 1987.4; mkHU 2 2010.2] 2010.9 2.
Proof.
  split; [split|].
  - constructor; [simpl; intros [Q|[]]; discriminate|]. constructor; [intros []|constructor].
  - intros a b z [<-|[<-|[]]] [<-|[<-|[]]]; simpl; intros A B; try reflexivity; exfalso; apply whole_of in A, B; try lra;
      (assert (z < 1988)%Z by (apply lt_IZR; lra); assert (2009 < z)%Z by (apply lt_IZR; lra); lia).
  - exists (mkHU 2 2010.2), 2010%Z. split; [simpl; auto|]. split; [reflexivity|]. split; apply whole_of; simpl; lra.
Qed.
(** "Each row of a table by elevation is for the unit with its elevation": two units of the same whole metres, only one of them gets changes. *)
Theorem c91_same_elevation_refuted : ~ (forall us u dates rows cs, NoDup (map hu_id us) -> NoDup (map fst rows) -> (forall a b, In a us -> In b us -> hu_elev a = hu_elev b -> a = b) ->
  load_from_csv us u dates (ByElevation rows) = Ok cs -> forall a l x, In a us -> In (hu_elev a, l) rows -> hd_error dates <> None -> hd_error l = Some (Some x) -> exists d y, In (d, (hu_id a, y)) cs).
Proof.
  intro H. set (us := [mkHU 1 2010.2; mkHU 2 2010.7]). set (rows := [(2010.2, [Some 5]); (2010.7, [Some 6])]). assert (W : forall x, 2010 <= x < 2011 -> truncate x = 2010%Z) by (intros x B; apply truncate_spec; apply whole_of; simpl; lra).
  assert (M : forall x, 2010 <= x < 2011 -> match_elevation us x = Ok 1%Z). { intros x B. unfold match_elevation, us. simpl. rewrite (W x B), (W 2010.2) by lra. reflexivity. }
  assert (E : exists cs, load_from_csv us "m2" [midnight_of 2020 1 1] (ByElevation rows) = Ok cs /\ forall d y, ~ In (d, (2%Z, y)) cs).
  { unfold load_from_csv, rows. cbn [match_rows]. rewrite !M by lra. cbn [bind]. destruct (register_table "m2" _) as [cs| |] eqn:E.
    - exists cs. split; [reflexivity|]. intros d y I. apply (registered_in _ _ _ 1 _ _ _ E) in I; [|left; simpl; auto]. destruct I as (v & j & dz & x & [Q|[Q|[]]] & _); discriminate.
    - exfalso. unfold register_table, populate in E. destruct (table_entries _); [discriminate|]. rewrite (proj2 (area_factor_spec "m2" 1)) in E by (left; simpl; auto). discriminate.
    - exfalso. unfold register_table, populate in E. destruct (table_entries _); [discriminate|]. rewrite (proj2 (area_factor_spec "m2" 1)) in E by (left; simpl; auto). discriminate. }
  destruct E as (cs & E & N). destruct (H us "m2"%string [midnight_of 2020 1 1] rows cs) with (a := mkHU 2 2010.7) (l := [Some 6]) (x := 6) as (d & y & I); try reflexivity; try assumption.
  - simpl. constructor; [intros [Q|[]]; discriminate|]. constructor; [intros []|constructor].
  - simpl. constructor; [intros [Q|[]]; lra|]. constructor; [intros []|constructor].
  - intros a b [<-|[<-|[]]] [<-|[<-|[]]]; simpl; intro Q; try reflexivity; exfalso; lra.
  - simpl. auto.
  - simpl. auto.
  - discriminate.
  - exact (N d y I).
Qed.
Print Assumptions c91_same_elevation_refuted.
(** The ids of a file are compared with the smallest and the largest id of the units: nothing is refused when all are units, and an id beyond them is. *)
Theorem c91_ids : forall us u dates rows, us <> [] ->
  ((forall id l, In (id, l) rows -> In id (map hu_id us)) -> load_from_csv us u dates (ById rows) = register_table u (mkTable dates rows)) /\
  ((exists id l, In (id, l) rows /\ ((forall j, In j (map hu_id us) -> (id < j)%Z) \/ (forall j, In j (map hu_id us) -> (j < id)%Z))) -> load_from_csv us u dates (ById rows) = Throw).
Proof.
  intros us u dates rows N. unfold load_from_csv. split.
  - intro H. rewrite ids_of_units; [reflexivity|]. intros i I. apply in_map_iff in I. destruct I as ((id & l) & <- & I). exact (H id l I).
  - intros (id & l & I & O). rewrite (ids_outside us _ id); [reflexivity| |exact O|exact N]. apply in_map_iff. exists (id, l). auto.
Qed.
Print Assumptions c91_ids.
Theorem c91_id_refuted : ~ (forall us u dates rows cs, load_from_csv us u dates (ById rows) = Ok cs -> forall d id x, In (d, (id, x)) cs -> In id (map hu_id us)).
Proof.
  intro H. assert (L : load_from_csv [mkHU 1 100; mkHU 3 200] "m2" [0%Z] (ById [(2%Z, [Some 5])]) = Ok [(mjd_of 0, (2%Z, 5 * 1))]) by reflexivity.
  specialize (H _ _ _ _ _ L (mjd_of 0) 2%Z (5 * 1) (or_introl eq_refl)). simpl in H. destruct H as [Q|[Q|[]]]; discriminate.
Qed.
Print Assumptions c91_id_refuted.

(** ** Glacier masks *)
(** In each column, the areas of the covers of a unit add up to the area of its pixels, also between the masks. *)
Theorem c91_surfaces : forall grid px deb yearly ids times masks tables regs, create_for_glaciers grid px deb yearly ids times masks = Ok (tables, regs) ->
  exists dates, Forall (fun t => ct_dates t = dates) tables /\ (yearly = false -> dates = times) /\
    (yearly = true -> StronglySorted Z.lt dates /\ forall t, In t dates <-> (exists y, t = midnight_of y 1 1) /\ (hd t times <= t <= last times t)%Z /\ times <> []) /\
    forall id j, In id ids -> (j < length dates)%nat -> exists vs, Forall2 (fun t v => has_value t id j v) tables vs /\ Rsum (fun v => v) vs = pixel_area grid px id.
Proof.
  intros grid px deb yearly ids times masks tables regs E. destruct (create_ok _ _ _ _ _ _ _ _ _ E) as (L & -> & _ & _). exists (if yearly then yearly_times times else times). split; [apply Forall_forall; intros t I; apply in_map_iff in I; destruct I as (f & <- & _); reflexivity|].
  split; [intros ->; reflexivity|]. split.
  - intros ->. split; [apply yearly_times_sorted|]. intro t. destruct times as [|a times]; [simpl; tauto|]. unfold yearly_times. rewrite year_starts_in. unfold new_year, midnight_of.
    assert (Q : forall (l : list Z) b c d, last (b :: l) c = last (b :: l) d) by (clear; induction l as [|x l IH]; intros b c d; [reflexivity|]; exact (IH x c d)).
    simpl hd. rewrite (Q times a t a). intuition discriminate.
  - intros id j I J. assert (C : forall f, exists v, nth_error (columns grid px deb yearly times masks f id) j = Some v) by (intro f; apply column_exists; assumption).
    pose proof (fun m => extract_sum grid px deb m id) as X. destruct deb; unfold covers_of.
    + destruct (C sf_ice) as (a & A), (C sf_debris) as (b & B), (C sf_other) as (c & O). exists [a; b; c]. split; [repeat apply Forall2_cons; try apply Forall2_nil; apply table_value; split; assumption|].
      pose proof (columns_sum _ _ _ _ _ _ sf_ice sf_debris sf_glacier id j L (fun m => proj2 (X m)) a b A B) as G.
      pose proof (columns_sum _ _ _ _ _ _ sf_glacier sf_other (fun _ => pixel_area grid px id) id j L (fun m => proj1 (X m)) (a + b) c G O) as T.
      apply (columns_const _ _ _ _ _ _ (fun _ => pixel_area grid px id) id j (pixel_area grid px id)) in T; [|exact L|reflexivity]. simpl. lra.
    + destruct (C sf_glacier) as (a & A), (C sf_other) as (c & O). exists [a; c]. split; [repeat apply Forall2_cons; try apply Forall2_nil; apply table_value; split; assumption|].
      pose proof (columns_sum _ _ _ _ _ _ sf_glacier sf_other (fun _ => pixel_area grid px id) id j L (fun m => proj1 (X m)) a c A O) as T.
      apply (columns_const _ _ _ _ _ _ (fun _ => pixel_area grid px id) id j (pixel_area grid px id)) in T; [|exact L|reflexivity]. simpl. lra.
Qed.
Print Assumptions c91_surfaces.
(** They are between 0 and the area of the pixels, if the debris is on the glacier. *)
Theorem c91_between : forall grid px deb yearly ids times masks tables regs, create_for_glaciers grid px deb yearly ids times masks = Ok (tables, regs) ->
  0 <= px -> Forall debris_on_glacier masks -> forall t id j v, In t tables -> has_value t id j v -> 0 <= v <= pixel_area grid px id.
Proof.
  intros grid px deb yearly ids times masks tables regs E P D t id j v I H. destruct (create_ok _ _ _ _ _ _ _ _ _ E) as (L & -> & _ & _). apply in_map_iff in I. destruct I as (f & <- & I). apply table_value in H. destruct H as (_ & H).
  apply (columns_range _ _ _ _ _ _ f id j 0 (pixel_area grid px id)) in H; [exact H|exact L|]. intros m Im. rewrite Forall_forall in D. pose proof (extract_range grid px deb m id P (D m Im)) as R1. simpl in R1. unfold covers_of in I. destruct deb; simpl in I; intuition (subst f; tauto).
Qed.
Print Assumptions c91_between.
(** The yearly tables: on the line between the masks before and after. *)
Theorem c91_interp : forall grid px deb ids times masks yearly_tables tables regs regs', StronglySorted Z.lt times ->
  create_for_glaciers grid px deb true ids times masks = Ok (yearly_tables, regs) -> create_for_glaciers grid px deb false ids times masks = Ok (tables, regs') ->
  forall k ty t id i a va b vb j x v, nth_error yearly_tables k = Some ty -> nth_error tables k = Some t ->
  nth_error times i = Some a -> has_value t id i va -> nth_error times (S i) = Some b -> has_value t id (S i) vb ->
  nth_error (ct_dates ty) j = Some x -> has_value ty id j v -> (a <= x <= b)%Z -> on_line a va b vb x v.
Proof.
  intros grid px deb ids times masks ty0 t0 regs regs' S1 E E' k ty t id i a va b vb j x v Ky Kt Ea Va Eb Vb Ex Vx B. destruct (create_ok _ _ _ _ _ _ _ _ _ E) as (L & -> & _ & _). destruct (create_ok _ _ _ _ _ _ _ _ _ E') as (_ & -> & _ & _).
  rewrite nth_error_map in Ky, Kt. destruct (nth_error (covers_of deb) k) as [f|]; [|discriminate]. injection Ky as <-. injection Kt as <-. apply table_value in Va, Vb, Vx. destruct Va as (_ & Va), Vb as (_ & Vb), Vx as (_ & Vx).
  apply column_at in Vx. destruct Vx as (x' & Ex' & ->). rewrite table_dates in Ex. assert (x' = x) as -> by congruence. unfold columns in Va, Vb. set (row := map (fun m => f (extract grid px deb m id)) masks) in *. assert (Lr : length row = length times) by (unfold row; rewrite map_length; exact L). clearbody row.
  apply np_interp_line.
  - clear -S1 Lr. replace (map fst (combine times row)) with times; [exact S1|]. clear S1. revert row Lr. induction times as [|t times IH]; intros [|r row] Lr; try discriminate; [reflexivity|]. simpl. f_equal. apply IH. simpl in Lr. lia.
  - clear -Lr Ea Eb Va Vb. revert row i Lr Ea Eb Va Vb. induction times as [|t times IH]; intros row i Lr Ea Eb Va Vb; [destruct i; discriminate|]. destruct row as [|r row]; [discriminate|]. simpl in Lr. destruct i as [|i].
    + simpl in Ea, Va. injection Ea as ->. injection Va as ->. simpl in Eb, Vb. destruct times as [|t' times]; [discriminate|]. destruct row as [|r' row]; [discriminate|]. simpl in Eb, Vb. injection Eb as ->. injection Vb as ->. exists [], (combine times row). reflexivity.
    + destruct (IH row i) as (p & q & Q); try assumption; [lia|]. exists ((t, r) :: p), q. simpl. rewrite Q. reflexivity.
  - exact B.
Qed.
Print Assumptions c91_interp.
(** What is registered are the tables of the glacier covers: a run leaves the areas of the table. *)
Theorem c91_glaciers_run : forall grid px deb yearly ids times masks tables regs, create_for_glaciers grid px deb yearly ids times masks = Ok (tables, regs) ->
  StronglySorted Z.lt times -> NoDup ids -> map fst regs = (if deb then ["glacier_ice"; "glacier_debris"]%string else ["glacier"]%string) /\
  forall k name cs t, nth_error regs k = Some (name, cs) -> nth_error tables k = Some t -> run_follows cs 1 t.
Proof.
  intros grid px deb yearly ids times masks tables regs E S1 N. destruct (create_ok _ _ _ _ _ _ _ _ _ E) as (L & Q & Nm & G). split; [exact Nm|]. intros k name cs t H H'. apply (run_table "m2" 1 t cs); [|left; simpl; auto|exact (G k name cs t H H')].
  rewrite Q in H'. rewrite nth_error_map in H'. destruct (nth_error (covers_of deb) k) as [f|]; [|discriminate]. injection H' as <-. apply table_well_formed; assumption.
Qed.
Print Assumptions c91_glaciers_run.
Lemma m2_registers t : exists cs, register_table "m2" t = Ok cs.
Proof. unfold register_table, populate. destruct (table_entries _); [eexists; reflexivity|]. rewrite (proj2 (area_factor_spec "m2" 1)) by (left; simpl; auto). eexists. reflexivity. Qed.
(** The masks are never refused, except for their number. *)
Theorem c91_masks : forall grid px deb yearly ids times masks, (exists r, create_for_glaciers grid px deb yearly ids times masks = Ok r) <-> length masks = length times.
Proof.
  intros. split; [intros ((tables & regs) & E); exact (proj1 (create_ok _ _ _ _ _ _ _ _ _ E))|]. intro L. unfold create_for_glaciers. rewrite L, Nat.eqb_refl. simpl negb. cbv iota.
  destruct (m2_registers (surface_table grid px deb yearly ids times masks sf_ice)) as (a & A). destruct (m2_registers (surface_table grid px deb yearly ids times masks sf_debris)) as (b & B). destruct (m2_registers (surface_table grid px deb yearly ids times masks sf_glacier)) as (c & C).
  destruct deb; [rewrite A; cbn [bind]; rewrite B|rewrite C]; cbn [bind]; eexists; reflexivity.
Qed.
Print Assumptions c91_masks.
Example c91_surfaces_case : let times := [midnight_of 2000 5 1; midnight_of 2002 7 1] in StronglySorted Z.lt times /\ yearly_times times = [midnight_of 2001 1 1; midnight_of 2002 1 1] /\
  (exists r, create_for_glaciers [1; 1; 2]%Z 100 true true [1; 2]%Z times [mkMask [true; true; true] [true; false; false]; mkMask [true; false; true] [false; false; true]] = Ok r) /\
  Forall debris_on_glacier [mkMask [true; true; true] [true; false; false]; mkMask [true; false; true] [false; false; true]].
Proof.
  split; [repeat constructor|]. split; [vm_compute; reflexivity|]. split; [apply c91_masks; reflexivity|]. repeat constructor; discriminate.
Qed.

(** "The last mask is in force at the end": with the yearly interpolation, its areas are never reached. *)
Theorem c91_final_refuted : ~ (forall grid px ids times masks tables regs, 0 < px -> StronglySorted Z.lt times -> create_for_glaciers grid px false true ids times masks = Ok (tables, regs) ->
  forall m cs id, In id ids -> last masks m = m -> In m masks -> regs = [("glacier"%string, cs)] -> sf_glacier (extract grid px false m id) = 0 -> cs <> [] -> exists d, In (d, (id, 0)) cs).
Proof.
  intro H. set (times := [midnight_of 2000 1 1; midnight_of 2002 7 1]). set (masks := [mkMask [true] []; mkMask [false] []]).
  destruct (proj2 (c91_masks [1%Z] 1 false true [1%Z] times masks) eq_refl) as ((tables & regs) & E). destruct (create_single _ _ _ _ _ _ _ _ E) as (cs & -> & G). assert (L : length masks = length times) by reflexivity.
  assert (Y : yearly_times times = [midnight_of 2000 1 1; midnight_of 2001 1 1; midnight_of 2002 1 1]) by (vm_compute; reflexivity).
  assert (X : forall j v, nth_error (columns [1%Z] 1 false true times masks sf_glacier 1%Z) j = Some v -> 0 < v).
  { intros j v Q. apply column_at in Q. destruct Q as (x & Ex & ->). rewrite Y in Ex. unfold times, masks. cbn [map combine]. set (one := sf_glacier (extract [1%Z] 1 false (mkMask [true] []) 1)). set (zero := sf_glacier (extract [1%Z] 1 false (mkMask [false] []) 1)).
    assert (one = 1) as -> by (unfold one, extract, pixels; simpl; lra). assert (zero = 0) as -> by (unfold zero, extract, pixels; simpl; lra). cbn [np_interp fst snd].
    assert (LT : (x < midnight_of 2002 7 1)%Z). { destruct j as [|[|[|j]]]; simpl in Ex; [| | |destruct j; discriminate]; injection Ex as <-; vm_compute; reflexivity. }
    destruct (x <=? midnight_of 2000 1 1)%Z eqn:E1; [lra|]. rewrite (proj2 (Z.ltb_lt _ _) LT). set (a := midnight_of 2000 1 1) in *. set (b := midnight_of 2002 7 1) in *. apply Z.leb_gt in E1.
    assert (0 < IZR (b - a)) as P by (apply IZR_lt; lia). assert (IZR (x - a) < IZR (b - a)) as P' by (apply IZR_lt; lia). apply Rmult_lt_reg_r with (IZR (b - a)); [exact P|]. rewrite Rmult_0_l. replace ((1 + (0 - 1) / IZR (b - a) * IZR (x - a)) * IZR (b - a)) with (IZR (b - a) - IZR (x - a)) by (field; lra). lra. }
  assert (F : square_metres "m2" 1) by (left; simpl; auto).
  destruct (H [1%Z] 1 [1%Z] times masks tables [("glacier"%string, cs)] ltac:(lra) ltac:(repeat constructor) E (mkMask [false] []) cs 1%Z) as (d & I).
  - left. reflexivity.
  - reflexivity.
  - simpl. auto.
  - reflexivity.
  - unfold extract, pixels. simpl. lra.
  - destruct (column_exists [1%Z] 1 false true times masks sf_glacier 1%Z 0 L) as (v & V); [rewrite Y; simpl; lia|]. intros ->.
    assert (In (mjd_of (midnight_of 2000 1 1), (1%Z, v * 1)) []) as []. apply (registered_in _ _ _ _ _ _ _ G F). exists (map (fun x => Some x) (columns [1%Z] 1 false true times masks sf_glacier 1%Z)), 0%nat, (midnight_of 2000 1 1), v.
    split; [apply table_row; split; [left; reflexivity|reflexivity]|]. split; [rewrite table_dates, Y; reflexivity|]. split; [reflexivity|]. split; [reflexivity|]. split; [rewrite nth_error_map, V; reflexivity|exact Logic.I].
  - apply (registered_in _ _ _ _ _ _ _ G F) in I. destruct I as (vals & j & dz & x & Ir & _ & _ & Q & K & _). apply table_row in Ir. destruct Ir as (_ & ->). rewrite nth_error_map in K. destruct (nth_error (columns _ _ _ _ _ _ _ _) j) as [w|] eqn:W; [|discriminate]. injection K as ->. apply X in W. lra.
Qed.
Print Assumptions c91_final_refuted.
(** "A change between two masks is registered": not with the yearly interpolation when both are after the 1st of January of the same year. *)
Theorem c91_same_year_refuted : ~ (forall grid px ids times masks tables regs, 0 < px -> StronglySorted Z.lt times -> create_for_glaciers grid px false true ids times masks = Ok (tables, regs) ->
  forall id m m', In id ids -> In m masks -> In m' masks -> sf_glacier (extract grid px false m id) <> sf_glacier (extract grid px false m' id) -> exists name cs, In (name, cs) regs /\ cs <> []).
Proof.
  intro H. set (times := [midnight_of 2016 3 1; midnight_of 2016 10 1]). set (masks := [mkMask [true] []; mkMask [false] []]).
  assert (E : create_for_glaciers [1%Z] 1 false true [1%Z] times masks = Ok (map (surface_table [1%Z] 1 false true [1%Z] times masks) [sf_glacier; sf_other], [("glacier"%string, [])])).
  { destruct (proj2 (c91_masks [1%Z] 1 false true [1%Z] times masks) eq_refl) as ((tables & regs) & E). destruct (create_single _ _ _ _ _ _ _ _ E) as (cs & -> & G). destruct (create_ok _ _ _ _ _ _ _ _ _ E) as (_ & Qt & _ & _).
    rewrite E, Qt. destruct cs as [|(d & (id & x)) cs]; [reflexivity|]. exfalso.
    assert (F : square_metres "m2" 1) by (left; simpl; auto). assert (I : In (d, (id, x)) ((d, (id, x)) :: cs)) by (left; reflexivity). apply (registered_in _ _ _ _ _ _ _ G F) in I. destruct I as (vals & j & dz & a & _ & Ed & _). rewrite table_dates in Ed. assert (Y : yearly_times times = []) by (vm_compute; reflexivity). rewrite Y in Ed. destruct j; discriminate Ed. }
  destruct (H [1%Z] 1 [1%Z] times masks _ _ ltac:(lra) ltac:(repeat constructor) E 1%Z (mkMask [true] []) (mkMask [false] [])) as (name & cs & [Q|[]] & N).
  - left. reflexivity.
  - left. reflexivity.
  - right. left. reflexivity.
  - unfold extract, pixels. simpl. lra.
  - injection Q as <- <-. apply N. reflexivity.
Qed.
Print Assumptions c91_same_year_refuted.
