(** Properties C67 (properties of hydro units) and C68 (hydro units, areas and lateral connections). *)
From Verif Require Import Base BaseFacts Basin BasinSpec BasinFacts StructureSpec DeclareSpec DeclareFacts.
Open Scope string_scope.
Open Scope R_scope.

(** C67. Whatever unit a property was declared in ("degree" and the degree sign apart) and whatever unit it is asked in, a number that is answered
    expresses the same quantity. *)
Theorem c67_right_quantity : forall n u v u' w, u <> "degree" -> u <> "°" ->
  get_value (mkP n u (Num v)) u' = Some w -> same_quantity u v u' w.
Proof. exact right_quantity. Qed.
Print Assumptions c67_right_quantity.
Example c67_right_quantity_used : get_value (mkP "slope" "deg" (Num 45)) "m/m" = Some (tan (45 * PI / 180)) /\
  get_value (mkP "area" "m2" (Num 50000)) "ha" = Some (50000 / 10000).
Proof. split; reflexivity. Qed.

(** Otherwise the answer is NaN: exactly these conversions exist. *)
Theorem c67_convertible : forall n u v u', u <> "degree" -> u <> "°" ->
  (exists w, get_value (mkP n u (Num v)) u' = Some w) <-> convertible u u'.
Proof. exact answered. Qed.
Print Assumptions c67_convertible.

(** A number is found under the first declaration of its name, in the unit of that declaration. *)
Theorem c67_first_declared : forall u before n x un after unit, ud_numbers u = (before ++ (n, x, un) :: after)%list ->
  ~ In n (map (fun p => fst (fst p)) before) ->
  property_double (unit_props u) n unit = Ok (get_value (mkP n un (Num x)) unit).
Proof.
  intros u before n x un after unit E N; unfold property_double, unit_props; rewrite E.
  rewrite (find_app_numbers n x un before _ N after); reflexivity.
Qed.
Print Assumptions c67_first_declared.
Example c67_first_declared_used : property_double (unit_props (mkUD 1 10 2000 [] [("a", 1, "m"); ("slope", 30, "deg")] [])) "slope" "degrees" = Ok (Some 30).
Proof. reflexivity. Qed.
(** A text is found under the first declaration of its name, unless a number has that name. *)
Theorem c67_text : forall u before n x after, ud_texts u = (before ++ (n, x) :: after)%list ->
  ~ In n (map fst before) -> ~ In n (map (fun p => fst (fst p)) (ud_numbers u)) -> property_string (unit_props u) n = Ok x.
Proof.
  intros u before n x after E N M; unfold property_string, unit_props; rewrite E.
  assert (A : forall l r, ~ In n (map (fun p : string * R * string => fst (fst p)) l) ->
    find_prop n (map (fun '(n, x, un) => mkP n un (Num x)) l ++ r)%list = find_prop n r).
  { induction l as [|((m, y), w) l IH]; intros r H; cbn; [reflexivity|]. unfold find_prop in IH |- *. cbn. destruct (String.eqb_spec m n) as [->|]; [elim H; left; reflexivity|]. apply IH. intro K; apply H; right; exact K. }
  rewrite A by exact M. clear E. induction before as [|(m, y) l IH]; cbn.
  - unfold find_prop. cbn. rewrite String.eqb_refl. reflexivity.
  - unfold find_prop in IH |- *. cbn. destruct (String.eqb_spec m n) as [->|]; [elim N; left; reflexivity|]. apply IH. intro K; apply N; right; exact K.
Qed.
Print Assumptions c67_text.
Example c67_text_used : property_string (unit_props (mkUD 1 10 2000 [] [("slope", 30, "deg")] [("a", "b"); ("aspect_class", "north")])) "aspect_class" = Ok "north".
Proof. apply (c67_text _ [("a", "b")] _ _ []); cbn; intuition discriminate. Qed.

(** The processes and splitters of a unit are created exactly when each property they read was declared for the unit; otherwise an exception
    is thrown. *)
Theorem c67_needed : forall st u,
  (read_all (unit_props u) (structure_reads st) = Ok tt <-> forall r, In r (structure_reads st) -> declares u (reading_name r)) /\
  (read_all (unit_props u) (structure_reads st) = Throw <-> exists r, In r (structure_reads st) /\ ~ declares u (reading_name r)).
Proof.
  intros st u.
  assert (A : read_all (unit_props u) (structure_reads st) = Ok tt <-> forall r, In r (structure_reads st) -> declares u (reading_name r)).
  { rewrite read_all_ok; split; intros H r I; specialize (H r I); apply declares_names; auto. }
  split; auto.
  assert (D : forall n, declares u n \/ ~ declares u n).
  { intros n; rewrite declares_names; destruct (in_dec string_dec n (map p_name (unit_props u))); auto. }
  split.
  - intros H. assert (N : ~ (forall r, In r (structure_reads st) -> declares u (reading_name r))) by (rewrite <- A, H; discriminate).
    induction (structure_reads st) as [|r q IH]; [exfalso; apply N; intros ? []|].
    destruct (D (reading_name r)) as [Y|Z]; [|exists r; split; [left; auto|auto]].
    cbn [read_all] in H. assert (E : read_one (unit_props u) r = Ok tt) by (apply read_one_ok, declares_names; auto).
    rewrite E in H; cbn in H. destruct IH as (s & I & S); auto.
    + rewrite read_all_ok; split; intros HH s I; specialize (HH s I); apply declares_names; auto.
    + intros HH; apply N; intros s [<-|I]; auto.
    + exists s; split; [right; auto|auto].
  - intros (r & I & N). pose proof (read_all_not_ub (unit_props u) (structure_reads st)) as NU.
    destruct (read_all (unit_props u) (structure_reads st)) as [[]| |] eqn:E; auto; [|congruence].
    exfalso; apply N; apply (proj1 A); auto.
Qed.
Print Assumptions c67_needed.
Definition socont_glacier : structure :=
  mkStr [mkBs "surface-runoff" "storage" "" false None [mkPr "runoff" "runoff:socont" []]] [] [] [] [mkSs "snow_rain" "snow_rain:linear" []].
Example c67_needed_used : structure_reads socont_glacier = [ReadNumber "slope" "m/m"] /\
  read_all (unit_props (mkUD 1 10 2000 [] [("slope", 30, "deg")] [])) (structure_reads socont_glacier) = Ok tt /\
  read_all (unit_props (mkUD 1 10 2000 [] [] [])) (structure_reads socont_glacier) = Throw.
Proof. repeat split; reflexivity. Qed.

(** Refuted: a property declared in "degree" or with the degree sign is answered unconverted in every unit.  A slope of 45 degrees asked as m/m is
    45 instead of 1. *)
Theorem c67_degree_refuted :
  (forall n u v u', u = "degree" \/ u = "°" -> get_value (mkP n u (Num v)) u' = Some v) /\
  (forall w, same_quantity "degree" 45 "m/m" w -> w = 1) /\ get_value (mkP "slope" "degree" (Num 45)) "m/m" = Some 45.
Proof.
  split; [exact degree_raw|]; split; [|apply degree_raw; auto].
  intros w [[E _]|[(a & A & B)|(s & A & B)]]; [discriminate| |].
  - assert (a = 45 * PI / 180) as ->.
    { destruct A as [[_ A]|[[I _]|[[I _]|[I _]]]]; auto; cbn in I; repeat (destruct I as [I|I]; [discriminate|]); destruct I. }
    assert (w = tan (45 * PI / 180)) as ->.
    { destruct B as [[I _]|[[I _]|[[I _]|[_ B]]]]; auto; cbn in I; repeat (destruct I as [I|I]; [discriminate|]); destruct I. }
    replace (45 * PI / 180) with (PI / 4) by lra; apply tan_PI4.
  - destruct A as [[I _]|[[I _]|[I _]]]; cbn in I; repeat (destruct I as [I|I]; [discriminate|]); destruct I.
Qed.
Print Assumptions c67_degree_refuted.

(** Refuted: units that mean the same are not recognised as such, and a slope given in percent cannot be read at all; the answer is NaN, which
    the surface runoff of Socont takes as its slope without an error. *)
Theorem c67_synonyms_refuted : forall n v,
  get_value (mkP n "deg" (Num v)) "degree" = None /\ same_quantity "deg" v "degree" v /\
  get_value (mkP n "m2" (Num v)) "m^2" = None /\ same_quantity "m2" v "m^2" v /\
  get_value (mkP n "percent" (Num v)) "m/m" = None /\ same_quantity "percent" (100 * v) "m/m" v /\
  read_one [mkP "slope" "percent" (Num v)] (ReadNumber "slope" "m/m") = Ok tt.
Proof.
  intros n v; split; [reflexivity|]; split; [|split; [reflexivity|]; split; [|split; [reflexivity|]; split; [|reflexivity]]].
  - right; left; exists (v * PI / 180); split; left; split; cbn; auto.
  - right; right; exists v; split; left; split; cbn; auto.
  - right; left; exists (atan v); split; [right; right; left|right; right; right]; split; cbn; auto; rewrite atan_right_inv; reflexivity.
Qed.
Print Assumptions c67_synonyms_refuted.

(** Refuted: the elevation declared for a unit is not among its properties.  Whatever the table of hydro units of the Python class (whose column
    "elevation" is passed as the elevation of the unit and not as a property), a model with the CemaNeige splitter cannot be created. *)
Theorem c67_elevation_refuted : forall rows b b', populate rows b = Ok b' ->
  Forall (fun r => Forall (fun p => fst (fst p) <> "elevation") (rw_props r)) rows ->
  forall st s, In s (st_splitters st) -> sp_type s = "snow_rain:cemaneige" ->
  forall u, In u (ba_units b') -> read_all (unit_props u) (structure_reads st) = Throw.
Proof.
  intros rows b b' P F st s I E u U.
  apply (c67_needed st u); exists (ReadNumber "elevation" "m"); split.
  { unfold structure_reads; apply in_app_iff; right; apply in_flat_map; exists s; split; auto; rewrite E; left; reflexivity. }
  unfold populate, clear in P; apply rows_declared in P; destruct P as (vs & EQ & D & _); rewrite EQ in U; cbn in U.
  assert (exists r, In r rows /\ declared_by r u) as (r & R & (_ & _ & _ & N & T & _)).
  { clear -D U; induction D; [destruct U|]. destruct U as [->|U]; [exists x; split; [left|]; auto|].
    destruct (IHD U) as (r & A & B); exists r; split; [right|]; auto. }
  rewrite Forall_forall in F; specialize (F r R); rewrite Forall_forall in F.
  unfold declares; rewrite N, T; cbn [reading_name]; intros [H|H]; apply in_map_iff in H.
  - destruct H as ([[m x] w] & Q & H); unfold numbers_of in H; apply in_flat_map in H; destruct H as ([[m' v] w'] & Hi & Hv).
    destruct v as [y|y]; cbn in Hv; [|destruct Hv]. destruct Hv as [[= -> -> ->]|[]]. apply (F _ Hi); exact Q.
  - destruct H as ([m x] & Q & H); unfold texts_of in H; apply in_flat_map in H; destruct H as ([[m' v] w'] & Hi & Hv).
    destruct v as [y|y]; cbn in Hv; [destruct Hv|]. destruct Hv as [[= -> ->]|[]]. apply (F _ Hi); exact Q.
Qed.
Print Assumptions c67_elevation_refuted.
(** So no model declared with snow and the CemaNeige melt (and no other rain splitter asked for) can be created from the Python classes. *)
Theorem c67_cemaneige_refuted : forall covers o parts st, good_model covers o parts -> declare_model covers o parts = Ok st ->
  op_snow o = true -> op_melt o = "melt:cemaneige" -> op_split o = None ->
  forall rows b b', populate rows b = Ok b' -> Forall (fun r => Forall (fun p => fst (fst p) <> "elevation") (rw_props r)) rows ->
  forall u, In u (ba_units b') -> read_all (unit_props u) (structure_reads st) = Throw.
Proof.
  intros covers o parts st HG H S M SP rows b b' P F u U.
  rewrite (model_declared _ _ _ HG) in H; injection H as <-.
  destruct (rest_shape parts (base o covers)) as (_ & _ & E).
  eapply (c67_elevation_refuted rows b b' P F _ (mkSs "snow_rain_transition" (splitter_type o) (sp_outputs (hd (mkSs "" "" []) (st_splitters (base o covers)))))); auto.
  - rewrite E; unfold base; cbn [st_splitters]; unfold splitters; rewrite S; left; reflexivity.
  - cbn; unfold splitter_type; rewrite SP, M; reflexivity.
Qed.
Print Assumptions c67_cemaneige_refuted.
Example c67_elevation_case : exists b, populate [mkRow 1 10 2000 [("slope", Num 30, "deg")] [("ground", "ground", 1)]] empty_basin = Ok b /\
  map ud_elevation (ba_units b) = [2000].
Proof.
  unfold populate; cbn -[snap Rleb].
  assert (S : snap 1 = 1) by (apply (proj2 (snap_close 1)); lra); rewrite S.
  unfold Rleb; destruct (Rle_dec 0 1) as [_|]; [|lra]; destruct (Rle_dec 1 1) as [_|]; [|lra]; cbn; eexists; split; reflexivity.
Qed.

(** Refuted: the numbers of a catchment read from a file have no unit, so whatever the file holds, a property asked in some unit is NaN or missing
    (CemaNeige is refused, Socont computes with a NaN slope). *)
Theorem c67_file_units_refuted : forall f u n unit x, In u (ba_units (parse f empty_basin)) -> unit <> "" ->
  property_double (unit_props u) n unit = Ok x -> x = None.
Proof.
  intros f u n unit x I; apply no_units_nan. pose proof (parse_no_units f) as H; rewrite Forall_forall in H; auto.
Qed.
Print Assumptions c67_file_units_refuted.
Example c67_file_case : let b := parse (mkBF [1; 2]%Z [10; 20] [("ground", "generic", [1; 1])] [("ground", [1; 1]); ("slope", [30; 40])]) empty_basin in
  map ud_id (ba_units b) = [1; 2]%Z /\ map (fun u => property_double (unit_props u) "slope" "m/m") (ba_units b) = [Ok None; Ok None] /\
  map (fun u => property_double (unit_props u) "slope" "") (ba_units b) = [Ok (Some 30); Ok (Some 40)].
Proof. repeat split; reflexivity. Qed.

(** C68. The units of the settings are those of the table, in order, each with its own area, elevation, properties and land covers, whatever was
    declared before; fractions that deviate by at most 1e-8 from [0, 1] are snapped. *)
Theorem c68_declared : forall rows b b', populate rows b = Ok b' -> Forall2 declared_by rows (ba_units b') /\ ba_laterals b' = ba_laterals b.
Proof.
  intros rows b b' P; unfold populate, clear in P; apply rows_declared in P; destruct P as (vs & -> & D & L); cbn; auto.
Qed.
Print Assumptions c68_declared.
Example c68_declared_used : exists b, populate [mkRow 7 10 2000 [] [("ground", "ground", 1)]] empty_basin = Ok b /\ map ud_id (ba_units b) = [7]%Z.
Proof.
  unfold populate; cbn -[snap Rleb].
  assert (S : snap 1 = 1) by (apply (proj2 (snap_close 1)); lra); rewrite S.
  unfold Rleb; destruct (Rle_dec 0 1) as [_|]; [|lra]; destruct (Rle_dec 1 1) as [_|]; [|lra]; cbn; eexists; split; reflexivity.
Qed.

(** The sub-basin has these units in the same order with their ids, areas and properties, and its area is the sum of theirs. *)
Theorem c68_built : forall b l, build_basin b = Ok l ->
  map hu_id l = map ud_id (ba_units b) /\ map hu_area l = map ud_area (ba_units b) /\ map hu_props l = map unit_props (ba_units b) /\
  basin_area l = Rsum ud_area (ba_units b).
Proof.
  intros b l H; apply build_units in H; destruct H as (A & B & C); repeat split; auto.
  unfold basin_area; rewrite area_fold, Rplus_0_l; apply Rsum_map_eq; auto.
Qed.
Print Assumptions c68_built.

(** With distinct ids, each unit is connected to exactly the receivers declared for it, in order and with their shares; connections naming an
    unknown unit are dropped. *)
Theorem c68_connections : forall b l, NoDup (map ud_id (ba_units b)) -> build_basin b = Ok l ->
  forall u, In u l -> receivers l u = declared_receivers (map ud_id (ba_units b)) (ba_laterals b) (hu_id u).
Proof.
  intros b l N H u I; pose proof (build_units _ _ H) as (ID & _ & _); unfold build_basin in H.
  apply In_nth_error in I; destruct I as [k K].
  assert (IM : map hu_id (map make_unit (ba_units b)) = map ud_id (ba_units b)) by (rewrite map_map; reflexivity).
  assert (exists v, nth_error (map make_unit (ba_units b)) k = Some v) as [v V].
  { destruct (nth_error (map make_unit (ba_units b)) k) eqn:E; [eauto|]. apply nth_error_None in E.
    assert (k < length l)%nat by (apply nth_error_Some; congruence).
    apply (f_equal (@length Z)) in ID; rewrite !map_length in ID; rewrite map_length in E; lia. }
  rewrite <- IM in N. destruct (connections _ _ _ N H k v V) as (u' & A & B).
  rewrite K in A; injection A as <-. unfold receivers; rewrite B, IM.
  rewrite nth_error_map in V; destruct (nth_error (ba_units b) k) as [d|] eqn:D; [|discriminate]; injection V as <-; cbn [make_unit hu_connections map app hu_id].
  assert (hu_id u = ud_id d) as ->; [|reflexivity].
  apply (f_equal (fun m => nth_error m k)) in ID; rewrite !nth_error_map, K, D in ID; cbn in ID; congruence.
Qed.
Print Assumptions c68_connections.
Definition two_units : basin := mkBasin [mkUD 4 100 3000 [] [] []; mkUD 9 300 2000 [] [] []] (At 1) [mkLat 4 9 (3 / 4); mkLat 9 5 1; mkLat 4 5 (1 / 4)].
Example c68_connections_used : NoDup (map ud_id (ba_units two_units)) /\
  build_basin two_units = Ok [mkHU 4 100 [] [(1%nat, 3 / 4)]; mkHU 9 300 [] []] /\
  declared_receivers [4; 9]%Z (ba_laterals two_units) 4 = [(Some 9%Z, 3 / 4)].
Proof.
  split; [cbn; repeat constructor; cbn; intuition lia|split; [|reflexivity]].
  unfold build_basin, two_units, connect_all, connect, Rleb, Rltb; cbn -[Rdiv].
  destruct (Rle_dec (3 / 4) 0); [lra|]; destruct (Rlt_dec 1 (3 / 4)); [lra|]; reflexivity.
Qed.

(** The units are refused exactly when a connection between known units has a share outside ]0, 1]. *)
Theorem c68_refused : forall b, build_basin b <> UB /\
  (build_basin b = Throw <-> exists c, In c (ba_laterals b) /\ In (la_giver c) (map ud_id (ba_units b)) /\ In (la_receiver c) (map ud_id (ba_units b)) /\
    ~ (0 < la_fraction c <= 1)).
Proof.
  intros b; unfold build_basin; split; [apply connect_never_ub|].
  rewrite connect_throws, map_map; cbn; reflexivity.
Qed.
Print Assumptions c68_refused.

(** A table of connectivity that is accepted, on settings without connections: every unit of the table is connected to the units of its row with
    their ratios, which add up to 1 within 1.001e-5, never to itself; a unit without a row has no connection. *)
Theorem c68_connectivity : forall ids table b b' l, ba_laterals b = [] -> NoDup ids -> map ud_id (ba_units b) = ids -> NoDup (map fst table) ->
  set_connectivity ids table b = Ok b' -> build_basin b' = Ok l ->
  map hu_id l = ids /\
  (forall id ratios, In (id, ratios) table -> ratios <> [] ->
     (exists u, In u l /\ hu_id u = id) /\ Rabs (Rsum snd ratios - 1) <= 1001 / 100000000 /\
     Forall (fun '(t, x) => t <> id /\ In t ids /\ 0 < x <= 1) ratios) /\
  (forall u, In u l -> (forall ratios, In (hu_id u, ratios) table -> receivers l u = map (fun '(t, x) => (Some t, x)) ratios) /\
                       (~ In (hu_id u) (map fst table) -> receivers l u = [])).
Proof.
  intros ids table b b' l E N I NT S B.
  pose proof (connectivity_set _ _ _ _ S) as (U & L & F); rewrite E in L; cbn [app] in L.
  pose proof (build_units _ _ B) as (ID & _ & _); rewrite U, I in ID.
  rewrite Forall_forall in F. split; [auto|split].
  - intros id ratios R NE; pose proof (F _ R) as [F1 F2]; cbn beta iota in F1, F2. specialize (F1 NE).
    assert (POS : Forall (fun '(t, x) => t <> id /\ In t ids /\ 0 < x <= 1) ratios).
    { rewrite Forall_forall in F2 |- *; intros [t x] T; pose proof (F2 _ T) as (A1 & A2 & A3 & A4); repeat split; auto; [|lra].
      destruct (Rlt_dec 0 x); auto; exfalso.
      assert (T1 : build_basin b' = Throw); [|congruence].
      apply c68_refused; exists (mkLat id t x); rewrite U, I, L; cbn; repeat split; auto; [|lra].
      apply in_flat_map; exists (id, ratios); split; auto; apply in_map_iff; exists (t, x); auto. }
    split; [|split; auto].
    + destruct ratios as [|[t x] r]; [congruence|]. rewrite Forall_forall in F2; pose proof (F2 (t, x) (or_introl eq_refl)) as (_ & _ & A & _).
      rewrite <- ID in A; apply in_map_iff in A; destruct A as (u & A1 & A2); eauto.
    + eapply Rle_trans; [exact F1|lra].
  - intros u Iu; rewrite (c68_connections b' l) by (rewrite ?U, ?I; auto); rewrite U, I, L.
    assert (K : forall i m t x, In (i, m) table -> In (t, x) m -> In t ids).
    { intros i m t x A1 A2; pose proof (F _ A1) as [_ F2]; rewrite Forall_forall in F2; pose proof (F2 _ A2) as (_ & _ & _ & A); exact A. }
    destruct (declared_receivers_table ids table (hu_id u) NT K); auto.
Qed.
Print Assumptions c68_connectivity.
Definition bare_units : basin := mkBasin [mkUD 4 100 3000 [] [] []; mkUD 9 300 2000 [] [] []] (At 1) [].
Example c68_connectivity_used : exists b', set_connectivity [4; 9]%Z [(4%Z, [(9%Z, 1)]); (9%Z, [])] bare_units = Ok b' /\
  build_basin b' = Ok [mkHU 4 100 [] [(1%nat, 1)]; mkHU 9 300 [] []].
Proof.
  unfold set_connectivity, add_ratios, Rleb, Rltb; cbn -[Rabs].
  destruct (Rle_dec _ _) as [_|n]; [|exfalso; apply n; replace (1 + 0 - 1) with 0 by lra; rewrite Rabs_R0; lra].
  destruct (Rlt_dec 1 0); [lra|]; destruct (Rlt_dec 1 1); [lra|]; cbn.
  eexists; split; [reflexivity|]; unfold build_basin, connect_all, connect, Rleb, Rltb; cbn.
  destruct (Rle_dec 1 0); [lra|]; destruct (Rlt_dec 1 1); [lra|]; reflexivity.
Qed.

(** Refuted: a ratio of 0 is accepted in the table of connectivity and then makes the creation of the units fail. *)
Theorem c68_zero_ratio_refuted : exists b', set_connectivity [4; 9; 5]%Z [(4%Z, [(9%Z, 1); (5%Z, 0)])]
    (mkBasin [mkUD 4 100 3000 [] [] []; mkUD 9 300 2000 [] [] []; mkUD 5 50 1000 [] [] []] (At 2) []) = Ok b' /\ build_basin b' = Throw.
Proof.
  unfold set_connectivity, add_ratios, Rleb, Rltb; cbn -[Rabs].
  destruct (Rle_dec _ _) as [_|n]; [|exfalso; apply n; replace (1 + (0 + 0) - 1) with 0 by lra; rewrite Rabs_R0; lra].
  destruct (Rlt_dec 1 0); [lra|]; destruct (Rlt_dec 1 1); [lra|]; cbn.
  destruct (Rlt_dec 0 0); [lra|]; destruct (Rlt_dec 1 0); [lra|]; cbn.
  eexists; split; [reflexivity|]; apply c68_refused; exists (mkLat 4 5 0); cbn; repeat split; auto; lra.
Qed.
Print Assumptions c68_zero_ratio_refuted.

(** Refuted: setting the connectivity again, even after the units were declared again, adds to the connections instead of replacing them: the
    shares of every giver of an accepted table then add up to twice what the table says. *)
Theorem c68_twice_refuted : forall ids table b b1 b2 b3 rows l, ba_laterals b = [] -> NoDup ids -> NoDup (map fst table) ->
  set_connectivity ids table b = Ok b1 -> populate rows b1 = Ok b2 -> set_connectivity ids table b2 = Ok b3 ->
  map ud_id (ba_units b2) = ids -> build_basin b3 = Ok l ->
  forall u ratios, In u l -> In (hu_id u, ratios) table -> Rsum snd (hu_connections u) = 2 * Rsum snd ratios.
Proof.
  intros ids table b b1 b2 b3 rows l E N NT S1 P S2 I B u ratios U R.
  pose proof (connectivity_set _ _ _ _ S1) as (_ & L1 & F); rewrite E in L1; cbn [app] in L1.
  apply c68_declared in P; destruct P as [_ L2].
  pose proof (connectivity_set _ _ _ _ S2) as (U3 & L3 & _); rewrite L2, L1 in L3.
  assert (Q := c68_connections b3 l); rewrite U3, I in Q; specialize (Q N B u U); rewrite L3 in Q.
  assert (K : forall i m t x, In (i, m) table -> In (t, x) m -> In t ids).
  { rewrite Forall_forall in F; intros i m t x A1 A2; pose proof (F _ A1) as [_ F2]; rewrite Forall_forall in F2; pose proof (F2 _ A2) as (_ & _ & _ & A); exact A. }
  destruct (declared_receivers_table ids table (hu_id u) NT K) as [D _]; specialize (D ratios R).
  unfold declared_receivers in Q, D; rewrite filter_app, map_app in Q; rewrite D in Q.
  assert (SR : Rsum snd (receivers l u) = Rsum snd (hu_connections u)).
  { unfold receivers; induction (hu_connections u) as [|[t x] q IH]; cbn; auto; rewrite IH; auto. }
  rewrite <- SR, Q.
  assert (ST : forall q : list (Z * RbaseSymbolsImpl.R), Rsum snd (map (fun '(t, x) => (Some t, x)) q) = Rsum snd q).
  { induction q as [|[t x] q IH]; cbn; auto; rewrite IH; auto. }
  assert (SA : forall q q' : list (option Z * RbaseSymbolsImpl.R), Rsum snd (q ++ q')%list = Rsum snd q + Rsum snd q').
  { induction q as [|y q IH]; cbn; intros; [lra|rewrite IH; lra]. }
  rewrite SA, ST; lra.
Qed.
Print Assumptions c68_twice_refuted.

Example c68_twice_case : exists b1 b2 b3, set_connectivity [4; 9]%Z [(4%Z, [(9%Z, 1)])] bare_units = Ok b1 /\
  populate [mkRow 4 100 3000 [] []; mkRow 9 300 2000 [] []] b1 = Ok b2 /\ map ud_id (ba_units b2) = [4; 9]%Z /\
  set_connectivity [4; 9]%Z [(4%Z, [(9%Z, 1)])] b2 = Ok b3 /\ build_basin b3 = Ok [mkHU 4 100 [] [(1%nat, 1); (1%nat, 1)]; mkHU 9 300 [] []].
Proof.
  unfold set_connectivity, add_ratios, Rleb, Rltb; cbn -[Rabs].
  destruct (Rle_dec _ _) as [_|n]; [|exfalso; apply n; replace (1 + 0 - 1) with 0 by lra; rewrite Rabs_R0; lra].
  destruct (Rlt_dec 1 0); [lra|]; destruct (Rlt_dec 1 1); [lra|]; cbn.
  do 3 eexists; repeat (split; [reflexivity|]).
  unfold build_basin, connect_all, connect, Rleb, Rltb; cbn.
  destruct (Rle_dec 1 0); [lra|]; destruct (Rlt_dec 1 1); [lra|]; cbn; reflexivity.
Qed.

(** Refuted: ids are not checked.  Of two units with the same id the first loses its connections to the second. *)
Theorem c68_duplicate_ids_refuted :
  build_basin (mkBasin [mkUD 4 100 3000 [] [] []; mkUD 4 200 2500 [] [] []; mkUD 9 300 2000 [] [] []] (At 2) [mkLat 4 9 1]) =
  Ok [mkHU 4 100 [] []; mkHU 4 200 [] [(2%nat, 1)]; mkHU 9 300 [] []].
Proof.
  unfold build_basin, connect_all, connect, Rleb, Rltb; cbn.
  destruct (Rle_dec 1 0); [lra|]; destruct (Rlt_dec 1 1); [lra|]; reflexivity.
Qed.
Print Assumptions c68_duplicate_ids_refuted.

(** Refuted: a file read into settings that already have units gives the land covers and properties of its units to the earlier ones, and leaves
    the selection pointing at freed memory. *)
Theorem c68_second_file_refuted : let b := parse (mkBF [2]%Z [20] [("ground", "generic", [1])] []) (add_hydro_unit 1 10 2000 empty_basin) in
  map ud_covers (ba_units b) = [[mkCD "ground" "generic" 1]; []] /\ add_land_cover "glacier" "glacier" 1 b = UB.
Proof. split; reflexivity. Qed.
Print Assumptions c68_second_file_refuted.
