(** Proofs about the declaration of hydro units. *)
From Verif Require Import Base BaseFacts Basin BasinSpec.
Open Scope string_scope.
Open Scope R_scope.

Lemma eqb_iff : forall a b, String.eqb a b = true <-> a = b.
Proof. intros; apply String.eqb_eq. Qed.

Ltac str :=
  repeat match goal with
  | H : _ || _ = true |- _ => apply orb_true_iff in H
  | H : _ \/ _ |- _ => destruct H
  | H : String.eqb _ _ = true |- _ => apply String.eqb_eq in H
  | H : _ || _ = false |- _ => apply orb_false_iff in H; destruct H
  | H : String.eqb _ _ = false |- _ => apply String.eqb_neq in H
  end.

Lemma PI180 : forall v, v * PI / 180 = v * PI / 180. Proof. reflexivity. Qed.

Lemma right_quantity : forall n u v u' w, u <> "degree" -> u <> "°" -> get_value (mkP n u (Num v)) u' = Some w -> same_quantity u v u' w.
Proof.
  intros n u v u' w N1 N2; unfold get_value; cbn [p_value p_unit]; cbv zeta.
  destruct (String.eqb u u') eqn:E; [intros [= <-]; str; left; auto|].
  destruct (_ || _ || _ || _) eqn:D.
  - assert (U : In u ["degrees"; "degree"; "deg"; "°"]) by (str; subst; simpl; auto).
    destruct (String.eqb u' "degrees" || String.eqb u "degree" || String.eqb u' "deg" || String.eqb u "°") eqn:D2.
    { intros HH; injection HH as <-; right; left; exists (v * PI / 180); split; left; split; auto; str; subst; simpl; auto; congruence. }
    destruct (String.eqb u' "radians" || String.eqb u' "rad") eqn:D3.
    { intros HH; injection HH as <-; right; left; exists (v * PI / 180); split; [left; auto|right; left]; split; auto; str; subst; simpl; auto. }
    destruct (String.eqb u' "percent" || String.eqb u' "%") eqn:D4.
    { intros HH; injection HH as <-; right; left; exists (v * PI / 180); split; [left; auto|right; right; left]; split; auto; str; subst; simpl; auto. }
    destruct (String.eqb u' "m/m" || String.eqb u' "m_per_m") eqn:D5; [|discriminate].
    intros HH; injection HH as <-; right; left; exists (v * PI / 180); split; [left; auto|right; right; right]; split; auto; str; subst; simpl; auto.
  - destruct (String.eqb u "m2" || String.eqb u "m^2") eqn:D2; [|discriminate].
    assert (U : In u ["m2"; "m^2"]) by (str; subst; simpl; auto).
    destruct (String.eqb u' "ha") eqn:D3.
    { intros HH; injection HH as <-; right; right; exists v; split; [left; auto|right; left]; split; [str; subst; simpl; auto|lra]. }
    destruct (String.eqb u' "km2" || String.eqb u' "km^2") eqn:D4; [|discriminate].
    intros HH; injection HH as <-; right; right; exists v; split; [left; auto|right; right]; split; [str; subst; simpl; auto|lra].
Qed.

Lemma answered : forall n u v u', u <> "degree" -> u <> "°" ->
  (exists w, get_value (mkP n u (Num v)) u' = Some w) <-> convertible u u'.
Proof.
  intros n u v u' N1 N2; unfold get_value; cbn [p_value p_unit]; cbv zeta; split.
  - intros [w H].
    destruct (String.eqb u u') eqn:E; [str; left; auto|].
    destruct (_ || _ || _ || _) eqn:D.
    + assert (U : In u ["degrees"; "deg"]) by (str; subst; simpl; auto; congruence).
      right; left; split; auto.
      destruct (String.eqb u' "degrees" || String.eqb u "degree" || String.eqb u' "deg" || String.eqb u "°") eqn:D2; [str; subst; simpl; auto 10; congruence|].
      destruct (String.eqb u' "radians" || String.eqb u' "rad") eqn:D3; [str; subst; simpl; auto 10|].
      destruct (String.eqb u' "percent" || String.eqb u' "%") eqn:D4; [str; subst; simpl; auto 10|].
      destruct (String.eqb u' "m/m" || String.eqb u' "m_per_m") eqn:D5; [str; subst; simpl; auto 10|discriminate].
    + destruct (String.eqb u "m2" || String.eqb u "m^2") eqn:D2; [|discriminate].
      right; right; split; [str; subst; simpl; auto|].
      destruct (String.eqb u' "ha") eqn:D3; [str; subst; simpl; auto|].
      destruct (String.eqb u' "km2" || String.eqb u' "km^2") eqn:D4; [str; subst; simpl; auto|discriminate].
  - intros [->|[[U U']|[U U']]]; [rewrite String.eqb_refl; eauto| |];
    simpl in U, U'; repeat match goal with H : _ \/ _ |- _ => destruct H end; try tauto; subst; cbn -[PI tan]; eauto.
Qed.

Lemma degree_raw : forall n u v u', u = "degree" \/ u = "°" -> get_value (mkP n u (Num v)) u' = Some v.
Proof.
  intros n u v u' H; unfold get_value; cbn [p_value p_unit]; cbv zeta.
  destruct (String.eqb u u'); auto.
  destruct H as [-> | ->]; cbn [orb String.eqb Ascii.eqb Bool.eqb]; rewrite ?orb_true_r; reflexivity.
Qed.

(** ** Look-up of properties *)
Lemma find_prop_none : forall n l, find_prop n l = None <-> ~ In n (map p_name l).
Proof.
  unfold find_prop; induction l as [|p r IH]; cbn; [tauto|].
  destruct (String.eqb (p_name p) n) eqn:E; str.
  - split; [discriminate|tauto].
  - rewrite IH; tauto.
Qed.
Lemma unit_props_names : forall u, map p_name (unit_props u) = (map (fun p => fst (fst p)) (ud_numbers u) ++ map fst (ud_texts u))%list.
Proof.
  intros u; unfold unit_props; rewrite map_app, !map_map; f_equal; apply map_ext.
  - intros [[n x] un]; reflexivity.
  - intros [n s]; reflexivity.
Qed.
Lemma declares_names : forall u n, declares u n <-> In n (map p_name (unit_props u)).
Proof. intros u n; rewrite unit_props_names, in_app_iff; reflexivity. Qed.

Lemma read_one_ok : forall l r, read_one l r = Ok tt <-> In (reading_name r) (map p_name l).
Proof.
  intros l r; destruct r as [n un|n]; cbn; unfold property_double, property_string;
  destruct (find_prop n l) eqn:E; cbn.
  all: try (split; [|auto]; intros _; destruct (in_dec string_dec n (map p_name l)) as [i|i]; auto; apply find_prop_none in i; congruence).
  all: apply find_prop_none in E; split; [discriminate|tauto].
Qed.
Lemma read_one_not_ub : forall l r, read_one l r <> UB.
Proof.
  intros l r; destruct r as [n un|n]; cbn; unfold property_double, property_string; destruct (find_prop n l); cbn; discriminate.
Qed.
Lemma read_all_ok : forall l rs, read_all l rs = Ok tt <-> forall r, In r rs -> In (reading_name r) (map p_name l).
Proof.
  induction rs as [|r q IH]; cbn [read_all]; [split; [intros _ r []|auto]|].
  split.
  - destruct (read_one l r) as [[]| |] eqn:E; cbn; try discriminate; intros H s [<-|I].
    + apply read_one_ok in E; auto.
    + apply (proj1 IH H s I).
  - intros H; assert (E : read_one l r = Ok tt) by (apply read_one_ok, H; left; auto); rewrite E; cbn.
    apply IH; intros s I; apply H; right; auto.
Qed.
Lemma read_all_not_ub : forall l rs, read_all l rs <> UB.
Proof.
  induction rs as [|r q IH]; cbn [read_all]; [discriminate|].
  pose proof (read_one_not_ub l r); destruct (read_one l r); cbn; congruence.
Qed.
Lemma find_app_numbers : forall n x un l t, ~ In n (map (fun p : string * R * string => fst (fst p)) l) ->
  forall more, find_prop n (map (fun '(n, x, un) => mkP n un (Num x)) (l ++ (n, x, un) :: more)%list ++ t) = Some (mkP n un (Num x)).
Proof.
  intros n x un l t N more; unfold find_prop; induction l as [|[[m y] w] r IH]; cbn.
  - rewrite String.eqb_refl; reflexivity.
  - destruct (String.eqb m n) eqn:E; str; [subst; exfalso; apply N; cbn; auto|].
    apply IH; intro; apply N; cbn; auto.
Qed.

(** ** Declaration *)
Lemma upd_nth_last : forall {X} (f : X -> X) l x, upd_nth (length l) f (l ++ [x])%list = (l ++ [f x])%list.
Proof. induction l; cbn; intros; [reflexivity|rewrite IHl; reflexivity]. Qed.
Lemma upd_nth_length : forall {X} (f : X -> X) i l, length (upd_nth i f l) = length l.
Proof. induction i; destruct l; cbn; auto. Qed.

Definition at_last (us : list unit_decl) (u : unit_decl) (ls : list lateral) : basin := mkBasin (us ++ [u])%list (At (length us)) ls.
Lemma on_last : forall f us u ls, on_selected f (at_last us u ls) = Ok (at_last us (f u) ls).
Proof.
  intros; unfold on_selected, at_last; cbn [ba_selected ba_units ba_laterals].
  rewrite app_length; cbn [length].
  destruct (Nat.ltb_spec (length us) (length us + 1)); [|lia].
  rewrite upd_nth_last; reflexivity.
Qed.

Lemma props_declared : forall l us u ls, exists u', declare_props l (at_last us u ls) = Ok (at_last us u' ls) /\
  ud_id u' = ud_id u /\ ud_area u' = ud_area u /\ ud_elevation u' = ud_elevation u /\ ud_covers u' = ud_covers u /\
  ud_numbers u' = (ud_numbers u ++ numbers_of l)%list /\ ud_texts u' = (ud_texts u ++ texts_of l)%list.
Proof.
  induction l as [|[[n v] un] r IH]; intros us u ls.
  - exists u; cbn; rewrite !app_nil_r; auto 10.
  - destruct v as [x|s]; cbn [declare_props]; unfold add_number, add_text; rewrite on_last; cbn [bind];
    match goal with |- context [at_last us (?f ?p u) ls] => destruct (IH us (f p u) ls) as (u' & -> & E1 & E2 & E3 & E4 & E5 & E6) end;
    exists u'; rewrite E1, E2, E3, E4, E5, E6; cbn; rewrite <- ?app_assoc; cbn; auto 10.
Qed.

Lemma snap_close : forall f, Rabs (snap f - f) <= / 100000000 /\ (0 <= f <= 1 -> snap f = f).
Proof.
  intros f; unfold snap, Rleb, Rltb.
  assert (0 < / 100000000) by (apply Rinv_0_lt_compat; lra).
  destruct (Rle_dec (- / 100000000) f); destruct (Rlt_dec f 0); cbn [andb];
  destruct (Rlt_dec 1 f); destruct (Rle_dec f (1 + / 100000000)); cbn [andb]; split; intros; try lra; unfold Rabs; destruct Rcase_abs; lra.
Qed.

Lemma covers_declared : forall l us u ls b, declare_covers l (at_last us u ls) = Ok b -> exists u' cs, b = at_last us u' ls /\
  ud_id u' = ud_id u /\ ud_area u' = ud_area u /\ ud_elevation u' = ud_elevation u /\ ud_numbers u' = ud_numbers u /\
  ud_texts u' = ud_texts u /\ ud_covers u' = (ud_covers u ++ cs)%list /\ Forall2 fraction_declared l cs.
Proof.
  induction l as [|[[n t] f] r IH]; intros us u ls b; cbn [declare_covers].
  - intros [= <-]; exists u, []; rewrite app_nil_r; auto 10.
  - destruct (Rleb 0 (snap f) && Rleb (snap f) 1) eqn:S; [|discriminate].
    unfold add_land_cover; rewrite on_last; cbn [bind]; intros H; apply IH in H.
    destruct H as (u' & cs & -> & E1 & E2 & E3 & E4 & E5 & E6 & F).
    exists u', (mkCD n t (snap f) :: cs); rewrite E1, E2, E3, E4, E5, E6; cbn; rewrite <- app_assoc; cbn.
    repeat (split; [reflexivity|]); constructor; auto.
    unfold fraction_declared; cbn; unfold Rleb in S.
    destruct (Rle_dec 0 (snap f)), (Rle_dec (snap f) 1); cbn in S; try discriminate.
    destruct (snap_close f); repeat split; auto.
Qed.

Lemma rows_declared : forall l us sel ls b, declare_rows l (mkBasin us sel ls) = Ok b ->
  exists vs, ba_units b = (us ++ vs)%list /\ Forall2 declared_by l vs /\ ba_laterals b = ls.
Proof.
  induction l as [|r q IH]; intros us sel ls b; cbn [declare_rows].
  - intros [= <-]; exists []; cbn; rewrite app_nil_r; auto.
  - unfold add_hydro_unit; cbn [ba_units ba_laterals].
    change (mkBasin (us ++ [mkUD (rw_id r) (rw_area r) (rw_elevation r) [] [] []])%list (At (length us)) ls)
      with (at_last us (mkUD (rw_id r) (rw_area r) (rw_elevation r) [] [] []) ls).
    destruct (props_declared (rw_props r) us (mkUD (rw_id r) (rw_area r) (rw_elevation r) [] [] []) ls)
      as (u1 & -> & A1 & A2 & A3 & A4 & A5 & A6); cbn [bind].
    destruct (declare_covers (rw_covers r) (at_last us u1 ls)) as [b1| |] eqn:C; cbn [bind]; try discriminate.
    apply covers_declared in C; destruct C as (u2 & cs & -> & B1 & B2 & B3 & B4 & B5 & B6 & F).
    unfold at_last; intros H; apply IH in H; destruct H as (vs & E & G & L).
    exists (u2 :: vs); rewrite E, <- app_assoc; repeat split; auto; constructor; auto.
    unfold declared_by; rewrite B1, B2, B3, B4, B5, A1, A2, A3, A5, A6; cbn.
    repeat (split; [reflexivity|]); rewrite B6, A4; cbn; exact F.
Qed.

(** ** Building *)
Lemma unit_by_id_ids : forall id l l', map hu_id l = map hu_id l' -> unit_by_id id l = unit_by_id id l'.
Proof.
  induction l as [|u r IH]; destruct l' as [|u' r']; cbn; intros H; try discriminate; auto.
  injection H as H1 H2; rewrite (IH r'), H1; auto.
Qed.
Lemma unit_by_id_known : forall id l, unit_by_id id l = None <-> known (map hu_id l) id = false.
Proof.
  intros id l; unfold known; induction l as [|u r IH]; cbn; [tauto|].
  rewrite (Z.eqb_sym id (hu_id u)); destruct (unit_by_id id r).
  - split; [discriminate|]. intros H; apply orb_false_iff in H; destruct H as [_ H]; apply IH in H; discriminate.
  - destruct (Z.eqb (hu_id u) id); cbn; [split; discriminate|]; tauto.
Qed.
Lemma unit_by_id_nth : forall id l k, unit_by_id id l = Some k -> exists u, nth_error l k = Some u /\ hu_id u = id.
Proof.
  induction l as [|u r IH]; cbn; intros k H; [discriminate|].
  destruct (unit_by_id id r) as [j|]; [injection H as <-; apply IH; auto|].
  destruct (Z.eqb_spec (hu_id u) id); [|discriminate]; injection H as <-; exists u; auto.
Qed.
Lemma known_in : forall ids id, known ids id = true <-> In id ids.
Proof.
  unfold known; intros; rewrite existsb_exists; split.
  - intros (x & I & E); apply Z.eqb_eq in E; subst; auto.
  - intros I; exists id; split; auto; apply Z.eqb_refl.
Qed.

Definition add_conn (t : nat) (x : R) (u : hydro_unit) : hydro_unit := mkHU (hu_id u) (hu_area u) (hu_props u) (hu_connections u ++ [(t, x)])%list.
Lemma map_upd : forall {X Y} (g : X -> Y) f i l, (forall x, g (f x) = g x) -> map g (upd_nth i f l) = map g l.
Proof. induction i; destruct l; cbn; intros; auto; [rewrite H|rewrite IHi]; auto. Qed.
Lemma nth_upd : forall {X} (f : X -> X) i l k,
  nth_error (upd_nth i f l) k = if Nat.eqb k i then option_map f (nth_error l k) else nth_error l k.
Proof.
  induction i; destruct l, k; cbn; auto; try (destruct (Nat.eqb k i); reflexivity).
Qed.

Lemma connect_same : forall cs l l', connect_all cs l = Ok l' -> map hu_id l' = map hu_id l /\ map hu_area l' = map hu_area l /\ map hu_props l' = map hu_props l.
Proof.
  induction cs as [|c r IH]; intros l l'; cbn [connect_all]; [intros [= <-]; auto|].
  destruct (unit_by_id (la_giver c) l) as [g|]; [|apply IH].
  destruct (unit_by_id (la_receiver c) l) as [t|]; [|apply IH].
  unfold connect; destruct (_ || _); cbn [bind]; [discriminate|]; intros H; apply IH in H.
  rewrite !map_upd in H; auto.
Qed.

Lemma nodup_index : forall l k g u v, NoDup (map hu_id l) -> nth_error l k = Some u -> nth_error l g = Some v -> hu_id u = hu_id v -> k = g.
Proof.
  intros l k g u v N K G E; rewrite NoDup_nth_error in N; apply N.
  - rewrite map_length; apply nth_error_Some; congruence.
  - rewrite !nth_error_map, K, G; cbn; congruence.
Qed.

Lemma connections : forall cs l l' , NoDup (map hu_id l) -> connect_all cs l = Ok l' -> forall k u, nth_error l k = Some u ->
  exists u', nth_error l' k = Some u' /\
  map (fun '(t, x) => (option_map hu_id (nth_error l' t), x)) (hu_connections u') =
  (map (fun '(t, x) => (option_map hu_id (nth_error l' t), x)) (hu_connections u) ++ declared_receivers (map hu_id l) cs (hu_id u))%list.
Proof.
  induction cs as [|c r IH]; intros l l' N; cbn [connect_all].
  { intros [= <-] k u K; exists u; split; auto; unfold declared_receivers; cbn; rewrite app_nil_r; reflexivity. }
  destruct (unit_by_id (la_giver c) l) as [g|] eqn:G.
  2: { intros H k u K; destruct (IH l l' N H k u K) as (u' & A & B); exists u'; split; auto; rewrite B; f_equal.
       unfold declared_receivers; cbn [filter]. apply unit_by_id_known in G.
       destruct (Z.eqb_spec (la_giver c) (hu_id u)); cbn; auto.
       assert (T : known (map hu_id l) (la_giver c) = true) by (apply known_in; rewrite e; apply in_map, nth_error_In with k; auto).
       congruence. }
  destruct (unit_by_id (la_receiver c) l) as [t|] eqn:T.
  2: { intros H k u K; destruct (IH l l' N H k u K) as (u' & A & B); exists u'; split; auto; rewrite B; f_equal.
       unfold declared_receivers; cbn [filter]; apply unit_by_id_known in T; rewrite T, andb_false_r; reflexivity. }
  unfold connect; destruct (_ || _); cbn [bind]; [discriminate|].
  intros H k u K. fold (add_conn t (la_fraction c)) in H.
  assert (I : map hu_id (upd_nth g (add_conn t (la_fraction c)) l) = map hu_id l) by (apply map_upd; reflexivity).
  assert (KT : known (map hu_id l) (la_receiver c) = true).
  { destruct (known (map hu_id l) (la_receiver c)) eqn:Q; auto; apply unit_by_id_known in Q; congruence. }
  pose proof (connect_same _ _ _ H) as (ID & _ & _); rewrite I in ID.
  destruct (unit_by_id_nth _ _ _ G) as (ug & Gn & Gi).
  destruct (unit_by_id_nth _ _ _ T) as (ut & Tn & Ti).
  assert (TI : option_map hu_id (nth_error l' t) = Some (la_receiver c)).
  { rewrite <- nth_error_map, ID, nth_error_map, Tn; cbn; congruence. }
  assert (N' : NoDup (map hu_id (upd_nth g (add_conn t (la_fraction c)) l))) by (rewrite I; auto).
  pose proof (nth_upd (add_conn t (la_fraction c)) g l k) as NU; rewrite K in NU; cbn [option_map] in NU.
  destruct (Nat.eqb_spec k g) as [->|NE].
  - destruct (IH _ _ N' H g _ NU) as (u' & A & B); exists u'; split; auto; rewrite B, I; cbn [add_conn hu_connections hu_id].
    rewrite map_app; cbn [map]; rewrite TI, <- app_assoc; f_equal.
    unfold declared_receivers; cbn [filter]; rewrite KT.
    replace (hu_id u) with (la_giver c) by congruence; rewrite Z.eqb_refl; reflexivity.
  - destruct (IH _ _ N' H k _ NU) as (u' & A & B); exists u'; split; auto; rewrite B, I; f_equal.
    unfold declared_receivers; cbn [filter].
    destruct (Z.eqb_spec (la_giver c) (hu_id u)); cbn; auto.
    exfalso; apply NE; apply (nodup_index l k g u ug); auto; congruence.
Qed.

Lemma connect_never_ub : forall cs l, connect_all cs l <> UB.
Proof.
  induction cs as [|c r IH]; intros l; cbn [connect_all]; [discriminate|].
  destruct (unit_by_id (la_giver c) l); [|apply IH]; destruct (unit_by_id (la_receiver c) l); [|apply IH].
  unfold connect; destruct (_ || _); cbn [bind]; [discriminate|apply IH].
Qed.
Lemma connect_throws : forall cs l, connect_all cs l = Throw <->
  exists c, In c cs /\ In (la_giver c) (map hu_id l) /\ In (la_receiver c) (map hu_id l) /\ ~ (0 < la_fraction c <= 1).
Proof.
  induction cs as [|c r IH]; intros l; cbn [connect_all]; [split; [discriminate|intros (c & [] & _)]|].
  assert (KK : forall id, unit_by_id id l <> None <-> In id (map hu_id l)).
  { intros id; rewrite <- known_in, unit_by_id_known; destruct (known (map hu_id l) id); split; congruence. }
  assert (SKIP : (unit_by_id (la_giver c) l = None \/ unit_by_id (la_receiver c) l = None) ->
    (connect_all r l = Throw <-> exists c0, In c0 (c :: r) /\ In (la_giver c0) (map hu_id l) /\ In (la_receiver c0) (map hu_id l) /\ ~ (0 < la_fraction c0 <= 1))).
  { intros NO; rewrite IH; split; intros (d & I & A & B & C).
    - exists d; cbn; auto.
    - destruct I as [->|I]; [|exists d; auto]. exfalso; apply KK in A, B; tauto. }
  destruct (unit_by_id (la_giver c) l) as [g|] eqn:G; [|apply SKIP; auto].
  destruct (unit_by_id (la_receiver c) l) as [t|] eqn:T; [|apply SKIP; auto].
  assert (G' : In (la_giver c) (map hu_id l)) by (apply KK; congruence).
  assert (T' : In (la_receiver c) (map hu_id l)) by (apply KK; congruence).
  unfold connect, Rleb, Rltb; destruct (Rle_dec (la_fraction c) 0), (Rlt_dec 1 (la_fraction c)); cbn [orb bind].
  1-3: split; auto; intros _; exists c; repeat split; cbn; auto; lra.
  rewrite IH, map_upd by reflexivity; split; intros (d & I & A & B & C).
  - exists d; cbn; auto.
  - destruct I as [->|I]; [exfalso; lra|exists d; auto].
Qed.

Lemma area_fold : forall l a, fold_left (fun a u => a + hu_area u) l a = a + Rsum hu_area l.
Proof. induction l; cbn; intros; [lra|rewrite IHl; lra]. Qed.
Lemma Rsum_map_eq : forall {X Y} (f : X -> R) (g : Y -> R) l m, map f l = map g m -> Rsum f l = Rsum g m.
Proof. induction l; destruct m; cbn; intros H; try discriminate; auto; injection H as -> E; rewrite (IHl m); auto. Qed.

(** ** Connectivity tables *)
Lemma ratios_added : forall ids id l b b', add_ratios ids id l b = Ok b' ->
  ba_units b' = ba_units b /\ ba_laterals b' = (ba_laterals b ++ map (fun '(t, x) => mkLat id t x) l)%list /\
  Forall (fun '(t, x) => t <> id /\ 0 <= x <= 1 /\ In id ids /\ In t ids) l.
Proof.
  induction l as [|[t x] r IH]; intros b b'; cbn [add_ratios].
  - intros [= <-]; cbn; rewrite app_nil_r; auto.
  - destruct (Z.eqb_spec t id); [discriminate|].
    unfold Rltb; destruct (Rlt_dec x 0), (Rlt_dec 1 x); cbn [orb]; try discriminate.
    destruct (existsb (Z.eqb id) ids) eqn:E1; cbn [negb orb]; [|discriminate].
    destruct (existsb (Z.eqb t) ids) eqn:E2; cbn [negb orb]; [|discriminate].
    intros H; apply IH in H; destruct H as (U & L & F); cbn in U, L; rewrite <- app_assoc in L; cbn.
    repeat split; auto; constructor; auto; apply known_in in E1, E2; repeat split; auto; lra.
Qed.
Lemma connectivity_set : forall ids T b b', set_connectivity ids T b = Ok b' ->
  ba_units b' = ba_units b /\ ba_laterals b' = (ba_laterals b ++ flat_map (fun '(id, l) => map (fun '(t, x) => mkLat id t x) l) T)%list /\
  Forall (fun '(id, l) => (l <> [] -> Rabs (Rsum snd l - 1) <= / 100000000 + / 100000) /\
    Forall (fun '(t, x) => t <> id /\ 0 <= x <= 1 /\ In id ids /\ In t ids) l) T.
Proof.
  induction T as [|[id l] r IH]; intros b b'; cbn [set_connectivity].
  - intros [= <-]; cbn; rewrite app_nil_r; auto.
  - destruct l as [|p q].
    { intros H; apply IH in H; destruct H as (U & L & F); cbn; repeat split; auto; constructor; auto; split; [congruence|constructor]. }
    remember (p :: q) as l. unfold Rleb; destruct (Rle_dec _ _); [|discriminate].
    destruct (add_ratios ids id l b) as [b1| |] eqn:A; cbn [bind]; try discriminate.
    apply ratios_added in A; destruct A as (U1 & L1 & F1).
    intros H; apply IH in H; destruct H as (U & L & F); cbn [flat_map]; rewrite U, L, U1, L1, app_assoc; repeat split; auto.
Qed.

Lemma build_units : forall b l, build_basin b = Ok l -> map hu_id l = map ud_id (ba_units b) /\ map hu_area l = map ud_area (ba_units b) /\
  map hu_props l = map unit_props (ba_units b).
Proof.
  intros b l H; apply connect_same in H; rewrite !map_map in H; exact H.
Qed.

Lemma declared_receivers_table : forall ids T id, NoDup (map fst T) -> (forall i l t x, In (i, l) T -> In (t, x) l -> In t ids) ->
  (forall l, In (id, l) T -> declared_receivers ids (flat_map (fun '(id, l) => map (fun '(t, x) => mkLat id t x) l) T) id = map (fun '(t, x) => (Some t, x)) l) /\
  (~ In id (map fst T) -> declared_receivers ids (flat_map (fun '(id, l) => map (fun '(t, x) => mkLat id t x) l) T) id = []).
Proof.
  intros ids T id; induction T as [|[i m] r IH]; intros N K; [split; [intros l []|intros; reflexivity]|].
  cbn [map fst] in N; apply NoDup_cons_iff in N; destruct N as [N1 N2].
  destruct IH as [IH1 IH2]; auto; [intros; apply (K i0 l t x); auto; right; auto|].
  assert (OTHER : i <> id -> forall q, (forall t x, In (t, x) q -> In t ids) -> declared_receivers ids (map (fun '(t, x) => mkLat i t x) q) id = []).
  { intros D q _; unfold declared_receivers; induction q as [|[t x] q IHq]; cbn; auto. destruct (Z.eqb_spec i id); [congruence|]; cbn; exact IHq. }
  assert (SAME : forall q, (forall t x, In (t, x) q -> In t ids) -> declared_receivers ids (map (fun '(t, x) => mkLat id t x) q) id = map (fun '(t, x) => (Some t, x)) q).
  { intros q; unfold declared_receivers; induction q as [|[t x] q IHq]; cbn; auto; intros F. rewrite Z.eqb_refl.
    assert (T1 : known ids t = true) by (apply known_in; apply (F t x); auto); rewrite T1; cbn; rewrite IHq; auto; intros; apply (F t0 x0); auto. }
  assert (APP : forall a b, declared_receivers ids (a ++ b)%list id = (declared_receivers ids a id ++ declared_receivers ids b id)%list).
  { intros; unfold declared_receivers; rewrite filter_app, map_app; reflexivity. }
  cbn [flat_map]; rewrite APP; split.
  - intros l [[= -> ->]|I].
    + rewrite SAME by (intros; apply (K id l t x); cbn; auto); rewrite IH2 by auto; apply app_nil_r.
    + rewrite OTHER; [cbn; apply IH1; auto| |intros; apply (K i m t x); cbn; auto].
      intros ->; apply N1; apply (in_map fst) in I; exact I.
  - intros NI; rewrite OTHER; [cbn; apply IH2; cbn in NI; tauto|cbn in NI; tauto|intros; apply (K i m t x); cbn; auto].
Qed.

(** Numbers read from a file have no unit. *)
Definition no_units (u : unit_decl) : Prop := Forall (fun p => snd p = "") (ud_numbers u).
Lemma push_each_no_units : forall {X} (f : X -> unit_decl -> unit_decl), (forall x u, no_units u -> no_units (f x u)) ->
  forall vs l, Forall no_units l -> Forall no_units (push_each f vs l).
Proof.
  intros X f P; induction vs as [|v vs IH]; destruct l as [|u us]; cbn; auto; intros H.
  inversion H; subst; constructor; auto.
Qed.
Lemma parse_no_units : forall f, Forall no_units (ba_units (parse f empty_basin)).
Proof.
  intros f; unfold parse; cbn [ba_units empty_basin].
  set (u0 := ([] ++ map _ _)%list). assert (H0 : Forall no_units u0).
  { subst u0; cbn [app]; apply Forall_forall; intros u I; apply in_map_iff in I; destruct I as ([i a] & <- & _); constructor. }
  clearbody u0; revert u0 H0. induction (bf_covers f) as [|[[n t] fr] r IH]; intros u0 H0; cbn [fold_left].
  - revert u0 H0; induction (bf_variables f) as [|[n vs] r IH]; intros u0 H0; cbn [fold_left]; auto.
    apply IH, push_each_no_units; auto. intros x u H; unfold no_units, push_number; cbn; apply Forall_app; split; auto.
  - apply IH, push_each_no_units; auto.
Qed.
Lemma no_units_nan : forall u n un x, no_units u -> un <> "" -> property_double (unit_props u) n un = Ok x -> x = None.
Proof.
  intros u n un x NU NE; unfold property_double, find_prop; destruct (find _ _) as [p|] eqn:F; [|discriminate]; intros [= <-].
  apply find_some in F; destruct F as [I _]; unfold unit_props in I; apply in_app_iff in I; destruct I as [I|I]; apply in_map_iff in I.
  - destruct I as ([[m y] w] & <- & I); unfold no_units in NU; rewrite Forall_forall in NU; apply NU in I; cbn in I; subst w.
    unfold get_value; cbn [p_value p_unit]; cbv zeta.
    destruct (String.eqb "" un) eqn:E; [apply String.eqb_eq in E; congruence|reflexivity].
  - destruct I as ([m s] & <- & _); reflexivity.
Qed.
