(** A declared model is in the order of the flow. *)
From Coq Require Import FinFun Permutation.
From Verif Require Import Base BaseFacts Container ContainerFacts Direct DirectSpec Network NetworkSpec Topology Catchment CatchmentSpec Build BuildSpec BuildFacts BuildSound
  StructureSpec StructureFacts PartsFacts DeclareSpec.
Open Scope list_scope.

(** ** Lists *)
Lemma pick_app st l l' : pick st (l ++ l') = pick st l ++ pick st l'.
Proof. unfold pick. rewrite map_app, concat_app. reflexivity. Qed.
Lemma pick_seq st B : forall A C, st_bricks st = A ++ B ++ C -> pick st (seq (length A) (length B)) = B.
Proof.
  induction B as [|b B IH]; intros A C E; [reflexivity|].
  assert (H : pick st (seq (S (length A)) (length B)) = B).
  { replace (S (length A)) with (length (A ++ [b])) by (rewrite app_length; cbn; lia). apply (IH (A ++ [b]) C). rewrite <- app_assoc. exact E. }
  unfold pick in *. cbn [length seq map concat]. rewrite H, E. cbn [app]. rewrite nth_error_mid. reflexivity.
Qed.
Lemma mem_seq i a k : mem i (seq a k) = (Nat.leb a i && Nat.ltb i (a + k))%bool.
Proof.
  destruct (mem i (seq a k)) eqn:E.
  - apply mem_in, in_seq in E. symmetry. apply andb_true_iff. split; [apply Nat.leb_le; lia|apply Nat.ltb_lt; lia].
  - symmetry. apply andb_false_iff. destruct (Nat.leb a i) eqn:E1; [right|left; reflexivity]. apply Nat.ltb_ge. apply Nat.leb_le in E1.
    destruct (Nat.lt_ge_cases i (a + k)) as [H|H]; [|exact H]. exfalso. assert (K : In i (seq a k)) by (apply in_seq; lia). apply mem_in in K. congruence.
Qed.
Lemma filter_all {X} (t : X -> bool) l : (forall x, In x l -> t x = true) -> filter t l = l.
Proof. induction l as [|x l IH]; cbn; intros H; [reflexivity|]. rewrite (H x (or_introl eq_refl)), IH; auto. Qed.
Lemma filter_none {X} (t : X -> bool) l : (forall x, In x l -> t x = false) -> filter t l = [].
Proof. induction l as [|x l IH]; cbn; intros H; [reflexivity|]. rewrite (H x (or_introl eq_refl)), IH; auto. Qed.
Lemma created_blocks st A B C : st_bricks st = A ++ B ++ C -> st_covers st = seq 0 (length A) -> st_components st = seq (length A) (length B) ->
  created st = B ++ A ++ C.
Proof.
  intros E1 E2 E3. unfold created. rewrite E2, E3, (pick_seq st B A C E1). f_equal. f_equal.
  - exact (pick_seq st A [] (B ++ C) E1).
  - unfold others. rewrite E1, E2, E3, !app_length, (Nat.add_assoc (length A)), (seq_app (length A + length B)), (seq_app (length A)), !filter_app.
    rewrite (filter_none _ (seq 0 (length A))), (filter_none _ (seq (0 + length A) (length B))), filter_all.
    + cbn [app]. rewrite Nat.add_0_l, <- app_length. apply (pick_seq st C (A ++ B) []). rewrite app_nil_r, <- app_assoc. exact E1.
    + intros i Hi. apply in_seq in Hi. rewrite !mem_seq. apply andb_true_iff. split; apply negb_true_iff, andb_false_iff; right; apply Nat.ltb_ge; lia.
    + intros i Hi. apply in_seq in Hi. rewrite !mem_seq. apply andb_false_iff. left. apply negb_false_iff, andb_true_iff. split; [apply Nat.leb_le; lia|apply Nat.ltb_lt; lia].
    + intros i Hi. apply in_seq in Hi. rewrite !mem_seq. apply andb_false_iff. right. apply negb_false_iff, andb_true_iff. split; [apply Nat.leb_le; lia|apply Nat.ltb_lt; lia].
Qed.

Section Model.
Variable covers : list (string * string).
Variable o : options.
Variable parts : list part.
Hypothesis HG : good_model covers o parts.
Local Notation st := (add_parts parts (base o covers)).

(** ** Shape of the structure *)
Definition is_unit (p : part) : bool := match pt_kind p with UnitPart => true | _ => false end.
Definition is_basin (p : part) : bool := match pt_kind p with BasinPart => true | _ => false end.
Definition part_brick (p : part) : bset := add_declared p (new_brick (pt_key p) (pt_type p)).
Definition dress1 (p : part) (b : bset) : bset := match pt_kind p with CoverPart => if String.eqb (bs_name b) (pt_key p) then add_declared p b else b | _ => b end.
Definition dress (l : list part) (b : bset) : bset := fold_left (fun b p => dress1 p b) l b.
Lemma dress_other l b : (forall p, In p l -> pt_kind p = CoverPart -> pt_key p <> bs_name b) -> dress l b = b.
Proof.
  induction l as [|p l IH]; intros H; [reflexivity|]. cbn. unfold dress1 at 2. destruct (pt_kind p) eqn:E.
  - assert (K : String.eqb (bs_name b) (pt_key p) = false). { apply String.eqb_neq. intros K. exact (H p (or_introl eq_refl) E (eq_sym K)). }
    rewrite K. apply IH. intros q Hq. apply H. right. exact Hq.
  - apply IH. intros q Hq. apply H. right. exact Hq.
  - apply IH. intros q Hq. apply H. right. exact Hq.
Qed.
Lemma bricks_shape : forall l s, NoDup (map pt_key l) -> st_bricks (add_parts l s) = map (dress l) (st_bricks s) ++ map part_brick (filter is_unit l).
Proof.
  induction l as [|p l IH]; intros s N.
  - cbn. rewrite app_nil_r. symmetry. apply map_id.
  - cbn [map] in N. inversion N as [|? ? N1 N2]; subst. change (add_parts (p :: l) s) with (add_parts l (add_part p s)). rewrite (IH _ N2).
    assert (Eu : is_unit p = match pt_kind p with UnitPart => true | _ => false end) by reflexivity.
    assert (Ed : forall b, dress (p :: l) b = dress l (match pt_kind p with CoverPart => if String.eqb (bs_name b) (pt_key p) then add_declared p b else b | _ => b end)) by reflexivity.
    cbn [filter]. rewrite Eu, (map_ext _ _ Ed). unfold add_part. destruct (pt_kind p) eqn:E.
    + cbn [with_bricks st_bricks]. rewrite map_map. reflexivity.
    + cbn [with_bricks st_bricks map]. rewrite map_app, <- app_assoc. f_equal.
      cbn [map app]. f_equal. apply dress_other. intros q Hq Hk K. apply N1. change (bs_name (part_brick p)) with (pt_key p) in K.
      rewrite <- K. apply in_map, Hq.
    + reflexivity.
Qed.
Lemma basin_shape : forall l s, st_basin (add_parts l s) = st_basin s ++ map part_brick (filter is_basin l).
Proof.
  induction l as [|p l IH]; intros s; [cbn; rewrite app_nil_r; reflexivity|].
  change (add_parts (p :: l) s) with (add_parts l (add_part p s)). rewrite IH. unfold add_part. cbn [filter]. unfold is_basin at 2. destruct (pt_kind p); cbn; auto.
  rewrite <- app_assoc. reflexivity.
Qed.
Lemma rest_shape : forall l s, st_covers (add_parts l s) = st_covers s /\ st_components (add_parts l s) = st_components s /\ st_splitters (add_parts l s) = st_splitters s.
Proof.
  induction l as [|p l IH]; intros s; [auto|]. change (add_parts (p :: l) s) with (add_parts l (add_part p s)). destruct (IH (add_part p s)) as (->&->&->).
  unfold add_part. destruct (pt_kind p); auto.
Qed.

Definition dressed (c : string * string) : bset := dress parts (cover_brick c).
Definition storages : list bset := map part_brick (filter is_unit parts).
Lemma base_names b : In b (canopies o covers ++ packs o covers) -> exists c, In c covers /\ (bs_name b = canopy_of (fst c) \/ bs_name b = pack_of (fst c)).
Proof.
  intros H. apply in_app_or in H as [H|H].
  - apply in_map_iff in H as (c&<-&H). apply filter_In in H as [H _]. exists c. auto.
  - unfold packs in H. destruct (op_snow o); [|destruct H]. apply in_map_iff in H as (c&<-&H). exists c. auto.
Qed.
Lemma st_bricks_eq : st_bricks st = map dressed covers ++ (canopies o covers ++ packs o covers) ++ storages.
Proof.
  rewrite (bricks_shape _ _ (gm_keys _ _ _ HG)). unfold base. cbn [st_bricks]. rewrite map_app, map_map, <- app_assoc. f_equal. f_equal.
  rewrite <- (map_id (canopies o covers ++ packs o covers)) at 2. apply map_ext_in. intros b Hb. apply dress_other. intros p Hp Hk K.
  destruct (base_names b Hb) as (c&Hc&E). pose proof (gm_cover _ _ _ HG p Hp Hk) as Hin. apply in_map_iff in Hin as (d&Ed&Hd).
  destruct (gn_apart _ (gm_names _ _ _ HG) d c Hd Hc) as [A1 A2]. destruct E as [E|E]; congruence.
Qed.
Lemma created_eq : created st = (canopies o covers ++ packs o covers) ++ map dressed covers ++ storages.
Proof.
  destruct (rest_shape parts (base o covers)) as (E1&E2&_). apply created_blocks; [exact st_bricks_eq| |].
  - rewrite E1, map_length. reflexivity.
  - rewrite E2, map_length, app_length. reflexivity.
Qed.

(** ** Dressed covers *)
Lemma dressed_attrs c : bs_name (dressed c) = fst c /\ bs_type (dressed c) = brick_type_of (snd c).
Proof.
  unfold dressed. assert (K : forall l b, bs_name (dress l b) = bs_name b /\ bs_type (dress l b) = bs_type b).
  { induction l as [|p l IH]; intros b; [auto|]. change (dress (p :: l) b) with (dress l (dress1 p b)). destruct (IH (dress1 p b)) as [-> ->]. unfold dress1. destruct (pt_kind p); auto. destruct (String.eqb _ _); auto. }
  apply K.
Qed.
Lemma dress_capacity x : forall l b, bs_capacity (dress l b) = Some x -> bs_capacity b = Some x \/ exists p, In p l /\ pt_capacity p = Some x.
Proof.
  induction l as [|p l IH]; intros b H; [auto|]. change (dress (p :: l) b) with (dress l (dress1 p b)) in H. apply IH in H as [H|(q&Hq&H)]; [|right; exists q; split; [right; exact Hq|exact H]].
  unfold dress1 in H. destruct (pt_kind p); auto. destruct (String.eqb _ _); auto. cbn in H. destruct (bs_capacity b); [auto|]. right. exists p. split; [left; reflexivity|exact H].
Qed.
Lemma dress_process x : forall l b, In x (bs_processes (dress l b)) ->
  In x (bs_processes b) \/ exists p q, In p l /\ pt_kind p = CoverPart /\ pt_key p = bs_name b /\ In q (pt_processes p) /\ x = declared_process q.
Proof.
  induction l as [|p l IH]; intros b H; [auto|]. change (dress (p :: l) b) with (dress l (dress1 p b)) in H. apply IH in H as [H|(p'&q&H1&H2&H3&H4&H5)].
  - unfold dress1 in H. destruct (pt_kind p) eqn:E; auto. destruct (String.eqb (bs_name b) (pt_key p)) eqn:En; auto. cbn in H. apply in_app_or in H as [H|H]; auto.
    apply in_map_iff in H as (q&<-&Hq). apply String.eqb_eq in En. right. exists p, q. repeat split; auto. left. reflexivity.
  - right. exists p', q. split; [right; exact H1|]. split; [exact H2|]. split; [|auto]. rewrite H3. unfold dress1. destruct (pt_kind p); auto. destruct (String.eqb _ _); reflexivity.
Qed.

(** ** Who is in a unit *)
Inductive member (b : bset) : Prop :=
| is_canopy c : In c covers -> has_canopy o c = true -> b = canopy_brick o c -> member b
| is_pack c : In c covers -> op_snow o = true -> b = pack_brick c (pack_processes o c) -> member b
| is_cover' c : In c covers -> b = dressed c -> member b
| is_store p : In p parts -> pt_kind p = UnitPart -> b = part_brick p -> member b.
Lemma unit_part p : In p (filter is_unit parts) <-> In p parts /\ pt_kind p = UnitPart.
Proof. rewrite filter_In. unfold is_unit. destruct (pt_kind p); intuition congruence. Qed.
Lemma basin_part p : In p (filter is_basin parts) <-> In p parts /\ pt_kind p = BasinPart.
Proof. rewrite filter_In. unfold is_basin. destruct (pt_kind p); intuition congruence. Qed.
Lemma created_member b : In b (created st) <-> member b.
Proof.
  rewrite created_eq, !in_app_iff. split.
  - intros [[H|H]|[H|H]].
    + apply in_map_iff in H as (c&<-&H). apply filter_In in H as [H1 H2]. exact (is_canopy _ c H1 H2 eq_refl).
    + unfold packs in H. destruct (op_snow o) eqn:E; [|destruct H]. apply in_map_iff in H as (c&<-&H). exact (is_pack _ c H E eq_refl).
    + apply in_map_iff in H as (c&<-&H). exact (is_cover' _ c H eq_refl).
    + apply in_map_iff in H as (p&<-&H). apply unit_part in H as [H1 H2]. exact (is_store _ p H1 H2 eq_refl).
  - intros [c H1 H2 ->|c H1 H2 ->|c H1 ->|p H1 H2 ->].
    + left. left. apply in_map, filter_In. auto.
    + left. right. unfold packs. rewrite H2. exact (in_map (fun c => pack_brick c (pack_processes o c)) _ _ H1).
    + right. left. apply in_map, H1.
    + right. right. apply in_map, unit_part. auto.
Qed.
Lemma cover_kind c : In c covers -> land_cover (dressed c).
Proof.
  intros H. pose proof (gm_cover_types _ _ _ HG c H) as K. unfold land_cover. destruct (dressed_attrs c) as [_ ->]. cbn in K.
  repeat destruct K as [K|K]; try (rewrite <- K; cbn; auto). destruct K.
Qed.
Lemma store_kind p : In p parts -> pt_kind p <> CoverPart -> storage (part_brick p) /\ bs_directly (part_brick p) = pt_directly p.
Proof. intros H1 H2. unfold storage, part_brick. cbn. rewrite (gm_storage _ _ _ HG p H1 H2). auto. Qed.
Lemma canopy_kind c : kind_of (bs_type (canopy_brick o c)) = Some KCanopy.
Proof. reflexivity. Qed.
Lemma pack_kind c l : kind_of (bs_type (pack_brick c l)) = Some KPack.
Proof. reflexivity. Qed.

(** ** Names *)
Lemma component_reserved s t : In t ["_snowpack"; "_canopy"]%string -> ~ In (s ++ t)%string reserved.
Proof.
  intros Ht H. assert (K : forall r, In r reserved -> (s ++ t)%string <> r).
  { intros r Hr E. apply (f_equal list_ascii_of_string) in E. rewrite list_ascii_append in E. apply (f_equal (@rev ascii)) in E. rewrite rev_app_distr in E.
    cbn in Ht, Hr. repeat destruct Ht as [<-|Ht]; try (destruct Ht); repeat destruct Hr as [<-|Hr]; try (destruct Hr); cbn in E; discriminate. }
  exact (K _ H eq_refl).
Qed.
Lemma member_reserved b : member b -> ~ In (bs_name b) reserved.
Proof.
  intros [c H1 H2 ->|c H1 H2 ->|c H1 ->|p H1 H2 ->].
  - apply component_reserved. right. left. reflexivity.
  - apply component_reserved. left. reflexivity.
  - destruct (dressed_attrs c) as [-> _]. exact (gn_reserved _ (gm_names _ _ _ HG) c H1).
  - apply (gm_new _ _ _ HG p H1). congruence.
Qed.
Lemma NoDup_map_map {X Y Z} (f : X -> Y) (g : X -> Z) l : NoDup (map f l) -> (forall x y, g x = g y -> f x = f y) -> NoDup (map g l).
Proof.
  intros H Hg. induction l as [|x l IH]; cbn in *; [constructor|]. inversion H as [|? ? N1 N2]; subst. constructor; [|auto].
  intros K. apply in_map_iff in K as (y&E&Hy). apply N1. rewrite <- (Hg _ _ E). apply in_map, Hy.
Qed.
Lemma created_names : NoDup (map bs_name (created st)).
Proof.
  pose proof (gm_names _ _ _ HG) as Hn. pose proof (gn_distinct _ Hn) as D.
  rewrite created_eq, !map_app. unfold storages, canopies. rewrite !map_map.
  assert (Ec : map (fun c => bs_name (dressed c)) covers = map fst covers) by (apply map_ext; intros c; apply dressed_attrs). rewrite Ec.
  assert (Hp : forall s, In s (map bs_name (packs o covers)) -> exists c, In c covers /\ s = pack_of (fst c)).
  { intros s H. unfold packs in H. destruct (op_snow o); [|destruct H]. rewrite map_map in H. apply in_map_iff in H as (c&<-&H). exists c. auto. }
  assert (Hy : forall s, In s (map (fun c => bs_name (canopy_brick o c)) (filter (has_canopy o) covers)) -> exists c, In c covers /\ s = canopy_of (fst c)).
  { intros s H. apply in_map_iff in H as (c&<-&H). apply filter_In in H as [H _]. exists c. auto. }
  assert (Hs : forall s, In s (map (fun p => bs_name (part_brick p)) (filter is_unit parts)) -> exists p, In p parts /\ pt_kind p <> CoverPart /\ s = pt_key p).
  { intros s H. apply in_map_iff in H as (p&<-&H). apply unit_part in H as [H1 H2]. exists p. repeat split; auto. congruence. }
  apply NoDup_app_intro; [|apply NoDup_app_intro|].
  - apply NoDup_app_intro.
    + apply (NoDup_map_map fst); [apply NoDup_map_filter; exact D|]. intros x y E. exact (canopy_inj _ _ E).
    + unfold packs. destruct (op_snow o); [|constructor]. rewrite map_map. apply (NoDup_map_map fst); [exact D|]. intros x y E. exact (pack_inj _ _ E).
    + intros s A B. destruct (Hy s A) as (c&_&->). destruct (Hp _ B) as (d&_&E). exact (pack_not_canopy _ _ (eq_sym E)).
  - exact D.
  - apply (NoDup_map_map pt_key); [apply NoDup_map_filter; exact (gm_keys _ _ _ HG)|]. intros x y E. exact E.
  - intros s A B. apply in_map_iff in A as (c&<-&A). destruct (Hs _ B) as (p&P1&P2&E). destruct (gm_new _ _ _ HG p P1 P2) as [_ K]. destruct (K c A) as [K1 _]. congruence.
  - intros s A B. apply in_app_or in B as [B|B]; apply in_app_or in A as [A|A].
    + destruct (Hy s A) as (c&C1&->). apply in_map_iff in B as (d&E&B). exact (proj2 (gn_apart _ Hn d c B C1) E).
    + destruct (Hp s A) as (c&C1&->). apply in_map_iff in B as (d&E&B). exact (proj1 (gn_apart _ Hn d c B C1) E).
    + destruct (Hy s A) as (c&C1&->). destruct (Hs _ B) as (p&P1&P2&E). destruct (gm_new _ _ _ HG p P1 P2) as [_ K]. destruct (K c C1) as (_&_&K1). congruence.
    + destruct (Hp s A) as (c&C1&->). destruct (Hs _ B) as (p&P1&P2&E). destruct (gm_new _ _ _ HG p P1 P2) as [_ K]. destruct (K c C1) as (_&K1&_). congruence.
Qed.

(** ** Order *)
Lemma before_storages p d : before parts p d -> pt_kind p = UnitPart -> pt_kind d = UnitPart -> before (created st) (part_brick p) (part_brick d).
Proof.
  intros B Hp Hd. rewrite created_eq. apply before_app_r, before_app_r, before_map, before_filter; auto; unfold is_unit; [rewrite Hp|rewrite Hd]; reflexivity.
Qed.
Lemma before_component_cover b c : In b (canopies o covers ++ packs o covers) -> In c covers -> before (created st) b (dressed c).
Proof. intros Hb Hc. rewrite created_eq. apply before_cross; [exact Hb|]. apply in_or_app. left. apply in_map, Hc. Qed.
Lemma before_cover_store c p : In c covers -> In p parts -> pt_kind p = UnitPart -> before (created st) (dressed c) (part_brick p).
Proof. intros Hc Hp Hk. rewrite created_eq. apply before_app_r, before_cross; [apply in_map, Hc|apply in_map, unit_part; auto]. Qed.
Lemma canopy_in c : In c covers -> has_canopy o c = true -> In (canopy_brick o c) (canopies o covers).
Proof. intros H1 H2. apply in_map, filter_In. auto. Qed.
Lemma pack_in c : In c covers -> op_snow o = true -> In (pack_brick c (pack_processes o c)) (packs o covers).
Proof. intros H1 H2. unfold packs. rewrite H2. exact (in_map (fun c => pack_brick c (pack_processes o c)) _ _ H1). Qed.
Lemma before_canopy_pack c : In c covers -> has_canopy o c = true -> op_snow o = true -> before (created st) (canopy_brick o c) (pack_brick c (pack_processes o c)).
Proof. intros H1 H2 H3. rewrite created_eq. apply before_app_l, before_cross; [apply canopy_in|apply pack_in]; auto. Qed.

(** ** Kinds *)
Lemma component_member b : member b -> component b -> exists c, In c covers /\ ((has_canopy o c = true /\ b = canopy_brick o c) \/ (op_snow o = true /\ b = pack_brick c (pack_processes o c))).
Proof.
  intros [c H1 H2 ->|c H1 H2 ->|c H1 ->|p H1 H2 ->] H; try (exists c; split; auto; fail).
  - apply component_not_cover in H. pose proof (cover_kind c H1) as K. apply is_cover_spec in K. congruence.
  - destruct (store_kind p H1) as [K _]; [congruence|]. apply is_component_spec in H. destruct (storage_plain _ K) as (_&K'&_). congruence.
Qed.
Lemma cover_member b : member b -> land_cover b -> exists c, In c covers /\ b = dressed c.
Proof.
  intros [c H1 H2 ->|c H1 H2 ->|c H1 ->|p H1 H2 ->] H; try (exists c; split; auto; fail); try (destruct H as [H|H]; discriminate H).
  destruct (store_kind p H1) as [K _]; [congruence|]. apply is_cover_spec in H. destruct (storage_plain _ K) as (K'&_&_). congruence.
Qed.

(** ** Processes *)
Lemma water_container b t : in_list (resolve_alias t) (water_types ++ et_types) = true -> process_container b t = Some 0%nat.
Proof. intros H. unfold process_container. rewrite H. reflexivity. Qed.
Lemma snow_container b t : kind_of (bs_type b) = Some KPack -> in_list (resolve_alias t) (melt_types ++ sublimation_types ++ snow_types ++ lateral_types) = true ->
  exists c, process_container b t = Some c.
Proof.
  intros Hb H. unfold process_container. destruct (in_list _ (water_types ++ et_types)); [eauto|].
  assert (K : is_kind KPack b = true) by (apply is_kind_spec; exact Hb). rewrite K. cbn [orb].
  destruct (in_list _ melt_types) eqn:E; [eauto|]. replace (in_list (resolve_alias t) (sublimation_types ++ snow_types ++ lateral_types)) with true; [eauto|].
  symmetry. apply in_list_In. apply in_list_In in H. apply in_app_or in H as [H|H]; [|exact H]. apply in_list_In in H. congruence.
Qed.
Lemma in_melt_alias t : in_list t (melt_types ++ ["melt:cemaneige"%string]) = true -> in_list (resolve_alias t) (melt_types ++ sublimation_types ++ snow_types ++ lateral_types) = true.
Proof. intros H. apply in_list_In in H. cbn in H. repeat destruct H as [<-|H]; try reflexivity. destruct H. Qed.
Lemma in_water_alias t : in_list t water_types = true -> in_list (resolve_alias t) (water_types ++ et_types) = true.
Proof. intros H. apply in_list_In in H. cbn in H. repeat destruct H as [<-|H]; try reflexivity. destruct H. Qed.
Lemma in_list_incl t l l' : in_list t l = true -> incl l l' -> in_list t l' = true.
Proof. intros H K. apply in_list_In, K, in_list_In, H. Qed.
Lemma when_In x f (y : process) : In y (when x f) -> exists t, x = Some t /\ y = f t.
Proof. destruct x as [t|]; cbn; [intros [<-|[]]; eauto|contradiction]. Qed.
(** The processes of a snowpack. *)
Lemma pack_process c x : In c covers -> In x (pack_processes o c) ->
  (exists k, process_container (pack_brick c (pack_processes o c)) (pr_type x) = Some k) /\
  (to_atmosphere (pr_type x) = true \/ forall y, In y (pr_outputs x) ->
     y = water_to (fst c) \/ (o_target y = pack_of (fst c) /\ o_now y = true /\ (o_type y = Water \/ o_type y = Snow)) \/
     (o_target y = fst c /\ o_type y = Ice /\ brick_type_of (snd c) = "glacier"%string /\ o_now y = false) \/ (o_target y = "lateral"%string /\ o_type y = Snow /\ o_now y = true)).
Proof.
  intros Hc H. pose proof (gm_options _ _ _ HG) as Ho. unfold pack_processes in H. apply in_app_or in H as [H|H]; [|apply in_app_or in H as [H|H]; [|apply in_app_or in H as [H|H]; [|apply in_app_or in H as [H|H]]]].
  - unfold melt_processes in H. destruct (op_retention o) as [[out rain]|] eqn:Hr; cbn in H.
    + destruct H as [<-|[<-|[]]]; cbn [pr_type pr_outputs].
      * split; [apply snow_container; [reflexivity|apply in_melt_alias, (go_melt _ Ho)]|]. right. intros y [<-|[]]. right. left. cbn. auto.
      * split; [exists 0%nat; apply water_container, in_water_alias, (go_retention _ Ho out rain Hr)|]. right. intros y [<-|[]]. left. reflexivity.
    + destruct H as [<-|[]]; cbn [pr_type pr_outputs]. split; [apply snow_container; [reflexivity|apply in_melt_alias, (go_melt _ Ho)]|]. right. intros y [<-|[]]. left. reflexivity.
  - apply when_In in H as (t&Ht&->). cbn [pr_type pr_outputs]. split.
    + exists 0%nat. apply water_container. apply (in_list_incl _ _ _ (go_refreeze_type _ Ho t Ht)). intros x [<-|[]]. apply in_list_In. reflexivity.
    + right. intros y [<-|[]]. right. left. cbn. auto.
  - unfold ice_processes in H. destruct (String.eqb (brick_type_of (snd c)) "glacier") eqn:Eg; [|destruct H]. apply String.eqb_eq in Eg.
    apply when_In in H as (t&Ht&->). cbn [pr_type pr_outputs]. split.
    + apply snow_container; [reflexivity|]. apply (in_list_incl _ _ _ (go_ice _ Ho t Ht)). intros x [<-|[<-|[]]]; apply in_list_In; reflexivity.
    + right. intros y [<-|[]]. right. right. left. cbn. auto.
  - apply when_In in H as (t&Ht&->). cbn [pr_type pr_outputs]. split.
    + apply snow_container; [reflexivity|]. apply (in_list_incl _ _ _ (go_move _ Ho t Ht)). intros x [<-|[<-|[<-|[]]]]; apply in_list_In; reflexivity.
    + right. intros y [<-|[]]. right. right. right. cbn. auto.
  - apply when_In in H as (t&Ht&->). cbn [pr_type pr_outputs]. split.
    + apply snow_container; [reflexivity|]. apply (in_list_incl _ _ _ (go_sublimation _ Ho t Ht)). intros x [<-|[<-|[]]]; apply in_list_In; reflexivity.
    + left. unfold to_atmosphere. apply (in_list_incl _ _ _ (go_sublimation _ Ho t Ht)). intros x Hx. apply in_or_app. right. exact Hx.
Qed.
Lemma declared_output q y : In y (pr_outputs (declared_process q)) -> In (o_target y) (pp_targets q) /\ o_type y = Water /\
  (pp_now q = false -> o_now y = false) /\ (static_kind q = false -> o_static y = false).
Proof.
  unfold declared_process. cbn. destruct (pp_targets q) as [|t r]; [contradiction|]. intros [<-|H]; cbn; [auto|]. apply in_map_iff in H as (s&<-&H). cbn. auto.
Qed.
Lemma store_process p x : In x (bs_processes (part_brick p)) -> exists q, In q (pt_processes p) /\ x = declared_process q.
Proof. cbn. intros H. apply in_map_iff in H as (q&<-&H). eauto. Qed.
Lemma cover_process c x : In x (bs_processes (dressed c)) -> exists p q, In p parts /\ pt_kind p = CoverPart /\ pt_key p = fst c /\ In q (pt_processes p) /\ x = declared_process q.
Proof. intros H. apply dress_process in H as [[]|H]. exact H. Qed.
Lemma cover_container c p q : In c covers -> In p parts -> pt_key p = fst c -> In q (pt_processes p) -> exists k, process_container (dressed c) (pp_type q) = Some k.
Proof.
  intros Hc Hp Ek Hq. destruct (gm_process _ _ _ HG p q Hp Hq) as [H|(_&H1&H2)]; [exists 0%nat; apply water_container, H|].
  unfold process_container. destruct (in_list _ (water_types ++ et_types)); [eauto|]. rewrite H2.
  assert (K : is_kind KGlacier (dressed c) = true).
  { apply is_kind_spec. destruct (dressed_attrs c) as [_ ->]. rewrite (H1 c Hc (eq_sym Ek)). reflexivity. }
  rewrite K, orb_true_r. eauto.
Qed.

(** ** The declaration succeeds *)
Lemma NoDup_app_l {X} (l l' : list X) : NoDup (l ++ l') -> NoDup l.
Proof. induction l as [|x l IH]; cbn; intros H; [constructor|]. inversion H; subst. constructor; [rewrite in_app_iff in *; tauto|auto]. Qed.
Lemma base_bricks_names : NoDup (map bs_name (st_bricks (base o covers))).
Proof.
  pose proof created_names as N. rewrite created_eq in N. unfold base. cbn [st_bricks].
  assert (Ec : map bs_name (map cover_brick covers) = map bs_name (map dressed covers)).
  { rewrite !map_map. apply map_ext. intros c. destruct (dressed_attrs c) as [-> _]. reflexivity. }
  rewrite !map_app in N. rewrite !map_app, Ec. rewrite app_assoc in N. apply NoDup_app_l in N.
  revert N. generalize (map bs_name (canopies o covers) ++ map bs_name (packs o covers)) as A. generalize (map bs_name (map dressed covers)) as B.
  intros B A N. apply (Permutation_NoDup (Permutation_app_comm A B) N).
Qed.
Lemma base_brick_name s : In s (map bs_name (st_bricks (base o covers))) -> exists c, In c covers /\ (s = fst c \/ s = pack_of (fst c) \/ s = canopy_of (fst c)).
Proof.
  unfold base. cbn [st_bricks]. intros H. rewrite map_app in H. apply in_app_or in H as [H|H].
  - rewrite map_map in H. apply in_map_iff in H as (c&<-&Hc). eauto.
  - apply in_map_iff in H as (b&<-&Hb). destruct (base_names b Hb) as (c&Hc&[E|E]); eauto.
Qed.
Lemma parts_good : good_parts parts (base o covers).
Proof.
  constructor.
  - intros p Hp Hk. unfold base. cbn [st_bricks]. rewrite map_app. apply in_or_app. left. rewrite map_map. exact (gm_cover _ _ _ HG p Hp Hk).
  - intros p Hp Hk H. destruct (gm_new _ _ _ HG p Hp) as [_ K]; [congruence|]. destruct (base_brick_name _ H) as (c&Hc&E). destruct (K c Hc) as (K1&K2&K3). intuition.
  - exact (gm_keys _ _ _ HG).
  - exact base_bricks_names.
  - intros p q Hp Hq. unfold known_process, known_types. apply in_list_In. destruct (gm_process _ _ _ HG p q Hp Hq) as [H|(_&_&H)]; apply in_list_In in H.
    + apply in_app_or in H as [H|H]; apply in_or_app; [left; exact H|]. right. apply in_or_app. left. exact H.
    + apply in_or_app. right. apply in_or_app. right. apply in_or_app. left. exact H.
  - exact (gm_plain _ _ _ HG).
Qed.
Theorem model_declared : declare_model covers o parts = Ok st.
Proof. apply model_built; [exact (gm_names _ _ _ HG)|exact (gm_options _ _ _ HG)|exact parts_good]. Qed.

(** ** Order of the flow in a unit *)
Variable M : domain.
Variable u : nat.
Hypothesis Hstr : un_str (unit_at M u) = st.
Hypothesis Hbas : dm_basin M = map part_brick (filter is_basin parts).
Hypothesis Harea : 0 < un_area (unit_at M u).
Hypothesis Hfrac : forall c, In c covers -> 0 <= un_fraction (unit_at M u) (fst c) <= 1 /\
  (Rabs (un_fraction (unit_at M u) (fst c)) <= PRECISION -> un_fraction (unit_at M u) (fst c) = 0).
Lemma in_basin b : In b (dm_basin M) <-> exists p, In p parts /\ pt_kind p = BasinPart /\ b = part_brick p.
Proof.
  rewrite Hbas, in_map_iff. split.
  - intros (p&<-&H). apply basin_part in H as [H1 H2]. eauto.
  - intros (p&H1&H2&->). exists p. split; [reflexivity|]. apply basin_part. auto.
Qed.
Lemma basin_name_apart b p : member b -> In p parts -> pt_kind p = BasinPart -> bs_name b <> pt_key p.
Proof.
  intros Hb Hp Hk E. destruct (gm_new _ _ _ HG p Hp) as [_ K]; [congruence|]. destruct Hb as [c H1 H2 ->|c H1 H2 ->|c H1 ->|p' H1 H2 ->].
  - destruct (K c H1) as (_&_&K'). cbn in E. congruence.
  - destruct (K c H1) as (_&K'&_). cbn in E. congruence.
  - destruct (K c H1) as (K'&_&_). destruct (dressed_attrs c) as [E' _]. congruence.
  - cbn in E. assert (p' = p); [|congruence]. pose proof (gm_keys _ _ _ HG) as N. apply In_nth_error in Hp as [i Hi]. apply In_nth_error in H1 as [j Hj].
    assert (j = i); [|congruence]. apply (proj1 (NoDup_nth_error _) N); [rewrite map_length; apply nth_error_Some; congruence|].
    rewrite (map_nth_error pt_key _ _ Hi), (map_nth_error pt_key _ _ Hj). congruence.
Qed.
Lemma before_distinct p d : before parts p d -> part_brick d <> part_brick p.
Proof.
  intros (l1&l2&l3&E) K. apply (f_equal bs_name) in K. cbn in K. pose proof (gm_keys _ _ _ HG) as N. rewrite E, map_app in N. cbn [map] in N. apply NoDup_remove_2 in N. apply N.
  rewrite map_app. cbn [map]. rewrite K. apply in_or_app. right. apply in_or_app. right. left. reflexivity.
Qed.
Lemma unit_order : unit_in_order M u.
Proof.
  pose proof (gm_names _ _ _ HG) as Hn. constructor; rewrite ?Hstr.
  - exact Harea.
  - exact created_names.
  - intros b Hb. apply created_member in Hb. pose proof (member_reserved b Hb) as K. cbn in K. split; intros E; apply K; rewrite E; auto.
  - intros b Hb. apply created_member in Hb. destruct Hb as [c H1 H2 ->|c H1 H2 ->|c H1 ->|p H1 H2 ->].
    + left. right. reflexivity.
    + left. left. reflexivity.
    + right. left. exact (cover_kind c H1).
    + right. right. apply store_kind; [exact H1|congruence].
  - intros b Hb Hk. apply created_member in Hb. destruct (component_member b Hb Hk) as (c&Hc&H). exists (dressed c).
    split; [apply created_member; exact (is_cover' _ c Hc eq_refl)|]. split; [exact (cover_kind c Hc)|]. destruct (dressed_attrs c) as [-> _].
    destruct H as [[_ ->]|[_ ->]]; reflexivity.
  - intros b Hb Hk. apply created_member in Hb. destruct (cover_member b Hb Hk) as (c&Hc&->). destruct (dressed_attrs c) as [-> _]. exact (Hfrac c Hc).
  - intros b x Hb Hx. apply created_member in Hb. destruct Hb as [c H1 H2 ->|c H1 H2 ->|c H1 ->|p H1 H2 ->]; try discriminate Hx.
    + apply dress_capacity in Hx as [Hx|(p&Hp&Hx)]; [discriminate|]. exact (gm_capacity _ _ _ HG p x Hp Hx).
    + exact (gm_capacity _ _ _ HG p x H1 Hx).
  - intros b x Hb Hx. apply created_member in Hb. destruct Hb as [c H1 H2 ->|c H1 H2 ->|c H1 ->|p H1 H2 ->].
    + exists 0%nat. destruct Hx as [<-|[<-|[]]]; reflexivity.
    + apply (pack_process c x H1 Hx).
    + destruct (cover_process c x Hx) as (p&q&P1&P2&P3&P4&->). exact (cover_container c p q H1 P1 P3 P4).
    + destruct (store_process p x Hx) as (q&Q1&->). exists 0%nat. destruct (gm_process _ _ _ HG p q H1 Q1) as [H|(H&_)]; [|congruence]. apply water_container, H.
  - intros b x y Hb Hx Ha Hy. apply created_member in Hb. destruct Hb as [c H1 H2 ->|c H1 H2 ->|c H1 ->|p H1 H2 ->].
    + destruct Hx as [<-|[<-|[]]]; [|destruct Hy]. destruct Hy as [<-|[]]. destruct (rain_on_packs o) eqn:Er.
      * assert (Es : op_snow o = true) by (unfold rain_on_packs in Er; apply andb_true_iff in Er; apply Er).
        apply (within_surface M u _ _ (pack_brick c (pack_processes o c))); rewrite ?Hstr.
        -- right. reflexivity.
        -- apply created_member. exact (is_pack _ c H1 Es eq_refl).
        -- reflexivity.
        -- left. reflexivity.
        -- intros E. discriminate (f_equal bs_type E).
        -- right. split; [left; reflexivity|reflexivity].
        -- right. apply before_canopy_pack; auto.
      * apply (within_surface M u _ _ (dressed c)); rewrite ?Hstr.
        -- right. reflexivity.
        -- apply created_member. exact (is_cover' _ c H1 eq_refl).
        -- destruct (dressed_attrs c) as [-> _]. reflexivity.
        -- left. reflexivity.
        -- intros E. pose proof (cover_kind c H1) as K. rewrite E in K. destruct K as [K|K]; discriminate K.
        -- left. destruct (dressed_attrs c) as [-> _]. split; [reflexivity|exact (cover_kind c H1)].
        -- right. apply before_component_cover; [apply in_or_app; left; apply canopy_in|]; auto.
    + destruct (pack_process c x H1 Hx) as [_ [K|K]]; [congruence|].
      assert (Hd : dressed c <> pack_brick c (pack_processes o c)). { intros E. pose proof (cover_kind c H1) as K'. rewrite E in K'. destruct K' as [K'|K']; discriminate K'. }
      assert (Hb : before (created st) (pack_brick c (pack_processes o c)) (dressed c)) by (apply before_component_cover; [apply in_or_app; right; apply pack_in|]; auto).
      destruct (K y Hy) as [->|[(K1&K2&K3)|[(K1&K2&K3&K4)|(K1&K2&K3)]]].
      * apply (within_surface M u _ _ (dressed c)); rewrite ?Hstr.
        -- left. reflexivity.
        -- apply created_member. exact (is_cover' _ c H1 eq_refl).
        -- destruct (dressed_attrs c) as [-> _]. reflexivity.
        -- left. reflexivity.
        -- exact Hd.
        -- left. destruct (dressed_attrs c) as [-> _]. split; [reflexivity|exact (cover_kind c H1)].
        -- right. exact Hb.
      * apply within_itself; auto; [left; reflexivity|]. destruct K3 as [->| ->]; [left; reflexivity|right; left; split; reflexivity].
      * apply (within_surface M u _ _ (dressed c)); rewrite ?Hstr.
        -- left. reflexivity.
        -- apply created_member. exact (is_cover' _ c H1 eq_refl).
        -- destruct (dressed_attrs c) as [-> _]. exact K1.
        -- right. right. split; [exact K2|]. destruct (dressed_attrs c) as [_ ->]. rewrite K3. reflexivity.
        -- exact Hd.
        -- left. destruct (dressed_attrs c) as [-> _]. split; [reflexivity|exact (cover_kind c H1)].
        -- right. exact Hb.
      * apply sideways; auto. reflexivity.
    + destruct (cover_process c x Hx) as (p&q&P1&P2&P3&P4&->). destruct (declared_output q y Hy) as (Y1&Y2&Y3&Y4).
      pose proof (cover_kind c H1) as Kc. destruct (gm_goes _ _ _ HG p q (o_target y) P1 P4 Y1 Ha) as [E|d Hup D1 D2 D3 D4|d Hup D1 D2 D3|d G1 G2 D1 D2 D3 D4 D5 D6 D7|d G1 D1 D2 D3 D4 D5]; try congruence.
      * apply to_outlet; [exact E|]. intros K. apply is_component_spec in K. rewrite (cover_not_component _ Kc) in K. discriminate.
      * destruct (store_kind d D1) as [S1 S2]; [congruence|]. apply (to_storage M u _ _ (part_brick d)); rewrite ?Hstr; auto.
        -- apply created_member. exact (is_store _ d D1 D3 eq_refl).
        -- intros [_ _]. split; [|right; apply before_cover_store; auto]. intros E. rewrite <- E in Kc. destruct (storage_plain _ S1) as (K&_&_). apply is_cover_spec in Kc. congruence.
      * apply (to_basin M u _ _ (part_brick d)); rewrite ?Hstr; auto.
        -- apply in_basin. eauto.
        -- intros d' Hd'. apply created_member in Hd'. exact (basin_name_apart d' d Hd' D1 D3).
    + destruct (store_process p x Hx) as (q&Q1&->). destruct (declared_output q y Hy) as (Y1&Y2&Y3&Y4).
      destruct (store_kind p H1) as [S1 S2]; [congruence|]. destruct (storage_plain _ S1) as (_&S3&_).
      destruct (gm_goes _ _ _ HG p q (o_target y) H1 Q1 Y1 Ha) as [E|d Hup D1 D2 D3 D4|d Hup D1 D2 D3|d G1 G2 D1 D2 D3 D4 D5 D6 D7|d G1 D1 D2 D3 D4 D5]; try congruence.
      * apply to_outlet; [exact E|]. intros K. apply is_component_spec in K. congruence.
      * destruct Hup as [K|[_ Hup]]; [congruence|]. destruct (store_kind d D1) as [T1 T2]; [congruence|].
        apply (to_storage M u _ _ (part_brick d)); rewrite ?Hstr; auto.
        -- right. split; [exact S1|congruence].
        -- apply created_member. exact (is_store _ d D1 D3 eq_refl).
        -- intros [_ Hdir]. destruct D4 as [D4|[D4|D4]]; [congruence|congruence|]. split; [exact (before_distinct p d D4)|right; apply before_storages; auto].
      * destruct Hup as [K|[_ Hup]]; [congruence|]. apply (to_basin M u _ _ (part_brick d)); rewrite ?Hstr; auto.
        -- right. split; [exact S1|congruence].
        -- apply in_basin. eauto.
        -- intros d' Hd'. apply created_member in Hd'. exact (basin_name_apart d' d Hd' D1 D3).
      * destruct (store_kind d D1) as [T1 T2]; [congruence|]. apply (onwards M u _ _ (part_brick d)); rewrite ?Hstr; auto.
        -- split; [exact S1|congruence].
        -- apply created_member. exact (is_store _ d D1 D3 eq_refl).
        -- split; [exact T1|congruence].
        -- apply before_storages; auto.
Qed.
Lemma basin_order : basin_in_order M.
Proof.
  constructor.
  - rewrite Hbas, map_map. apply (NoDup_map_map pt_key); [apply NoDup_map_filter; exact (gm_keys _ _ _ HG)|]. intros x y E. exact E.
  - intros b Hb. apply in_basin in Hb as (p&P1&P2&->). destruct (gm_new _ _ _ HG p P1) as [K _]; [congruence|]. cbn in K |- *. split; intros E; apply K; rewrite E; auto.
  - intros b Hb. apply in_basin in Hb as (p&P1&P2&->). apply store_kind; [exact P1|congruence].
  - intros b x Hb Hx. apply in_basin in Hb as (p&P1&P2&->). exact (gm_capacity _ _ _ HG p x P1 Hx).
  - intros b x Hb Hx. apply in_basin in Hb as (p&P1&P2&->). destruct (store_process p x Hx) as (q&Q1&->). exists 0%nat.
    destruct (gm_process _ _ _ HG p q P1 Q1) as [H|(H&_)]; [|congruence]. apply water_container, H.
  - intros b x y Hb Hx Ha Hy. apply in_basin in Hb as (p&P1&P2&->). destruct (store_process p x Hx) as (q&Q1&->). destruct (declared_output q y Hy) as (Y1&Y2&Y3&Y4).
    destruct (gm_goes _ _ _ HG p q (o_target y) P1 Q1 Y1 Ha) as [E|d Hup D1 D2 D3 D4|d Hup D1 D2 D3|d G1 G2 D1 D2 D3 D4 D5 D6 D7|d G1 D1 D2 D3 D4 D5]; try congruence.
    + left. exact E.
    + destruct Hup as [K|[K _]]; congruence.
    + destruct Hup as [K|[K _]]; congruence.
    + right. exists (part_brick d). split; [apply in_basin; eauto|]. split; [symmetry; exact D2|]. split; [exact Y2|]. split; [auto|].
      rewrite Hbas. apply before_map, before_filter; auto; unfold is_basin; [rewrite G1|rewrite D3]; reflexivity.
Qed.
End Model.

(** ** The whole catchment *)
Section Catchment.
Variable primary : variant.
Variable V : nat -> variant.
Variable M : domain.
Hypothesis HU : good_units primary V M.
Local Notation n := (length (dm_units M)).
Definition structure_of (v : variant) : structure := add_parts (v_parts v) (base (v_options v) (v_covers v)).
Lemma unit_str u : (u < n)%nat -> un_str (unit_at M u) = structure_of (V u).
Proof.
  intros H. pose proof (gu_str _ _ _ HU u H) as E. unfold declared in E. rewrite (model_declared _ _ _ (gu_variant _ _ _ HU u H)) in E. injection E as E. symmetry. exact E.
Qed.
Lemma basin_eq : dm_basin M = map part_brick (filter is_basin (v_parts primary)).
Proof.
  destruct (gu_basin _ _ _ HU) as (st&E&->). unfold declared in E. rewrite (model_declared _ _ _ (gu_primary _ _ _ HU)) in E. injection E as <-. rewrite basin_shape. reflexivity.
Qed.
Lemma basin_eq' u : (u < n)%nat -> dm_basin M = map part_brick (filter is_basin (v_parts (V u))).
Proof. intros H. rewrite basin_eq. pose proof (gu_shared _ _ _ HU u H) as E. change of_basin with is_basin in E. rewrite E. reflexivity. Qed.
Theorem model_in_order : in_flow_order M.
Proof.
  constructor.
  - intros u Hu. apply (unit_order (v_covers (V u)) (v_options (V u)) (v_parts (V u)) (gu_variant _ _ _ HU u Hu) M u (unit_str u Hu) (basin_eq' u Hu) (gu_area _ _ _ HU u Hu)).
    intros c Hc. exact (gu_fraction _ _ _ HU u c Hu Hc).
  - exact (basin_order _ _ _ (gu_primary _ _ _ HU) M basin_eq).
  - intros u v Hu Hv. destruct (gu_receivers _ _ _ HU u v Hu Hv) as (A1&A2&A3). split; [exact A1|]. split; [exact A2|].
    intros d Hd Hk. rewrite (unit_str v A1) in Hd. pose proof (gu_variant _ _ _ HU v A1) as Gv. apply (created_member _ _ _ Gv) in Hd.
    destruct (component_member _ _ _ Gv d Hd (or_introl Hk)) as (c&Hc&[[_ ->]|[_ ->]]); exact (A3 c Hc).
Qed.
End Catchment.
