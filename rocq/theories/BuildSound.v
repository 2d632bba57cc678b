(** A catchment built from structures declared in the order of the flow is consistent. *)
From Coq Require Import FinFun.
From Verif Require Import Base BaseFacts Container Direct DirectSpec Network NetworkSpec Topology Catchment CatchmentSpec Build BuildSpec BuildFacts.
Open Scope list_scope.

(** ** Kinds *)
Lemma is_kind_spec k b : is_kind k b = true <-> kind_of (bs_type b) = Some k.
Proof. unfold is_kind. destruct (kind_of (bs_type b)) as [[]|], k; split; intros H; congruence. Qed.
Lemma is_component_spec b : is_component b = true <-> component b.
Proof. unfold is_component, component. rewrite orb_true_iff, !is_kind_spec. tauto. Qed.
Lemma is_cover_spec b : is_cover b = true <-> land_cover b.
Proof. unfold is_cover, land_cover. rewrite orb_true_iff, !is_kind_spec. tauto. Qed.
Lemma component_not_cover b : component b -> is_cover b = false.
Proof. intros [H|H]; unfold is_cover, is_kind; rewrite H; reflexivity. Qed.
Lemma cover_not_component b : land_cover b -> is_component b = false.
Proof. intros [H|H]; unfold is_component, is_kind; rewrite H; reflexivity. Qed.
Lemma storage_plain b : storage b -> is_cover b = false /\ is_component b = false /\ is_direct b = bs_directly b.
Proof. intros H. unfold storage in H. unfold is_direct, is_cover, is_component, is_kind. rewrite H. auto. Qed.
Lemma component_direct b : component b -> is_direct b = true.
Proof. intros H. apply is_component_spec in H. unfold is_direct. rewrite H. reflexivity. Qed.
Lemma cover_direct b : land_cover b -> is_direct b = true.
Proof. intros H. apply is_cover_spec in H. unfold is_direct. rewrite H, orb_true_r. reflexivity. Qed.
Lemma owner_eqb_spec a b : owner_eqb a b = true <-> a = b.
Proof.
  destruct a as [x|], b as [y|]; cbn; split; intros H; try congruence; try discriminate; try reflexivity.
  - apply Nat.eqb_eq in H. congruence.
  - injection H as ->. apply Nat.eqb_refl.
Qed.
Lemma containers_water b : In 0%nat (containers_of b).
Proof. unfold containers_of. destruct (_ || _); left; reflexivity. Qed.
Lemma entry_takes d t : takes d t -> exists c, entry d t = Some c /\ In c (containers_of d).
Proof.
  intros [->|[[-> H]|[-> H]]]; cbn.
  - exists 0%nat. split; [reflexivity|apply containers_water].
  - exists 1%nat. unfold containers_of, is_kind. rewrite H. cbn. auto.
  - exists 1%nat. unfold containers_of, is_kind. rewrite H. cbn. auto.
Qed.
Lemma containers_nodup b : NoDup (containers_of b).
Proof. unfold containers_of. destruct (_ || _); repeat constructor; cbn; intuition lia. Qed.
Lemma process_container_in b t c : process_container b t = Some c -> In c (containers_of b).
Proof.
  unfold process_container, containers_of.
  destruct (in_list _ (water_types ++ et_types)); [intros E; injection E as <-; destruct (_ || _); left; reflexivity|].
  destruct (in_list _ melt_types).
  { destruct (is_kind KPack b || is_kind KGlacier b) eqn:E; intros H; [|discriminate]. injection H as <-. right; left; reflexivity. }
  destruct (in_list _ _); [|discriminate]. destruct (is_kind KPack b) eqn:E; intros H; [|discriminate]. injection H as <-. cbn. right; left; reflexivity.
Qed.

Section Sound.
Variable M : domain.
Hypothesis HM : in_flow_order M.
Let n := length (dm_units M).
Let bricks u := created (un_str (unit_at M u)).

Lemma unit_ok u : (u < n)%nat -> unit_in_order M u.
Proof. exact (io_units M HM u). Qed.
Lemma unit_ids_In u : In u (unit_ids M) <-> (u < n)%nat.
Proof. unfold unit_ids. rewrite in_seq. fold n. lia. Qed.

(** ** Areas *)
Lemma area_pos u : (u < n)%nat -> 0 < un_area (unit_at M u).
Proof. intros H. exact (uo_area M u (unit_ok u H)). Qed.
Lemma areas_pos U : In U (dm_units M) -> 0 < un_area U.
Proof. intros H. apply (In_nth _ _ dummy_unit) in H as (u&Hu&<-). exact (area_pos u Hu). Qed.
Lemma Rsum_ge_one {X} (f : X -> R) l x : (forall y, In y l -> 0 < f y) -> In x l -> f x <= Rsum f l.
Proof.
  induction l as [|y l IH]; intros Hp Hx; [contradiction|]. cbn.
  assert (Hl : 0 <= Rsum f l). { apply Rsum_nonneg. intros z Hz. left. apply Hp. right. exact Hz. }
  destruct Hx as [->|Hx]; [lra|]. pose proof (IH (fun z Hz => Hp z (or_intror Hz)) Hx). pose proof (Hp y (or_introl eq_refl)). lra.
Qed.
Lemma area_le u : (u < n)%nat -> 0 < un_area (unit_at M u) <= total_area M.
Proof.
  intros H. split; [exact (area_pos u H)|]. unfold total_area. apply Rsum_ge_one; [exact areas_pos|]. apply nth_In. exact H.
Qed.
Lemma ratio_range u : (u < n)%nat -> 0 < un_area (unit_at M u) / total_area M <= 1.
Proof.
  intros H. destruct (area_le u H) as [H1 H2]. split; [apply Rdiv_lt_0_compat; lra|].
  apply (Rmult_le_reg_r (total_area M)); [lra|]. unfold Rdiv. rewrite Rmult_assoc, Rinv_l by lra. lra.
Qed.

(** ** Items *)
Lemma unit_names u : (u < n)%nat -> NoDup (map bs_name (bricks u)).
Proof. intros H. exact (uo_names M u (unit_ok u H)). Qed.
Lemma direct_keys : NoDup (map (@key nat) (direct_items M)).
Proof.
  unfold direct_items, unit_items. apply (keys_concat (unit_ids M) (fun u => filter is_direct (bricks u))); [apply seq_NoDup|].
  intros u Hu. apply NoDup_map_filter. apply unit_names, unit_ids_In, Hu.
Qed.
Lemma direct_In u b : In (u, b) (direct_items M) <-> (u < n)%nat /\ In b (bricks u) /\ is_direct b = true.
Proof.
  unfold direct_items, unit_items. rewrite in_concat. split.
  - intros (l&Hl&Hx). apply in_map_iff in Hl as (v&<-&Hv). apply in_map_iff in Hx as (b0&E&Hb). injection E as -> ->.
    apply filter_In in Hb. rewrite unit_ids_In in Hv. tauto.
  - intros (H1&H2&H3). exists (map (pair u) (filter is_direct (bricks u))). split.
    + apply in_map_iff. exists u. split; [reflexivity|]. apply unit_ids_In. exact H1.
    + apply in_map, filter_In. auto.
Qed.
Lemma direct_before u b d : (u < n)%nat -> before (bricks u) b d -> is_direct b = true -> is_direct d = true -> before (direct_items M) (u, b) (u, d).
Proof.
  intros Hu B Hb Hd. unfold direct_items. apply (before_concat _ (unit_items M is_direct u)).
  - apply in_map, unit_ids_In, Hu.
  - apply (before_map (pair u)), before_filter; assumption.
Qed.
Lemma solved_keys : NoDup (map (@key (option nat)) (solved_items M)).
Proof.
  unfold solved_items. rewrite map_app. apply NoDup_app_intro.
  - set (X := concat _). replace (map (@key (option nat)) (map (fun x : nat * bset => (Some (fst x), snd x)) X))
      with (map (fun k : nat * string => (Some (fst k), snd k)) (map (@key nat) X)) by (rewrite !map_map; reflexivity).
    unfold X. apply Injective_map_NoDup; [intros [a b] [c d] E; injection E as -> ->; reflexivity|].
    unfold unit_items. apply (keys_concat (unit_ids M) (fun u => filter (fun b => negb (is_direct b)) (bricks u))); [apply seq_NoDup|].
    intros u Hu. apply NoDup_map_filter. apply unit_names, unit_ids_In, Hu.
  - replace (map (@key (option nat)) (map (pair None) (dm_basin M))) with (map (@pair (option nat) string None) (map bs_name (dm_basin M)))
      by (rewrite !map_map; reflexivity). apply Injective_map_NoDup.
    + intros x y E. injection E as E. exact E.
    + exact (bo_names M (io_basin M HM)).
  - intros x Hx Hy. apply in_map_iff in Hx as (y&<-&Hx). apply in_map_iff in Hx as (z&<-&_). apply in_map_iff in Hy as (y&E&Hy).
    apply in_map_iff in Hy as (b&<-&_). unfold key in E. cbn in E. discriminate.
Qed.
Lemma solved_In_unit u b : In (Some u, b) (solved_items M) <-> (u < n)%nat /\ In b (bricks u) /\ is_direct b = false.
Proof.
  unfold solved_items. rewrite in_app_iff, in_map_iff. split.
  - intros [([v d]&E&H)|H].
    + cbn in E. injection E as -> ->. apply in_concat in H as (l&Hl&Hx). apply in_map_iff in Hl as (v&<-&Hv). apply in_map_iff in Hx as (b0&E&Hb).
      injection E as -> ->. apply filter_In in Hb as [Hb E]. apply negb_true_iff in E. rewrite unit_ids_In in Hv. auto.
    + apply in_map_iff in H as (d&E&_). discriminate.
  - intros (H1&H2&H3). left. exists (u, b). split; [reflexivity|]. apply in_concat. exists (unit_items M (fun b => negb (is_direct b)) u). split.
    + apply in_map, unit_ids_In, H1.
    + apply in_map, filter_In. split; [exact H2|]. rewrite H3. reflexivity.
Qed.
Lemma solved_In_basin b : In (None, b) (solved_items M) <-> In b (dm_basin M).
Proof.
  unfold solved_items. rewrite in_app_iff, !in_map_iff. split.
  - intros [([v d]&E&_)|(d&E&H)]; [discriminate|]. injection E as ->. exact H.
  - intros H. right. exists b. auto.
Qed.
Lemma solved_before u b d : (u < n)%nat -> before (bricks u) b d -> is_direct b = false -> is_direct d = false ->
  before (solved_items M) (Some u, b) (Some u, d).
Proof.
  intros Hu B Hb Hd. unfold solved_items. apply before_app_l.
  apply (before_map (fun x : nat * bset => (Some (fst x), snd x)) _ (u, b) (u, d)).
  apply (before_concat _ (unit_items M (fun b => negb (is_direct b)) u)); [apply in_map, unit_ids_In, Hu|].
  apply (before_map (pair u)), before_filter; [exact B| |]; [rewrite Hb|rewrite Hd]; reflexivity.
Qed.
Lemma basin_before b d : before (dm_basin M) b d -> before (solved_items M) (None, b) (None, d).
Proof. intros B. unfold solved_items. apply before_app_r. apply (before_map (pair None)). exact B. Qed.

(** ** Resolving names *)
Lemma has_brick_found u d : (u < n)%nat -> In d (bricks u) -> has_brick (un_str (unit_at M u)) (bs_name d) = Some d.
Proof.
  intros Hu Hd. unfold has_brick. destruct (find _ _) as [d'|] eqn:E.
  - apply find_some in E as [E1 E2]. apply String.eqb_eq in E2. f_equal.
    pose proof (unit_names u Hu) as ND. clear - ND E1 E2 Hd.
    apply In_nth_error in E1 as [i Hi]. apply In_nth_error in Hd as [j Hj]. unfold bricks in Hj.
    assert (i = j); [|congruence]. apply (proj1 (NoDup_nth_error _) ND).
    + rewrite map_length. apply nth_error_Some. unfold bricks. congruence.
    + unfold bricks. rewrite (map_nth_error bs_name _ _ Hi), (map_nth_error bs_name _ _ Hj). congruence.
  - exfalso. pose proof (find_none _ _ E d Hd) as K. cbn in K. rewrite String.eqb_refl in K. discriminate.
Qed.
Lemma has_brick_none u name : (forall d, In d (bricks u) -> bs_name d <> name) -> has_brick (un_str (unit_at M u)) name = None.
Proof.
  intros H. unfold has_brick. destruct (find _ _) as [d|] eqn:E; [|reflexivity]. apply find_some in E as [E1 E2]. apply String.eqb_eq in E2.
  exfalso. exact (H d E1 E2).
Qed.
Lemma direct_found u d : In (u, d) (direct_items M) -> exists j, direct_index M u (bs_name d) = Some j /\ nth_error (direct_items M) j = Some (u, d).
Proof. apply (lookup_found Nat.eqb Nat.eqb_eq). exact direct_keys. Qed.
Lemma solved_found o d : In (o, d) (solved_items M) -> exists j, solved_index M o (bs_name d) = Some j /\ nth_error (solved_items M) j = Some (o, d).
Proof. apply (lookup_found owner_eqb owner_eqb_spec). exact solved_keys. Qed.

(** ** Shares *)
Lemma fraction_range u b : (u < n)%nat -> In b (bricks u) -> land_cover b -> 0 <= un_fraction (unit_at M u) (bs_name b) <= 1.
Proof. intros H1 H2 H3. exact (proj1 (uo_fraction M u (unit_ok u H1) b H2 H3)). Qed.
Lemma parent_range u b : (u < n)%nat -> In b (bricks u) -> component b -> 0 <= un_fraction (unit_at M u) (bs_parent b) <= 1.
Proof.
  intros H1 H2 H3. destruct (uo_parent M u (unit_ok u H1) b H2 H3) as (d&D1&D2&<-). exact (fraction_range u d H1 D1 D2).
Qed.
Lemma share_range u b : (u < n)%nat -> In b (bricks u) -> 0 <= share M u b <= 1.
Proof.
  intros H1 H2. destruct (ratio_range u H1) as [A1 A2]. unfold share.
  assert (B : 0 <= (if is_cover b then un_fraction (unit_at M u) (bs_name b) else if is_component b then un_fraction (unit_at M u) (bs_parent b) else 1) <= 1).
  { destruct (is_cover b) eqn:E1; [apply fraction_range; auto; apply is_cover_spec; exact E1|].
    destruct (is_component b) eqn:E2; [apply parent_range; auto; apply is_component_spec; exact E2|lra]. }
  set (x := if is_cover b then _ else _) in *. clearbody x. set (r := un_area _ / _) in *. clearbody r. split; [apply Rmult_le_pos; lra|].
  apply (Rmult_le_compat r 1 x 1) in A2; lra.
Qed.
Lemma share_cover u b : land_cover b -> share M u b = un_area (unit_at M u) / total_area M * un_fraction (unit_at M u) (bs_name b).
Proof. intros H. apply is_cover_spec in H. unfold share. rewrite H. reflexivity. Qed.
Lemma share_component u b : component b -> share M u b = un_area (unit_at M u) / total_area M * un_fraction (unit_at M u) (bs_parent b).
Proof. intros H. unfold share. rewrite (component_not_cover b H). apply is_component_spec in H. rewrite H. reflexivity. Qed.
Lemma share_storage u b : storage b -> share M u b = un_area (unit_at M u) / total_area M.
Proof. intros H. unfold share. destruct (storage_plain b H) as (->& ->&_). ring. Qed.

(** ** Outputs of a directly computed brick *)
Definition place_good (i u : nat) (b : bset) (bo : bout) : Prop :=
  match bo_place bo with
  | InDirect j c => exists v d, nth_error (direct_items M) j = Some (v, d) /\ In c (containers_of d) /\ share M u b = share M v d * bo_frac bo /\
                     i <> j /\ (bo_tgt bo = Outside -> (i < j)%nat)
  | InStorage k => (k < length (solved_items M))%nat /\ share M u b = solved_share M k * bo_frac bo
  | AtOutlet => bo_frac bo = share M u b
  | InAir => bo_frac bo = 1
  end.
Definition inside_good (b : bset) (bo : bout) : Prop := exists c, bo_tgt bo = Inside c /\ bo_frac bo = 1 /\ In c (containers_of b).
Definition outside_good (i u : nat) (b : bset) (bo : bout) : Prop :=
  (forall c, bo_tgt bo <> Inside c) /\ 0 <= bo_frac bo /\ (bo_tgt bo = Outside -> bo_frac bo <= 1) /\ place_good i u b bo.

Lemma reserved u d : (u < n)%nat -> In d (bricks u) -> String.eqb (bs_name d) "outlet" = false /\ String.eqb (bs_name d) "lateral" = false.
Proof. intros Hu Hd. destruct (uo_reserved M u (unit_ok u Hu) d Hd) as [H1 H2]. split; apply String.eqb_neq; assumption. Qed.
Lemma now_not_inside b c : now_or b <> Inside c.
Proof. destruct b; discriminate. Qed.
Lemma solved_share_unit k u d : nth_error (solved_items M) k = Some (Some u, d) -> solved_share M k = share M u d.
Proof. intros H. unfold solved_share. rewrite H. reflexivity. Qed.
Lemma solved_share_basin k d : nth_error (solved_items M) k = Some (None, d) -> solved_share M k = 1.
Proof. intros H. unfold solved_share. rewrite H. reflexivity. Qed.
Lemma nth_lt {X} (l : list X) k x : nth_error l k = Some x -> (k < length l)%nat.
Proof. intros H. apply nth_error_Some. congruence. Qed.

(** Weight of an output of a cover or of a storage towards something larger than a cover. *)
Lemma weight_out u b t : ~ component b -> match t with WOutlet | WUnitBrick _ None | WBasinBrick _ => True | _ => False end ->
  total_weight (un_area (unit_at M u)) (total_area M) (fraction_of (unit_at M u) b) t
  = (match t with WUnitBrick _ _ => 1 | _ => un_area (unit_at M u) / total_area M end) * (if is_cover b then un_fraction (unit_at M u) (bs_name b) else 1).
Proof.
  intros Hb Ht. unfold total_weight, fraction_of.
  assert (E : is_component b = false) by (destruct (is_component b) eqn:E; [apply is_component_spec in E; contradiction|reflexivity]). rewrite E.
  destruct (is_cover b), t as [|now [f|]|now| |]; cbn in *; try contradiction; reflexivity.
Qed.
Lemma share_out u b : ~ component b -> share M u b = un_area (unit_at M u) / total_area M * (if is_cover b then un_fraction (unit_at M u) (bs_name b) else 1).
Proof.
  intros Hb. unfold share.
  assert (E : is_component b = false) by (destruct (is_component b) eqn:E; [apply is_component_spec in E; contradiction|reflexivity]). rewrite E.
  destruct (is_cover b); reflexivity.
Qed.
Lemma cover_factor_range u b : (u < n)%nat -> In b (bricks u) -> 0 <= (if is_cover b then un_fraction (unit_at M u) (bs_name b) else 1) <= 1.
Proof. intros H1 H2. destruct (is_cover b) eqn:E; [apply fraction_range; auto; apply is_cover_spec; exact E|lra]. Qed.
(** Weight of an output of a component towards a cover or a component. *)
Lemma weight_component u b d now : component b -> component d \/ land_cover d ->
  total_weight (un_area (unit_at M u)) (total_area M) (fraction_of (unit_at M u) b) (WUnitBrick now (fraction_of (unit_at M u) d)) = 1.
Proof.
  intros Hb Hd. unfold total_weight, fraction_of. rewrite (component_not_cover b Hb), (proj2 (is_component_spec b) Hb).
  destruct Hd as [Hd|Hd].
  - rewrite (component_not_cover d Hd), (proj2 (is_component_spec d) Hd). cbn. ring.
  - rewrite (proj2 (is_cover_spec d) Hd). cbn. ring.
Qed.
Lemma storage_fraction u d : storage d -> fraction_of (unit_at M u) d = None.
Proof. intros H. unfold fraction_of. destruct (storage_plain d H) as (->& ->&_). reflexivity. Qed.
Lemma not_component b : land_cover b \/ direct_storage b -> ~ component b.
Proof.
  intros H K. destruct H as [[H|H]|[H _]]; unfold storage in *; destruct K as [K|K]; congruence.
Qed.

Lemma lateral_good i u b o bo : nth_error (direct_items M) i = Some (u, b) -> snowpack b -> o_now o = true ->
  In bo (lateral_outs M u b o) -> outside_good i u b bo.
Proof.
  intros Hi Hb Hnow H. assert (Hin := nth_error_In _ _ Hi). apply direct_In in Hin as (Hu&Hbin&_).
  unfold lateral_outs in H. apply in_concat in H as (l&Hl&H). apply in_map_iff in Hl as (v&<-&Hv).
  destruct (io_lateral M HM u v Hu Hv) as (Hv1&Hv2&Hv3).
  apply in_concat in H as (l&Hl&H). apply in_map_iff in Hl as (d&<-&Hd). apply filter_In in Hd as [Hd1 Hd2]. apply is_kind_spec in Hd2.
  assert (Cd : component d) by (left; exact Hd2). assert (Cb : component b) by (left; exact Hb).
  destruct (direct_found v d) as (j&J1&J2). { apply direct_In. split; [exact Hv1|]. split; [exact Hd1|apply component_direct; exact Cd]. }
  rewrite J1 in H. destruct H as [<-|[]].
  assert (Ha := area_pos u Hu). assert (Ha' := area_le v Hv1). assert (Hf := parent_range u b Hu Hbin Cb). assert (Hg := parent_range v d Hv1 Hd1 Cd).
  assert (Hg0 := Hv3 d Hd1 Hd2).
  unfold outside_good. cbn. rewrite Hnow. cbn. split; [discriminate|]. split; [|split; [discriminate|]].
  - apply Rmult_le_pos; [apply Rmult_le_pos; lra|]. left. apply Rinv_0_lt_compat, Rmult_lt_0_compat; lra.
  - exists v, d. split; [exact J2|]. split; [unfold containers_of, is_kind; rewrite Hd2; right; left; reflexivity|]. split.
    + rewrite (share_component u b Cb), (share_component v d Cd). field. repeat split; lra.
    + split; [|discriminate]. intros <-. rewrite Hi in J2. injection J2 as E _. congruence.
Qed.

Lemma unit_out_good i u b o bo : nth_error (direct_items M) i = Some (u, b) -> flows M u b o -> In bo (unit_outs M u b o) ->
  inside_good b bo \/ outside_good i u b bo.
Proof.
  intros Hi HF H. assert (Hin := nth_error_In _ _ Hi). apply direct_In in Hin as (Hu&Hbin&Hdir).
  destruct HF as [E Hnc|d Hb Hd E Ht Hne Hsurf Hlater|Hb E Ht Hnow|Hb E Ht Hnow|d Hb Hd Hsd E Ht Hlater|d Hb Hd E Ht Hnone|d Hb Hd Hsd E Ht Hnow Hst Hlater].
  - unfold unit_outs in H. rewrite E in H. change (String.eqb "outlet" "outlet") with true in H. cbn [In] in H. destruct H as [<-|[]]. right.
    unfold outside_good, place_good. cbn [bo_tgt bo_frac bo_place].
    rewrite (weight_out u b WOutlet Hnc I), <- (share_out u b Hnc).
    destruct (share_range u b Hu Hbin) as [S1 S2]. split; [discriminate|]. auto.
  - destruct (reserved u d Hu Hd) as [R1 R2]. unfold unit_outs in H. rewrite E, R1, R2, (has_brick_found u d Hu Hd) in H.
    assert (Cd : component d \/ land_cover d) by tauto.
    assert (Dd : is_direct d = true) by (destruct Cd; [apply component_direct|apply cover_direct]; assumption). rewrite Dd in H.
    destruct (direct_found u d) as (j&J1&J2); [apply direct_In; auto|]. rewrite J1 in H.
    destruct (entry_takes d (o_type o) Ht) as (c&Ec&Hc). rewrite Ec in H. destruct H as [<-|[]].
    assert (Hnn : String.eqb (bs_name d) (bs_name b) = false).
    { apply String.eqb_neq. intros K. apply Hne.
      assert (Hf := has_brick_found u d Hu Hd). assert (Hf' := has_brick_found u b Hu Hbin). rewrite K in Hf. congruence. }
    rewrite Hnn, andb_false_r. right. unfold outside_good, place_good. cbn [bo_tgt bo_frac bo_place]. rewrite (weight_component u b d _ Hb Cd).
    split; [intros c'; apply now_not_inside|]. split; [lra|]. split; [intros _; lra|]. exists u, d. split; [exact J2|]. split; [exact Hc|]. split.
    + rewrite (share_component u b Hb). destruct Hsurf as [[N1 N2]|[N1 N2]]; [rewrite (share_cover u d N2), N1|rewrite (share_component u d N1), N2]; ring.
    + assert (Hij : i <> j) by (intros <-; rewrite Hi in J2; injection J2 as J2; congruence). split; [exact Hij|]. intros Ho.
      destruct Hlater as [Hl|Hl]; [rewrite Hl in Ho; discriminate|].
      apply (before_lt (direct_items M) (u, b) (u, d)); [apply NoDup_of_keys, direct_keys|apply direct_before; auto|exact Hi|exact J2].
  - destruct (reserved u b Hu Hbin) as [R1 R2]. unfold unit_outs in H. rewrite E, R1, R2, (has_brick_found u b Hu Hbin), Hdir in H.
    destruct (direct_found u b) as (j&J1&J2); [apply direct_In; auto|]. rewrite J1 in H.
    destruct (entry_takes b (o_type o) Ht) as (c&Ec&Hc). rewrite Ec, Hnow, String.eqb_refl in H. destruct H as [<-|[]]. left. exists c. cbn [bo_tgt bo_frac andb].
    rewrite (weight_component u b b true Hb (or_introl Hb)). auto.
  - unfold unit_outs in H. rewrite E in H. change (String.eqb "lateral" "outlet") with false in H. change (String.eqb "lateral" "lateral") with true in H.
    right. exact (lateral_good i u b o bo Hi Hb Hnow H).
  - assert (Hnc := not_component b Hb). destruct (reserved u d Hu Hd) as [R1 R2]. unfold unit_outs in H. rewrite E, R1, R2, (has_brick_found u d Hu Hd) in H.
    destruct (storage_plain d Hsd) as (_&_&Dd). rewrite Dd, (storage_fraction u d Hsd) in H.
    destruct (cover_factor_range u b Hu Hbin) as [F1 F2].
    destruct (bs_directly d) eqn:Ed.
    + destruct (Hlater (conj Hsd Ed)) as [Hne Hl]. rewrite Ht in H. cbn [entry] in H.
      destruct (direct_found u d) as (j&J1&J2); [apply direct_In; rewrite Dd; auto|]. rewrite J1 in H. destruct H as [<-|[]].
      assert (Hnn : String.eqb (bs_name d) (bs_name b) = false).
      { apply String.eqb_neq. intros K. apply Hne.
        assert (Hf := has_brick_found u d Hu Hd). assert (Hf' := has_brick_found u b Hu Hbin). rewrite K in Hf. congruence. }
      rewrite Hnn, andb_false_r. right. unfold outside_good, place_good. cbn [bo_tgt bo_frac bo_place]. rewrite (weight_out u b (WUnitBrick (o_now o) None) Hnc I).
      split; [intros c'; apply now_not_inside|]. split; [lra|]. split; [intros _; lra|]. exists u, d. split; [exact J2|]. split; [apply containers_water|]. split.
      * rewrite (share_storage u d Hsd), (share_out u b Hnc). ring.
      * assert (Hij : i <> j) by (intros <-; rewrite Hi in J2; injection J2 as J2; congruence). split; [exact Hij|]. intros Ho.
        destruct Hl as [Hl|Hl]; [rewrite Hl in Ho; discriminate|].
        apply (before_lt (direct_items M) (u, b) (u, d)); [apply NoDup_of_keys, direct_keys|apply direct_before; auto|exact Hi|exact J2].
    + destruct (solved_found (Some u) d) as (k&K1&K2); [apply solved_In_unit; rewrite Dd; auto|]. rewrite K1 in H. destruct H as [<-|[]].
      right. unfold outside_good, place_good. cbn [bo_tgt bo_frac bo_place]. rewrite (weight_out u b (WUnitBrick (o_now o) None) Hnc I).
      split; [intros c'; apply now_not_inside|]. split; [lra|]. split; [intros _; lra|]. split; [exact (nth_lt _ _ _ K2)|].
      rewrite (solved_share_unit k u d K2), (share_storage u d Hsd), (share_out u b Hnc). ring.
  - assert (Hnc := not_component b Hb). destruct (bo_reserved M (io_basin M HM) d Hd) as [R1 R2]. apply String.eqb_neq in R1, R2.
    unfold unit_outs in H. rewrite E, R1, R2, (has_brick_none u (bs_name d) Hnone) in H.
    destruct (solved_found None d) as (k&K1&K2); [apply solved_In_basin; exact Hd|]. rewrite K1 in H. destruct H as [<-|[]].
    right. unfold outside_good, place_good. cbn [bo_tgt bo_frac bo_place]. rewrite (weight_out u b (WBasinBrick (o_now o)) Hnc I), <- (share_out u b Hnc).
    destruct (share_range u b Hu Hbin) as [S1 S2].
    split; [intros c'; apply now_not_inside|]. split; [lra|]. split; [intros _; lra|]. split; [exact (nth_lt _ _ _ K2)|].
    rewrite (solved_share_basin k d K2). ring.
  - destruct Hb as [Hb1 Hb2]. destruct (storage_plain b Hb1) as (_&_&Db). congruence.
Qed.

(** ** Outputs of a solved brick *)
Definition conn_good (i : nat) (bo : bout) : Prop :=
  match bo_place bo with
  | InDirect _ _ => False
  | InStorage k => (k < length (solved_items M))%nat /\ bo_tgt bo = Outside /\ bo_static bo = false /\ bo_frac bo = 1 /\ (i < k)%nat /\
                   solved_share M i = solved_share M k
  | AtOutlet => bo_frac bo = solved_share M i /\ bo_frac bo <= 1
  | InAir => bo_frac bo = 1
  end.
Lemma solved_storage_unit u b : (u < n)%nat -> In b (bricks u) -> is_direct b = false -> solved_storage b.
Proof.
  intros Hu Hb Hd. destruct (uo_kinds M u (unit_ok u Hu) b Hb) as [K|[K|K]].
  - rewrite (component_direct b K) in Hd. discriminate.
  - rewrite (cover_direct b K) in Hd. discriminate.
  - split; [exact K|]. destruct (storage_plain b K) as (_&_&E). congruence.
Qed.
Lemma solved_out_good_unit i u b o bo : nth_error (solved_items M) i = Some (Some u, b) -> flows M u b o -> In bo (unit_outs M u b o) -> conn_good i bo.
Proof.
  intros Hi HF H. assert (Hin := nth_error_In _ _ Hi). apply solved_In_unit in Hin as (Hu&Hbin&Hdir).
  destruct (solved_storage_unit u b Hu Hbin Hdir) as [Sb Sd].
  assert (Hnc : ~ component b) by (intros [K|K]; unfold storage in Sb; congruence).
  assert (Hnd : ~ (land_cover b \/ direct_storage b)).
  { intros [[K|K]|[_ K]]; unfold storage in Sb; congruence. }
  destruct HF as [E _|d Hb Hd E Ht Hne Hsurf Hlater|Hb E Ht Hnow|Hb E Ht Hnow|d Hb Hd Hsd E Ht Hlater|d Hb Hd E Ht Hnone|d Hb Hd Hsd E Ht Hnow Hst Hlater];
    try contradiction.
  - unfold unit_outs in H. rewrite E in H. change (String.eqb "outlet" "outlet") with true in H. cbn [In] in H. destruct H as [<-|[]].
    unfold conn_good. cbn [bo_place bo_frac]. rewrite (weight_out u b WOutlet Hnc I), <- (share_out u b Hnc), (solved_share_unit i u b Hi).
    destruct (share_range u b Hu Hbin) as [S1 S2]. auto.
  - exfalso. apply Hnc. left. exact Hb.
  - destruct Hsd as [Sd1 Sd2]. destruct (storage_plain d Sd1) as (_&_&Dd). rewrite Sd2 in Dd.
    destruct (reserved u d Hu Hd) as [R1 R2]. unfold unit_outs in H. rewrite E, R1, R2, (has_brick_found u d Hu Hd), Dd, (storage_fraction u d Sd1) in H.
    destruct (solved_found (Some u) d) as (k&K1&K2); [apply solved_In_unit; auto|]. rewrite K1 in H. destruct H as [<-|[]].
    unfold conn_good. cbn [bo_place bo_frac bo_tgt bo_static]. rewrite Hnow, Hst.
    split; [exact (nth_lt _ _ _ K2)|]. split; [reflexivity|]. split; [reflexivity|]. split.
    { unfold total_weight, fraction_of. destruct (storage_plain b Sb) as (->& ->&_). cbn. ring. }
    split.
    + apply (before_lt (solved_items M) (Some u, b) (Some u, d)); [apply NoDup_of_keys, solved_keys|apply solved_before; auto|exact Hi|exact K2].
    + rewrite (solved_share_unit i u b Hi), (solved_share_unit k u d K2), (share_storage u b Sb), (share_storage u d Sd1). reflexivity.
Qed.
Lemma solved_out_good_basin i b p o bo : nth_error (solved_items M) i = Some (None, b) -> In p (bs_processes b) -> to_atmosphere (pr_type p) = false ->
  In o (pr_outputs p) -> In bo (basin_outs M o) -> conn_good i bo.
Proof.
  intros Hi Hp Ha Ho H. assert (Hin := nth_error_In _ _ Hi). apply solved_In_basin in Hin.
  destruct (bo_flows M (io_basin M HM) b p o Hin Hp Ha Ho) as [E|(d&D1&D2&D3&D4&D5)]; unfold basin_outs in H.
  - rewrite E in H. change (String.eqb "outlet" "outlet") with true in H. cbn [In] in H. destruct H as [<-|[]].
    unfold conn_good. cbn [bo_place bo_frac]. rewrite (solved_share_basin i b Hi). lra.
  - destruct (bo_reserved M (io_basin M HM) d D1) as [R1 R2]. apply String.eqb_neq in R1. rewrite D2, R1 in H.
    destruct (solved_found None d) as (k&K1&K2); [apply solved_In_basin; exact D1|]. rewrite K1 in H. destruct H as [<-|[]].
    unfold conn_good. cbn [bo_place bo_frac bo_tgt bo_static]. rewrite D4. split; [exact (nth_lt _ _ _ K2)|]. split; [reflexivity|]. split; [reflexivity|].
    split; [reflexivity|]. split.
    + apply (before_lt (solved_items M) (None, b) (None, d)); [apply NoDup_of_keys, solved_keys|apply basin_before; auto|exact Hi|exact K2].
    + rewrite (solved_share_basin i b Hi), (solved_share_basin k d K2). reflexivity.
Qed.
Lemma process_outs_In outs p bo : In bo (process_outs outs p) ->
  (to_atmosphere (pr_type p) = true /\ bo = mkBO Outside 1 InAir false) \/
  (to_atmosphere (pr_type p) = false /\ exists o, In o (pr_outputs p) /\ In bo (outs o)).
Proof.
  unfold process_outs. destruct (to_atmosphere (pr_type p)).
  - intros [<-|[]]. auto.
  - intros H. apply in_concat in H as (l&Hl&H). apply in_map_iff in Hl as (o&<-&Ho). right. eauto.
Qed.
Lemma solved_conn_good i x p bo : nth_error (solved_items M) i = Some x -> In p (bs_processes (snd x)) -> In bo (process_outs (item_outs M x) p) -> conn_good i bo.
Proof.
  intros Hi Hp H. destruct (process_outs_In _ _ _ H) as [[_ ->]|(Ha&o&Ho&Hb)]; [reflexivity|]. destruct x as [[u|] b]; cbn in *.
  - assert (Hin := nth_error_In _ _ Hi). apply solved_In_unit in Hin as (Hu&Hbin&Hdir).
    exact (solved_out_good_unit i u b o bo Hi (uo_flows M u (unit_ok u Hu) b p o Hbin Hp Ha Ho) Hb).
  - exact (solved_out_good_basin i b p o bo Hi Hp Ha Ho Hb).
Qed.
Lemma direct_out_good i u b p bo : nth_error (direct_items M) i = Some (u, b) -> In p (bs_processes b) -> In bo (process_outs (unit_outs M u b) p) ->
  inside_good b bo \/ outside_good i u b bo.
Proof.
  intros Hi Hp H. assert (Hin := nth_error_In _ _ Hi). apply direct_In in Hin as (Hu&Hbin&Hdir).
  destruct (process_outs_In _ _ _ H) as [[_ ->]|(Ha&o&Ho&Hb)].
  - right. unfold outside_good, place_good. cbn. repeat split; try discriminate; lra.
  - exact (unit_out_good i u b o bo Hi (uo_flows M u (unit_ok u Hu) b p o Hbin Hp Ha Ho) Hb).
Qed.

(** ** Numbering *)
Lemma number_conns l : forall first, concat (map p_conns (number l first)) = seq first (length (built_outs l)).
Proof.
  induction l as [|[c outs] l IH]; intros first; [reflexivity|]. cbn. rewrite IH. unfold built_outs. cbn. rewrite app_length, seq_app. reflexivity.
Qed.
Lemma number_cont l : forall first q, In q (number l first) -> In (p_cont q) (map fst l).
Proof.
  induction l as [|[c outs] l IH]; intros first q H; [contradiction|]. destruct H as [<-|H]; [left; reflexivity|right; eapply IH; exact H].
Qed.
Lemma overflow_douts outs b : forall ps first k, overflow_index outs ps first = Some k ->
  In k (concat (map p_conns (filter (fun q => Nat.eqb (p_cont q) 0)
    (number (map (fun p => (match process_container b (pr_type p) with Some c => c | None => 0%nat end, process_outs outs p)) ps) first)))).
Proof.
  induction ps as [|p ps IH]; intros first k H; [discriminate|]. cbn in H |- *.
  destruct (overflow_index outs ps (first + length (process_outs outs p))) as [k'|] eqn:E.
  - injection H as ->. apply IH in E.
    destruct (Nat.eqb (match process_container b (pr_type p) with Some c => c | None => 0%nat end) 0); cbn; [apply in_or_app; right|]; exact E.
  - destruct (String.eqb (pr_type p) "overflow") eqn:Et; [|discriminate]. apply String.eqb_eq in Et.
    destruct (process_outs outs p) as [|x l] eqn:Eo; [discriminate|]. injection H as <-. rewrite Et.
    change (process_container b "overflow") with (Some 0%nat). cbn. left. reflexivity.
Qed.
Lemma with_index_In {X} (f : nat -> X -> list conn) c : forall l i0, In c (concat (with_index f i0 l)) ->
  exists i x, nth_error l i = Some x /\ In c (f (i0 + i)%nat x).
Proof.
  induction l as [|y l IH]; intros i0 H; [contradiction|]. cbn in H. apply in_app_or in H as [H|H].
  - exists 0%nat, y. rewrite Nat.add_0_r. auto.
  - destruct (IH (S i0) H) as (i&x&H1&H2). exists (S i), x. split; [exact H1|]. replace (i0 + S i)%nat with (S i0 + i)%nat by lia. exact H2.
Qed.

(** ** The catchment *)
Definition assembled : catchment := mkCatch (map (build_node M) (direct_items M)) (build_net M).
Lemma assembled_count : node_count assembled = length (direct_items M).
Proof. unfold node_count, assembled. cbn. apply map_length. Qed.
Lemma assembled_node i x : nth_error (direct_items M) i = Some x -> node_at assembled i = build_node M x.
Proof. intros H. unfold node_at, assembled. cbn [ct_nodes]. apply nth_error_nth. rewrite (map_nth_error _ _ _ H). reflexivity. Qed.
Lemma item_at i : (i < node_count assembled)%nat -> exists u b, nth_error (direct_items M) i = Some (u, b).
Proof.
  rewrite assembled_count. intros H. destruct (nth_error (direct_items M) i) as [[u b]|] eqn:E; [eauto|]. apply nth_error_None in E. lia.
Qed.
Definition outs_of u b : list bout := built_outs (built_processes (unit_outs M u b) b).
Lemma out_at u b k : (k < length (outs_of u b))%nat -> In (nth k (outs_of u b) dummy_out) (outs_of u b).
Proof. apply nth_In. Qed.
Lemma outs_of_good i u b bo : nth_error (direct_items M) i = Some (u, b) -> In bo (outs_of u b) -> inside_good b bo \/ outside_good i u b bo.
Proof.
  intros Hi H. unfold outs_of, built_outs, built_processes in H. rewrite map_map in H. cbn in H. apply in_concat in H as (l&Hl&H).
  apply in_map_iff in Hl as (p&<-&Hp). exact (direct_out_good i u b p bo Hi Hp H).
Qed.
Lemma node_conn u b k : (k < length (outs_of u b))%nat ->
  dconn_at (nd_brick (build_node M (u, b))) k = mkDC (bo_tgt (nth k (outs_of u b) dummy_out)) (bo_frac (nth k (outs_of u b) dummy_out)).
Proof.
  intros H. unfold dconn_at. cbn. rewrite (nth_indep _ dummy_dconn (mkDC (bo_tgt dummy_out) (bo_frac dummy_out))) by (rewrite map_length; exact H).
  rewrite (map_nth (fun o => mkDC (bo_tgt o) (bo_frac o))). reflexivity.
Qed.
Lemma node_outs u b : length (db_conns (nd_brick (build_node M (u, b)))) = length (outs_of u b).
Proof. cbn. apply map_length. Qed.

Lemma node_valid i u b : nth_error (direct_items M) i = Some (u, b) -> dvalid (nd_brick (build_node M (u, b))) /\ NoDup (containers_of b).
Proof.
  intros Hi. assert (Hin := nth_error_In _ _ Hi). apply direct_In in Hin as (Hu&Hbin&Hdir). split; [|apply containers_nodup]. constructor.
  - intros q Hq. cbn in Hq |- *. apply number_cont in Hq. unfold built_processes in Hq. rewrite map_map in Hq. apply in_map_iff in Hq as (p&E&Hp). cbn in E.
    destruct (uo_process M u (unit_ok u Hu) b p Hbin Hp) as [c Ec]. rewrite Ec in E. rewrite <- E. exact (process_container_in b _ c Ec).
  - cbn. rewrite number_conns. apply seq_NoDup.
  - intros k. rewrite node_outs. cbn. rewrite number_conns, in_seq. fold (outs_of u b). lia.
  - intros k c H. change (In c (containers_of b)). destruct (lt_dec k (length (outs_of u b))) as [L|L].
    + rewrite (node_conn u b k L) in H. cbn in H. destruct (outs_of_good i u b _ Hi (out_at u b k L)) as [(c'&E&_&K)|[K _]]; [|exfalso; exact (K c H)].
      rewrite H in E. injection E as ->. exact K.
    + unfold dconn_at in H. rewrite nth_overflow in H by (rewrite node_outs; lia). discriminate.
  - intros c k H. cbn in H. destruct c as [|c]; [|discriminate]. unfold douts. cbn. unfold built_processes. exact (overflow_douts _ b _ _ _ H).
  - intros c x H. cbn in H. destruct c as [|c]; [|discriminate]. exact (uo_capacity M u (unit_ok u Hu) b x Hbin H).
Qed.
Lemma without_area_share u b : (u < n)%nat -> In b (bricks u) -> without_area (unit_at M u) b = true -> share M u b = 0.
Proof.
  intros Hu Hb. unfold without_area, share, NearlyZero.
  destruct (is_cover b) eqn:E1.
  - apply is_cover_spec in E1. intros H. unfold Rleb in H. destruct (Rle_dec _ _) as [H0|]; [|discriminate].
    rewrite (proj2 (uo_fraction M u (unit_ok u Hu) b Hb E1) H0). ring.
  - destruct (is_component b) eqn:E2; [|discriminate]. apply is_component_spec in E2. intros H. unfold Rleb in H. destruct (Rle_dec _ _) as [H0|]; [|discriminate].
    destruct (uo_parent M u (unit_ok u Hu) b Hb E2) as (d&D1&D2&D3). rewrite <- D3 in H0 |- *.
    rewrite (proj2 (uo_fraction M u (unit_ok u Hu) d D1 D2) H0). ring.
Qed.
Lemma conn_In c : In c (n_conns (build_net M)) -> exists i x p bo, nth_error (solved_items M) i = Some x /\ In p (bs_processes (snd x)) /\
  In bo (process_outs (item_outs M x) p) /\ c = as_conn i (String.eqb (pr_type p) "overflow") bo.
Proof.
  intros H. cbn in H. apply with_index_In in H as (i&x&H1&H2). unfold build_conns in H2. apply in_concat in H2 as (l&Hl&H2).
  apply in_map_iff in Hl as (p&<-&Hp). apply in_map_iff in H2 as (bo&<-&Hb). exists i, x, p, bo. auto.
Qed.
Lemma solved_share_range k : 0 <= solved_share M k.
Proof.
  unfold solved_share. destruct (nth_error (solved_items M) k) as [[[u|] b]|] eqn:E; [|lra|lra].
  apply nth_error_In in E. apply solved_In_unit in E as (Hu&Hb&_). apply (share_range u b Hu Hb).
Qed.
Lemma caps_nonneg x c : In x (solved_items M) -> bs_capacity (snd x) = Some c -> 0 <= c.
Proof.
  destruct x as [[u|] b]; cbn; intros H E.
  - apply solved_In_unit in H as (Hu&Hb&_). exact (uo_capacity M u (unit_ok u Hu) b c Hb E).
  - apply solved_In_basin in H. exact (bo_capacity M (io_basin M HM) b c H E).
Qed.

Theorem assembled_sound : sound assembled (direct_share M) (solved_share M).
Proof.
  constructor.
  - intros i Hi. destruct (item_at i Hi) as (u&b&E). unfold conts_of. rewrite (assembled_node i _ E). exact (node_valid i u b E).
  - intros i. unfold direct_share. destruct (nth_error (direct_items M) i) as [[u b]|] eqn:E; [|lra].
    apply nth_error_In in E. apply direct_In in E as (Hu&Hb&_). apply (share_range u b Hu Hb).
  - intros i Hi. destruct (item_at i Hi) as (u&b&E). rewrite (assembled_node i _ E). cbn. intros H. unfold direct_share. rewrite E.
    apply nth_error_In in E. apply direct_In in E as (Hu&Hb&_). exact (without_area_share u b Hu Hb H).
  - intros i k c Hi Hk H. destruct (item_at i Hi) as (u&b&E). unfold out_count in Hk. unfold conn_of in *. rewrite (assembled_node i _ E) in *.
    rewrite node_outs in Hk. rewrite (node_conn u b k Hk) in *. cbn in *. destruct (outs_of_good i u b _ E (out_at u b k Hk)) as [(c'&_&K&_)|[K _]]; [exact K|exfalso; exact (K c H)].
  - intros i k Hi Hk Ho. destruct (item_at i Hi) as (u&b&E). unfold out_count in Hk. unfold outward, conn_of in *. rewrite (assembled_node i _ E) in *.
    rewrite node_outs in Hk. rewrite (node_conn u b k Hk) in *. cbn [d_tgt d_frac] in *.
    change (nd_to (build_node M (u, b)) k) with (bo_place (nth k (outs_of u b) dummy_out)).
    destruct (outs_of_good i u b _ E (out_at u b k Hk)) as [(c'&K&_)|(_&K1&K2&K3)]; [exfalso; exact (Ho c' K)|].
    set (bo := nth k (outs_of u b) dummy_out) in *. clearbody bo. split; [exact K1|]. split; [exact K2|]. unfold place_good in K3.
    assert (Ws : direct_share M i = share M u b) by (unfold direct_share; rewrite E; reflexivity).
    destruct (bo_place bo) as [j c|k'| |].
    + destruct K3 as (v&d&J1&J2&J3&J4&J5). split; [rewrite assembled_count; exact (nth_lt _ _ _ J1)|]. unfold conts_of. rewrite (assembled_node j _ J1).
      split; [exact J2|]. split; [|auto]. rewrite Ws. unfold direct_share at 1. rewrite J1. exact J3.
    + change (length (n_bricks (ct_net assembled))) with (length (map (fun x : option nat * bset => mkBrick (bs_capacity (snd x)) (may_be_negative (snd x))) (solved_items M))).
      rewrite map_length, Ws. exact K3.
    + rewrite Ws. exact K3.
    + exact K3.
  - intros c Hc. destruct (conn_In c Hc) as (i&x&p&bo&H1&H2&H3&->). cbn. rewrite map_length. split; [exact (nth_lt _ _ _ H1)|].
    intros k E. pose proof (solved_conn_good i x p bo H1 H2 H3) as G. unfold conn_good in G. destruct (bo_place bo); try discriminate. injection E as ->. apply G.
  - intros c k Hc. destruct (conn_In c Hc) as (i&x&p&bo&H1&H2&H3&->). cbn. intros E.
    pose proof (solved_conn_good i x p bo H1 H2 H3) as G. unfold conn_good in G. destruct (bo_place bo); try discriminate. injection E as ->.
    destruct G as (_&->& ->& G&_). auto.
  - intros c k Hc. destruct (conn_In c Hc) as (i&x&p&bo&H1&H2&H3&->). cbn. intros E.
    pose proof (solved_conn_good i x p bo H1 H2 H3) as G. unfold conn_good in G. destruct (bo_place bo); try discriminate. injection E as ->. apply G.
  - intros b c Hb E. cbn in Hb. apply in_map_iff in Hb as (x&<-&Hx). cbn in E. exact (caps_nonneg x c Hx E).
  - split; [exact solved_share_range|]. intros c Hc. destruct (conn_In c Hc) as (i&x&p&bo&H1&H2&H3&->). cbn.
    pose proof (solved_conn_good i x p bo H1 H2 H3) as G. unfold conn_good in G. destruct (bo_place bo); try contradiction; [apply G|exact G|exact G].
Qed.

(** ** Nothing is refused *)
Lemma storage_entry d : entry d Water = Some 0%nat.
Proof. reflexivity. Qed.
Lemma unit_output_accepted u b o : (u < n)%nat -> In b (bricks u) -> flows M u b o -> unit_output_ok M u b o = true.
Proof.
  intros Hu Hb HF. unfold unit_output_ok.
  destruct HF as [E _|d Hc Hd E Ht Hne Hsurf Hlater|Hc E Ht Hnow|Hc E Ht Hnow|d Hc Hd Hsd E Ht Hlater|d Hc Hd E Ht Hnone|d Hc Hd Hsd E Ht Hnow Hst Hlater].
  - rewrite E. reflexivity.
  - destruct (reserved u d Hu Hd) as [R1 R2]. rewrite E, R1, R2, (has_brick_found u d Hu Hd). destruct (entry_takes d _ Ht) as (c&->&_).
    rewrite (component_direct b Hc). reflexivity.
  - destruct (reserved u b Hu Hb) as [R1 R2]. rewrite E, R1, R2, (has_brick_found u b Hu Hb). destruct (entry_takes b _ Ht) as (c&->&_).
    rewrite (component_direct b Hc). reflexivity.
  - rewrite E, Ht. cbn. destruct (un_receivers (unit_at M u)); reflexivity.
  - destruct (reserved u d Hu Hd) as [R1 R2]. rewrite E, R1, R2, (has_brick_found u d Hu Hd), Ht. cbn [entry].
    assert (Db : is_direct b = true). { destruct Hc as [K|[K1 K2]]; [exact (cover_direct b K)|]. destruct (storage_plain b K1) as (_&_&->). exact K2. }
    rewrite Db. reflexivity.
  - destruct (bo_reserved M (io_basin M HM) d Hd) as [R1 R2]. apply String.eqb_neq in R1, R2. rewrite E, R1, R2, (has_brick_none u (bs_name d) Hnone).
    unfold basin_brick. destruct (find _ (dm_basin M)) as [d'|] eqn:F; [rewrite Ht; reflexivity|].
    pose proof (find_none _ _ F d Hd) as K. cbn in K. rewrite String.eqb_refl in K. discriminate.
  - destruct (reserved u d Hu Hd) as [R1 R2]. rewrite E, R1, R2, (has_brick_found u d Hu Hd), Ht. cbn [entry].
    destruct Hsd as [S1 S2]. destruct (storage_plain d S1) as (_&_&->). rewrite S2. apply orb_true_r.
Qed.
Lemma kind_known b : component b \/ land_cover b \/ storage b -> match kind_of (bs_type b) with Some _ => true | None => false end = true.
Proof. unfold component, land_cover, storage. intros H. destruct (kind_of (bs_type b)); [reflexivity|]. exfalso. intuition discriminate. Qed.
Lemma build_ok : build M = Ok assembled.
Proof.
  assert (K : all_known M = true).
  { unfold all_known. apply forallb_forall. intros b Hb. apply kind_known. apply in_app_or in Hb as [Hb|Hb].
    - right; right. exact (bo_kinds M (io_basin M HM) b Hb).
    - apply in_concat in Hb as (l&Hl&Hb). apply in_map_iff in Hl as (u&<-&Hu). apply unit_ids_In in Hu. exact (uo_kinds M u (unit_ok u Hu) b Hb). }
  assert (B : buildable M = true).
  { unfold buildable. apply andb_true_iff. split; apply forallb_forall.
    - intros u Hu. apply unit_ids_In in Hu. apply forallb_forall. intros b Hb. apply forallb_forall. intros p Hp. unfold process_ok.
      destruct (uo_process M u (unit_ok u Hu) b p Hb Hp) as [c ->]. destruct (to_atmosphere (pr_type p)) eqn:Ea; [reflexivity|]. apply forallb_forall.
      intros o Ho. apply unit_output_accepted; auto. exact (uo_flows M u (unit_ok u Hu) b p o Hb Hp Ea Ho).
    - intros b Hb. apply forallb_forall. intros p Hp. unfold process_ok.
      destruct (bo_process M (io_basin M HM) b p Hb Hp) as [c ->]. destruct (to_atmosphere (pr_type p)) eqn:Ea; [reflexivity|]. apply forallb_forall.
      intros o Ho. unfold basin_output_ok. destruct (bo_flows M (io_basin M HM) b p o Hb Hp Ea Ho) as [->|(d&D1&D2&D3&_)]; [reflexivity|].
      destruct (String.eqb (o_target o) "outlet"); [reflexivity|]. unfold basin_brick. rewrite D2, D3.
      destruct (find _ (dm_basin M)) as [d'|] eqn:F; [reflexivity|]. pose proof (find_none _ _ F d D1) as K'. cbn in K'. rewrite String.eqb_refl in K'. discriminate. }
  unfold build. rewrite K, B. reflexivity.
Qed.
End Sound.
