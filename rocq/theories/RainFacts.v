(** The splitters of a declared model bring the rain and the snow to every land cover. *)
From Coq Require Import Permutation.
From Verif Require Import Base BaseFacts Container ContainerFacts Direct DirectSpec Network NetworkSpec Topology Catchment CatchmentSpec Build BuildSpec BuildFacts BuildSound
  StructureSpec StructureFacts PartsFacts DeclareSpec DeclareFacts.
Open Scope list_scope.

Section Model.
Variable covers : list (string * string).
Variable o : options.
Variable parts : list part.
Hypothesis HG : good_model covers o parts.
Local Notation st := (add_parts parts (base o covers)).

(** ** Splitters *)
Lemma has_brick_reserved s : In s reserved -> has_brick st s = None.
Proof.
  intros H. unfold has_brick. destruct (find _ (created st)) as [b|] eqn:E; [|reflexivity]. exfalso. apply find_some in E as [E1 E2]. apply String.eqb_eq in E2.
  apply (created_member covers o parts HG) in E1. apply (member_reserved covers o parts HG b E1). rewrite E2. exact H.
Qed.
Lemma has_brick_member b : In b (created st) -> has_brick st (bs_name b) <> None.
Proof. intros H E. unfold has_brick in E. pose proof (find_none _ _ E b H) as K. cbn in K. rewrite String.eqb_refl in K. discriminate. Qed.
(** The brick on which the rain of a cover falls, the snowpack of a cover. *)
Lemma receiver_member c : In c covers -> exists b, In b (created st) /\ bs_name b = rain_receiver o c /\ is_direct b = true /\
  (bs_name b = fst c /\ land_cover b \/ component b /\ bs_parent b = fst c).
Proof.
  intros Hc. unfold rain_receiver. destruct (has_canopy o c) eqn:Ey.
  - exists (canopy_brick o c). split; [apply created_member; [exact HG|]; exact (is_canopy _ _ _ _ c Hc Ey eq_refl)|]. repeat split. right. split; [right|]; reflexivity.
  - destruct (rain_on_packs o) eqn:Er.
    + assert (Es : op_snow o = true) by (unfold rain_on_packs in Er; apply andb_true_iff in Er; apply Er).
      exists (pack_brick c (pack_processes o c)). split; [apply created_member; [exact HG|]; exact (is_pack _ _ _ _ c Hc Es eq_refl)|]. repeat split. right. split; [left|]; reflexivity.
    + exists (dressed parts c). split; [apply created_member; [exact HG|]; exact (is_cover' _ _ _ _ c Hc eq_refl)|]. destruct (dressed_attrs parts c) as [-> _].
      pose proof (cover_kind covers o parts HG c Hc) as K. split; [reflexivity|]. split; [exact (cover_direct _ K)|]. left. auto.
Qed.
Lemma held_same (l : list (output * R)) held : (forall x, In x l -> has_brick st (o_target (fst x)) <> None) -> fold_left (hold st) l held = held.
Proof.
  revert held. induction l as [|x l IH]; intros held H; [reflexivity|]. cbn [fold_left]. unfold hold at 2.
  destruct (has_brick st (o_target (fst x))) eqn:E; [|destruct (H x (or_introl eq_refl) E)]. apply IH. intros y Hy. apply H. right. exact Hy.
Qed.
Lemma hold_new t ty held a : has_brick st t = None -> hold st held (mkOut t ty false false, a) = fun name => if String.eqb name t then a else held name.
Proof. intros H. unfold hold. cbn [fst snd o_target]. rewrite H. reflexivity. Qed.
Lemma combine_const {X} (l : list X) (a : R) : combine l (map (fun _ => a) l) = map (fun x => (x, a)) l.
Proof. induction l as [|x l IH]; cbn; [reflexivity|]. rewrite IH. reflexivity. Qed.
Lemma run_step rain snow held s r d : combine (sp_outputs s) (splitter_amounts rain snow (held (sp_name s)) s) = d ->
  run_splitters st rain snow held (s :: r) = d ++ run_splitters st rain snow (fold_left (hold st) d held) r.
Proof. intros <-. reflexivity. Qed.
Definition rain_outs : list output := map (fun c => water_to (rain_receiver o c)) covers.
Definition snow_outs : list output := map (fun c => mkOut (pack_of (fst c)) Snow false false) covers.
Definition start_outs (rain snow : R) : list (output * R) :=
  if op_snow o then [(mkOut "rain_splitter" Water false false, rain); (mkOut "snow_splitter" Snow false false, snow)] else [(mkOut "rain_splitter" Water false false, rain)].
Lemma splitters_run rain snow : run_splitters st rain snow (fun _ => 0) (st_splitters st) =
  start_outs rain snow ++ (if op_snow o then map (fun x => (x, snow)) snow_outs else []) ++ map (fun x => (x, rain)) rain_outs.
Proof.
  assert (E : st_splitters st = splitters o rain_outs (if op_snow o then snow_outs else [])) by (destruct (rest_shape parts (base o covers)) as (_&_&->); reflexivity).
  rewrite E. clear E. unfold splitters, start_outs.
  pose proof (has_brick_reserved "rain_splitter"%string ltac:(cbn; auto)) as Hr. pose proof (has_brick_reserved "snow_splitter"%string ltac:(cbn; auto)) as Hs.
  destruct (op_snow o) eqn:Es.
  - destruct (gm_splitter _ _ _ HG Es) as [N1 N2]. apply String.eqb_neq in N1, N2.
    rewrite (run_step rain snow _ _ _ [(mkOut "rain_splitter" Water false false, rain); (mkOut "snow_splitter" Snow false false, snow)])
      by (unfold splitter_amounts; cbn [sp_type sp_outputs]; rewrite N1, N2; reflexivity).
    cbn [fold_left]. rewrite !hold_new by assumption.
    rewrite (run_step rain snow _ _ _ (map (fun x => (x, snow)) snow_outs)) by (cbn; apply combine_const).
    rewrite held_same.
    + rewrite (run_step rain snow _ _ _ (map (fun x => (x, rain)) rain_outs)) by (cbn; apply combine_const). cbn [run_splitters]. rewrite app_nil_r. reflexivity.
    + intros x Hx. apply in_map_iff in Hx as (y&<-&Hy). apply in_map_iff in Hy as (c&<-&Hc). cbn [fst o_target].
      apply (has_brick_member (pack_brick c (pack_processes o c))). apply created_member; [exact HG|]. exact (is_pack _ _ _ _ c Hc Es eq_refl).
  - rewrite (run_step rain snow _ _ _ [(mkOut "rain_splitter" Water false false, rain)]) by reflexivity.
    cbn [fold_left]. rewrite !hold_new by assumption.
    rewrite (run_step rain snow _ _ _ (map (fun x => (x, rain)) rain_outs)) by (cbn; apply combine_const). cbn [run_splitters]. rewrite app_nil_r. reflexivity.
Qed.

(** ** What each brick receives *)
Lemma receivers_distinct c d : In c covers -> In d covers -> rain_receiver o c = rain_receiver o d -> fst c = fst d.
Proof.
  intros Hc Hd. pose proof (gm_names _ _ _ HG) as Hn. destruct (gn_apart _ Hn c d Hc Hd) as [A1 A2]. destruct (gn_apart _ Hn d c Hd Hc) as [B1 B2].
  unfold rain_receiver. destruct (has_canopy o c), (has_canopy o d), (rain_on_packs o); intros E; try congruence;
    try exact (canopy_inj _ _ E); try exact (pack_inj _ _ E).
  - exfalso. exact (pack_not_canopy _ _ (eq_sym E)).
  - exfalso. exact (pack_not_canopy _ _ E).
Qed.
Lemma Rsum_one {X} (key : X -> string) (v : R) (l : list X) x : NoDup (map key l) -> In x l -> Rsum (fun y => if String.eqb (key y) (key x) then v else 0) l = v.
Proof.
  induction l as [|y l IH]; intros N H; [destruct H|]. cbn [map Rsum] in *. inversion N as [|? ? N1 N2]; subst. destruct H as [->|H].
  - rewrite String.eqb_refl, Rsum_zero; [lra|]. intros z Hz. destruct (String.eqb (key z) (key x)) eqn:E; [|reflexivity]. exfalso. apply String.eqb_eq in E. apply N1. rewrite <- E. apply in_map, Hz.
  - rewrite (IH N2 H). destruct (String.eqb (key y) (key x)) eqn:E; [|lra]. exfalso. apply String.eqb_eq in E. apply N1. rewrite E. apply in_map, H.
Qed.
Lemma NoDup_map_in {X Y Z} (f : X -> Y) (g : X -> Z) l : NoDup (map f l) -> (forall x y, In x l -> In y l -> g x = g y -> f x = f y) -> NoDup (map g l).
Proof.
  intros H. induction l as [|x l IH]; intros Hg; cbn in *; [constructor|]. inversion H as [|? ? N1 N2]; subst. constructor.
  - intros K. apply in_map_iff in K as (y&E&Hy). apply N1. rewrite <- (Hg y x (or_intror Hy) (or_introl eq_refl) E). apply in_map, Hy.
  - apply IH; [exact N2|]. intros a b Ha Hb. apply Hg; right; assumption.
Qed.
Lemma receivers_nodup : NoDup (map (rain_receiver o) covers).
Proof. apply (NoDup_map_in fst); [exact (gn_distinct _ (gm_names _ _ _ HG))|]. exact receivers_distinct. Qed.
Lemma packs_nodup : NoDup (map (fun c => pack_of (fst c)) covers).
Proof. apply (NoDup_map_in fst); [exact (gn_distinct _ (gm_names _ _ _ HG))|]. intros x y _ _ E. exact (pack_inj _ _ E). Qed.
Lemma named b d : In b (created st) -> In d (created st) -> bs_name b = bs_name d -> b = d.
Proof.
  intros Hb Hd E. pose proof (created_names covers o parts HG) as N. apply In_nth_error in Hb as [i Hi]. apply In_nth_error in Hd as [j Hj].
  assert (i = j); [|congruence]. apply (proj1 (NoDup_nth_error _) N); [rewrite map_length; apply nth_error_Some; congruence|].
  rewrite (map_nth_error bs_name _ _ Hi), (map_nth_error bs_name _ _ Hj). congruence.
Qed.
Lemma received_eq rain snow b k : In b (created st) -> received st rain snow b k =
  (if Nat.eqb k 0 then Rsum (fun c => if String.eqb (rain_receiver o c) (bs_name b) then rain else 0) covers else 0)
  + (if op_snow o && Nat.eqb k 1 then Rsum (fun c => if String.eqb (pack_of (fst c)) (bs_name b) then snow else 0) covers else 0).
Proof.
  intros Hb. unfold received. rewrite splitters_run, !Rsum_app.
  assert (E1 : forall F, (forall x, In x (start_outs rain snow) -> F x = 0) -> Rsum F (start_outs rain snow) = 0) by (intros F HF; apply Rsum_zero; exact HF).
  assert (Nr : forall t, In t reserved -> String.eqb t (bs_name b) = false).
  { intros t Ht. apply String.eqb_neq. intros E. apply (member_reserved covers o parts HG b); [apply created_member; [exact HG|exact Hb]|]. rewrite <- E. exact Ht. }
  rewrite E1.
  2:{ intros x Hx. unfold start_outs in Hx. assert (Hx' : In (o_target (fst x)) reserved) by (destruct (op_snow o); cbn in Hx; intuition (subst; cbn; auto)). rewrite (Nr _ Hx'). reflexivity. }
  rewrite Rplus_0_l, Rplus_comm. f_equal.
  - unfold rain_outs. rewrite !Rsum_map. cbn [fst snd water_to o_target o_type entry]. rewrite (Nat.eqb_sym k 0). destruct (Nat.eqb 0 k).
    + apply Rsum_ext_in. intros c _. rewrite andb_true_r. reflexivity.
    + apply Rsum_zero. intros c _. rewrite andb_false_r. reflexivity.
  - destruct (op_snow o) eqn:Es; [|reflexivity]. unfold snow_outs. rewrite !Rsum_map. cbn [fst snd o_target o_type andb].
    assert (K : forall c, In c covers -> String.eqb (pack_of (fst c)) (bs_name b) = true -> entry b Snow = Some 1%nat).
    { intros c Hc E. apply String.eqb_eq in E. assert (Hp : In (pack_brick c (pack_processes o c)) (created st)) by (apply created_member; [exact HG|]; exact (is_pack _ _ _ _ c Hc Es eq_refl)).
      rewrite (named b _ Hb Hp (eq_sym E)). reflexivity. }
    destruct (Nat.eqb k 1) eqn:Ek.
    + apply Nat.eqb_eq in Ek. subst k. apply Rsum_ext_in. intros c Hc. destruct (String.eqb (pack_of (fst c)) (bs_name b)) eqn:E; [|reflexivity]. rewrite (K c Hc E). reflexivity.
    + apply Rsum_zero. intros c Hc. destruct (String.eqb (pack_of (fst c)) (bs_name b)) eqn:E; [|reflexivity]. rewrite (K c Hc E). rewrite Nat.eqb_sym, Ek. reflexivity.
Qed.
Lemma received_rain rain snow c b : In c covers -> In b (created st) -> bs_name b = rain_receiver o c -> received st rain snow b 0 = rain.
Proof.
  intros Hc Hb E. rewrite (received_eq rain snow b 0 Hb), andb_false_r. cbn [Nat.eqb]. rewrite E, (Rsum_one (rain_receiver o) rain covers c receivers_nodup Hc). lra.
Qed.
Lemma received_no_rain rain snow b : In b (created st) -> (forall c, In c covers -> bs_name b <> rain_receiver o c) -> received st rain snow b 0 = 0.
Proof.
  intros Hb H. rewrite (received_eq rain snow b 0 Hb), andb_false_r. cbn [Nat.eqb]. rewrite Rsum_zero; [lra|]. intros c Hc.
  destruct (String.eqb _ _) eqn:E; [|reflexivity]. apply String.eqb_eq in E. destruct (H c Hc). congruence.
Qed.
Lemma received_snow rain snow c b : op_snow o = true -> In c covers -> In b (created st) -> bs_name b = pack_of (fst c) -> received st rain snow b 1 = snow.
Proof.
  intros Hs Hc Hb E. rewrite (received_eq rain snow b 1 Hb), Hs. cbn [Nat.eqb andb]. rewrite E, (Rsum_one (fun c => pack_of (fst c)) snow covers c packs_nodup Hc). lra.
Qed.
Lemma received_no_snow rain snow b k : In b (created st) -> k <> 0%nat -> (k = 1%nat -> kind_of (bs_type b) <> Some KPack) -> received st rain snow b k = 0.
Proof.
  intros Hb Hk Hp. rewrite (received_eq rain snow b k Hb). destruct (Nat.eqb k 0) eqn:E0; [apply Nat.eqb_eq in E0; contradiction|].
  destruct (op_snow o) eqn:Es; cbn [andb]; [|lra]. destruct (Nat.eqb k 1) eqn:E1; [|lra]. apply Nat.eqb_eq in E1. rewrite Rsum_zero; [lra|]. intros c Hc.
  destruct (String.eqb _ _) eqn:E; [|reflexivity]. apply String.eqb_eq in E. exfalso. apply (Hp E1).
  assert (Hpk : In (pack_brick c (pack_processes o c)) (created st)) by (apply created_member; [exact HG|]; exact (is_pack _ _ _ _ c Hc Es eq_refl)).
  rewrite (named b _ Hb Hpk (eq_sym E)). reflexivity.
Qed.

Lemma received_nonneg rain snow b k : 0 <= rain -> 0 <= snow -> In b (created st) -> 0 <= received st rain snow b k.
Proof.
  intros Hr Hs Hb. rewrite (received_eq rain snow b k Hb).
  assert (K : forall (t : string * string -> bool) a, 0 <= a -> 0 <= Rsum (fun c => if t c then a else 0) covers) by (intros t a Ha; apply Rsum_nonneg; intros c _; destruct (t c); lra).
  apply Rplus_le_le_0_compat; [destruct (Nat.eqb k 0)|destruct (op_snow o && Nat.eqb k 1)]; try lra; apply K; assumption.
Qed.

(** ** What falls on the catchment *)
Lemma Rsum_nth {X} (g : X -> R) (l : list X) : Rsum (fun i => match nth_error l i with Some x => g x | None => 0 end) (seq 0 (length l)) = Rsum g l.
Proof.
  assert (K : forall l' pre, Rsum (fun i => match nth_error (pre ++ l') i with Some x => g x | None => 0 end) (seq (length pre) (length l')) = Rsum g l').
  { induction l' as [|x l' IH]; intros pre; [reflexivity|]. cbn [length seq Rsum]. rewrite nth_error_mid. f_equal.
    specialize (IH (pre ++ [x])). rewrite <- app_assoc, app_length, Nat.add_1_r in IH. exact IH. }
  exact (K l []).
Qed.
Lemma Rsum_concat {X} (g : X -> R) (L : list (list X)) : Rsum g (concat L) = Rsum (fun l => Rsum g l) L.
Proof. induction L as [|l L IH]; cbn; [reflexivity|]. rewrite Rsum_app, IH. reflexivity. Qed.
Lemma Rsum_pick_name (f : bset -> R) (l : list bset) b : NoDup (map bs_name l) -> In b l -> Rsum (fun d => if String.eqb (bs_name b) (bs_name d) then f d else 0) l = f b.
Proof.
  intros N H. rewrite <- (Rsum_one bs_name (f b) l b N H). apply Rsum_ext_in. intros d Hd. rewrite (String.eqb_sym (bs_name b)). destruct (String.eqb (bs_name d) (bs_name b)) eqn:E; [|reflexivity].
  apply String.eqb_eq in E. f_equal. apply In_nth_error in H as [i Hi]. apply In_nth_error in Hd as [j Hj].
  assert (i = j); [|congruence]. apply (proj1 (NoDup_nth_error _) N); [rewrite map_length; apply nth_error_Some; congruence|].
  rewrite (map_nth_error bs_name _ _ Hi), (map_nth_error bs_name _ _ Hj). congruence.
Qed.
Variable M : domain.
Definition ratio (u : nat) : R := un_area (unit_at M u) / total_area M.
(** A share of a unit given to every land cover. *)
Lemma spread_over u (F : bset -> R) (name : string * string -> string) a : Rsum (fun c => un_fraction (unit_at M u) (fst c)) covers = 1 ->
  (forall c, In c covers -> exists b, In b (created st) /\ bs_name b = name c /\ is_direct b = true /\ (bs_name b = fst c /\ land_cover b \/ component b /\ bs_parent b = fst c)) ->
  (forall b, In b (created st) -> F b = Rsum (fun c => if String.eqb (name c) (bs_name b) then a else 0) covers) ->
  Rsum (fun b => share M u b * F b) (filter is_direct (created st)) = ratio u * a.
Proof.
  intros Hu Hc HF.
  rewrite (Rsum_ext_in _ (fun b => Rsum (fun c => if String.eqb (name c) (bs_name b) then share M u b * a else 0) covers)).
  2:{ intros b Hb. apply filter_In in Hb as [Hb _]. rewrite (HF b Hb), <- Rsum_scal. apply Rsum_ext_in. intros c _. destruct (String.eqb _ _); lra. }
  rewrite (Rsum_swap (fun b c => if String.eqb (name c) (bs_name b) then share M u b * a else 0)).
  rewrite (Rsum_ext_in _ (fun c => ratio u * a * un_fraction (unit_at M u) (fst c))).
  - rewrite Rsum_scal, Hu. lra.
  - intros c Hin. destruct (Hc c Hin) as (b&B1&B2&B3&B4). rewrite <- B2.
    rewrite (Rsum_pick_name (fun d => share M u d * a) (filter is_direct (created st)) b).
    + unfold share, ratio. destruct B4 as [[B4 B5]|[B4 B5]].
      * apply is_cover_spec in B5. rewrite B5, B4. lra.
      * rewrite (component_not_cover b B4). apply is_component_spec in B4. rewrite B4, B5. lra.
    + apply NoDup_map_filter. exact (created_names covers o parts HG).
    + apply filter_In. auto.
Qed.
End Model.

Section Catchment.
Variable primary : variant.
Variable V : nat -> variant.
Variable M : domain.
Hypothesis HU : good_units primary V M.
Local Notation n := (length (dm_units M)).
Let good u (Hu : (u < n)%nat) := gu_variant _ _ _ HU u Hu.
Let ust u (Hu : (u < n)%nat) : un_str (unit_at M u) = add_parts (v_parts (V u)) (base (v_options (V u)) (v_covers (V u))) := unit_str primary V M HU u Hu.
Lemma input_nonneg x : wet M x -> nonneg_input (input_of M x).
Proof.
  intros Hw. split.
  - intros i c. cbn [input_of precipitation in_direct]. destruct (nth_error (direct_items M) i) as [[u b]|] eqn:E; [|lra].
    apply nth_error_In in E. apply (direct_In M) in E as (Hu&Hb&_). rewrite (ust u Hu) in *. destruct (Hw u Hu). apply (received_nonneg _ _ _ (good u Hu)); assumption.
  - intros k. cbn [input_of precipitation in_net]. destruct (nth_error (solved_items M) k) as [[[u|] b]|] eqn:E; try lra.
    apply nth_error_In in E. apply (solved_In_unit M) in E as (Hu&Hb&_). rewrite (ust u Hu) in *. destruct (Hw u Hu). apply (received_nonneg _ _ _ (good u Hu)); assumption.
Qed.
Lemma net_dry x k : in_net (input_of M x) k = 0.
Proof.
  cbn [input_of precipitation in_net]. destruct (nth_error (solved_items M) k) as [[[u|] b]|] eqn:Ek; try reflexivity.
  pose proof (nth_error_In _ _ Ek) as Hin. apply (solved_In_unit M) in Hin as (Hu&Hb&Hd). rewrite (ust u Hu) in *.
  rewrite (received_no_rain _ _ _ (good u Hu)); [reflexivity|exact Hb|]. intros c Hc E. destruct (receiver_member _ _ _ (good u Hu) c Hc) as (b'&B1&B2&B3&_). rewrite <- B2 in E. rewrite (named _ _ _ (good u Hu) b b' Hb B1 E) in Hd. congruence.
Qed.
Lemma fallen_model G x : ice_in_glaciers M G -> fallen (assembled M) (direct_share M) (solved_share M) G (input_of M x) = precipitated V M x.
Proof.
  intros Hice. unfold fallen.
  set (rcv := fun (u : nat) (b : bset) (k : nat) => received (un_str (unit_at M u)) (wt_rain x u) (wt_snow x u) b k).
  assert (E2 : Rsum (fun b => solved_share M b * in_net (input_of M x) b) (brick_ids (ct_net (assembled M))) = 0).
  { apply Rsum_zero. intros k _. rewrite net_dry. lra. }
  rewrite E2, Rplus_0_r.
  rewrite (Rsum_ext_in _ (fun i => match nth_error (direct_items M) i with Some y => share M (fst y) (snd y) * (rcv (fst y) (snd y) 0%nat + rcv (fst y) (snd y) 1%nat) | None => 0 end)).
  2:{ intros i Hi. apply in_seq in Hi as [_ Hi]. destruct (item_at M i Hi) as (u&b&Eb). unfold direct_share. rewrite Eb. cbn [fst snd]. f_equal.
      unfold conts_of. rewrite (assembled_node M i (u, b) Eb). cbn [build_node nd_brick db_conts].
      pose proof (nth_error_In _ _ Eb) as Hin. apply (direct_In M) in Hin as (Hu&Hb&Hd). pose proof Hb as Hb'. rewrite (ust u Hu) in Hb'.
      assert (Ek : forall k, (if is_ice G i k then 0 else in_direct (input_of M x) i k) = rcv u b k).
      { intros k. cbn [input_of precipitation in_direct]. rewrite Eb. fold (rcv u b k). destruct (is_ice G i k) eqn:Ei; [|reflexivity].
        destruct (Hice i u b k Eb Ei) as [-> Kg]. symmetry. unfold rcv. rewrite (ust u Hu). apply (received_no_snow _ _ _ (good u Hu)); [exact Hb'|discriminate|]. intros _ K. rewrite Kg in K. discriminate. }
      unfold containers_of. destruct (is_kind KPack b || is_kind KGlacier b) eqn:Ep; cbn [Rsum]; rewrite !Ek; [lra|].
      apply orb_false_iff in Ep as [Ep _]. unfold rcv at 3. rewrite (ust u Hu), (received_no_snow _ _ _ (good u Hu)); [lra|exact Hb'|discriminate|]. intros _ K. apply is_kind_spec in K. congruence. }
  rewrite (assembled_count M), Rsum_nth. unfold direct_items. rewrite Rsum_concat, Rsum_map. unfold precipitated. apply Rsum_ext_in. intros u Hu. apply (unit_ids_In M) in Hu.
  unfold unit_items. rewrite Rsum_map. cbn [fst snd].
  rewrite (Rsum_ext_in _ (fun b => share M u b * rcv u b 0%nat + share M u b * rcv u b 1%nat)) by (intros b _; lra). rewrite Rsum_plus.
  assert (Er : forall b k, rcv u b k = received (add_parts (v_parts (V u)) (base (v_options (V u)) (v_covers (V u)))) (wt_rain x u) (wt_snow x u) b k) by (intros b k; unfold rcv; rewrite (ust u Hu); reflexivity).
  rewrite (ust u Hu).
  rewrite (spread_over _ (v_options (V u)) _ (good u Hu) M u (fun b => rcv u b 0%nat) (rain_receiver (v_options (V u))) (wt_rain x u) (gu_whole _ _ _ HU u Hu) (receiver_member _ _ _ (good u Hu))).
  2:{ intros b Hb. rewrite Er, (received_eq _ _ _ (good u Hu) _ _ b 0 Hb), andb_false_r. cbn [Nat.eqb]. lra. }
  destruct (op_snow (v_options (V u))) eqn:Es.
  - rewrite (spread_over _ (v_options (V u)) _ (good u Hu) M u (fun b => rcv u b 1%nat) (fun c => pack_of (fst c)) (wt_snow x u) (gu_whole _ _ _ HU u Hu)).
    + unfold ratio. lra.
    + intros c Hc. exists (pack_brick c (pack_processes (v_options (V u)) c)). split; [apply (created_member _ _ _ (good u Hu)); exact (is_pack _ _ _ _ c Hc Es eq_refl)|]. repeat split. right. split; [left|]; reflexivity.
    + intros b Hb. rewrite Er, (received_eq _ _ _ (good u Hu) _ _ b 1 Hb), Es. cbn [Nat.eqb andb]. lra.
  - rewrite (Rsum_zero (fun b => share M u b * rcv u b 1%nat)); [unfold ratio; lra|]. intros b Hb. apply filter_In in Hb as [Hb _]. rewrite Er, (received_eq _ _ _ (good u Hu) _ _ b 1 Hb), Es. cbn [Nat.eqb andb]. lra.
Qed.
End Catchment.
