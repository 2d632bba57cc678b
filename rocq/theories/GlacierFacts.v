(** Lemmas about the glacier actions. *)
From Verif Require Import Base BaseFacts LandCover LandCoverSpec LandCoverFacts GlacierActions GlacierSpec.
Open Scope R_scope.
Lemma PREC_half : PRECISION < 1/2. Proof. unfold PRECISION; lra. Qed.
Local Opaque EPSILON_D PRECISION.

(** *** An accepted change sets the fraction asked for *)
Definition same_kinds (u v : hunit) : Prop := forall i r, cv_slot (hu_cover u i) r = None <-> cv_slot (hu_cover v i) r = None.
Lemma kinds_refl u : same_kinds u u. Proof. intros i r; tauto. Qed.
Lemma kinds_trans u v w : same_kinds u v -> same_kinds v w -> same_kinds u w.
Proof. intros A B i r. rewrite (A i r). apply B. Qed.
Lemma kinds_put u i c : (forall r, cv_slot (hu_cover u i) r = None <-> cv_slot c r = None) -> same_kinds u (put_cover u i c).
Proof. intros H j r. cbn. unfold upd. destruct (Nat.eqb_spec j i) as [->|]; [apply H|tauto]. Qed.
Lemma kinds_move u d r a b c s : same_kinds u (move_strip u d r a b c s).
Proof.
  unfold move_strip. destruct (NearlyZero b EPSILON_D); [apply kinds_refl|].
  assert (H : same_kinds u (put_cover u r (set_slot (hu_cover u r) (receive (hu_cover u d) (hu_cover u r) a b s)))).
  { apply kinds_put. intros q. cbn. unfold receive. destruct (cv_slot (hu_cover u r) q); split; congruence. }
  destruct (NearlyZero c EPSILON_D); [|exact H]. eapply kinds_trans; [exact H|].
  apply kinds_put. intros q. rewrite <- (H d q). cbn. unfold cleared. destruct (cv_slot (hu_cover u d) q); split; congruence.
Qed.
Lemma kinds_transfer u c a b g x y : same_kinds u (transfer u c a b g x y).
Proof. unfold transfer. destruct (NearlyZero _ _); [apply kinds_refl|]. destruct (Rltb _ _); apply kinds_move. Qed.
Lemma kinds_fraction u i f : same_kinds u (put_cover u i (set_fraction f (hu_cover u i))).
Proof. apply kinds_put. intros r. cbn. tauto. Qed.

Lemma fix_effect u b u' : fix_total u = (b, u') -> same_names u u' /\ same_kinds u u' /\
  (forall i, generic_cover u <> Some i -> hu_cover u' i = hu_cover u i).
Proof.
  unfold fix_total. destruct (NearlyEqual _ _ _); [intros [= <- <-]; split; [apply same_names_refl|split; [apply kinds_refl|auto]]|].
  destruct (generic_cover u) as [g|]; [|intros [= <- <-]; split; [apply same_names_refl|split; [apply kinds_refl|auto]]].
  destruct (LessThan _ _ _); [intros [= <- <-]; split; [apply same_names_refl|split; [apply kinds_refl|auto]]|].
  assert (X : forall f i, Some g <> Some i -> hu_cover (put_cover u g (set_fraction f (hu_cover u g))) i = hu_cover u i).
  { intros f i Hi. cbn. apply upd_other. congruence. }
  destruct (Rltb _ _); intros [= <- <-]; (split; [apply same_names_put; reflexivity|split; [apply kinds_fraction|apply X]]).
Qed.
Lemma move_other u d r a b c s i : i <> d -> i <> r -> hu_cover (move_strip u d r a b c s) i = hu_cover u i.
Proof.
  intros Hd Hr. unfold move_strip. destruct (NearlyZero b EPSILON_D); [reflexivity|].
  destruct (NearlyZero c EPSILON_D); cbn; repeat rewrite upd_other by auto; reflexivity.
Qed.
Lemma transfer_other u c a b g x y i : i <> c -> i <> g -> hu_cover (transfer u c a b g x y) i = hu_cover u i.
Proof.
  intros Hc Hg. unfold transfer. destruct (NearlyZero _ _); [reflexivity|]. destruct (Rltb _ _); apply move_other; auto.
Qed.

Lemma change_effect u n f u' c : change_fraction u n f = (true, u') -> find_cover u n = Some c -> generic_cover u <> Some c ->
  0 <= f <= 1 /\ same_names u u' /\ same_kinds u u' /\ cv_fraction (hu_cover u' c) = f /\
  (forall i, i <> c -> generic_cover u <> Some i -> hu_cover u' i = hu_cover u i).
Proof.
  intros H F G. unfold change_fraction in H.
  destruct (Rltb_spec f 0) as [Ha|Ha]; [discriminate|]. destruct (Rltb_spec 1 f) as [Hb|Hb]; [discriminate|]. cbn [orb] in H.
  rewrite F in H. split; [lra|].
  assert (Hd : forall v, same_names u v -> same_kinds u v -> (forall i, i <> c -> generic_cover u <> Some i -> hu_cover v i = hu_cover u i) ->
     fix_total (put_cover v c (set_fraction f (hu_cover v c))) = (true, u') ->
     same_names u u' /\ same_kinds u u' /\ cv_fraction (hu_cover u' c) = f /\
     (forall i, i <> c -> generic_cover u <> Some i -> hu_cover u' i = hu_cover u i)).
  { intros v Hn Hk Ho E. apply fix_effect in E. destruct E as (E1 & E2 & E3).
    assert (Q : same_names u (put_cover v c (set_fraction f (hu_cover v c)))).
    { eapply same_names_trans; [exact Hn|]. apply same_names_put. reflexivity. }
    rewrite <- (generic_same _ _ Q) in E3.
    split; [eapply same_names_trans; [exact Q|exact E1]|].
    split; [eapply kinds_trans; [exact Hk|eapply kinds_trans; [apply kinds_fraction|exact E2]]|].
    split; [rewrite E3 by exact G; cbn; rewrite upd_same; reflexivity|].
    intros i Hi Hg. rewrite E3 by exact Hg. cbn. rewrite upd_other by exact Hi. apply Ho; assumption. }
  assert (Hu := Hd u (same_names_refl u) (kinds_refl u) ltac:(auto)).
  destruct (generic_cover u) as [g|] eqn:GG; [|apply Hu; exact H].
  destruct (negb (g =? c)%nat && (1 <? hu_count u)%nat); [|apply Hu; exact H].
  destruct (LessThan _ _ _); [discriminate|].
  eapply Hd; [apply transfer_names|apply kinds_transfer| |exact H].
  intros i Hi Hg. apply transfer_other; congruence.
Qed.

Lemma check_fraction_cases x f : check_fraction x = Ok f ->
  f = 0 /\ Rabs x <= PRECISION \/ f = 1 /\ Rabs (1 - x) <= PRECISION /\ PRECISION < Rabs x \/ f = x /\ 0 <= x <= 1 /\ PRECISION < Rabs x /\ PRECISION < Rabs (1 - x).
Proof.
  unfold check_fraction. destruct (NearlyZero_spec x PRECISION) as [A|A]; [intros [= <-]; auto|].
  destruct (NearlyEqual_spec 1 x PRECISION) as [B|B]; [intros [= <-]; auto|].
  destruct (Rltb_spec x 0) as [C|C]; [discriminate|]. destruct (Rltb_spec 1 x) as [D|D]; [discriminate|]. cbn [orb].
  intros [= <-]. right; right. repeat split; auto.
Qed.

(** *** Effects on a basin *)
Lemma change_in_effect b id n f b' : gready b n id -> change_in b id n f = Ok b' ->
  (forall j, j <> id -> b' j = b j) /\ gready b' n id /\ gu_area (b' id) = gu_area (b id) /\ g_fraction b' n id = f.
Proof.
  intros (Ha & c & F & G & S) H. unfold change_in in H. destruct (change_fraction _ n f) as [ok u] eqn:E. destruct ok; [|discriminate].
  injection H as <-. destruct (change_effect _ _ _ _ _ E F G) as (_ & N & K & Q & _).
  split; [intros j Hj; apply upd_other; exact Hj|].
  assert (F' : find_cover u n = Some c) by (rewrite <- F; symmetry; apply find_cover_same; exact N).
  split; [split; [rewrite upd_same; exact Ha|]|split; [rewrite upd_same; reflexivity|]].
  - exists c. rewrite upd_same. cbn [gu_covers]. split; [exact F'|]. split; [rewrite <- (generic_same _ _ N); exact G|].
    intros X. apply S. apply K. exact X.
  - unfold g_fraction. rewrite upd_same. cbn [gu_covers]. rewrite F'. exact Q.
Qed.
Lemma set_ice_effect b id n c x b' : gready b n id -> find_cover (gu_covers (b id)) n = Some c -> set_ice b id c x = Ok b' ->
  (forall j, j <> id -> b' j = b j) /\ gready b' n id /\ gu_area (b' id) = gu_area (b id) /\
  g_fraction b' n id = g_fraction b n id /\ g_ice b' n id = x.
Proof.
  intros (Ha & c' & F & G & S) Fc H. assert (c' = c) by congruence. subst c'. unfold set_ice in H.
  destruct (cv_slot _ SelfIce) as [y|] eqn:E; [|discriminate]. injection H as <-.
  split; [intros j Hj; apply upd_other; exact Hj|].
  set (u := gu_covers (b id)) in *. set (u' := put_cover u c (put_slot (hu_cover u c) SelfIce x)).
  assert (N : same_names u u') by (apply same_names_put; reflexivity).
  assert (F' : find_cover u' n = Some c) by (rewrite <- F; symmetry; apply find_cover_same; exact N).
  split; [split; [rewrite upd_same; exact Ha|]|split; [rewrite upd_same; reflexivity|split]].
  - exists c. rewrite upd_same. cbn [gu_covers]. split; [exact F'|]. split; [rewrite <- (generic_same _ _ N); exact G|].
    unfold u'. cbn [put_cover hu_cover]. rewrite upd_same. cbn. discriminate.
  - unfold g_fraction. rewrite upd_same. cbn [gu_covers]. rewrite F'. fold u. rewrite Fc. unfold u'. cbn [put_cover hu_cover]. rewrite upd_same. reflexivity.
  - unfold g_ice. rewrite upd_same. cbn [gu_covers]. rewrite F'. unfold u'. cbn [put_cover hu_cover]. rewrite upd_same. reflexivity.
Qed.

Section Columns.
Variable T : gtable.
Notation name := (gt_cover T).

(** A property of a unit that does not depend on the others. *)
Lemma ready_eq b b' id : b' id = b id -> gready b name id -> gready b' name id.
Proof. unfold gready. intros ->. auto. Qed.

Lemma set_areas_effect r : forall cols b b', NoDup (map (unit_of T) cols) -> (forall i, In i cols -> gready b name (unit_of T i)) ->
  set_areas T r cols b = Ok b' ->
  (forall id, ~ In id (map (unit_of T) cols) -> b' id = b id) /\
  (forall i, In i cols -> let id := unit_of T i in gready b' name id /\ gu_area (b' id) = gu_area (b id) /\
     check_fraction (gt_area T r i / gu_area (b id)) = Ok (g_fraction b' name id)).
Proof.
  induction cols as [|i l IH]; intros b b' Nd Hr H; cbn [set_areas] in H.
  - injection H as <-. split; [auto|intros i []].
  - inversion Nd as [|x y Hnot Nd']; subst. apply bind_ok in H. destruct H as (f & Hf & H). apply bind_ok in H. destruct H as (b1 & H1 & H).
    destruct (change_in_effect b _ _ _ _ (Hr i (or_introl eq_refl)) H1) as (O & Rd & Ar & Fr).
    assert (Hr1 : forall j, In j l -> gready b1 name (unit_of T j)).
    { intros j Hj. apply ready_eq with b; [|apply Hr; right; exact Hj]. apply O. intros E. apply Hnot. rewrite <- E. apply in_map. exact Hj. }
    destruct (IH b1 b' Nd' Hr1 H) as (I1 & I2). split.
    + intros id Hid. cbn in Hid. rewrite I1 by tauto. apply O. intros ->. tauto.
    + intros j [<-|Hj]; cbn zeta.
      * assert (E : b' (unit_of T i) = b1 (unit_of T i)) by (apply I1; exact Hnot).
        unfold gready, g_fraction in *. rewrite E. rewrite Fr. auto.
      * destruct (I2 j Hj) as (J1 & J2 & J3). cbn zeta in *.
        assert (E : b1 (unit_of T j) = b (unit_of T j)) by (apply O; intros E; apply Hnot; rewrite <- E; apply in_map; exact Hj).
        rewrite E in *. auto.
Qed.

Lemma spread_effect r we : forall cols b b', NoDup (map (unit_of T) cols) -> (forall i, In i cols -> gready b name (unit_of T i)) ->
  spread_ice T r we cols b = Ok b' ->
  (forall id, ~ In id (map (unit_of T) cols) -> b' id = b id) /\
  (forall i, In i cols -> let id := unit_of T i in gready b' name id /\ gu_area (b' id) = gu_area (b id) /\
     g_fraction b' name id = g_fraction b name id /\
     (Rabs (gt_area T r i) <= PRECISION /\ g_ice b' name id = 0 \/
      PRECISION < Rabs (gt_area T r i) /\ row_volume T r <> 0 /\ g_ice b' name id = we * (gt_volume T r i / row_volume T r) / gt_area T r i)).
Proof.
  induction cols as [|i l IH]; intros b b' Nd Hr H; cbn [spread_ice] in H.
  - injection H as <-. split; [auto|intros i []].
  - inversion Nd as [|x y Hnot Nd']; subst.
    pose proof (Hr i (or_introl eq_refl)) as Ri. destruct Ri as (_ & c & Fc & _). rewrite Fc in H.
    assert (X : exists v b1, set_ice b (unit_of T i) c v = Ok b1 /\ spread_ice T r we l b1 = Ok b' /\
      (Rabs (gt_area T r i) <= PRECISION /\ v = 0 \/ PRECISION < Rabs (gt_area T r i) /\ row_volume T r <> 0 /\ v = we * (gt_volume T r i / row_volume T r) / gt_area T r i)).
    { destruct (NearlyZero_spec (gt_area T r i) PRECISION) as [Z|Z].
      - apply bind_ok in H. destruct H as (b1 & H1 & H). exists 0, b1. auto.
      - destruct (Reqb (row_volume T r) 0) eqn:E; [discriminate|]. apply Reqb_false in E. apply bind_ok in H. destruct H as (b1 & H1 & H).
        eexists. exists b1. split; [exact H1|]. auto. }
    clear H. destruct X as (v & b1 & H1 & H & V).
    destruct (set_ice_effect b _ _ _ _ _ (Hr i (or_introl eq_refl)) Fc H1) as (O & Rd & Ar & Fr & Ic).
    assert (Hr1 : forall j, In j l -> gready b1 name (unit_of T j)).
    { intros j Hj. apply ready_eq with b; [|apply Hr; right; exact Hj]. apply O. intros E. apply Hnot. rewrite <- E. apply in_map. exact Hj. }
    destruct (IH b1 b' Nd' Hr1 H) as (I1 & I2). split.
    + intros id Hid. cbn in Hid. rewrite I1 by tauto. apply O. intros ->. tauto.
    + intros j [<-|Hj]; cbn zeta.
      * assert (E : b' (unit_of T i) = b1 (unit_of T i)) by (apply I1; exact Hnot).
        split; [apply ready_eq with b1; assumption|]. rewrite E. split; [exact Ar|].
        split; [rewrite <- Fr; unfold g_fraction; rewrite E; reflexivity|].
        replace (g_ice b' name (unit_of T i)) with v by (rewrite <- Ic; unfold g_ice; rewrite E; reflexivity). exact V.
      * destruct (I2 j Hj) as (J1 & J2 & J3 & J4). cbn zeta in *.
        assert (E : b1 (unit_of T j) = b (unit_of T j)) by (apply O; intros E; apply Hnot; rewrite <- E; apply in_map; exact Hj).
        unfold g_fraction in *. rewrite E in *. auto.
Qed.

(** *** Row of the table *)
Lemma trunc_spec x : 0 <= x -> INR (trunc x) <= x < INR (trunc x) + 1.
Proof.
  intros Hx. unfold trunc. destruct (archimed x) as [A1 A2].
  assert (0 <= up x - 1)%Z. { assert (0 < up x)%Z; [|lia]. apply lt_IZR. lra. }
  rewrite INR_IZR_INZ, Z2Nat.id by assumption. rewrite minus_IZR. lra.
Qed.
Lemma table_row_spec initial we : 0 < initial -> 0 <= we -> (0 < gt_rows T)%nat ->
  (table_row T initial we < gt_rows T)%nat /\
  ((1 < gt_rows T)%nat -> S (table_row T initial we) = gt_rows T -> we = 0).
Proof.
  intros Hi Hw Hn. unfold table_row. destruct (Nat.eqb_spec (gt_rows T) 1) as [E|E]; [lia|].
  replace (Reqb initial 0) with false by (symmetry; apply Reqb_false; lra).
  set (pc := Rmax 0 ((initial - we) / initial)).
  assert (Hq : (initial - we) / initial <= 1 - we / initial) by (right; field; lra).
  assert (Hwi : 0 <= we / initial) by (apply Rmult_le_pos; [lra|left; apply Rinv_0_lt_compat; lra]).
  assert (Hp0 : 0 <= pc) by apply Rmax_l.
  assert (Hp : pc <= 1) by (apply Rmax_lub; lra).
  assert (HN : 2 <= INR (gt_rows T)) by (replace 2 with (INR 2) by (simpl; lra); apply le_INR; lia).
  replace (pc / (1 / (INR (gt_rows T) - 1))) with (pc * (INR (gt_rows T) - 1)) by (field; lra).
  set (N := INR (gt_rows T) - 1) in *. assert (1 <= N) by (unfold N; lra).
  destruct (trunc_spec (pc * N)) as [Q1 Q2]; [apply Rmult_le_pos; lra|].
  assert (Q3 : pc * N <= N) by nra.
  split.
  - apply INR_lt. unfold N in *. lra.
  - intros _ HS. assert (INR (trunc (pc * N)) = N).
    { apply (f_equal INR) in HS. rewrite S_INR in HS. unfold N at 2. rewrite <- HS. ring. }
    assert (pc = 1) by nra. unfold pc in *. destruct (Rle_dec 0 ((initial - we) / initial)) as [L|L].
    + rewrite Rmax_right in H1 by exact L.
      assert (initial - we = initial). { replace (initial - we) with ((initial - we) / initial * initial) by (field; lra). rewrite H1. lra. }
      lra.
    + rewrite Rmax_left in H1 by lra. lra.
Qed.

(** *** Sums over columns *)
Lemma unit_ice_volume b id : g_fraction b name id = 0 \/ PRECISION < g_fraction b name id <= 1 -> unit_ice b name id = g_volume b name id.
Proof.
  unfold unit_ice, g_volume, g_fraction, g_ice. destruct (find_cover _ _) as [c|]; [|intros; ring].
  destruct (NearlyZero_spec (cv_fraction (hu_cover (gu_covers (b id)) c)) PRECISION) as [Z|Z]; [|reflexivity].
  intros [H|H]; [rewrite H; ring|]. exfalso. pose proof PRECISION_pos. apply Rabs_bounds in Z. lra.
Qed.
Lemma total_ice_volume b : ice_sane T b -> total_ice T b = glacier_volume T b.
Proof. intros H. unfold total_ice, glacier_volume. apply Rsum_ext_in. intros i Hi. apply unit_ice_volume. apply (H i Hi). Qed.
Lemma columns_units : map (unit_of T) (columns T) = gt_units T.
Proof.
  unfold columns, unit_of. generalize (gt_units T). intros l. induction l as [|x l IH]; [reflexivity|].
  cbn [length seq map nth]. f_equal. rewrite <- seq_shift, map_map. exact IH.
Qed.
Lemma volume_nonneg b : glaciers_ready T b -> ice_sane T b -> 0 <= glacier_volume T b.
Proof.
  intros (_ & Hr) Hs. apply Rsum_nonneg. intros i Hi. unfold g_volume. destruct (Hs i Hi) as (A & B). destruct (Hr i Hi) as (C & _).
  pose proof PRECISION_pos. apply Rmult_le_pos; [apply Rmult_le_pos; lra|exact A].
Qed.

Lemma share_bound d f A t we V RV : 0 <= d -> 0 <= we -> 0 <= V -> 0 < RV -> 0 < t -> Rabs (f * A - t) <= d * t ->
  Rabs (f * A * (we * (V / RV) / t) - we * (V / RV)) <= d * (we * (V / RV)).
Proof.
  intros Hd Hw HV HR Ht H. assert (S : 0 <= we * (V / RV)) by (apply Rmult_le_pos; [lra|apply Rmult_le_pos; [lra|left; apply Rinv_0_lt_compat; lra]]).
  set (w := we * (V / RV)) in *.
  replace (f * A * (w / t) - w) with ((f * A - t) * (w / t)) by (field; lra).
  rewrite Rabs_mult. assert (W : 0 <= w / t) by (apply Rmult_le_pos; [lra|left; apply Rinv_0_lt_compat; lra]).
  rewrite (Rabs_right (w / t)) by lra. replace (d * w) with (d * t * (w / t)) by (field; lra).
  apply Rmult_le_compat_r; assumption.
Qed.

(** *** Delta-h *)
Lemma row_fraction b r i f : row_suits T b r -> In i (columns T) -> 0 < gu_area (b (unit_of T i)) ->
  check_fraction (gt_area T r i / gu_area (b (unit_of T i))) = Ok f ->
  f * gu_area (b (unit_of T i)) = gt_area T r i /\ (f = 0 \/ PRECISION < f <= 1).
Proof.
  intros Hs Hi Ha H. destruct (Hs i Hi) as (_ & S). cbn zeta in S. set (A := gu_area _) in *. set (t := gt_area T r i) in *.
  pose proof PRECISION_pos as HP. assert (HPs : PRECISION < 1/2) by apply PREC_half.
  apply check_fraction_cases in H. destruct S as [(E & _)|(E1 & S)].
  - assert (X : t / A = 0) by (rewrite E; unfold Rdiv; ring). rewrite X in H. rewrite Rabs_R0 in H.
    destruct H as [(-> & _)|[(_ & _ & H)|(_ & _ & H & _)]]; [split; [lra|auto]|lra|lra].
  - destruct S as [E|E].
    + assert (X : t / A = 1) by (rewrite E; field; lra). rewrite X in H.
      replace (1 - 1) with 0 in H by ring. rewrite Rabs_R0, Rabs_R1 in H.
      destruct H as [(_ & H)|[(-> & _)|(_ & _ & _ & H)]]; [lra|split; [lra|lra]|lra].
    + destruct H as [(_ & H)|[(_ & H & _)|(-> & H & _)]].
      * apply Rabs_bounds in H. lra.
      * apply Rabs_bounds in H. lra.
      * split; [field; lra|lra].
Qed.

Lemma suits_eq b b' : (forall i, In i (columns T) -> gu_area (b' (unit_of T i)) = gu_area (b (unit_of T i))) ->
  table_suits T b -> table_suits T b'.
Proof.
  intros E (A & B & C & D). split; [exact A|]. split; [exact B|]. split; [|exact D].
  intros r Hr i Hi. destruct (C r Hr i Hi) as (X & Y). split; [exact X|]. cbn zeta in *. rewrite E by assumption. exact Y.
Qed.

Lemma deltah_step d b last b' r : 0 <= d -> glaciers_ready T b -> ice_sane T b -> table_suits T b -> extents_match d T last b ->
  deltah_apply T (b, last) = Ok (b', r) ->
  (r < gt_rows T)%nat /\ glaciers_ready T b' /\ ice_sane T b' /\ table_suits T b' /\
  extents_match (if (r =? last)%nat then d else 0) T r b' /\
  (forall i, In i (columns T) -> 0 <= g_fraction b' name (unit_of T i) <= 1) /\
  Rabs (glacier_volume T b' - glacier_volume T b) <= d * glacier_volume T b /\
  (r <> last -> glacier_volume T b' = glacier_volume T b).
Proof.
  intros Hd Hrd Hs Hts Hm H. pose proof PRECISION_pos as HP. unfold deltah_apply in H. rewrite (total_ice_volume b Hs) in H.
  set (we := glacier_volume T b) in *. assert (Hwe : 0 <= we) by (apply volume_nonneg; assumption).
  destruct Hts as (N0 & V0 & HR & HV & HL). pose proof Hrd as (Nd & Hready).
  set (r0 := table_row T (row_volume T 0 * iceDensity) we) in *.
  destruct (table_row_spec (row_volume T 0 * iceDensity) we) as (R1 & R2); [unfold iceDensity; lra|exact Hwe|exact N0|]. fold r0 in R1, R2.
  unfold row_in_table in H. destruct (Nat.ltb_spec r0 (gt_rows T)); [|lia]. cbn [negb] in H.
  apply bind_ok in H. destruct H as (b1 & H1 & H). apply bind_ok in H. destruct H as (b2 & H2 & H). injection H as <- <-.
  set (d' := if (r0 =? last)%nat then d else 0).
  assert (Hd' : 0 <= d' <= d) by (unfold d'; destruct (r0 =? last)%nat; lra).
  assert (NdU : NoDup (map (unit_of T) (columns T))) by (rewrite columns_units; exact Nd).
  (* areas *)
  assert (P1 : forall i, In i (columns T) -> let id := unit_of T i in gready b1 name id /\ gu_area (b1 id) = gu_area (b id) /\
     Rabs (g_fraction b1 name id * gu_area (b1 id) - gt_area T r0 i) <= d' * gt_area T r0 i /\
     (g_fraction b1 name id = 0 \/ PRECISION < g_fraction b1 name id <= 1)).
  { intros i Hi id. unfold d'. destruct (Nat.eqb_spec r0 last) as [El|El].
    - injection H1 as <-. split; [apply Hready; exact Hi|]. split; [reflexivity|]. split; [rewrite El; apply Hm; exact Hi|]. apply (Hs i Hi).
    - destruct (set_areas_effect r0 (columns T) b b1 NdU Hready H1) as (_ & E). destruct (E i Hi) as (E1 & E2 & E3). cbn zeta in *.
      destruct (row_fraction b r0 i _ (HR r0 R1) Hi (proj1 (Hready i Hi)) E3) as (F1 & F2).
      split; [exact E1|]. split; [exact E2|]. split; [|exact F2]. unfold id. rewrite E2, F1. unfold Rminus. rewrite Rplus_opp_r, Rabs_R0. lra. }
  destruct (spread_effect r0 we (columns T) b1 b2 NdU (fun i Hi => proj1 (P1 i Hi)) H2) as (_ & P2).
  assert (P3 : forall i, In i (columns T) -> g_ice b2 name (unit_of T i) >= 0).
  { intros i Hi. destruct (P2 i Hi) as (_ & _ & _ & [(_ & E)|(Z & E0 & E)]); rewrite E; [lra|].
    destruct (HR r0 R1 i Hi) as (Q1 & Q2). cbn zeta in Q2.
    assert (0 <= row_volume T r0) by (apply Rsum_nonneg; intros j Hj; apply (HR r0 R1 j Hj)).
    assert (0 <= gt_area T r0 i) by lra.
    apply Rle_ge. apply Rmult_le_pos; [apply Rmult_le_pos; [lra|apply Rmult_le_pos; [lra|left; apply Rinv_0_lt_compat; lra]]|].
    left. apply Rinv_0_lt_compat. destruct (Req_dec (gt_area T r0 i) 0) as [E2|E2]; [rewrite E2, Rabs_R0 in Z; lra|lra]. }
  (* volumes *)
  assert (P4 : Rabs (glacier_volume T b2 - we) <= d' * we).
  { destruct (Req_dec (row_volume T r0) 0) as [E0|E0].
    - assert (Ez : glacier_volume T b2 = 0).
      { apply Rsum_zero. intros i Hi. unfold g_volume. destruct (P2 i Hi) as (_ & _ & _ & [(_ & E)|(_ & E & _)]); [rewrite E; ring|contradiction]. }
      assert (Ew : we = 0).
      { destruct (Nat.eq_dec (S r0) (gt_rows T)) as [En|En].
        - apply R2; [|exact En]. destruct (Nat.eq_dec (gt_rows T) 1) as [E1|E1]; [|lia]. assert (r0 = 0%nat) by lia. rewrite H in E0. lra.
        - exfalso. specialize (HV r0 ltac:(lia)). lra. }
      rewrite Ez, Ew. rewrite Rminus_0_r, Rabs_R0. lra.
    - assert (HRV : 0 < row_volume T r0).
      { assert (0 <= row_volume T r0) by (apply Rsum_nonneg; intros j Hj; apply (HR r0 R1 j Hj)). lra. }
      assert (Es : Rsum (fun i => we * (gt_volume T r0 i / row_volume T r0)) (columns T) = we).
      { rewrite Rsum_scal. replace (Rsum (fun i => gt_volume T r0 i / row_volume T r0) (columns T)) with (row_volume T r0 / row_volume T r0).
        - field. lra.
        - unfold Rdiv. symmetry. apply Rsum_scal_r. }
      assert (Er : d' * we = Rsum (fun i => d' * (we * (gt_volume T r0 i / row_volume T r0))) (columns T)) by (rewrite Rsum_scal, Es; reflexivity).
      rewrite Er. rewrite <- Es at 1. unfold glacier_volume. rewrite <- Rsum_minus. eapply Rle_trans; [apply Rsum_Rabs|].
      apply Rsum_le. intros i Hi. destruct (P1 i Hi) as (_ & A1 & A2 & _). destruct (P2 i Hi) as (_ & B1 & B2 & B3). cbn zeta in *.
      unfold g_volume. rewrite B1, B2.
      destruct (HR r0 R1 i Hi) as (Q1 & [(Q2 & Q3)|(Q2 & _)]).
      + rewrite Q3. destruct B3 as [(_ & E)|(_ & _ & E)]; rewrite E, ?Q3; unfold Rdiv; rewrite ?Rmult_0_l, ?Rmult_0_r, ?Rmult_0_l, ?Rmult_0_r, Rminus_0_r, Rabs_R0; lra.
      + destruct B3 as [(Z & _)|(_ & _ & E)]; [apply Rabs_bounds in Z; lra|]. rewrite E.
        apply share_bound; try assumption; lra. }
  split; [exact R1|].
  assert (Harea : forall i, In i (columns T) -> gu_area (b2 (unit_of T i)) = gu_area (b (unit_of T i))).
  { intros i Hi. destruct (P1 i Hi) as (_ & A1 & _). destruct (P2 i Hi) as (_ & B1 & _). cbn zeta in *. congruence. }
  assert (Hfr : forall i, In i (columns T) -> g_fraction b2 name (unit_of T i) = 0 \/ PRECISION < g_fraction b2 name (unit_of T i) <= 1).
  { intros i Hi. destruct (P2 i Hi) as (_ & _ & B2 & _). cbn zeta in B2. rewrite B2. apply P1; exact Hi. }
  split; [split; [exact Nd|intros i Hi; apply P2; exact Hi]|].
  split; [intros i Hi; split; [apply Rge_le; apply P3; exact Hi|apply Hfr; exact Hi]|].
  split; [apply suits_eq with b; [exact Harea|split; [exact N0|split; [exact V0|split; [exact HR|split; [exact HV|exact HL]]]]]|].
  split; [intros i Hi; destruct (P1 i Hi) as (_ & A1 & A2 & _); destruct (P2 i Hi) as (_ & B1 & B2 & _); cbn zeta in *; rewrite B1, B2; exact A2|].
  split; [intros i Hi; destruct (Hfr i Hi); lra|].
  split; [eapply Rle_trans; [exact P4|]; apply Rmult_le_compat_r; lra|].
  intros Hne. unfold d' in P4. destruct (Nat.eqb_spec r0 last); [contradiction|]. rewrite Rmult_0_l in P4. apply Rabs_bounds in P4. lra.
Qed.

Lemma evolution_inv d st : 0 <= d -> evolution d T st ->
  glaciers_ready T (fst st) /\ ice_sane T (fst st) /\ table_suits T (fst st) /\ extents_match d T (snd st) (fst st).
Proof.
  intros Hd H. induction H as [b H1 H2 H3 H4|b r b' H IH Ho Hr Hs|b r b' r' H IH Ha]; cbn [fst snd] in *.
  - auto.
  - destruct IH as (I1 & I2 & I3 & I4). split; [exact Hr|]. split; [exact Hs|].
    split; [apply suits_eq with b; [intros i Hi; apply (Ho i Hi)|exact I3]|].
    intros i Hi. destruct (Ho i Hi) as (E1 & E2). cbn zeta in *. rewrite E1, E2. apply I4; exact Hi.
  - destruct IH as (I1 & I2 & I3 & I4). destruct (deltah_step d b r b' r' Hd I1 I2 I3 I4 Ha) as (_ & J1 & J2 & J3 & J4 & _).
    split; [exact J1|]. split; [exact J2|]. split; [exact J3|].
    intros i Hi. eapply Rle_trans; [apply J4; exact Hi|].
    assert (0 <= gt_area T r' i). { destruct (Nat.ltb_spec r' (gt_rows T)) as [L|L].
      - destruct J3 as (_ & _ & J3 & _). destruct (J3 r' L i Hi) as (_ & Q). cbn zeta in Q. pose proof PRECISION_pos. lra.
      - exfalso. destruct (deltah_step d b r b' r' Hd I1 I2 I3 I4 Ha) as (X & _). lia. }
    destruct (r' =? r)%nat; [lra|]. rewrite Rmult_0_l. apply Rmult_le_pos; lra.
Qed.

(** *** No undefined behaviour *)
Lemma set_areas_safe r : forall cols b, set_areas T r cols b <> UB.
Proof.
  induction cols as [|i l IH]; intros b; cbn [set_areas]; [discriminate|].
  unfold check_fraction. destruct (NearlyZero _ _); [|destruct (NearlyEqual _ _ _); [|destruct (_ || _); [discriminate|]]]; cbn [bind];
    unfold change_in at 1; destruct (change_fraction _ _ _) as [[|] u]; cbn [bind]; try discriminate; apply IH.
Qed.
Lemma spread_safe r we : (forall i, In i (columns T) -> PRECISION < Rabs (gt_area T r i) -> row_volume T r <> 0) ->
  forall cols b, (forall i, In i cols -> In i (columns T)) -> spread_ice T r we cols b <> UB.
Proof.
  intros Hz. induction cols as [|i l IH]; intros b Hin; cbn [spread_ice]; [discriminate|].
  destruct (find_cover _ _) as [c|]; [|discriminate].
  assert (S : forall v, set_ice b (unit_of T i) c v <> UB) by (intros v; unfold set_ice; destruct (cv_slot _ _); discriminate).
  assert (IH' : forall b, spread_ice T r we l b <> UB) by (intros b0; apply IH; intros; apply Hin; right; assumption).
  destruct (NearlyZero_spec (gt_area T r i) PRECISION) as [Z|Z].
  - destruct (set_ice b (unit_of T i) c 0) eqn:E; cbn [bind]; [apply IH'|discriminate|exfalso; eapply S; exact E].
  - replace (Reqb (row_volume T r) 0) with false by (symmetry; apply Reqb_false; apply (Hz i); [apply Hin; left; reflexivity|exact Z]).
    destruct (set_ice b (unit_of T i) c _) eqn:E; cbn [bind]; [apply IH'|discriminate|exfalso; eapply S; exact E].
Qed.
Lemma deltah_safe b last : glaciers_ready T b -> ice_sane T b -> table_suits T b -> deltah_apply T (b, last) <> UB.
Proof.
  intros Hrd Hs (N0 & V0 & HR & HV & HL). unfold deltah_apply. rewrite (total_ice_volume b Hs).
  set (we := glacier_volume T b). assert (Hwe : 0 <= we) by (apply volume_nonneg; assumption).
  set (r := table_row T (row_volume T 0 * iceDensity) we).
  destruct (table_row_spec (row_volume T 0 * iceDensity) we) as (R1 & R2); [unfold iceDensity; lra|exact Hwe|exact N0|]. fold r in R1, R2.
  unfold row_in_table. destruct (Nat.ltb_spec r (gt_rows T)); [|lia]. cbn [negb].
  assert (A : (if (r =? last)%nat then Ok b else set_areas T r (columns T) b) <> UB) by (destruct (r =? last)%nat; [discriminate|apply set_areas_safe]).
  destruct (if (r =? last)%nat then _ else _) as [b1| |]; cbn [bind]; [|discriminate|congruence].
  assert (B : spread_ice T r we (columns T) b1 <> UB).
  { apply spread_safe; [|auto]. intros i Hi Hp.
    destruct (Nat.eq_dec (S r) (gt_rows T)) as [E|E]; [|specialize (HV r ltac:(lia)); lra].
    destruct (HL r E) as [L|L]; [lra|]. rewrite (L i Hi), Rabs_R0 in Hp. pose proof PRECISION_pos. lra. }
  destruct (spread_ice _ _ _ _ _) as [b2| |]; cbn [bind]; [discriminate|discriminate|congruence].
Qed.

(** *** Initialisation *)
Lemma init_unit_effect i b b' : gready b name (unit_of T i) -> evolution_init_unit T i b = Ok b' ->
  let id := unit_of T i in
  (forall j, j <> id -> b' j = b j) /\ gready b' name id /\ gu_area (b' id) = gu_area (b id) /\ gt_area T 0 i <> 0 /\
  g_ice b' name id = gt_volume T 0 i * iceDensity / gt_area T 0 i /\
  (check_fraction (gt_area T 0 i / gu_area (b id)) = Ok (g_fraction b' name id) \/
   g_fraction b' name id = g_fraction b name id /\ Rabs (g_fraction b name id * gu_area (b id) - gt_area T 0 i) <= PRECISION).
Proof.
  intros Hr H id. unfold evolution_init_unit in H. fold id in H, Hr. pose proof Hr as (_ & c & Fc & _). rewrite Fc in H.
  apply bind_ok in H. destruct H as (b1 & H1 & H). destruct (Reqb (gt_area T 0 i) 0) eqn:E0; [discriminate|]. apply Reqb_false in E0.
  assert (X : (forall j, j <> id -> b1 j = b j) /\ gready b1 name id /\ gu_area (b1 id) = gu_area (b id) /\
    find_cover (gu_covers (b1 id)) name = Some c /\
    (check_fraction (gt_area T 0 i / gu_area (b id)) = Ok (g_fraction b1 name id) \/
     g_fraction b1 name id = g_fraction b name id /\ Rabs (g_fraction b name id * gu_area (b id) - gt_area T 0 i) <= PRECISION)).
  { destruct (NearlyZero _ _).
    - apply bind_ok in H1. destruct H1 as (f & Hf & H1). destruct (change_in_effect _ _ _ _ _ Hr H1) as (O & Rd & Ar & Fr).
      split; [exact O|]. split; [exact Rd|]. split; [exact Ar|]. split; [|left; rewrite Fr; exact Hf].
      unfold change_in in H1. destruct (change_fraction _ _ _) as [ok u] eqn:E. destruct ok; [|discriminate]. injection H1 as <-.
      rewrite upd_same. cbn [gu_covers]. rewrite <- Fc. symmetry. apply find_cover_same.
      destruct Hr as (_ & c' & F' & G' & _). eapply change_effect; [exact E|exact F'|exact G'].
    - destruct (NearlyEqual_spec (cv_fraction (hu_cover (gu_covers (b id)) c) * gu_area (b id)) (gt_area T 0 i) PRECISION) as [Q|Q]; [|discriminate].
      injection H1 as <-. repeat (split; [auto|]). right. split; [reflexivity|]. unfold g_fraction. rewrite Fc. exact Q. }
  destruct X as (O & Rd & Ar & F1 & Q). destruct (set_ice_effect _ _ _ _ _ _ Rd F1 H) as (O2 & Rd2 & Ar2 & Fr2 & Ic).
  split; [intros j Hj; rewrite O2, O by exact Hj; reflexivity|]. split; [exact Rd2|]. split; [congruence|]. split; [exact E0|].
  split; [exact Ic|]. rewrite Fr2. exact Q.
Qed.
Lemma init_effect : forall cols b b', NoDup (map (unit_of T) cols) -> (forall i, In i cols -> gready b name (unit_of T i)) ->
  evolution_init T cols b = Ok b' ->
  (forall id, ~ In id (map (unit_of T) cols) -> b' id = b id) /\
  (forall i, In i cols -> let id := unit_of T i in gready b' name id /\ gu_area (b' id) = gu_area (b id) /\ gt_area T 0 i <> 0 /\
     g_ice b' name id = gt_volume T 0 i * iceDensity / gt_area T 0 i /\
     (check_fraction (gt_area T 0 i / gu_area (b id)) = Ok (g_fraction b' name id) \/
      g_fraction b' name id = g_fraction b name id /\ Rabs (g_fraction b name id * gu_area (b id) - gt_area T 0 i) <= PRECISION)).
Proof.
  induction cols as [|i l IH]; intros b b' Nd Hr H; cbn [evolution_init] in H.
  - injection H as <-. split; [auto|intros i []].
  - inversion Nd as [|x y Hnot Nd']; subst. apply bind_ok in H. destruct H as (b1 & H1 & H).
    destruct (init_unit_effect i b b1 (Hr i (or_introl eq_refl)) H1) as (O & Q). cbn zeta in Q.
    assert (Hr1 : forall j, In j l -> gready b1 name (unit_of T j)).
    { intros j Hj. apply ready_eq with b; [|apply Hr; right; exact Hj]. apply O. intros E. apply Hnot. rewrite <- E. apply in_map. exact Hj. }
    destruct (IH b1 b' Nd' Hr1 H) as (I1 & I2). split.
    + intros id Hid. cbn in Hid. rewrite I1 by tauto. apply O. intros ->. tauto.
    + intros j [<-|Hj]; cbn zeta.
      * assert (E : b' (unit_of T i) = b1 (unit_of T i)) by (apply I1; exact Hnot).
        unfold gready, g_fraction, g_ice in *. rewrite E. exact Q.
      * specialize (I2 j Hj). cbn zeta in *.
        assert (E : b1 (unit_of T j) = b (unit_of T j)) by (apply O; intros E; apply Hnot; rewrite <- E; apply in_map; exact Hj).
        unfold g_fraction in *. rewrite E in *. exact I2.
Qed.
Lemma init_start amin b b' : 0 < amin -> glaciers_ready T b -> ice_sane T b -> table_suits T b ->
  (forall i, In i (columns T) -> amin <= gt_area T 0 i) ->
  evolution_init T (columns T) b = Ok b' ->
  glaciers_ready T b' /\ ice_sane T b' /\ table_suits T b' /\ extents_match (PRECISION / amin) T 0 b' /\
  Rabs (glacier_volume T b' - row_volume T 0 * iceDensity) <= PRECISION / amin * (row_volume T 0 * iceDensity).
Proof.
  intros Hm (Nd & Hr) Hs Hts Ha H. pose proof PRECISION_pos as HP.
  assert (NdU : NoDup (map (unit_of T) (columns T))) by (rewrite columns_units; exact Nd).
  destruct (init_effect (columns T) b b' NdU Hr H) as (_ & E).
  pose proof Hts as (N0 & V0 & HR & _).
  assert (Hfrac : forall i, In i (columns T) -> let id := unit_of T i in
    Rabs (g_fraction b' name id * gu_area (b' id) - gt_area T 0 i) <= PRECISION / amin * gt_area T 0 i /\
    (g_fraction b' name id = 0 \/ PRECISION < g_fraction b' name id <= 1)).
  { intros i Hi id. destruct (E i Hi) as (_ & E2 & _ & _ & E5). cbn zeta in *. fold id in E2, E5. rewrite E2.
    assert (Q : PRECISION <= PRECISION / amin * gt_area T 0 i).
    { specialize (Ha i Hi). replace PRECISION with (PRECISION / amin * amin) at 1 by (field; lra).
      apply Rmult_le_compat_l; [|exact Ha]. left. apply Rmult_lt_0_compat; [lra|apply Rinv_0_lt_compat; lra]. }
    destruct E5 as [E5|(E5 & E6)].
    - destruct (row_fraction b 0 i _ (HR 0%nat N0) Hi (proj1 (Hr i Hi)) E5) as (F1 & F2). fold id in F1, F2.
      rewrite F1. unfold Rminus. rewrite Rplus_opp_r, Rabs_R0. split; [lra|exact F2].
    - rewrite E5. split; [lra|]. apply (Hs i Hi). }
  split; [split; [exact Nd|intros i Hi; apply E; exact Hi]|].
  split.
  { intros i Hi. cbn zeta. split; [|apply Hfrac; exact Hi]. destruct (E i Hi) as (_ & _ & _ & E4 & _). rewrite E4.
    destruct (HR 0%nat N0 i Hi) as (Q & _). specialize (Ha i Hi). unfold iceDensity.
    apply Rmult_le_pos; [lra|left; apply Rinv_0_lt_compat; lra]. }
  split; [apply suits_eq with b; [intros i Hi; apply E; exact Hi|exact Hts]|].
  split; [intros i Hi; apply Hfrac; exact Hi|].
  unfold glacier_volume. set (d := PRECISION / amin) in *.
  assert (X : forall i, In i (columns T) -> Rabs (g_volume b' name (unit_of T i) - gt_volume T 0 i * iceDensity) <= d * (gt_volume T 0 i * iceDensity)).
  { intros i Hi. destruct (Hfrac i Hi) as (F1 & _). destruct (E i Hi) as (_ & _ & E3 & E4 & _). cbn zeta in *.
    unfold g_volume. rewrite E4. specialize (Ha i Hi). destruct (HR 0%nat N0 i Hi) as (Q & _).
    set (w := gt_volume T 0 i * iceDensity). set (t := gt_area T 0 i) in *. assert (0 <= w) by (unfold w, iceDensity; lra).
    replace (g_fraction b' name (unit_of T i) * gu_area (b' (unit_of T i)) * (w / t) - w)
      with ((g_fraction b' name (unit_of T i) * gu_area (b' (unit_of T i)) - t) * (w / t)) by (field; lra).
    rewrite Rabs_mult. assert (0 <= w / t) by (apply Rmult_le_pos; [lra|left; apply Rinv_0_lt_compat; lra]).
    rewrite (Rabs_right (w / t)) by lra. replace (d * w) with (d * t * (w / t)) by (field; lra). apply Rmult_le_compat_r; assumption. }
  unfold row_volume. rewrite <- Rsum_scal_r. rewrite <- Rsum_minus. rewrite <- Rsum_scal.
  eapply Rle_trans; [apply Rsum_Rabs|]. apply Rsum_le. exact X.
Qed.

(** *** Area scaling *)
Lemma change_false u n f u' c : change_fraction u n f = (false, u') -> find_cover u n = Some c -> generic_cover u <> Some c ->
  u' = u \/ same_names u u' /\ same_kinds u u' /\ cv_fraction (hu_cover u' c) = f.
Proof.
  intros H F G. unfold change_fraction in H. destruct (_ || _); [injection H as <-; auto|]. rewrite F in H.
  assert (Hd : forall v, same_names u v -> same_kinds u v ->
     fix_total (put_cover v c (set_fraction f (hu_cover v c))) = (false, u') -> same_names u u' /\ same_kinds u u' /\ cv_fraction (hu_cover u' c) = f).
  { intros v Hn Hk E. apply fix_effect in E. destruct E as (E1 & E2 & E3).
    assert (Q : same_names u (put_cover v c (set_fraction f (hu_cover v c)))).
    { eapply same_names_trans; [exact Hn|]. apply same_names_put. reflexivity. }
    rewrite <- (generic_same _ _ Q) in E3.
    split; [eapply same_names_trans; [exact Q|exact E1]|].
    split; [eapply kinds_trans; [exact Hk|eapply kinds_trans; [apply kinds_fraction|exact E2]]|].
    rewrite E3 by exact G; cbn; rewrite upd_same; reflexivity. }
  assert (Hu := Hd u (same_names_refl u) (kinds_refl u)).
  destruct (generic_cover u) as [g|] eqn:GG; [|right; apply Hu; exact H].
  destruct (negb (g =? c)%nat && (1 <? hu_count u)%nat); [|right; apply Hu; exact H].
  destruct (LessThan _ _ _); [injection H as <-; auto|].
  right. eapply Hd; [apply transfer_names|apply kinds_transfer|exact H].
Qed.

Lemma scaling_unit_effect i b b' : gready b name (unit_of T i) -> column_suits T b i ->
  let id := unit_of T i in
  0 <= g_ice b name id -> g_fraction b name id = 0 \/ PRECISION < g_fraction b name id <= 1 ->
  scaling_unit T i b = Ok b' ->
  (forall j, j <> id -> b' j = b j) /\ gready b' name id /\ gu_area (b' id) = gu_area (b id) /\
  Rabs (g_volume b' name id - g_volume b name id) <= PRECISION /\
  (PRECISION < g_volume b name id -> g_volume b' name id = g_volume b name id) /\
  (g_fraction b' name id = g_fraction b name id \/ g_fraction b' name id = 0 \/
   exists r, (r < gt_rows T)%nat /\ g_fraction b' name id * gu_area (b id) = gt_area T r i).
Proof.
  intros Hr (N0 & V0 & HA & HF) id Hi Hf H. cbn zeta in HF. fold id in HF, Hr. pose proof PRECISION_pos as HP. unfold scaling_unit in H. fold id in H.
  pose proof Hr as (Ha & c & Fc & Gc & Sc). rewrite Fc in H.
  assert (Ef : g_fraction b name id = cv_fraction (hu_cover (gu_covers (b id)) c)) by (unfold g_fraction; rewrite Fc; reflexivity).
  assert (Ei : g_ice b name id = ice_depth (hu_cover (gu_covers (b id)) c)) by (unfold g_ice; rewrite Fc; reflexivity).
  rewrite <- Ef, <- Ei in H.
  assert (Same : b' = b -> (forall j, j <> id -> b' j = b j) /\ gready b' name id /\ gu_area (b' id) = gu_area (b id) /\
    Rabs (g_volume b' name id - g_volume b name id) <= PRECISION /\
    (PRECISION < g_volume b name id -> g_volume b' name id = g_volume b name id) /\
    (g_fraction b' name id = g_fraction b name id \/ g_fraction b' name id = 0 \/
     exists r, (r < gt_rows T)%nat /\ g_fraction b' name id * gu_area (b id) = gt_area T r i)).
  { intros ->. split; [auto|]. split; [exact Hr|]. split; [reflexivity|]. split; [|auto].
    unfold Rminus. rewrite Rplus_opp_r, Rabs_R0. lra. }
  destruct (NearlyZero_spec (g_fraction b name id) PRECISION) as [Z|Z]; [injection H as <-; apply Same; reflexivity|].
  fold (g_volume b name id) in H. set (vol := g_volume b name id) in *.
  assert (Hvol : 0 <= vol) by (unfold vol, g_volume; apply Rmult_le_pos; [apply Rmult_le_pos; lra|exact Hi]).
  destruct (NearlyZero_spec vol PRECISION) as [Zv|Zv].
  - injection H as <-. set (u := gu_covers (b id)) in *. destruct (change_fraction u name 0) as [ok u'] eqn:E. cbn [snd].
    set (b' := upd b id (mkGU (gu_area (b id)) u')) in *.
    assert (X : u' = u \/ same_names u u' /\ same_kinds u u' /\ cv_fraction (hu_cover u' c) = 0).
    { destruct ok; [right|]; [destruct (change_effect _ _ _ _ _ E Fc Gc) as (_ & X1 & X2 & X3 & _); auto|].
      apply (change_false _ _ _ _ _ E Fc Gc). }
    destruct X as [X|(N & K & Q)].
    { assert (Hb : forall j, b' j = b j).
      { intros j. unfold b', upd. destruct (Nat.eqb_spec j id) as [->|]; [|reflexivity]. rewrite X. unfold u. destruct (b id); reflexivity. }
      split; [intros; apply Hb|]. split; [apply ready_eq with b; [apply Hb|exact Hr]|]. rewrite Hb. split; [reflexivity|].
      assert (g_volume b' name id = vol) by (unfold vol, g_volume, g_fraction, g_ice; rewrite Hb; reflexivity).
      assert (g_fraction b' name id = g_fraction b name id) by (unfold g_fraction; rewrite Hb; reflexivity).
      rewrite H. split; [unfold Rminus; rewrite Rplus_opp_r, Rabs_R0; lra|]. auto. }
    assert (F' : find_cover u' name = Some c) by (rewrite <- Fc; symmetry; apply find_cover_same; exact N).
    assert (Hfr : g_fraction b' name id = 0) by (unfold g_fraction, b'; rewrite upd_same; cbn [gu_covers]; rewrite F'; exact Q).
    split; [intros j Hj; apply upd_other; exact Hj|].
    split; [split; [unfold b'; rewrite upd_same; exact Ha|]; exists c; unfold b'; rewrite upd_same; cbn [gu_covers];
      split; [exact F'|]; split; [rewrite <- (generic_same _ _ N); exact Gc|intros X; apply Sc; apply K; exact X]|].
    split; [unfold b'; rewrite upd_same; reflexivity|].
    assert (Hv' : g_volume b' name id = 0) by (unfold g_volume; rewrite Hfr; ring). rewrite Hv'.
    apply Rabs_bounds in Zv. split; [apply Rabs_le; lra|]. split; [intros; lra|]. auto.
  - assert (Hv : PRECISION < vol) by (destruct (Rabs_cases _ _ Zv); lra).
    set (r := table_row T (gt_volume T 0 i * iceDensity) vol) in *.
    destruct (table_row_spec (gt_volume T 0 i * iceDensity) vol) as (R1 & R2); [unfold iceDensity; lra|lra|exact N0|]. fold r in R1, R2.
    unfold row_in_table in H. destruct (Nat.ltb_spec r (gt_rows T)); [|lia]. cbn [negb] in H.
    assert (Har : PRECISION < gt_area T r i).
    { apply HA. destruct (Nat.eq_dec (S r) (gt_rows T)) as [E|E]; [|left; lia]. right. destruct (Nat.eq_dec (gt_rows T) 1); [lia|].
      specialize (R2 ltac:(lia) E). lra. }
    apply bind_ok in H. destruct H as (f & Hcf & H). apply bind_ok in H. destruct H as (b1 & H1 & H).
    destruct (Reqb (gt_area T r i) 0) eqn:E0; [discriminate|].
    destruct (change_in_effect _ _ _ _ _ Hr H1) as (O & Rd & Ar & Fr).
    assert (F1 : find_cover (gu_covers (b1 id)) name = Some c).
    { unfold change_in in H1. destruct (change_fraction _ _ _) as [ok u] eqn:E. destruct ok; [|discriminate]. injection H1 as <-.
      rewrite upd_same. cbn [gu_covers]. rewrite <- Fc. symmetry. apply find_cover_same. eapply change_effect; [exact E|exact Fc|exact Gc]. }
    destruct (set_ice_effect _ _ _ _ _ _ Rd F1 H) as (O2 & Rd2 & Ar2 & Fr2 & Ic).
    assert (Efr : f * gu_area (b id) = gt_area T r i).
    { apply check_fraction_cases in Hcf. set (t := gt_area T r i) in *. set (A := gu_area (b id)) in *. pose proof PREC_half.
      destruct (HF r R1) as [E|[E|E]]; fold t A in E.
      - lra.
      - assert (X : t / A = 1) by (rewrite E; field; lra). rewrite X in Hcf.
        replace (1 - 1) with 0 in Hcf by ring. rewrite Rabs_R0, Rabs_R1 in Hcf.
        destruct Hcf as [(_ & Q)|[(-> & _)|(_ & _ & _ & Q)]]; lra.
      - destruct Hcf as [(_ & Q)|[(_ & Q & _)|(-> & Q & _)]].
        + apply Rabs_bounds in Q. lra.
        + apply Rabs_bounds in Q. lra.
        + field; lra. }
    assert (Ev : g_volume b' name id = vol).
    { unfold g_volume. rewrite Fr2, Ic, Fr, Ar2, Ar, Efr. field. lra. }
    split; [intros j Hj; rewrite O2, O by exact Hj; reflexivity|]. split; [exact Rd2|]. split; [congruence|].
    rewrite Ev. split; [unfold Rminus; rewrite Rplus_opp_r, Rabs_R0; lra|]. split; [reflexivity|].
    right; right. exists r. split; [exact R1|]. rewrite Fr2, Fr. exact Efr.
Qed.

Lemma scaling_effect : forall cols b b', NoDup (map (unit_of T) cols) ->
  (forall i, In i cols -> let id := unit_of T i in gready b name id /\ column_suits T b i /\ 0 <= g_ice b name id /\
     (g_fraction b name id = 0 \/ PRECISION < g_fraction b name id <= 1)) ->
  scaling_apply T cols b = Ok b' ->
  (forall id, ~ In id (map (unit_of T) cols) -> b' id = b id) /\
  (forall i, In i cols -> let id := unit_of T i in
     Rabs (g_volume b' name id - g_volume b name id) <= PRECISION /\
     (PRECISION < g_volume b name id -> g_volume b' name id = g_volume b name id) /\
     (g_fraction b' name id = g_fraction b name id \/ g_fraction b' name id = 0 \/
      exists r, (r < gt_rows T)%nat /\ g_fraction b' name id * gu_area (b id) = gt_area T r i)).
Proof.
  induction cols as [|i l IH]; intros b b' Nd Hr H; cbn [scaling_apply] in H.
  - injection H as <-. split; [auto|intros i []].
  - inversion Nd as [|x y Hnot Nd']; subst. apply bind_ok in H. destruct H as (b1 & H1 & H).
    destruct (Hr i (or_introl eq_refl)) as (A1 & A2 & A3 & A4). cbn zeta in *.
    destruct (scaling_unit_effect i b b1 A1 A2 A3 A4 H1) as (O & _ & Q1 & Q).
    assert (E1 : forall j, In j l -> b1 (unit_of T j) = b (unit_of T j)).
    { intros j Hj. apply O. intros E. apply Hnot. rewrite <- E. apply in_map. exact Hj. }
    assert (Hr1 : forall j, In j l -> let id := unit_of T j in gready b1 name id /\ column_suits T b1 j /\ 0 <= g_ice b1 name id /\
     (g_fraction b1 name id = 0 \/ PRECISION < g_fraction b1 name id <= 1)).
    { intros j Hj id. destruct (Hr j (or_intror Hj)) as (B1 & B2 & B3 & B4). cbn zeta in *. unfold id.
      split; [apply ready_eq with b; [apply E1; exact Hj|exact B1]|]. unfold column_suits, g_ice, g_fraction in *. rewrite E1 by exact Hj. auto. }
    destruct (IH b1 b' Nd' Hr1 H) as (I1 & I2). split.
    + intros id Hid. cbn in Hid. rewrite I1 by tauto. apply O. intros ->. tauto.
    + intros j [<-|Hj]; cbn zeta.
      * assert (E : b' (unit_of T i) = b1 (unit_of T i)) by (apply I1; exact Hnot).
        unfold g_volume, g_fraction, g_ice in *. rewrite E. exact Q.
      * specialize (I2 j Hj). cbn zeta in *. unfold g_volume, g_fraction, g_ice in *. rewrite (E1 j Hj) in *. exact I2.
Qed.
End Columns.

(** *** Snow to ice *)
Lemma snow_unit_effect name b id b' : snow_to_ice_unit name b id = Ok b' ->
  (forall j, j <> id -> b' j = b j) /\ rest_unchanged (b id) (b' id) name /\
  snow_of (b' id) name + ice_of (b' id) name = snow_of (b id) name + ice_of (b id) name /\
  (glacier_present (b id) name -> 0 <= snow_of (b id) name -> snow_of (b' id) name = 0) /\
  (~ glacier_present (b id) name -> b' = b \/ (forall c, find_cover (gu_covers (b id)) name = Some c -> cv_fraction (hu_cover (gu_covers (b id)) c) < 0)).
Proof.
  unfold snow_to_ice_unit. intros H. pose proof PRECISION_pos as HP.
  assert (Same : b' = b -> (~ glacier_present (b id) name \/ snow_of (b id) name <= 0) ->
    (forall j, j <> id -> b' j = b j) /\ rest_unchanged (b id) (b' id) name /\
    snow_of (b' id) name + ice_of (b' id) name = snow_of (b id) name + ice_of (b id) name /\
    (glacier_present (b id) name -> 0 <= snow_of (b id) name -> snow_of (b' id) name = 0) /\
    (~ glacier_present (b id) name -> b' = b \/ (forall c, find_cover (gu_covers (b id)) name = Some c -> cv_fraction (hu_cover (gu_covers (b id)) c) < 0))).
  { intros -> Hp. split; [auto|]. split; [split; [reflexivity|split; [reflexivity|]]; intros c; cbn; auto|]. split; [reflexivity|].
    split; [|auto]. intros G S. destruct Hp as [Hp|Hp]; [contradiction|lra]. }
  unfold glacier_present, snow_of in *.
  destruct (find_cover (gu_covers (b id)) name) as [c|] eqn:F; [|injection H as <-; apply Same; auto].
  set (u := gu_covers (b id)) in *. set (cv := hu_cover u c) in *.
  destruct (NearlyZero_spec (cv_fraction cv) PRECISION) as [Z|Z].
  { injection H as <-. apply Same; [reflexivity|]. left. apply Rabs_bounds in Z. lra. }
  destruct (cv_slot cv Snow) as [snow|] eqn:Es; [|injection H as <-; apply Same; [reflexivity|right; unfold slot_depth; fold cv; rewrite Es; lra]].
  destruct (Rleb_spec snow 0) as [S|S]; [injection H as <-; apply Same; [reflexivity|right; unfold slot_depth; fold cv; rewrite Es; exact S]|].
  destruct (cv_slot cv SelfIce) as [ice|] eqn:Ei; [|discriminate]. injection H as <-.
  set (cv' := put_slot (put_slot cv SelfIce (ice + snow)) Snow 0). set (u' := put_cover u c cv').
  assert (N : same_names u u') by (apply same_names_put; reflexivity).
  assert (F' : find_cover u' name = Some c) by (rewrite <- F; symmetry; apply find_cover_same; exact N).
  rewrite upd_same. cbn [gu_covers].
  split; [intros j Hj; apply upd_other; exact Hj|].
  split.
  { split; [reflexivity|]. split; [reflexivity|]. intros k. cbn zeta. cbn [gu_covers put_cover hu_cover u'].
    destruct (Nat.eq_dec k c) as [->|n].
    - unfold u'. cbn [put_cover hu_cover]. rewrite !upd_same. fold u. fold cv. split; [reflexivity|]. split; [reflexivity|]. split; [reflexivity|]. split; [reflexivity|].
      intros r [Hr|(Hr1 & Hr2)]; [congruence|]. cbn. destruct r; try reflexivity; congruence.
    - unfold u'. cbn [put_cover hu_cover]. rewrite !upd_other by exact n. fold u. auto. }
  unfold ice_of. cbn [gu_covers]. rewrite F'. fold u. rewrite F. fold cv. unfold u'. cbn [put_cover hu_cover]. rewrite upd_same.
  unfold slot_depth. rewrite Ei. cbn. rewrite ?Es.
  split; [lra|]. split; [intros; reflexivity|].
  intros Hng. right. intros c' Hc'. injection Hc' as <-. fold cv. destruct (Rabs_cases _ _ Z); lra.
Qed.

Lemma snow_all name : forall ids b b', NoDup ids -> snow_to_ice name ids b = Ok b' ->
  (forall id, ~ In id ids -> b' id = b id) /\
  (forall id, In id ids ->
     rest_unchanged (b id) (b' id) name /\
     snow_of (b' id) name + ice_of (b' id) name = snow_of (b id) name + ice_of (b id) name /\
     (glacier_present (b id) name -> 0 <= snow_of (b id) name -> snow_of (b' id) name = 0)).
Proof.
  induction ids as [|i l IH]; intros b b' Nd H; cbn [snow_to_ice] in H.
  - injection H as <-. split; [auto|intros i []].
  - inversion Nd as [|x y Hnot Nd']; subst. apply bind_ok in H. destruct H as (b1 & H1 & H).
    destruct (snow_unit_effect _ _ _ _ H1) as (O & Q1 & Q2 & Q3 & _). destruct (IH b1 b' Nd' H) as (I1 & I2). split.
    + intros id Hid. cbn in Hid. rewrite I1 by tauto. apply O. intros ->. tauto.
    + intros id [<-|Hid].
      * rewrite (I1 i Hnot). auto.
      * specialize (I2 id Hid). rewrite (O id) in I2 by (intros ->; contradiction). exact I2.
Qed.
Lemma snow_total name ids b b' : NoDup ids -> snow_to_ice name ids b = Ok b' ->
  forall all, Rsum (fun id => g_fraction b' name id * gu_area (b' id) * (snow_of (b' id) name + ice_of (b' id) name)) all
            = Rsum (fun id => g_fraction b name id * gu_area (b id) * (snow_of (b id) name + ice_of (b id) name)) all.
Proof.
  intros Nd H all. destruct (snow_all name ids b b' Nd H) as (A & B). apply Rsum_ext_in. intros id _.
  destruct (in_dec Nat.eq_dec id ids) as [Hi|Hi].
  - destruct (B id Hi) as ((R1 & R2 & R3) & E & _). rewrite E, R1.
    assert (F : find_cover (gu_covers (b' id)) name = find_cover (gu_covers (b id)) name).
    { apply find_cover_same. split; [exact R2|]. intros c. destruct (R3 c) as (X & _). exact X. }
    unfold g_fraction. rewrite F. destruct (find_cover _ _) as [c|]; [|reflexivity]. destruct (R3 c) as (_ & X & _). rewrite X. reflexivity.
  - unfold g_fraction. rewrite (A id Hi). reflexivity.
Qed.

(** Dated change of a land cover. *)
Lemma land_cover_change_effect id name area b b' c : land_cover_change id name area b = Ok b' ->
  find_cover (gu_covers (b id)) name = Some c -> generic_cover (gu_covers (b id)) <> Some c -> 0 < gu_area (b id) ->
  0 <= g_fraction b' name id <= 1 /\ Rabs (g_fraction b' name id * gu_area (b id) - area) <= PRECISION * gu_area (b id) /\
  (forall j, j <> id -> b' j = b j).
Proof.
  intros H F G Ha. unfold land_cover_change in H. apply bind_ok in H. destruct H as (f & Hf & H). unfold change_in in H.
  destruct (change_fraction _ name f) as [ok u] eqn:E. destruct ok; [|discriminate]. injection H as <-.
  destruct (change_effect _ _ _ _ _ E F G) as (B & N & _ & Q & _). pose proof PRECISION_pos as HP.
  assert (X : g_fraction (upd b id (mkGU (gu_area (b id)) u)) name id = f).
  { unfold g_fraction. rewrite upd_same. cbn [gu_covers]. rewrite <- (find_cover_same _ _ name N), F. exact Q. }
  rewrite X. split; [exact B|]. split; [|intros j Hj; apply upd_other; exact Hj].
  set (A := gu_area (b id)) in *. replace (f * A - area) with ((f - area / A) * A) by (field; lra).
  rewrite Rabs_mult, (Rabs_right A) by lra. apply Rmult_le_compat_r; [lra|].
  apply check_fraction_cases in Hf. destruct Hf as [(-> & Hf)|[(-> & Hf & _)|(-> & _)]].
  - replace (0 - area / A) with (- (area / A)) by ring. rewrite Rabs_Ropp. exact Hf.
  - exact Hf.
  - unfold Rminus. rewrite Rplus_opp_r, Rabs_R0. lra.
Qed.

Lemma snow_runs name : forall ids b, (forall id, In id ids -> gready b name id) -> NoDup ids -> exists b', snow_to_ice name ids b = Ok b'.
Proof.
  induction ids as [|i l IH]; intros b Hr Nd; cbn [snow_to_ice]; [eexists; reflexivity|].
  inversion Nd as [|x y Hnot Nd']; subst. destruct (Hr i (or_introl eq_refl)) as (_ & c & F & _ & S).
  assert (X : exists b1, snow_to_ice_unit name b i = Ok b1).
  { unfold snow_to_ice_unit. rewrite F. destruct (NearlyZero _ _); [eexists; reflexivity|].
    destruct (cv_slot _ Snow); [|eexists; reflexivity]. destruct (Rleb _ _); [eexists; reflexivity|].
    destruct (cv_slot _ SelfIce); [eexists; reflexivity|contradiction]. }
  destruct X as (b1 & E). rewrite E. cbn [bind]. apply IH; [|exact Nd'].
  destruct (snow_unit_effect _ _ _ _ E) as (O & _). intros id Hid. unfold gready. rewrite O by (intros ->; contradiction). apply Hr. right. exact Hid.
Qed.
