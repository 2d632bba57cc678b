(** Facts about the observed snow cover. *)
From Verif Require Import BaseFacts PeriodsFacts SnowStackSpec GlacierBalanceFacts SnowCoverFacts.
Open Scope R_scope.

Lemma chosen_filter {X} (P : X -> Prop) p l : (forall x, p x = true <-> P x) -> chosen P l (filter p l).
Proof. intro H. induction l as [|x l IH]; [constructor|]. simpl. destruct (p x) eqn:E; constructor; try assumption; [apply H; exact E|]. intro K. apply H in K. congruence. Qed.
Lemma chosen_is_filter {X} (P : X -> Prop) p l m : (forall x, p x = true <-> P x) -> chosen P l m -> m = filter p l.
Proof. intros H C. exact (chosen_unique _ _ _ _ C (chosen_filter P p l H)). Qed.
Lemma chosen_filter_in {X} (P : X -> Prop) p l : (forall x, In x l -> p x = true <-> P x) -> chosen P l (filter p l).
Proof. intro H. induction l as [|x l IH]; [constructor|]. simpl. assert (IH' := IH (fun y I => H y (or_intror I))). pose proof (H x (or_introl eq_refl)) as Hx. destruct (p x) eqn:E; constructor; try assumption; [apply Hx; reflexivity|]. intro K. apply Hx in K. congruence. Qed.
Lemma filter_map {X Y} (f : X -> Y) p l : filter p (map f l) = map f (filter (fun x => p (f x)) l).
Proof. induction l; simpl; [reflexivity|]. destruct (p (f a)); simpl; congruence. Qed.
Lemma filter_filter {X} (p q : X -> bool) l : filter p (filter q l) = filter q (filter p l).
Proof. induction l as [|x l IH]; [reflexivity|]. simpl. destruct (p x) eqn:E, (q x) eqn:F; simpl; rewrite ?E, ?F, IH; reflexivity. Qed.

(** ** The value of a unit *)
Lemma valid_pixel_spec o (p : Z * value) : valid_pixel o (snd p) = true <-> counts_pixel o p.
Proof.
  unfold counts_pixel, usable_value. destruct (snd p) as [x|]; [|split; [discriminate|intros (x & E & _); discriminate]]. simpl.
  rewrite !Bool.andb_true_iff. unfold Rleb. split.
  - intros ((A & B) & C). exists x. split; [reflexivity|]. split; [|split].
    + intros n E. rewrite E in A. destruct (Req_EM_T x n); [discriminate|assumption].
    + intros m E. rewrite E in B. destruct (Rle_dec m x); [assumption|discriminate].
    + intros m E. rewrite E in C. destruct (Rle_dec x m); [assumption|discriminate].
  - intros (y & E & A & B & C). injection E as <-. split; [split|].
    + destruct (ag_nodata o) as [n|]; [|reflexivity]. specialize (A n eq_refl). destruct (Req_EM_T x n); [contradiction|reflexivity].
    + destruct (ag_min o) as [m|]; [|reflexivity]. specialize (B m eq_refl). destruct (Rle_dec m x); [reflexivity|contradiction].
    + destruct (ag_max o) as [m|]; [|reflexivity]. specialize (C m eq_refl). destruct (Rle_dec x m); [reflexivity|contradiction].
Qed.
Lemma present_counting o (l : list (Z * value)) : (forall p, In p l -> valid_pixel o (snd p) = true) -> present (map snd l) = map (fun p => nan0 (snd p)) l.
Proof.
  intro H. induction l as [|p l IH]; [reflexivity|]. simpl. rewrite IH by (intros; apply H; right; assumption). pose proof (H p (or_introl eq_refl)) as V. destruct (snd p); [reflexivity|discriminate].
Qed.
Lemma unit_mean_alt o g img uid :
  let all := filter (fun p => (fst p =? uid)%Z) (combine (gd_units g) img) in
  let good := filter (fun p => valid_pixel o (snd p)) all in
  unit_mean o g img uid = match good with [] => None | _ => if Rleb (ag_ratio o) (INR (length good) / INR (length all)) then Some (Rsum (fun p => nan0 (snd p)) good / INR (length good) * ag_scale o) else None end.
Proof.
  intros all good. unfold unit_mean. fold all. rewrite (filter_map snd (valid_pixel o) all). fold good. rewrite !map_length.
  assert (P : forall p, In p good -> valid_pixel o (snd p) = true) by (intros p I; apply filter_In in I; tauto).
  unfold nanmean. rewrite (present_counting o good P). destruct good as [|q good'] eqn:Q.
  - destruct (map snd all); reflexivity.
  - destruct all as [|a all']; [discriminate|]. simpl map. simpl Nat.ltb. cbn [andb]. destruct (Rleb _ _); [|reflexivity]. simpl option_map. rewrite map_length, Rsum_map. reflexivity.
Qed.
Lemma INR_pos n : (0 < n)%nat -> 0 < INR n.
Proof. intro. apply lt_0_INR. lia. Qed.
Lemma unit_mean_spec o g img uid x : unit_mean o g img uid = Some x <-> unit_value o g img uid x.
Proof.
  rewrite unit_mean_alt. cbv zeta. set (all := filter (fun p => (fst p =? uid)%Z) (combine (gd_units g) img)). set (good := filter (fun p => valid_pixel o (snd p)) all).
  assert (A : chosen (fun p => fst p = uid) (combine (gd_units g) img) all) by (apply chosen_filter; intro; apply Z.eqb_eq).
  assert (G : chosen (counts_pixel o) all good) by (apply chosen_filter; intro; apply valid_pixel_spec).
  assert (U : unit_value o g img uid x <-> good <> [] /\ ag_ratio o * INR (length all) <= INR (length good) /\ x * INR (length good) = ag_scale o * Rsum (fun p => nan0 (snd p)) good).
  { split; [|intro H; exists all, good; tauto]. intros (all' & good' & A' & G' & H). rewrite (chosen_unique _ _ _ _ A' A) in G', H. rewrite (chosen_unique _ _ _ _ G' G) in H. exact H. }
  rewrite U. destruct good as [|q good'] eqn:Q; [split; [discriminate|intros (H & _); congruence]|].
  assert (P : 0 < INR (length (q :: good'))) by (apply INR_pos; simpl; lia).
  assert (P' : 0 < INR (length all)). { apply INR_pos. destruct all; [discriminate|simpl; lia]. }
  remember (INR (length (q :: good'))) as m eqn:Em. clear Em. remember (Rsum (fun p : Z * value => nan0 (snd p)) (q :: good')) as sm eqn:Es. clear Es.
  unfold Rleb. destruct (Rle_dec (ag_ratio o) (m / INR (length all))) as [L|L].
  - split.
    + intro E. injection E as <-. split; [discriminate|]. split; [|field; lra]. apply (Rmult_le_compat_r (INR (length all))) in L; [|lra]. unfold Rdiv in L. rewrite Rmult_assoc, Rinv_l, Rmult_1_r in L by lra. exact L.
    + intros (_ & _ & E). f_equal. apply (Rmult_eq_reg_r m); [|lra]. rewrite E. field. lra.
  - split; [discriminate|]. intros (_ & E & _). exfalso. apply L. apply Rmult_le_reg_r with (INR (length all)); [exact P'|]. unfold Rdiv. rewrite Rmult_assoc, Rinv_l, Rmult_1_r by lra. exact E.
Qed.

(** ** Targets *)
Lemma targets_prod (f : image -> Z -> value) ids (stack : list (Z * image)) :
  flat_map (targets_of_row ids) (map (fun p => (fst p, map (f (snd p)) ids)) stack)
  = flat_map (fun q => match f (snd (fst q)) (snd q) with Some v => [mkSnow (fst (fst q)) (snd q) v] | None => [] end) (list_prod stack ids).
Proof.
  induction stack as [|(d, im) st IH]; [reflexivity|]. simpl. rewrite flat_map_app, <- IH. f_equal. unfold targets_of_row. simpl.
  clear IH. induction ids as [|i ids IH]; [reflexivity|]. simpl. rewrite IH. reflexivity.
Qed.
Lemma out_of_period_spec start stop t : out_of_period start stop t = false <-> in_limits start stop t.
Proof.
  unfold out_of_period, in_limits, not_before, not_after. rewrite Bool.orb_false_iff. split.
  - intros (A & B). split; intros s E; rewrite E in *; [apply Z.ltb_ge in A|apply Z.ltb_ge in B]; assumption.
  - intros (A & B). split; [destruct start as [s|]|destruct stop as [s|]]; try reflexivity; apply Z.ltb_ge; auto.
Qed.
Lemma build_targets_spec o g ids start stop (f : image -> Z -> value) stack :
  (forall p i x, In p stack -> In i ids -> f (snd p) i = Some x <-> unit_value o g (snd p) i x) ->
  observations o g ids start stop stack (build_targets ids start stop (map (fun p => (fst p, map (f (snd p)) ids)) stack)).
Proof.
  intro H. unfold build_targets, restrict_snow. rewrite targets_prod.
  assert (K : forall q, In q (list_prod stack ids) -> forall x, f (snd (fst q)) (snd q) = Some x <-> unit_value o g (snd (fst q)) (snd q) x).
  { intros (p, i) I x. apply in_prod_iff in I. simpl. apply H; tauto. }
  unfold observations. generalize dependent (list_prod stack ids). intros l K. induction l as [|q l IH].
  - exists []. split; constructor.
  - destruct IH as (sel & C & F); [intros; apply K; right; assumption|]. pose proof (K q (or_introl eq_refl)) as Kq. simpl.
    destruct (f (snd (fst q)) (snd q)) as [v|] eqn:E.
    + simpl. destruct (out_of_period start stop (fst (fst q))) eqn:O.
      * exists sel. split; [|exact F]. apply CSkip; [|exact C]. intros (L & _). apply out_of_period_spec in L. congruence.
      * exists (q :: sel). assert (V : unit_value o g (snd (fst q)) (snd q) v) by (apply Kq; reflexivity). split; [apply CTake; [split; [apply out_of_period_spec; exact O|exists v; exact V]|exact C]|].
        simpl. constructor; [|exact F]. simpl. auto.
    + exists sel. split; [|exact F]. apply CSkip; [|exact C]. intros (_ & x & V). apply Kq in V. discriminate.
Qed.

(** ** Units *)
Lemma insert_unique_in z l u : In u (insert_unique z l) <-> u = z \/ In u l.
Proof.
  induction l as [|a l IH]; simpl; [split; [intros [<-|[]]; auto|intros [-> |[]]; auto]|]. destruct (z <? a)%Z; simpl; [split; [intros [<-|H]; auto|intros [-> |H]; auto]|].
  destruct (Z.eqb_spec z a); simpl; [subst; split; [auto|intros [-> |H]; auto]|]. rewrite IH. tauto.
Qed.
Lemma insert_unique_sorted z l : StronglySorted Z.lt l -> StronglySorted Z.lt (insert_unique z l).
Proof.
  intro H. induction H as [|a l H IH F]; simpl; [repeat constructor|]. destruct (Z.ltb_spec z a).
  - constructor; [constructor; assumption|]. constructor; [assumption|]. eapply Forall_impl; [|exact F]. intros; simpl in *; lia.
  - destruct (Z.eqb_spec z a); [constructor; assumption|]. constructor; [exact IH|]. apply Forall_forall. intros u I. apply insert_unique_in in I. destruct I as [-> |I]; [lia|]. rewrite Forall_forall in F. apply F. exact I.
Qed.
Lemma unique_sorted_spec l : StronglySorted Z.lt (unique_sorted l) /\ forall u, In u (unique_sorted l) <-> In u l.
Proof.
  unfold unique_sorted. induction l as [|z l (S1 & I1)]; simpl; [split; [constructor|tauto]|]. split; [apply insert_unique_sorted; exact S1|]. intro u. rewrite insert_unique_in, I1. split; intros [H|H]; auto.
Qed.
Lemma sorted_filter {X} (R' : X -> X -> Prop) p l : StronglySorted R' l -> StronglySorted R' (filter p l).
Proof. intro H. induction H as [|a l H IH F]; simpl; [constructor|]. destruct (p a); [|exact IH]. constructor; [exact IH|]. apply Forall_forall. intros x I. apply filter_In in I. rewrite Forall_forall in F. apply F. tauto. Qed.
Lemma sorted_nodup l : StronglySorted Z.lt l -> NoDup l.
Proof. intro H. induction H as [|a l H IH F]; constructor; [|exact IH]. intro I. rewrite Forall_forall in F. specialize (F a I). lia. Qed.
Lemma unit_ids_spec named g : units_of named g (unit_ids named g).
Proof.
  destruct named as [l|]; [reflexivity|]. unfold units_of, unit_ids. destruct (unique_sorted_spec (gd_units g)) as (S1 & I1). split; [apply sorted_filter; exact S1|].
  intro u. rewrite filter_In, I1, Bool.andb_true_iff, Z.ltb_lt. destruct (gd_nodata g) as [n|].
  - rewrite Bool.negb_true_iff, Z.eqb_neq. split; [intros (A & B & C); repeat split; try assumption; congruence|intros (A & B & C); repeat split; try assumption; congruence].
  - split; [intros (A & B & _); repeat split; try assumption; discriminate|intros (A & B & _); repeat split; assumption].
Qed.

(** ** The rows of MODIS *)
Lemma bincount_sum {X} (label : X -> option nat) w l j : bincount label w l j = Rsum w (filter (fun x => match label x with Some k => (k =? j)%nat | None => false end) l).
Proof.
  unfold bincount. assert (forall a, fold_left (fun acc x => match label x with Some k => if (k =? j)%nat then acc + w x else acc | None => acc end) l a
    = a + Rsum w (filter (fun x => match label x with Some k => (k =? j)%nat | None => false end) l)) as H; [|rewrite H; lra].
  induction l as [|x l IH]; intro a; simpl; [lra|]. rewrite IH. destruct (label x) as [k|]; [destruct (k =? j)%nat; simpl; lra|lra].
Qed.
Lemma label_none ids k u : ~ In u ids -> label_of_pixel ids k u = None.
Proof. revert k. induction ids as [|i ids IH]; intros k H; [reflexivity|]. simpl in *. rewrite IH by tauto. destruct (Z.eqb_spec u i); [exfalso; apply H; left; auto|reflexivity]. Qed.
Lemma label_spec ids k u j : NoDup ids -> label_of_pixel ids k u = Some j <-> (k <= j)%nat /\ nth_error ids (j - k) = Some u.
Proof.
  revert k. induction ids as [|i ids IH]; intros k N; [simpl; split; [discriminate|intros (_ & H); destruct (j - k)%nat; discriminate]|]. inversion N; subst. simpl.
  specialize (IH (S k) H2). destruct (label_of_pixel ids (S k) u) as [j'|] eqn:E.
  - split.
    + intro Q. injection Q as ->. apply IH in E || (destruct IH as (IH & _); specialize (IH eq_refl); destruct IH as (A & B); split; [lia|]; replace (j - k)%nat with (S (j - S k)) by lia; exact B).
    + intros (A & B). destruct (j - k)%nat as [|m] eqn:M.
      * simpl in B. injection B as ->. rewrite label_none in E by assumption. discriminate.
      * simpl in B. destruct IH as (_ & IH). apply IH. split; [lia|]. replace (j - S k)%nat with m by lia. exact B.
  - destruct (Z.eqb_spec u i) as [-> |Ne].
    + split; [intro Q; injection Q as <-; split; [lia|]; rewrite Nat.sub_diag; reflexivity|]. intros (A & B). destruct (j - k)%nat as [|m] eqn:M; [f_equal; lia|]. simpl in B. exfalso. apply H1. exact (nth_error_In _ _ B).
    + split; [discriminate|]. intros (A & B). destruct (j - k)%nat as [|m] eqn:M; [simpl in B; congruence|]. simpl in B. destruct IH as (_ & IH). exfalso. assert (None = Some j) as Q; [|discriminate]. apply IH. split; [lia|]. replace (j - S k)%nat with m by lia. exact B.
Qed.
Lemma label_filter {Y} ids j uid (l : list (Z * Y)) : NoDup ids -> nth_error ids j = Some uid ->
  filter (fun x => match label_of_pixel ids 0 (fst x) with Some k => (k =? j)%nat | None => false end) l = filter (fun p => (fst p =? uid)%Z) l.
Proof.
  intros N H. apply filter_ext. intro p. pose proof (label_spec ids 0 (fst p)) as L. destruct (label_of_pixel ids 0 (fst p)) as [k|] eqn:E.
  - specialize (L k N). destruct L as (L & _). specialize (L eq_refl). destruct L as (_ & L). rewrite Nat.sub_0_r in L. destruct (Nat.eqb_spec k j) as [-> |Ne].
    + rewrite H in L. injection L as ->. rewrite Z.eqb_refl. reflexivity.
    + destruct (Z.eqb_spec (fst p) uid) as [Q|]; [|reflexivity]. exfalso. apply Ne. apply (proj1 (NoDup_nth_error ids) N); [apply nth_error_Some; congruence|]. congruence.
  - destruct (Z.eqb_spec (fst p) uid) as [Q|]; [|reflexivity]. exfalso. specialize (L j N). destruct L as (_ & L). assert (None = Some j) as X; [|discriminate]. apply L. split; [lia|]. rewrite Nat.sub_0_r. congruence.
Qed.
Lemma Rsum_one {X} (l : list X) : Rsum (fun _ => 1) l = INR (length l).
Proof. rewrite Rsum_const. lra. Qed.
Lemma modis_row_spec o g ids img : NoDup ids -> modis_row o g ids img = map (unit_mean o g img) ids.
Proof.
  intro N. unfold modis_row.
  assert (G : forall k, map (unit_mean o g img) (skipn k ids) = map (fun j =>
    let n_pix := bincount (fun p : Z * value => label_of_pixel ids 0 (fst p)) (fun _ => 1) (combine (gd_units g) img) j in
    let cnt := bincount (fun p => label_of_pixel ids 0 (fst p)) (fun _ => 1) (filter (fun p => valid_pixel o (snd p)) (combine (gd_units g) img)) j in
    let sum := bincount (fun p => label_of_pixel ids 0 (fst p)) (fun p => nan0 (snd p)) (filter (fun p => valid_pixel o (snd p)) (combine (gd_units g) img)) j in
    if (Rltb 0 cnt && Rleb (ag_ratio o) (if Rltb 0 n_pix then cnt / n_pix else 0))%bool then Some (sum / cnt * ag_scale o) else None)
    (seq k (length (skipn k ids)))); [|symmetry; exact (G 0%nat)].
  intro k. remember (skipn k ids) as l eqn:Q. revert k Q. induction l as [|uid l IH]; intros k Q; [reflexivity|]. simpl.
  assert (Hk : nth_error ids k = Some uid). { rewrite <- (firstn_skipn k ids), <- Q. rewrite nth_error_app2; rewrite firstn_length; [|lia]. assert (k < length ids)%nat. { destruct (Nat.lt_ge_cases k (length ids)) as [|Ge]; [assumption|]. rewrite skipn_all2 in Q by exact Ge. discriminate. } rewrite Nat.min_l by lia. rewrite Nat.sub_diag. reflexivity. }
  f_equal.
  - rewrite unit_mean_alt. cbv zeta. rewrite !bincount_sum, !(label_filter ids k uid) by assumption. rewrite (filter_filter (fun p => (fst p =? uid)%Z)). 
    set (all := filter (fun p => (fst p =? uid)%Z) (combine (gd_units g) img)). rewrite !Rsum_one. destruct (filter (fun p => valid_pixel o (snd p)) all) as [|q good] eqn:Qg.
    + simpl. unfold Rltb. destruct (Rlt_dec 0 0); [lra|reflexivity].
    + assert (P : 0 < INR (length (q :: good))) by (apply INR_pos; simpl; lia). assert (P' : 0 < INR (length all)) by (apply INR_pos; destruct all; [discriminate|simpl; lia]).
      unfold Rltb. destruct (Rlt_dec 0 (INR (length (q :: good)))); [|contradiction]. destruct (Rlt_dec 0 (INR (length all))); [|contradiction]. simpl andb. destruct (Rleb _ _); reflexivity.
  - apply IH. replace (S k) with (1 + k)%nat by lia. clear -Q. revert k Q. induction ids as [|a ids IHi]; intros k Q; [destruct k; discriminate|]. destruct k; simpl in *; [congruence|]. apply IHi. exact Q.
Qed.

(** ** Tiles *)
Lemma dated_spec date start stop l : (forall t, In t l -> exists d, date (tl_name t) = Ok d) ->
  exists q, dated date start stop l = Ok q /\ (forall d im, In (d, im) q -> in_limits start stop d) /\
    (forall d, In d (map fst q) <-> in_limits start stop d /\ exists t, In t l /\ date (tl_name t) = Ok d) /\
    (forall d, in_limits start stop d -> exists sel, chosen (fun t => date (tl_name t) = Ok d) l sel /\ map snd (filter (fun p => (fst p =? d)%Z) q) = map tl_image sel).
Proof.
  induction l as [|t l IH]; intro H.
  - exists []. split; [reflexivity|]. split; [intros ? ? []|]. split; [intro d; split; [intros []|intros (_ & t & [] & _)]|]. intros d _. exists []. split; [constructor|reflexivity].
  - destruct IH as (q & E & A & B & C); [intros; apply H; right; assumption|]. destruct (H t (or_introl eq_refl)) as (d0 & E0). simpl. rewrite E0, E. simpl. eexists. split; [reflexivity|].
    destruct (out_of_period start stop d0) eqn:O.
    + assert (NL : ~ in_limits start stop d0) by (intro L; apply out_of_period_spec in L; congruence). split; [exact A|]. split.
      * intro d. rewrite B. split; [intros (L & t' & I & Q); split; [exact L|]; exists t'; split; [right; exact I|exact Q]|].
        intros (L & t' & [<-|I] & Q); [exfalso; apply NL; assert (d0 = d) as -> by congruence; exact L|]. split; [exact L|]. exists t'. auto.
      * intros d L. destruct (C d L) as (sel & Cs & Q). exists sel. split; [|exact Q]. apply CSkip; [|exact Cs]. intro X. apply NL. assert (d0 = d) as -> by congruence. exact L.
    + apply out_of_period_spec in O. split; [intros d im [Q|I]; [injection Q as <- _; exact O|exact (A d im I)]|]. split.
      * intro d. simpl. rewrite B. split; [intros [<-|(L & t' & I & Q)]; [split; [exact O|exists t; split; [left; reflexivity|exact E0]]|split; [exact L|]; exists t'; split; [right; exact I|exact Q]]|].
        intros (L & t' & [<-|I] & Q); [left; congruence|right]. split; [exact L|]. exists t'. auto.
      * intros d L. destruct (C d L) as (sel & Cs & Q). simpl. destruct (Z.eqb_spec d0 d) as [-> |Ne].
        -- exists (t :: sel). split; [apply CTake; assumption|]. simpl. rewrite Q. reflexivity.
        -- exists sel. split; [apply CSkip; [congruence|exact Cs]|exact Q].
Qed.
Lemma over_length a b n : length a = n -> length b = n -> length (over a b) = n.
Proof. intros A B. unfold over. rewrite map_length, combine_length. lia. Qed.
Lemma over_nth a b k n : length a = n -> length b = n -> (k < n)%nat -> exists x y, nth_error a k = Some x /\ nth_error b k = Some y /\ nth_error (over a b) k = Some (match x with Some v => Some v | None => y end).
Proof.
  intros A B K. destruct (nth_error a k) as [x|] eqn:Ea; [|apply nth_error_None in Ea; lia]. destruct (nth_error b k) as [y|] eqn:Eb; [|apply nth_error_None in Eb; lia].
  exists x, y. repeat split. assert (Q : nth_error (combine a b) k = Some (x, y)).
  { clear A B K. revert b k Ea Eb. induction a as [|a0 a IH]; intros b k Ea Eb; [destruct k; discriminate|]. destruct b as [|b0 b]; [destruct k; discriminate|]. destruct k; simpl in *; [congruence|]. apply IH; assumption. }
  exact (map_nth_error (fun p : value * value => match fst p with Some x => Some x | None => snd p end) k _ Q).
Qed.
Lemma fold_over n : forall r a, length a = n -> (forall b, In b r -> length b = n) ->
  length (fold_left over r a) = n /\ forall k v, nth_error (fold_left over r a) k = Some v -> first_value (a :: r) k v.
Proof.
  induction r as [|b r IH]; intros a A B.
  - simpl. split; [exact A|]. intros k v H. destruct v as [x|]; [left; exists [], a, [], x; repeat split; auto; intros ? []|right; split; [intros c [<-|[]]; exact H|reflexivity]].
  - simpl. assert (Lb : length b = n) by (apply B; left; reflexivity). destruct (IH (over a b) (over_length a b n A Lb) (fun c I => B c (or_intror I))) as (L & F). split; [exact L|]. intros k v H. specialize (F k v H).
    assert (K : (k < n)%nat) by (rewrite <- L; apply nth_error_Some; congruence). destruct (over_nth a b k n A Lb K) as (x & y & Ea & Eb & Eo).
    destruct F as [(before & im & after & w & Q & Hi & Hb & ->)|(Hn & ->)].
    + destruct before as [|c before]; simpl in Q; injection Q as <- ->.
      * rewrite Hi in Eo. injection Eo as Eo. destruct x as [x|]; [injection Eo as ->; left; exists [], a, (b :: after), x; repeat split; auto; intros ? []|]. subst y.
        left. exists [a], b, after, w. repeat split; auto. intros c [<-|[]]; exact Ea.
      * pose proof (Hb _ (or_introl eq_refl)) as Hc. rewrite Hc in Eo. injection Eo as Eo. destruct x; [discriminate|]. subst y.
        left. exists (a :: b :: before), im, after, w. repeat split; auto. intros c' [<-|[<-|I]]; [exact Ea|exact Eb|]. apply Hb. right. exact I.
    + right. split; [|reflexivity]. pose proof (Hn _ (or_introl eq_refl)) as Hc. rewrite Hc in Eo. injection Eo as Eo. destruct x; [discriminate|]. subst y.
      intros c [<-|[<-|I]]; [exact Ea|exact Eb|]. apply Hn. right. exact I.
Qed.
Lemma mosaic_spec n l : l <> [] -> (forall b, In b l -> length b = n) -> mosaic_of n l (mosaic l).
Proof. intros Ne H. destruct l as [|a r]; [congruence|]. simpl. destruct (fold_over n r a (H a (or_introl eq_refl)) (fun b I => H b (or_intror I))) as (A & B). split; assumption. Qed.
Lemma modis_stack_spec n date start stop l : (forall t, In t l -> length (tl_image t) = n) -> (forall t, In t l -> exists d, date (tl_name t) = Ok d) ->
  exists q, dated date start stop l = Ok q /\ images_of n date start stop l (modis_stack q).
Proof.
  intros Ln H. destruct (dated_spec date start stop l H) as (q & E & A & B & C). exists q. split; [exact E|].
  destruct (unique_sorted_spec (map fst q)) as (So & Iu). assert (M : map fst (modis_stack q) = unique_sorted (map fst q)) by (unfold modis_stack; rewrite map_map; simpl; apply map_id).
  split; [rewrite M; exact So|]. split; [intro d; rewrite M, Iu; apply B|]. intros d img I. unfold modis_stack in I. apply in_map_iff in I. destruct I as (d' & Q & I). injection Q as -> <-.
  apply Iu in I. pose proof (proj1 (B d) I) as (L & t & It & Et). destruct (C d L) as (sel & Cs & Qs). exists sel. split; [exact Cs|]. rewrite Qs. apply mosaic_spec.
  - intro Z'. apply map_eq_nil in Z'. subst. assert (In t []) as []. apply (chosen_in _ _ _ t Cs). auto.
  - intros b Ib. apply in_map_iff in Ib. destruct Ib as (t' & <- & It'). apply Ln. apply (chosen_in _ _ _ t' Cs) in It'. tauto.
Qed.
Lemma dated_throw date start stop l t : In t l -> date (tl_name t) = Throw -> (forall t', In t' l -> date (tl_name t') <> UB) -> dated date start stop l = Throw.
Proof.
  induction l as [|t0 l IH]; intros I E N; [contradiction|]. simpl. destruct (date (tl_name t0)) as [d| |] eqn:Q; [|reflexivity|exfalso; exact (N t0 (or_introl eq_refl) Q)]. simpl.
  destruct I as [-> |I]; [congruence|]. rewrite IH by (try assumption; intros; apply N; right; assumption). reflexivity.
Qed.
