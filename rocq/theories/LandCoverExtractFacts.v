(** Facts about the land cover fractions from maps. *)
From Coq Require Import Permutation Sorted.
From Verif Require Import BaseFacts LandCoverExtractSpec.
Open Scope R_scope.

Lemma is_alias_spec s : is_alias s = true <-> generic_word s.
Proof. unfold is_alias, generic_word. rewrite existsb_exists. split; [intros (x & I & E); apply String.eqb_eq in E; subst; exact I|intro I; exists s; split; [exact I|apply String.eqb_refl]]. Qed.
Lemma soil_spec c : (is_alias (fst c) || is_alias (snd c))%bool = true <-> soil c.
Proof. unfold soil. rewrite Bool.orb_true_iff, !is_alias_spec. tauto. Qed.
Lemma rest_generic covers g : rest_cover covers g -> generic_name covers = Ok g.
Proof.
  intros (before & type & after & -> & S1 & B). unfold generic_name. assert (E : find (fun c => (is_alias (fst c) || is_alias (snd c))%bool) (before ++ (g, type) :: after) = Some (g, type)); [|rewrite E; reflexivity].
  induction before as [|c before IH]; cbn [app find].
  - rewrite (proj2 (soil_spec (g, type)) S1). reflexivity.
  - destruct (is_alias (fst c) || is_alias (snd c))%bool eqn:E; [exfalso; apply (B c (or_introl eq_refl)); apply soil_spec; exact E|]. apply IH. intros d I. apply B. right. exact I.
Qed.
Lemma rest_more covers g l : rest_cover covers g -> rest_cover (covers ++ l) g.
Proof. intros (b & t & a & -> & S1 & B). exists b, t, (a ++ l). rewrite <- app_assoc. auto. Qed.
Lemma rest_in covers g : rest_cover covers g -> In g (map fst covers).
Proof. intros (b & t & a & -> & _). rewrite map_app. apply in_or_app. right. left. reflexivity. Qed.

(** ** One unit *)
Lemma set_same u n x : cu_frac (set_frac u n x) n = x.
Proof. simpl. rewrite String.eqb_refl. reflexivity. Qed.
Lemma set_other u n x s : s <> n -> cu_frac (set_frac u n x) s = cu_frac u s.
Proof. intro N. simpl. apply String.eqb_neq in N. rewrite N. reflexivity. Qed.
Definition moved (g n : string) (x : R) (u : cunit) : cunit := set_frac (set_frac u n x) g (cu_frac (set_frac u n x) g - x).
Lemma update_ok g n a u : n <> g -> 0 < cu_area u -> 0 <= a <= cu_area u -> a / cu_area u <= cu_frac u g -> update_unit g n a u = Ok (moved g n (a / cu_area u) u).
Proof.
  intros N P B L. unfold update_unit. destruct (Req_EM_T (cu_area u) 0); [lra|]. assert (F : 0 <= a / cu_area u <= 1). { split; [apply Rle_mult_inv_pos; tauto|]. apply Rmult_le_reg_r with (cu_area u); [assumption|]. unfold Rdiv. rewrite Rmult_assoc, Rinv_l by lra. lra. }
  unfold Rleb, Rltb. destruct (Rle_dec 0 (a / cu_area u)); [|lra]. destruct (Rle_dec (a / cu_area u) 1); [|lra]. cbn [andb negb]. rewrite set_same. rewrite set_other by (intro Q; apply N; symmetry; exact Q).
  destruct (Rlt_dec _ _); [lra|]. unfold moved. rewrite set_other by (intro Q; apply N; symmetry; exact Q). reflexivity.
Qed.
Lemma update_inv g n a u u' : update_unit g n a u = Ok u' -> cu_area u <> 0 /\ 0 <= a / cu_area u <= 1 /\ u' = moved g n (a / cu_area u) u /\ - (1 / 100000000) <= cu_frac u' g.
Proof.
  unfold update_unit. destruct (Req_EM_T (cu_area u) 0); [discriminate|]. unfold Rleb, Rltb. destruct (Rle_dec 0 (a / cu_area u)); [|discriminate]. destruct (Rle_dec (a / cu_area u) 1); [|discriminate]. cbn [andb negb]. destruct (Rlt_dec _ _) as [|G]; [discriminate|]. intro Q. injection Q as <-.
  split; [assumption|]. split; [lra|]. split; [reflexivity|]. unfold moved. apply Rnot_lt_le. exact G.
Qed.

(** ** The rows of a table *)
Fixpoint row_of (id : Z) (rows : list (Z * R)) : option R := match rows with [] => None | (i, a) :: r => if (i =? id)%Z then Some a else row_of id r end.
Lemma row_in id rows a : row_of id rows = Some a -> In (id, a) rows.
Proof. induction rows as [|(i & b) rows IH]; simpl; [discriminate|]. destruct (i =? id)%Z eqn:E; [apply Z.eqb_eq in E; intro Q; injection Q as ->; subst; auto|auto]. Qed.
Lemma row_none id rows : row_of id rows = None <-> ~ In id (map fst rows).
Proof. induction rows as [|(i & b) rows IH]; simpl; [tauto|]. destruct (i =? id)%Z eqn:E; [apply Z.eqb_eq in E; split; [discriminate|tauto]|]. apply Z.eqb_neq in E. rewrite IH. tauto. Qed.
Definition moved_rows (g n : string) (rows : list (Z * R)) (u : cunit) : cunit := match row_of (cu_id u) rows with Some a => moved g n (a / cu_area u) u | None => u end.
Lemma moved_id g n x u : cu_id (moved g n x u) = cu_id u.
Proof. reflexivity. Qed.
Lemma moved_rows_id g n rows u : cu_id (moved_rows g n rows u) = cu_id u.
Proof. unfold moved_rows. destruct (row_of _ _); reflexivity. Qed.
Lemma moved_rows_area g n rows u : cu_area (moved_rows g n rows u) = cu_area u.
Proof. unfold moved_rows. destruct (row_of _ _); reflexivity. Qed.
Lemma update_first_ok g n id a us : NoDup (map cu_id us) -> In id (map cu_id us) -> (forall u, In u us -> cu_id u = id -> update_unit g n a u = Ok (moved g n (a / cu_area u) u)) ->
  update_first g n id a us = Ok (map (moved_rows g n [(id, a)]) us).
Proof.
  induction us as [|u us IH]; intros N I H; [contradiction|]. simpl in N. inversion N as [|? ? N1 N2]; subst. simpl. unfold moved_rows at 1. simpl. rewrite (Z.eqb_sym id). destruct (cu_id u =? id)%Z eqn:E.
  - apply Z.eqb_eq in E. rewrite (H u (or_introl eq_refl) E). simpl. do 2 f_equal. clear -N1 E. induction us as [|v us IH]; [reflexivity|]. simpl. unfold moved_rows at 1. simpl. destruct (id =? cu_id v)%Z eqn:Q; [exfalso; apply N1; apply Z.eqb_eq in Q; left; congruence|]. f_equal. apply IH. intro J. apply N1. right. exact J.
  - apply Z.eqb_neq in E. destruct I as [I|I]; [contradiction|]. rewrite (IH N2 I) by (intros v J; apply H; right; exact J). reflexivity.
Qed.
Lemma map_ids g n rows us : map cu_id (map (moved_rows g n rows) us) = map cu_id us.
Proof. rewrite map_map. apply map_ext. intro u. apply moved_rows_id. Qed.
Lemma update_rows_ok g n rows us : n <> g -> NoDup (map fst rows) -> NoDup (map cu_id us) -> (forall id a, In (id, a) rows -> In id (map cu_id us)) ->
  (forall u a, In u us -> In (cu_id u, a) rows -> 0 < cu_area u /\ 0 <= a <= cu_area u /\ a / cu_area u <= cu_frac u g) ->
  update_rows g n rows us = Ok (map (moved_rows g n rows) us).
Proof.
  intro Ng. revert us. induction rows as [|(id & a) rows IH]; intros us Nr Nu I H; simpl.
  - f_equal. symmetry. rewrite <- (map_id us) at 2. apply map_ext. reflexivity.
  - simpl in Nr. inversion Nr as [|? ? N1 N2]; subst. rewrite (update_first_ok g n id a us Nu).
    + cbn [bind]. rewrite IH; [|exact N2|rewrite map_ids; exact Nu|intros i b J; rewrite map_ids; apply (I i b); right; exact J|].
      * f_equal. rewrite map_map. apply map_ext_in. intros u Iu. unfold moved_rows at 1. rewrite moved_rows_id. unfold moved_rows. simpl. rewrite (Z.eqb_sym id). destruct (cu_id u =? id)%Z eqn:E.
        -- apply Z.eqb_eq in E. rewrite E. rewrite (proj2 (row_none id rows) N1). reflexivity.
        -- destruct (row_of (cu_id u) rows); reflexivity.
      * intros u b Iu J. apply in_map_iff in Iu. destruct Iu as (v & <- & Iv). rewrite moved_rows_id in J. rewrite moved_rows_area. unfold moved_rows. simpl. destruct (id =? cu_id v)%Z eqn:E.
        -- exfalso. apply N1. apply Z.eqb_eq in E. rewrite E. apply in_map_iff. exists (cu_id v, b). auto.
        -- apply (H v b Iv). right. exact J.
    + apply (I id a). left. reflexivity.
    + intros u Iu E. destruct (H u a Iu) as (P & B & L); [rewrite E; left; reflexivity|]. apply update_ok; assumption.
Qed.

(** ** Sums *)
Lemma Rsum_set (l : list string) u n x : NoDup l -> In n l -> Rsum (cu_frac (set_frac u n x)) l = Rsum (cu_frac u) l - cu_frac u n + x.
Proof.
  induction l as [|s l IH]; intros N I; [contradiction|]. inversion N as [|? ? N1 N2]; subst. cbn [Rsum]. destruct I as [->|I].
  - rewrite set_same. assert (E : Rsum (cu_frac (set_frac u n x)) l = Rsum (cu_frac u) l); [|rewrite E; lra]. clear -N1. induction l as [|s l IH]; [reflexivity|]. cbn [Rsum]. rewrite IH by (intro J; apply N1; right; exact J). rewrite set_other by (intros ->; apply N1; left; reflexivity). reflexivity.
  - rewrite (IH N2 I). rewrite set_other by (intros ->; contradiction). lra.
Qed.
Lemma moved_sum l g n x u : NoDup l -> In n l -> In g l -> n <> g -> Rsum (cu_frac (moved g n x u)) l = Rsum (cu_frac u) l - cu_frac u n.
Proof.
  intros N I J D. unfold moved. rewrite Rsum_set by assumption. rewrite Rsum_set by assumption. rewrite set_other by congruence. lra.
Qed.

(** ** The areas of the classes *)
Definition val (l : cover_areas) (n : string) (id : Z) : R :=
  match find (fun p => (fst p =? n)%string) l with Some p => match row_of id (snd p) with Some a => a | None => 0 end | None => 0 end.
Lemma add_area_row id a l i : row_of i (add_area id a l) = if (id =? i)%Z then Some (match row_of i l with Some x => x | None => 0 end + a) else row_of i l.
Proof.
  induction l as [|(j & x) l IH]; simpl; [destruct (id =? i)%Z; reflexivity|]. destruct (j =? id)%Z eqn:E; simpl.
  - apply Z.eqb_eq in E. subst j. destruct (id =? i)%Z; reflexivity.
  - rewrite IH. destruct (j =? i)%Z eqn:E'; [|reflexivity]. apply Z.eqb_eq in E'. subst j. rewrite (Z.eqb_sym id i), E. reflexivity.
Qed.
Lemma add_area_ids id a l : NoDup (map fst l) -> NoDup (map fst (add_area id a l)) /\ forall i, In i (map fst (add_area id a l)) <-> i = id \/ In i (map fst l).
Proof.
  induction l as [|(j & x) l IH]; simpl; intro N.
  - split; [constructor; [intros []|constructor]|]. intro i. split; [intros [->|[]]; auto|intros [->|[]]; auto].
  - inversion N as [|? ? N1 N2]; subst. destruct (j =? id)%Z eqn:E; simpl.
    + apply Z.eqb_eq in E. subst j. split; [exact N|]. intro i. intuition (subst; auto).
    + apply Z.eqb_neq in E. destruct (IH N2) as (A & B). split; [constructor; [|exact A]; intro I; apply B in I; destruct I; [congruence|contradiction]|]. intro i. rewrite B. tauto.
Qed.
Lemma add_cover_val n id a l n' i : val (add_cover_area n id a l) n' i = val l n' i + if ((n =? n')%string && (id =? i)%Z)%bool then a else 0.
Proof.
  unfold val. induction l as [|(m & x) l IH]; simpl.
  - destruct (n =? n')%string; simpl; [|lra]. destruct (id =? i)%Z; lra.
  - destruct (m =? n)%string eqn:E; simpl.
    + apply String.eqb_eq in E. subst m. destruct (n =? n')%string; simpl; [|lra]. rewrite add_area_row. destruct (id =? i)%Z; [destruct (row_of i x); lra|lra].
    + destruct (m =? n')%string eqn:E'; [|exact IH]. apply String.eqb_eq in E'. subst m. rewrite (String.eqb_sym n n'), E. simpl. lra.
Qed.
(** Names once, in each the ids once and of cells of units. *)
Definition proper (ids : list Z) (l : cover_areas) : Prop := NoDup (map fst l) /\ forall n rows, In (n, rows) l -> NoDup (map fst rows) /\ forall i, In i (map fst rows) -> In i ids /\ i <> 0%Z.
Lemma add_cover_names n id a l : NoDup (map fst l) -> NoDup (map fst (add_cover_area n id a l)) /\ forall m, In m (map fst (add_cover_area n id a l)) <-> m = n \/ In m (map fst l).
Proof.
  induction l as [|(j & x) l IH]; simpl; intro N.
  - split; [constructor; [intros []|constructor]|]. intro i. split; [intros [->|[]]; auto|intros [->|[]]; auto].
  - inversion N as [|? ? N1 N2]; subst. destruct (j =? n)%string eqn:E; simpl.
    + apply String.eqb_eq in E. subst j. split; [exact N|]. intro i. intuition (subst; auto).
    + apply String.eqb_neq in E. destruct (IH N2) as (A & B). split; [constructor; [|exact A]; intro I; apply B in I; destruct I; [congruence|contradiction]|]. intro i. rewrite B. tauto.
Qed.
Lemma add_cover_rows n id a l m rows : In (m, rows) (add_cover_area n id a l) -> In (m, rows) l \/ exists x, rows = add_area id a x /\ (x = [] \/ In (m, x) l).
Proof.
  induction l as [|(j & x) l IH]; simpl; intro I.
  - destruct I as [I|[]]. injection I as <- <-. right. exists []. auto.
  - destruct (j =? n)%string; simpl in I; destruct I as [I|I]; auto.
    + injection I as <- <-. right. exists x. auto.
    + destruct (IH I) as [J|(y & E & [J|J])]; [auto|right; exists y; auto|right; exists y; auto].
Qed.
Lemma add_cover_proper ids n id a l : proper ids l -> In id ids -> id <> 0%Z -> proper ids (add_cover_area n id a l).
Proof.
  intros (N & P) I Z0. split; [apply add_cover_names; exact N|]. intros m rows J. apply add_cover_rows in J. destruct J as [J|(x & -> & J)]; [exact (P m rows J)|]. destruct J as [->|J].
  - simpl. split; [constructor; [intros []|constructor]|]. intros i [<-|[]]. auto.
  - destruct (P m x J) as (A & B). destruct (add_area_ids id a x A) as (C & D). split; [exact C|]. intros i K. apply D in K. destruct K as [->|K]; auto.
Qed.
Lemma insert_z_in x l y : In y (insert_z x l) <-> y = x \/ In y l.
Proof.
  induction l as [|z l IH]; simpl; [intuition|]. destruct (x <? z)%Z; simpl; [intuition|]. destruct (x =? z)%Z eqn:E; simpl; [apply Z.eqb_eq in E; subst; intuition (subst; auto)|]. rewrite IH. intuition.
Qed.
Lemma insert_z_sorted x l : StronglySorted Z.lt l -> StronglySorted Z.lt (insert_z x l).
Proof.
  induction 1 as [|z l H IH F]; simpl; [constructor; [constructor|constructor]|]. rewrite Forall_forall in F. destruct (x <? z)%Z eqn:E.
  - apply Z.ltb_lt in E. constructor; [constructor; [exact H|rewrite Forall_forall; exact F]|]. rewrite Forall_forall. intros y [<-|I]; [exact E|specialize (F y I); lia].
  - apply Z.ltb_ge in E. destruct (x =? z)%Z eqn:E'; [constructor; [exact H|rewrite Forall_forall; exact F]|]. apply Z.eqb_neq in E'. constructor; [exact IH|]. rewrite Forall_forall. intros y I. apply insert_z_in in I. destruct I as [->|I]; [lia|auto].
Qed.
Lemma unique_in l x : In x (unique_z l) <-> In x l.
Proof. induction l as [|y l IH]; simpl; [tauto|]. rewrite insert_z_in, IH. intuition. Qed.
Lemma unique_nodup l : NoDup (unique_z l).
Proof.
  assert (S1 : StronglySorted Z.lt (unique_z l)) by (induction l; simpl; [constructor|apply insert_z_sorted; assumption]). induction S1 as [|x l' H IH F]; constructor; [|exact IH]. intro I. rewrite Forall_forall in F. specialize (F x I). lia.
Qed.
Lemma count_zero x l : ~ In x l -> count_z x l = 0.
Proof. intro N. unfold count_z. replace (filter _ l) with (@nil Z); [reflexivity|]. symmetry. induction l as [|y l IH]; [reflexivity|]. simpl. destruct (y =? x)%Z eqn:E; [exfalso; apply N; left; apply Z.eqb_eq; exact E|]. apply IH. intro I. apply N. right. exact I. Qed.
Lemma fold_ids_val n (f : Z -> R) ks l n' i : NoDup ks -> val (fold_left (fun acc id => add_cover_area n id (f id) acc) ks l) n' i = val l n' i + if (n =? n')%string then (if in_dec Z.eq_dec i ks then f i else 0) else 0.
Proof.
  revert l. induction ks as [|k ks IH]; intros l N; simpl; [destruct (n =? n')%string; lra|]. inversion N as [|? ? N1 N2]; subst. rewrite (IH _ N2), add_cover_val. destruct (n =? n')%string; simpl; [|lra]. destruct (k =? i)%Z eqn:E.
  - apply Z.eqb_eq in E. subst k. destruct (in_dec Z.eq_dec i ks); [contradiction|]. destruct (Z.eq_dec i i); [lra|congruence].
  - apply Z.eqb_neq in E. destruct (Z.eq_dec k i); [congruence|]. destruct (in_dec Z.eq_dec i ks); lra.
Qed.
Lemma masked_in ids classes c i : In i (masked_ids ids classes c) -> In i ids.
Proof. unfold masked_ids. intro I. apply in_map_iff in I. destruct I as ((j & d) & <- & I). apply filter_In in I. destruct I as (I & _). exact (in_combine_l _ _ _ _ I). Qed.
Lemma class_val px ids classes acc p n i : i <> 0%Z -> val (areas_of_class px ids classes acc p) n i = val acc n i + if (snd p =? n)%string then count_z i (masked_ids ids classes (class_of (fst p))) * px else 0.
Proof.
  intro Z0. unfold areas_of_class. rewrite (fold_ids_val _ (fun id => count_z id (masked_ids ids classes (class_of (fst p))) * px)) by (apply NoDup_filter, unique_nodup). destruct (snd p =? n)%string; [|lra]. destruct (in_dec _ _ _) as [I|N]; [reflexivity|].
  rewrite count_zero; [lra|]. intro I. apply N. apply filter_In. split; [apply unique_in; exact I|]. apply Z.eqb_neq in Z0. rewrite Z0. reflexivity.
Qed.
Lemma fold_ids_proper ids n (f : Z -> R) ks l : proper ids l -> (forall k, In k ks -> In k ids /\ k <> 0%Z) -> proper ids (fold_left (fun acc id => add_cover_area n id (f id) acc) ks l).
Proof. revert l. induction ks as [|k ks IH]; intros l P H; simpl; [exact P|]. apply IH; [apply add_cover_proper; [exact P|apply H; left; reflexivity|apply H; left; reflexivity]|]. intros j I. apply H. right. exact I. Qed.
Lemma areas_proper px ids classes m acc : proper ids acc -> proper ids (fold_left (areas_of_class px ids classes) m acc).
Proof.
  revert acc. induction m as [|p m IH]; intros acc P; simpl; [exact P|]. apply IH. unfold areas_of_class. apply (fold_ids_proper ids (snd p) (fun id => count_z id (masked_ids ids classes (class_of (fst p))) * px)); [exact P|]. intros k I. apply filter_In in I. destruct I as (I & N). split; [apply (masked_in ids classes (class_of (fst p))); apply unique_in; exact I|]. intros ->. discriminate.
Qed.
Lemma areas_val px ids classes m acc n i : i <> 0%Z -> val (fold_left (areas_of_class px ids classes) m acc) n i = val acc n i + Rsum (fun p => if (snd p =? n)%string then count_z i (masked_ids ids classes (class_of (fst p))) * px else 0) m.
Proof. intro Z0. revert acc. induction m as [|p m IH]; intro acc; simpl; [lra|]. rewrite IH, class_val by exact Z0. lra. Qed.
(** With each class once, these are the cells that are mapped to the cover. *)
Lemma masked_count ids classes c i : count_z i (masked_ids ids classes c) = cells ids classes (Z.eqb c) i.
Proof.
  unfold count_z, masked_ids, cells. f_equal. revert classes. induction ids as [|z ids IH]; intros [|d classes]; try reflexivity. simpl. rewrite (Z.eqb_sym c d). destruct (d =? c)%Z; simpl; [destruct (z =? i)%Z; simpl; rewrite IH; reflexivity|]. rewrite Bool.andb_false_r. apply IH.
Qed.
Lemma cells_cons ids z {A} (values : list A) v P i : cells (z :: ids) (v :: values) P i = (if ((z =? i)%Z && P v)%bool then 1 else 0) + cells ids values P i.
Proof. unfold cells. cbn [combine filter fst snd]. destruct ((z =? i)%Z && P v)%bool; cbn [length]; [rewrite S_INR|]; lra. Qed.
Lemma one_class (m : mapping) n c : NoDup (map (fun p => class_of (fst p)) m) -> Rsum (fun p => if (snd p =? n)%string then (if (class_of (fst p) =? c)%Z then 1 else 0) else 0) m = if mapped_to m n c then 1 else 0.
Proof.
  induction m as [|p m IH]; simpl; intro N; [reflexivity|]. inversion N as [|? ? N1 N2]; subst. rewrite (IH N2). unfold mapped_to. simpl. destruct (class_of (fst p) =? c)%Z eqn:E; simpl; [|destruct (snd p =? n)%string; lra].
  apply Z.eqb_eq in E. assert (F : existsb (fun p => ((class_of (fst p) =? c)%Z && (snd p =? n)%string)%bool) m = false); [|rewrite F; destruct (snd p =? n)%string; simpl; lra].
  destruct (existsb _ m) eqn:Q; [|reflexivity]. exfalso. apply existsb_exists in Q. destruct Q as (q & I & Q). apply Bool.andb_true_iff in Q. destruct Q as (Q & _). apply Z.eqb_eq in Q. apply N1. apply in_map_iff. exists q. split; [congruence|exact I].
Qed.
Lemma cells_sum ids classes (m : mapping) n i : NoDup (map (fun p => class_of (fst p)) m) -> Rsum (fun p => if (snd p =? n)%string then cells ids classes (Z.eqb (class_of (fst p))) i else 0) m = cells ids classes (mapped_to m n) i.
Proof.
  intro N. revert classes. induction ids as [|z ids IH]; intros classes.
  - unfold cells. simpl. induction m as [|p m IHm]; [reflexivity|]. simpl in N. inversion N; subst. cbn [Rsum]. rewrite IHm by assumption. destruct (snd p =? n)%string; simpl; lra.
  - destruct classes as [|c classes].
    + unfold cells. simpl. clear IH. induction m as [|p m IHm]; [reflexivity|]. simpl in N. inversion N; subst. cbn [Rsum]. rewrite IHm by assumption. destruct (snd p =? n)%string; simpl; lra.
    + rewrite cells_cons. rewrite <- IH. transitivity (Rsum (fun p : class_key * string => (if (z =? i)%Z then 1 else 0) * (if (snd p =? n)%string then (if (class_of (fst p) =? c)%Z then 1 else 0) else 0) + (if (snd p =? n)%string then cells ids classes (Z.eqb (class_of (fst p))) i else 0)) m).
      * clear. induction m as [|p m IH]; [reflexivity|]. cbn [Rsum]. rewrite IH. f_equal. destruct (snd p =? n)%string; [|destruct (z =? i)%Z; lra]. rewrite cells_cons. destruct (z =? i)%Z; simpl; [destruct (class_of (fst p) =? c)%Z; lra|lra].
      * assert (E : forall (f h : class_key * string -> R) k l, Rsum (fun p => k * f p + h p) l = k * Rsum f l + Rsum h l) by (clear; intros f h k l; induction l as [|p l IH]; simpl; [lra|rewrite IH; lra]).
        rewrite E, (one_class m n c N). destruct (z =? i)%Z, (mapped_to m n c); simpl; lra.
Qed.
Lemma grid_val px ids classes m n i : i <> 0%Z -> NoDup (map (fun p => class_of (fst p)) m) -> val (areas_from_class_grid px ids classes m) n i = cells ids classes (mapped_to m n) i * px.
Proof.
  intros Z0 N. unfold areas_from_class_grid. rewrite (areas_val px ids classes m [] n i Z0). rewrite <- (cells_sum ids classes m n i N). unfold val. simpl. rewrite Rplus_0_l. clear. induction m as [|p m IH]; simpl; [lra|]. rewrite IH. destruct (snd p =? n)%string; [rewrite masked_count|]; lra.
Qed.
Lemma cells_pos ids {A} (values : list A) P i : 0 <= cells ids values P i.
Proof. apply pos_INR. Qed.
(** Different covers have different cells. *)
Lemma cells_disjoint ids classes (m : mapping) names i : NoDup (map (fun p => class_of (fst p)) m) -> NoDup names -> Rsum (fun n => cells ids classes (mapped_to m n) i) names <= cells ids classes (fun _ => true) i.
Proof.
  intros N Nn. revert classes. induction ids as [|z ids IH]; intros classes.
  - unfold cells. simpl. clear. induction names; simpl; lra.
  - destruct classes as [|c classes]; [unfold cells; simpl; clear; induction names; simpl; lra|]. rewrite cells_cons. specialize (IH classes).
    assert (E : Rsum (fun n => cells (z :: ids) (c :: classes) (mapped_to m n) i) names = Rsum (fun n => if ((z =? i)%Z && mapped_to m n c)%bool then 1 else 0) names + Rsum (fun n => cells ids classes (mapped_to m n) i) names) by (clear; induction names as [|n names IH]; simpl; [lra|rewrite IH, cells_cons; lra]).
    rewrite E. assert (B : Rsum (fun n => if ((z =? i)%Z && mapped_to m n c)%bool then 1 else 0) names <= if ((z =? i)%Z && true)%bool then 1 else 0); [|lra]. destruct (z =? i)%Z; simpl; [|clear; induction names; simpl; lra].
    assert (U : forall n n', mapped_to m n c = true -> mapped_to m n' c = true -> n = n').
    { intros n n' A B. apply existsb_exists in A, B. destruct A as (p & I & A), B as (q & J & B). apply Bool.andb_true_iff in A, B. destruct A as (A & A'), B as (B & B'). apply Z.eqb_eq in A, B. apply String.eqb_eq in A', B'. subst n n'. f_equal.
      clear -N I J A B. induction m as [|r m IH]; [contradiction|]. simpl in N. inversion N as [|? ? N1 N2]; subst. destruct I as [I|I], J as [J|J]; subst; auto; exfalso; apply N1; apply in_map_iff; eexists; (split; [|eassumption]); congruence. }
    assert (Z1 : forall l, (forall n, In n l -> mapped_to m n c = false) -> Rsum (fun n => if mapped_to m n c then 1 else 0) l = 0) by (clear; induction l as [|n l IH]; intro H; simpl; [reflexivity|]; rewrite (H n) by (left; reflexivity); rewrite IH; [lra|intros k I; apply H; right; exact I]).
    clear -Nn U Z1. induction names as [|n names IH]; simpl; [lra|]. inversion Nn as [|? ? N1 N2]; subst. destruct (mapped_to m n c) eqn:E; [|specialize (IH N2); lra]. rewrite Z1; [lra|]. intros k I. destruct (mapped_to m k c) eqn:Q; [|reflexivity]. exfalso. apply N1. rewrite (U n k E Q). exact I.
Qed.
Lemma cells_all ids {A B} (v : list A) (w : list B) i : length v = length ids -> length w = length ids -> cells ids v (fun _ => true) i = cells ids w (fun _ => true) i.
Proof.
  intros L L'. unfold cells. f_equal. revert v w L L'. induction ids as [|z ids IH]; intros [|a v] [|b w] L L'; try discriminate; [reflexivity|]. simpl. injection L as L. injection L' as L'. rewrite !Bool.andb_true_r. destruct (z =? i)%Z; simpl; rewrite (IH v w L L'); reflexivity.
Qed.
