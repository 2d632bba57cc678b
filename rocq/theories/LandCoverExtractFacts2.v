(** Facts about the land cover fractions from maps: the covers one after the other. *)
From Coq Require Import Permutation Sorted.
From Verif Require Import BaseFacts LandCoverExtractSpec LandCoverExtractFacts.
Open Scope R_scope.

(** [sh n i]: the area of the cover in the unit; [D]: the covers that were set. *)
Definition shares_fit (sh : string -> Z -> R) (us : list cunit) : Prop :=
  (forall n i, 0 <= sh n i) /\ forall u names, In u us -> NoDup names -> Rsum (fun n => sh n (cu_id u)) names <= cu_area u.
Record progress (sh : string -> Z -> R) (g : string) (D : list string) (hs : cover_units) : Prop := mkProgress {
  pg_names : NoDup (map fst (cu_covers hs));
  pg_ids : NoDup (map cu_id (cu_units hs));
  pg_rest : rest_cover (cu_covers hs) g;
  pg_area : forall u, In u (cu_units hs) -> 0 < cu_area u /\ cu_id u <> 0%Z;
  pg_fit : shares_fit sh (cu_units hs);
  pg_sum : forall u, In u (cu_units hs) -> Rsum (cu_frac u) (map fst (cu_covers hs)) = 1;
  pg_done : NoDup D;
  pg_own : forall n, In n D -> exists type, In (n, type) (cu_covers hs) /\ ~ soil (n, type);
  pg_g : forall u, In u (cu_units hs) -> cu_frac u g = 1 - Rsum (fun n => sh n (cu_id u) / cu_area u) D;
  pg_frac : forall u n, In u (cu_units hs) -> In n (map fst (cu_covers hs)) -> n <> g -> cu_frac u n = if in_dec string_dec n D then sh n (cu_id u) / cu_area u else 0 }.

Lemma same_cover (l : list (string * string)) n t t' : NoDup (map fst l) -> In (n, t) l -> In (n, t') l -> t = t'.
Proof.
  induction l as [|(i & v) l IH]; intros N I J; [contradiction|]. simpl in N. inversion N as [|? ? N1 N2]; subst. destruct I as [I|I], J as [J|J].
  - congruence.
  - injection I as -> ->. exfalso. apply N1. apply in_map_iff. exists (n, t'). auto.
  - injection J as -> ->. exfalso. apply N1. apply in_map_iff. exists (n, t). auto.
  - apply IH; assumption.
Qed.
Lemma own_not_rest covers g n t : NoDup (map fst covers) -> rest_cover covers g -> In (n, t) covers -> ~ soil (n, t) -> n <> g.
Proof. intros N (b & tg & a & -> & S1 & _) I S2 ->. apply S2. replace t with tg; [exact S1|]. apply (same_cover _ g tg t N); [apply in_or_app; right; left; reflexivity|exact I]. Qed.
Lemma Rsum_scaled {A} (f : A -> R) k l : Rsum (fun n => f n / k) l = Rsum f l / k.
Proof. induction l as [|a l IH]; simpl; [unfold Rdiv; lra|]. rewrite IH. unfold Rdiv. lra. Qed.
Lemma share_le a k : 0 < k -> a <= k -> a / k <= 1.
Proof. intros P L. apply Rmult_le_reg_r with k; [exact P|]. unfold Rdiv. rewrite Rmult_assoc, Rinv_l by lra. lra. Qed.
Lemma progress_whole sh g D hs u : progress sh g D hs -> In u (cu_units hs) -> whole (cu_covers hs) u.
Proof.
  intros [N1 N2 Rg Ar (F0 & F1) Sm Dn Ow Gg Fr] I. split; [exact (Sm u I)|]. intros n J. destruct (Ar u I) as (P & _). destruct (string_dec n g) as [->|Q].
  - rewrite (Gg u I), Rsum_scaled. pose proof (share_le _ _ P (F1 u D I Dn)). lra.
  - rewrite (Fr u n I J Q). destruct (in_dec string_dec n D); [|lra]. apply Rle_mult_inv_pos; [apply F0|exact P].
Qed.

(** One cover. *)
Lemma set_cover sh g D hs n type rows : progress sh g D hs -> In (n, type) (cu_covers hs) -> ~ soil (n, type) -> ~ In n D ->
  NoDup (map fst rows) -> (forall id a, In (id, a) rows -> In id (map cu_id (cu_units hs))) ->
  (forall u, In u (cu_units hs) -> sh n (cu_id u) = match row_of (cu_id u) rows with Some a => a | None => 0 end) ->
  exists hs', initialize_change n rows hs = Ok hs' /\ progress sh g (n :: D) hs' /\ same_units (cu_units hs) (cu_units hs') /\ cu_covers hs' = cu_covers hs.
Proof.
  intros Pg I S1 Nd Nr Ir Hs. pose proof Pg as [N1 N2 Rg Ar (F0 & F1) Sm Dn Ow Gg Fr]. pose proof (own_not_rest _ _ _ _ N1 Rg I S1) as Ng. assert (In_n : In n (map fst (cu_covers hs))) by (apply in_map_iff; exists (n, type); auto).
  unfold initialize_change. replace (is_alias n) with false by (symmetry; destruct (is_alias n) eqn:E; [exfalso; apply S1; left; apply is_alias_spec; exact E|reflexivity]). rewrite (rest_generic _ _ Rg). cbn [bind].
  assert (Fit : forall u, In u (cu_units hs) -> sh n (cu_id u) / cu_area u <= cu_frac u g).
  { intros u J. destruct (Ar u J) as (P & _). rewrite (Gg u J), Rsum_scaled. pose proof (share_le _ _ P (F1 u (n :: D) J (NoDup_cons n Nd Dn))) as L. cbn [Rsum] in L. unfold Rdiv in *. lra. }
  assert (Row : forall u a, In u (cu_units hs) -> In (cu_id u, a) rows -> sh n (cu_id u) = a).
  { intros u a J K. rewrite (Hs u J). destruct (row_of (cu_id u) rows) as [b|] eqn:E; [|exfalso; apply row_none in E; apply E; apply in_map_iff; exists (cu_id u, a); auto]. apply row_in in E. clear -Nr E K. induction rows as [|(i & c) rows IH]; [contradiction|]. simpl in Nr. inversion Nr as [|? ? M1 M2]; subst.
    destruct E as [E|E], K as [K|K]; [congruence| | |auto]; exfalso; apply M1; apply in_map_iff.
    - injection E as -> ->. exists (cu_id u, a). auto.
    - injection K as -> ->. exists (cu_id u, b). auto. }
  rewrite (update_rows_ok g n rows (cu_units hs) Ng Nr N2 Ir).
  2:{ intros u a J K. rewrite <- (Row u a J K). destruct (Ar u J) as (P & _). split; [exact P|]. split; [|exact (Fit u J)]. split; [apply F0|]. pose proof (F1 u [n] J) as L. cbn [Rsum] in L. assert (NoDup [n]) as Q by (constructor; [intros []|constructor]). specialize (L Q). lra. }
  cbn [bind]. eexists. split; [reflexivity|]. split; [|split; [|reflexivity]].
  2:{ simpl. clear. induction (cu_units hs) as [|u us IH]; constructor; [split; [apply moved_rows_id|apply moved_rows_area]|exact IH]. }
  assert (Mv : forall u, In u (cu_units hs) -> cu_frac (moved_rows g n rows u) n = sh n (cu_id u) / cu_area u /\ cu_frac (moved_rows g n rows u) g = cu_frac u g - sh n (cu_id u) / cu_area u /\
    forall k, k <> n -> k <> g -> cu_frac (moved_rows g n rows u) k = cu_frac u k).
  { intros u J. rewrite (Hs u J). unfold moved_rows. destruct (row_of (cu_id u) rows) as [a|].
    - unfold moved. split; [rewrite set_other by exact Ng; apply set_same|]. split; [rewrite set_same, set_other by congruence; reflexivity|]. intros k K K'. rewrite !set_other by assumption. reflexivity.
    - split; [rewrite (Fr u n J In_n Ng); destruct (in_dec string_dec n D); [contradiction|unfold Rdiv; lra]|]. split; [unfold Rdiv; lra|reflexivity]. }
  constructor; simpl; try assumption.
  - rewrite map_ids. exact N2.
  - intros v J. apply in_map_iff in J. destruct J as (u & <- & J). rewrite moved_rows_area, moved_rows_id. exact (Ar u J).
  - split; [exact F0|]. intros v names J K. apply in_map_iff in J. destruct J as (u & <- & J). rewrite moved_rows_area, moved_rows_id. exact (F1 u names J K).
  - intros v J. apply in_map_iff in J. destruct J as (u & <- & J). rewrite <- (Sm u J). unfold moved_rows. destruct (row_of (cu_id u) rows); [|reflexivity]. rewrite moved_sum; [|exact N1|exact In_n|exact (rest_in _ _ Rg)|exact Ng]. rewrite (Fr u n J In_n Ng). destruct (in_dec string_dec n D); [contradiction|lra].
  - constructor; assumption.
  - intros k [<-|K]; [exists type; auto|exact (Ow k K)].
  - intros v J. apply in_map_iff in J. destruct J as (u & <- & J). rewrite moved_rows_area, moved_rows_id. destruct (Mv u J) as (_ & E & _). rewrite E, (Gg u J). lra.
  - intros v k J K K'. apply in_map_iff in J. destruct J as (u & <- & J). rewrite moved_rows_area, moved_rows_id. destruct (Mv u J) as (E1 & _ & E2). destruct (string_dec k n) as [->|Q].
    + rewrite E1. destruct (string_dec n n); [reflexivity|congruence].
    + rewrite (E2 k Q K'), (Fr u k J K K'). destruct (string_dec n k); [congruence|]. destruct (in_dec string_dec k D); reflexivity.
Qed.
(** A new cover. *)
Lemma new_cover sh g D hs n type : progress sh g D hs -> ~ In n (map fst (cu_covers hs)) ->
  exists hs', add_land_cover n type hs = Ok hs' /\ progress sh g D hs' /\ same_units (cu_units hs) (cu_units hs') /\ cu_covers hs' = cu_covers hs ++ [(n, type)].
Proof.
  intros [N1 N2 Rg Ar (F0 & F1) Sm Dn Ow Gg Fr] Nn. unfold add_land_cover. replace (existsb (fun c => (fst c =? n)%string) (cu_covers hs)) with false.
  2:{ symmetry. destruct (existsb _ _) eqn:E; [|reflexivity]. exfalso. apply existsb_exists in E. destruct E as (c & I & E). apply String.eqb_eq in E. apply Nn. apply in_map_iff. exists c. auto. }
  eexists. split; [reflexivity|]. assert (Ng : n <> g) by (intros ->; exact (Nn (rest_in _ _ Rg))). split; [|split; [|reflexivity]].
  2:{ simpl. clear. induction (cu_units hs) as [|u us IH]; constructor; [split; reflexivity|exact IH]. }
  assert (Nd : ~ In n D) by (intro I; destruct (Ow n I) as (t & J & _); apply Nn; apply in_map_iff; exists (n, t); auto).
  constructor; simpl; try assumption.
  - rewrite map_app. simpl. apply (Permutation_NoDup (Permutation_cons_append _ n)). constructor; assumption.
  - rewrite map_map. simpl. exact N2.
  - apply rest_more. exact Rg.
  - intros v J. apply in_map_iff in J. destruct J as (u & <- & J). exact (Ar u J).
  - split; [exact F0|]. intros v names J K. apply in_map_iff in J. destruct J as (u & <- & J). exact (F1 u names J K).
  - intros v J. apply in_map_iff in J. destruct J as (u & <- & J). rewrite map_app, Rsum_app. simpl (map fst [(n, type)]). cbn [Rsum]. rewrite set_same, <- (Sm u J). rewrite (Rsum_ext_in (cu_frac (set_frac u n 0)) (cu_frac u)); [lra|]. intros k K. apply set_other. intros ->. exact (Nn K).
  - intros k K. destruct (Ow k K) as (t & J & Q). exists t. split; [apply in_or_app; left; exact J|exact Q].
  - intros v J. apply in_map_iff in J. destruct J as (u & <- & J). rewrite set_other by congruence. exact (Gg u J).
  - intros v k J K K'. apply in_map_iff in J. destruct J as (u & <- & J). rewrite map_app in K. apply in_app_or in K. simpl in K. destruct (string_dec k n) as [->|Q].
    + rewrite set_same. destruct (in_dec string_dec n D); [contradiction|reflexivity].
    + rewrite set_other by exact Q. destruct K as [K|[K|[]]]; [|congruence]. exact (Fr u k J K K').
Qed.
Lemma same_refl us : same_units us us.
Proof. induction us; constructor; auto. Qed.
Lemma same_trans a b c : same_units a b -> same_units b c -> same_units a c.
Proof.
  intro H. revert c. induction H as [|u v a b (E1 & E2) H IH]; intros c K; inversion K as [|? w ? c' (E3 & E4) K']; subst; constructor; [split; congruence|apply IH; exact K'].
Qed.
Lemma same_ids us us' : same_units us us' -> map cu_id us' = map cu_id us.
Proof. induction 1 as [|u v a b (E1 & E2) H IH]; simpl; [reflexivity|]. rewrite E1, IH. reflexivity. Qed.
(** The covers one after the other. *)
Lemma set_covers sh g l : forall D hs, progress sh g D hs -> NoDup (map fst l) -> (forall n, In n (map fst l) -> ~ In n D) ->
  (forall n rows, In (n, rows) l -> NoDup (map fst rows) /\ (forall id a, In (id, a) rows -> In id (map cu_id (cu_units hs))) /\ forall i, In i (map cu_id (cu_units hs)) -> sh n i = match row_of i rows with Some a => a | None => 0 end) ->
  exists hs' D', apply_covers l hs = Ok hs' /\ progress sh g D' hs' /\ same_units (cu_units hs) (cu_units hs') /\ (exists more, cu_covers hs' = cu_covers hs ++ more) /\
    (forall n, In n (map fst l) -> In n (map fst (cu_covers hs'))) /\
    forall n type, In (n, type) (cu_covers hs') -> ~ soil (n, type) -> In n (map fst l) \/ In n D -> In n D'.
Proof.
  induction l as [|(n & rows) l IH]; intros D hs Pg Nl Nd Hr; cbn [apply_covers].
  - exists hs, D. split; [reflexivity|]. split; [exact Pg|]. split; [apply same_refl|]. split; [exists []; rewrite app_nil_r; reflexivity|]. split; [intros k []|]. intros k t _ _ [[]|I]; exact I.
  - simpl in Nl. inversion Nl as [|? ? M1 M2]; subst. destruct (Hr n rows (or_introl eq_refl)) as (R1 & R2 & R3).
    assert (Step : exists hs1 type, (match find (fun d => (fst d =? n)%string) (cu_covers hs) with Some d => Ok (hs, snd d) | None => bind (add_land_cover n (cover_type_of n) hs) (fun hs => Ok (hs, cover_type_of n)) end) = Ok (hs1, type) /\
      progress sh g D hs1 /\ same_units (cu_units hs) (cu_units hs1) /\ (exists more, cu_covers hs1 = cu_covers hs ++ more) /\ In (n, type) (cu_covers hs1)).
    { destruct (find _ _) as [(k & t)|] eqn:E.
      - apply find_some in E. destruct E as (I & E). simpl in E. apply String.eqb_eq in E. subst k. exists hs, t. split; [reflexivity|]. split; [exact Pg|]. split; [apply same_refl|]. split; [exists []; rewrite app_nil_r; reflexivity|exact I].
      - destruct (new_cover sh g D hs n (cover_type_of n) Pg) as (hs1 & A & B & C & Q).
        + intro I. apply in_map_iff in I. destruct I as (d & <- & I). pose proof (find_none _ _ E d I) as X. simpl in X. rewrite String.eqb_refl in X. discriminate.
        + rewrite A. cbn [bind]. exists hs1, (cover_type_of n). split; [reflexivity|]. split; [exact B|]. split; [exact C|]. split; [eauto|]. rewrite Q. apply in_or_app. right. left. reflexivity. }
    destruct Step as (hs1 & type & E1 & Pg1 & Sm1 & (more1 & Cv1) & I1). unfold apply_cover. cbn [fst snd]. rewrite E1. cbn [bind]. pose proof (same_ids _ _ Sm1) as Ids.
    assert (Next : exists hs2 D2, (if (is_alias n || is_alias type)%bool then Ok hs1 else initialize_change n rows hs1) = Ok hs2 /\ progress sh g D2 hs2 /\ same_units (cu_units hs1) (cu_units hs2) /\ cu_covers hs2 = cu_covers hs1 /\
      (forall k, In k D2 -> k = n \/ In k D) /\ (forall k, In k D -> In k D2) /\ (~ soil (n, type) -> In n D2)).
    { destruct (is_alias n || is_alias type)%bool eqn:E.
      - apply (proj1 (soil_spec (n, type))) in E. exists hs1, D. split; [reflexivity|]. split; [exact Pg1|]. split; [apply same_refl|]. split; [reflexivity|]. split; [auto|]. split; [auto|]. intro Q. contradiction.
      - assert (Q : ~ soil (n, type)) by (intro Q; apply soil_spec in Q; simpl in Q; congruence). destruct (set_cover sh g D hs1 n type rows Pg1 I1 Q) as (hs2 & A & B & C & F).
        + apply Nd. left. reflexivity.
        + exact R1.
        + intros id a J. rewrite Ids. exact (R2 id a J).
        + intros u J. apply R3. rewrite <- Ids. apply in_map. exact J.
        + exists hs2, (n :: D). split; [exact A|]. split; [exact B|]. split; [exact C|]. split; [exact F|]. split; [intros k [<-|K]; auto|]. split; [intros k K; right; exact K|]. intros _. left. reflexivity. }
    destruct Next as (hs2 & D2 & E2 & Pg2 & Sm2 & Cv2 & K1 & K2 & K3). rewrite E2. cbn [bind]. pose proof (same_trans _ _ _ Sm1 Sm2) as Sm. pose proof (same_ids _ _ Sm) as Ids2.
    destruct (IH D2 hs2 Pg2 M2) as (hs' & D' & A & B & C & (more & Cv) & F & G).
    + intros k K J. apply K1 in J. destruct J as [->|J]; [contradiction|]. exact (Nd k (or_intror K) J).
    + intros k r K. destruct (Hr k r (or_intror K)) as (X1 & X2 & X3). split; [exact X1|]. rewrite Ids2. auto.
    + exists hs', D'. split; [exact A|]. split; [exact B|]. split; [exact (same_trans _ _ _ Sm C)|]. split; [exists (more1 ++ more); rewrite Cv, Cv2, Cv1, <- app_assoc; reflexivity|].
      assert (Up : forall d, In d (cu_covers hs1) -> In d (cu_covers hs')) by (intros d J; rewrite Cv, Cv2; apply in_or_app; left; exact J). split.
      * intros k [<-|K]; [apply in_map_iff; exists (n, type); split; [reflexivity|apply Up; exact I1]|exact (F k K)].
      * intros k t J Q H. apply (G k t J Q). destruct H as [[<-|H]|H]; [|left; exact H|right; apply K2; exact H]. right. apply K3. simpl in J, Q. replace type with t; [exact Q|]. exact (same_cover _ n t type (pg_names _ _ _ _ B) J (Up _ I1)).
Qed.
Lemma insert_cover_perm c l : Permutation (insert_cover c l) (c :: l).
Proof. induction l as [|d l IH]; simpl; [reflexivity|]. destruct (fst c <=? fst d)%string; [reflexivity|]. rewrite IH. apply perm_swap. Qed.
Lemma sort_perm l : Permutation (sort_covers l) l.
Proof. induction l as [|c l IH]; simpl; [reflexivity|]. rewrite insert_cover_perm, IH. reflexivity. Qed.
Lemma start_progress sh g hs : one_of_each hs -> all_soil hs g -> shares_fit sh (cu_units hs) -> (forall u, In u (cu_units hs) -> 0 < cu_area u /\ cu_id u <> 0%Z) -> progress sh g [] hs.
Proof.
  intros (N1 & N2) (Rg & Fr) F Ar. constructor; try assumption.
  - intros u I. destruct (Fr u I) as (A & B). pose proof (rest_in _ _ Rg) as J. clear -N1 A B J. revert N1 B J. generalize (map fst (cu_covers hs)). intros l N B J. induction l as [|n l IH]; [contradiction|]. inversion N as [|? ? M1 M2]; subst. cbn [Rsum]. destruct (string_dec n g) as [->|Q].
    + rewrite A. assert (E : Rsum (cu_frac u) l = 0); [|lra]. clear IH N M2. assert (B' : forall n, In n l -> cu_frac u n = 0) by (intros n I; apply B; [right; exact I|intros ->; contradiction]). clear -B'. induction l as [|n l IH]; simpl; [reflexivity|]. rewrite B' by (left; reflexivity). rewrite IH; [lra|]. intros k I. apply B'. right. exact I.
    + rewrite (B n (or_introl eq_refl) Q). destruct J as [J|J]; [congruence|]. rewrite (IH M2); [lra| |exact J]. intros k I. apply B. right. exact I.
  - constructor.
  - intros n [].
  - intros u I. destruct (Fr u I) as (A & _). simpl. lra.
  - intros u n I J Q. destruct (Fr u I) as (_ & B). simpl. exact (B n J Q).
Qed.
