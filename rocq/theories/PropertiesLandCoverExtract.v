(** C93: land cover fractions from classified maps and glacier extents. *)
From Coq Require Import Permutation Sorted.
From Verif Require Import BaseFacts LandCoverExtractSpec LandCoverExtractFacts LandCoverExtractFacts2.
Open Scope R_scope.

Lemma find_name (l : cover_areas) n rows : NoDup (map fst l) -> In (n, rows) l -> find (fun p => (fst p =? n)%string) l = Some (n, rows).
Proof.
  induction l as [|(m & r) l IH]; intros N I; [contradiction|]. simpl in *. inversion N as [|? ? N1 N2]; subst. destruct I as [I|I].
  - injection I as -> ->. rewrite String.eqb_refl. reflexivity.
  - destruct (m =? n)%string eqn:E; [|auto]. apply String.eqb_eq in E. subst m. exfalso. apply N1. apply in_map_iff. exists (n, rows). auto.
Qed.
Lemma val_of (l : cover_areas) n rows i : NoDup (map fst l) -> In (n, rows) l -> val l n i = match row_of i rows with Some a => a | None => 0 end.
Proof. intros N I. unfold val. rewrite (find_name l n rows N I). reflexivity. Qed.
Lemma val_out (l : cover_areas) n i : ~ In n (map fst l) -> val l n i = 0.
Proof.
  intro N. unfold val. destruct (find _ l) as [(m & r)|] eqn:E; [|reflexivity]. exfalso. apply find_some in E. destruct E as (I & E). apply String.eqb_eq in E. simpl in E. subst m. apply N. apply in_map_iff. exists (n, r). auto.
Qed.
Lemma fit_cells px ids classes m us : 0 < px -> length classes = length ids -> NoDup (map (fun p : class_key * string => class_of (fst p)) m) ->
  (forall u, In u us -> cu_area u = cells ids ids (fun _ => true) (cu_id u) * px) -> shares_fit (fun n i => cells ids classes (mapped_to m n) i * px) us.
Proof.
  intros P L N A. split; [intros n i; apply Rmult_le_pos; [apply cells_pos|lra]|]. intros u names I Nn. rewrite (A u I), (cells_all ids ids classes _ eq_refl L). rewrite Rsum_scal_r. apply Rmult_le_compat_r; [lra|]. apply cells_disjoint; assumption.
Qed.
Lemma extract_all px ids classes m hs g : one_of_each hs -> all_soil hs g -> on_grid px ids hs -> length classes = length ids -> NoDup (map (fun p : class_key * string => class_of (fst p)) m) ->
  exists hs', apply_covers (sort_covers (areas_from_class_grid px ids classes m)) hs = Ok hs' /\ same_units (cu_units hs) (cu_units hs') /\ (exists more, cu_covers hs' = cu_covers hs ++ more) /\
    forall u, In u (cu_units hs') -> whole (cu_covers hs') u /\
      (forall n type, In (n, type) (cu_covers hs') -> soil (n, type) -> n <> g -> cu_frac u n = 0) /\
      (forall n type, In (n, type) (cu_covers hs') -> ~ soil (n, type) -> cu_frac u n = cells ids classes (mapped_to m n) (cu_id u) * px / cu_area u) /\
      (forall n, 0 < cells ids classes (mapped_to m n) (cu_id u) -> In n (map fst (cu_covers hs'))).
Proof.
  intros O So (P & G1 & G2) L N. set (l := areas_from_class_grid px ids classes m). set (sh := fun n i => cells ids classes (mapped_to m n) i * px).
  assert (Pr : proper ids l) by (apply areas_proper; split; [constructor|intros n rows []]). destruct Pr as (P1 & P2). pose proof (sort_perm l) as Pm.
  assert (Pn : NoDup (map fst (sort_covers l))) by (apply (Permutation_NoDup (Permutation_map fst (Permutation_sym Pm))); exact P1).
  assert (St : progress sh g [] hs). { apply start_progress; [exact O|exact So|apply fit_cells; try assumption; intros u I; apply (G1 u I)|intros u I; destruct (G1 u I) as (A & B & _); auto]. }
  destruct (set_covers sh g (sort_covers l) [] hs St Pn) as (hs' & D & A & B & C & F & K1 & K2).
  - intros n _ [].
  - intros n rows I. apply (Permutation_in _ Pm) in I. destruct (P2 n rows I) as (Q1 & Q2). split; [exact Q1|]. split.
    + intros id a J. apply (in_map fst) in J. destruct (Q2 _ J) as (J1 & J2). exact (G2 id J1 J2).
    + intros i J. rewrite <- (val_of l n rows i P1 I). unfold sh, l. symmetry. apply grid_val; [|exact N]. apply in_map_iff in J. destruct J as (u & <- & J). apply (G1 u J).
  - exists hs'. split; [exact A|]. split; [exact C|]. split; [exact F|]. intros u I. pose proof (pg_frac _ _ _ _ B) as Fr. pose proof (pg_area _ _ _ _ B u I) as (Ar & Z0). split; [exact (progress_whole _ _ _ _ _ B I)|].
    assert (Out : forall n, ~ In n (map fst l) -> cells ids classes (mapped_to m n) (cu_id u) = 0).
    { intros n Q. pose proof (val_out l n (cu_id u) Q) as V. unfold l in V. rewrite (grid_val _ _ _ _ _ _ Z0 N) in V. apply Rmult_integral in V. destruct V; lra. }
    split; [|split].
    + intros n t J S1 Q. assert (In_n : In n (map fst (cu_covers hs'))) by (apply in_map_iff; exists (n, t); auto). rewrite (Fr u n I In_n Q). destruct (in_dec string_dec n D) as [K|]; [|reflexivity]. exfalso. destruct (pg_own _ _ _ _ B n K) as (t' & J' & S2). apply S2. rewrite (same_cover _ n t' t (pg_names _ _ _ _ B) J' J). exact S1.
    + intros n t J S1. assert (In_n : In n (map fst (cu_covers hs'))) by (apply in_map_iff; exists (n, t); auto). rewrite (Fr u n I In_n (own_not_rest _ _ _ _ (pg_names _ _ _ _ B) (pg_rest _ _ _ _ B) J S1)). destruct (in_dec string_dec n D) as [|K]; [reflexivity|].
      rewrite Out; [unfold Rdiv; lra|]. intro Q. apply K. apply (K2 n t J S1). left. apply (Permutation_in _ (Permutation_map fst (Permutation_sym Pm))). exact Q.
    + intros n Q. apply K1. apply (Permutation_in _ (Permutation_map fst (Permutation_sym Pm))). destruct (in_dec string_dec n (map fst l)) as [H|H]; [exact H|]. exfalso. rewrite (Out n H) in Q. lra.
Qed.

Lemma key_eqb_spec a b : key_eqb a b = true <-> a = b.
Proof. destruct a, b; simpl; try (split; discriminate); rewrite Z.eqb_eq; split; intro H; [subst; reflexivity|congruence|subst; reflexivity|congruence]. Qed.
Lemma put_keys k v m a : In a (map fst (put k v m)) <-> a = k \/ In a (map fst m).
Proof.
  induction m as [|(k', v') m IH]; simpl; [intuition congruence|]. destruct (key_eqb k k') eqn:E; simpl; [apply key_eqb_spec in E; subst k'; intuition congruence|]. rewrite IH. intuition congruence.
Qed.
Lemma put_nodup k v m : NoDup (map fst m) -> NoDup (map fst (put k v m)).
Proof.
  induction m as [|(k', v') m IH]; simpl; intro D; [repeat constructor; auto|]. inversion D as [|? ? N D']; subst. destruct (key_eqb k k') eqn:E; simpl; [constructor; assumption|]. constructor; [|exact (IH D')].
  rewrite put_keys. intros [Q|I]; [|exact (N I)]. subst k'. assert (key_eqb k k = true) by (apply key_eqb_spec; reflexivity). congruence.
Qed.
Lemma put_in k v m a x : NoDup (map fst m) -> (In (a, x) (put k v m) <-> (a = k /\ x = v) \/ (a <> k /\ In (a, x) m)).
Proof.
  induction m as [|(k', v') m IH]; simpl; intro D; [intuition congruence|]. inversion D as [|? ? N D']; subst. destruct (key_eqb k k') eqn:E; simpl.
  - apply key_eqb_spec in E. subst k'. split; [intros [Q|I]|intros [(-> & ->)|(Q & [R|I])]]; auto; [inversion Q; auto| |congruence]. right. split; [|auto]. intro; subst a. apply N. exact (in_map fst _ _ I).
  - assert (K : k <> k') by (intro; subst k'; assert (key_eqb k k = true) by (apply key_eqb_spec; reflexivity); congruence). rewrite (IH D'). split; [intros [Q|[Q|(Q & I)]]|intros [Q|(Q & [R|I])]]; auto. inversion Q; subst. right. split; [congruence|auto].
Qed.
Lemma puts_in o : forall m, NoDup (map fst o) -> NoDup (map fst m) -> let r := fold_left (fun m p => put (fst p) (snd p) m) o m in
  NoDup (map fst r) /\ forall a x, In (a, x) r <-> In (a, x) o \/ (~ In a (map fst o) /\ In (a, x) m).
Proof.
  induction o as [|(k, v) o IH]; intros m D E; simpl; [split; [exact E|tauto]|]. inversion D as [|? ? N D']; subst. destruct (IH (put k v m) D' (put_nodup k v m E)) as (A & B). split; [exact A|]. intros a x. simpl in B. rewrite B, (put_in k v m a x E). split.
  - intros [I|(Q & [(-> & ->)|(R & I)])]; auto. right. split; [|exact I]. intros [->|J]; auto.
  - intros [[Q|I]|(Q & I)]; [inversion Q; subst; right; auto|auto|]. right. split; [tauto|]. right. split; [|exact I]. intro; subst. tauto.
Qed.

(** The classes: one's own entries, and those of the preset for the other keys; there must be some. *)
Theorem c93_mapping : forall preset own, NoDup (map fst (entries preset)) -> NoDup (map fst (entries own)) ->
  (resolve_mapping preset own = Throw <-> entries preset = [] /\ entries own = []) /\
  forall m, resolve_mapping preset own = Ok m -> NoDup (map fst m) /\
    forall k n, In (k, n) m <-> In (k, n) (entries own) \/ (~ In k (map fst (entries own)) /\ In (k, n) (entries preset)).
Proof.
  intros preset own D E. destruct (puts_in (entries own) (entries preset) E D) as (A & B).
  assert (R : resolve_mapping preset own = match fold_left (fun m p => put (fst p) (snd p) m) (entries own) (entries preset) with [] => Throw | m => Ok m end) by (unfold resolve_mapping, entries; destruct preset as [p|], own as [o|]; cbv zeta; cbn [fold_left]; try (match goal with |- context [fold_left ?f ?o ?p] => destruct (fold_left f o p) end); try destruct p; reflexivity).
  simpl in B. rewrite R. destruct (fold_left (fun m p => put (fst p) (snd p) m) (entries own) (entries preset)) as [|c l]; (split; [|intros m Q; inversion Q; subst; split; first [exact A|exact B]]).
  - split; [intros _|reflexivity]. assert (O : entries own = []) by (destruct (entries own) as [|(k, n) o]; [reflexivity|exfalso; apply (B k n); left; left; reflexivity]). split; [|exact O]. rewrite O in B.
    destruct (entries preset) as [|(k, n) p]; [reflexivity|exfalso; apply (B k n); right; split; [intros []|left; reflexivity]].
  - split; [discriminate|]. intros (P & O). rewrite P, O in B. destruct c as (k, n). destruct (proj1 (B k n) (or_introl eq_refl)) as [[]|(_ & [])].
Qed.
Print Assumptions c93_mapping.
Example c93_mapping_case : NoDup (map fst (entries (Some [(Number 10, "forest"); (Number 70, "glacier")]%string))) /\ NoDup (map fst (entries (Some [(Number 70, "open"); (Text 80, "lake")]%string))).
Proof. split; repeat constructor; simpl; intuition discriminate. Qed.

(** From a map of classes: each cover gets its cells, the soil cover the rest; the fractions of each unit add up to one. *)
Theorem c93_classes : forall px ids classes preset own m hs g, one_of_each hs -> all_soil hs g -> on_grid px ids hs -> length classes = length ids ->
  resolve_mapping preset own = Ok m -> NoDup (map (fun p => class_of (fst p)) m) ->
  exists hs', extract_classes px ids classes preset own hs = Ok hs' /\ same_units (cu_units hs) (cu_units hs') /\ (exists more, cu_covers hs' = cu_covers hs ++ more) /\
    forall u, In u (cu_units hs') -> whole (cu_covers hs') u /\
      (forall n type, In (n, type) (cu_covers hs') -> soil (n, type) -> n <> g -> cu_frac u n = 0) /\
      (forall n type, In (n, type) (cu_covers hs') -> ~ soil (n, type) -> cu_frac u n = cells ids classes (mapped_to m n) (cu_id u) * px / cu_area u) /\
      (forall n, 0 < cells ids classes (mapped_to m n) (cu_id u) -> In n (map fst (cu_covers hs'))).
Proof. intros px ids classes preset own m hs g O So G L E N. unfold extract_classes. rewrite E. exact (extract_all px ids classes m hs g O So G L N). Qed.
Print Assumptions c93_classes.
Definition units_case : cover_units := mkCovers [("open", "open")]%string [mkCU 1 (3 * 100) (fun _ => 1); mkCU 2 (2 * 100) (fun _ => 1)].
Lemma open_soil t : soil ("open"%string, t).
Proof. left. unfold generic_word. simpl. auto. Qed.
Example c93_classes_case : one_of_each units_case /\ all_soil units_case "open" /\ on_grid 100 [1; 1; 2; 0; 1; 2]%Z units_case /\
  resolve_mapping (Some [(Number 10, "forest"); (Number 70, "glacier")]%string) (Some [(Number 70, "open"); (Number 80, "lake")]%string) = Ok [(Number 10, "forest"); (Number 70, "open"); (Number 80, "lake")]%string /\
  NoDup (map (fun p : class_key * string => class_of (fst p)) [(Number 10, "forest"); (Number 70, "open"); (Number 80, "lake")]%string).
Proof.
  split; [split; repeat constructor; simpl; intuition discriminate|]. split; [split; [exists [], "open"%string, []; split; [reflexivity|]; split; [apply open_soil|intros c []]|]|].
  - intros u [<-|[<-|[]]]; (split; [reflexivity|]); intros n [<-|[]] Q; exfalso; apply Q; reflexivity.
  - split; [|split; [reflexivity|repeat constructor; simpl; intuition discriminate]]. split; [lra|]. split.
    + intros u [<-|[<-|[]]]; simpl; (split; [discriminate|]); (split; [lra|]); unfold cells; simpl; lra.
    + intros i I Z0. simpl in I. intuition (subst; simpl; auto).
Qed.

(** From polygons: a cell is of the first class of the mapping whose polygons cover it. *)
Definition first_class (m : mapping) (touched : class_key -> option (list bool)) (j : nat) (c : Z) : Prop :=
  exists before k n after mask, m = before ++ (k, n) :: after /\ class_of k = c /\ touched k = Some mask /\ nth_error mask j = Some true /\
    forall p, In p before -> forall mask', touched (fst p) = Some mask' -> nth_error mask' j <> Some true.
Lemma burn_nth c mask grid j : nth_error (burn c mask grid) j = match nth_error grid j with Some (x, a) => Some (if (match nth_error mask j with Some b => b | None => false end && negb a)%bool then (c, true) else (x, a)) | None => None end.
Proof.
  revert mask j. induction grid as [|(x & a) grid IH]; intros mask j; [destruct mask, j; reflexivity|]. destruct mask as [|b mask]; simpl.
  - destruct j as [|j]; simpl; [reflexivity|]. destruct (nth_error grid j) as [(y & d)|]; reflexivity.
  - destruct j as [|j]; simpl; [reflexivity|]. apply IH.
Qed.
Lemma burn_length c mask grid : length (burn c mask grid) = length grid.
Proof. revert mask. induction grid as [|(x & a) grid IH]; intros [|b mask]; simpl; try reflexivity. rewrite IH. reflexivity. Qed.
Definition burn_step (touched : class_key -> option (list bool)) (g : list (Z * bool)) (p : class_key * string) : list (Z * bool) := match touched (fst p) with Some mask => burn (class_of (fst p)) mask g | None => g end.
Lemma burn_all touched m : forall grid j x a, nth_error grid j = Some (x, a) -> exists y b, nth_error (fold_left (burn_step touched) m grid) j = Some (y, b) /\
  (a = true -> y = x /\ b = true) /\ (a = false -> (b = true /\ first_class m touched j y) \/ (b = false /\ y = x /\ forall p, In p m -> forall mask, touched (fst p) = Some mask -> nth_error mask j <> Some true)).
Proof.
  induction m as [|(k & n) m IH]; intros grid j x a E; simpl.
  - exists x, a. split; [exact E|]. split; [intros ->; auto|]. intros ->. right. split; [reflexivity|]. split; [reflexivity|]. intros p [].
  - unfold burn_step at 2. simpl. destruct (touched k) as [mask|] eqn:T.
    + set (hit := match nth_error mask j with Some b => b | None => false end). assert (E' : nth_error (burn (class_of k) mask grid) j = Some (if (hit && negb a)%bool then (class_of k, true) else (x, a))) by (rewrite burn_nth, E; reflexivity).
      destruct (hit && negb a)%bool eqn:H.
      * destruct (IH _ j _ _ E') as (y & b & F & F1 & _). destruct (F1 eq_refl) as (-> & ->). exists (class_of k), true. split; [exact F|]. apply Bool.andb_true_iff in H. destruct H as (H1 & H2). split; [intros ->; discriminate|]. intros _. left. split; [reflexivity|].
        exists [], k, n, m, mask. split; [reflexivity|]. split; [reflexivity|]. split; [exact T|]. split; [unfold hit in H1; destruct (nth_error mask j) as [[]|]; [reflexivity|discriminate|discriminate]|]. intros p [].
      * destruct (IH _ j _ _ E') as (y & b & F & F1 & F2). exists y, b. split; [exact F|]. split; [exact F1|]. intros ->. rewrite Bool.andb_true_r in H.
        assert (Hn : nth_error mask j <> Some true) by (unfold hit in H; intro Q; rewrite Q in H; discriminate). destruct (F2 eq_refl) as [(-> & (be & k' & n' & af & mask' & Q1 & Q2 & Q3 & Q4 & Q5))|(-> & -> & Q)].
        -- left. split; [reflexivity|]. exists ((k, n) :: be), k', n', af, mask'. split; [rewrite Q1; reflexivity|]. split; [exact Q2|]. split; [exact Q3|]. split; [exact Q4|]. intros p [<-|I] mk Tm; [simpl in Tm; congruence|exact (Q5 p I mk Tm)].
        -- right. split; [reflexivity|]. split; [reflexivity|]. intros p [<-|I] mk Tm; [simpl in Tm; congruence|exact (Q p I mk Tm)].
    + destruct (IH _ j _ _ E) as (y & b & F & F1 & F2). exists y, b. split; [exact F|]. split; [exact F1|]. intros ->. destruct (F2 eq_refl) as [(-> & (be & k' & n' & af & mask' & Q1 & Q2 & Q3 & Q4 & Q5))|(-> & -> & Q)].
      * left. split; [reflexivity|]. exists ((k, n) :: be), k', n', af, mask'. split; [rewrite Q1; reflexivity|]. split; [exact Q2|]. split; [exact Q3|]. split; [exact Q4|]. intros p [<-|I] mk Tm; [simpl in Tm; congruence|exact (Q5 p I mk Tm)].
      * right. split; [reflexivity|]. split; [reflexivity|]. intros p [<-|I] mk Tm; [simpl in Tm; congruence|exact (Q p I mk Tm)].
Qed.
Lemma burn_all_length touched m : forall grid, length (fold_left (burn_step touched) m grid) = length grid.
Proof. induction m as [|p m IH]; intro grid; simpl; [reflexivity|]. rewrite IH. unfold burn_step. destruct (touched (fst p)); [apply burn_length|reflexivity]. Qed.
Theorem c93_shapes : forall px ids touched preset own m hs g, one_of_each hs -> all_soil hs g -> on_grid px ids hs -> resolve_mapping preset own = Ok m -> NoDup (map (fun p => class_of (fst p)) m) ->
  ~ In 0%Z (map (fun p => class_of (fst p)) m) ->
  exists classes, length classes = length ids /\
    (forall j c, nth_error classes j = Some c -> first_class m touched j c \/ (c = 0%Z /\ forall p, In p m -> forall mask, touched (fst p) = Some mask -> nth_error mask j <> Some true)) /\
    exists hs', extract_shapes px ids touched preset own hs = Ok hs' /\ same_units (cu_units hs) (cu_units hs') /\ (exists more, cu_covers hs' = cu_covers hs ++ more) /\
    forall u, In u (cu_units hs') -> whole (cu_covers hs') u /\
      (forall n type, In (n, type) (cu_covers hs') -> soil (n, type) -> n <> g -> cu_frac u n = 0) /\
      (forall n type, In (n, type) (cu_covers hs') -> ~ soil (n, type) -> cu_frac u n = cells ids classes (mapped_to m n) (cu_id u) * px / cu_area u) /\
      (forall n, 0 < cells ids classes (mapped_to m n) (cu_id u) -> In n (map fst (cu_covers hs'))).
Proof.
  intros px ids touched preset own m hs g O So G E N _. exists (rasterize_classes (length ids) touched m). assert (L : length (rasterize_classes (length ids) touched m) = length ids).
  { unfold rasterize_classes. rewrite map_length. change (fun (g0 : list (Z * bool)) (p : class_key * string) => match touched (fst p) with Some mask => burn (class_of (fst p)) mask g0 | None => g0 end) with (burn_step touched). rewrite burn_all_length, repeat_length. reflexivity. }
  split; [exact L|]. split.
  - intros j c Q. unfold rasterize_classes in Q. rewrite nth_error_map in Q. change (fun (g0 : list (Z * bool)) (p : class_key * string) => match touched (fst p) with Some mask => burn (class_of (fst p)) mask g0 | None => g0 end) with (burn_step touched) in Q.
    destruct (nth_error (fold_left (burn_step touched) m (repeat (0%Z, false) (length ids))) j) as [(y & b)|] eqn:F; [|discriminate]. simpl in Q. injection Q as ->.
    assert (J : (j < length ids)%nat) by (apply nth_error_Some_lt in F || (assert (nth_error (fold_left (burn_step touched) m (repeat (0%Z, false) (length ids))) j <> None) as W by congruence; apply nth_error_Some in W; rewrite burn_all_length, repeat_length in W; exact W)).
    destruct (burn_all touched m (repeat (0%Z, false) (length ids)) j 0%Z false) as (y & b' & F' & _ & F2).
    + clear -J. revert j J. induction (length ids) as [|k IH]; intros j J; [lia|]. destruct j; simpl; [reflexivity|]. apply IH. lia.
    + rewrite F in F'. injection F' as <- <-. destruct (F2 eq_refl) as [(_ & Q)|(_ & Q & W)]; [left; exact Q|right; auto].
  - unfold extract_shapes. rewrite E. exact (extract_all px ids _ m hs g O So G L N).
Qed.
Print Assumptions c93_shapes.

(** A glacier extent: the glacier has its cells, the soil the rest. *)
Theorem c93_glacier : forall px ids glacier name n hs g type, one_of_each hs -> all_soil hs g -> on_grid px ids hs -> In (n, type) (cu_covers hs) -> ~ soil (n, type) ->
  (name = Some n \/ (name = None /\ type = "glacier"%string /\ forall c, In c (cu_covers hs) -> snd c = "glacier"%string -> c = (n, type))) ->
  exists hs', glacier_from_extent px ids glacier name hs = Ok hs' /\ same_units (cu_units hs) (cu_units hs') /\ cu_covers hs' = cu_covers hs /\
    forall u, In u (cu_units hs') -> whole (cu_covers hs') u /\ cu_frac u n = cells ids glacier (fun b => b) (cu_id u) * px / cu_area u /\
      forall k, In k (map fst (cu_covers hs)) -> k <> n -> k <> g -> cu_frac u k = 0.
Proof.
  intros px ids glacier name n hs g type O So (P & G1 & G2) I S1 Nm. set (sh := fun k i => if (k =? n)%string then cells ids glacier (fun b => b) i * px else 0).
  assert (Ds : (match name with Some n => Ok n | None => detect_glacier (cu_covers hs) end) = Ok n).
  { destruct Nm as [->|(-> & -> & U)]; [reflexivity|]. unfold detect_glacier. assert (F : filter (fun c => (snd c =? "glacier")%string) (cu_covers hs) = [(n, "glacier"%string)]); [|rewrite F; reflexivity]. destruct O as (N1 & _). apply NoDup_map_inv in N1. revert N1 I U. clear. intros N I U.
    assert (Nf : NoDup (filter (fun c => (snd c =? "glacier")%string) (cu_covers hs))) by (apply NoDup_filter; exact N). assert (A : forall c, In c (filter (fun c => (snd c =? "glacier")%string) (cu_covers hs)) <-> c = (n, "glacier"%string)).
    { intro c. rewrite filter_In. split; [intros (J & E); apply String.eqb_eq in E; auto|intros ->; split; [exact I|reflexivity]]. }
    destruct (filter _ _) as [|c [|d l]]; [exfalso; apply (A (n, "glacier"%string)); reflexivity|f_equal; apply A; left; reflexivity|]. exfalso. inversion Nf as [|? ? N1 _]; subst. apply N1. left. transitivity (n, "glacier"%string); [|symmetry]; apply A; simpl; auto. }
  unfold glacier_from_extent. rewrite Ds. cbn [bind].
  assert (Le : forall u, In u (cu_units hs) -> cells ids glacier (fun b => b) (cu_id u) * px <= cu_area u).
  { intros u J. destruct (G1 u J) as (_ & _ & ->). apply Rmult_le_compat_r; [lra|]. unfold cells. apply le_INR. clear. revert glacier. induction ids as [|z l IH]; intros [|b glacier]; simpl; try lia. specialize (IH glacier). rewrite Bool.andb_true_r. destruct (z =? cu_id u)%Z, b; simpl; lia. }
  assert (Sum : forall l u, NoDup l -> Rsum (fun k => sh k (cu_id u)) l <= cells ids glacier (fun b => b) (cu_id u) * px).
  { intros l u. pose proof (Rmult_le_pos _ _ (cells_pos ids glacier (fun b => b) (cu_id u)) (Rlt_le _ _ P)) as C0. induction l as [|k l IH]; intro N; simpl; [exact C0|]. inversion N as [|? ? N1 N2]; subst. unfold sh at 1. destruct (k =? n)%string eqn:E; [|specialize (IH N2); lra]. apply String.eqb_eq in E. subst k. rewrite Rsum_zero; [lra|]. intros k K. unfold sh. destruct (k =? n)%string eqn:E; [apply String.eqb_eq in E; subst; contradiction|reflexivity]. }
  assert (St : progress sh g [] hs). { apply start_progress; [exact O|exact So| |intros u J; destruct (G1 u J) as (A & B & _); auto]. split; [intros k i; unfold sh; destruct (k =? n)%string; [apply Rmult_le_pos; [apply cells_pos|lra]|lra]|]. intros u l J N. pose proof (Sum l u N). pose proof (Le u J). lra. }
  assert (Cm : forall i, count_z i (map fst (filter snd (combine ids glacier))) = cells ids glacier (fun b => b) i).
  { intro i. unfold count_z, cells. f_equal. clear. revert glacier. induction ids as [|z l IH]; intros [|b glacier]; try reflexivity. simpl. destruct b; simpl; [rewrite Bool.andb_true_r; destruct (z =? i)%Z; simpl; rewrite IH; reflexivity|rewrite Bool.andb_false_r; apply IH]. }
  destruct (set_cover sh g [] hs n type (glacier_areas px ids glacier) St I S1 (fun x => x)) as (hs' & A & B & C & F).
  - unfold glacier_areas. rewrite map_map. simpl. rewrite map_id. apply NoDup_filter, unique_nodup.
  - intros id a J. unfold glacier_areas in J. apply in_map_iff in J. destruct J as (i & Q & J). injection Q as <- <-. apply filter_In in J. destruct J as (J & Z0). apply (proj1 (unique_in _ _)) in J. apply in_map_iff in J. destruct J as ((x & b) & <- & J). apply filter_In in J. destruct J as (J & _). apply in_combine_l in J. apply G2; [exact J|]. simpl in Z0. intro Q. simpl in Q. rewrite Q in Z0. discriminate.
  - intros u J. unfold sh. rewrite String.eqb_refl. destruct (G1 u J) as (Z0 & _). unfold glacier_areas. set (l := map fst (filter snd (combine ids glacier))) in *. destruct (row_of _ _) as [a|] eqn:E.
    + apply row_in in E. apply in_map_iff in E. destruct E as (i & Q & _). injection Q as -> <-. rewrite Cm. reflexivity.
    + apply row_none in E. rewrite <- Cm. rewrite (count_zero (cu_id u) l); [lra|]. intro K. apply E. rewrite map_map. simpl. rewrite map_id. apply filter_In. split; [apply unique_in; exact K|]. apply Z.eqb_neq in Z0. rewrite Z0. reflexivity.
  - exists hs'. split; [exact A|]. split; [exact C|]. split; [exact F|]. intros u J. split; [exact (progress_whole _ _ _ _ _ B J)|]. pose proof (pg_frac _ _ _ _ B u) as Fr. rewrite F in Fr. assert (In_n : In n (map fst (cu_covers hs))) by (apply in_map_iff; exists (n, type); auto). split.
    + rewrite (Fr n J In_n (own_not_rest _ _ _ _ (proj1 O) (proj1 So) I S1)). destruct (in_dec string_dec n [n]) as [_|Q]; [|exfalso; apply Q; left; reflexivity]. unfold sh. rewrite String.eqb_refl. reflexivity.
    + intros k K Q Q'. rewrite (Fr k J K Q'). destruct (in_dec string_dec k [n]) as [[W|[]]|_]; [congruence|reflexivity].
Qed.
Print Assumptions c93_glacier.
Example c93_glacier_case : let hs := mkCovers [("open", "open"); ("ice", "glacier")]%string [mkCU 1 (2 * 100) (fun s => if (s =? "open")%string then 1 else 0)] in
  one_of_each hs /\ all_soil hs "open" /\ on_grid 100 [1; 1; 0]%Z hs /\ In ("ice", "glacier")%string (cu_covers hs) /\ ~ soil ("ice", "glacier")%string.
Proof.
  split; [split; repeat constructor; simpl; intuition discriminate|]. split; [split; [exists [], "open"%string, [("ice", "glacier")]%string; split; [reflexivity|]; split; [apply open_soil|intros c []]|]|].
  - intros u [<-|[]]; (split; [reflexivity|]); intros n [<-|[<-|[]]] Q; [exfalso; apply Q; reflexivity|reflexivity].
  - split; [split; [lra|split]|].
    + intros u [<-|[]]; simpl; (split; [discriminate|]); (split; [lra|]); unfold cells; simpl; lra.
    + intros i I Z0. simpl in I. intuition (subst; simpl; auto).
    + split; [simpl; auto|]. intros [Q|Q]; simpl in Q; unfold generic_word in Q; simpl in Q; intuition discriminate.
Qed.

(** ** What goes wrong *)
(** "The fractions of a unit still add up to one": not when a cover that has already an area gets another one; the old area is lost. *)
Theorem c93_again_refuted : ~ (forall name rows hs hs', one_of_each hs -> (forall u, In u (cu_units hs) -> whole (cu_covers hs) u) -> NoDup (map fst rows) -> initialize_change name rows hs = Ok hs' ->
  forall u, In u (cu_units hs') -> Rsum (cu_frac u) (map fst (cu_covers hs')) = 1).
Proof.
  intro H. set (hs := mkCovers [("open", "open"); ("glacier", "glacier")]%string [mkCU 1 100 (fun s => 1 / 2)]).
  assert (E : initialize_change "glacier" [(1%Z, 25)] hs = Ok (mkCovers (cu_covers hs) [moved "open" "glacier" (25 / 100) (mkCU 1 100 (fun s => 1 / 2))])).
  { unfold initialize_change, hs. simpl. rewrite update_ok; [reflexivity|discriminate|simpl; lra|simpl; lra|simpl; lra]. }
  assert (A : one_of_each hs) by (split; repeat constructor; simpl; intuition discriminate). assert (B : forall u, In u (cu_units hs) -> whole (cu_covers hs) u) by (intros u [<-|[]]; split; [simpl; lra|intros; simpl; lra]).
  specialize (H "glacier"%string [(1%Z, 25)] hs _ A B ltac:(repeat constructor; intros []) E _ (or_introl eq_refl)). simpl in H. lra.
Qed.
Print Assumptions c93_again_refuted.
(** "A cover gets the area that is given": not the first cover when there is no generic one. *)
Theorem c93_no_generic_refuted : ~ (forall name id a hs hs', one_of_each hs -> (forall u, In u (cu_units hs) -> whole (cu_covers hs) u) -> In name (map fst (cu_covers hs)) -> initialize_change name [(id, a)] hs = Ok hs' ->
  forall u, In u (cu_units hs') -> cu_id u = id -> cu_frac u name = a / cu_area u).
Proof.
  intro H. set (hs := mkCovers [("forest", "forest"); ("glacier", "glacier")]%string [mkCU 1 100 (fun s => if (s =? "forest")%string then 1 else 0)]).
  assert (E : exists u', initialize_change "forest" [(1%Z, 50)] hs = Ok (mkCovers (cu_covers hs) [u']) /\ cu_frac u' "forest"%string = 0 /\ cu_id u' = 1%Z /\ cu_area u' = 100).
  { unfold initialize_change, hs. simpl. unfold update_unit. simpl. destruct (Req_EM_T 100 0); [lra|]. unfold Rleb, Rltb. destruct (Rle_dec 0 (50 / 100)); [|lra]. destruct (Rle_dec (50 / 100) 1); [|lra]. simpl. destruct (Rlt_dec _ _); [lra|]. cbn [bind]. eexists. split; [reflexivity|]. simpl. split; [lra|auto]. }
  destruct E as (u' & E & F & F1 & F2). assert (A : one_of_each hs) by (split; repeat constructor; simpl; intuition discriminate). assert (B : forall u, In u (cu_units hs) -> whole (cu_covers hs) u) by (intros u [<-|[]]; split; [simpl; lra|intros n I; simpl; destruct (n =? "forest")%string; lra]).
  pose proof (H "forest"%string 1%Z 50 hs _ A B (or_introl eq_refl) E u' (or_introl eq_refl) F1) as H1. rewrite F, F2 in H1. lra.
Qed.
Print Assumptions c93_no_generic_refuted.
(** "An own mapping overrides the preset": not when the codes of its classes are texts; both are in force and the cells count twice. *)
Theorem c93_text_refuted : ~ (forall preset own m k n n', In (k, n) own -> (forall k' x, In (k', x) own -> class_of k' = class_of k -> x = n) -> resolve_mapping (Some preset) (Some own) = Ok m -> mapped_to m n' (class_of k) = true -> n' = n).
Proof.
  intro H. specialize (H [(Number 70, "glacier")]%string [(Text 70, "forest")]%string [(Number 70, "glacier"); (Text 70, "forest")]%string (Text 70) "forest"%string "glacier"%string (or_introl eq_refl)).
  assert (A : forall k' x, In (k', x) [(Text 70, "forest"%string)] -> class_of k' = class_of (Text 70) -> x = "forest"%string) by (intros k' x [Q|[]] _; congruence). specialize (H A eq_refl eq_refl). discriminate.
Qed.
Print Assumptions c93_text_refuted.
(** "Cells without a polygon are soil": not when the mapping has the class 0. *)
Theorem c93_class_zero_refuted : ~ (forall px ids touched m hs hs' g, one_of_each hs -> all_soil hs g -> on_grid px ids hs -> NoDup (map (fun p => class_of (fst p)) m) -> (forall k, touched k = None) ->
  extract_shapes px ids touched None (Some m) hs = Ok hs' -> forall u, In u (cu_units hs') -> cu_frac u g = 1).
Proof.
  intro H. set (hs := mkCovers [("open", "open"); ("lake", "lake")]%string [mkCU 1 (3 * 100) (fun s => if (s =? "open")%string then 1 else 0)]). set (m := [(Number 0, "lake"%string)]). set (ids := [1; 1; 1; 0]%Z) in *.
  assert (O : one_of_each hs) by (split; repeat constructor; simpl; intuition discriminate).
  assert (So : all_soil hs "open").
  { split; [exists [], "open"%string, [("lake", "lake")]%string; split; [reflexivity|]; split; [apply open_soil|intros c []]|]. intros u [<-|[]]; (split; [reflexivity|]); intros n [<-|[<-|[]]] Q; [exfalso; apply Q; reflexivity|reflexivity]. }
  assert (G : on_grid 100 ids hs).
  { split; [lra|split]; [intros u [<-|[]]; simpl; (split; [discriminate|]); (split; [lra|]); unfold cells; simpl; lra|]. intros i I Z0. simpl in I. intuition (subst; simpl; auto). }
  assert (N : NoDup (map (fun p : class_key * string => class_of (fst p)) m)) by (repeat constructor; intros []).
  destruct (extract_all 100 ids (rasterize_classes (length ids) (fun _ => None) m) m hs "open" O So G eq_refl N) as (hs' & E & Sm & (more & Cv) & Pr).
  assert (exists u, In u (cu_units hs') /\ cu_id u = 1%Z /\ cu_area u = 3 * 100) as (u & J & E1 & E2) by (revert Sm; unfold same_units; generalize (cu_units hs'); intros us Sm; destruct us as [|u us]; [inversion Sm|]; exists u; split; [left; reflexivity|]; inversion Sm as [|u0 u1 l l' (E1 & E2) Sm' EA EB]; subst; split; assumption).
  destruct (Pr u J) as (W & _ & Own & Mk).
  assert (C : cells ids (rasterize_classes (length ids) (fun _ => None) m) (mapped_to m "lake") (cu_id u) = 3) by (rewrite E1; unfold cells; simpl; lra).
  assert (I : In ("lake", "lake")%string (cu_covers hs')) by (rewrite Cv; simpl; auto). assert (F : cu_frac u "open"%string = 1).
  { apply (H 100 ids (fun _ => None) m hs hs' "open"%string O So G N (fun _ => eq_refl)); [exact E|exact J]. }
  set (t := "lake"%string) in I. assert (S1 : ~ soil ("lake"%string, t)) by (intros [Q|Q]; unfold generic_word in Q; simpl in Q; unfold t in Q; intuition discriminate).
  destruct W as (W & Wp). pose proof (Own "lake"%string t I S1) as V. rewrite C, E2 in V. clear J. assert (In "open"%string (map fst (cu_covers hs'))) as J by (rewrite Cv; left; reflexivity).
    assert (Two : cu_frac u "open"%string + cu_frac u "lake"%string <= 1).
    { rewrite <- W. assert (In_l : In "lake"%string (map fst (cu_covers hs'))) by (apply in_map_iff; exists ("lake"%string, t); auto). clear -Wp J In_l. revert Wp J In_l. generalize (map fst (cu_covers hs')). intro l. induction l as [|k l IH]; intros Wp J K; [contradiction|]. cbn [Rsum].
      assert (Nn : 0 <= Rsum (cu_frac u) l) by (apply Rsum_nonneg; intros x X; apply Wp; right; exact X). assert (El : forall x, In x l -> cu_frac u x <= Rsum (cu_frac u) l) by (intros x X; apply Rsum_elem_le; [intros y Y; apply Wp; right; exact Y|exact X]). pose proof (Wp k (or_introl eq_refl)) as Wk.
      destruct J as [->|J], K as [K|K]; try discriminate.
      - specialize (El _ K). lra.
      - subst k. specialize (El _ J). lra.
      - assert (Wp' : forall n, In n l -> 0 <= cu_frac u n) by (intros n X; apply Wp; right; exact X). specialize (IH Wp' J K). lra. }
    lra.
Qed.
Print Assumptions c93_class_zero_refuted.
