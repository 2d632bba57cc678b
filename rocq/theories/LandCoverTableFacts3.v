(** Facts about the glacier masks. *)
From Coq Require Import Permutation.
From Verif Require Import BaseFacts PeriodsFacts LandCoverTableSpec LandCoverTableFacts LandCoverTableFacts2.
Open Scope R_scope.

Definition covers_of (with_debris : bool) : list (surfaces -> R) := if with_debris then [sf_ice; sf_debris; sf_other] else [sf_glacier; sf_other].
Lemma create_ok grid px deb yearly ids times masks tables regs : create_for_glaciers grid px deb yearly ids times masks = Ok (tables, regs) ->
  length masks = length times /\ tables = map (surface_table grid px deb yearly ids times masks) (covers_of deb) /\
  map fst regs = (if deb then ["glacier_ice"; "glacier_debris"]%string else ["glacier"]%string) /\
  forall k name cs t, nth_error regs k = Some (name, cs) -> nth_error tables k = Some t -> register_table "m2" t = Ok cs.
Proof.
  unfold create_for_glaciers. destruct (length masks =? length times)%nat eqn:L; [|discriminate]. apply Nat.eqb_eq in L. simpl negb. cbv iota. destruct deb.
  - destruct (register_table "m2" (surface_table grid px true yearly ids times masks sf_ice)) as [a| |] eqn:A; try discriminate. destruct (register_table "m2" (surface_table grid px true yearly ids times masks sf_debris)) as [b| |] eqn:B; try discriminate.
    cbn [bind]. intro Q. injection Q as <- <-. split; [exact L|]. split; [reflexivity|]. split; [reflexivity|]. intros [|[|k]] name cs t H H'; simpl in H, H'; [| |destruct k; discriminate].
    + injection H as <- <-. injection H' as <-. exact A.
    + injection H as <- <-. injection H' as <-. exact B.
  - destruct (register_table "m2" (surface_table grid px false yearly ids times masks sf_glacier)) as [a| |] eqn:A; try discriminate. cbn [bind]. intro Q. injection Q as <- <-. split; [exact L|]. split; [reflexivity|]. split; [reflexivity|].
    intros [|k] name cs t H H'; simpl in H, H'; [|destruct k; discriminate]. injection H as <- <-. injection H' as <-. exact A.
Qed.
Lemma create_single grid px yearly ids times masks tables regs : create_for_glaciers grid px false yearly ids times masks = Ok (tables, regs) ->
  exists cs, regs = [("glacier"%string, cs)] /\ register_table "m2" (surface_table grid px false yearly ids times masks sf_glacier) = Ok cs.
Proof.
  unfold create_for_glaciers. destruct (length masks =? length times)%nat; [|discriminate]. simpl negb. cbv iota.
  destruct (register_table "m2" (surface_table grid px false yearly ids times masks sf_glacier)) as [a| |] eqn:A; try discriminate. cbn [bind]. intro Q. injection Q as <- <-. exists a. auto.
Qed.
Definition columns grid px deb (yearly : bool) times masks (f : surfaces -> R) id : list R :=
  if yearly then interpolate_yearly times (map (fun m => f (extract grid px deb m id)) masks) else map (fun m => f (extract grid px deb m id)) masks.
Lemma table_row grid px deb yearly ids times masks f id vals :
  In (id, vals) (ct_rows (surface_table grid px deb yearly ids times masks f)) <-> In id ids /\ vals = map (fun x => Some x) (columns grid px deb yearly times masks f id).
Proof.
  simpl. rewrite in_map_iff. split; [intros (i & Q & I); injection Q as <- <-; auto|]. intros (I & ->). exists id. auto.
Qed.
Lemma table_value grid px deb yearly ids times masks f id j v : has_value (surface_table grid px deb yearly ids times masks f) id j v <->
  In id ids /\ nth_error (columns grid px deb yearly times masks f id) j = Some v.
Proof.
  unfold has_value. split.
  - intros ((vals & I) & H). pose proof (H vals I) as E. apply table_row in I. destruct I as (I & ->). split; [exact I|]. rewrite nth_error_map in E. destruct (nth_error _ j) as [w|]; simpl in E; [|discriminate]. injection E as ->. reflexivity.
  - intros (I & E). split; [eexists; apply table_row; split; [exact I|reflexivity]|]. intros vals J. apply table_row in J. destruct J as (_ & ->). rewrite nth_error_map, E. reflexivity.
Qed.
Lemma table_dates grid px deb yearly ids times masks f : ct_dates (surface_table grid px deb yearly ids times masks f) = if yearly then yearly_times times else times.
Proof. reflexivity. Qed.
Lemma table_well_formed grid px deb yearly ids times masks f : length masks = length times -> StronglySorted Z.lt times -> NoDup ids -> well_formed (surface_table grid px deb yearly ids times masks f).
Proof.
  intros L S1 N. split; [rewrite table_dates; destruct yearly; [apply yearly_times_sorted|exact S1]|]. split.
  - simpl. rewrite map_map. simpl. rewrite map_id. exact N.
  - intros id vals I. apply table_row in I. destruct I as (_ & ->). rewrite map_length, table_dates. unfold columns, interpolate_yearly. destruct yearly; rewrite map_length; [reflexivity|exact L].
Qed.

(** A value of a column: the one of a mask, or between the masks. *)
Lemma column_at grid px deb yearly times masks f id j v : nth_error (columns grid px deb yearly times masks f id) j = Some v <->
  if yearly then exists x, nth_error (yearly_times times) j = Some x /\ v = np_interp x (combine times (map (fun m => f (extract grid px deb m id)) masks))
  else exists m, nth_error masks j = Some m /\ v = f (extract grid px deb m id).
Proof.
  unfold columns, interpolate_yearly. destruct yearly; rewrite nth_error_map; (match goal with |- context [nth_error ?l j] => destruct (nth_error l j) as [w|] end; simpl; [split; [intro Q; injection Q as <-; eauto|intros (y & Q & ->); injection Q as ->; reflexivity]|split; [discriminate|intros (y & Q & _); discriminate]]).
Qed.
Lemma column_exists grid px deb (yearly : bool) times masks f id j : length masks = length times -> (j < length (if yearly then yearly_times times else times))%nat -> exists v, nth_error (columns grid px deb yearly times masks f id) j = Some v.
Proof.
  intros L J. destruct (nth_error (columns grid px deb yearly times masks f id) j) as [v|] eqn:E; [exists v; reflexivity|]. exfalso. apply nth_error_None in E. unfold columns, interpolate_yearly in E. destruct yearly; rewrite map_length in E; lia.
Qed.
Lemma np_interp_add {M} (f g h : M -> R) x times (masks : list M) : length masks = length times -> (forall m, h m = f m + g m) ->
  np_interp x (combine times (map h masks)) = np_interp x (combine times (map f masks)) + np_interp x (combine times (map g masks)).
Proof.
  intros L E. rewrite <- np_interp_sum by (rewrite map_length; exact L). do 2 f_equal. clear L. induction masks as [|m masks IH]; [reflexivity|]. simpl. f_equal; [apply E|exact IH].
Qed.
Lemma np_interp_const {M} (h : M -> R) x times (masks : list M) c : times <> [] -> length masks = length times -> (forall m, h m = c) -> np_interp x (combine times (map h masks)) = c.
Proof.
  intros N L E. apply Rle_antisym; apply (np_interp_between x times (map h masks) c c N); try (rewrite map_length; exact L); intros v I; apply in_map_iff in I; destruct I as (m & <- & _); rewrite E; lra.
Qed.
Lemma yearly_nonempty times j x : nth_error (yearly_times times) j = Some x -> times <> [].
Proof. intros E ->. destruct j; discriminate. Qed.
Lemma extract_sum grid px deb m id : sf_glacier (extract grid px deb m id) + sf_other (extract grid px deb m id) = pixel_area grid px id /\
  sf_ice (extract grid px deb m id) + sf_debris (extract grid px deb m id) = sf_glacier (extract grid px deb m id).
Proof. unfold extract, pixel_area. simpl. split; ring. Qed.
Lemma columns_sum grid px deb yearly times masks f g h id j : length masks = length times ->
  (forall m, f (extract grid px deb m id) + g (extract grid px deb m id) = h (extract grid px deb m id)) -> forall a b,
  nth_error (columns grid px deb yearly times masks f id) j = Some a -> nth_error (columns grid px deb yearly times masks g id) j = Some b ->
  nth_error (columns grid px deb yearly times masks h id) j = Some (a + b).
Proof.
  intros L E a b A B. apply column_at in A. apply column_at in B. apply column_at. destruct yearly.
  - destruct A as (x & A & ->), B as (y & B & ->). assert (y = x) as -> by congruence. exists x. split; [exact A|]. symmetry. apply np_interp_add; [exact L|]. intro m. symmetry. apply E.
  - destruct A as (m & A & ->), B as (m' & B & ->). assert (m' = m) as -> by congruence. exists m. split; [exact A|]. apply E.
Qed.
Lemma columns_const grid px deb yearly times masks h id j c a : length masks = length times -> (forall m, h (extract grid px deb m id) = c) -> nth_error (columns grid px deb yearly times masks h id) j = Some a -> a = c.
Proof.
  intros L E A. apply column_at in A. destruct yearly; destruct A as (x & A & ->); [|apply E]. apply np_interp_const; [exact (yearly_nonempty _ _ _ A)|exact L|exact E].
Qed.
Lemma columns_range grid px deb yearly times masks h id j lo hi a : length masks = length times -> (forall m, In m masks -> lo <= h (extract grid px deb m id) <= hi) -> nth_error (columns grid px deb yearly times masks h id) j = Some a -> lo <= a <= hi.
Proof.
  intros L E A. apply column_at in A. destruct yearly; destruct A as (x & A & ->).
  - apply np_interp_between; [exact (yearly_nonempty _ _ _ A)|rewrite map_length; exact L|]. intros v I. apply in_map_iff in I. destruct I as (m & <- & I). apply E, I.
  - apply E. exact (nth_error_In _ _ A).
Qed.

(** Pixels. *)
Lemma pixels_all grid id m : (length (filter (fun p : Z * bool => (fst p =? id)%Z && snd p)%bool (combine grid m)) <= length (filter (fun z => (z =? id)%Z) grid))%nat.
Proof.
  revert m. induction grid as [|z grid IH]; intros [|b m]; simpl; try lia. specialize (IH m). destruct (z =? id)%Z; simpl; [|exact IH]. destruct b; simpl; lia.
Qed.
Lemma pixels_sub grid id d g : Forall2 (fun a b : bool => a = true -> b = true) d g ->
  (length (filter (fun p : Z * bool => (fst p =? id)%Z && snd p)%bool (combine grid d)) <= length (filter (fun p : Z * bool => (fst p =? id)%Z && snd p)%bool (combine grid g)))%nat.
Proof.
  intro F. revert grid. induction F as [|a b d g H F IH]; intros [|z grid]; simpl; try lia. specialize (IH grid). destruct (z =? id)%Z; simpl; [|exact IH]. destruct a; [rewrite (H eq_refl)|destruct b]; simpl; lia.
Qed.
Lemma extract_range grid px deb m id : 0 <= px -> debris_on_glacier m -> let s := extract grid px deb m id in
  0 <= sf_glacier s <= pixel_area grid px id /\ 0 <= sf_ice s <= pixel_area grid px id /\ 0 <= sf_debris s <= pixel_area grid px id /\ 0 <= sf_other s <= pixel_area grid px id.
Proof.
  intros P D. unfold extract, pixel_area, pixels. simpl. pose proof (le_INR _ _ (pixels_all grid id (mk_glacier m))) as A. pose proof (le_INR _ _ (pixels_sub grid id _ _ D)) as B.
  pose proof (pos_INR (length (filter (fun p : Z * bool => (fst p =? id)%Z && snd p)%bool (combine grid (mk_debris m))))) as C. set (d := INR (length (filter _ (combine grid (mk_debris m))))) in *. set (g := INR (length (filter _ (combine grid (mk_glacier m))))) in *. set (n := INR (length (filter _ grid))) in *.
  assert (0 <= d * px) by (apply Rmult_le_pos; assumption). assert (d * px <= g * px) by (apply Rmult_le_compat_r; assumption). assert (g * px <= n * px) by (apply Rmult_le_compat_r; assumption). destruct deb; lra.
Qed.
