(** C88: the observed mass balances, as they are loaded. *)
From Verif Require Import BaseFacts CalendarFacts PeriodsFacts GlacierBalanceSpec GlacierBalanceFacts PropertiesGlacierBalance PropertiesGlacierEngine.
Open Scope R_scope.

Lemma type_spec s : (exists b, check_balance_type s = Ok b /\ type_name b = s) \/ (check_balance_type s = Throw /\ forall b, type_name b <> s).
Proof.
  unfold check_balance_type. destruct (String.eqb_spec s "annual"); [left; exists Annual; auto|]. destruct (String.eqb_spec s "winter"); [left; exists Winter; auto|].
  destruct (String.eqb_spec s "summer"); [left; exists Summer; auto|]. right. split; [reflexivity|]. intros [] E; simpl in E; congruence.
Qed.
Lemma unit_spec s : (exists f, value_unit_to_mm s = Ok f /\ millimetres s f) \/ (value_unit_to_mm s = Throw /\ forall f, ~ millimetres s f).
Proof.
  unfold value_unit_to_mm, millimetres. destruct (String.eqb_spec s "mm_we"); [left; exists 1; auto|]. destruct (String.eqb_spec s "m_we"); [left; exists 1000; auto|]. right. split; [reflexivity|]. intros f [(E & _) | (E & _)]; congruence.
Qed.
Lemma area_unit_spec s : (exists f, area_unit_to_m2 s = Ok f /\ (s = "m2" \/ s = "km2")%string) \/ (area_unit_to_m2 s = Throw /\ ~ (s = "m2" \/ s = "km2")%string).
Proof.
  unfold area_unit_to_m2. destruct (String.eqb_spec s "m2"); [left; exists 1; auto|]. destruct (String.eqb_spec s "km2"); [left; exists 1000000; auto|]. right. split; [reflexivity|]. intros [E|E]; congruence.
Qed.
Lemma month_spec m : (exists n, month_of m = Ok n /\ month_number m n) \/ (month_of m = Throw /\ forall n, ~ month_number m n).
Proof.
  destruct m as [s|n]; [|left; exists n; split; [reflexivity|constructor]]. unfold month_of, months. cbn [find fst].
  repeat match goal with
  | |- context [String.eqb ?x s] => destruct (String.eqb_spec x s) as [<-|]; [left; eexists; split; [reflexivity|]; first
      [exact (ByName _ 0 eq_refl)|exact (ByName _ 1 eq_refl)|exact (ByName _ 2 eq_refl)|exact (ByName _ 3 eq_refl)|exact (ByName _ 4 eq_refl)|exact (ByName _ 5 eq_refl)
      |exact (ByName _ 6 eq_refl)|exact (ByName _ 7 eq_refl)|exact (ByName _ 8 eq_refl)|exact (ByName _ 9 eq_refl)|exact (ByName _ 10 eq_refl)|exact (ByName _ 11 eq_refl)]|]
  end.
  right. split; [reflexivity|]. intros k H. inversion H; subst. do 12 (destruct i; [simpl in *; congruence|]). simpl in *. destruct i; discriminate.
Qed.
Lemma month_unique m n n' : month_number m n -> month_number m n' -> n = n'.
Proof.
  intros H K. destruct H; inversion K; subst; [reflexivity|]. f_equal. f_equal.
  assert (N : NoDup month_names) by (unfold month_names; repeat constructor; simpl; intuition discriminate).
  apply (proj1 (NoDup_nth_error month_names) N); [apply nth_error_Some; congruence|congruence].
Qed.
Lemma next_year t y n : (1 <= n <= 12)%Z -> moment t y n 1 -> add_years t 1 = (days_from_civil (y + 1) n 1 * DAY)%Z.
Proof.
  intros H ->. pose proof DAY_pos as P. unfold add_years. rewrite Z.div_mul, Z.mod_mul by lia. pose proof (last_day_le y n). pose proof (last_day_le (y + 1) n). rewrite civil_of_days by lia.
  rewrite Z.min_l by lia. lia.
Qed.
Lemma year_period_spec c m n r : cc_period c = YearColumn m -> month_number m n -> period_of_row c r (fst (year_period n (cr_year r))) (snd (year_period n (cr_year r))).
Proof.
  intros E M. unfold period_of_row, year_period, first_of_month. rewrite E. destruct (cr_year r) as [y|] eqn:Y; [|right; auto].
  destruct ((1 <=? n) && (n <=? 12))%Z%bool eqn:B.
  - apply andb_prop in B. destruct B as (B1 & B2). apply Z.leb_le in B1, B2. left. exists y, n, (days_from_civil y n 1 * DAY)%Z, (add_years (days_from_civil y n 1 * DAY) 1 - DAY)%Z.
    repeat split; try assumption. unfold moment. rewrite (next_year _ y n) by (auto; reflexivity). lia.
  - right. split; [|auto]. right. exists n. split; [exact M|]. intros (B1 & B2). apply Z.leb_le in B1, B2. rewrite B1, B2 in B. discriminate.
Qed.
Lemma period_unique c r a b a' b' : period_of_row c r a b -> period_of_row c r a' b' -> a = a' /\ b = b'.
Proof.
  unfold period_of_row. destruct (cc_period c); [intros (-> & ->) (-> & ->); auto| |tauto].
  intros [(y & n & t0 & t1 & Y & M & N & T0 & T1 & -> & ->) | (O & -> & ->)] [(y' & n' & t0' & t1' & Y' & M' & N' & T0' & T1' & -> & ->) | (O' & -> & ->)].
  - rewrite Y in Y'. injection Y' as <-. rewrite <- (month_unique _ _ _ M M') in *. unfold moment in *. split; f_equal; lia.
  - exfalso. destruct O' as [O|(k & K & O)]; [congruence|]. rewrite (month_unique _ _ _ K M) in O. contradiction.
  - exfalso. destruct O as [O|(k & K & O)]; [congruence|]. rewrite (month_unique _ _ _ K M') in O. contradiction.
  - auto.
Qed.

Lemma yields_filter {X} (W : X -> Prop) Sh (p : X -> bool) rows l : (forall r, In r rows -> p r = false -> ~ W r) -> yields W Sh (filter p rows) l -> yields W Sh rows l.
Proof.
  revert l. induction rows as [|r rows IH]; intros l N Y; [exact Y|]. simpl in Y. destruct (p r) eqn:P.
  - inversion Y; subst; [apply YTake|apply YSkip]; try assumption; apply IH; auto; intros; apply N; auto; right; assumption.
  - apply YSkip; [apply N; [left; reflexivity|exact P]|]. apply IH; [|exact Y]. intros; apply N; auto. right; assumption.
Qed.
(** Rows as they are added, restricted. *)
Lemma add_restrict {X} (mk : X -> row) (bands : bool) bt start stop (W : X -> Prop) (Sh : X -> target -> Prop) rows :
  (forall r, In r rows -> W r <-> usable (rw_t0 (mk r)) (rw_t1 (mk r)) (rw_value (mk r)) start stop) ->
  (forall r a b v, In r rows -> rw_t0 (mk r) = Some a -> rw_t1 (mk r) = Some b -> rw_value (mk r) = Some v -> Sh r (mkTarget a b v bt (if bands then Some (rw_lo (mk r), rw_hi (mk r)) else None))) ->
  yields W Sh rows (restrict_to_period start stop (add_targets bands bt (map mk rows))).
Proof.
  intros HW HS. induction rows as [|r rows IH]; [constructor|]. cbn [map]. replace (add_targets bands bt (mk r :: map mk rows)) with (add_targets bands bt [mk r] ++ add_targets bands bt (map mk rows))
    by (unfold add_targets; cbn [flat_map]; rewrite app_nil_r; reflexivity).
  unfold restrict_to_period at 1. rewrite filter_app. fold (restrict_to_period start stop (add_targets bands bt (map mk rows))). unfold add_targets at 1. cbn [flat_map]. rewrite app_nil_r.
  specialize (IH (fun r H => HW r (or_intror H)) (fun r a b v H => HS r a b v (or_intror H))).
  destruct (HW r (or_introl eq_refl)) as (HW1 & HW2). specialize (HS r).
  destruct (rw_value (mk r)) as [v|] eqn:V, (rw_t0 (mk r)) as [a|] eqn:A, (rw_t1 (mk r)) as [b|] eqn:B; cbn [filter app];
    try (apply YSkip; [intro K; destruct (HW1 K) as (? & ? & ? & ? & ? & ? & _); discriminate|exact IH]).
  cbn [tg_t0 tg_t1]. match goal with |- context [if negb ?c then _ else _] => destruct c eqn:Q end; cbn [negb app].
  - apply YSkip; [|exact IH]. intro K. destruct (HW1 K) as (a' & b' & v' & Ea & Eb & _ & Nb & Na). injection Ea as <-. injection Eb as <-. apply orb_prop in Q. destruct Q as [Q|Q].
    + destruct start as [s|]; [|discriminate]. apply Z.ltb_lt in Q. specialize (Nb s eq_refl). lia.
    + destruct stop as [e|]; [|discriminate]. apply Z.ltb_lt in Q. specialize (Na e eq_refl). lia.
  - apply orb_false_elim in Q. destruct Q as (Q1 & Q2). apply YTake; [|apply HS; auto; left; reflexivity|exact IH]. apply HW2. exists a, b, v. repeat split; auto.
    + intros s ->. apply Z.ltb_ge in Q1. exact Q1.
    + intros e ->. apply Z.ltb_ge in Q2. exact Q2.
Qed.
Lemma yields_weaken {X} (W W' : X -> Prop) (Sh Sh' : X -> target -> Prop) rows l : (forall r, In r rows -> W r <-> W' r) -> (forall r t, In r rows -> Sh r t -> Sh' r t) -> yields W Sh rows l -> yields W' Sh' rows l.
Proof.
  intros HW HS Y. induction Y; [constructor|apply YTake|apply YSkip]; try (apply HW; [left; reflexivity|assumption]); try (apply HS; [left; reflexivity|assumption]); try (intro K; apply (HW x (or_introl eq_refl)) in K; contradiction);
    apply IHY; intros; first [apply HW|apply HS]; auto; right; assumption.
Qed.
Lemma of_glacier_spec {X} (id : X -> string) g rows :
  (exists l, of_glacier id g rows = Ok l /\ l = filter (fun r => match g with Some g => (id r =? g)%string | None => true end) rows /\ forall x, g = Some x -> exists r, In r rows /\ id r = x) \/
  (of_glacier id g rows = Throw /\ exists x, g = Some x /\ forall r, In r rows -> id r <> x).
Proof.
  unfold of_glacier. destruct g as [g|].
  - destruct (filter (fun r => (id r =? g)%string) rows) as [|r l] eqn:F.
    + right. split; [reflexivity|]. exists g. split; [reflexivity|]. intros r Hr E. assert (In r (filter (fun r => (id r =? g)%string) rows)) as K; [|rewrite F in K; exact K]. apply filter_In. split; [exact Hr|]. apply String.eqb_eq. exact E.
    + left. exists (r :: l). split; [reflexivity|]. split; [reflexivity|]. intros x E. injection E as <-. exists r. assert (In r (filter (fun r => (id r =? g)%string) rows)) as K by (rewrite F; left; reflexivity). apply filter_In in K. destruct K as (K & E). split; [exact K|]. apply String.eqb_eq. exact E.
  - left. exists rows. split; [reflexivity|]. split; [|discriminate]. clear. induction rows; simpl; congruence.
Qed.

(** A call answers exactly if what it names is known and the glacier has rows; then every row of the glacier with a value and a period inside the limits gives
    one target, in the order of the file, with the value in millimetres; no other row does. *)
Theorem c88_csv c rows :
  (answerable c rows <-> exists l, from_csv c rows = Ok l) /\
  (forall l, from_csv c rows = Ok l -> yields (row_wanted c) (row_shows c) rows l).
Proof.
  unfold from_csv, answerable.
  destruct (type_spec (cc_type c)) as [(bt & -> & T) | (-> & T)]; cbn [bind]; [|split; [split; [intros ((b & B) & _); exfalso; exact (T b B)|intros (l & L); discriminate]|intros l L; discriminate]].
  destruct (unit_spec (cc_value_unit c)) as [(f & -> & U) | (-> & U)]; cbn [bind]; [|split; [split; [intros (_ & (b & B) & _); exfalso; exact (U b B)|intros (l & L); discriminate]|intros l L; discriminate]].
  destruct (area_unit_spec (cc_area_unit c)) as [(f' & -> & Au) | (-> & Au)]; cbn [bind]; [|split; [split; [intros (_ & _ & B & _); exfalso; exact (Au B)|intros (l & L); discriminate]|intros l L; discriminate]].
  destruct (of_glacier_spec cr_id (cc_glacier c) rows) as [(mine & -> & M & Fd) | (-> & x & G & Nf)]; cbn [bind].
  2:{ split; [split; [intros (_ & _ & _ & B & _); exfalso; destruct (B x G) as (r & R1 & R2); exact (Nf r R1 R2)|intros (l & L); discriminate]|intros l L; discriminate]. }
  assert (Step : forall (mk : csv_row -> row), 
    (forall r, rw_value (mk r) = option_map (fun v => v * f) (cr_value r) /\ rw_lo (mk r) = cr_lo r /\ rw_hi (mk r) = cr_hi r /\ period_of_row c r (rw_t0 (mk r)) (rw_t1 (mk r))) ->
    yields (row_wanted c) (row_shows c) rows (restrict_to_period (cc_start c) (cc_end c) (add_targets (cc_bands c) bt (map mk mine)))).
  { intros mk Mk. subst mine. apply (yields_filter _ _ (fun r => match cc_glacier c with Some g => (cr_id r =? g)%string | None => true end)).
    { intros r _ Q (Hg & _). destruct (cc_glacier c) as [g|]; [|discriminate]. apply String.eqb_neq in Q. apply Q, Hg. reflexivity. }
    apply add_restrict.
    - intros r Hr. apply filter_In in Hr. destruct Hr as (_ & Hr). destruct (Mk r) as (V & _ & _ & P). unfold row_wanted. split.
      + intros (_ & a & b & P' & a0 & b0 & x & Ea & Eb & Ev & N1 & N2). destruct (period_unique _ _ _ _ _ _ P P') as (-> & ->). exists a0, b0, (x * f). rewrite V, Ev. auto.
      + intros (a0 & b0 & x & Ea & Eb & Ev & N1 & N2). split. { intros g G. rewrite G in Hr. apply String.eqb_eq. exact Hr. }
        rewrite V in Ev. destruct (cr_value r) as [y|]; [|discriminate]. exists (rw_t0 (mk r)), (rw_t1 (mk r)). split; [exact P|]. exists a0, b0, y. auto.
    - intros r a b v _ Ea Eb Ev. destruct (Mk r) as (V & Lo & Hi & P). rewrite V in Ev. destruct (cr_value r) as [y|] eqn:Y; [|discriminate]. injection Ev as <-.
      exists f, y. cbn [tg_value tg_type tg_t0 tg_t1 tg_band]. rewrite <- Ea, <- Eb, Lo, Hi. split; [exact U|]. split; [exact Y|]. split; [reflexivity|]. split; [exact T|]. split; [exact P|reflexivity]. }
  assert (An : (exists b, type_name b = cc_type c) /\ (exists f, millimetres (cc_value_unit c) f)) by (split; [exists bt|exists f]; assumption).
  unfold csv_rows. destruct (cc_period c) as [|m|] eqn:Pc; cbn [bind].
  - split; [split; [intros _; eexists; reflexivity|intros _; exact (conj (proj1 An) (conj (proj2 An) (conj Au (conj Fd I))))]|]. intros l L. injection L as <-. apply Step. intro r. cbn [rw_value rw_lo rw_hi rw_t0 rw_t1]. repeat split. unfold period_of_row. rewrite Pc. auto.
  - destruct (month_spec m) as [(n & -> & Mn) | (-> & Mn)]; cbn [bind].
    + split; [split; [intros _; eexists; reflexivity|intros _; exact (conj (proj1 An) (conj (proj2 An) (conj Au (conj Fd (ex_intro _ n Mn)))))]|]. intros l L. injection L as <-. apply Step. intro r. cbn [rw_value rw_lo rw_hi rw_t0 rw_t1]. repeat split. apply (year_period_spec c m n r Pc Mn).
    + split; [split; [intros (_ & _ & _ & _ & n & N); exfalso; exact (Mn n N)|intros (l & L); discriminate]|intros l L; discriminate].
  - split; [split; [intros (_ & _ & _ & _ & F); contradiction|intros (l & L); discriminate]|intros l L; discriminate].
Qed.
Print Assumptions c88_csv.

(** The periods of successive years follow one another: the day after the end of one is the start of the next. *)
Theorem c88_years c m r r' y : cc_period c = YearColumn m -> cr_year r = Some y -> cr_year r' = Some (y + 1)%Z ->
  forall t0 t1 t0' t1', period_of_row c r (Some t0) (Some t1) -> period_of_row c r' (Some t0') (Some t1') -> (t1 + DAY = t0' /\ t0 < t0')%Z.
Proof.
  intros E Y Y' t0 t1 t0' t1' P P'. unfold period_of_row in *. rewrite E in *.
  destruct P as [(z & n & s0 & s1 & Z1 & M & N & T0 & T1 & A & B) | (_ & K & _)]; [|discriminate]. destruct P' as [(z' & n' & s0' & s1' & Z1' & M' & N' & T0' & T1' & A' & B') | (_ & K & _)]; [|discriminate].
  injection A as <-. injection B as <-. injection A' as <-. injection B' as <-. rewrite Y in Z1. injection Z1 as <-. rewrite Y' in Z1'. injection Z1' as <-. rewrite (month_unique _ _ _ M' M) in *.
  unfold moment in *. subst. pose proof DAY_pos. split; [lia|].
  assert (days_from_civil y n 1 < days_from_civil (y + 1) n 1)%Z; [|nia].
  rewrite <- !month_start_of by lia. pose proof (month_start_mono (12 * y + (n - 1)) 12). replace (12 * (y + 1) + (n - 1))%Z with (12 * y + (n - 1) + Z.of_nat 12)%Z by lia. lia.
Qed.
Print Assumptions c88_years.
Example c88_years_case : exists c m r r' y t0 t1 t0' t1', cc_period c = YearColumn m /\ cr_year r = Some y /\ cr_year r' = Some (y + 1)%Z /\
  period_of_row c r (Some t0) (Some t1) /\ period_of_row c r' (Some t0') (Some t1').
Proof.
  set (c := mkCall "annual" "m_we" "km2" None (YearColumn (MonthName "october")) false None None). set (row := fun y => mkCsv "B43" None None (Some y) (Some 1) None None).
  exists c, (MonthName "october"), (row 2015%Z), (row 2016%Z), 2015%Z. pose proof (fun y => year_period_spec c _ _ (row y) eq_refl (ByName _ 9 eq_refl)) as P. pose proof (P 2015%Z) as P1. pose proof (P 2016%Z) as P2.
  do 4 eexists. do 3 (split; [reflexivity|]). split; [exact P1|exact P2].
Qed.

(** GLAMOS files. *)
Lemma types_spec l : (exists bts, check_types l = Ok bts /\ map type_name bts = l) \/ (check_types l = Throw /\ exists s, In s l /\ forall b, type_name b <> s).
Proof.
  induction l as [|s l IH]; [left; exists []; auto|]. simpl. destruct (type_spec s) as [(b & -> & B) | (-> & B)]; cbn [bind].
  - destruct IH as [(bts & -> & M) | (-> & x & I & N)]; cbn [bind]; [left; exists (b :: bts); simpl; split; [reflexivity|congruence]|right; split; [reflexivity|]; exists x; auto].
  - right. split; [reflexivity|]. exists s. auto.
Qed.
Lemma restrict_flat {X} start stop (f : X -> list target) l : restrict_to_period start stop (flat_map f l) = concat (map (fun x => restrict_to_period start stop (f x)) l).
Proof. unfold restrict_to_period. induction l; simpl; [reflexivity|]. rewrite filter_app. congruence. Qed.
Lemma yields_first (W : glamos_row -> Prop) Sh raw l : (forall r, W r -> gr_start r <> None) -> yields W Sh (from_first_date raw) l -> yields W Sh raw l.
Proof. intros N. induction raw as [|r raw IH]; [auto|]. simpl. destruct (gr_start r) eqn:G; [auto|]. intro Y. apply YSkip; [|auto]. intro K. exact (N r K G). Qed.
Lemma first_date_spec raw : (from_first_date raw = [] <-> forall r, In r raw -> gr_start r = None) /\ forall r, gr_start r <> None -> In r (from_first_date raw) <-> In r raw.
Proof.
  induction raw as [|x raw (I1 & I2)]; [simpl; split; [split; [intros _ r []|reflexivity]|reflexivity]|]. simpl. destruct (gr_start x) eqn:G.
  - split; [split; [discriminate|intro H; specialize (H x (or_introl eq_refl)); congruence]|reflexivity].
  - split; [rewrite I1; split; [intros H r [<-|R']; auto|auto]|]. intros r N. rewrite (I2 r N). split; [auto|]. intros [<-|K]; [contradiction|exact K].
Qed.
Lemma season_row bt r a b v : season bt r a b v <-> a = rw_t0 (glamos_target_row bt r) /\ b = rw_t1 (glamos_target_row bt r) /\ v = rw_value (glamos_target_row bt r).
Proof. destruct bt; simpl; tauto. Qed.

(** For each asked type of balance, in order, each row of the glacier with its dates and a value gives one target; winter and summer share the year of the
    annual balance. *)
Theorem c88_glamos kind glacier types start stop raw :
  ((exists l, from_glamos kind glacier types start stop raw = Ok l) <->
     (kind = "whole" \/ kind = "elevationbins")%string /\ (forall s, In s types -> exists b, type_name b = s) /\ (exists r, In r raw /\ gr_start r <> None) /\
     (forall g, glacier = Some g -> exists r, In r raw /\ gr_id r = g /\ gr_start r <> None /\ gr_end r <> None)) /\
  (forall l, from_glamos kind glacier types start stop raw = Ok l ->
     exists parts, l = concat parts /\
       Forall2 (fun s part => exists bt, type_name bt = s /\ yields (glamos_wanted glacier start stop bt) (glamos_shows (kind =? "elevationbins")%string bt) raw part) types parts).
Proof.
  unfold from_glamos. destruct ((kind =? "whole") || (kind =? "elevationbins"))%string%bool eqn:K; cbn [negb].
  2:{ split; [split; [intros (l & L); discriminate|]|intros l L; discriminate]. intros (Q & _). exfalso. apply orb_false_elim in K. destruct K as (K1 & K2). apply String.eqb_neq in K1, K2. destruct Q; contradiction. }
  assert (kind = "whole" \/ kind = "elevationbins")%string as Kn. { apply orb_prop in K. destruct K as [K|K]; apply String.eqb_eq in K; auto. }
  destruct (types_spec types) as [(bts & -> & T) | (-> & s & I & N)]; cbn [bind].
  2:{ split; [split; [intros (l & L); discriminate|]|intros l L; discriminate]. intros (_ & Q & _). exfalso. destruct (Q s I) as (b & B). exact (N b B). }
  assert (Kt : forall s, In s types -> exists b, type_name b = s). { intros s H. rewrite <- T in H. apply in_map_iff in H. destruct H as (b & E & _). exists b. exact E. }
  unfold read_glamos. pose proof (first_date_spec raw) as (F1 & F2). destruct (from_first_date raw) as [|r0 q] eqn:F; cbn [bind].
  { split; [split; [intros (l & L); discriminate|]|intros l L; discriminate]. intros (_ & _ & (r & R1 & R2) & _). exfalso. apply R2. apply (proj1 F1 eq_refl r R1). }
  assert (Kd : exists r, In r raw /\ gr_start r <> None).
  { exists r0. destruct (gr_start r0) eqn:G0.
    - split; [|discriminate]. apply F2; [congruence|left; reflexivity].
    - exfalso. clear -F G0. induction raw as [|x raw IH]; [discriminate|]. simpl in F. destruct (gr_start x) eqn:Gx; [injection F as <- _; congruence|auto]. }
  set (both := fun r => match gr_start r, gr_end r with Some _, Some _ => true | _, _ => false end).
  assert (Bo : forall r, both r = true <-> gr_start r <> None /\ gr_end r <> None) by (intro r; unfold both; destruct (gr_start r), (gr_end r); split; try discriminate; try tauto; intros _; split; discriminate).
  destruct (of_glacier_spec gr_id glacier (filter both (r0 :: q))) as [(mine & -> & M & Fd) | (-> & x & G & Nf)]; cbn [bind].
  2:{ split; [split; [intros (l & L); discriminate|]|intros l L; discriminate]. intros (_ & _ & _ & Q). exfalso. destruct (Q x G) as (r & R1 & R2 & R3 & R4). apply (Nf r); [|exact R2]. apply filter_In. split; [apply F2; assumption|apply Bo; auto]. }
  split.
  - split; [|intros _; eexists; reflexivity]. intros _. split; [exact Kn|]. split; [exact Kt|]. split; [exact Kd|]. intros g G. destruct (Fd g G) as (r & R1 & R2). apply filter_In in R1. destruct R1 as (R1 & R3). apply Bo in R3.
    exists r. split; [apply F2; [tauto|exact R1]|]. split; [exact R2|exact R3].
  - intros l L. injection L as <-. rewrite restrict_flat. eexists. split; [reflexivity|]. rewrite <- T. clear T Kt. induction bts as [|bt bts IH]; [constructor|]. cbn [map]. constructor; [|exact IH].
    exists bt. split; [reflexivity|]. apply yields_first; [intros r (_ & Q & _); exact Q|]. rewrite F. apply (yields_filter _ _ both). { intros r _ Q (_ & Q1 & Q2 & _). assert (both r = true) by (apply Bo; auto). congruence. }
    subst mine. apply (yields_filter _ _ (fun r => match glacier with Some g => (gr_id r =? g)%string | None => true end)).
    { intros r _ Q (Hg & _). destruct glacier as [g|]; [|discriminate]. apply String.eqb_neq in Q. apply Q, Hg. reflexivity. }
    apply add_restrict.
    + intros r Hr. apply filter_In in Hr. destruct Hr as (Hr & Hg). apply filter_In in Hr. destruct Hr as (_ & Hb). apply Bo in Hb. split.
      * intros (_ & _ & _ & a & b & v & Sn & U). apply season_row in Sn. destruct Sn as (-> & -> & ->). exact U.
      * intro U. split; [intros g G; rewrite G in Hg; apply String.eqb_eq; exact Hg|]. split; [tauto|]. split; [tauto|]. do 3 eexists. split; [apply season_row; auto|exact U].
    + intros r a b v _ Ea Eb Ev. split; [apply season_row; cbn [tg_t0 tg_t1 tg_value]; auto|]. split; [reflexivity|]. cbn [tg_band]. destruct bt; reflexivity.
Qed.
Print Assumptions c88_glamos.

(** ** Gaps *)
(** A month that does not exist is not refused if it is given by its number: the answer is that there are no observations. *)
Theorem c88_month_refuted : ~ (forall c rows m, cc_period c = YearColumn m -> (forall n, month_number m n -> ~ (1 <= n <= 12)%Z) -> forall l, from_csv c rows <> Ok l).
Proof.
  intro Claim. apply (Claim (mkCall "annual" "m_we" "km2" None (YearColumn (MonthNumber 13)) false None None) [mkCsv "B43" None None (Some 2015%Z) (Some 1) None None] (MonthNumber 13) eq_refl) with (l := []); [|reflexivity].
  intros n H. inversion H; subst. lia.
Qed.
Print Assumptions c88_month_refuted.
(** A row whose limits of the band are missing becomes a target that no run can ever answer. *)
Theorem c88_band_refuted :
  exists c r t, from_csv c [r] = Ok [t] /\ cr_value r <> None /\ forall rc, simulated rc [t] = Throw \/ simulated rc [t] = Ok [None].
Proof.
  set (c := mkCall "annual" "m_we" "km2" None DateColumns true None None). set (r := mkCsv "B43" (Some 0%Z) (Some DAY) None (Some 1) None (Some 3000)).
  exists c, r, (mkTarget 0 DAY (1 * 1000) Annual (Some (None, Some 3000))). split; [reflexivity|]. split; [discriminate|]. intro rc. unfold simulated.
  destruct (rc_covers rc =? 0)%nat; [auto|]. assert (Et : exists o, elevations (rc_table rc) (rc_units rc) = Throw \/ elevations (rc_table rc) (rc_units rc) = Ok o).
  { induction (rc_units rc) as [|u us (o & IH)]; [exists []; auto|]. simpl. destruct (lookup_id (ur_id u) (rc_table rc)) as [e|]; [|exists []; auto]. destruct IH as [-> | ->]; simpl; eexists; eauto. Unshelve. exact []. }
  destruct Et as (o & [-> | ->]); [auto|]. cbn [bind simulated_targets]. unfold simulated_target. cbn [tg_t0 tg_t1 tg_band].
  assert (Ei : forall time d, date_index time d = Throw \/ exists x, date_index time d = Ok x). { intros time d. unfold date_index. destruct time; [auto|]. destruct (_ || _)%bool; right; eexists; reflexivity. }
  destruct (Ei (date_range (rc_start rc) (rc_end rc)) 0%Z) as [-> | (x & ->)]; cbn [bind]; [auto|]. destruct (Ei (date_range (rc_start rc) (rc_end rc)) DAY) as [-> | (y & ->)]; cbn [bind]; [auto|].
  destruct x as [x|], y as [y|]; cbn [bind]; try auto. destruct (y <=? x)%nat; [auto|].
  assert (flat_map (masked (Some (None, Some 3000)) x y) (combine (rc_units rc) o) = []) as ->; [|auto].
  induction (combine (rc_units rc) o) as [|u us IH]; [reflexivity|]. simpl. rewrite IH, app_nil_r. unfold masked. destruct (unit_balance (fst u) x y), (glacier_weight (fst u) x y); try reflexivity. cbn [in_band]. rewrite andb_false_r. reflexivity.
Qed.
Print Assumptions c88_band_refuted.

(** The first day of the period of an observation is not in the simulated balance: here 10 mm of snow fell on it. *)
Definition first_day : glacier_unit := mkGU 7 2000000 2500 true (fun d => if (d =? 0)%nat then 0 else 10) (fun _ => 0) (fun _ => 1 / 2).
Definition first_day_weather : weather := mkW (fun d => if (d =? 1)%nat then 10 else 0) (fun _ => 0) (fun _ => 0) (fun _ => 0).
Theorem c87_first_day_refuted :
  ~ (forall start stop tab gs weather_of t B i0 i1 sel, (start <= stop)%Z -> describes tab gs ->
     (forall g, In g gs -> snow_follows g (weather_of g) /\ melt_as_is g (weather_of g)) -> simulated (recording_of start stop tab gs) [t] = Ok [Some B] ->
     nearest_day start stop (tg_t0 t) i0 -> nearest_day start stop (tg_t1 t) i1 -> chosen (counts (tg_band t) i0 i1) gs sel ->
     B * area_of sel i0 i1 = Rsum (fun g => Rsum (fun d => (w_snowfall (weather_of g) d + w_refreezing (weather_of g) d) - (w_snowmelt (weather_of g) d + w_icemelt (weather_of g) d)) (days_of i0 i1) * mean_area g i0 i1) sel).
Proof.
  intro Claim. pose proof DAY_pos as PD. set (t := mkTarget DAY (2 * DAY) 0 Annual None).
  assert (N0 : nearest_day 0 (2 * DAY) DAY 1) by (apply nearest_exact; [lia|split; lia]). assert (N1 : nearest_day 0 (2 * DAY) (2 * DAY) 2) by (apply nearest_exact; [lia|split; lia]).
  assert (Ar : mean_area first_day 1 2 = 1000000). { rewrite steady_area; [simpl; lra|intro; reflexivity|lia]. }
  assert (C : chosen (counts None 1 2) [first_day] [first_day]). { constructor; [|constructor]. split; [reflexivity|]. split; [rewrite Ar; lra|constructor]. }
  assert (D : describes [(7%Z, 2500)] [first_day]). { split; [repeat constructor; simpl; tauto|]. intros g [<-|[]]. left. reflexivity. }
  assert (E : simulated (recording_of 0 (2 * DAY) [(7%Z, 2500)] [first_day]) [t] = Ok [Some 0]).
  { apply simulated_one; [lia|exact D|]. exists 1%nat, 2%nat, [first_day]. split; [exact N0|]. split; [exact N1|]. split; [lia|]. split; [exact C|]. split; [discriminate|].
    unfold mean_balance, area_of. cbn [Rsum]. rewrite Ar. unfold balance, days_after. simpl. lra. }
  specialize (Claim 0%Z (2 * DAY)%Z [(7%Z, 2500)] [first_day] (fun _ => first_day_weather) t 0 1%nat 2%nat [first_day] ltac:(lia) D).
  assert (W : forall g, In g [first_day] -> snow_follows g first_day_weather /\ melt_as_is g first_day_weather). { intros g [<-|[]]. split; [intros [|d]; simpl; lra|intro; reflexivity]. }
  specialize (Claim W E N0 N1 C). unfold area_of in Claim. cbn [Rsum] in Claim. rewrite Ar in Claim. unfold days_of in Claim. simpl in Claim. lra.
Qed.
Print Assumptions c87_first_day_refuted.

(** ** Cases *)
Lemma first_day_area i0 i1 : (i0 <= i1)%nat -> mean_area first_day i0 i1 = 1000000.
Proof. intro L. rewrite steady_area; [simpl; lra|intro; reflexivity|exact L]. Qed.
Lemma first_day_described : describes [(9%Z, 800); (7%Z, 2500)] [first_day].
Proof. split; [repeat constructor; simpl; intuition discriminate|]. intros g [<-|[]]. right. left. reflexivity. Qed.
Lemma first_day_for (i0 i1 : nat) ty band : (i0 < i1)%nat -> (i1 <= 2)%nat -> within_band 2500 band ->
  balance_for 0 (2 * DAY) [first_day] (mkTarget (Z.of_nat i0 * DAY) (Z.of_nat i1 * DAY) 0 ty band) (balance first_day i0 i1).
Proof.
  intros L U W. pose proof DAY_pos. exists i0, i1, [first_day]. cbn [tg_t0 tg_t1 tg_band]. split; [apply nearest_exact; [lia|split; nia]|]. split; [apply nearest_exact; [lia|split; nia]|]. split; [exact L|].
  split; [|split; [discriminate|]].
  - constructor; [|constructor]. split; [reflexivity|]. split; [rewrite first_day_area by lia; lra|exact W].
  - unfold mean_balance, area_of. simpl. rewrite Rplus_0_r, Rplus_0_r. reflexivity.
Qed.
Lemma first_day_for_eq (i0 i1 : nat) t ty band B : (i0 < i1)%nat -> (i1 <= 2)%nat -> within_band 2500 band -> balance first_day i0 i1 = B ->
  t = mkTarget (Z.of_nat i0 * DAY) (Z.of_nat i1 * DAY) 0 ty band -> balance_for 0 (2 * DAY) [first_day] t B.
Proof. intros. subst. apply first_day_for; assumption. Qed.
(** The hypotheses of [c87_seasons]: a year of two days. *)
Example c87_seasons_case :
  describes [(9%Z, 800); (7%Z, 2500)] [first_day] /\ (forall g, In g [first_day] -> steady g) /\
  simulated (recording_of 0 (2 * DAY) [(9%Z, 800); (7%Z, 2500)] [first_day])
    [mkTarget 0 (2 * DAY) 0 Annual None; mkTarget 0 DAY 0 Winter None; mkTarget DAY (2 * DAY) 0 Summer None] = Ok [Some 10; Some 10; Some 0].
Proof.
  pose proof DAY_pos. split; [exact first_day_described|]. split; [intros g [<-|[]] d; reflexivity|].
  destruct (c87_balance 0 (2 * DAY) _ _ [mkTarget 0 (2 * DAY) 0 Annual None; mkTarget 0 DAY 0 Winter None; mkTarget DAY (2 * DAY) 0 Summer None] ltac:(lia) first_day_described) as (vs & E & Len & F).
  destruct vs as [|a [|b [|c [|]]]]; try discriminate. rewrite E.
  rewrite (proj2 (F 0%nat _ a eq_refl eq_refl 10)), (proj2 (F 1%nat _ b eq_refl eq_refl 10)), (proj2 (F 2%nat _ c eq_refl eq_refl 0)); [reflexivity| | |].
  - apply (first_day_for_eq 1 2 _ Summer None); [lia|lia|constructor|unfold balance; simpl; lra|f_equal; lia].
  - apply (first_day_for_eq 0 1 _ Winter None); [lia|lia|constructor|unfold balance; simpl; lra|f_equal; lia].
  - apply (first_day_for_eq 0 2 _ Annual None); [lia|lia|constructor|unfold balance; simpl; lra|f_equal; lia].
Qed.
(** The hypotheses of [c87_bands]: two bands, one of them without glacier. *)
Example c87_bands_case :
  (forall g, In g [first_day] -> shared_out [(2000, 3000); (3000, 4000)] (gu_elevation g)) /\
  exists vs, simulated (recording_of 0 (2 * DAY) [(9%Z, 800); (7%Z, 2500)] [first_day])
    (mkTarget 0 (2 * DAY) 0 Annual None :: map (band_target 0 (2 * DAY)) [(2000, 3000); (3000, 4000)]) = Ok (Some 10 :: vs) /\ vs = [Some 10; None].
Proof.
  pose proof DAY_pos. split; [intros g [<-|[]]; exists [], 2000, 3000, [(3000, 4000)]; split; [reflexivity|]; split; [simpl; lra|]; intros b [<-|[]]; simpl; lra|].
  destruct (c87_balance 0 (2 * DAY) _ _ (mkTarget 0 (2 * DAY) 0 Annual None :: map (band_target 0 (2 * DAY)) [(2000, 3000); (3000, 4000)]) ltac:(lia) first_day_described) as (vs & E & Len & F).
  destruct vs as [|a [|b [|c [|]]]]; try discriminate. exists [b; c]. rewrite E.
  rewrite (proj2 (F 0%nat _ a eq_refl eq_refl 10)), (proj2 (F 1%nat _ b eq_refl eq_refl 10)).
  - split; [reflexivity|]. f_equal. f_equal. destruct c as [x|]; [|reflexivity]. exfalso. destruct (proj1 (F 2%nat _ (Some x) eq_refl eq_refl x) eq_refl) as (i0 & i1 & sel & _ & _ & _ & C & Ne & _).
    cbn [band_target tg_band fst snd] in C. inversion C as [|? ? ? (_ & _ & W)|? ? ? ? C']; subst; [inversion W; subst; simpl in *; lra|]. inversion C'; subst. congruence.
  - apply (first_day_for_eq 0 2 _ Annual (Some (Some 2000, Some 3000))); [lia|lia|constructor; lra|unfold balance; simpl; lra|unfold band_target; f_equal; lia].
  - apply (first_day_for_eq 0 2 _ Annual None); [lia|lia|constructor|unfold balance; simpl; lra|f_equal; lia].
Qed.
(** A file of two glaciers: the row without a value and the one of the other glacier are left out. *)
Local Open Scope string_scope.
Local Open Scope R_scope.
Example c88_csv_case :
  let c := mkCall "annual" "m_we" "km2" (Some "B43") (YearColumn (MonthName "october")) false None None in
  let row id y v := mkCsv id None None (Some y) v None None in
  exists t, from_csv c [row "B43" 2015%Z (Some (-1)); row "B43" 2016%Z None; row "A10" 2015%Z (Some 2)] = Ok [t] /\ tg_value t = -1 * 1000 /\
    tg_t0 t = (days_from_civil 2015 10 1 * DAY)%Z /\ tg_t1 t = (days_from_civil 2016 9 30 * DAY)%Z.
Proof. eexists. split; [reflexivity|]. split; [reflexivity|]. split; reflexivity. Qed.
Example c88_glamos_case :
  let r := mkGlamos "B43" (Some 0%Z) (Some (200 * DAY)%Z) (Some (365 * DAY)%Z) (Some 1200) (Some (-1500)) (Some (-300)) None None in
  let head := mkGlamos "" None None None None None None None None in
  from_glamos "whole" (Some "B43") ["winter"; "summer"] None None [head; r]%string =
    Ok [mkTarget 0 (200 * DAY) 1200 Winter None; mkTarget (200 * DAY) (365 * DAY) (-1500) Summer None].
Proof. reflexivity. Qed.
