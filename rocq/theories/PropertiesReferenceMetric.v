(** The reference value of a metric from the observed discharge, and the skills made of it (C94). *)
From Verif Require Import BaseFacts CalendarFacts ParamSet ReferenceMetricSpec ReferenceMetricFacts.
Open Scope R_scope.

Lemma rows_values obs l : map rw_value (rows obs l) = map obs l.
Proof. unfold rows. rewrite map_map. reflexivity. Qed.
Lemma metrics_spec ev obs a b cs samples : forall values, (forall ys, In ys samples -> forall y, In y ys -> (a <= y <= b)%Z) ->
  Forall2 (fun ys v => ev (of_years obs ys) (of_years obs cs) = Ok v) samples values ->
  metrics_of ev (rows obs (flat_map days_of_year (between a b))) (rows obs (flat_map days_of_year cs)) samples = Ok values.
Proof.
  intros values H F. induction F as [|ys v samples values E F IH]; [reflexivity|]. simpl. unfold metric_of. rewrite (located obs a b ys (H ys (or_introl eq_refl))). cbn [bind]. rewrite !rows_values. unfold of_years in E. rewrite E. cbn [bind].
  rewrite IH; [reflexivity|]. intros zs I. apply H. right. exact I.
Qed.
Lemma years_count obs a b : (a < b)%Z -> (length (years_in (rows obs (flat_map days_of_year (between a b)))) <? 2)%nat = false.
Proof. intro L. rewrite years_prepared by apply between_nodup. apply Nat.ltb_ge. unfold between. rewrite map_length, seq_length. lia. Qed.
Lemma compared_order a b start stop c d : (a < b)%Z -> compared a b start stop c d -> (a <= c /\ c <= d /\ d <= b)%Z.
Proof. intros L [(_ & _ & -> & ->)|(_ & _ & A)]; lia. Qed.

(** All combinations: each sequence of observed years that is allowed is used once; the reference is the mean of their metrics. *)
Theorem c94_combinations : forall ev obs a b start stop c d exclusion, (a < b)%Z -> compared a b start stop c d ->
  exists samples, NoDup samples /\ samples <> [] /\ (forall ys, In ys samples <-> sample_for a b exclusion (between c d) ys) /\
    forall values, Forall2 (fun ys v => ev (of_years obs ys) (of_years obs (between c d)) = Ok v) samples values ->
      exists x, reference_metric ev (observed obs a b) start stop exclusion AllCombinations = Some (Ok x) /\ mean_value values x.
Proof.
  intros ev obs a b start stop c d exclusion L C. exists (combinations (between a b) (between c d) exclusion).
  assert (I : forall ys, In ys (combinations (between a b) (between c d) exclusion) <-> sample_for a b exclusion (between c d) ys).
  { intro ys. unfold combinations. rewrite filter_In, product_in, Bool.negb_true_iff, sample_spec. split; intros ((E & H) & X); (split; [split; [exact E|]|exact X]); intros y K; apply between_in; exact (H y K). }
  split; [apply NoDup_filter, product_nodup, between_nodup|]. split; [|split; [exact I|]].
  - intro Q. assert (J : sample_for a b exclusion (between c d) (map (fun z => if (z =? a)%Z then (a + 1)%Z else a) (between c d))); [|apply I in J; rewrite Q in J; exact J].
    clear -L. unfold sample_for. induction (between c d) as [|z l IH]; simpl; constructor; [|exact IH]. destruct (z =? a)%Z eqn:E; [apply Z.eqb_eq in E|apply Z.eqb_neq in E]; split; lia.
  - intros values F. exists (np_mean values). split; [|apply np_mean_spec]. unfold reference_metric. rewrite prepared by lia. rewrite (years_count obs a b L). rewrite (compared_rows obs a b start stop c d C). simpl option_map. rewrite years_prepared by apply between_nodup. f_equal.
    rewrite (metrics_spec ev obs a b (between c d) _ values); [reflexivity| |exact F]. intros ys J y K. apply I, sample_spec in J. destruct J as ((_ & J) & _). exact (J y K).
Qed.
Print Assumptions c94_combinations.
Example c94_combinations_case : compared 2001 2003 (Some (days_from_civil 2002 1 1)) (Some (days_from_civil 2003 12 31)) 2002 2003 /\ sample_for 2001 2003 true (between 2002 2003) [2003; 2001]%Z.
Proof. split; [right; repeat split; lia|]. constructor; [split; [lia|intros _; discriminate]|]. constructor; [split; [lia|intros _; discriminate]|constructor]. Qed.

(** Random samples: the first allowed ones of those drawn are used. *)
Theorem c94_random : forall ev obs a b start stop c d exclusion draws n samples, (a < b)%Z -> compared a b start stop c d ->
  Forall (sample_for a b false (between c d)) draws -> first_good (sample_for a b exclusion (between c d)) n draws samples ->
  length samples = n /\
  forall values, Forall2 (fun ys v => ev (of_years obs ys) (of_years obs (between c d)) = Ok v) samples values ->
    exists x, reference_metric ev (observed obs a b) start stop exclusion (RandomSampling draws n) = Some (Ok x) /\ mean_value values x.
Proof.
  intros ev obs a b start stop c d exclusion draws n samples L C D G. assert (Len : length samples = n) by (clear -G; induction G; simpl; congruence). split; [exact Len|].
  assert (Acc : accepted (between c d) exclusion draws n = Some samples /\ forall ys, In ys samples -> sample_for a b exclusion (between c d) ys).
  { clear -D G. induction G as [draws|n ys draws l P G IH|n ys draws l P G IH].
    - split; [destruct draws; reflexivity|intros ys []].
    - inversion D as [|? ? _ D']; subst. destruct (IH D') as (E & H). pose proof (proj2 (proj1 (sample_spec _ _ _ _ _) P)) as X. simpl. rewrite X, E. split; [reflexivity|]. intros zs [<-|K]; auto.
    - inversion D as [|? ? Dx D']; subst. destruct (IH D') as (E & H). split; [|exact H]. destruct (exclusion && excluded ys (between c d))%bool eqn:X; [simpl; rewrite X; exact E|]. exfalso. apply P. apply sample_spec. split; [exact (proj1 (proj1 (sample_spec _ _ _ _ _) Dx))|exact X]. }
  destruct Acc as (Acc & H). intros values F. exists (np_mean values). split; [|apply np_mean_spec]. unfold reference_metric. rewrite prepared by lia. rewrite (years_count obs a b L). rewrite (compared_rows obs a b start stop c d C). rewrite Acc. simpl option_map. f_equal.
  rewrite (metrics_spec ev obs a b (between c d) _ values); [reflexivity| |exact F]. intros ys J y K. apply H, sample_spec in J. destruct J as ((_ & J) & _). exact (J y K).
Qed.
Print Assumptions c94_random.
Example c94_random_case : Forall (sample_for 2001 2003 false (between 2002 2003)) [[2002; 2001]; [2003; 2001]]%Z /\ first_good (sample_for 2001 2003 true (between 2002 2003)) 1 [[2002; 2001]; [2003; 2001]]%Z [[2003; 2001]]%Z.
Proof.
  split; [repeat (constructor; [constructor; [split; [lia|discriminate]|constructor; [split; [lia|discriminate]|constructor]]|]); constructor|].
  apply fg_skip; [intro F; inversion F as [|? ? ? ? (_ & Q) _]; subst; exact (Q eq_refl eq_refl)|]. apply fg_take; [exact (proj2 c94_combinations_case)|constructor].
Qed.

(** The two series that are compared have the same days of the year; with exclusion never the same day. *)
Theorem c94_aligned : forall a b exclusion zs ys, sample_for a b exclusion zs ys ->
  Forall2 (fun p q => same_date p q /\ (exclusion = true -> p <> q)) (flat_map days_of_year ys) (flat_map days_of_year zs).
Proof.
  intros a b exclusion zs ys F. induction F as [|y z ys zs (_ & N) F IH]; [constructor|]. cbn [flat_map]. apply Forall2_app; [|exact IH]. unfold days_of_year.
  assert (G : forall l, (forall p, In p l -> In p calendar) -> Forall2 (fun p q => same_date p q /\ (exclusion = true -> p <> q)) (map (fun p => days_from_civil y (fst p) (snd p)) l) (map (fun p => days_from_civil z (fst p) (snd p)) l)); [|apply G; auto].
  intro l. induction l as [|p l IHl]; intro H; [constructor|]. simpl. constructor; [|apply IHl; intros; apply H; right; assumption]. pose proof (H p (or_introl eq_refl)) as I. destruct (proj1 (calendar_in y p) I) as ((A & B) & _). destruct (proj1 (calendar_in z p) I) as ((_ & B') & _). split.
  - exists y, z, (fst p), (snd p). split; [reflexivity|]. split; [reflexivity|]. split; apply valid_date_spec; auto.
  - intros X E. apply (N X). destruct (days_injective _ _ _ _ _ _ A B A B' E) as (Q & _). exact Q.
Qed.
Print Assumptions c94_aligned.
(** These are all days of the years but the 29th of February, in order. *)
Theorem c94_days : forall y, Sorted.StronglySorted Z.lt (days_of_year y) /\ forall z, In z (days_of_year y) <-> exists m d, valid_date y m d /\ ~ (m = 2 /\ d = 29)%Z /\ z = days_from_civil y m d.
Proof.
  intro y. split.
  - rewrite <- year_days_filter. generalize (days_from_civil y 12 31). intro b. set (a := days_from_civil y 1 1). assert (G : forall n s, Sorted.StronglySorted Z.lt (filter (fun z => negb (feb29 z)) (map (fun k => (a + Z.of_nat k)%Z) (seq s n)))); [|apply G].
    induction n as [|n IH]; intro s; simpl; [constructor|]. destruct (negb _); [|apply IH]. constructor; [apply IH|]. apply Forall_forall. intros z I. apply filter_In in I. destruct I as (I & _). apply in_map_iff in I. destruct I as (k & <- & I). apply in_seq in I. lia.
  - intro z. unfold days_of_year. rewrite in_map_iff. split.
    + intros ((m & d) & <- & I). apply (calendar_in y) in I. destruct I as (V & N). exists m, d. split; [apply valid_date_spec; exact V|]. split; [intros (-> & ->); apply N; reflexivity|reflexivity].
    + intros (m & d & V & N & ->). exists (m, d). split; [reflexivity|]. apply (calendar_in y). apply valid_date_spec in V. split; [exact V|]. intro Q. injection Q as -> ->. apply N. split; reflexivity.
Qed.
Print Assumptions c94_days.

(** The mean discharge: each day of the period is compared with the mean of the values of this day in all years. *)
Definition in_bounds (start stop : option Z) (z : Z) : Prop := (forall a, start = Some a -> (a <= z)%Z) /\ (forall b, stop = Some b -> (z <= b)%Z).
Definition leap_day (z : Z) : Prop := exists y, valid_date y 2 29 /\ z = days_from_civil y 2 29.
Lemma feb29_spec z : feb29 z = true <-> leap_day z.
Proof.
  unfold feb29, month_day. pose proof (civil_valid z) as V. destruct (civil_from_days z) as ((y & m) & d) eqn:E. destruct V as (M & D & V). rewrite Bool.andb_true_iff, !Z.eqb_eq. split.
  - intros (-> & ->). exists y. split; [apply valid_date_spec; auto|congruence].
  - intros (y' & V' & ->). apply valid_date_spec in V'. rewrite civil_of_days in E by tauto. injection E as <- <- <-. auto.
Qed.
Lemma same_md_spec p q : same_month_day p q = true <-> same_date p q.
Proof.
  unfold same_month_day, month_day. pose proof (civil_valid p) as V. pose proof (civil_valid q) as W. destruct (civil_from_days p) as ((y & m) & d) eqn:E. destruct (civil_from_days q) as ((y' & m') & d') eqn:E'. destruct V as (M & D & V). destruct W as (M' & D' & W). rewrite Bool.andb_true_iff, !Z.eqb_eq. split.
  - intros (-> & ->). exists y, y', m', d'. split; [congruence|]. split; [congruence|]. split; apply valid_date_spec; auto.
  - intros (u & v & k & j & -> & -> & V1 & V2). apply valid_date_spec in V1, V2. rewrite civil_of_days in E, E' by tauto. injection E as <- <- <-. injection E' as <- <- <-. auto.
Qed.
Lemma nanmean_present l : mean_of_present l (nanmean l).
Proof.
  unfold mean_of_present, nanmean. assert (E : present l = flat_map (fun v => match v with Some x => [x] | None => [] end) l) by (induction l as [|[x|] l IH]; simpl; congruence).
  cbv zeta. rewrite <- E. destruct (present l) as [|x xs]; [left; auto|right]. split; [discriminate|reflexivity].
Qed.
Theorem c94_mean : forall ev l start stop exclusion P, reflects P (fun r => ~ leap_day (rw_day r) /\ in_bounds start stop (rw_day r)) ->
  exists sims, reference_metric ev l start stop exclusion MeanDischarge = Some (ev sims (map rw_value (filter P l))) /\
    Forall2 (fun r v => forall Q, reflects Q (fun r' => same_date (rw_day r') (rw_day r)) -> mean_of_present (map rw_value (filter Q l)) v) (filter P l) sims.
Proof.
  intros ev l start stop exclusion P H. exists (map (fun r => mean_of_day (prepare l) (rw_day r)) (filter P l)). split.
  - unfold reference_metric, mean_discharge. f_equal. set (g := mean_of_day (prepare l)).
    set (lo := fun z : Z => match start with Some a => (a <=? z)%Z | None => true end). set (hi := fun z : Z => match stop with Some b => (z <=? b)%Z | None => true end).
    assert (F : filter P l = filter (fun r => hi (rw_day r)) (filter (fun r => lo (rw_day r)) (prepare l))).
    { unfold prepare. clear -H. induction l as [|r l IH]; [reflexivity|]. simpl. assert (E : P r = (negb (feb29 (rw_day r)) && (lo (rw_day r) && hi (rw_day r)))%bool).
      { apply Bool.eq_true_iff_eq. rewrite (H r), !Bool.andb_true_iff, Bool.negb_true_iff. unfold in_bounds. pose proof (feb29_spec (rw_day r)) as X. unfold lo, hi. destruct (feb29 (rw_day r)); split.
        - intros (A & _). exfalso. apply A. apply X. reflexivity.
        - intros (A & _). discriminate A.
        - intros (_ & A & B). split; [reflexivity|]. split; [destruct start as [u|]; [apply Z.leb_le; apply A; reflexivity|reflexivity]|destruct stop as [u|]; [apply Z.leb_le; apply B; reflexivity|reflexivity]].
        - intros (_ & A & B). split; [intro Q; apply X in Q; discriminate Q|]. split; intros u ->; apply Z.leb_le; assumption. }
      rewrite E, IH. destruct (feb29 (rw_day r)); simpl; [reflexivity|]. destruct (lo (rw_day r)); simpl; [|reflexivity]. destruct (hi (rw_day r)); reflexivity. }
    assert (Fm : forall (Q : Z -> bool) k, filter (fun p : obs_row * value => Q (rw_day (fst p))) (map (fun r => (r, g (rw_day r))) k) = map (fun r => (r, g (rw_day r))) (filter (fun r => Q (rw_day r)) k)).
    { intros Q k. induction k as [|r k IH]; [reflexivity|]. simpl. rewrite IH. destruct (Q (rw_day r)); reflexivity. }
    assert (Es : (match start with Some a => filter (fun p : obs_row * value => (a <=? rw_day (fst p))%Z) (map (fun r => (r, g (rw_day r))) (prepare l)) | None => map (fun r => (r, g (rw_day r))) (prepare l) end) = map (fun r => (r, g (rw_day r))) (filter (fun r => lo (rw_day r)) (prepare l))).
    { unfold lo. destruct start as [u|]; [apply (Fm (fun z => (u <=? z)%Z))|rewrite filter_all; auto]. }
    rewrite Es. set (k := filter (fun r => lo (rw_day r)) (prepare l)) in *.
    assert (Et : (match stop with Some b => filter (fun p : obs_row * value => (rw_day (fst p) <=? b)%Z) (map (fun r => (r, g (rw_day r))) k) | None => map (fun r => (r, g (rw_day r))) k end) = map (fun r => (r, g (rw_day r))) (filter (fun r => hi (rw_day r)) k)).
    { unfold hi. destruct stop as [u|]; [apply (Fm (fun z => (z <=? u)%Z))|rewrite filter_all; auto]. }
    rewrite Et, <- F. rewrite !map_map. reflexivity.
  - assert (G : forall r, In r (filter P l) -> forall Q, reflects Q (fun r' => same_date (rw_day r') (rw_day r)) -> mean_of_present (map rw_value (filter Q l)) (mean_of_day (prepare l) (rw_day r))).
    { intros r I Q R1. unfold mean_of_day. replace (filter (fun r0 => same_month_day (rw_day r0) (rw_day r)) (prepare l)) with (filter Q l); [apply nanmean_present|]. apply filter_In in I. destruct I as (_ & I). apply (proj1 (H r)) in I. destruct I as (I & _).
      unfold prepare. induction l as [|x l IH]; [reflexivity|]. simpl. assert (E : Q x = same_month_day (rw_day x) (rw_day r)) by (apply Bool.eq_true_iff_eq; rewrite (R1 x), same_md_spec; tauto). destruct (feb29 (rw_day x)) eqn:Fx; simpl.
      - destruct (Q x) eqn:Qx; [|exact IH]. exfalso. apply I. apply feb29_spec. apply feb29_spec in Fx. destruct Fx as (y & V & Ey). apply (R1 x) in Qx. destruct Qx as (u & v & m & d & E1 & E2 & V1 & V2). rewrite Ey in E1. apply valid_date_spec in V, V1. destruct (days_injective _ _ _ _ _ _ (proj1 V) (proj2 V) (proj1 V1) (proj2 V1) E1) as (-> & <- & <-).
        apply feb29_spec. exists v. split; [exact V2|exact E2].
      - rewrite <- E. destruct (Q x); [f_equal|]; exact IH. }
    revert G. generalize (filter P l). intros k G. induction k as [|r k IH]; [constructor|]. simpl. constructor; [apply G; left; reflexivity|]. apply IH. intros s I. apply G. right. exact I.
Qed.
Print Assumptions c94_mean.
Example c94_mean_case : reflects (fun r => negb (feb29 (rw_day r)) && (100 <=? rw_day r)%Z)%bool (fun r => ~ leap_day (rw_day r) /\ in_bounds (Some 100%Z) None (rw_day r)).
Proof.
  intro r. rewrite Bool.andb_true_iff, Bool.negb_true_iff, Z.leb_le. pose proof (feb29_spec (rw_day r)) as X. unfold in_bounds. split.
  - intros (A & B). split; [intro Q; apply X in Q; congruence|]. split; [intros u Q; injection Q as <-; exact B|discriminate].
  - intros (A & B & _). split; [destruct (feb29 (rw_day r)); [exfalso; apply A, X; reflexivity|reflexivity]|apply B; reflexivity].
Qed.

(** ** Skills *)
(** Errors become skills: no error is 1, the error of the mean of the observations is 0, and a smaller error is a higher skill.  Other metrics stay as they are. *)
Theorem c94_skill : forall evaluate metric obs,
  (is_error_metric metric = false -> forall v, to_skill evaluate v metric obs = v) /\
  (is_error_metric metric = true -> / 1000000000000 <= evaluate metric (repeat (mean_of obs) (length obs)) obs ->
    to_skill evaluate 0 metric obs = 1 /\ to_skill evaluate (evaluate metric (repeat (mean_of obs) (length obs)) obs) metric obs = 0 /\
    forall v w, v < w -> to_skill evaluate w metric obs < to_skill evaluate v metric obs).
Proof.
  intros evaluate metric obs. unfold to_skill. split; intro E; rewrite E; [reflexivity|]. simpl negb. cbv iota. intro H. unfold reference_value, benchmark. unfold mean_of in *. set (r := evaluate metric _ obs) in *. assert (P : 0 < r) by (pose proof (Rinv_0_lt_compat 1000000000000 ltac:(lra)); lra).
  cbv zeta. unfold Rltb. rewrite Rabs_right by lra. destruct (Rlt_dec r (/ 1000000000000)) as [Q|_]; [lra|]. split; [unfold Rdiv; lra|]. split; [field; lra|]. intros v w L. assert (v / r < w / r) by (apply Rmult_lt_compat_r; [apply Rinv_0_lt_compat; exact P|exact L]). lra.
Qed.
Print Assumptions c94_skill.
Lemma repeat_errors m : forall obs, map (fun p : R * R => (fst p - snd p) * (fst p - snd p)) (combine (repeat m (length obs)) obs) = map (fun x => (x - m) * (x - m)) obs.
Proof. induction obs as [|x obs IH]; [reflexivity|]. simpl. rewrite IH. f_equal. ring. Qed.
Lemma squares_sum sim obs : 0 <= Rsum (fun x => x) (map (fun p : R * R => (fst p - snd p) * (fst p - snd p)) (combine sim obs)).
Proof. revert obs. induction sim as [|x sim IH]; intros [|y obs]; simpl; try lra. pose proof (IH obs). pose proof (Rle_0_sqr (x - y)) as Q. unfold Rsqr in Q. lra. Qed.
Lemma squares_zero sim : forall obs, length sim = length obs -> Rsum (fun x => x) (map (fun p : R * R => (fst p - snd p) * (fst p - snd p)) (combine sim obs)) = 0 -> sim = obs.
Proof.
  induction sim as [|x sim IH]; intros [|y obs] E H; try discriminate E; [reflexivity|]. simpl in H. pose proof (squares_sum sim obs). pose proof (Rle_0_sqr (x - y)) as Q. unfold Rsqr in Q. f_equal; [assert ((x - y) * (x - y) = 0) as Z by lra; apply Rmult_integral in Z; destruct Z; lra|]. apply IH; [simpl in E; congruence|lra].
Qed.
Lemma error_pos sim obs : 0 <= square_error sim obs.
Proof. unfold square_error, mean_of, Rdiv. apply Rmult_le_pos; [apply squares_sum|]. rewrite map_length. destruct (length (combine sim obs)) as [|n]; [simpl; rewrite Rinv_0; lra|left; apply Rinv_0_lt_compat, lt_0_INR; lia]. Qed.
(** The root mean square error: the skill is one minus the root of the mean square error over the variance of the observations; 1 only for the observations. *)
Theorem c94_rmse : forall evaluate sim obs, (forall s o, evaluate "rmse"%string s o = rmse s o) -> length sim = length obs -> / 1000000000000 <= sqrt (variance obs) ->
  let skill := to_skill evaluate (evaluate "rmse"%string sim obs) "rmse" obs in
  skill = 1 - sqrt (square_error sim obs / variance obs) /\ skill <= 1 /\ (skill = 1 <-> sim = obs) /\ (0 < skill <-> square_error sim obs < variance obs).
Proof.
  intros evaluate sim obs H L V skill. assert (B : evaluate "rmse"%string (repeat (mean_of obs) (length obs)) obs = sqrt (variance obs)).
  { rewrite H. unfold rmse, square_error, variance. rewrite repeat_errors. reflexivity. }
  pose proof (Rinv_0_lt_compat 1000000000000 ltac:(lra)) as T. assert (Sp : 0 < sqrt (variance obs)) by lra. assert (Vp : 0 < variance obs). { destruct (Rlt_dec 0 (variance obs)) as [|Q]; [assumption|]. rewrite sqrt_neg_0 in Sp by lra. lra. }
  assert (E : skill = 1 - sqrt (square_error sim obs / variance obs)).
  { unfold skill, to_skill. replace (is_error_metric "rmse") with true by reflexivity. cbn [negb]. cbv zeta. unfold reference_value, benchmark. fold (mean_of obs). rewrite B. unfold Rltb. rewrite Rabs_right by lra. destruct (Rlt_dec _ _) as [Q|_]; [lra|]. rewrite H. unfold rmse. rewrite sqrt_div_alt by exact Vp. reflexivity. }
  pose proof (error_pos sim obs) as Ep. assert (Dp : 0 <= square_error sim obs / variance obs) by (apply Rmult_le_pos; [exact Ep|left; apply Rinv_0_lt_compat; exact Vp]). pose proof (sqrt_pos (square_error sim obs / variance obs)) as Sq. split; [exact E|]. rewrite E. split; [lra|]. split; split; intro Q.
  - assert (S0 : sqrt (square_error sim obs / variance obs) = 0) by lra. apply sqrt_eq_0 in S0; [|exact Dp]. apply Rmult_integral in S0. destruct S0 as [S0|S0]; [|pose proof (Rinv_0_lt_compat _ Vp); lra].
    unfold square_error, mean_of in S0. apply Rmult_integral in S0. apply squares_zero; [exact L|]. destruct S0 as [S0|S0]; [exact S0|]. rewrite map_length in S0. destruct (combine sim obs) as [|p l] eqn:C; [reflexivity|]. pose proof (Rinv_0_lt_compat (INR (length (p :: l))) ltac:(apply lt_0_INR; simpl; lia)). lra.
  - subst sim. assert (Z : square_error obs obs = 0). { unfold square_error, mean_of. replace (Rsum (fun x => x) (map (fun p : R * R => (fst p - snd p) * (fst p - snd p)) (combine obs obs))) with 0; [unfold Rdiv; lra|]. clear. induction obs as [|x l IH]; simpl; [reflexivity|]. rewrite <- IH. ring. }
    rewrite Z. unfold Rdiv. rewrite Rmult_0_l, sqrt_0. lra.
  - assert (S1 : sqrt (square_error sim obs / variance obs) < sqrt 1) by (rewrite sqrt_1; lra). apply sqrt_lt_0_alt in S1. apply (Rmult_lt_reg_r (/ variance obs)); [apply Rinv_0_lt_compat; exact Vp|]. rewrite Rinv_r by lra. exact S1.
  - assert (S1 : square_error sim obs / variance obs < 1). { apply (Rmult_lt_reg_r (variance obs)); [exact Vp|]. unfold Rdiv. rewrite Rmult_assoc, Rinv_l by lra. lra. } pose proof (sqrt_lt_1_alt _ 1 (conj Dp S1)) as Q'. rewrite sqrt_1 in Q'. lra.
Qed.
Print Assumptions c94_rmse.
Example c94_rmse_case : / 1000000000000 <= sqrt (variance [1; 3]).
Proof. replace (variance [1; 3]) with 1 by (unfold variance, mean_of; simpl; field). rewrite sqrt_1. lra. Qed.

(** ** What goes wrong *)
(** "The simulated and the observed series have the same length": not when the period does not consist of whole years. *)
Theorem c94_length_refuted : ~ (forall ev obs a b start stop, (a < b)%Z -> (days_from_civil a 1 1 <= start <= stop)%Z -> (stop <= days_from_civil b 12 31)%Z -> (forall s o, length s = length o -> exists v, ev s o = Ok v) ->
  exists x, reference_metric ev (observed obs a b) (Some start) (Some stop) false AllCombinations = Some (Ok x)).
Proof.
  intro H. set (ev := fun s o : list value => if (length s =? length o)%nat then Ok (Some 0) else Throw).
  destruct (H ev (fun _ => None) 2001%Z 2002%Z (days_from_civil 2001 1 1) (days_from_civil 2001 1 1)) as (x & E); [lia|vm_compute; split; discriminate|vm_compute; discriminate|intros s o Q; exists (Some 0); unfold ev; rewrite Q, Nat.eqb_refl; reflexivity|].
  revert E. unfold reference_metric. rewrite prepared by lia. rewrite years_count by lia. unfold comparison. set (df := rows _ _).
  replace (uniques (map year_of_day (date_range (days_from_civil 2001 1 1) (days_from_civil 2001 1 1)))) with [2001%Z] by (vm_compute; reflexivity).
  assert (Y : years_in df = between 2001 2002) by (unfold df; apply years_prepared, between_nodup). rewrite Y. change (combinations (between 2001 2002) [2001%Z] false) with [[2001]; [2002]]%Z. cbn [option_map metrics_of bind]. unfold metric_of at 1.
  assert (Lc : locate df [2001%Z] = Ok (rows (fun _ => None) (flat_map days_of_year [2001%Z]))) by (apply located; intros y [<-|[]]; lia). rewrite Lc. cbn [bind]. unfold ev at 1. rewrite rows_values, !map_length.
  replace (length (flat_map days_of_year [2001%Z])) with 365%nat by (cbn [flat_map]; rewrite app_nil_r, days_len; reflexivity).
  assert (C1 : length (filter (in_period (days_from_civil 2001 1 1) (days_from_civil 2001 1 1)) df) = 1%nat).
  { unfold df, in_period. rewrite (filter_rows _ (fun z => (days_from_civil 2001 1 1 <=? z) && (z <=? days_from_civil 2001 1 1))%Z%bool). unfold rows. rewrite map_length. vm_compute. reflexivity. }
  rewrite C1. cbn. intro E. discriminate E.
Qed.
Print Assumptions c94_length_refuted.
(** "A start date alone is a period from this date on": it is ignored. *)
Theorem c94_start_refuted : ~ (forall ev obs a b c, (a < c)%Z -> (c <= b)%Z -> 
  reference_metric ev (observed obs a b) (Some (days_from_civil c 1 1)) None false AllCombinations = reference_metric ev (observed obs a b) (Some (days_from_civil c 1 1)) (Some (days_from_civil b 12 31)) false AllCombinations).
Proof.
  intro H. set (ev := fun s o : list value => Ok (Some (INR (length o)))). specialize (H ev (fun _ => None) 2001%Z 2002%Z 2002%Z ltac:(lia) ltac:(lia)). revert H. unfold reference_metric. rewrite prepared by lia. rewrite years_count by lia.
  rewrite (compared_rows (fun _ => None) 2001 2002 (Some (days_from_civil 2002 1 1)) (Some (days_from_civil 2002 12 31)) 2002 2002) by (right; repeat split; lia). unfold comparison. rewrite !years_prepared by apply between_nodup.
  change (combinations (between 2001 2002) (between 2001 2002) false) with [[2001; 2001]; [2001; 2002]; [2002; 2001]; [2002; 2002]]%Z. change (combinations (between 2001 2002) (between 2002 2002) false) with [[2001]; [2002]]%Z. cbn [option_map metrics_of bind]. unfold metric_of.
  rewrite !located by (simpl; lia). cbn [bind]. unfold ev. cbn [bind]. rewrite !rows_values, !map_length. change (between 2001 2002) with [2001; 2002]%Z. change (between 2002 2002) with [2002]%Z. cbn [flat_map]. rewrite app_nil_r, app_length, !days_len. rewrite plus_INR. replace (INR 365) with 365 by (rewrite INR_IZR_INZ; reflexivity). unfold np_mean. cbn [total length]. intro E. injection E as E. simpl in E. lra.
Qed.
Print Assumptions c94_start_refuted.
(** "No simulation has a higher skill than the observations": the mean error ("me") is among the errors, but has a sign. *)
Theorem c94_bias_refuted : ~ (forall evaluate metric sim obs, (forall s o, evaluate "me"%string s o = mean_error s o) -> metric = "me"%string -> length sim = length obs ->
  to_skill evaluate (evaluate metric sim obs) metric obs <= to_skill evaluate (evaluate metric obs obs) metric obs).
Proof.
  intro H. specialize (H (fun _ => mean_error) "me"%string [0; 0] [5; 5] (fun _ _ => eq_refl) eq_refl eq_refl). unfold to_skill, reference_value, benchmark in H. replace (is_error_metric "me") with true in H by reflexivity. cbn [negb] in H. cbv zeta in H.
  unfold mean_error, mean_of in H. simpl in H. unfold Rltb in H. destruct (Rlt_dec _ _) as [Q|Q]; [lra|]. apply Q. match goal with |- Rabs ?x < _ => replace x with 0 by field end. rewrite Rabs_R0. apply Rinv_0_lt_compat. lra.
Qed.
Print Assumptions c94_bias_refuted.
(** "A perfect simulation has the skill 1": not when the observations are constant. *)
Theorem c94_constant_refuted : ~ (forall evaluate obs, (forall s o, evaluate "rmse"%string s o = rmse s o) -> obs <> [] -> to_skill evaluate (evaluate "rmse"%string obs obs) "rmse" obs = 1).
Proof.
  intro H. specialize (H (fun _ => rmse) [2; 2] (fun _ _ => eq_refl) ltac:(intro Q; discriminate Q)). unfold to_skill, reference_value, benchmark in H. replace (is_error_metric "rmse") with true in H by reflexivity. cbn [negb] in H. cbv zeta in H.
  assert (A : rmse [2; 2] [2; 2] = 0) by (unfold rmse, square_error, mean_of; simpl; match goal with |- sqrt ?x = _ => replace x with 0 by field end; apply sqrt_0). assert (B : (Rsum (fun x => x) [2; 2] / INR (length [2; 2])) = 2) by (simpl; field).
  rewrite B in H. change (repeat 2 (length [2; 2])) with [2; 2] in H. rewrite A in H. unfold Rltb in H. rewrite Rabs_R0 in H. destruct (Rlt_dec _ _) as [Q|Q]; [lra|]. apply Q, Rinv_0_lt_compat. lra.
Qed.
Print Assumptions c94_constant_refuted.
