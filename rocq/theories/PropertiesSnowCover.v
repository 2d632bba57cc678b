(** C89: the snow cover that a calibration compares with the observed one. *)
From Verif Require Import BaseFacts PeriodsFacts SnowCoverSpec GlacierBalanceFacts SnowCoverFacts.
Open Scope R_scope.

(** For every recording and every list of targets there is one value for each target: the mean over the land covers that count, weighted with the parts of the
    unit that they cover on the nearest day, of the documented curve of the water content; it is missing exactly if there is no such unit, day or cover. *)
Theorem c89_cover rc ob us cs : (sn_start rc <= sn_end rc)%Z -> 0 < so_full ob -> considered ob rc cs -> cs <> [] -> shows_units rc us cs ->
  exists vs, simulated_snow rc ob = Ok vs /\ length vs = length (so_targets ob) /\
    forall k t v, nth_error (so_targets ob) k = Some t -> nth_error vs k = Some v ->
      forall x, v = Some x <-> snow_cover_for (sn_start rc) (sn_end rc) (so_full ob) cs us t x.
Proof.
  intros H P C Ne Sh. destruct (simulated_snow_spec rc ob us cs H P C Ne Sh) as (vs & E & F). exists vs. split; [exact E|]. split; [symmetry; clear -F; induction F; simpl; congruence|].
  clear E. generalize dependent (so_targets ob). intros l F. induction F as [|t v l vs V F IH]; intros k t' v' Hk Hv; [destruct k; discriminate|]. destruct k; simpl in *; [injection Hk as <-; injection Hv as <-; exact V|exact (IH _ _ _ Hk Hv)].
Qed.
Print Assumptions c89_cover.

(** It is refused exactly if the threshold is not positive, or there are targets and no snow of the covers that were asked for was recorded. *)
Theorem c89_refuses full covers targets : make_snow_obs full covers targets = Throw <-> full <= 0.
Proof. unfold make_snow_obs, Rltb. destruct (Rlt_dec 0 full); split; intro; try discriminate; try reflexivity; lra. Qed.
Print Assumptions c89_refuses.
Lemma chosen_nil_layers rc l : chosen (fun c => In (c ++ "_snowpack:snow_content")%string (sn_labels rc)) l [] -> snow_layers rc l = Ok [].
Proof.
  intro C. remember (@nil string) as m eqn:Q. induction C as [|c l m P C IH|c l m P C IH]; [reflexivity|discriminate|]. subst. simpl. destruct (recorded_cover rc c) eqn:R'; [apply recorded_cover_spec in R'; contradiction|]. apply IH. reflexivity.
Qed.
Theorem c89_nothing_recorded rc ob : so_targets ob <> [] -> considered ob rc [] -> simulated_snow rc ob = Throw.
Proof.
  intros N (l & A & C). unfold simulated_snow. destruct (so_targets ob) as [|t ts]; [congruence|]. rewrite (asked_spec _ _ _ A), (chosen_nil_layers rc l C). reflexivity.
Qed.
Print Assumptions c89_nothing_recorded.

(** Recording what the observations request makes all the covers count. *)
Theorem c89_request rc ob : (forall s, In s (required_recordings (so_covers ob) (sn_covers rc)) -> In (label_of s) (sn_labels rc)) ->
  forall l, asked ob rc l -> considered ob rc l.
Proof.
  intros H l A. exists l. split; [exact A|]. unfold required_recordings in H. rewrite (asked_spec _ _ _ A) in H.
  assert (K : forall c, In c l -> In (c ++ "_snowpack:snow_content")%string (sn_labels rc)).
  { intros c I. specialize (H _ (in_map _ _ _ I)). unfold label_of in H. simpl in H. replace (c ++ "_snowpack:snow_content")%string with ((c ++ "_snowpack") ++ ":" ++ "snow_content")%string; [exact H|]. clear. induction c as [|ch c IH]; [reflexivity|]. simpl in *. rewrite <- IH. reflexivity. }
  clear A H. induction l as [|c l IH]; [constructor|]. apply CTake; [apply K; left; reflexivity|]. apply IH. intros c' I. apply K. right. exact I.
Qed.
Print Assumptions c89_request.

(** Tools. *)
Lemma simulated_snow_get rc ob us cs vs k t v x : (sn_start rc <= sn_end rc)%Z -> 0 < so_full ob -> considered ob rc cs -> cs <> [] -> shows_units rc us cs ->
  simulated_snow rc ob = Ok vs -> nth_error (so_targets ob) k = Some t -> nth_error vs k = Some v ->
  v = Some x <-> snow_cover_for (sn_start rc) (sn_end rc) (so_full ob) cs us t x.
Proof.
  intros H P C Ne Sh E Ht Hv. destruct (c89_cover rc ob us cs H P C Ne Sh) as (vs' & E' & _ & F). rewrite E in E'. injection E' as <-. exact (F k t v Ht Hv x).
Qed.
Lemma weighted_bounds (w : string -> R) cs fs lo hi : (forall c, In c cs -> 0 <= w c) -> Forall2 (fun c f => w c = 0 \/ lo c <= f <= hi c) cs fs ->
  Rsum (fun c => w c * lo c) cs <= Rsum (fun p => w (fst p) * snd p) (combine cs fs) <= Rsum (fun c => w c * hi c) cs.
Proof.
  intros W F. induction F as [|c f cs fs B F IH]; [simpl; lra|]. simpl. specialize (IH (fun c' I => W c' (or_intror I))). pose proof (W c (or_introl eq_refl)) as Wc.
  assert (w c * lo c <= w c * f <= w c * hi c) as K; [|lra]. destruct B as [-> |B]; [lra|]. split; apply Rmult_le_compat_l; lra.
Qed.
Lemma weighted_const (w : string -> R) cs k : Rsum (fun c => w c * k) cs = k * Rsum w cs.
Proof. induction cs as [|c cs IH]; simpl; [lra|]. rewrite IH. lra. Qed.

(** The value is a fraction. *)
Theorem c89_between rc ob us cs vs k t x : (sn_start rc <= sn_end rc)%Z -> 0 < so_full ob -> considered ob rc cs -> cs <> [] -> shows_units rc us cs ->
  (forall u, In u us -> sound_unit u) -> simulated_snow rc ob = Ok vs -> nth_error (so_targets ob) k = Some t -> nth_error vs k = Some (Some x) -> 0 <= x <= 1.
Proof.
  intros H P C Ne Sh So E Ht Hv. destruct (proj1 (simulated_snow_get rc ob us cs vs k t (Some x) x H P C Ne Sh E Ht Hv) eq_refl) as (u & i & I & _ & _ & T & fs & F & M).
  pose proof (weighted_bounds (part u i) cs fs (fun _ => 0) (fun _ => 1) (fun c _ => So u I c i)) as B.
  destruct B as (L & U). { clear -F P. induction F as [|c f cs fs D F IH]; constructor; [right; exact (depletion_range _ _ _ P D)|exact IH]. }
  pose proof (weighted_const (part u i) cs 0) as K0. pose proof (weighted_const (part u i) cs 1) as K1. simpl in *. rewrite K0 in L. rewrite K1 in U. rewrite <- M in L, U. split; apply Rmult_le_reg_r with (Rsum (part u i) cs); lra.
Qed.
Print Assumptions c89_between.

(** More snow never gives less snow cover: two runs with the same land covers. *)
Definition more_snow (us us' : list snow_unit) : Prop :=
  Forall2 (fun u u' => su_id u = su_id u' /\ (forall t c, part u t c = part u' t c) /\ forall c t, su_swe u c t <= su_swe u' c t) us us'.
Theorem c89_monotone rc rc' ob us us' cs vs vs' k t x : (sn_start rc <= sn_end rc)%Z -> sn_start rc' = sn_start rc -> sn_end rc' = sn_end rc -> 0 < so_full ob ->
  considered ob rc cs -> considered ob rc' cs -> cs <> [] -> shows_units rc us cs -> shows_units rc' us' cs -> (forall u, In u us -> sound_unit u) -> more_snow us us' ->
  simulated_snow rc ob = Ok vs -> simulated_snow rc' ob = Ok vs' -> nth_error (so_targets ob) k = Some t -> nth_error vs k = Some (Some x) ->
  exists y, nth_error vs' k = Some (Some y) /\ x <= y.
Proof.
  intros H Es Ee P C C' Ne Sh Sh' So More E E' Ht Hv.
  destruct (proj1 (simulated_snow_get rc ob us cs vs k t (Some x) x H P C Ne Sh E Ht Hv) eq_refl) as (u & i & I & Iu & D & T & fs & F & M).
  destruct (In_nth_error _ _ I) as (r & Hr).
  assert (exists u', nth_error us' r = Some u' /\ su_id u = su_id u' /\ (forall t c, part u t c = part u' t c) /\ forall c t, su_swe u c t <= su_swe u' c t) as (u' & Hr' & Eid & Ep & Le).
  { clear -More Hr. revert r Hr. induction More as [|a b l l' A B IH]; intros r Hr; [destruct r; discriminate|]. destruct r; simpl in *; [injection Hr as <-; exists b; split; [reflexivity|exact A]|exact (IH r Hr)]. }
  assert (H' : (sn_start rc' <= sn_end rc')%Z) by (rewrite Es, Ee; exact H).
  destruct (depletions_exist (so_full ob) u' i cs P) as (fs' & F').
  assert (T' : Rsum (part u' i) cs = Rsum (part u i) cs) by (apply Rsum_ext_in; intros c _; symmetry; apply Ep).
  set (y := Rsum (fun p => part u' i (fst p) * snd p) (combine cs fs') / Rsum (part u' i) cs).
  assert (Y : snow_cover_for (sn_start rc') (sn_end rc') (so_full ob) cs us' t y).
  { exists u', i. rewrite Es, Ee, T'. split; [eapply nth_error_In; exact Hr'|]. split; [congruence|]. split; [exact D|]. split; [exact T|]. exists fs'. split; [exact F'|]. unfold y. rewrite T'. field. lra. }
  destruct (c89_cover rc' ob us' cs H' P C' Ne Sh') as (vs'' & E'' & Len & G). rewrite E' in E''. injection E'' as <-.
  assert (exists v, nth_error vs' k = Some v) as (v & Hv'). { destruct (nth_error vs' k) eqn:Q; [eauto|]. apply nth_error_None in Q. rewrite Len in Q. apply nth_error_None in Q. congruence. }
  rewrite (proj2 (G k t v Ht Hv' y) Y) in Hv'. exists y. split; [exact Hv'|].
  apply Rmult_le_reg_r with (Rsum (part u i) cs); [exact T|]. rewrite M. unfold y. rewrite T'.
  replace (Rsum (fun p => part u' i (fst p) * snd p) (combine cs fs') / Rsum (part u i) cs * Rsum (part u i) cs) with (Rsum (fun p => part u' i (fst p) * snd p) (combine cs fs')) by (field; lra).
  clear -F F' Le Ep P So I. revert fs' F'. induction F as [|c f cs fs D F IH]; intros fs' F'; inversion F' as [|? f' ? fs'' D' F'']; subst; [simpl; lra|]. simpl. specialize (IH _ F''). rewrite (Ep i c) in *.
  assert (part u' i c * f <= part u' i c * f'); [|lra]. apply Rmult_le_compat_l; [rewrite <- (Ep i c); apply So; exact I|]. exact (depletion_mono _ _ _ _ _ P (Le c i) D D').
Qed.
Print Assumptions c89_monotone.

Lemma weighted_zero (w : string -> R) cs fs : (forall c, 0 <= w c) -> Forall (fun f => 0 <= f) fs -> length fs = length cs -> Rsum (fun p => w (fst p) * snd p) (combine cs fs) = 0 ->
  Forall2 (fun c f => 0 < w c -> f = 0) cs fs.
Proof.
  intros W N. revert cs. induction N as [|f fs N1 N IH]; intros cs L E; destruct cs as [|c cs]; try discriminate; [constructor|]. simpl in E.
  assert (0 <= Rsum (fun p => w (fst p) * snd p) (combine cs fs)). { apply Rsum_nonneg. intros (c', f') I. simpl. apply Rmult_le_pos; [apply W|]. rewrite Forall_forall in N. apply N. exact (in_combine_r _ _ _ _ I). }
  pose proof (Rmult_le_pos _ _ (W c) N1). constructor; [|apply IH; [simpl in L; lia|lra]]. intro Q. apply (Rmult_eq_reg_l (w c)); lra.
Qed.
(** It is 0 exactly if there is no snow on any of the land covers of the unit, and 1 exactly if they all have at least the snow of the threshold. *)
Theorem c89_extremes rc ob us cs vs k t x : (sn_start rc <= sn_end rc)%Z -> 0 < so_full ob -> considered ob rc cs -> cs <> [] -> shows_units rc us cs ->
  (forall u, In u us -> sound_unit u) -> simulated_snow rc ob = Ok vs -> nth_error (so_targets ob) k = Some t -> nth_error vs k = Some (Some x) ->
  exists u i, In u us /\ su_id u = st_unit t /\ nearest_day (sn_start rc) (sn_end rc) (st_t t) i /\
    (x = 0 <-> forall c, In c cs -> 0 < part u i c -> su_swe u c i <= 0) /\ (x = 1 <-> forall c, In c cs -> 0 < part u i c -> so_full ob <= su_swe u c i).
Proof.
  intros H P C Ne Sh So E Ht Hv. destruct (proj1 (simulated_snow_get rc ob us cs vs k t (Some x) x H P C Ne Sh E Ht Hv) eq_refl) as (u & i & I & Iu & D & T & fs & F & M).
  exists u, i. split; [exact I|]. split; [exact Iu|]. split; [exact D|]. set (w := part u i) in *. assert (W : forall c, 0 <= w c) by (intro c; apply So; exact I).
  assert (Len : length fs = length cs) by (symmetry; clear -F; induction F; simpl; congruence).
  assert (Ra : Forall (fun f => 0 <= f <= 1) fs). { clear -F P. induction F as [|c f cs fs D F IH]; constructor; [exact (depletion_range _ _ _ P D)|exact IH]. }
  split; split.
  - intros -> c Ic Pc. rewrite Rmult_0_l in M. assert (Z' : Forall2 (fun c f => 0 < w c -> f = 0) cs fs). { apply weighted_zero; [exact W| |exact Len|symmetry; exact M]. eapply Forall_impl; [|exact Ra]. simpl. intros; lra. }
    clear -F Z' Ic Pc P. induction F as [|c' f cs fs D F IH]; [contradiction|]. inversion Z'; subst. destruct Ic as [-> |Ic]; [|apply IH; assumption]. specialize (H2 Pc). subst f. inversion D; subst; lra.
  - intro A. assert (K : Rsum (fun p => w (fst p) * snd p) (combine cs fs) = 0).
    { apply Rsum_zero. intros (c, f) Ip. simpl. pose proof (in_combine_l _ _ _ _ Ip) as Ic. destruct (Req_dec (w c) 0) as [-> |N0]; [lra|]. assert (0 < w c) as Pc by (pose proof (W c); lra). specialize (A c Ic Pc).
      assert (f = 0) as ->; [|lra]. clear -F Ip A P. induction F as [|c' f' cs fs D F IH]; [contradiction|]. destruct Ip as [Q|Ip]; [|exact (IH Ip)]. injection Q as -> ->. inversion D; subst; lra. }
    rewrite K in M. apply (Rmult_eq_reg_r (Rsum w cs)); lra.
  - intros -> c Ic Pc. rewrite Rmult_1_l in M.
    assert (Z' : Forall2 (fun c f => 0 < w c -> f = 0) cs (map (fun f => 1 - f) fs)).
    { apply weighted_zero; [exact W| |rewrite map_length; exact Len|]. { apply Forall_map. eapply Forall_impl; [|exact Ra]. simpl. intros; lra. }
      clear -M Len. assert (Rsum (fun p => w (fst p) * snd p) (combine cs (map (fun f => 1 - f) fs)) = Rsum w cs - Rsum (fun p => w (fst p) * snd p) (combine cs fs)); [|lra].
      clear M. revert fs Len. induction cs as [|c cs IH]; intros fs Len; destruct fs as [|f fs]; try discriminate; simpl; [lra|]. simpl in Len. rewrite IH by lia. lra. }
    clear -F Z' Ic Pc P. induction F as [|c' f cs fs D F IH]; [contradiction|]. simpl in Z'. inversion Z'; subst. destruct Ic as [-> |Ic]; [|apply IH; assumption]. specialize (H2 Pc). assert (f = 1) by lra. subst f. inversion D as [s L1 L2|s y L1 L2 L3|s L1 L2]; subst; try lra.
  - intro A. assert (K : Rsum (fun p => w (fst p) * snd p) (combine cs fs) = Rsum w cs).
    { clear -F A P W. induction F as [|c f cs fs D F IH]; [reflexivity|]. simpl. rewrite IH by (intros; apply A; [right; assumption|assumption]). f_equal.
      destruct (Req_dec (w c) 0) as [-> |N0]; [lra|]. specialize (A c (or_introl eq_refl) ltac:(pose proof (W c); lra)). assert (f = 1) as ->; [|lra]. inversion D; subst; lra. }
    rewrite K in M. apply (Rmult_eq_reg_r (Rsum w cs)); lra.
Qed.
Print Assumptions c89_extremes.

(** As long as no land cover has more than the threshold, the value is the mean water content of the unit divided by the threshold. *)
Theorem c89_linear rc ob us cs vs k t x : (sn_start rc <= sn_end rc)%Z -> 0 < so_full ob -> considered ob rc cs -> cs <> [] -> shows_units rc us cs ->
  simulated_snow rc ob = Ok vs -> nth_error (so_targets ob) k = Some t -> nth_error vs k = Some (Some x) ->
  exists u i, In u us /\ su_id u = st_unit t /\ nearest_day (sn_start rc) (sn_end rc) (st_t t) i /\
    ((forall c, In c cs -> 0 <= su_swe u c i <= so_full ob) ->
     x * so_full ob * Rsum (part u i) cs = Rsum (fun c => part u i c * su_swe u c i) cs).
Proof.
  intros H P C Ne Sh E Ht Hv. destruct (proj1 (simulated_snow_get rc ob us cs vs k t (Some x) x H P C Ne Sh E Ht Hv) eq_refl) as (u & i & I & Iu & D & T & fs & F & M).
  exists u, i. split; [exact I|]. split; [exact Iu|]. split; [exact D|]. intro A. replace (x * so_full ob * Rsum (part u i) cs) with (so_full ob * (x * Rsum (part u i) cs)) by lra. rewrite M.
  clear -F A P. induction F as [|c f cs fs D F IH]; [simpl; lra|]. simpl. rewrite Rmult_plus_distr_l, IH by (intros; apply A; right; assumption). f_equal.
  assert (f * so_full ob = su_swe u c i) as <-; [|lra]. pose proof (A c (or_introl eq_refl)). inversion D; subst; lra.
Qed.
Print Assumptions c89_linear.

(** "A land cover that was asked for and has no snow recorded is reported": refuted, it is left out silently if another one was recorded. *)
Definition typo_unit : snow_unit := mkSU 1 (fun c => if (c =? "ground")%string then Some (fun _ => 1/4) else if (c =? "glacier")%string then Some (fun _ => 3/4) else None) (fun c _ => if (c =? "ground")%string then 0 else 100).
Definition typo_recording : snow_recording :=
  mkSnowRec 0 DAY ["ground"; "glacier"]%string [1%Z] ["ground_snowpack:snow_content"; "glacier_snowpack:snow_content"]%string
    (fun l k t => match k with O => if (l =? "ground_snowpack:snow_content")%string then Some 0 else Some 100 | _ => None end)
    (fun c => if (c =? "ground")%string then Some (fun k _ => match k with O => Some (1/4) | _ => None end) else if (c =? "glacier")%string then Some (fun k _ => match k with O => Some (3/4) | _ => None end) else None).
Example c89_case : (sn_start typo_recording <= sn_end typo_recording)%Z /\ considered (mkSnowObs 100 None [mkSnow 0 1 0]) typo_recording ["ground"; "glacier"]%string /\
  shows_units typo_recording [typo_unit] ["ground"; "glacier"]%string /\ sound_unit typo_unit /\
  snow_cover_for 0 DAY 100 ["ground"; "glacier"]%string [typo_unit] (mkSnow 0 1 0) (3/4).
Proof.
  split; [unfold typo_recording; simpl; discriminate|]. split; [|split; [|split]].
  - exists ["ground"; "glacier"]%string. split; [right; auto|]. repeat (apply CTake; [simpl; tauto|]). constructor.
  - split; [reflexivity|]. split; [repeat constructor; intros []|]. intros c [<-|[<-|[]]]; (eexists; split; [reflexivity|]; intros [|k] u t N; simpl in N; [injection N as <-; split; reflexivity|destruct k; discriminate]).
  - intros c t. unfold part, typo_unit. simpl. destruct (c =? "ground")%string; [lra|]. destruct (c =? "glacier")%string; lra.
  - exists typo_unit, 0%nat. split; [left; reflexivity|]. split; [reflexivity|]. split.
    + exists 0%Z. unfold day_index. simpl. split; [split; [reflexivity|discriminate]|]. split; [discriminate|]. split.
      * exists 0%nat, 0%Z. repeat split; discriminate.
      * intros j t' (-> & L). pose proof DAY_pos. split; [lia|]. intro E. lia.
    + unfold part, typo_unit. simpl. split; [lra|]. exists [0; 1]. split; [apply Forall2_cons; [apply Bare; simpl; lra|apply Forall2_cons; [apply Covered; simpl; lra|apply Forall2_nil]]|unfold part; simpl; lra].
Qed.
Lemma typo_read scf : read_targets scf [1%Z] (date_range 0 DAY) [mkSnow 0 1 0] = Ok [scf 0%nat 0%nat].
Proof. reflexivity. Qed.
Theorem c89_typo_refuted :
  simulated_snow typo_recording (mkSnowObs 100 (Some ["ground"; "glacer"]%string) [mkSnow 0 1 0]) = Ok [Some 0] /\
  simulated_snow typo_recording (mkSnowObs 100 (Some ["ground"; "glacier"]%string) [mkSnow 0 1 0]) = Ok [Some (3/4)] /\
  ~ In "glacer"%string (sn_covers typo_recording).
Proof.
  split; [|split]; [| |simpl; intros [Q|[Q|[]]]; discriminate].
  - unfold simulated_snow. cbn [so_targets so_covers so_full asked_covers]. change (snow_layers typo_recording ["ground"; "glacer"]%string) with (Ok [((fun k (_ : nat) => match k with O => Some (1/4) | _ => None end), sn_content typo_recording "ground_snowpack:snow_content"%string)]).
    unfold bind. etransitivity; [apply typo_read|]. do 2 f_equal.
    unfold unit_scf, total_part, covered_part. simpl. unfold Rltb. destruct (Rlt_dec 0 (0 + 1/4)); [|lra]. f_equal. unfold Rmin, Rmax. destruct (Rle_dec (0/100) 0); [|lra]. destruct (Rle_dec 0 1); lra.
  - unfold simulated_snow. cbn [so_targets so_covers so_full asked_covers].
    change (snow_layers typo_recording ["ground"; "glacier"]%string) with (Ok [((fun k (_ : nat) => match k with O => Some (1/4) | _ => None end), sn_content typo_recording "ground_snowpack:snow_content"%string); ((fun k (_ : nat) => match k with O => Some (3/4) | _ => None end), sn_content typo_recording "glacier_snowpack:snow_content"%string)]).
    unfold bind. etransitivity; [apply typo_read|]. do 2 f_equal.
    unfold unit_scf, total_part, covered_part. simpl. unfold Rltb. destruct (Rlt_dec 0 (0 + 1/4 + 3/4)); [|lra]. f_equal.
    assert (Rmin (Rmax (0/100) 0) 1 = 0) as -> by (unfold Rmin, Rmax; destruct (Rle_dec (0/100) 0); [destruct (Rle_dec 0 1); lra|lra]).
    assert (Rmin (Rmax (100/100) 0) 1 = 1) as -> by (unfold Rmin, Rmax; destruct (Rle_dec (100/100) 0); [lra|destruct (Rle_dec (100/100) 1); lra]). lra.
Qed.
Print Assumptions c89_typo_refuted.
