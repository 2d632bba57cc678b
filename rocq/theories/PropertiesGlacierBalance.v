(** C87: the mass balance of the glaciers that a calibration compares with the observed one. *)
From Verif Require Import BaseFacts PeriodsFacts GlacierBalanceSpec GlacierBalanceFacts.
Open Scope R_scope.

(** For every run of a model with one glacier cover and every list of targets there is one value for each target; it is the mean of the documented balances of
    the units that have glacier in the period and lie in the band, weighted with the mean areas of their glaciers; it is missing exactly if there is none
    (the period is not in the run, or has no two days, or there is no glacier in the band). *)
Theorem c87_balance start stop tab gs targets : (start <= stop)%Z -> describes tab gs ->
  exists vs, simulated (recording_of start stop tab gs) targets = Ok vs /\ length vs = length targets /\
    forall k t v, nth_error targets k = Some t -> nth_error vs k = Some v -> forall B, v = Some B <-> balance_for start stop gs t B.
Proof.
  intros H D. destruct (simulated_spec start stop tab gs targets H D) as (vs & E & F). exists vs. split; [exact E|]. split; [symmetry; clear -F; induction F; simpl; congruence|].
  clear E. induction F as [|t v l vs V F IH]; intros k t' v' Hk Hv; [destruct k; discriminate|]. destruct k; simpl in *; [injection Hk as <-; injection Hv as <-; exact V|exact (IH _ _ _ Hk Hv)].
Qed.
Print Assumptions c87_balance.

(** Tools. *)
Lemma simulated_get start stop tab gs targets vs k t v B : (start <= stop)%Z -> describes tab gs -> simulated (recording_of start stop tab gs) targets = Ok vs ->
  nth_error targets k = Some t -> nth_error vs k = Some v -> v = Some B <-> balance_for start stop gs t B.
Proof.
  intros H D E Ht Hv. destruct (c87_balance start stop tab gs targets H D) as (vs' & E' & _ & F). rewrite E in E'. injection E' as <-. exact (F k t v Ht Hv B).
Qed.
Lemma mean_between gs i0 i1 B lo hi : mean_balance gs i0 i1 B -> (forall g, In g gs -> 0 < mean_area g i0 i1) -> gs <> [] ->
  (forall g, In g gs -> lo <= balance g i0 i1 <= hi) -> lo <= B <= hi.
Proof.
  intros M A N H. unfold mean_balance in M.
  assert (0 < area_of gs i0 i1) as P. { unfold area_of. destruct gs as [|g gs]; [congruence|]. simpl. pose proof (A g ltac:(left; reflexivity)). assert (0 <= Rsum (fun g => mean_area g i0 i1) gs); [|lra]. apply Rsum_nonneg. intros x X. pose proof (A x ltac:(right; exact X)). lra. }
  assert (lo * area_of gs i0 i1 <= B * area_of gs i0 i1) as L. { rewrite M. unfold area_of. rewrite <- Rsum_scal. apply Rsum_le. intros g G. apply Rmult_le_compat_r; [apply Rlt_le, A, G|apply H, G]. }
  assert (B * area_of gs i0 i1 <= hi * area_of gs i0 i1) as U. { rewrite M. unfold area_of. rewrite <- Rsum_scal. apply Rsum_le. intros g G. apply Rmult_le_compat_r; [apply Rlt_le, A, G|apply H, G]. }
  split; eapply Rmult_le_reg_r; eassumption.
Qed.

(** The value is never outside the range of the balances of the units. *)
Theorem c87_between start stop tab gs targets vs k t B lo hi : (start <= stop)%Z -> describes tab gs ->
  simulated (recording_of start stop tab gs) targets = Ok vs -> nth_error targets k = Some t -> nth_error vs k = Some (Some B) ->
  (forall g i0 i1, In g gs -> gu_glacier g = true -> nearest_day start stop (tg_t0 t) i0 -> nearest_day start stop (tg_t1 t) i1 -> lo <= balance g i0 i1 <= hi) ->
  lo <= B <= hi.
Proof.
  intros H D E Ht Hv R'.
  destruct (proj1 (simulated_get start stop tab gs targets vs k t (Some B) B H D E Ht Hv) eq_refl) as (i0 & i1 & sel & N0 & N1 & L & C & S' & M).
  apply (mean_between sel i0 i1 B lo hi M); [|exact S'|]; intros g G; apply (chosen_in _ _ _ g C) in G; destruct G as (G & Cg & A & _); [exact A|]. apply R'; assumption.
Qed.
Print Assumptions c87_between.

Definition steady (g : glacier_unit) : Prop := forall t, gu_fraction g t = gu_fraction g 0%nat.
Lemma steady_area g i0 i1 : steady g -> (i0 <= i1)%nat -> mean_area g i0 i1 = gu_fraction g 0%nat * gu_area g.
Proof.
  intros H L. unfold mean_area. rewrite (Rsum_ext_in _ (fun _ => gu_fraction g 0%nat * gu_area g)) by (intros t _; rewrite H; reflexivity). rewrite Rsum_const. field.
  unfold days_of. rewrite seq_length. apply not_0_INR. lia.
Qed.
Lemma days_after_split i0 i1 i2 : (i0 <= i1)%nat -> (i1 <= i2)%nat -> days_after i0 i2 = days_after i0 i1 ++ days_after i1 i2.
Proof. intros. unfold days_after. replace (i2 - i0)%nat with ((i1 - i0) + (i2 - i1))%nat by lia. rewrite seq_app. repeat f_equal; lia. Qed.
Lemma balance_split g i0 i1 i2 : (i0 <= i1)%nat -> (i1 <= i2)%nat -> balance g i0 i2 = balance g i0 i1 + balance g i1 i2.
Proof. intros. unfold balance. rewrite (days_after_split i0 i1 i2), Rsum_app by assumption. lra. Qed.
Lemma chosen_iff {X} (P Q : X -> Prop) l m : (forall x, In x l -> P x <-> Q x) -> chosen P l m -> chosen Q l m.
Proof.
  intros H C. induction C; constructor; try (apply H; [left; reflexivity|assumption]); try (intro K; apply (H x (or_introl eq_refl)) in K; contradiction); apply IHC; intros; apply H; right; assumption.
Qed.

(** If the glaciers keep their areas, the annual balance is the sum of those of its two seasons, whatever the band and the date of the end of the winter. *)
Theorem c87_seasons start stop tab gs t0 t1 t2 band v W S' :
  (start <= stop)%Z -> describes tab gs -> (forall g, In g gs -> steady g) ->
  simulated (recording_of start stop tab gs) [mkTarget t0 t2 0 Annual band; mkTarget t0 t1 0 Winter band; mkTarget t1 t2 0 Summer band] = Ok [v; Some W; Some S'] ->
  v = Some (W + S').
Proof.
  intros H D St E.
  destruct (proj1 (simulated_get _ _ _ _ _ _ 1%nat _ _ W H D E eq_refl eq_refl) eq_refl) as (i0 & i1 & sel & N0 & N1 & L & C & Ne & M).
  destruct (proj1 (simulated_get _ _ _ _ _ _ 2%nat _ _ S' H D E eq_refl eq_refl) eq_refl) as (j1 & i2 & sel2 & N1' & N2 & L2 & C2 & Ne2 & M2).
  cbn [tg_t0 tg_t1 tg_band] in *. rewrite (nearest_unique _ _ _ _ _ N1' N1) in *. clear j1 N1'.
  assert (A : forall g, In g gs -> mean_area g i0 i1 = mean_area g i0 i2 /\ mean_area g i1 i2 = mean_area g i0 i2) by (intros g G; rewrite !(steady_area g) by (auto; lia); auto).
  assert (C' : chosen (counts band i0 i2) gs sel). { apply (chosen_iff (counts band i0 i1)); [|exact C]. intros g G. unfold counts. rewrite (proj1 (A g G)). reflexivity. }
  assert (sel2 = sel) as ->. { apply (chosen_unique (counts band i1 i2) gs); [exact C2|]. apply (chosen_iff (counts band i0 i2)); [|exact C']. intros g G. unfold counts. rewrite (proj2 (A g G)). reflexivity. }
  apply (simulated_get _ _ _ _ _ _ 0%nat _ _ (W + S') H D E eq_refl eq_refl). exists i0, i2, sel. cbn [tg_t0 tg_t1 tg_band]. repeat split; try assumption; [lia|].
  assert (A' : forall g, In g sel -> mean_area g i0 i1 = mean_area g i0 i2 /\ mean_area g i1 i2 = mean_area g i0 i2) by (intros g G; apply A; apply (chosen_in _ _ _ g C') in G; tauto).
  unfold mean_balance, area_of in *. rewrite (Rsum_ext_in (fun g => mean_area g i0 i1) (fun g => mean_area g i0 i2)) in M by (intros; apply A'; assumption).
  rewrite (Rsum_ext_in (fun g => mean_area g i1 i2) (fun g => mean_area g i0 i2)) in M2 by (intros; apply A'; assumption).
  rewrite Rmult_plus_distr_r, M, M2, <- Rsum_plus. apply Rsum_ext_in. intros g G. destruct (A' g G) as (-> & ->). rewrite (balance_split g i0 i1 i2) by lia. lra.
Qed.
Print Assumptions c87_seasons.

(** The bands share out the elevations of the units: each unit is in exactly one. *)
Definition shared_out (bands : list (R * R)) (e : R) : Prop :=
  exists before lo hi after, bands = before ++ (lo, hi) :: after /\ lo <= e < hi /\ forall b, In b (before ++ after) -> ~ (fst b <= e < snd b).
Definition band_target (t0 t1 : Z) (b : R * R) : target := mkTarget t0 t1 0 Annual (Some (Some (fst b), Some (snd b))).
Definition in_this (e : R) (b : R * R) : bool := (Rleb (fst b) e && Rltb e (snd b))%bool.
Lemma in_this_spec e b : in_this e b = true <-> fst b <= e < snd b.
Proof. unfold in_this, Rleb, Rltb. destruct (Rle_dec (fst b) e), (Rlt_dec e (snd b)); simpl; (split; [first [discriminate|intros _; split; assumption]|first [reflexivity|intros (? & ?); exfalso; lra]]). Qed.
Lemma one_band bands e x : shared_out bands e -> Rsum (fun b => if in_this e b then x else 0) bands = x.
Proof.
  intros (b1 & lo & hi & b2 & -> & I & O). rewrite Rsum_app. simpl. rewrite (proj2 (in_this_spec e (lo, hi)) I).
  rewrite !Rsum_zero; [lra| |]; intros b B; destruct (in_this e b) eqn:Q; try reflexivity; apply in_this_spec in Q; exfalso; apply (O b); try exact Q; apply in_or_app; tauto.
Qed.
Lemma chosen_sum {X} (P : X -> Prop) (dec : forall x, {P x} + {~ P x}) f l m : chosen P l m -> Rsum f m = Rsum (fun x => if dec x then f x else 0) l.
Proof. intro C. induction C; simpl; [reflexivity| |]; destruct (dec x); try contradiction; lra. Qed.
Lemma counts_band i0 i1 g b : counts (Some (Some (fst b), Some (snd b))) i0 i1 g <-> counts None i0 i1 g /\ in_this (gu_elevation g) b = true.
Proof.
  rewrite in_this_spec. unfold counts. split.
  - intros (G & A & W). inversion W; subst. split; [|assumption]. split; [exact G|]. split; [exact A|]. constructor.
  - intros ((G & A & _) & I). split; [exact G|]. split; [exact A|]. constructor. exact I.
Qed.

(** The balance of the whole glacier is the mean of those of bands that share out the units, weighted with the areas of the glacier in them
    (a band without glacier has no balance and no area). *)
Theorem c87_bands start stop tab gs t0 t1 bands v vs : (start <= stop)%Z -> describes tab gs ->
  (forall g, In g gs -> shared_out bands (gu_elevation g)) ->
  simulated (recording_of start stop tab gs) (mkTarget t0 t1 0 Annual None :: map (band_target t0 t1) bands) = Ok (v :: vs) ->
  forall B, v = Some B ->
  exists i0 i1 all areas, nearest_day start stop t0 i0 /\ nearest_day start stop t1 i1 /\
    chosen (counts None i0 i1) gs all /\ 0 < area_of all i0 i1 /\
    Forall2 (fun b a => exists sel, chosen (counts (Some (Some (fst b), Some (snd b))) i0 i1) gs sel /\ a = area_of sel i0 i1) bands areas /\
    Rsum (fun a => a) areas = area_of all i0 i1 /\
    B * area_of all i0 i1 = Rsum (fun p => nan0 (fst p) * snd p) (combine vs areas).
Proof.
  intros H D Sh E B ->. destruct (proj1 (simulated_get _ _ _ _ _ _ 0%nat _ _ B H D E eq_refl eq_refl) eq_refl) as (i0 & i1 & all & N0 & N1 & L & C & Ne & M).
  cbn [tg_t0 tg_t1 tg_band] in *. pose proof (area_pos _ _ _ _ _ C Ne) as P.
  set (part := fun (f : glacier_unit -> R) (b : R * R) => Rsum (fun g => if counts_dec None i0 i1 g then if in_this (gu_elevation g) b then f g else 0 else 0) gs).
  assert (Total : forall f, Rsum (part f) bands = Rsum f all).
  { intro f. unfold part. rewrite Rsum_swap, (chosen_sum _ (counts_dec None i0 i1) f gs all C). apply Rsum_ext_in. intros g G. destruct (counts_dec None i0 i1 g); [|apply Rsum_zero; reflexivity].
    apply one_band. apply Sh. exact G. }
  assert (Part : forall f b sel, chosen (counts (Some (Some (fst b), Some (snd b))) i0 i1) gs sel -> Rsum f sel = part f b).
  { intros f b sel Cb. rewrite (chosen_sum _ (counts_dec _ i0 i1) f gs sel Cb). apply Rsum_ext_in. intros g _. pose proof (counts_band i0 i1 g b) as K.
    destruct (counts_dec (Some (Some (fst b), Some (snd b))) i0 i1 g) as [Y|N].
    - apply K in Y. destruct Y as (Y & I). rewrite I. destruct (counts_dec None i0 i1 g); [reflexivity|contradiction].
    - destruct (counts_dec None i0 i1 g) as [Y|_]; [|reflexivity]. destruct (in_this (gu_elevation g) b) eqn:I; [|reflexivity]. exfalso. apply N. apply K. split; [exact Y|reflexivity]. }
  exists i0, i1, all, (map (part (fun g => mean_area g i0 i1)) bands). split; [exact N0|]. split; [exact N1|]. split; [exact C|]. split; [exact P|].
  split; [|split].
  - clear -Part. induction bands as [|b bs IH]; [constructor|]. simpl. constructor; [|exact IH].
    destruct (chosen_exists _ (counts_dec (Some (Some (fst b), Some (snd b))) i0 i1) gs) as (sel & Cb). exists sel. split; [exact Cb|]. symmetry. apply Part. exact Cb.
  - rewrite Rsum_map. apply Total.
  - unfold mean_balance in M. rewrite M. rewrite <- (Total (fun g => balance g i0 i1 * mean_area g i0 i1)).
    assert (V : Forall2 (fun b v => nan0 v * part (fun g => mean_area g i0 i1) b = part (fun g => balance g i0 i1 * mean_area g i0 i1) b) bands vs).
    { destruct (c87_balance start stop tab gs (mkTarget t0 t1 0 Annual None :: map (band_target t0 t1) bands) H D) as (vs' & E' & Len & F). rewrite E in E'. injection E' as <-.
      simpl in Len. rewrite map_length in Len. injection Len as Len. assert (F' : forall k b v, nth_error bands k = Some b -> nth_error vs k = Some v -> forall B, v = Some B <-> balance_for start stop gs (band_target t0 t1 b) B).
      { intros k b v Hb Hv. apply (F (S k)); [|exact Hv]. simpl. rewrite nth_error_map, Hb. reflexivity. }
      clear -F' Len Part N0 N1 L. revert vs Len F'. induction bands as [|b bs IH]; intros vs Len F'; destruct vs as [|v vs]; try discriminate; constructor.
      - specialize (F' 0%nat b v eq_refl eq_refl). destruct (chosen_exists _ (counts_dec (Some (Some (fst b), Some (snd b))) i0 i1) gs) as (sel & Cb). rewrite <- !(Part _ b sel Cb).
        destruct v as [x|].
        + destruct (proj1 (F' x) eq_refl) as (j0 & j1 & sel' & M0 & M1 & _ & C' & _ & M). cbn [band_target tg_t0 tg_t1 tg_band] in *.
          rewrite (nearest_unique _ _ _ _ _ M0 N0), (nearest_unique _ _ _ _ _ M1 N1) in *. rewrite (chosen_unique _ _ _ _ C' Cb) in M. exact M.
        + destruct sel as [|g sel]; [simpl; lra|]. exfalso. pose proof (area_pos _ _ _ _ _ Cb ltac:(discriminate)) as P.
          set (B := Rsum (fun g => balance g i0 i1 * mean_area g i0 i1) (g :: sel) / area_of (g :: sel) i0 i1).
          assert (None = Some B) as K; [|discriminate]. apply F'. exists i0, i1, (g :: sel). cbn [band_target tg_t0 tg_t1 tg_band]. repeat split; try assumption; [discriminate|].
          unfold mean_balance, B. field. lra.
      - apply IH; [simpl in Len; lia|]. intros k b' v' Hb Hv. exact (F' (S k) b' v' Hb Hv). }
    clear -V. induction V; simpl; [reflexivity|]. rewrite IHV. rewrite <- H. lra.
Qed.
Print Assumptions c87_bands.
