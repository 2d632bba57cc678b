(** Facts about the simulated snow cover. *)
From Verif Require Import BaseFacts PeriodsFacts SnowCoverSpec GlacierBalanceFacts.
Open Scope R_scope.

Lemma swe_to_fraction_spec full s f : 0 < full -> depletion full s f <-> swe_to_fraction full (Some s) = f.
Proof.
  intro P. assert (D : forall x, x * full = s -> s / full = x) by (intros x <-; field; lra).
  assert (X : (s / full) * full = s) by (field; lra). split.
  - intro H. unfold swe_to_fraction. destruct H as [s H|s x H E|s H].
    + assert (s / full <= 0) by (apply Rmult_le_reg_r with full; lra). unfold Rmax, Rmin. destruct (Rle_dec (s / full) 0); [|lra]. destruct (Rle_dec 0 1); lra.
    + rewrite (D x E). assert (0 < x) by (apply Rmult_lt_reg_r with full; lra). assert (x < 1) by (apply Rmult_lt_reg_r with full; lra).
      unfold Rmax, Rmin. destruct (Rle_dec x 0); [lra|]. destruct (Rle_dec x 1); lra.
    + assert (1 <= s / full) by (apply Rmult_le_reg_r with full; lra). unfold Rmax, Rmin. destruct (Rle_dec (s / full) 0); [lra|]. destruct (Rle_dec (s / full) 1); lra.
  - intros <-. unfold swe_to_fraction. destruct (Rle_dec s 0) as [L|L].
    + assert (s / full <= 0) by (apply Rmult_le_reg_r with full; lra). unfold Rmax, Rmin. destruct (Rle_dec (s / full) 0); [|lra]. destruct (Rle_dec 0 1); [|lra]. constructor. exact L.
    + assert (0 < s / full) by (apply Rmult_lt_reg_r with full; lra). unfold Rmax, Rmin. destruct (Rle_dec (s / full) 0); [lra|]. destruct (Rle_dec (s / full) 1).
      * destruct (Req_dec s full) as [E|E]; [|constructor; [|exact X]].
        { replace (s / full) with 1 by (rewrite E; field; lra). apply Covered. lra. }
        assert (s <= full); [|lra]. rewrite <- X. rewrite <- (Rmult_1_l full) at 3. apply Rmult_le_compat_r; lra.
      * apply Covered. rewrite <- X. rewrite <- (Rmult_1_l full) at 1. apply Rmult_le_compat_r; lra.
Qed.
Lemma depletion_range full s f : 0 < full -> depletion full s f -> 0 <= f <= 1.
Proof. intros P H. destruct H as [s H|s x H E|s H]; try lra. split; apply Rmult_le_reg_r with full; lra. Qed.
Lemma depletion_mono full s s' f f' : 0 < full -> s <= s' -> depletion full s f -> depletion full s' f' -> f <= f'.
Proof.
  intros P L H H'. pose proof (depletion_range _ _ _ P H). pose proof (depletion_range _ _ _ P H').
  destruct H as [s H|s x H E|s H], H' as [s' H'|s' x' H' E'|s' H']; try lra. apply Rmult_le_reg_r with full; lra.
Qed.
Lemma depletion_exists full s : 0 < full -> exists f, depletion full s f.
Proof. intro P. exists (swe_to_fraction full (Some s)). apply swe_to_fraction_spec; [exact P|reflexivity]. Qed.

(** Sums by [fold_left]. *)
Lemma fold_sum {X} (f : X -> R) l a : fold_left (fun acc p => acc + f p) l a = a + Rsum f l.
Proof. revert a. induction l; intro b; simpl; [lra|]. rewrite IHl. lra. Qed.

Lemma recorded_cover_spec rc c : recorded_cover rc c = true <-> In (c ++ "_snowpack:snow_content")%string (sn_labels rc).
Proof.
  unfold recorded_cover, snowpack_label. rewrite existsb_exists. split; [intros (x & I & E); apply String.eqb_eq in E; subst; exact I|]. intro I. eexists. split; [exact I|]. apply String.eqb_refl.
Qed.

(** The layers of the covers that count. *)
Definition layer_of (us : list snow_unit) (c : string) (p : (nat -> nat -> value) * (nat -> nat -> value)) : Prop :=
  forall k u t, nth_error us k = Some u -> fst p k t = option_map (fun f => f t) (su_part u c) /\ snd p k t = match su_part u c with Some _ => Some (su_swe u c t) | None => None end.
Lemma snow_layers_spec rc us l cs : chosen (fun c => In (c ++ "_snowpack:snow_content")%string (sn_labels rc)) l cs -> (forall c, In c cs -> shows_cover rc us c) ->
  exists ls, snow_layers rc l = Ok ls /\ Forall2 (layer_of us) cs ls.
Proof.
  intros C. induction C as [|c l m P C IH|c l m P C IH]; intro H.
  - exists []. split; [reflexivity|constructor].
  - simpl. rewrite (proj2 (recorded_cover_spec rc c) P). destruct (H c ltac:(left; reflexivity)) as (F & -> & S').
    destruct IH as (ls & -> & A); [intros; apply H; right; assumption|]. simpl. eexists. split; [reflexivity|]. constructor; [|exact A]. exact S'.
  - simpl. destruct (recorded_cover rc c) eqn:E; [apply recorded_cover_spec in E; contradiction|]. apply IH. exact H.
Qed.
Lemma total_part_spec us cs ls k u t : Forall2 (layer_of us) cs ls -> nth_error us k = Some u -> total_part ls k t = Rsum (part u t) cs.
Proof.
  intros F N. unfold total_part. rewrite (fold_sum (fun p : (nat -> nat -> value) * (nat -> nat -> value) => nan0 (fst p k t))), Rplus_0_l. induction F as [|c p cs ls L F IH]; [reflexivity|]. simpl. rewrite IH. f_equal.
  destruct (L k u t N) as (E & _). rewrite E. unfold part. destruct (su_part u c); reflexivity.
Qed.
Lemma covered_part_spec full us cs ls fs k u t : 0 < full -> Forall2 (layer_of us) cs ls -> nth_error us k = Some u ->
  Forall2 (fun c f => depletion full (su_swe u c t) f) cs fs -> covered_part full ls k t = Rsum (fun p => part u t (fst p) * snd p) (combine cs fs).
Proof.
  intros P F N. unfold covered_part. rewrite (fold_sum (fun p : (nat -> nat -> value) * (nat -> nat -> value) => nan0 (fst p k t) * swe_to_fraction full (snd p k t))), Rplus_0_l. revert fs.
  induction F as [|c p cs ls L F IH]; intros fs D; inversion D as [|? f ? fs' Df D']; subst; [reflexivity|]. simpl. rewrite (IH fs' D'). f_equal.
  destruct (L k u t N) as (E & E'). rewrite E, E'. unfold part. destruct (su_part u c); cbn [option_map nan0]; [|lra]. rewrite (proj1 (swe_to_fraction_spec full _ f P) Df). reflexivity.
Qed.
Lemma depletions_exist full (u : snow_unit) t cs : 0 < full -> exists fs, Forall2 (fun c f => depletion full (su_swe u c t) f) cs fs.
Proof. intro P. induction cs as [|c cs (fs & F)]; [exists []; constructor|]. destruct (depletion_exists full (su_swe u c t) P) as (f & D). exists (f :: fs). constructor; assumption. Qed.
Lemma depletions_unique full (u : snow_unit) t cs fs fs' : 0 < full -> Forall2 (fun c f => depletion full (su_swe u c t) f) cs fs -> Forall2 (fun c f => depletion full (su_swe u c t) f) cs fs' -> fs = fs'.
Proof.
  intros P F. revert fs'. induction F as [|c f cs fs D F IH]; intros fs' F'; inversion F' as [|? f' ? fs'' D' F'']; subst; [reflexivity|]. f_equal; [|exact (IH _ F'')].
  apply (swe_to_fraction_spec _ _ _ P) in D. apply (swe_to_fraction_spec _ _ _ P) in D'. congruence.
Qed.
Lemma snow_mean_unique full cs u t x y : 0 < full -> 0 < Rsum (part u t) cs -> snow_mean full cs u t x -> snow_mean full cs u t y -> x = y.
Proof.
  intros P T (fs & F & E) (fs' & F' & E'). rewrite (depletions_unique _ _ _ _ _ _ P F' F) in E'. apply (Rmult_eq_reg_r (Rsum (part u t) cs)); lra.
Qed.
Lemma unit_scf_spec full us cs ls k u t x : 0 < full -> Forall2 (layer_of us) cs ls -> nth_error us k = Some u ->
  unit_scf full ls k t = Some x <-> 0 < Rsum (part u t) cs /\ snow_mean full cs u t x.
Proof.
  intros P F N. unfold unit_scf. rewrite (total_part_spec us cs ls k u t F N). destruct (depletions_exist full u t cs P) as (fs & D).
  rewrite (covered_part_spec full us cs ls fs k u t P F N D). unfold Rltb. destruct (Rlt_dec 0 (Rsum (part u t) cs)) as [T|T]; [|split; [discriminate|intros (T' & _); contradiction]].
  assert (M : snow_mean full cs u t (Rsum (fun p => part u t (fst p) * snd p) (combine cs fs) / Rsum (part u t) cs)) by (exists fs; split; [exact D|field; lra]).
  split; [intro E; injection E as <-; split; assumption|]. intros (_ & M'). f_equal. exact (snow_mean_unique _ _ _ _ _ _ P T M M').
Qed.

Lemma row_of_none id ids k : ~ In id ids -> row_of id ids k = None.
Proof. revert k. induction ids as [|i ids IH]; intros k H; [reflexivity|]. simpl in *. rewrite IH by tauto. destruct (Z.eqb_spec i id); [exfalso; apply H; left; assumption|reflexivity]. Qed.
Lemma row_of_some id ids k r : NoDup ids -> nth_error ids r = Some id -> row_of id ids k = Some (k + r)%nat.
Proof.
  revert k r. induction ids as [|i ids IH]; intros k r N H; [destruct r; discriminate|]. inversion N; subst. destruct r; simpl in *.
  - injection H as ->. rewrite (row_of_none id ids) by assumption. rewrite Z.eqb_refl. f_equal. lia.
  - rewrite (IH (S k) r) by assumption. f_equal. lia.
Qed.

Lemma read_targets_spec start stop full cs us ls l : (start <= stop)%Z -> 0 < full -> Forall2 (layer_of us) cs ls -> NoDup (map su_id us) ->
  exists vs, read_targets (unit_scf full ls) (map su_id us) (date_range start stop) l = Ok vs /\
    Forall2 (fun t v => forall x, v = Some x <-> snow_cover_for start stop full cs us t x) l vs.
Proof.
  intros H P F N. induction l as [|t l (vs & E & A)]; [exists []; split; [reflexivity|constructor]|]. simpl. rewrite E. clear E.
  assert (B : exists v, match row_of (st_unit t) (map su_id us) 0 with None => Ok None | Some row => bind (date_index (date_range start stop) (st_t t)) (fun o => Ok (match o with Some i => unit_scf full ls row i | None => None end)) end = Ok v /\
    forall x, v = Some x <-> snow_cover_for start stop full cs us t x).
  { destruct (in_dec Z.eq_dec (st_unit t) (map su_id us)) as [I|I].
    - apply in_map_iff in I. destruct I as (u & Eu & Iu). destruct (In_nth_error _ _ Iu) as (k & K).
      rewrite (row_of_some (st_unit t) (map su_id us) 0 k N) by (rewrite nth_error_map, K; simpl; congruence). simpl Nat.add.
      assert (U : forall u', In u' us -> su_id u' = st_unit t -> u' = u).
      { intros u' I' E'. destruct (In_nth_error _ _ I') as (k' & K'). assert (k' = k) as ->; [|congruence]. apply (proj1 (NoDup_nth_error _) N); [rewrite map_length; apply nth_error_Some; congruence|]. rewrite !nth_error_map, K, K'. simpl. congruence. }
      destruct (date_index_spec start stop (st_t t) H) as [(i & -> & D) | (-> & D)]; simpl bind.
      + eexists. split; [reflexivity|]. intro x. rewrite (unit_scf_spec full us cs ls k u i x P F K). split.
        * intros (T & M). exists u, i. repeat split; assumption.
        * intros (u' & i' & I' & E' & D' & T & M). rewrite (U u' I' E') in *. rewrite (nearest_unique _ _ _ _ _ D' D) in *. split; assumption.
      + eexists. split; [reflexivity|]. intro x. split; [discriminate|]. intros (u' & i' & _ & _ & D' & _). exfalso. exact (D _ D').
    - rewrite row_of_none by exact I. eexists. split; [reflexivity|]. intro x. split; [discriminate|]. intros (u' & i' & I' & E' & _). exfalso. apply I. rewrite <- E'. apply in_map. exact I'. }
  destruct B as (v & -> & V). simpl. eexists. split; [reflexivity|]. constructor; assumption.
Qed.
Lemma asked_spec ob rc l : asked ob rc l -> asked_covers (so_covers ob) (sn_covers rc) = l.
Proof. intros [(E & N) | ([E|E] & ->)]; rewrite E; [|reflexivity|reflexivity]. destruct l; [congruence|reflexivity]. Qed.
Lemma asked_exists ob rc : asked ob rc (asked_covers (so_covers ob) (sn_covers rc)).
Proof. unfold asked. destruct (so_covers ob) as [[|c r]|]; simpl; [right; auto|left; split; congruence|right; auto]. Qed.
Lemma simulated_snow_spec rc ob us cs : (sn_start rc <= sn_end rc)%Z -> 0 < so_full ob -> considered ob rc cs -> cs <> [] -> shows_units rc us cs ->
  exists vs, simulated_snow rc ob = Ok vs /\ Forall2 (fun t v => forall x, v = Some x <-> snow_cover_for (sn_start rc) (sn_end rc) (so_full ob) cs us t x) (so_targets ob) vs.
Proof.
  intros H P (l & A & C) Ne (Ei & N & Sh). unfold simulated_snow. destruct (so_targets ob) as [|t ts]; [exists []; split; [reflexivity|constructor]|].
  rewrite (asked_spec _ _ _ A). destruct (snow_layers_spec rc us l cs C Sh) as (ls & -> & F). simpl bind.
  destruct ls as [|p ls]; [inversion F; subst; congruence|]. rewrite Ei. exact (read_targets_spec (sn_start rc) (sn_end rc) (so_full ob) cs us (p :: ls) (t :: ts) H P F N).
Qed.
