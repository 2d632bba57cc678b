(** Facts about the loading of land cover changes. *)
From Coq Require Import Permutation.
From Verif Require Import BaseFacts PeriodsFacts CalendarFacts ActionsFacts LandCoverTableSpec.
Open Scope R_scope.

(** ** Dates *)
Lemma DAY_R : 0 < IZR DAY.
Proof. apply IZR_lt. reflexivity. Qed.
Lemma mjd_le a b : mjd_of a <= mjd_of b <-> (a <= b)%Z.
Proof.
  unfold mjd_of. pose proof DAY_R. split; intro L.
  - apply le_IZR. apply Rmult_le_reg_r with (/ IZR DAY); [apply Rinv_0_lt_compat; assumption|]. unfold Rdiv in L. lra.
  - apply IZR_le in L. apply (Rmult_le_compat_r (/ IZR DAY)) in L; [|apply Rlt_le, Rinv_0_lt_compat; assumption]. unfold Rdiv. lra.
Qed.
Lemma mjd_inj a b : mjd_of a = mjd_of b -> a = b.
Proof. intro E. apply Z.le_antisymm; apply mjd_le; lra. Qed.

(** ** Rows without changes *)
Lemma same_value_spec a b : same_value a b = true <-> exists x, a = Some x /\ b = Some x.
Proof.
  unfold same_value. destruct a as [x|], b as [y|]; try (split; [discriminate|intros (? & E & F); discriminate]). destruct (Req_EM_T x y); split; intro H; try discriminate; try reflexivity.
  - exists x. subst. auto.
  - destruct H as (z & E & F). congruence.
Qed.
Lemma drop_same_nth : forall l prev j x, nth_error (drop_same prev l) j = Some (Some x) <->
  nth_error l j = Some (Some x) /\ match j with O => prev <> Some x | S i => nth_error l i <> Some (Some x) end.
Proof.
  induction l as [|v l IH]; intros prev j x; [destruct j; simpl; split; [discriminate|intros (H & _); discriminate|discriminate|intros (H & _); discriminate]|].
  destruct j as [|j]; simpl.
  - destruct (same_value prev v) eqn:E.
    + apply same_value_spec in E. destruct E as (y & -> & ->). split; [discriminate|]. intros (A & B). injection A as ->. congruence.
    + split; [intro A; injection A as ->; split; [reflexivity|]; intros ->; rewrite (proj2 (same_value_spec (Some x) (Some x))) in E by eauto; discriminate|intros (A & _); exact A].
  - rewrite IH. destruct j; simpl; [|tauto]. split; intros (A & B); (split; [exact A|]; intro Q; apply B; try (injection Q as Q); rewrite Q; reflexivity).
Qed.
Lemma remove_nth l j x : nth_error (remove_unchanged l) j = Some (Some x) <-> nth_error l j = Some (Some x) /\ match j with O => True | S i => nth_error l i <> Some (Some x) end.
Proof.
  destruct l as [|v l]; [destruct j; simpl; split; [discriminate|intros (H & _); discriminate|discriminate|intros (H & _); discriminate]|]. destruct j as [|j]; simpl; [tauto|].
  rewrite drop_same_nth. destruct j; simpl; [|tauto]. split; intros (A & B); (split; [exact A|]; intro Q; apply B; try (injection Q as Q); rewrite Q; reflexivity).
Qed.
Lemma nth_value (l : list value) j x : nth j l None = Some x <-> nth_error l j = Some (Some x).
Proof. revert j. induction l as [|v l IH]; intros [|j]; simpl; try (split; discriminate). - split; intro Q; [rewrite Q; reflexivity|injection Q as Q; exact Q]. - apply IH. Qed.

(** ** What is registered *)
Lemma table_entries_in t d id x : In (d, (id, x)) (table_entries t) <->
  exists vals j dz, In (id, vals) (ct_rows t) /\ nth_error (ct_dates t) j = Some dz /\ d = mjd_of dz /\ nth_error vals j = Some (Some x).
Proof.
  unfold table_entries. rewrite in_flat_map.
  assert (C : forall dz j, In (dz, j) (combine (ct_dates t) (seq 0 (length (ct_dates t)))) <-> nth_error (ct_dates t) j = Some dz).
  { assert (G : forall (l : list Z) s dz j, In (dz, j) (combine l (seq s (length l))) <-> (s <= j)%nat /\ nth_error l (j - s) = Some dz).
    { induction l as [|z l IH]; intros s dz j; simpl; [split; [intros []|intros (_ & H); destruct (j - s)%nat; discriminate]|]. rewrite IH. split.
      - intros [E|(A & B)]; [injection E as -> ->; split; [lia|]; rewrite Nat.sub_diag; reflexivity|]. split; [lia|]. replace (j - s)%nat with (S (j - S s)) by lia. exact B.
      - intros (A & B). destruct (j - s)%nat as [|m] eqn:M; [left; simpl in B; f_equal; [congruence|lia]|]. right. split; [lia|]. replace (j - S s)%nat with m by lia. exact B. }
    intros. rewrite G, Nat.sub_0_r. split; [tauto|]. split; [lia|assumption]. }
  split.
  - intros ((dz & j) & I & H). apply C in I. unfold column_entries in H. apply in_flat_map in H. destruct H as ((id' & vals) & Ir & H). simpl in H.
    destruct (nth j vals None) as [a|] eqn:E; [|contradiction]. destruct H as [H|[]]. injection H as <- -> ->. exists vals, j, dz. apply nth_value in E. auto.
  - intros (vals & j & dz & Ir & Ed & -> & Ev). exists (dz, j). split; [apply C; exact Ed|]. unfold column_entries. apply in_flat_map. exists (id, vals). split; [exact Ir|]. cbn [fst snd]. pose proof (proj2 (nth_value vals j x) Ev) as Q. unfold value in *. rewrite Q. left. reflexivity.
Qed.
Lemma area_factor_spec u f : area_factor u = Ok f <-> square_metres u f.
Proof.
  unfold area_factor, square_metres. destruct (existsb (fun s => (s =? u)%string) ["m2"; "m^2"; "m**2"; "M2"]%string) eqn:E.
  - apply existsb_exists in E. destruct E as (s & I & E). apply String.eqb_eq in E. subst s. split; [intro Q; injection Q as <-; left; auto|]. intros [(_ & ->)|(J & _)]; [reflexivity|].
    exfalso. simpl in I, J. destruct I as [I|[I|[I|[I|[]]]]], J as [J|[J|[J|[J|[]]]]]; subst; discriminate.
  - destruct (existsb (fun s => (s =? u)%string) ["km2"; "km^2"; "km**2"; "KM2"]%string) eqn:E'.
    + apply existsb_exists in E'. destruct E' as (s & I & E'). apply String.eqb_eq in E'. subst s. split; [intro Q; injection Q as <-; right; auto|]. intros [(J & _)|(_ & ->)]; [|reflexivity].
      exfalso. assert (existsb (fun s => (s =? u)%string) ["m2"; "m^2"; "m**2"; "M2"]%string = true); [|congruence]. apply existsb_exists. exists u. split; [exact J|apply String.eqb_refl].
    + split; [discriminate|]. intros [(J & _)|(J & _)]; exfalso; [rewrite <- E in E'|]; [assert (existsb (fun s => (s =? u)%string) ["m2"; "m^2"; "m**2"; "M2"]%string = true); [|congruence]|assert (existsb (fun s => (s =? u)%string) ["km2"; "km^2"; "km**2"; "KM2"]%string = true); [|congruence]];
        apply existsb_exists; exists u; (split; [exact J|apply String.eqb_refl]).
Qed.
Lemma factor_pos u f : square_metres u f -> 0 < f.
Proof. intros [(_ & ->)|(_ & ->)]; lra. Qed.
Lemma populate_spec u t cs f : populate u t = Ok cs -> square_metres u f -> cs = map (scale_change f) (table_entries t).
Proof.
  unfold populate. intros E F. destruct (table_entries t) as [|e l]; [injection E as <-; reflexivity|]. rewrite (proj2 (area_factor_spec u f) F) in E. injection E as <-. reflexivity.
Qed.
(** A kept value: in the row, and not the same as the one before. *)
Definition kept (vals : list value) (j : nat) (x : R) : Prop := nth_error vals j = Some (Some x) /\ match j with O => True | S i => nth_error vals i <> Some (Some x) end.
Lemma registered_in u t cs f d id y : register_table u t = Ok cs -> square_metres u f ->
  In (d, (id, y)) cs <-> exists vals j dz x, In (id, vals) (ct_rows t) /\ nth_error (ct_dates t) j = Some dz /\ d = mjd_of dz /\ y = x * f /\ kept vals j x.
Proof.
  intros E F. rewrite (populate_spec _ _ _ _ E F). rewrite in_map_iff. split.
  - intros ((d' & id' & x) & Q & I). unfold scale_change in Q. simpl in Q. injection Q as <- <- <-. apply table_entries_in in I. destruct I as (vals & j & dz & Ir & Ed & -> & Ev).
    simpl in Ir, Ed. apply in_map_iff in Ir. destruct Ir as ((i & v) & Q & Ir). injection Q as <- <-. exists v, j, dz, x. repeat split; try assumption; apply remove_nth in Ev; tauto.
  - intros (vals & j & dz & x & Ir & Ed & -> & -> & K). exists (mjd_of dz, (id, x)). split; [reflexivity|]. apply table_entries_in. exists (remove_unchanged vals), j, dz. simpl. split; [|split; [exact Ed|split; [reflexivity|apply remove_nth; exact K]]].
    apply in_map_iff. exists (id, vals). auto.
Qed.

(** The last column with a value, and the last kept one. *)
Lemma sorted_nth (l : list Z) i j a b : StronglySorted Z.lt l -> nth_error l i = Some a -> nth_error l j = Some b -> (i < j)%nat -> (a < b)%Z.
Proof.
  intro S1. revert i j. induction S1 as [|z l S1 IH F]; intros i j A B L; [destruct i; discriminate|]. destruct j as [|j]; [lia|]. simpl in B. destruct i as [|i]; simpl in A; [|apply (IH i j); auto; lia].
  injection A as ->. rewrite Forall_forall in F. apply F. exact (nth_error_In _ _ B).
Qed.
Lemma sorted_nth_le (l : list Z) i j a b : StronglySorted Z.lt l -> nth_error l i = Some a -> nth_error l j = Some b -> (i <= j)%nat -> (a <= b)%Z.
Proof. intros S1 A B L. destruct (Nat.eq_dec i j) as [-> |N]; [assert (a = b) by congruence; lia|]. pose proof (sorted_nth l i j a b S1 A B). lia. Qed.
Lemma first_of_run (vals : list value) j x : nth_error vals j = Some (Some x) -> exists i, (i <= j)%nat /\ kept vals i x /\ forall k, (i <= k <= j)%nat -> nth_error vals k = Some (Some x).
Proof.
  induction j as [|j IH]; intro H.
  - exists 0%nat. split; [lia|]. split; [split; [exact H|exact I]|]. intros k K. replace k with 0%nat by lia. exact H.
  - assert ({nth_error vals j = Some (Some x)} + {nth_error vals j <> Some (Some x)}) as [E|E].
    { destruct (nth_error vals j) as [[y|]|]; [destruct (Req_EM_T y x) as [Q|Q]; [left; rewrite Q; reflexivity|right; intro W; apply Q; injection W; auto]|right; discriminate|right; discriminate]. }
    + destruct (IH E) as (i & L & K & A). exists i. split; [lia|]. split; [exact K|]. intros k Hk. destruct (Nat.eq_dec k (S j)) as [-> |N]; [exact H|apply A; lia].
    + exists (S j). split; [lia|]. split; [split; assumption|]. intros k Hk. replace k with (S j) by lia. exact H.
Qed.
Definition last_kept (dates : list Z) (vals : list value) (date : Z) (j : nat) (x : R) : Prop :=
  kept vals j x /\ (exists d, nth_error dates j = Some d /\ (d <= date)%Z) /\ forall k y d, kept vals k y -> nth_error dates k = Some d -> (d <= date)%Z -> (k <= j)%nat.
Definition last_value (dates : list Z) (vals : list value) (date : Z) (j : nat) (x : R) : Prop :=
  nth_error vals j = Some (Some x) /\ (exists d, nth_error dates j = Some d /\ (d <= date)%Z) /\
    forall k d, (j < k)%nat -> nth_error dates k = Some d -> (d <= date)%Z -> forall y, nth_error vals k <> Some (Some y).
Lemma last_value_kept dates vals date j x : StronglySorted Z.lt dates -> last_value dates vals date j x -> exists i, (i <= j)%nat /\ last_kept dates vals date i x.
Proof.
  intros S1 (V & (d & Ed & Ld) & N). destruct (first_of_run vals j x V) as (i & L & K & A). exists i. split; [exact L|]. split; [exact K|]. split.
  - destruct (nth_error dates i) as [di|] eqn:Ei; [exists di; split; [reflexivity|pose proof (sorted_nth_le dates i j di d S1 Ei Ed L); lia]|]. apply nth_error_None in Ei. assert (nth_error dates j = None) as Q; [apply nth_error_None; lia|congruence].
  - intros k y dk (Vk & Pk) Ek Lk. destruct (Nat.le_gt_cases k i) as [|G]; [assumption|]. exfalso. destruct (Nat.le_gt_cases k j) as [G'|G'].
    + destruct k as [|k]; [lia|]. rewrite (A (S k)) in Vk by lia. injection Vk as <-. apply Pk. apply A. lia.
    + exact (N k dk G' Ek Lk y Vk).
Qed.
Lemma last_value_exists dates vals date j x d : nth_error vals j = Some (Some x) -> nth_error dates j = Some d -> (d <= date)%Z -> exists k y, last_value dates vals date k y.
Proof.
  intros V E L. remember (length vals - j)%nat as n eqn:Q. revert j x d V E L Q. induction n as [n IH] using lt_wf_ind; intros j x d V E L Q.
  destruct (Classical_Prop.classic (exists k dk y, (j < k)%nat /\ nth_error dates k = Some dk /\ (dk <= date)%Z /\ nth_error vals k = Some (Some y))) as [(k & dk & y & G & Ek & Lk & Vk)|N].
  - apply (IH (length vals - k)%nat) with (j := k) (x := y) (d := dk); auto. assert (k < length vals)%nat by (apply nth_error_Some; congruence). lia.
  - exists j, x. split; [exact V|]. split; [exists d; auto|]. intros k dk G Ek Lk y Vk. apply N. exists k, dk, y. auto.
Qed.
Lemma last_kept_says t id vals date x : well_formed t -> In (id, vals) (ct_rows t) -> (exists j, last_kept (ct_dates t) vals date j x) <-> says t id date x.
Proof.
  intros (S1 & N & _) I. split.
  - intros (j & K & (d & Ed & Ld) & M). destruct (last_value_exists (ct_dates t) vals date j x d (proj1 K) Ed Ld) as (k & y & LV).
    destruct (last_value_kept _ _ _ _ _ S1 LV) as (i & _ & K' & (di & Ei & Li) & M'). assert (i = j) as ->. { pose proof (M i y di K' Ei Li). pose proof (M' j x d K Ed Ld). lia. }
    assert (y = x) as ->. { destruct K as (K & _), K' as (K' & _). congruence. }
    destruct LV as (V & (dk & Ek & Lk) & NV). exists vals, k, dk. repeat split; assumption.
  - intros (vals' & j & d & I' & Ed & Ld & V & NV). assert (vals' = vals) as ->.
    { clear -N I I'. induction (ct_rows t) as [|(i & v) l IH]; [contradiction|]. simpl in N. inversion N; subst. destruct I as [I|I], I' as [I'|I'].
      - congruence.
      - injection I as -> ->. exfalso. apply H1. apply in_map_iff. exists (id, vals'). auto.
      - injection I' as -> ->. exfalso. apply H1. apply in_map_iff. exists (id, vals). auto.
      - apply IH; assumption. }
    destruct (last_value_kept (ct_dates t) vals date j x S1) as (i & _ & K); [split; [exact V|split; [exists d; auto|exact NV]]|]. exists i. exact K.
Qed.

(** ** The log *)
Lemma last_of_unit (log : list (R * land_change)) id : (exists w d x, In (w, (d, (id, x))) log) ->
  exists before w d x after, log = before ++ (w, (d, (id, x))) :: after /\ forall w' d' x', ~ In (w', (d', (id, x'))) after.
Proof.
  induction log as [|(w0 & d0 & id0 & x0) log IH]; [intros (? & ? & ? & [])|]. intros (w & d & x & H).
  destruct (Classical_Prop.classic (exists w d x, In (w, (d, (id, x))) log)) as [Y|N].
  - destruct (IH Y) as (b & w' & d' & x' & a & -> & A). exists ((w0, (d0, (id0, x0))) :: b), w', d', x', a. auto.
  - destruct H as [H|H]; [|exfalso; apply N; exists w, d, x; exact H]. injection H as -> -> -> ->. exists [], w, d, x, log. split; [reflexivity|]. intros w' d' x' I. apply N. exists w', d', x'. exact I.
Qed.
Lemma chronological_split (before after : list (R * land_change)) e e' : chronological (before ++ e :: after) -> In e' before -> fst (snd e') <= fst (snd e).
Proof.
  unfold chronological. induction before as [|b before IH]; intros C I; [contradiction|]. simpl in C. inversion C as [|? ? C1 C2]; subst. destruct I as [-> |I]; [|apply IH; assumption].
  rewrite Forall_forall in C2. apply C2. apply in_or_app. right. left. reflexivity.
Qed.
Lemma leaves_spec cs last log id y : chronological log -> each_once cs last log ->
  (forall d x x', In (d, (id, x)) cs -> In (d, (id, x')) cs -> x = x') ->
  leaves log id y <-> exists d, In (d, (id, y)) cs /\ d <= last /\ forall d' y', In (d', (id, y')) cs -> d' <= last -> d' <= d.
Proof.
  intros Ch (reached & rest & P & P' & A & B) Fu.
  assert (InLog : forall c, In c cs /\ fst c <= last <-> exists w, In (w, c) log).
  { intro c. split.
    - intros (I & L). apply (Permutation_in _ P) in I. apply in_app_or in I. destruct I as [I|I]; [|specialize (B c I); lra]. apply (Permutation_in _ (Permutation_sym P')) in I. apply in_map_iff in I. destruct I as ((w & c') & <- & I). exists w. exact I.
    - intros (w & I). assert (In c reached) as J by (apply (Permutation_in _ P'); apply in_map_iff; exists (w, c); auto). split; [|exact (A c J)]. apply (Permutation_in _ (Permutation_sym P)). apply in_or_app. left. exact J. }
  split.
  - intros (before & w & d & after & E & N). assert (I : exists w, In (w, (d, (id, y))) log) by (exists w; rewrite E; apply in_or_app; right; left; reflexivity). apply InLog in I. destruct I as (I & L). exists d. split; [exact I|]. split; [exact L|].
    intros d' y' I' L'. destruct (proj1 (InLog (d', (id, y'))) (conj I' L')) as (w' & J). rewrite E in J. apply in_app_or in J. destruct J as [J|[J|J]].
    + rewrite E in Ch. exact (chronological_split before after _ _ Ch J).
    + injection J as <- <- <-. lra.
    + exfalso. exact (N _ _ _ J).
  - intros (d & I & L & M). destruct (proj1 (InLog (d, (id, y))) (conj I L)) as (w & J). destruct (last_of_unit log id) as (before & w' & d' & y' & after & E & N); [exists w, d, y; exact J|].
    assert (K : exists w, In (w, (d', (id, y'))) log) by (exists w'; rewrite E; apply in_or_app; right; left; reflexivity). apply InLog in K. destruct K as (K & Lk). pose proof (M d' y' K Lk) as D1.
    assert (d <= d') as D2. { rewrite E in J. apply in_app_or in J. destruct J as [J|[J|J]]; [rewrite E in Ch; exact (chronological_split before after _ _ Ch J)|injection J as <- <- <-; lra|exfalso; exact (N _ _ _ J)]. }
    assert (d' = d) as -> by lra. assert (y' = y) as -> by (exact (Fu d y' y K I)). exists before, w', d, after. auto.
Qed.
