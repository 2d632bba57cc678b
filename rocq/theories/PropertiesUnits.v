(** C92: units of measurement. *)
From Verif Require Import BaseFacts UnitsSpec.
Open Scope R_scope.

Lemma munit_eqb_spec a b : munit_eqb a b = true <-> a = b.
Proof. unfold munit_eqb. split; [|intros ->; apply String.eqb_refl]. destruct a, b; simpl; intro Q; try reflexivity; discriminate. Qed.
Lemma known_spec v a b w : convert_known v a b = Ok w -> exists q x y, measures a q x /\ measures b q y /\ w * y = v * x.
Proof. destruct a, b; simpl; intro E; try discriminate; injection E as <-; do 3 eexists; (split; [constructor|split; [constructor|]]); field. Qed.
Lemma known_back v a b w : convert_known v a b = Ok w -> convert_known w b a = Ok v.
Proof. destruct a, b; simpl; intro E; try discriminate; injection E as <-; f_equal; field. Qed.
Lemma measures_fun u q q' x x' : measures u q x -> measures u q' x' -> q = q' /\ x = x'.
Proof. intros A B. destruct A; inversion B; auto. Qed.
Lemma measures_pos u q x : measures u q x -> 0 < x.
Proof. intro A. destruct A; lra. Qed.
Lemma convert_spec v a b w : convert_unit v a b = Ok w -> exists ua ub, get_unit_enum a = Ok ua /\ get_unit_enum b = Ok ub /\ ((ua = ub /\ w = v) \/ (ua <> ub /\ convert_known v ua ub = Ok w)).
Proof.
  unfold convert_unit. destruct (get_unit_enum a) as [ua| |]; try discriminate. destruct (get_unit_enum b) as [ub| |]; try discriminate. cbn [bind]. destruct (munit_eqb ua ub) eqn:E; intro Q.
  - injection Q as <-. apply munit_eqb_spec in E. exists ua, ub. auto.
  - exists ua, ub. split; [reflexivity|]. split; [reflexivity|]. right. split; [|exact Q]. intro N. apply munit_eqb_spec in N. congruence.
Qed.

(** A converted value is the same quantity: the sizes of the units balance. *)
Theorem c92_convert : forall v a b w, convert_unit v a b = Ok w ->
  exists ua ub, get_unit_enum a = Ok ua /\ get_unit_enum b = Ok ub /\ ((ua = ub /\ w = v) \/ exists q x y, measures ua q x /\ measures ub q y /\ w * y = v * x).
Proof.
  intros v a b w E. apply convert_spec in E. destruct E as (ua & ub & A & B & [Q|(_ & K)]); exists ua, ub; (split; [exact A|]); (split; [exact B|]); [left; exact Q|right; exact (known_spec _ _ _ _ K)].
Qed.
Print Assumptions c92_convert.
Example c92_convert_case : convert_unit 5 "[km^2]" "M2" = Ok (5 * 1000000) /\ convert_unit 3 "mm/day" "(mm/h)" = Ok (3 / 24).
Proof. split; reflexivity. Qed.
(** Back again. *)
Theorem c92_round_trip : forall v a b w, convert_unit v a b = Ok w -> convert_unit w b a = Ok v.
Proof.
  intros v a b w E. apply convert_spec in E. destruct E as (ua & ub & A & B & H). unfold convert_unit. rewrite A, B. cbn [bind]. destruct H as [(-> & ->)|(N & K)].
  - rewrite (proj2 (munit_eqb_spec ub ub) eq_refl). reflexivity.
  - destruct (munit_eqb ub ua) eqn:E; [apply munit_eqb_spec in E; congruence|]. exact (known_back _ _ _ _ K).
Qed.
Print Assumptions c92_round_trip.
(** Whatever the way. *)
Theorem c92_ways : forall v a b c w x y, convert_unit v a b = Ok w -> convert_unit w b c = Ok x -> convert_unit v a c = Ok y -> x = y.
Proof.
  intros v a b c w x y E1 E2 E3. apply convert_spec in E1, E2, E3. destruct E1 as (ua & ub & A & B & H1), E2 as (ub' & uc & B' & C & H2), E3 as (ua' & uc' & A' & C' & H3).
  assert (ub' = ub) as -> by congruence. assert (ua' = ua) as -> by congruence. assert (uc' = uc) as -> by congruence.
  destruct H1 as [(-> & ->)|(N1 & K1)].
  - destruct H2 as [(-> & ->)|(N2 & K2)], H3 as [(Q & ->)|(N3 & K3)]; try congruence.
  - destruct H2 as [(-> & ->)|(N2 & K2)].
    + destruct H3 as [(Q & ->)|(N3 & K3)]; congruence.
    + destruct (known_spec _ _ _ _ K1) as (q & p & r & M1 & M2' & E1), (known_spec _ _ _ _ K2) as (q' & r' & s & M2'' & M3 & E2). destruct (measures_fun _ _ _ _ _ M2' M2'') as (<- & <-).
      pose proof (measures_pos _ _ _ M3) as P. destruct H3 as [(Q & ->)|(N3 & K3)].
      * subst uc. destruct (measures_fun _ _ _ _ _ M1 M3) as (_ & ->). apply Rmult_eq_reg_r with s; [|lra]. lra.
      * destruct (known_spec _ _ _ _ K3) as (q'' & p' & s' & M1' & M3' & E3). destruct (measures_fun _ _ _ _ _ M1 M1') as (_ & <-). destruct (measures_fun _ _ _ _ _ M3 M3') as (_ & <-). apply Rmult_eq_reg_r with s; [|lra]. lra.
Qed.
Print Assumptions c92_ways.
(** "What can be converted in two steps can be converted": not millimetres to kilometres. *)
Theorem c92_steps_refuted : ~ (forall v a b c w x, convert_unit v a b = Ok w -> convert_unit w b c = Ok x -> exists y, convert_unit v a c = Ok y).
Proof. intro H. destruct (H 1 "mm"%string "m"%string "km"%string (1 / 1000) (1 / 1000 / 1000) eq_refl eq_refl) as (y & E). discriminate. Qed.
Print Assumptions c92_steps_refuted.

(** ** Names *)
Lemma dropped_spec a : dropped a = true <-> punctuation a.
Proof. unfold dropped, punctuation. rewrite existsb_exists. split; [intros (x & I & E); apply Ascii.eqb_eq in E; subst; exact I|intro I; exists a; split; [exact I|apply Ascii.eqb_refl]]. Qed.
Lemma remove_spec s t : without_punctuation s t <-> remove_chars s = t.
Proof.
  split.
  - induction 1 as [|a s t P W IH|a s t P W IH]; simpl; [reflexivity| |].
    + apply dropped_spec in P. rewrite P. exact IH.
    + destruct (dropped a) eqn:E; [apply dropped_spec in E; contradiction|]. rewrite IH. reflexivity.
  - intros <-. induction s as [|a s IH]; simpl; [constructor|]. destruct (dropped a) eqn:E; [apply wp_drop; [apply dropped_spec; exact E|exact IH]|apply wp_keep; [intro P; apply dropped_spec in P; congruence|exact IH]].
Qed.
Lemma look_up_in {A} k (l : list (string * A)) v : look_up k l = Some v -> In (k, v) l.
Proof. induction l as [|(k' & v') l IH]; simpl; [discriminate|]. destruct (k =? k')%string eqn:E; [apply String.eqb_eq in E; intro Q; injection Q as ->; subst; auto|auto]. Qed.
Lemma look_up_out {A} k (l : list (string * A)) : look_up k l = None <-> ~ In k (map fst l).
Proof.
  induction l as [|(k' & v') l IH]; simpl; [tauto|]. destruct (k =? k')%string eqn:E.
  - apply String.eqb_eq in E. split; [discriminate|]. intro N. exfalso. apply N. left. congruence.
  - rewrite IH. apply String.eqb_neq in E. split; [intros N [Q|I]; [congruence|tauto]|tauto].
Qed.
(** Brackets and spaces do not count, except in the name of a member. *)
Theorem c92_brackets : forall s s' t, ~ member_name s -> ~ member_name s' -> without_punctuation s t -> without_punctuation s' t -> get_unit_enum s = get_unit_enum s'.
Proof.
  intros s s' t N N' W W'. apply remove_spec in W, W'. unfold get_unit_enum. rewrite (proj2 (look_up_out s members) N), (proj2 (look_up_out s' members) N'), W, W'. reflexivity.
Qed.
Print Assumptions c92_brackets.
Example c92_brackets_case : ~ member_name "[ mm/d ]" /\ ~ member_name "mm/d" /\ without_punctuation "[ mm/d ]" "mm/d" /\ without_punctuation "mm/d" "mm/d" /\ get_unit_enum "mm/d" = Ok MM_D.
Proof.
  split; [intro I; unfold member_name in I; simpl in I; repeat (destruct I as [I|I]; [discriminate|]); exact I|]. split; [intro I; unfold member_name in I; simpl in I; repeat (destruct I as [I|I]; [discriminate|]); exact I|].
  split; [apply remove_spec; reflexivity|]. split; [apply remove_spec; reflexivity|reflexivity].
Qed.
(** A name that is accepted is that of a member, or without brackets and spaces one of the list, or nothing, a dash, or a column without name. *)
Theorem c92_names : forall s u, get_unit_enum s = Ok u ->
  (member_name s /\ In (s, u) members) \/ exists t, without_punctuation s t /\ (In (t, u) aliases \/ (u = NO_UNIT /\ (t = "-" \/ t = "" \/ exists p q, t = p ++ "Unnamed" ++ q)%string)).
Proof.
  intros s u E. unfold get_unit_enum in E. destruct (look_up s members) as [m|] eqn:L.
  - injection E as ->. left. apply look_up_in in L. split; [|exact L]. apply (in_map fst) in L. exact L.
  - right. exists (remove_chars s). split; [apply remove_spec; reflexivity|]. unfold stripped_unit in E. destruct ((remove_chars s =? "-") || (remove_chars s =? "") || contains "Unnamed" (remove_chars s))%string eqn:B.
    + injection E as <-. right. split; [reflexivity|]. apply Bool.orb_true_iff in B. destruct B as [B|B]; [apply Bool.orb_true_iff in B; destruct B as [B|B]; apply String.eqb_eq in B; auto|]. right. right.
      assert (G : forall p t, contains p t = true -> exists a b, t = (a ++ p ++ b)%string).
      { clear. intros p t. assert (PF : forall p t, prefix p t = true -> exists b, t = (p ++ b)%string).
        { clear. induction p as [|a p IH]; intros t H; [exists t; reflexivity|]. destruct t as [|b t]; [discriminate|]. simpl in H. destruct (ascii_dec a b) as [->|]; [|discriminate]. destruct (IH t H) as (r & ->). exists r. reflexivity. }
        induction t as [|c t IH]; intro H; cbn [contains] in H; apply Bool.orb_true_iff in H; destruct H as [H|H].
        - destruct (PF _ _ H) as (b & E). exists EmptyString, b. exact E.
        - discriminate.
        - destruct (PF _ _ H) as (b & E). exists EmptyString, b. exact E.
        - destruct (IH H) as (a & b & ->). exists (String c a), b. reflexivity. }
      exact (G _ _ B).
    + left. destruct (look_up (remove_chars s) aliases) as [a|] eqn:A; [|discriminate]. injection E as ->. exact (look_up_in _ _ _ A).
Qed.
Print Assumptions c92_names.
(** "Every name of the list is accepted" (the documentation gives 'square meter' as an example): not those with spaces. *)
Theorem c92_documented_refuted : ~ (forall s u, In (s, u) aliases -> get_unit_enum s = Ok u).
Proof. intro H. assert (E : get_unit_enum "square meter" = Ok M2) by (apply H; simpl; tauto). vm_compute in E. discriminate. Qed.
Print Assumptions c92_documented_refuted.
(** The others are. *)
Theorem c92_documented : forall s u, In (s, u) aliases -> without_punctuation s s -> get_unit_enum s = Ok u.
Proof.
  intros s u I W. apply remove_spec in W. simpl in I. repeat (destruct I as [I|I]; [injection I as <- <-; first [vm_compute in W; discriminate|reflexivity]|]). contradiction.
Qed.
Print Assumptions c92_documented.
(** "A value in a unit of the enumeration is converted to the same unit without change": degrees, fractions in percent and others are refused, as the text of the member is no name. *)
Theorem c92_member_refuted : ~ (forall u v, convert_unit v (text_of u) (text_of u) = Ok v).
Proof. intro H. specialize (H DEG_C 1). vm_compute in H. discriminate. Qed.
Print Assumptions c92_member_refuted.
(** It is for those units that can be converted. *)
Theorem c92_member : forall u q x, measures u q x -> get_unit_enum (text_of u) = Ok u.
Proof. intros u q x A. destruct A; reflexivity. Qed.
Print Assumptions c92_member.
(** "The unit is taken from the second part of the name of a column" (the documentation: ('area', 'km2')): such a column is refused, as the parts are put together. *)
Theorem c92_column_refuted : ~ (forall name unit vs b ws, convert_column [unit] vs b = Ok ws -> convert_column [name; unit] vs b = Ok ws).
Proof.
  intro H. specialize (H "area"%string "km2"%string [1] "m2"%string [1 * 1000000] eq_refl). vm_compute in H. discriminate.
Qed.
Print Assumptions c92_column_refuted.
