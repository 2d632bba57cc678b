(** Lemmas: values given to parameters, random draws, calibration. *)
From Verif Require Import BaseFacts ParamSetSpec ParamSetFacts ParamSetRange.
Open Scope R_scope.

Lemma same_definition_refl p : same_definition p p.
Proof. repeat split. Qed.
Lemma same_definition_trans p q r : same_definition p q -> same_definition q r -> same_definition p r.
Proof. intros (a & b & c & d & e & f & g) (a' & b' & c' & d' & e' & f' & g'). unfold same_definition. repeat split; congruence. Qed.
Lemma put_definition v p : same_definition p (put_value v p).
Proof. repeat split. Qed.
Lemma definition_range p q low high : same_definition p q -> number_range p low high -> number_range q low high.
Proof. intros (_ & _ & _ & d & e & _) (A & B). unfold number_range. rewrite d, e. auto. Qed.
Lemma definition_fits p q v : same_definition p q -> fits p v -> fits q v.
Proof. intros (_ & _ & _ & d & e & _). unfold fits, number_range, list_range. rewrite d, e. auto. Qed.
Lemma definition_sym p q : same_definition p q -> same_definition q p.
Proof. intros (a & b & c & d & e & f & g). unfold same_definition. repeat split; congruence. Qed.
Lemma definition_names s s' : parameters s' = parameters s -> (forall i, (i < parameters s)%nat -> same_definition (row s i) (row s' i)) -> same_names s s'.
Proof. intros A B. split; [exact A|]. intros i Hi. destruct (B i Hi) as (a & b & c & _). auto. Qed.

Lemma check_same p v w : check_value_range false p v = Ok w -> w = v.
Proof.
  unfold check_value_range. destruct (pa_min p) as [[a|mn]|].
  - destruct (match pa_max p with None => _ | Some _ => _ end) as [[|]| |]; cbn [bind]; try discriminate; [destruct (pa_max p); discriminate|].
    destruct (py_lt v (PNum a)) as [[|]| |]; cbn [bind]; congruence.
  - destruct (pa_max p) as [[b|mx]|]; try discriminate. destruct v as [x|l]; [discriminate|]. destruct (check_list_strict mn mx l) as (_ & B & _).
    destruct (check_list false mn mx l) as [r| |]; cbn [bind]; try discriminate. intros [= <-]. destruct (B r eq_refl) as (_ & ->). reflexivity.
  - destruct (match pa_max p with None => _ | Some _ => _ end) as [[|]| |]; cbn [bind]; try discriminate; [destruct (pa_max p); discriminate|congruence].
Qed.
(** One entry. *)
Lemma set_value_plain s check kv s' : set_value s check false false kv = Ok s' -> exists i, param_index s (fst kv) = Some i /\ s' = with_row s i (put_value (snd kv)) /\
  (check = true -> check_value_range false (row s i) (snd kv) = Ok (snd kv)).
Proof.
  unfold set_value. destruct (param_index s (fst kv)) as [i|]; [|discriminate]. cbn [bind]. destruct check.
  - destruct (check_value_range false (row s i) (snd kv)) as [w| |] eqn:E; cbn [bind]; try discriminate. intros [= <-]. pose proof (check_same _ _ _ E) as ->. exists i. auto.
  - cbn [bind]. intros [= <-]. exists i. split; [reflexivity|]. split; [reflexivity|discriminate].
Qed.
Lemma put_rows s i v j : (j < parameters s)%nat -> row (with_row s i (put_value v)) j = if (j =? i)%nat then put_value v (row s j) else row s j.
Proof. apply with_row_row. Qed.
Lemma last_given_same_names s s' l i v : same_names s s' -> (last_given s' l i v <-> last_given s l i v).
Proof.
  intro H. unfold last_given. split; intros (l1 & k & l2 & A & B & C); exists l1, k, l2; (split; [exact A|]); (split; [rewrite ?(same_names_index s s' k H) in *; rewrite ?(same_names_index s s' k H); exact B|]).
  - intros q Hq. rewrite <- (same_names_index s s' (fst q) H). apply C. exact Hq.
  - intros q Hq. rewrite (same_names_index s s' (fst q) H). apply C. exact Hq.
Qed.
Lemma not_given_same_names s s' l i : same_names s s' -> (not_given s' l i <-> not_given s l i).
Proof. intro H. unfold not_given. split; intros A q Hq; [rewrite <- (same_names_index s s' (fst q) H)|rewrite (same_names_index s s' (fst q) H)]; apply A; exact Hq. Qed.
Definition index_dec (a b : option nat) : {a = b} + {a <> b}.
Proof. decide equality. apply Nat.eq_dec. Defined.
Lemma last_given_cases s kv l i v : last_given s (kv :: l) i v -> last_given s l i v \/ (param_index s (fst kv) = Some i /\ snd kv = v /\ not_given s l i).
Proof.
  intros (l1 & k & l2 & A & B & C). destruct l1 as [|q l1]; cbn in A.
  - injection A as -> ->. right. auto.
  - injection A as -> ->. left. exists l1, k, l2. auto.
Qed.
Lemma given_or_not s l i : not_given s l i \/ exists v, last_given s l i v.
Proof.
  induction l as [|(k, v) l IH]; [left; intros q []|]. destruct IH as [IH|(w & l1 & k' & l2 & A & B & C)].
  - destruct (index_dec (param_index s k) (Some i)) as [E|E].
    + right. exists v, [], k, l. split; [reflexivity|]. split; [exact E|]. intros q Hq. apply IH. exact Hq.
    + left. intros q [<-|Hq]; [exact E|apply IH; exact Hq].
  - right. exists w, ((k, v) :: l1), k', l2. split; [rewrite A; reflexivity|]. auto.
Qed.
Lemma set_values_rows check l : forall s s', set_values s check false false l = Returned s' ->
  parameters s' = parameters s /\ ps_constraints s' = ps_constraints s /\ forall i, (i < parameters s)%nat -> same_definition (row s i) (row s' i) /\
    (not_given s l i -> row s' i = row s i) /\ forall v, last_given s l i v -> pa_value (row s' i) = Some v.
Proof.
  induction l as [|kv l IH]; intros s s'; cbn [set_values].
  - intros [= <-]. split; [reflexivity|]. split; [reflexivity|]. intros i Hi. split; [apply same_definition_refl|]. split; [reflexivity|]. intros v (l1 & k & l2 & A & _). destruct l1; discriminate.
  - destruct (set_value s check false false kv) as [s1| |] eqn:E; try discriminate. intro H. destruct (set_value_names _ _ _ _ _ _ E) as (N & Cs). destruct (IH s1 s' H) as (P1 & P2 & P3).
    destruct (set_value_plain _ _ _ _ E) as (i0 & I1 & -> & _). rewrite with_row_parameters in *. split; [exact P1|]. split; [congruence|].
    intros i Hi. destruct (P3 i Hi) as (D1 & D2 & D3). rewrite (put_rows s i0 (snd kv) i Hi) in D1, D2. rewrite (not_given_same_names _ _ l i N) in D2. split; [|split].
    + destruct (i =? i0)%nat; [exact (same_definition_trans _ _ _ (put_definition _ _) D1)|exact D1].
    + intro Hn. assert (Hl : not_given s l i) by (intros q Hq; apply Hn; right; exact Hq). assert (i <> i0) by (intros ->; apply (Hn kv (or_introl eq_refl)); exact I1).
      rewrite (D2 Hl). destruct (Nat.eqb_spec i i0); [contradiction|reflexivity].
    + intros v Hv. destruct (last_given_cases _ _ _ _ _ Hv) as [Hl|(A & <- & Hn)].
      * apply D3. apply (last_given_same_names _ _ l i v N). exact Hl.
      * rewrite (D2 Hn). assert (i = i0) as -> by congruence. rewrite Nat.eqb_refl. reflexivity.
Qed.
(** When the values are accepted. *)
Lemma set_value_iff s kv : (forall i, param_index s (fst kv) = Some i -> ranged (row s i) /\ bounded (row s i)) ->
  (acceptable s kv -> exists s', set_value s true false false kv = Ok s') /\ (forall s', set_value s true false false kv = Ok s' -> acceptable s kv).
Proof.
  intro H. split.
  - intros (i & A & B). destruct (H i A) as (R1 & R2). unfold set_value. rewrite A. cbn [bind]. destruct (check_strict (row s i) (snd kv) R1 R2) as (C & _). rewrite (C B). cbn [bind]. eexists. reflexivity.
  - intros s' E. destruct (set_value_plain _ _ _ _ E) as (i & A & _ & C). specialize (C eq_refl). destruct (H i A) as (R1 & R2). exists i. split; [exact A|]. destruct (check_strict (row s i) (snd kv) R1 R2) as (_ & D & _). apply (D _ C).
Qed.
Lemma acceptable_same s s' kv : parameters s' = parameters s -> (forall i, (i < parameters s)%nat -> same_definition (row s i) (row s' i)) -> (acceptable s' kv <-> acceptable s kv).
Proof.
  intros A B. pose proof (definition_names s s' A B) as N. unfold acceptable. rewrite (same_names_index s s' (fst kv) N). split; intros (i & C & D); exists i; (split; [exact C|]); pose proof (B i (index_lt s _ i C)) as K.
  - apply (definition_fits _ _ _ (definition_sym _ _ K)). exact D.
  - apply (definition_fits _ _ _ K). exact D.
Qed.
Lemma ranged_same p q : same_definition p q -> ranged p -> ranged q.
Proof. intros (_ & _ & _ & d & e & _). unfold ranged, number_range, list_range. rewrite d, e. auto. Qed.
Lemma bounded_same p q : same_definition p q -> bounded p -> bounded q.
Proof. intros (_ & _ & _ & d & e & _). unfold bounded, number_range. rewrite d, e. auto. Qed.
Lemma set_values_iff l : forall s, given_ranged s l -> ((forall q, In q l -> acceptable s q) <-> exists s', set_values s true false false l = Returned s').
Proof.
  induction l as [|kv l IH]; intros s H; cbn [set_values].
  - split; [intros _; exists s; reflexivity|intros _ q []].
  - destruct (set_value_iff s kv (fun i => H kv i (or_introl eq_refl))) as (A & B). destruct (set_value s true false false kv) as [s1| |] eqn:E.
    + destruct (set_value_plain _ _ _ _ E) as (i0 & I1 & Es & _). assert (P : parameters s1 = parameters s) by (subst s1; apply with_row_parameters).
      assert (Df : forall i, (i < parameters s)%nat -> same_definition (row s i) (row s1 i)) by (intros i Hi; subst s1; rewrite put_rows by exact Hi; destruct (i =? i0)%nat; [apply put_definition|apply same_definition_refl]).
      assert (G : given_ranged s1 l).
      { intros q i Hq Hi. rewrite (same_names_index s s1 (fst q) (definition_names s s1 P Df)) in Hi. destruct (H q i (or_intror Hq) Hi) as (R1 & R2). pose proof (Df i (index_lt s _ i Hi)) as K. split; [exact (ranged_same _ _ K R1)|exact (bounded_same _ _ K R2)]. }
      rewrite <- (IH s1 G). split.
      * intros K q Hq. apply (acceptable_same s s1 q P Df). apply K. right. exact Hq.
      * intros K q [<-|Hq]; [apply (B s1 eq_refl)|]. apply (acceptable_same s s1 q P Df). apply K. exact Hq.
    + split; [|intros (? & X); discriminate]. intro K. destruct (A (K kv (or_introl eq_refl))) as (? & X). discriminate.
    + split; [|intros (? & X); discriminate]. intro K. destruct (A (K kv (or_introl eq_refl))) as (? & X). discriminate.
Qed.

(** *** Random draws *)
Lemma draw_list_between low u (Hu : forall k, 0 <= u k <= 1) : forall high v k r k', draw_list low high v u k = Ok (r, k') ->
  (forall m a b, nth_error low m = Some a -> nth_error high m = Some b -> a <= b) -> all_between low high r.
Proof.
  induction low as [|a low IH]; intros [|b high] v k r k' E H; try (intros [|m] ? ? ?; cbn; discriminate).
  cbn [draw_list] in E. destruct v as [|x v]; [discriminate|]. destruct (draw_list low high v u (S k)) as [(r', k1)| |] eqn:E1; cbn [bind fst snd] in E; try discriminate. injection E as <- <-.
  apply all_between_cons. split.
  - specialize (H 0%nat a b eq_refl eq_refl). specialize (Hu k). unfold uniform. split; [assert (0 <= (b - a) * u k) by (apply Rmult_le_pos; lra); lra|].
    assert ((b - a) * u k <= (b - a) * 1) by (apply Rmult_le_compat_l; lra). lra.
  - apply (IH high v (S k) r' k1 E1). intros m. exact (H (S m)).
Qed.
Lemma draw_one_spec s key u k s' k' : (forall k, 0 <= u k <= 1) -> draw_one s key u k = Ok (s', k') ->
  exists i v, param_index s key = Some i /\ s' = with_row s i (put_value v) /\ (range_open (row s i) -> fits (row s i) v).
Proof.
  intros Hu. unfold draw_one. destruct (param_index s key) as [i|]; [|discriminate].
  destruct (pa_min (row s i)) as [[a|mn]|] eqn:Em; try discriminate; destruct (pa_max (row s i)) as [[b|mx]|] eqn:Ex; try discriminate.
  - intros [= <- <-]. exists i, (PNum (uniform a b (u k))). split; [reflexivity|]. split; [reflexivity|]. intros (H & _).
    assert (Nr : number_range (row s i) (Some a) (Some b)) by (split; assumption). specialize (H a b Nr). left. exists (Some a), (Some b), (uniform a b (u k)). split; [exact Nr|]. split; [reflexivity|].
    specialize (Hu k). unfold uniform. assert (0 <= (b - a) * u k) by (apply Rmult_le_pos; lra). assert ((b - a) * u k <= (b - a) * 1) by (apply Rmult_le_compat_l; lra). split; intros ? [= <-]; lra.
  - destruct (match pa_value (row s i) with None => _ | Some _ => _ end) as [l|]; [|discriminate]. destruct (draw_list mn mx l u k) as [(r, k1)| |] eqn:E; cbn [bind fst snd]; try discriminate. intros [= <- <-].
    exists i, (PList r). split; [reflexivity|]. split; [reflexivity|]. intros (_ & H). assert (Lr : list_range (row s i) mn mx) by (split; assumption). right. exists mn, mx, r. split; [exact Lr|]. split; [reflexivity|].
    apply (draw_list_between mn u Hu mx l k r k1 E). exact (H mn mx Lr).
Qed.
Lemma open_same p q : same_definition p q -> range_open p -> range_open q.
Proof. intros (_ & _ & _ & d & e & _). unfold range_open, number_range, list_range. rewrite d, e. auto. Qed.
Definition after_draw (s : pset) (keys : list string) (s' : pset) : Prop :=
  parameters s' = parameters s /\ ps_constraints s' = ps_constraints s /\ forall i, (i < parameters s)%nat -> same_definition (row s i) (row s' i) /\
    ((forall key, In key keys -> param_index s key <> Some i) -> row s' i = row s i) /\
    forall key, In key keys -> param_index s key = Some i -> range_open (row s i) -> exists v, pa_value (row s' i) = Some v /\ fits (row s i) v.
Lemma draw_all_spec u (Hu : forall k, 0 <= u k <= 1) keys : forall s k s' k', draw_all s keys u k = Ok (s', k') -> after_draw s keys s'.
Proof.
  induction keys as [|key keys IH]; intros s k s' k'; cbn [draw_all].
  - intros [= <- <-]. split; [reflexivity|]. split; [reflexivity|]. intros i Hi. split; [apply same_definition_refl|]. split; [reflexivity|intros ? []].
  - destruct (draw_one s key u k) as [(s1, k1)| |] eqn:E; cbn [bind fst snd]; try discriminate. intro H. destruct (draw_one_names _ _ _ _ _ _ E) as (N & Cs). destruct (draw_one_spec s key u k s1 k1 Hu E) as (i0 & v0 & I0 & -> & F0).
    destruct (IH _ _ _ _ H) as (P1 & P2 & P3). rewrite with_row_parameters in *. split; [exact P1|]. split; [congruence|]. intros i Hi. destruct (P3 i Hi) as (D1 & D2 & D3). rewrite (put_rows s i0 v0 i Hi) in D1, D2.
    assert (Dd : same_definition (row s i) (if (i =? i0)%nat then put_value v0 (row s i) else row s i)) by (destruct (i =? i0)%nat; [apply put_definition|apply same_definition_refl]).
    split; [exact (same_definition_trans _ _ _ Dd D1)|]. split.
    + intro Hn. rewrite D2; [destruct (Nat.eqb_spec i i0) as [->|]; [elim (Hn key (or_introl eq_refl)); exact I0|reflexivity]|]. intros q Hq. rewrite (same_names_index _ _ q N). apply Hn. right. exact Hq.
    + intros q Hq Iq Op. destruct (in_dec (fun a b => index_dec a b) (Some i) (map (param_index s) keys)) as [Y|Y].
      * apply in_map_iff in Y. destruct Y as (q' & Eq & Hq'). destruct (D3 q') as (v & V1 & V2); [exact Hq'|rewrite (same_names_index _ _ q' N); exact Eq|rewrite (put_rows s i0 v0 i Hi); exact (open_same _ _ Dd Op)|].
        exists v. split; [exact V1|]. rewrite (put_rows s i0 v0 i Hi) in V2. apply (definition_fits _ _ v (definition_sym _ _ Dd)). exact V2.
      * destruct Hq as [<-|Hq]; [|elim Y; apply in_map_iff; exists q; auto]. assert (i = i0) as -> by congruence. rewrite Nat.eqb_refl in D2. exists v0. split; [|apply F0; exact Op].
        rewrite D2; [reflexivity|]. intros q' Hq'. rewrite (same_names_index _ _ q' N). intro X. apply Y. apply in_map_iff. exists q'. auto.
Qed.
Lemma after_draw_again s keys s1 s2 : after_draw s keys s1 -> after_draw s1 keys s2 -> after_draw s keys s2.
Proof.
  intros (P1 & P2 & P3) (Q1 & Q2 & Q3). assert (N : same_names s s1) by (apply definition_names; [exact P1|intros i Hi; apply (P3 i Hi)]). split; [congruence|]. split; [congruence|].
  intros i Hi. destruct (P3 i Hi) as (A1 & A2 & A3). rewrite P1 in Q3. destruct (Q3 i Hi) as (B1 & B2 & B3). split; [exact (same_definition_trans _ _ _ A1 B1)|]. split.
  - intro Hn. rewrite B2; [apply A2; exact Hn|]. intros q Hq. rewrite (same_names_index _ _ q N). apply Hn. exact Hq.
  - intros q Hq Iq Op. destruct (B3 q Hq) as (v & V1 & V2); [rewrite (same_names_index _ _ q N); exact Iq|exact (open_same _ _ A1 Op)|]. exists v. split; [exact V1|]. exact (definition_fits _ _ v (definition_sym _ _ A1) V2).
Qed.
Lemma draw_until_spec u (Hu : forall k, 0 <= u k <= 1) keys : forall f s k s' k', draw_until f s keys u k = Ok (s', k') -> after_draw s keys s' /\ constraints_satisfied s' = Ok true.
Proof.
  induction f as [|f IH]; intros s k s' k'; cbn [draw_until]; [discriminate|]. destruct (draw_all s keys u k) as [(s1, k1)| |] eqn:E; cbn [bind fst snd]; try discriminate. pose proof (draw_all_spec u Hu keys _ _ _ _ E) as A.
  destruct (constraints_satisfied s1) as [[|]| |] eqn:C; cbn [bind]; try discriminate.
  - intros [= <- <-]. auto.
  - intro H. destruct (IH _ _ _ _ H) as (B & D). split; [exact (after_draw_again _ _ _ _ A B)|exact D].
Qed.
