(** Lemmas about parameter sets. *)
From Verif Require Import BaseFacts ParamSetSpec.
Open Scope R_scope.

(** *** Names *)
Lemma low_nat c : nat_of_ascii (lower_char c) = (if (Nat.leb 65 (nat_of_ascii c) && Nat.leb (nat_of_ascii c) 90)%bool then nat_of_ascii c + 32 else nat_of_ascii c)%nat.
Proof.
  unfold lower_char. destruct (Nat.leb_spec 65 (nat_of_ascii c)), (Nat.leb_spec (nat_of_ascii c) 90); cbn [andb]; try reflexivity. apply nat_ascii_embedding. lia.
Qed.
Lemma nat_inj c d : nat_of_ascii c = nat_of_ascii d -> c = d.
Proof. intro H. rewrite <- (ascii_nat_embedding c), <- (ascii_nat_embedding d), H. reflexivity. Qed.
Lemma lower_letter c d : lower_char c = lower_char d <-> same_letter c d.
Proof.
  split.
  - intro H. apply (f_equal nat_of_ascii) in H. rewrite !low_nat in H.
    destruct (Nat.leb_spec 65 (nat_of_ascii c)), (Nat.leb_spec (nat_of_ascii c) 90), (Nat.leb_spec 65 (nat_of_ascii d)), (Nat.leb_spec (nat_of_ascii d) 90); cbn [andb] in H; try lia;
      try (left; apply nat_inj; lia).
    + right. exists (nat_of_ascii c - 65)%nat. split; [lia|]. left. split; apply nat_inj; rewrite nat_ascii_embedding; lia.
    + right. exists (nat_of_ascii d - 65)%nat. split; [lia|]. right. split; apply nat_inj; rewrite nat_ascii_embedding; lia.
  - intros [->|(k & Hk & [(-> & ->)|(-> & ->)])]; [reflexivity| |]; apply nat_inj; rewrite !low_nat, !nat_ascii_embedding by lia;
      repeat match goal with |- context [Nat.leb ?a ?b] => destruct (Nat.leb_spec a b); try lia end; cbn [andb]; lia.
Qed.
Lemma lower_same s : forall t, lower s = lower t <-> same_text s t.
Proof.
  induction s as [|c s IH]; intros [|d t]; cbn.
  - split; [constructor|reflexivity].
  - split; [discriminate|intro H; inversion H].
  - split; [discriminate|intro H; inversion H].
  - split.
    + intro H. injection H as A B. constructor; [apply lower_letter; exact A|apply IH; exact B].
    + intro H. inversion H; subst. f_equal; [apply lower_letter; assumption|apply IH; assumption].
Qed.
Lemma same_refl s : same_text s s.
Proof. apply lower_same. reflexivity. Qed.
Lemma same_sym s t : same_text s t -> same_text t s.
Proof. rewrite <- !lower_same. congruence. Qed.
Lemma same_trans s t v : same_text s t -> same_text t v -> same_text s v.
Proof. rewrite <- !lower_same. congruence. Qed.
(** A colon stays a colon. *)
Lemma same_letter_colon c : same_letter ":" c -> c = ":"%char.
Proof.
  intros [<-|(k & Hk & [(A & _)|(A & _)])]; [reflexivity| |]; apply (f_equal nat_of_ascii) in A; rewrite nat_ascii_embedding in A by lia; change (nat_of_ascii ":") with 58%nat in A; lia.
Qed.
Lemma same_colon s t : same_text s t -> In ":"%char (list_ascii_of_string s) -> In ":"%char (list_ascii_of_string t).
Proof.
  intro H. induction H as [|c d s t Hc _ IH]; cbn; [tauto|]. intros [->|H]; [left; apply same_letter_colon; exact Hc|right; apply IH; exact H].
Qed.
Lemma la_app' a b : list_ascii_of_string (a ++ b)%string = list_ascii_of_string a ++ list_ascii_of_string b.
Proof. induction a as [|c a IH]; cbn; [reflexivity|rewrite IH; reflexivity]. Qed.
Lemma full_name_colon p : In ":"%char (list_ascii_of_string (full_name p)).
Proof. unfold full_name. rewrite la_app'. apply in_or_app. right. left. reflexivity. Qed.

Lemma answers_called name p : match pa_alias p with OneText _ => False | _ => True end -> (answers name p = true <-> called name p).
Proof.
  intro H. unfold answers, called, full_name. rewrite orb_true_iff, existsb_exists, String.eqb_eq, lower_same.
  assert (E : iter_alias (pa_alias p) = alias_texts p) by (unfold iter_alias, alias_texts; destruct (pa_alias p); [reflexivity|contradiction|reflexivity]). rewrite E.
  split; (intros [(a & A & B)|B]; [left; exists a; split; [exact A|]|right; exact B]); [apply String.eqb_eq in B; apply lower_same; exact B|apply String.eqb_eq, lower_same; exact B].
Qed.

Lemma index_from_spec l name : forall i, match index_from l name i with
  | Some j => exists k, j = (i + k)%nat /\ (k < List.length l)%nat /\ answers name (nth k l blank) = true /\ forall m, (m < k)%nat -> answers name (nth m l blank) = false
  | None => forall p, In p l -> answers name p = false end.
Proof.
  induction l as [|p l IH]; intro i; cbn [index_from]; [intros p []|]. destruct (answers name p) eqn:E.
  - exists 0%nat. split; [lia|]. split; [cbn; lia|]. split; [exact E|]. intros m Hm. lia.
  - specialize (IH (S i)). destruct (index_from l name (S i)) as [j|].
    + destruct IH as (k & A & B & C & D). exists (S k). split; [lia|]. split; [cbn; lia|]. split; [exact C|]. intros [|m] Hm; cbn; [exact E|apply D; lia].
    + intros q [<-|Hq]; [exact E|apply IH; exact Hq].
Qed.
Lemma index_some s name i : param_index s name = Some i <->
  (i < parameters s)%nat /\ answers name (row s i) = true /\ forall j, (j < i)%nat -> answers name (row s j) = false.
Proof.
  unfold param_index, row, parameters. pose proof (index_from_spec (ps_params s) name 0) as H. split.
  - intro E. rewrite E in H. destruct H as (k & -> & B & C & D). cbn. auto.
  - intros (A & B & C). destruct (index_from (ps_params s) name 0) as [j|].
    + destruct H as (k & -> & B' & C' & D'). cbn. f_equal. destruct (Nat.lt_trichotomy k i) as [X|[X|X]]; [|exact X|].
      * specialize (C k X). congruence.
      * specialize (D' i X). congruence.
    + rewrite (H (nth i (ps_params s) blank) (nth_In _ _ A)) in B. discriminate.
Qed.
Lemma index_none s name : param_index s name = None <-> forall p, In p (ps_params s) -> answers name p = false.
Proof.
  unfold param_index. pose proof (index_from_spec (ps_params s) name 0) as H. split.
  - intro E. rewrite E in H. exact H.
  - intro A. destruct (index_from (ps_params s) name 0) as [j|]; [|reflexivity]. destruct H as (k & -> & B & C & _). rewrite (A _ (nth_In _ _ B)) in C. discriminate.
Qed.
Lemma index_lt s name i : param_index s name = Some i -> (i < parameters s)%nat.
Proof. intro H. apply index_some in H. tauto. Qed.

(** *** Rows *)
Lemma change_row_length l f : forall i, List.length (change_row l i f) = List.length l.
Proof. induction l as [|p l IH]; intros [|i]; cbn; [reflexivity|reflexivity|reflexivity|rewrite IH; reflexivity]. Qed.
Lemma change_row_nth l f : forall i j, (j < List.length l)%nat -> nth j (change_row l i f) blank = if (j =? i)%nat then f (nth j l blank) else nth j l blank.
Proof.
  induction l as [|p l IH]; intros i j Hj; [cbn in Hj; lia|]. destruct i as [|i], j as [|j]; cbn [change_row nth Nat.eqb]; try reflexivity. apply IH. cbn in Hj. lia.
Qed.
Lemma with_row_parameters s i f : parameters (with_row s i f) = parameters s.
Proof. apply change_row_length. Qed.
Lemma with_row_row s i f j : (j < parameters s)%nat -> row (with_row s i f) j = if (j =? i)%nat then f (row s j) else row s j.
Proof. intro H. apply change_row_nth. exact H. Qed.
Lemma in_rows s p : In p (ps_params s) <-> exists i, (i < parameters s)%nat /\ row s i = p.
Proof.
  unfold parameters, row. split.
  - intro H. apply (In_nth _ _ blank) in H. destruct H as (i & A & B). exists i. auto.
  - intros (i & A & <-). apply nth_In. exact A.
Qed.
(** Two sets with the same names: the same rows are found. *)
Definition same_names (s s' : pset) : Prop :=
  parameters s' = parameters s /\ forall i, (i < parameters s)%nat -> pa_component (row s' i) = pa_component (row s i) /\ pa_name (row s' i) = pa_name (row s i) /\ pa_alias (row s' i) = pa_alias (row s i).
Lemma same_names_index s s' name : same_names s s' -> param_index s' name = param_index s name.
Proof.
  intros (A & B).
  assert (K : forall i, (i < parameters s)%nat -> answers name (row s' i) = answers name (row s i)) by (intros i Hi; destruct (B i Hi) as (x & y & z); unfold answers; rewrite x, y, z; reflexivity).
  destruct (param_index s name) as [i|] eqn:E.
  - apply index_some in E. destruct E as (E1 & E2 & E3). apply index_some. rewrite A. split; [exact E1|]. split; [rewrite K; assumption|]. intros j Hj. rewrite K by lia. apply E3. exact Hj.
  - rewrite index_none in E. apply index_none. intros p Hp. apply in_rows in Hp. destruct Hp as (i & Hi & <-). rewrite A in Hi. rewrite K by exact Hi. apply E. apply in_rows. exists i. auto.
Qed.
Lemma same_names_refl s : same_names s s.
Proof. split; [reflexivity|auto]. Qed.
Lemma same_names_trans s t v : same_names s t -> same_names t v -> same_names s v.
Proof.
  intros (A & B) (C & D). split; [congruence|]. intros i Hi. destruct (B i Hi) as (x & y & z). rewrite A in D. destruct (D i Hi) as (x' & y' & z'). split; [congruence|]. split; congruence.
Qed.
Lemma with_row_names s i f : (forall p, pa_component (f p) = pa_component p /\ pa_name (f p) = pa_name p /\ pa_alias (f p) = pa_alias p) -> same_names s (with_row s i f).
Proof.
  intro H. split; [apply with_row_parameters|]. intros j Hj. rewrite with_row_row by exact Hj. destruct (j =? i)%nat; [apply H|auto].
Qed.
Lemma put_value_names s i v : same_names s (with_row s i (put_value v)).
Proof. apply with_row_names. intro p. cbn. auto. Qed.

Lemma set_value_names s c a t kv s' : set_value s c a t kv = Ok s' -> same_names s s' /\ ps_constraints s' = ps_constraints s.
Proof.
  unfold set_value. destruct (param_index s (fst kv)) as [i|]; [|discriminate]. destruct (if t then _ else _) as [v| |]; cbn [bind]; try discriminate. destruct (if c then _ else _) as [v'| |]; cbn [bind]; try discriminate.
  intro H. injection H as <-. split; [apply put_value_names|reflexivity].
Qed.
Lemma set_values_names c a t l : forall s s', set_values s c a t l = Returned s' \/ set_values s c a t l = Raised s' -> same_names s s' /\ ps_constraints s' = ps_constraints s.
Proof.
  induction l as [|kv l IH]; intros s s' H; cbn [set_values] in H.
  - destruct H as [H|H]; [injection H as <-; split; [apply same_names_refl|reflexivity]|discriminate].
  - destruct (set_value s c a t kv) as [s1| |] eqn:E; try (destruct H as [H|H]; [discriminate|injection H as <-; split; [apply same_names_refl|reflexivity]]).
    destruct (set_value_names _ _ _ _ _ _ E) as (A & B). destruct (IH s1 s' H) as (C & D). split; [exact (same_names_trans _ _ _ A C)|congruence].
Qed.
Lemma draw_one_names s key u k s' k' : draw_one s key u k = Ok (s', k') -> same_names s s' /\ ps_constraints s' = ps_constraints s.
Proof.
  unfold draw_one. destruct (param_index s key) as [i|]; [|discriminate]. destruct (pa_min (row s i)) as [[a|mn]|]; try discriminate; destruct (pa_max (row s i)) as [[b|mx]|]; try discriminate.
  - intro H. injection H as <- <-. split; [apply put_value_names|reflexivity].
  - destruct (match pa_value (row s i) with None => _ | Some _ => _ end) as [l|]; [|discriminate]. destruct (draw_list mn mx l u k) as [q| |]; cbn [bind]; try discriminate.
    intro H. injection H as <- <-. split; [apply put_value_names|reflexivity].
Qed.
Lemma draw_all_names u keys : forall s k s' k', draw_all s keys u k = Ok (s', k') -> same_names s s' /\ ps_constraints s' = ps_constraints s.
Proof.
  induction keys as [|key keys IH]; intros s k s' k'; cbn [draw_all].
  - intro H. injection H as <- <-. split; [apply same_names_refl|reflexivity].
  - destruct (draw_one s key u k) as [(s1, k1)| |] eqn:E; cbn [bind fst snd]; try discriminate. intro H. destruct (draw_one_names _ _ _ _ _ _ E) as (A & B). destruct (IH _ _ _ _ H) as (C & D).
    split; [exact (same_names_trans _ _ _ A C)|congruence].
Qed.
Lemma draw_until_names u keys : forall f s k s' k', draw_until f s keys u k = Ok (s', k') -> same_names s s' /\ ps_constraints s' = ps_constraints s.
Proof.
  induction f as [|f IH]; intros s k s' k'; cbn [draw_until]; [discriminate|]. destruct (draw_all s keys u k) as [(s1, k1)| |] eqn:E; cbn [bind fst snd]; try discriminate.
  destruct (draw_all_names _ _ _ _ _ _ E) as (A & B). destruct (constraints_satisfied s1) as [[|]| |]; cbn [bind]; try discriminate.
  - intro H. injection H as <- <-. auto.
  - intro H. destruct (IH _ _ _ _ H) as (C & D). split; [exact (same_names_trans _ _ _ A C)|congruence].
Qed.

(** *** Uniqueness of the aliases *)
Lemma same_names_shared s s' : same_names s s' -> no_shared_alias s -> no_shared_alias s'.
Proof.
  intros (A & B) H i j a b Hi Hj Hn. rewrite A in Hi, Hj. destruct (B i Hi) as (_ & _ & x). destruct (B j Hj) as (_ & _ & y). unfold alias_texts. rewrite x, y. apply (H i j a b Hi Hj Hn).
Qed.
Lemma same_names_lists s s' : same_names s s' -> aliases_as_lists s -> aliases_as_lists s'.
Proof.
  intros (A & B) H p Hp. apply in_rows in Hp. destruct Hp as (i & Hi & <-). rewrite A in Hi. destruct (B i Hi) as (_ & _ & x). rewrite x. apply H. apply in_rows. exists i. auto.
Qed.
Lemma existing_in s x : In x (existing_aliases s) <-> exists p a, In p (ps_params s) /\ In a (alias_texts p) /\ x = lower a.
Proof.
  unfold existing_aliases. rewrite in_flat_map. split.
  - intros (p & A & B). destruct (pa_alias p) eqn:E; [destruct B| |].
    + destruct B as [<-|[]]. exists p, s0. unfold alias_texts. rewrite E. cbn. auto.
    + apply in_map_iff in B. destruct B as (a & <- & Ha). exists p, a. unfold alias_texts. rewrite E. auto.
  - intros (p & a & A & B & ->). exists p. split; [exact A|]. unfold alias_texts in B. destruct (pa_alias p); [destruct B| |].
    + destruct B as [->|[]]. left. reflexivity.
    + apply in_map. exact B.
Qed.
Lemma check_aliases_ok s a : (forall t, a <> OneText t) -> check_aliases s a = Ok tt ->
  forall x p b, In x (match a with NoAlias => [] | OneText t => [t] | Names l => l end) -> In p (ps_params s) -> In b (alias_texts p) -> ~ same_text x b.
Proof.
  intros Ha H x p b Hx Hp Hb E. unfold check_aliases in H. destruct (existsb _ _) eqn:K in H; [discriminate|].
  assert (X : existsb (fun x => existsb (String.eqb (lower x)) (existing_aliases s)) (iter_alias a) = true); [|congruence].
  apply existsb_exists. exists x. split; [destruct a; [destruct Hx|elim (Ha s0); reflexivity|exact Hx]|]. apply existsb_exists. exists (lower b). split.
  - apply existing_in. exists p, b. auto.
  - apply String.eqb_eq. apply lower_same. exact E.
Qed.
Lemma row_app s q cs i : row (mkPS (ps_params s ++ [q]) cs) i = if (i =? parameters s)%nat then q else if (i <? parameters s)%nat then row s i else blank.
Proof.
  unfold row, parameters. cbn [ps_params]. destruct (Nat.eqb_spec i (List.length (ps_params s))) as [->|Hn]; [rewrite app_nth2, Nat.sub_diag by lia; reflexivity|].
  destruct (Nat.ltb_spec i (List.length (ps_params s))); [apply app_nth1; lia|]. apply nth_overflow. rewrite app_length. cbn. lia.
Qed.
Lemma append_unique s q cs : aliases_as_lists s -> no_shared_alias s -> match pa_alias q with OneText _ => False | _ => True end ->
  (forall x p b, In x (alias_texts q) -> In p (ps_params s) -> In b (alias_texts p) -> ~ same_text x b) ->
  aliases_as_lists (mkPS (ps_params s ++ [q]) cs) /\ no_shared_alias (mkPS (ps_params s ++ [q]) cs).
Proof.
  intros A B C D. split.
  - intros p Hp. cbn [ps_params] in Hp. apply in_app_iff in Hp. destruct Hp as [Hp|[<-|[]]]; [apply A; exact Hp|exact C].
  - intros i j a b Hi Hj Hn. assert (L : parameters (mkPS (ps_params s ++ [q]) cs) = S (parameters s)) by (unfold parameters; cbn [ps_params]; rewrite app_length; cbn; lia).
    rewrite L in Hi, Hj. rewrite !row_app. destruct (Nat.eqb_spec i (parameters s)) as [->|Ni], (Nat.eqb_spec j (parameters s)) as [->|Nj]; [lia| | |].
    + destruct (Nat.ltb_spec j (parameters s)); [|lia]. intros Ha Hb. apply (D a (row s j) b Ha); [apply in_rows; exists j; auto|exact Hb].
    + destruct (Nat.ltb_spec i (parameters s)); [|lia]. intros Ha Hb E. apply (D b (row s i) a Hb); [apply in_rows; exists i; auto|exact Ha|apply same_sym; exact E].
    + destruct (Nat.ltb_spec i (parameters s)), (Nat.ltb_spec j (parameters s)); try lia. apply (B i j a b); assumption.
Qed.
Lemma history_unique s : history s -> aliases_as_lists s /\ no_shared_alias s.
Proof.
  intro H. induction H as [|s c n a mn mx d m s' _ (IH1 & IH2) Ha E|s n v mn mx s' _ (IH1 & IH2) E|s n mn mx s' _ (IH1 & IH2) E|s n t s' _ (IH1 & IH2) E|s c _ IH|s c _ IH|s check adapt tr l s' _ (IH1 & IH2) E|s keys u k s' k' _ (IH1 & IH2) E].
  - split; [intros p []|intros i j a b Hi; cbn in Hi; lia].
  - unfold define_parameter in E. destruct (check_aliases s a) as [[]| |] eqn:K; cbn [bind] in E; try discriminate. destruct (check_min_max mn mx); cbn [bind] in E; try discriminate. injection E as <-.
    apply append_unique; [exact IH1|exact IH2|cbn; destruct a; [exact I|elim (Ha s0); reflexivity|exact I]|]. intros x p b Hx. apply (check_aliases_ok s a Ha K). exact Hx.
  - unfold add_data_parameter in E. destruct (check_aliases s (Names [n])) as [[]| |] eqn:K; cbn [bind] in E; try discriminate. destruct (check_min_max mn mx); cbn [bind] in E; try discriminate. injection E as <-.
    apply append_unique; [exact IH1|exact IH2|exact I|]. intros x p b Hx. apply (check_aliases_ok s (Names [n])); [discriminate|exact K|exact Hx].
  - unfold change_range in E. destruct (param_index s n) as [i|]; [|discriminate]. injection E as <-.
    match goal with |- aliases_as_lists (with_row s i ?f) /\ _ => assert (S : same_names s (with_row s i f)) by (apply with_row_names; intro p; cbn; auto) end.
    split; [exact (same_names_lists _ _ S IH1)|exact (same_names_shared _ _ S IH2)].
  - unfold set_transform in E. destruct (param_index s n) as [i|]; [|discriminate]. destruct (_ || _); [discriminate|]. injection E as <-.
    match goal with |- aliases_as_lists (with_row s i ?f) /\ _ => assert (S : same_names s (with_row s i f)) by (apply with_row_names; intro p; cbn; auto) end.
    split; [exact (same_names_lists _ _ S IH1)|exact (same_names_shared _ _ S IH2)].
  - exact IH.
  - exact IH.
  - destruct (set_values_names _ _ _ _ _ _ E) as (S & _). split; [exact (same_names_lists _ _ S IH1)|exact (same_names_shared _ _ S IH2)].
  - destruct (draw_until_names _ _ _ _ _ _ _ E) as (S & _). split; [exact (same_names_lists _ _ S IH1)|exact (same_names_shared _ _ S IH2)].
Qed.
