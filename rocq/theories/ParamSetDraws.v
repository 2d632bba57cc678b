(** Lemmas: draws of numbers, the failure of random draws, samples of the optimizer, the best run. *)
From Verif Require Import BaseFacts ParamSetSpec ParamSetFacts ParamSetRange ParamSetUse.
Open Scope R_scope.

Lemma drawn_names s keys t s' : drawn s keys t s' -> same_names s s'.
Proof. intros (A & _ & B). apply definition_names; [exact A|]. intros i Hi. apply (B i Hi). Qed.
Lemma number_keys_same s s' keys : parameters s' = parameters s -> (forall i, (i < parameters s)%nat -> same_definition (row s i) (row s' i)) -> number_keys s keys -> number_keys s' keys.
Proof.
  intros A B H key Hk. destruct (H key Hk) as (i & a & b & C & D). exists i, a, b. split; [rewrite (same_names_index s s' key (definition_names s s' A B)); exact C|]. exact (definition_range _ _ _ _ (B i (index_lt s key i C)) D).
Qed.
Lemma draw_one_number s key u k i a b : param_index s key = Some i -> number_range (row s i) (Some a) (Some b) -> draw_one s key u k = Ok (with_row s i (put_value (PNum (uniform a b (u k)))), S k).
Proof. intros A (B & C). unfold draw_one. rewrite A, B, C. reflexivity. Qed.
Lemma draw_all_numbers u keys : forall s k, number_keys s keys -> exists s', draw_all s keys u k = Ok (s', (k + List.length keys)%nat) /\ drawn s keys (fun j => u (k + j)%nat) s'.
Proof.
  induction keys as [|key keys IH]; intros s k H; cbn [draw_all].
  - exists s. cbn. rewrite Nat.add_0_r. split; [reflexivity|]. split; [reflexivity|]. split; [reflexivity|]. intros i Hi. split; [apply same_definition_refl|]. split; [reflexivity|]. intros [|j]; cbn; discriminate.
  - destruct (H key (or_introl eq_refl)) as (i0 & a0 & b0 & I0 & R0). rewrite (draw_one_number s key u k i0 a0 b0 I0 R0). cbn [bind fst snd]. set (v0 := PNum (uniform a0 b0 (u k))). set (s1 := with_row s i0 (put_value v0)).
    assert (P1 : parameters s1 = parameters s) by apply with_row_parameters.
    assert (D1 : forall i, (i < parameters s)%nat -> same_definition (row s i) (row s1 i)) by (intros i Hi; unfold s1; rewrite (put_rows s i0 v0 i Hi); destruct (i =? i0)%nat; [apply put_definition|apply same_definition_refl]).
    pose proof (definition_names s s1 P1 D1) as N. destruct (IH s1 (S k)) as (s' & E & (A & B & C)); [apply (number_keys_same s s1 keys P1 D1); intros q Hq; apply H; right; exact Hq|].
    exists s'. split; [rewrite E; f_equal; f_equal; cbn; lia|]. split; [congruence|]. split; [rewrite B; reflexivity|]. intros i Hi. rewrite P1 in C. destruct (C i Hi) as (C1 & C2 & C3).
    split; [exact (same_definition_trans _ _ _ (D1 i Hi) C1)|]. assert (R1 : row s1 i = if (i =? i0)%nat then put_value v0 (row s i) else row s i) by (apply put_rows; exact Hi). split.
    + intro Hn. rewrite C2; [rewrite R1; destruct (Nat.eqb_spec i i0) as [->|]; [elim (Hn key (or_introl eq_refl)); exact I0|reflexivity]|]. intros q Hq. rewrite (same_names_index _ _ q N). apply Hn. right. exact Hq.
    + intros [|j] q a b Hq Iq Hr Hl; cbn [nth_error] in Hq.
      * injection Hq as <-. assert (i = i0) as -> by congruence. destruct R0 as (x & y), Hr as (x' & y'). rewrite x in x'. rewrite y in y'. injection x' as <-. injection y' as <-.
        rewrite C2; [rewrite R1, Nat.eqb_refl; cbn; rewrite Nat.add_0_r; reflexivity|]. intros q Hq. apply In_nth_error in Hq. destruct Hq as (m & Hm). rewrite (same_names_index _ _ q N). apply (Hl (S m) q); [lia|exact Hm].
      * replace (k + S j)%nat with (S k + j)%nat by lia. apply (C3 j q a b Hq); [rewrite (same_names_index _ _ q N); exact Iq|exact (definition_range _ _ _ _ (D1 i Hi) Hr)|].
        intros j' q' Hj Hq'. rewrite (same_names_index _ _ q' N). apply (Hl (S j') q'); [lia|exact Hq'].
Qed.
Lemma drawn_again s keys t t' s1 s2 : drawn s keys t s1 -> drawn s1 keys t' s2 -> drawn s keys t' s2.
Proof.
  intros D (A & B & C). pose proof (drawn_names _ _ _ _ D) as N. destruct D as (P & Q & R0). split; [congruence|]. split; [congruence|]. intros i Hi. rewrite P in C. destruct (R0 i Hi) as (A1 & A2 & _). destruct (C i Hi) as (C1 & C2 & C3).
  split; [exact (same_definition_trans _ _ _ A1 C1)|]. split.
  - intro Hn. rewrite C2; [apply A2; exact Hn|]. intros q Hq. rewrite (same_names_index _ _ q N). apply Hn. exact Hq.
  - intros j q a b Hq Iq Hr Hl. apply (C3 j q a b Hq); [rewrite (same_names_index _ _ q N); exact Iq|exact (definition_range _ _ _ _ A1 Hr)|]. intros j' q' Hj Hq'. rewrite (same_names_index _ _ q' N). apply (Hl j' q' Hj Hq').
Qed.
(** The parameters of the constraints are drawn or have a number. *)
Lemma last_key s keys i : (exists key, In key keys /\ param_index s key = Some i) ->
  exists j key, nth_error keys j = Some key /\ param_index s key = Some i /\ forall j' key', (j < j')%nat -> nth_error keys j' = Some key' -> param_index s key' <> Some i.
Proof.
  induction keys as [|q keys IH]; [intros (? & [] & _)|]. intros (key & Hk & Ik). destruct (in_dec (fun a b => index_dec a b) (Some i) (map (param_index s) keys)) as [Y|Y].
  - apply in_map_iff in Y. destruct Y as (q' & Eq & Hq'). destruct IH as (j & key' & A & B & C); [exists q'; auto|]. exists (S j), key'. split; [exact A|]. split; [exact B|]. intros [|j'] q'' Hj; [lia|]. apply C. lia.
  - exists 0%nat, q. destruct Hk as [<-|Hk]; [|elim Y; apply in_map_iff; exists key; auto]. split; [reflexivity|]. split; [exact Ik|]. intros [|j'] q'' Hj Hq''; [lia|]. cbn in Hq''. intro X. apply Y. apply in_map_iff. exists q''. split; [exact X|]. apply nth_error_In in Hq''. exact Hq''.
Qed.
Lemma drawn_applies s keys t s' : number_keys s keys -> constrained_numbers s keys -> drawn s keys t s' -> constraints_apply s'.
Proof.
  intros Hk Hc D. pose proof (drawn_names _ _ _ _ D) as N. destruct D as (P & Q & R0).
  assert (V : forall a o b c, In (a, o, b) (ps_constraints s) -> c = a \/ c = b -> has s' c = true -> exists x, valued s' c x).
  { intros a o b c Hin Hcc Hh. unfold has in Hh. destruct (param_index s' c) as [i|] eqn:E; [|discriminate]. pose proof E as E'. rewrite (same_names_index _ _ c N) in E'.
    assert (Hi : (i < parameters s)%nat) by (apply (index_lt s c); exact E'). destruct (R0 i Hi) as (_ & R2 & R3).
    destruct (in_dec (fun a b => index_dec a b) (Some i) (map (param_index s) keys)) as [Y|Y].
    - apply in_map_iff in Y. destruct Y as (q & Eq & Hq). destruct (last_key s keys i) as (j & key & A & B & C); [exists q; auto|].
      destruct (Hk key (nth_error_In _ _ A)) as (i' & lo & hi & I' & Nr). assert (i' = i) as -> by congruence. eexists. exists i. split; [exact E|]. exact (R3 j key lo hi A B Nr C).
    - destruct (Hc a o b Hin c i Hcc E') as [(q & Hq & Iq)|(x & Hx)]; [elim Y; apply in_map_iff; exists q; auto|]. exists x, i. split; [exact E|]. rewrite R2; [exact Hx|]. intros q Hq X. apply Y. apply in_map_iff. exists q. auto. }
  intros a o b Hin Ha Hb. rewrite Q in Hin. split; [apply (V a o b a Hin); [left; reflexivity|exact Ha]|apply (V a o b b Hin); [right; reflexivity|exact Hb]].
Qed.
Lemma constrained_again s keys t s1 : number_keys s keys -> constrained_numbers s keys -> drawn s keys t s1 -> constrained_numbers s1 keys.
Proof.
  intros Hk Hc D. pose proof (drawn_names _ _ _ _ D) as N. destruct D as (P & Q & R0). intros a o b Hin c i Hcc E. rewrite Q in Hin. rewrite (same_names_index _ _ c N) in E.
  destruct (in_dec (fun a b => index_dec a b) (Some i) (map (param_index s) keys)) as [Y|Y].
  - left. apply in_map_iff in Y. destruct Y as (q & Eq & Hq). exists q. split; [exact Hq|]. rewrite (same_names_index _ _ q N). exact Eq.
  - right. destruct (Hc a o b Hin c i Hcc E) as [(q & Hq & Iq)|(x & Hx)]; [elim Y; apply in_map_iff; exists q; auto|]. exists x. destruct (R0 i (index_lt s c i E)) as (_ & R2 & _). rewrite R2; [exact Hx|]. intros q Hq X. apply Y. apply in_map_iff. exists q. auto.
Qed.
Lemma draw_until_fails u keys : forall f s k, number_keys s keys -> constrained_numbers s keys -> draw_until f s keys u k = Throw ->
  forall n, (n < f)%nat -> exists s', drawn s keys (fun j => u (k + n * List.length keys + j)%nat) s' /\ ~ constraints_met s'.
Proof.
  induction f as [|f IH]; intros s k Hk Hc E n Hn; [lia|]. cbn [draw_until] in E. destruct (draw_all_numbers u keys s k Hk) as (s1 & E1 & D1). rewrite E1 in E. cbn [bind fst snd] in E.
  destruct (constraints_hold_iff s1 (ps_constraints s1) (drawn_applies s keys _ s1 Hk Hc D1)) as (r & E2 & Hr). unfold constraints_satisfied in E. rewrite E2 in E. cbn [bind] in E. destruct r; [discriminate|].
  destruct n as [|n].
  - exists s1. split; [cbn [Nat.mul]; rewrite Nat.add_0_r; exact D1|]. intro X. assert (false = true) by (apply Hr; exact X). discriminate.
  - pose proof D1 as (P & _ & R0). assert (Df : forall i, (i < parameters s)%nat -> same_definition (row s i) (row s1 i)) by (intros i Hi; apply (R0 i Hi)).
    destruct (IH s1 (k + List.length keys)%nat (number_keys_same s s1 keys P Df Hk) (constrained_again s keys _ s1 Hk Hc D1) E n ltac:(lia)) as (s' & A & B). exists s'. split; [|exact B].
    apply (drawn_again s keys _ _ s1 s' D1) in A. replace (k + S n * List.length keys)%nat with (k + List.length keys + n * List.length keys)%nat by lia. exact A.
Qed.
Lemma draw_until_no_ub u keys : forall f s k, number_keys s keys -> constrained_numbers s keys -> draw_until f s keys u k <> UB.
Proof.
  induction f as [|f IH]; intros s k Hk Hc; cbn [draw_until]; [discriminate|]. destruct (draw_all_numbers u keys s k Hk) as (s1 & E1 & D1). rewrite E1. cbn [bind fst snd].
  destruct (constraints_hold_iff s1 (ps_constraints s1) (drawn_applies s keys _ s1 Hk Hc D1)) as (r & E2 & Hr). unfold constraints_satisfied. rewrite E2. cbn [bind]. destruct r; [discriminate|].
  pose proof D1 as (P & _ & R0). apply IH; [apply (number_keys_same s s1 keys P); [intros i Hi; apply (R0 i Hi)|exact Hk]|exact (constrained_again s keys _ s1 Hk Hc D1)].
Qed.

(** *** The nearest value *)
Lemma clamp_nearest low high x : (forall a b, low = Some a -> high = Some b -> a <= b) ->
  nearest low high x (match high with
    | Some b => if Rltb b x then b else match low with Some a => if Rltb x a then a else x | None => x end
    | None => match low with Some a => if Rltb x a then a else x | None => x end end).
Proof.
  intro H. unfold nearest, between. destruct low as [a|], high as [b|].
  - specialize (H a b eq_refl eq_refl). destruct (Rltb_spec b x); [|destruct (Rltb_spec x a)].
    + split; [split; intros ? [= <-]; lra|]. intros z (A & B). specialize (B b eq_refl). rewrite !Rabs_left1 by lra. lra.
    + split; [split; intros ? [= <-]; lra|]. intros z (A & B). specialize (A a eq_refl). rewrite !Rabs_right by lra. lra.
    + split; [split; intros ? [= <-]; lra|]. intros z _. rewrite Rminus_diag_eq, Rabs_R0 by reflexivity. apply Rabs_pos.
  - destruct (Rltb_spec x a).
    + split; [split; intros ? [=]; lra|]. intros z (A & B). specialize (A a eq_refl). rewrite !Rabs_right by lra. lra.
    + split; [split; intros ? [=]; lra|]. intros z _. rewrite Rminus_diag_eq, Rabs_R0 by reflexivity. apply Rabs_pos.
  - destruct (Rltb_spec b x).
    + split; [split; intros ? [=]; lra|]. intros z (A & B). specialize (B b eq_refl). rewrite !Rabs_left1 by lra. lra.
    + split; [split; intros ? [=]; lra|]. intros z _. rewrite Rminus_diag_eq, Rabs_R0 by reflexivity. apply Rabs_pos.
  - split; [split; intros ? [=]|]. intros z _. rewrite Rminus_diag_eq, Rabs_R0 by reflexivity. apply Rabs_pos.
Qed.
Lemma max_min_nearest a b x : a <= b -> nearest (Some a) (Some b) x (Rmax a (Rmin b x)).
Proof.
  intro H. pose proof (clamp_nearest (Some a) (Some b) x) as K. cbn in K. assert (E : (if Rltb b x then b else if Rltb x a then a else x) = Rmax a (Rmin b x)).
  { destruct (Rltb_spec b x); [rewrite Rmin_left, Rmax_right by lra; reflexivity|]. rewrite Rmin_right by lra. destruct (Rltb_spec x a); [rewrite Rmax_left by lra; reflexivity|rewrite Rmax_right by lra; reflexivity]. }
  rewrite E in K. apply K. intros ? ? [= <-] [= <-]. exact H.
Qed.

(** *** The samples of the optimizer *)
Definition good (s : pset) : Prop := constraints_satisfied s = Ok true /\ range_satisfied s = Ok true.
Lemma sample_spec gen : forall f s i last s' x, sample f s gen i last = Ok (s', x) ->
  good s' \/ (forall j, (j < f)%nat -> exists t t', set_values t false false true (numbers (gen (i + j)%nat)) = Returned t' /\ ~ good t').
Proof.
  induction f as [|f IH]; intros s i last s' x; cbn [sample]; [intros _; right; intros j Hj; lia|].
  destruct (set_values s false false true (numbers (gen i))) as [s1|s1] eqn:E; [|discriminate]. destruct (constraints_satisfied s1) as [c| |] eqn:Ec; cbn [bind]; try discriminate.
  destruct (if c then range_satisfied s1 else Ok false) as [r| |] eqn:Er; cbn [bind]; try discriminate. destruct r.
  - intros [= <- <-]. left. destruct c; [|discriminate]. split; assumption.
  - intro H. destruct (IH _ _ _ _ _ H) as [G|G]; [left; exact G|right]. intros [|j] Hj.
    + rewrite Nat.add_0_r. exists s, s1. split; [exact E|]. intros (A & B). rewrite A in Ec. injection Ec as <-. congruence.
    + destruct (G j ltac:(lia)) as (t & t' & A & B). exists t, t'. split; [|exact B]. replace (i + S j)%nat with (S i + j)%nat by lia. exact A.
Qed.

(** *** The best run *)
Lemma argmax_from_spec l : forall i best v, (best < i)%nat -> let r := argmax_from l i best v in
  (r = best /\ (forall m, (m < List.length l)%nat -> nth m l 0 <= v)) \/
  (exists m, r = (i + m)%nat /\ (m < List.length l)%nat /\ v < nth m l 0 /\ (forall n, (n < List.length l)%nat -> nth n l 0 <= nth m l 0) /\ forall n, (n < m)%nat -> nth n l 0 < nth m l 0).
Proof.
  induction l as [|x l IH]; intros i best v Hb; cbn [argmax_from]; [left; split; [reflexivity|]; intros m Hm; cbn in Hm; lia|].
  destruct (Rltb_spec v x).
  - destruct (IH (S i) i x ltac:(lia)) as [(E & A)|(m & E & A & B & C & D)].
    + right. exists 0%nat. split; [rewrite E; lia|]. split; [cbn; lia|]. split; [exact H|]. split; [intros [|n] Hn; cbn; [lra|apply A; cbn in Hn; lia]|intros n Hn; lia].
    + right. exists (S m). split; [rewrite E; lia|]. split; [cbn; lia|]. cbn [nth]. split; [lra|]. split; [intros [|n] Hn; cbn; [lra|apply C; cbn in Hn; lia]|intros [|n] Hn; cbn; [lra|apply D; lia]].
  - destruct (IH (S i) best v ltac:(lia)) as [(E & A)|(m & E & A & B & C & D)].
    + left. split; [exact E|]. intros [|m] Hm; cbn; [lra|apply A; cbn in Hm; lia].
    + right. exists (S m). split; [rewrite E; lia|]. split; [cbn; lia|]. cbn [nth]. split; [lra|]. split; [intros [|n] Hn; cbn; [lra|apply C; cbn in Hn; lia]|intros [|n] Hn; cbn; [lra|apply D; lia]].
Qed.
Lemma argmax_spec l i : argmax l = Some i -> (i < List.length l)%nat /\ (forall n, (n < List.length l)%nat -> nth n l 0 <= nth i l 0) /\ forall n, (n < i)%nat -> nth n l 0 < nth i l 0.
Proof.
  destruct l as [|x l]; cbn [argmax]; [discriminate|]. intros [= <-]. destruct (argmax_from_spec l 1 0 x ltac:(lia)) as [(E & A)|(m & E & A & B & C & D)]; rewrite E.
  - split; [cbn; lia|]. split; [intros [|n] Hn; cbn; [lra|apply A; cbn in Hn; lia]|intros n Hn; lia].
  - split; [cbn; lia|]. cbn [nth Nat.add]. split; [intros [|n] Hn; cbn; [lra|apply C; cbn in Hn; lia]|intros [|n] Hn; cbn; [lra|apply D; lia]].
Qed.
